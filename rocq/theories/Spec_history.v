(** Specification of histories of objects and files. *)
From Coq Require Import NArith Arith List Bool.
From Verif Require Import PyStr M_file Spec_file M_history.
Import ListNotations.

(** The bytes that saving a text leaves in the file: none if the text cannot be encoded (C93). *)
Definition stored_as (text : str) (b : list N) : Prop := encode text = Some b \/ (encode text = None /\ b = []).
(** In the state [w], the operation writes [b] to the file [p]. *)
Inductive writes (w : world) : op -> nat -> option (list N) -> Prop :=
| W_save i o b : w_objects w i = Some o -> stored_as (spec_str (o_spec o)) b -> writes w (Save i) (o_path o) (Some b)
| W_edit i f o b : w_objects w i = Some o -> o_autosave o = true -> stored_as (spec_str (mkSpec (f (sp_lines (o_spec o))) (sp_newline (o_spec o)))) b ->
    writes w (Edit i f) (o_path o) (Some b)
| W_write p b : writes w (Write p b) p (Some b)
| W_remove p : writes w (Remove p) p None.
(** None of the operations, done in order, writes the file [p]. *)
Definition never_written (accepts : spec -> bool) (w : world) (l : list op) (p : nat) : Prop :=
  forall l1 x l2 b, l = l1 ++ x :: l2 -> ~ writes (run accepts l1 w) x p b.
(** The object an operation belongs to. *)
Definition subject (x : op) : option nat :=
  match x with Open i _ _ | Edit i _ | Save i | Reload i | Set_path i _ | Set_autosave i _ => Some i | Write _ _ | Remove _ => None end.
(** Operations that read the file into object [i] *)
Definition reads (i : nat) (x : op) : Prop := match x with Open j _ _ => j = i | Reload j => j = i | _ => False end.
(** The edits of object [i] in order *)
Fixpoint edits (i : nat) (l : list op) : list (list str -> list str) :=
  match l with
  | [] => []
  | Edit j f :: l' => if Nat.eqb j i then f :: edits i l' else edits i l'
  | _ :: l' => edits i l'
  end.
Definition apply_all (fs : list (list str -> list str)) (l : list str) : list str := fold_left (fun l f => f l) fs l.
(** A text that is read back as it was written: lines without line breaks, valid characters, and, if there is no line feed at the end, a last line that is not empty. *)
Definition settled (s : spec) : Prop :=
  Forall (Forall (fun c => is_linebreak c = false)) (sp_lines s) /\ Forall scalar (spec_str s) /\ sp_lines s <> [] /\ (sp_newline s = false -> last (sp_lines s) [] <> []).
(** One object after the other: each reloads, edits and saves. *)
Definition turns (l : list (nat * (list str -> list str))) : list op := flat_map (fun x => [Reload (fst x); Edit (fst x) (snd x); Save (fst x)]) l.
(** The lines after each turn are settled. *)
Fixpoint settled_turns (n : bool) (lines : list str) (fs : list (list str -> list str)) : Prop :=
  settled (mkSpec lines n) /\ match fs with [] => True | f :: fs' => settled_turns n (f lines) fs' end.

(** [Load] never happens while a view is open; [n] is the number of views open at the beginning. *)
Fixpoint loads_outside (n : nat) (l : list action) : Prop :=
  match l with
  | [] => True
  | Enter :: l' => loads_outside (S n) l'
  | Leave :: l' => loads_outside (pred n) l'
  | Load _ :: l' => n = 0%nat /\ loads_outside n l'
  | _ :: l' => loads_outside n l'
  end.
(** What the lines should be: the lines loaded last with all changes since, made inside of views. *)
Fixpoint expected (n : nat) (lines : list str) (l : list action) : list str :=
  match l with
  | [] => lines
  | Enter :: l' => expected (S n) lines l'
  | Leave :: l' => expected (pred n) lines l'
  | Change f :: l' => expected n (match n with O => lines | S _ => f lines end) l'
  | Load lines' :: l' => expected n lines' l'
  | Store :: l' => expected n lines l'
  end.
(** A view stays open and nothing is loaded; [n] more views are open inside of it. *)
Fixpoint stays_open (n : nat) (l : list action) : Prop :=
  match l with
  | [] => True
  | Enter :: l' => stays_open (S n) l'
  | Leave :: l' => match n with O => False | S n' => stays_open n' l' end
  | Load _ :: l' => False
  | _ :: l' => stays_open n l'
  end.
(** The path and autosave of object [i] as they were set last. *)
Fixpoint path_set (i : nat) (l : list op) (p : nat) : nat :=
  match l with [] => p | Set_path j q :: l' => path_set i l' (if Nat.eqb j i then q else p) | _ :: l' => path_set i l' p end.
Fixpoint autosave_set (i : nat) (l : list op) (a : bool) : bool :=
  match l with [] => a | Set_autosave j b :: l' => autosave_set i l' (if Nat.eqb j i then b else a) | _ :: l' => autosave_set i l' a end.
