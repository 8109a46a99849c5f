(** Histories: several [Specfile] objects and other programs working on the same files.  specfile.py 53-81 (opening), 103-112 ([with]: saving on leaving),
    127-135 ([path]), 180-186 ([reload], [save]), 222-236 ([lines] with [autosave]).
    Reading and writing a file is one step.  The directory of a file exists and it may be written.  What RPM says to the text when a
    file is opened is the argument [accepts]. *)
From Coq Require Import NArith Arith List Bool.
From Verif Require Import PyStr M_file.
Import ListNotations.

(** The state of a [Specfile]: specfile.py 74-76. *)
Record object := mk_object { o_path : nat; o_spec : spec; o_autosave : bool }.
(** Files by their paths, and the objects of the program. *)
Record world := mk_world { w_files : nat -> option (list N); w_objects : nat -> option object }.
Definition put {A} (f : nat -> A) (i : nat) (x : A) : nat -> A := fun j => if Nat.eqb j i then x else f j.
Definition put_file (p : nat) (b : option (list N)) (w : world) : world := mk_world (put (w_files w) p b) (w_objects w).
Definition put_object (i : nat) (o : object) (w : world) : world := mk_world (w_files w) (put (w_objects w) i (Some o)).

(** What may happen.  [Edit i f]: a view of object [i] is opened, its lines become [f] of them, and the view is left; no view is open outside of it.
    [Write] and [Remove] are done by other programs. *)
Inductive op :=
| Open (i p : nat) (autosave : bool)
| Edit (i : nat) (f : list str -> list str)
| Save (i : nat)
| Reload (i : nat)
| Set_path (i p : nat)
| Set_autosave (i : nat) (b : bool)
| Write (p : nat) (b : list N)
| Remove (p : nat).

Section History.
Context (accepts : spec -> bool).
(** specfile.py 122-125; a file that is not there is a [FileNotFoundError]. *)
Definition read (w : world) (p : nat) : result spec :=
  match w_files w p with Some b => read_lines b | None => Err OtherError end.
(** specfile.py 184-186 *)
Definition save_object (o : object) (w : world) : world * result unit :=
  let (b, r) := save (o_spec o) in (put_file (o_path o) (Some b) w, r).
Definition with_object {A} (i : nat) (w : world) (f : object -> world * result A) : world * result A :=
  match w_objects w i with Some o => f o | None => (w, Err OtherError) end.
Definition step (x : op) (w : world) : world * result unit :=
  match x with
  | Open i p a =>
      match read w p with
      | Err e => (w, Err e)
      | Ok s => if accepts s then (put_object i (mk_object p s a) w, Ok tt) else (w, Err RPMException)
      end
  | Edit i f =>
      with_object i w (fun o =>
        let o' := mk_object (o_path o) (mkSpec (f (sp_lines (o_spec o))) (sp_newline (o_spec o))) (o_autosave o) in
        let w' := put_object i o' w in
        if o_autosave o then save_object o' w' else (w', Ok tt))
  | Save i => with_object i w (fun o => save_object o w)
  | Reload i =>
      with_object i w (fun o =>
        match read w (o_path o) with
        | Err e => (w, Err e)
        | Ok s => (put_object i (mk_object (o_path o) s (o_autosave o)) w, Ok tt)
        end)
  | Set_path i p => with_object i w (fun o => (put_object i (mk_object p (o_spec o) (o_autosave o)) w, Ok tt))
  | Set_autosave i a => with_object i w (fun o => (put_object i (mk_object (o_path o) (o_spec o) a) w, Ok tt))
  | Write p b => (put_file p (Some b) w, Ok tt)
  | Remove p => (put_file p None w, Ok tt)
  end.
(** Exceptions are caught and the program goes on. *)
Definition run (l : list op) (w : world) : world := fold_left (fun w x => fst (step x w)) l w.
End History.

(** * [reload] inside of views of one object (specfile.py 180-182, 222-236; context_management.py 108-145) *)
(** The lists of lines are objects: [a_lines] is the one [self._lines] refers to, [a_view] the one a view that is open refers to, with the number of
    [with] blocks around ([lines()] inside of [lines()] gives the same list).  [a_saved] is what was written last. *)
Record state := mk_state { a_heap : list (list str); a_lines : nat; a_view : option (nat * nat); a_saved : option (list str) }.
Inductive action := Enter | Leave | Change (f : list str -> list str) | Load (lines : list str) | Store.
Definition lines_now (s : state) : list str := nth (a_lines s) (a_heap s) [].
Definition act (s : state) (x : action) : state :=
  match x with
  | Enter => mk_state (a_heap s) (a_lines s) (Some match a_view s with Some (v, n) => (v, S n) | None => (a_lines s, O) end) (a_saved s)
  | Leave => mk_state (a_heap s) (a_lines s) match a_view s with Some (v, S n) => Some (v, n) | _ => None end (a_saved s)
  | Change f => match a_view s with
                | Some (v, _) => mk_state (update_at v f (a_heap s)) (a_lines s) (a_view s) (a_saved s)
                | None => s
                end
  | Load lines => mk_state (a_heap s ++ [lines]) (length (a_heap s)) (a_view s) (a_saved s)
  | Store => mk_state (a_heap s) (a_lines s) (a_view s) (Some (lines_now s))
  end.
Definition acts (l : list action) (s : state) : state := fold_left act l s.
Definition start (lines : list str) : state := mk_state [lines] O None None.
