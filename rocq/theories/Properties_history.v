(** C212-C215: histories of several objects, files and other programs (M_history.v).  Specification: Spec_history.v. *)
From Coq Require Import Ascii String.
From Coq Require Import NArith Arith List Bool Lia.
From Verif Require Import PyStr M_file Spec_file M_history Spec_history P_history.
Import ListNotations.

(** * C212: a file holds what was written to it last *)
(** Whatever happens, in any order: a file that nothing writes stays, and else it holds what the last operation that writes it wrote.  Only saving, and leaving a
    view with autosave, writes, namely the text the object has at that time to the path it has at that time. *)
Theorem C212_last_write : forall (accepts : spec -> bool) (l : list op) (w : world) (p : nat),
  (never_written accepts w l p /\ w_files (run accepts l w) p = w_files w p) \/
  exists l1 x l2 b, l = l1 ++ x :: l2 /\ writes (run accepts l1 w) x p b /\ w_files (run accepts l w) p = b /\ never_written accepts (run accepts (l1 ++ [x]) w) l2 p.
Proof. exact last_write. Qed.
Print Assumptions C212_last_write.

(** * C213: an object keeps its text *)
(** An object is not changed by other objects and other programs. *)
Theorem C213_others : forall (accepts : spec -> bool) (l : list op) (w : world) (i : nat), Forall (fun x => subject x <> Some i) l ->
  w_objects (run accepts l w) i = w_objects w i.
Proof. exact others_alone. Qed.
Print Assumptions C213_others.
(** Its lines are the lines it had and its edits since, unless it is opened again or reloaded; whether the file ends in a line feed stays as it was. *)
Theorem C213_edits : forall (accepts : spec -> bool) (l : list op) (w : world) (i : nat) (o : object), w_objects w i = Some o -> Forall (fun x => ~ reads i x) l ->
  exists o', w_objects (run accepts l w) i = Some o' /\ o_spec o' = mkSpec (apply_all (edits i l) (sp_lines (o_spec o))) (sp_newline (o_spec o)).
Proof. exact own_edits. Qed.
Print Assumptions C213_edits.
(** Its path and autosave are those that were set last. *)
Theorem C213_settings : forall (accepts : spec -> bool) (l : list op) (w : world) (i : nat) (o : object), w_objects w i = Some o -> Forall (fun x => forall p a, x <> Open i p a) l ->
  exists o', w_objects (run accepts l w) i = Some o' /\ o_path o' = path_set i l (o_path o) /\ o_autosave o' = autosave_set i l (o_autosave o).
Proof. exact settings. Qed.
Print Assumptions C213_settings.
(** Reloading gives it the text of the file at its path; if there is no such file or it cannot be read, there is an exception and nothing changes. *)
Theorem C213_reload : forall (accepts : spec -> bool) (w : world) (i : nat) (o : object), w_objects w i = Some o ->
  (forall b s, w_files w (o_path o) = Some b -> read_lines b = Ok s ->
     snd (step accepts (Reload i) w) = Ok tt /\ w_objects (fst (step accepts (Reload i) w)) i = Some (mk_object (o_path o) s (o_autosave o))) /\
  (w_files w (o_path o) = None \/ (exists b e, w_files w (o_path o) = Some b /\ read_lines b = Err e) ->
     (exists e, snd (step accepts (Reload i) w) = Err e) /\ fst (step accepts (Reload i) w) = w).
Proof. exact reloading. Qed.
Print Assumptions C213_reload.
(** The same for opening. *)
Theorem C213_open : forall (accepts : spec -> bool) (w : world) (i p : nat) (a : bool),
  (forall b s, w_files w p = Some b -> read_lines b = Ok s -> accepts s = true ->
     snd (step accepts (Open i p a) w) = Ok tt /\ w_objects (fst (step accepts (Open i p a) w)) i = Some (mk_object p s a)) /\
  (w_files w p = None -> (exists e, snd (step accepts (Open i p a) w) = Err e) /\ fst (step accepts (Open i p a) w) = w).
Proof. exact opening. Qed.
Print Assumptions C213_open.

(** * C214: changes of several objects to one file *)
(** That no change is lost does not hold: for all files and edits, the object that saves last overwrites what the other has saved, without an exception. *)
Theorem C214_refuted : forall (accepts : spec -> bool) (w : world) (p : nat) b s (i j : nat) f g bg, i <> j -> w_files w p = Some b -> read_lines b = Ok s -> accepts s = true ->
  encode (spec_str (mkSpec (g (sp_lines s)) (sp_newline s))) = Some bg ->
  w_files (run accepts [Open i p false; Open j p false; Edit i f; Edit j g; Save i; Save j] w) p = Some bg.
Proof. exact lost_update. Qed.
Print Assumptions C214_refuted.
(** It holds for any number of objects and turns if each object reloads before it edits and saves before the next one reloads. *)
Theorem C214_turns : forall (accepts : spec -> bool) (l : list (nat * (list str -> list str))) (w : world) (p : nat) b s, w_files w p = Some b -> read_lines b = Ok s ->
  (forall i f, In (i, f) l -> exists o, w_objects w i = Some o /\ o_path o = p) -> settled_turns (sp_newline s) (sp_lines s) (map snd l) ->
  exists b', w_files (run accepts (turns l) w) p = Some b' /\ read_lines b' = Ok (mkSpec (apply_all (map snd l) (sp_lines s)) (sp_newline s)).
Proof. exact no_lost_updates. Qed.
Print Assumptions C214_turns.
Definition demo : world := mk_world (fun p => match p with 0%nat => Some (lit "Name: a" ++ [10%N]) | _ => None end) (fun _ => None).
Definition add (x : string) (l : list str) : list str := l ++ [lit x].
Definition demo2 : world := run (fun _ => true) [Open 0 0 false; Open 1 0 false] demo.
Example C214_example :
  w_files (run (fun _ => true) [Open 0 0 false; Open 1 0 false; Edit 0 (add "x"); Edit 1 (add "y"); Save 0; Save 1] demo) 0%nat = Some (lit "Name: a" ++ [10%N] ++ lit "y" ++ [10%N]) /\
  w_files (run (fun _ => true) (turns [(0, add "x"); (1, add "y"); (0, add "z")]%nat) demo2) 0%nat = Some (lit "Name: a" ++ [10%N] ++ lit "x" ++ [10%N] ++ lit "y" ++ [10%N] ++ lit "z" ++ [10%N]) /\
  (forall i f, In (i, f) [(0, add "x"); (1, add "y"); (0, add "z")]%nat -> exists o, w_objects demo2 i = Some o /\ o_path o = 0%nat) /\
  settled_turns true [lit "Name: a"] [add "x"; add "y"; add "z"].
Proof.
  split; [vm_compute; reflexivity|]. split; [vm_compute; reflexivity|]. split.
  - intros i f Hi. assert (C : i = 0%nat \/ i = 1%nat) by (cbn in Hi; intuition congruence). destruct C as [->| ->]; eexists; split; reflexivity.
  - cbn [settled_turns]. repeat split; try (cbn; discriminate); repeat (constructor; [try reflexivity; try (left; reflexivity); repeat constructor|]); try constructor.
Qed.
(** Autosave, another path, a change by another program, and a file that was removed. *)
Example C212_example :
  let w := run (fun _ => true) [Open 0 0 true; Edit 0 (add "x"); Set_path 0 1; Edit 0 (add "y"); Write 0 (lit "new"); Set_autosave 0 false; Edit 0 (add "z"); Remove 2; Reload 0]%nat demo in
  w_files w 0%nat = Some (lit "new") /\ w_files w 1%nat = Some (lit "Name: a" ++ [10%N] ++ lit "x" ++ [10%N] ++ lit "y" ++ [10%N]) /\
  option_map (fun o => sp_lines (o_spec o)) (w_objects w 0%nat) = Some [lit "Name: a"; lit "x"; lit "y"] /\
  snd (step (fun _ => true) (Reload 0) (run (fun _ => true) [Remove 1]%nat w)) = Err OtherError.
Proof. repeat split; vm_compute; reflexivity. Qed.

(** * C215: [reload] and views *)
(** If [reload] is not called while a view is open, the lines saved are those loaded last with all changes made since. *)
Theorem C215_outside : forall lines l, loads_outside 0 l -> a_saved (acts (l ++ [Store]) (start lines)) = Some (expected 0 lines l).
Proof. exact saved_changes. Qed.
Print Assumptions C215_outside.
(** Called inside of a view, everything that is changed until that view is left is lost, also through views opened afterwards. *)
Theorem C215_refuted : forall lines loaded l, stays_open 0 l -> a_saved (acts (Enter :: Load loaded :: l ++ [Store]) (start lines)) = Some loaded.
Proof. exact reload_loses. Qed.
Print Assumptions C215_refuted.
Example C215_example :
  loads_outside 0 [Load [lit "b"]; Enter; Change (add "x"); Enter; Change (add "y"); Leave; Leave; Store] /\
  a_saved (acts [Load [lit "b"]; Enter; Change (add "x"); Enter; Change (add "y"); Leave; Leave; Store] (start [lit "a"])) = Some [lit "b"; lit "x"; lit "y"] /\
  stays_open 0 [Change (add "x"); Enter; Change (add "y"); Leave; Store] /\
  a_saved (acts ([Enter; Load [lit "b"]] ++ [Change (add "x"); Enter; Change (add "y"); Leave; Store]) (start [lit "a"])) = Some [lit "b"].
Proof. repeat split; vm_compute; reflexivity. Qed.
