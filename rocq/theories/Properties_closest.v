(** Property C253: an update goes to the closest definition.  Model: M_update.v, M_specfile.v. *)
From Coq Require Import Ascii String.
From Coq Require Import NArith ZArith List Bool Arith Lia Permutation.
From Verif Require Import PyStr PyStrFacts Regex M_value M_update M_macro_definitions M_tags M_specfile Spec_update Spec_specfile2 P_update2 Spec_specfile_demo P_specfile16 P_closest.
Import ListNotations.
Open Scope nat_scope.

(** What stands before a position and is called as a reference says: a macro has that very name, a tag has it in lower case. *)
Definition referred {U : Unicode} (pos : nat) (name : str) (e : entity) : Prop :=
  e_position e < pos /\ ((e_name e = name /\ e_tag e = false) \/ (e_name e = lower name /\ e_tag e = true)).
Lemma referred_iff {U : Unicode} pos name e : concerns pos name e = true <-> referred pos name e.
Proof.
  unfold concerns, referred. rewrite andb_true_iff, orb_true_iff, !andb_true_iff, Nat.ltb_lt, !str_eqb_eq, negb_true_iff. tauto.
Qed.
(** * C253 *)
(** What an update may change are the definitions of macros and the tags of the file, each of them once, in the order of their positions. *)
Theorem C253_collected : forall (U : Unicode) expand protected lines m ts es, collected expand protected lines m ts es ->
  (exists es1 es2, M_specfile.macro_entities expand protected lines m false (md_data m) tt = (tt, Ok es1) /\
    M_specfile.tag_entities protected ts (ts_data ts) = Ok es2 /\ Permutation (es1 ++ es2) es) /\
  forall i j a b, nth_error es i = Some a -> nth_error es j = Some b -> i <= j -> e_position a <= e_position b.
Proof.
  intros U expand protected lines m ts es (es1 & es2 & E1 & E2 & ->). split; [exists es1, es2; split; [exact E1|split; [exact E2|apply sort_permutation]]|].
  exact (sorted_positions _ (sort_sorted _)).
Qed.
Print Assumptions C253_collected.
(** The one that is taken for a reference is the closest one in front of it; if there is any, one is taken. *)
Theorem C253_closest : forall (U : Unicode) expand protected lines m ts es, collected expand protected lines m ts es ->
  forall pos name, 
  (forall k, find_last (concerns pos name) es = Some k ->
     exists e, nth_error es k = Some e /\ referred pos name e /\ forall e', In e' es -> referred pos name e' -> e_position e' <= e_position e) /\
  (find_last (concerns pos name) es = None -> forall e, In e es -> ~ referred pos name e).
Proof.
  intros U expand protected lines m ts es (es1 & es2 & E1 & E2 & ->) pos name. split.
  - intros k F. destruct (find_last_closest _ _ (sort_sorted _) _ F) as (e & N & P & M). exists e. split; [exact N|]. split; [now apply referred_iff|].
    intros e' H R. apply M; [exact H|]. now apply referred_iff.
  - intros F e H R. apply referred_iff in R. rewrite (find_last_None _ _ F _ H) in R. discriminate.
Qed.
Print Assumptions C253_closest.
(** The hypothesis holds of a file with two definitions and two tags; and the tag of a file may come before the second definition of the macro. *)
Example C253_witness :
  collected (U:=unicode_none) ex_expand M_specfile.protected_default up_file up_macros up_tags up_es /\
  find_last (concerns (U:=unicode_none) 3 (lit "min")) up_es = Some 1 /\
  let a := mk_entity (lit "ver") (lit "1") false 0 false false false false in
  let b := mk_entity (lit "ver") (lit "2") false 5 false false false false in
  let t := mk_entity (lit "name") (lit "x") true 3 false false false false in
  sort_entities ([a; b] ++ [t]) = [a; t; b] /\ find_last (concerns (U:=unicode_none) 7 (lit "ver")) [a; t; b] = Some 2 /\
  find_last (concerns (U:=unicode_none) 4 (lit "ver")) [a; t; b] = Some 0 /\ find_last (concerns (U:=unicode_none) 4 (lit "NAME")) [a; t; b] = Some 1.
Proof. split; [exact up_collected|]. split; [vm_compute; reflexivity|]. split; [vm_compute; reflexivity|]. split; [vm_compute; reflexivity|]. split; vm_compute; reflexivity. Qed.
