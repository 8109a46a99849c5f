(** Proofs about spec files without a release, or with one that cannot be read. *)
From Coq Require Import Ascii String.
From Coq Require Import NArith ZArith List Bool.
From Verif Require Import PyStr PyStrFacts Regex M_value M_tags M_release M_specfile Spec_specfile P_specfile P_specfile2.
Import ListNotations.
Open Scope N_scope.

Section Uni.
Context {U : Unicode} {W : Type} (expand : list str -> bool -> W -> str -> result str * W).
Theorem release_missing lines w l w' ts : read_tags expand lines w = (l, w', Ok ts) -> (forall t, In t (ts_data ts) -> lower (t_name t) <> lit "release") ->
  get_release expand lines w = (l, w', Err TypeError) /\ (forall v, set_release expand v lines w = (l, w', Err TypeError)) /\ bump_release expand lines w = (l, w', Err TypeError).
Proof.
  intros R D. assert (D' : forall t, In t (ts_data ts) -> lower (t_name t) <> lower (lit "release")) by exact D.
  unfold get_release, set_release, bump_release, andthen. rewrite (proj1 (get_tag_absent expand _ _ _ _ _ _ R D')). auto.
Qed.
Theorem release_unreadable lines w l w' ts k t e : read_tags expand lines w = (l, w', Ok ts) -> designates ts (lit "release") k t -> lower (t_name t) = lit "release" ->
  parse (t_value t) = Err e -> bump_release expand lines w = (l, w', Err e).
Proof.
  intros R D L P. assert (L' : lower (t_name t) = lower (lit "release")) by (rewrite L; reflexivity).
  unfold bump_release, andthen. rewrite (get_tag_value _ _ _ _ _ _ _ _ _ R D L'). unfold has_autorelease. rewrite P. reflexivity.
Qed.
End Uni.
