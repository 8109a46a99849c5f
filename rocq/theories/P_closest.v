(** Proofs about the macros and tags that an update may change: their order, and the one it takes. *)
From Coq Require Import Ascii String.
From Coq Require Import NArith ZArith List Bool Lia Arith Sorted Permutation.
From Verif Require Import PyStr Regex M_value M_update M_specfile P_specfile3.
Import ListNotations.
Open Scope nat_scope.

Definition before (a b : entity) : Prop := e_position a <= e_position b.
Lemma insert_permutation e l : Permutation (e :: l) (insert_entity e l).
Proof.
  induction l as [|x l IH]; cbn [insert_entity]; [reflexivity|]. destruct (Nat.leb (e_position e) (e_position x)); [reflexivity|].
  rewrite perm_swap. now constructor.
Qed.
Theorem sort_permutation l : Permutation l (sort_entities l).
Proof.
  induction l as [|x l IH]; [reflexivity|]. change (sort_entities (x :: l)) with (insert_entity x (sort_entities l)).
  rewrite <- insert_permutation. now constructor.
Qed.
Lemma insert_sorted e l : StronglySorted before l -> StronglySorted before (insert_entity e l).
Proof.
  induction 1 as [|x l S IH F]; cbn [insert_entity]; [repeat constructor|]. destruct (Nat.leb (e_position e) (e_position x)) eqn:L.
  - apply Nat.leb_le in L. constructor; [now constructor|]. constructor; [exact L|].
    rewrite Forall_forall in *. intros y Hy. specialize (F y Hy). unfold before in *. lia.
  - apply Nat.leb_gt in L. constructor; [exact IH|]. rewrite Forall_forall in *. intros y Hy.
    apply (Permutation_in _ (Permutation_sym (insert_permutation e l))) in Hy. destruct Hy as [<-|Hy]; [unfold before; lia|now apply F].
Qed.
Theorem sort_sorted l : StronglySorted before (sort_entities l).
Proof. induction l as [|x l IH]; [constructor|]. change (sort_entities (x :: l)) with (insert_entity x (sort_entities l)). now apply insert_sorted. Qed.
Lemma find_last_None p (l : list entity) : find_last p l = None -> forall e, In e l -> p e = false.
Proof.
  induction l as [|x l IH]; cbn [find_last]; intros E e H; [destruct H|]. destruct (find_last p l); [discriminate|]. destruct (p x) eqn:P; [discriminate|].
  destruct H as [<-|H]; auto.
Qed.
Theorem find_last_closest p l : StronglySorted before l -> forall k, find_last p l = Some k ->
  exists e, nth_error l k = Some e /\ p e = true /\ forall e', In e' l -> p e' = true -> e_position e' <= e_position e.
Proof.
  induction 1 as [|x l S IH F]; cbn [find_last]; intros k E; [discriminate|]. destruct (find_last p l) as [j|] eqn:L.
  - injection E as <-. destruct (IH j eq_refl) as (e & N & P & M). exists e. split; [exact N|]. split; [exact P|]. intros e' [<-|H] P'; [|now apply M].
    rewrite Forall_forall in F. apply (F e). now apply nth_error_In in N.
  - destruct (p x) eqn:P; [|discriminate]. injection E as <-. exists x. split; [reflexivity|]. split; [exact P|]. intros e' [<-|H] P'; [lia|].
    rewrite (find_last_None _ _ L _ H) in P'. discriminate.
Qed.
Lemma sorted_positions l : StronglySorted before l -> forall i j a b, nth_error l i = Some a -> nth_error l j = Some b -> i <= j -> e_position a <= e_position b.
Proof.
  induction 1 as [|x l S IH F]; intros i j a b A B L; [destruct i; discriminate|]. destruct i as [|i], j as [|j]; cbn [nth_error] in *.
  - injection A as <-. injection B as <-. lia.
  - injection A as <-. rewrite Forall_forall in F. apply (F b). now apply nth_error_In in B.
  - lia.
  - apply (IH i j); auto. lia.
Qed.
