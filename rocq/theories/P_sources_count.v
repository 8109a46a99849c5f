(** Proofs about counting sources by location. *)
From Coq Require Import Ascii String.
From Coq Require Import NArith ZArith List Bool Lia.
From Verif Require Import PyStr PyStrFacts M_constants M_tags M_sourcelist M_sources Spec_sources P_sources5 P_sources7.
Import ListNotations.
Open Scope N_scope.

Definition counted (loc : str) (l : list str) : nat := length (filter (str_eqb loc) l).
Lemma counted_app loc a b : counted loc (a ++ b) = (counted loc a + counted loc b)%nat.
Proof. unfold counted. now rewrite filter_app, app_length. Qed.
Lemma counted_cons loc x l : counted loc (x :: l) = ((if str_eqb loc x then 1 else 0) + counted loc l)%nat.
Proof. unfold counted. cbn [filter]. destruct (str_eqb loc x); reflexivity. Qed.
Lemma counted_positions loc l : exists ks, NoDup ks /\ length ks = counted loc l /\ forall k, In k ks <-> nth_error l k = Some loc.
Proof.
  induction l as [|x l (ks & Nd & L & H)].
  - exists []. split; [constructor|]. split; [reflexivity|]. intros [|k]; cbn; split; [tauto|discriminate|tauto|discriminate].
  - rewrite counted_cons. assert (Ns : NoDup (map S ks)) by (apply FinFun.Injective_map_NoDup; [intros ? ? E; now injection E|exact Nd]).
    destruct (str_eqb loc x) eqn:E.
    + apply str_eqb_eq in E as <-. exists (0%nat :: map S ks). split.
      * constructor; [|exact Ns]. rewrite in_map_iff. intros (? & ? & _). discriminate.
      * split; [cbn [length]; rewrite map_length; lia|]. intros [|k]; cbn [In nth_error].
        -- tauto.
        -- rewrite <- H, in_map_iff. split; [intros [Q|(j & Q & I)]; [discriminate|injection Q as ->; exact I]|intros I; right; eauto].
    + exists (map S ks). split; [exact Ns|]. split; [rewrite map_length; exact L|]. intros [|k]; cbn [nth_error].
      * split; [rewrite in_map_iff; intros (? & ? & _); discriminate|]. intros Q. injection Q as ->.
        rewrite (proj2 (str_eqb_eq loc loc) eq_refl) in E. discriminate.
      * rewrite <- H, in_map_iff. split; [intros (j & Q & I); injection Q as ->; exact I|eauto].
Qed.
Lemma counted_filter loc x l : counted x (filter (fun y => negb (str_eqb y loc)) l) = if str_eqb x loc then 0%nat else counted x l.
Proof.
  induction l as [|y l IH]; cbn [filter]; [now destruct (str_eqb x loc)|].
  destruct (str_eqb y loc) eqn:E; cbn [negb].
  - rewrite IH, counted_cons. apply str_eqb_eq in E as ->. destruct (str_eqb x loc); reflexivity.
  - rewrite !counted_cons, IH. destruct (str_eqb x loc) eqn:Ex; [|reflexivity]. apply str_eqb_eq in Ex as ->.
    destruct (str_eqb loc y) eqn:Q; [|reflexivity]. apply str_eqb_eq in Q as ->. rewrite (proj2 (str_eqb_eq y y) eq_refl) in E. discriminate.
Qed.

Section Uni.
Context {U : Unicode}.
Theorem count_positions (s : sources) loc : exists ks, NoDup ks /\ count s loc = length ks /\ forall k, In k ks <-> nth_error (locations s) k = Some loc.
Proof. destruct (counted_positions loc (locations s)) as (ks & Nd & L & H). exists ks. split; [exact Nd|]. split; [now rewrite L|exact H]. Qed.
Theorem count_contains (s : sources) loc : contains s loc = true <-> (0 < count s loc)%nat.
Proof.
  unfold contains, count. rewrite str_in_iff. split.
  - intros I. apply in_split in I as (a & b & ->). change (0 < counted loc (a ++ loc :: b))%nat. rewrite counted_app, counted_cons, (proj2 (str_eqb_eq loc loc) eq_refl). lia.
  - destruct (filter _ _) as [|x f] eqn:E; cbn [length]; [lia|]. intros _. assert (I : In x (filter (str_eqb loc) (locations s))) by (rewrite E; now left).
    apply filter_In in I as [I Q]. apply str_eqb_eq in Q as ->. exact I.
Qed.
Theorem count_insert (s s' : sources) i loc : readable s -> insert s (Z.of_nat i) loc = Ok s' ->
  forall x, count s' x = (count s x + if str_eqb x loc then 1 else 0)%nat.
Proof.
  intros R E x. assert (D : s_dups s = true \/ ~ In loc (locations s)).
  { destruct (s_dups s) eqn:Ed; [now left|right]. intros I. rewrite (insert_duplicate s (Z.of_nat i) loc Ed I) in E. discriminate. }
  destruct (insert_semantics s i loc R D) as (s1 & E1 & _ & L & _). rewrite E in E1. injection E1 as <-.
  change (counted x (locations s') = (counted x (locations s) + if str_eqb x loc then 1 else 0)%nat). rewrite L. unfold inserted. rewrite counted_app, counted_cons.
  assert (Q : counted x (locations s) = (counted x (firstn (Nat.min i (length (locations s))) (locations s)) + counted x (skipn (Nat.min i (length (locations s))) (locations s)))%nat)
    by now rewrite <- counted_app, firstn_skipn.
  lia.
Qed.
Theorem count_remove (s s' : sources) loc : readable s -> remove s loc = Ok s' -> forall x, count s' x = if str_eqb x loc then 0%nat else count s x.
Proof.
  intros R E x. destruct (remove_semantics s loc R) as (s1 & E1 & L & _). rewrite E in E1. injection E1 as <-.
  change (counted x (locations s') = if str_eqb x loc then 0%nat else counted x (locations s)). rewrite L. apply counted_filter.
Qed.
End Uni.
