(** Proofs about slices: deleting. *)
From Coq Require Import NArith ZArith List Bool Lia Sorted.
From Verif Require Import PyStr PyStrFacts M_slice Spec_slice P_slice.
Import ListNotations.
Open Scope nat_scope.

Lemma remove_at_split {A} : forall (l : list A) i, i < length l -> exists a x b, l = a ++ x :: b /\ length a = i /\ remove_at i l = a ++ b.
Proof.
  intros l i H. destruct (nth_error l i) as [x|] eqn:E; [|apply nth_error_None in E; lia]. apply nth_error_split in E. destruct E as [a [b [-> <-]]].
  exists a, x, b. split; [reflexivity|]. split; [reflexivity|]. apply remove_at_app.
Qed.
Lemma keeping_shift {A} : forall f (l : list A) i, keeping f (S i) l = keeping (fun p => f (S p)) i l.
Proof. intros f. induction l as [|x l IH]; intros i; cbn; [reflexivity|]. rewrite IH. reflexivity. Qed.
Lemma shifted_map : forall is k, shifted (S k) is = map S (shifted k is).
Proof. induction is as [|i is IH]; intros k; cbn; [reflexivity|]. rewrite IH. f_equal. lia. Qed.
Lemma shifted_ge : forall is k i, Forall (fun j => i < j) is -> Forall (fun j => i < j) (shifted k is).
Proof. induction is as [|j is IH]; intros k i F; cbn; [constructor|]. inversion F; subst. constructor; [lia|]. apply IH. assumption. Qed.
Lemma not_in_false : forall p is, ~ In p is -> existsb (Nat.eqb p) is = false.
Proof. intros p is H. destruct (existsb _ is) eqn:E; [|reflexivity]. apply existsb_exists in E. destruct E as [j [Hj E]]. apply Nat.eqb_eq in E. subst. contradiction. Qed.
Section Loop.
  Variables (C B : Type) (del : C -> nat -> result C) (view : C -> list B).
  Hypothesis Hin : forall c i, i < length (view c) -> exists c', del c i = Ok c' /\ view c' = remove_at i (view c).
  Hypothesis Hout : forall c i, length (view c) <= i -> del c i = Err IndexError.
  Fixpoint loop (c : C) (is : list nat) : result C := match is with [] => Ok c | i :: is' => let! c' := del c i in loop c' is' end.
  Lemma loop_desc : forall is c, StronglySorted gt is -> Forall (fun i => i < length (view c)) is ->
    exists c', loop c is = Ok c' /\ view c' = keeping (fun p => negb (existsb (Nat.eqb p) is)) 0 (view c).
  Proof.
    induction is as [|i is IH]; intros c St F; cbn [loop].
    - exists c. split; [reflexivity|]. rewrite keeping_all; reflexivity.
    - inversion St as [|? ? S1 S2]; subst. inversion F as [|? ? Fi F2]; subst. destruct (Hin c i Fi) as [c1 [E1 V1]]. rewrite E1. cbn [bind].
      destruct (remove_at_split (view c) i Fi) as [a [x [b [Ev [La R]]]]]. rewrite R in V1.
      assert (F3 : Forall (fun j => j < length a) is) by (eapply Forall_impl; [|exact S2]; cbn; lia).
      destruct (IH c1 S1) as [c2 [E2 V2]]; [eapply Forall_impl; [|exact F3]; cbn; intros j Hj; rewrite V1, app_length; lia|].
      exists c2. split; [exact E2|]. rewrite V2, V1, Ev, !keeping_app. cbn [keeping Nat.add existsb]. rewrite La, Nat.eqb_refl. cbn [orb negb app]. f_equal.
      + apply keeping_ext. intros p Hp. rewrite (proj2 (Nat.eqb_neq p i)) by lia. reflexivity.
      + rewrite !keeping_all; [reflexivity| |].
        * intros p Hp. rewrite (proj2 (Nat.eqb_neq p i)) by lia. rewrite not_in_false; [reflexivity|]. intros X. rewrite Forall_forall in F3. specialize (F3 p X). lia.
        * intros p Hp. rewrite not_in_false; [reflexivity|]. intros X. rewrite Forall_forall in F3. specialize (F3 p X). lia.
  Qed.
  Lemma loop_asc : forall is c, StronglySorted lt is ->
    if forallb (fun p => p <? length (view c)) (shifted 0 is)
    then exists c', loop c is = Ok c' /\ view c' = keeping (fun p => negb (existsb (Nat.eqb p) (shifted 0 is))) 0 (view c)
    else loop c is = Err IndexError.
  Proof.
    induction is as [|i is IH]; intros c St; cbn [loop shifted forallb].
    - exists c. split; [reflexivity|]. rewrite keeping_all; reflexivity.
    - inversion St as [|? ? S1 S2]; subst. rewrite Nat.add_0_r. destruct (Nat.ltb_spec i (length (view c))) as [Fi|Fi]; [|cbn [andb]; rewrite Hout by exact Fi; reflexivity].
      cbn [andb]. destruct (Hin c i Fi) as [c1 [E1 V1]]. rewrite E1. cbn [bind]. specialize (IH c1 S1).
      destruct (remove_at_split (view c) i Fi) as [a [x [b [Ev [La R]]]]]. rewrite R in V1. rewrite shifted_map.
      assert (L : forallb (fun p => p <? length (view c)) (map S (shifted 0 is)) = forallb (fun p => p <? length (view c1)) (shifted 0 is)).
      { rewrite V1, Ev, !app_length. cbn [length]. clear. induction (shifted 0 is) as [|j l IH]; cbn [map forallb]; [reflexivity|]. rewrite IH. f_equal.
        destruct (Nat.ltb_spec (S j) (length a + S (length b))), (Nat.ltb_spec j (length a + length b)); try reflexivity; lia. }
      rewrite L. destruct (forallb _ (shifted 0 is)); [|exact IH]. destruct IH as [c2 [E2 V2]]. exists c2. split; [exact E2|].
      pose proof (shifted_ge is 0 i S2) as G. rewrite V2, V1, Ev, !keeping_app. cbn [keeping Nat.add existsb]. rewrite La, Nat.eqb_refl. cbn [orb negb app]. f_equal.
      + rewrite !keeping_all; [reflexivity| |].
        * intros p Hp. rewrite (proj2 (Nat.eqb_neq p i)) by lia. rewrite not_in_false; [reflexivity|]. intros X. apply in_map_iff in X. destruct X as [q [<- X]].
          rewrite Forall_forall in G. specialize (G q X). lia.
        * intros p Hp. rewrite not_in_false; [reflexivity|]. intros X. rewrite Forall_forall in G. specialize (G p X). lia.
      + rewrite keeping_shift. apply keeping_ext. intros p Hp. rewrite (proj2 (Nat.eqb_neq (S p) i)) by lia. cbn [orb]. f_equal.
        clear. induction (shifted 0 is) as [|j l IH]; cbn [map existsb]; [reflexivity|]. rewrite IH. reflexivity.
  Qed.
End Loop.
Lemma sorted_unique : forall l1 l2, StronglySorted lt l1 -> StronglySorted lt l2 -> (forall p, In p l1 <-> In p l2) -> l1 = l2.
Proof.
  induction l1 as [|x l1 IH]; intros [|y l2] S1 S2 H.
  - reflexivity.
  - destruct (proj2 (H y) (or_introl eq_refl)).
  - destruct (proj1 (H x) (or_introl eq_refl)).
  - inversion S1 as [|? ? A1 A2]; subst. inversion S2 as [|? ? B1 B2]; subst. rewrite Forall_forall in A2, B2.
    assert (x = y).
    { destruct (proj1 (H x) (or_introl eq_refl)) as [->|X]; [reflexivity|]. destruct (proj2 (H y) (or_introl eq_refl)) as [->|Y]; [reflexivity|]. specialize (A2 y Y). specialize (B2 x X). lia. }
    subst y. f_equal. apply IH; auto. intros p. split; intros X.
    + destruct (proj1 (H p) (or_intror X)) as [->|]; [|assumption]. specialize (A2 p X). lia.
    + destruct (proj2 (H p) (or_intror X)) as [->|]; [|assumption]. specialize (B2 p X). lia.
Qed.
Lemma filter_sorted : forall f n k, StronglySorted lt (filter f (seq k n)).
Proof.
  intros f. induction n as [|m IH]; intros k; cbn; [constructor|]. destruct (f k); [|apply IH]. constructor; [apply IH|].
  apply Forall_forall. intros q Hq. apply filter_In in Hq. destruct Hq as [Hq _]. apply in_seq in Hq. lia.
Qed.
Lemma in_filter_picks : forall s n p, In p (filter (picks s n) (seq 0 n)) <-> picks s n p = true.
Proof. intros s n p. rewrite filter_In, in_seq. split; [tauto|]. intros Hp. split; [|exact Hp]. apply picks_lt in Hp. lia. Qed.
Theorem slice_positions : forall s n, step_of s <> 0%Z -> slice_range s n = Ok (positions s n).
Proof.
  intros s n H. unfold positions. destruct (Z.ltb_spec (step_of s) 0) as [L|L].
  - destruct (slice_range_neg s n L) as [is [E [St P]]]. rewrite E. f_equal. rewrite <- (rev_involutive is). f_equal.
    apply sorted_unique; [apply sorted_rev; exact St|apply filter_sorted|]. intros p. rewrite <- in_rev, P, in_filter_picks. reflexivity.
  - destruct (slice_range_pos s n ltac:(lia)) as [is [E [St P]]]. rewrite E. f_equal. apply sorted_unique; [exact St|apply filter_sorted|]. intros p. rewrite P, in_filter_picks. reflexivity.
Qed.
(** A slice with a negative step, as it is deleted: [rev is] ascends. *)
Section Slices.
  Variables (C B : Type) (del : C -> nat -> result C) (view : C -> list B).
  Hypothesis Hin : forall c i, i < length (view c) -> exists c', del c i = Ok c' /\ view c' = remove_at i (view c).
  Hypothesis Hout : forall c i, length (view c) <= i -> del c i = Err IndexError.
  Definition del_slice (s : slice) (c : C) : result C := let! is := slice_range s (length (view c)) in loop C del c (rev is).
  Lemma del_slice_pos : forall s c, (0 < step_of s)%Z -> exists c', del_slice s c = Ok c' /\ view c' = keeping (fun p => negb (picks s (length (view c)) p)) 0 (view c).
  Proof.
    intros s c H. unfold del_slice. destruct (slice_range_pos s (length (view c)) H) as [is [E [St P]]]. rewrite E. cbn [bind].
    destruct (loop_desc C B del view Hin (rev is) c (sorted_rev_lt is St)) as [c' [E' V]].
    { apply Forall_rev. apply Forall_forall. intros p Hp. apply P in Hp. apply picks_lt in Hp. exact Hp. }
    exists c'. split; [exact E'|]. rewrite V. apply keeping_ext. intros p _. f_equal. apply (existsb_picks s (length (view c))). intros q. rewrite <- in_rev. apply P.
  Qed.
  Lemma del_slice_neg : forall s c, (step_of s < 0)%Z -> let n := length (view c) in let gone := shifted 0 (filter (picks s n) (seq 0 n)) in
    if forallb (fun p => p <? n) gone then exists c', del_slice s c = Ok c' /\ view c' = keeping (fun p => negb (existsb (Nat.eqb p) gone)) 0 (view c) else del_slice s c = Err IndexError.
  Proof.
    intros s c H n gone. unfold del_slice. fold n. destruct (slice_range_neg s n H) as [is [E [St P]]]. rewrite E. cbn [bind].
    assert (X : filter (picks s n) (seq 0 n) = rev is).
    { apply sorted_unique; [apply filter_sorted|apply sorted_rev; exact St|]. intros p. rewrite <- in_rev, P, in_filter_picks. reflexivity. }
    subst gone. rewrite X. exact (loop_asc C B del view Hin Hout (rev is) c (sorted_rev is St)).
  Qed.
  Lemma del_slice_zero : forall s c, step_of s = 0%Z -> del_slice s c = Err ValueError.
  Proof. intros s c H. unfold del_slice. rewrite slice_range_zero by exact H. reflexivity. Qed.
End Slices.
(** With two positions or more, one that is not picked is deleted. *)
Lemma shifted_outside : forall s n, 2 <= length (filter (picks s n) (seq 0 n)) -> exists p, In p (shifted 0 (filter (picks s n) (seq 0 n))) /\ picks s n p = false.
Proof.
  intros s n H.
  assert (G : forall l k, Forall (fun p => picks s n p = true) l -> (forall p, picks s n p = true -> (exists q, In q l /\ p <= q) \/ k = 0 /\ l = []) -> l <> [] -> 1 <= length l -> (2 <= length l \/ 1 <= k) -> StronglySorted lt l ->
     exists p, In p (shifted k l) /\ picks s n p = false).
  { induction l as [|x l IH]; intros k F M Ne Ln L2 St; [congruence|]. inversion F as [|? ? Fx Fl]; subst. inversion St as [|? ? S1 S2]; subst.
    destruct l as [|y l].
    - destruct L2 as [L2|L2]; [cbn in L2; lia|]. exists (x + k). split; [left; reflexivity|]. destruct (picks s n (x + k)) eqn:E; [|reflexivity].
      destruct (M _ E) as [[q [[<-|[]] Hq]]|[Z _]]; lia.
    - destruct (IH (S k)) as [p [Hp E]]; auto; [|congruence|cbn; lia|right; lia|].
      + intros p Hp. destruct (M p Hp) as [[q [[<-|Hq] L]]|[_ Z]]; [|left; exists q; auto|discriminate]. left. exists y. split; [left; reflexivity|]. inversion S2; subst. lia.
      + exists p. split; [right; exact Hp|exact E]. }
  apply G.
  - apply Forall_forall. intros p Hp. apply filter_In in Hp. tauto.
  - intros p Hp. left. exists p. split; [|lia]. apply filter_In. split; [|exact Hp]. apply in_seq. apply picks_lt in Hp. lia.
  - intros E. rewrite E in H. cbn in H. lia.
  - lia.
  - left. exact H.
  - apply filter_sorted.
Qed.
(** What becomes of slices with negative steps *)
Section Reversed.
  Variables (C B : Type) (del : C -> nat -> result C) (view : C -> list B).
  Hypothesis Hin : forall c i, i < length (view c) -> exists c', del c i = Ok c' /\ view c' = remove_at i (view c).
  Hypothesis Hout : forall c i, length (view c) <= i -> del c i = Err IndexError.
  Lemma del_slice_single : forall s c, (step_of s < 0)%Z -> length (positions s (length (view c))) <= 1 ->
    exists c', del_slice C B del view s c = Ok c' /\ view c' = keeping (fun p => negb (picks s (length (view c)) p)) 0 (view c).
  Proof.
    intros s c H L. pose proof (del_slice_neg C B del view Hin Hout s c H) as X. cbn zeta in X. unfold positions in L. rewrite (proj2 (Z.ltb_lt _ _) H), rev_length in L.
    assert (E : shifted 0 (filter (picks s (length (view c))) (seq 0 (length (view c)))) = filter (picks s (length (view c))) (seq 0 (length (view c)))).
    { destruct (filter _ _) as [|x [|y l]]; cbn in *; [reflexivity|rewrite Nat.add_0_r; reflexivity|lia]. }
    rewrite E in X. assert (F : forallb (fun p => p <? length (view c)) (filter (picks s (length (view c))) (seq 0 (length (view c)))) = true).
    { apply forallb_forall. intros p Hp. apply in_filter_picks in Hp. apply Nat.ltb_lt. apply (picks_lt s). exact Hp. }
    rewrite F in X. destruct X as [c' [E' V]]. exists c'. split; [exact E'|]. rewrite V. apply keeping_ext. intros p _. f_equal. apply (existsb_picks s). intros q. apply in_filter_picks.
  Qed.
  Lemma del_slice_wrong : forall s c, (step_of s < 0)%Z -> let n := length (view c) in 2 <= length (positions s n) ->
    del_slice C B del view s c = Err IndexError \/
    exists c' gone p, del_slice C B del view s c = Ok c' /\ view c' = keeping (fun p => negb (gone p)) 0 (view c) /\ p < n /\ gone p = true /\ picks s n p = false.
  Proof.
    intros s c H n L. pose proof (del_slice_neg C B del view Hin Hout s c H) as X. cbn zeta in X. fold n in X. unfold positions in L. rewrite (proj2 (Z.ltb_lt _ _) H), rev_length in L.
    destruct (shifted_outside s n L) as [p [Hp Np]]. destruct (forallb _ _) eqn:F; [|left; exact X]. right. destruct X as [c' [E V]].
    exists c', (fun p => existsb (Nat.eqb p) (shifted 0 (filter (picks s n) (seq 0 n)))), p. split; [exact E|]. split; [exact V|]. rewrite forallb_forall in F. specialize (F p Hp). apply Nat.ltb_lt in F.
    split; [exact F|]. split; [|exact Np]. apply existsb_exists. exists p. split; [exact Hp|apply Nat.eqb_refl].
  Qed.
End Reversed.
