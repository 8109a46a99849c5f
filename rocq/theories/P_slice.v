(** Proofs about slices: the positions. *)
From Coq Require Import NArith ZArith List Bool Lia Sorted.
From Verif Require Import PyStr M_slice Spec_slice.
Import ListNotations.
Open Scope Z_scope.

Lemma steps_in : forall a b st p, 0 < st -> (exists k : nat, (Z.of_nat k < span a b st) /\ p = a + Z.of_nat k * st) <-> (a <= p < b /\ (p - a) mod st = 0).
Proof.
  intros a b st p Hs. unfold span. rewrite (proj2 (Z.ltb_lt 0 st) Hs). destruct (Z.ltb_spec a b) as [L|L].
  - split.
    + intros [k [Hk ->]]. assert (Z.of_nat k <= (b - a - 1) / st) by lia. pose proof (Z.mul_div_le (b - a - 1) st Hs).
      assert (st * Z.of_nat k <= st * ((b - a - 1) / st)) by (apply Z.mul_le_mono_nonneg_l; lia). split; [lia|].
      replace (a + Z.of_nat k * st - a) with (Z.of_nat k * st) by lia. apply Z.mod_mul. lia.
    + intros [Hp Hm]. exists (Z.to_nat ((p - a) / st)). assert (0 <= (p - a) / st) by (apply Z.div_pos; lia). rewrite Z2Nat.id by assumption. split.
      * assert ((p - a) / st <= (b - a - 1) / st) by (apply Z.div_le_mono; lia). lia.
      * pose proof (Z.div_mod (p - a) st). lia.
  - split; [intros [k [Hk _]]; lia|lia].
Qed.
Lemma steps_in_neg : forall a b st p, st < 0 -> (exists k : nat, (Z.of_nat k < span a b st) /\ p = a + Z.of_nat k * st) <-> (b < p <= a /\ (a - p) mod (- st) = 0).
Proof.
  intros a b st p Hs. unfold span. replace (0 <? st) with false by (symmetry; apply Z.ltb_ge; lia). destruct (Z.ltb_spec b a) as [L|L].
  - pose proof (steps_in (- a) (- b) (- st) (- p)) as X. unfold span in X. rewrite (proj2 (Z.ltb_lt 0 (- st))) in X by lia. rewrite (proj2 (Z.ltb_lt (- a) (- b))) in X by lia.
    replace (- b - - a - 1) with (a - b - 1) in X by lia. replace (- p - - a) with (a - p) in X by lia. specialize (X ltac:(lia)). split.
    + intros [k [Hk E]]. destruct X as [X _]. destruct X as [X1 X2]; [exists k; split; [exact Hk|lia]|]. split; [lia|exact X2].
    + intros [H1 H2]. destruct X as [_ X]. destruct X as [k [Hk E]]; [split; [lia|exact H2]|]. exists k. split; [exact Hk|lia].
  - split; [intros [k [Hk _]]; lia|lia].
Qed.
Lemma span_nonneg : forall a b st, st <> 0 -> 0 <= span a b st.
Proof.
  intros a b st H. unfold span. destruct (Z.ltb_spec 0 st).
  - destruct (Z.ltb_spec a b); [|lia]. pose proof (Z.div_pos (b - a - 1) st). lia.
  - destruct (Z.ltb_spec b a); [|lia]. pose proof (Z.div_pos (a - b - 1) (- st)). lia.
Qed.
Lemma in_positions : forall a b st (q : nat), st <> 0 -> (forall k : nat, Z.of_nat k < span a b st -> 0 <= a + Z.of_nat k * st) ->
  In q (map (fun k => Z.to_nat (a + Z.of_nat k * st)) (seq 0 (Z.to_nat (span a b st)))) <-> exists k : nat, Z.of_nat k < span a b st /\ Z.of_nat q = a + Z.of_nat k * st.
Proof.
  intros a b st q Hs Hn. rewrite in_map_iff. split.
  - intros [k [<- Hk]]. apply in_seq in Hk. pose proof (span_nonneg a b st Hs). exists k. split; [lia|]. rewrite Z2Nat.id; [reflexivity|]. apply Hn. lia.
  - intros [k [Hk E]]. exists k. split; [lia|]. apply in_seq. lia.
Qed.
(** The positions of a slice *)
Definition start_at (s : slice) (n : Z) : Z := match sl_start s with Some b => adjust n (step_of s) b | None => if step_of s <? 0 then n - 1 else 0 end.
Definition stop_at (s : slice) (n : Z) : Z := match sl_stop s with Some b => adjust n (step_of s) b | None => if step_of s <? 0 then -1 else n end.
Lemma slice_range_eq : forall s n, step_of s <> 0 -> slice_range s n =
  Ok (map (fun k => Z.to_nat (start_at s (Z.of_nat n) + Z.of_nat k * step_of s)) (seq 0 (Z.to_nat (span (start_at s (Z.of_nat n)) (stop_at s (Z.of_nat n)) (step_of s))))).
Proof. intros s n H. unfold slice_range. fold (step_of s). rewrite (proj2 (Z.eqb_neq _ _) H). reflexivity. Qed.
Lemma bounds_pos : forall s n, 0 < step_of s -> 0 <= n -> 0 <= start_at s n /\ stop_at s n <= n.
Proof.
  intros s n H Hn. unfold start_at, stop_at, adjust. replace (step_of s <? 0) with false by (symmetry; apply Z.ltb_ge; lia).
  split; [destruct (sl_start s) as [b|]; [|lia]|destruct (sl_stop s) as [b|]; [|lia]]; destruct (Z.ltb_spec b 0); repeat match goal with |- context [?x <? ?y] => destruct (Z.ltb_spec x y) | |- context [?x <=? ?y] => destruct (Z.leb_spec x y) end; lia.
Qed.
Lemma bounds_neg : forall s n, step_of s < 0 -> 0 <= n -> start_at s n <= n - 1 /\ -1 <= stop_at s n.
Proof.
  intros s n H Hn. unfold start_at, stop_at, adjust. replace (step_of s <? 0) with true by (symmetry; apply Z.ltb_lt; lia).
  split; [destruct (sl_start s) as [b|]; [|lia]|destruct (sl_stop s) as [b|]; [|lia]]; destruct (Z.ltb_spec b 0); repeat match goal with |- context [?x <? ?y] => destruct (Z.ltb_spec x y) | |- context [?x <=? ?y] => destruct (Z.leb_spec x y) end; lia.
Qed.
Lemma picks_pos : forall s n p, 0 < step_of s -> picks s n p = true <-> start_at s (Z.of_nat n) <= Z.of_nat p < stop_at s (Z.of_nat n) /\ (Z.of_nat p - start_at s (Z.of_nat n)) mod (step_of s) = 0.
Proof.
  intros s n p H. unfold picks. rewrite (proj2 (Z.ltb_lt 0 _) H). unfold start_at, stop_at, adjust, counted.
  replace (step_of s <? 0) with false by (symmetry; apply Z.ltb_ge; lia). generalize (step_of s) H. clear H. intros st Hs.
  rewrite !andb_true_iff, Z.ltb_lt. set (m := Z.of_nat n). set (q := Z.of_nat p). assert (0 <= m) by lia. assert (0 <= q) by lia. clearbody m q.
  destruct (sl_start s) as [b|], (sl_stop s) as [c|]; rewrite ?andb_true_iff, ?Z.ltb_lt, ?Z.leb_le, ?Z.eqb_eq, ?Z.sub_0_r;
    try (set (b1 := if b <? 0 then b + m else b) in *; clearbody b1); try (set (c1 := if c <? 0 then c + m else c) in *; clearbody c1);
    repeat match goal with |- context [?x <? ?y] => destruct (Z.ltb_spec x y) | |- context [?x <=? ?y] => destruct (Z.leb_spec x y) end;
    try (rewrite (Z.max_l 0 b1) by lia); try (rewrite (Z.max_r 0 b1) by lia); rewrite ?Z.sub_0_r; intuition lia.
Qed.
Lemma picks_neg : forall s n p, step_of s < 0 -> picks s n p = true <-> stop_at s (Z.of_nat n) < Z.of_nat p <= start_at s (Z.of_nat n) /\ (start_at s (Z.of_nat n) - Z.of_nat p) mod (- step_of s) = 0.
Proof.
  intros s n p H. unfold picks. replace (0 <? step_of s) with false by (symmetry; apply Z.ltb_ge; lia). unfold start_at, stop_at, adjust, counted.
  replace (step_of s <? 0) with true by (symmetry; apply Z.ltb_lt; lia). generalize (step_of s) H. clear H. intros st Hs.
  rewrite !andb_true_iff, Z.ltb_lt. set (m := Z.of_nat n). set (q := Z.of_nat p). assert (0 <= m) by lia. assert (0 <= q) by lia. clearbody m q.
  destruct (sl_start s) as [b|], (sl_stop s) as [c|]; rewrite ?andb_true_iff, ?Z.ltb_lt, ?Z.leb_le, ?Z.eqb_eq;
    try (set (b1 := if b <? 0 then b + m else b) in *; clearbody b1); try (set (c1 := if c <? 0 then c + m else c) in *; clearbody c1);
    repeat match goal with |- context [?x <? ?y] => destruct (Z.ltb_spec x y) | |- context [?x <=? ?y] => destruct (Z.leb_spec x y) end;
    try (rewrite (Z.min_l (m - 1) b1) by lia); try (rewrite (Z.min_r (m - 1) b1) by lia); intuition lia.
Qed.
Lemma picks_lt : forall s n p, picks s n p = true -> (p < n)%nat.
Proof. intros s n p H. unfold picks in H. apply andb_true_iff in H. destruct H as [H _]. apply Z.ltb_lt in H. lia. Qed.
Lemma sorted_map_seq : forall (R : nat -> nat -> Prop) (f : nat -> nat) m k, (forall i j, (k <= i < j)%nat -> (j < k + m)%nat -> R (f i) (f j)) -> StronglySorted R (map f (seq k m)).
Proof.
  intros R f. induction m as [|m IH]; intros k H; cbn; constructor.
  - apply IH. intros. apply H; lia.
  - apply Forall_forall. intros x Hx. apply in_map_iff in Hx. destruct Hx as [j [<- Hj]]. apply in_seq in Hj. apply H; lia.
Qed.
Theorem slice_range_pos : forall s n, 0 < step_of s -> exists is, slice_range s n = Ok is /\ StronglySorted lt is /\ forall p, In p is <-> picks s n p = true.
Proof.
  intros s n H. rewrite slice_range_eq by lia. eexists. split; [reflexivity|].
  destruct (bounds_pos s (Z.of_nat n) H ltac:(lia)) as [B1 B2]. split.
  - apply sorted_map_seq. intros i j Hi Hj. assert (Z.of_nat i * step_of s < Z.of_nat j * step_of s) by (apply Z.mul_lt_mono_pos_r; lia).
    assert (0 <= Z.of_nat i * step_of s) by (apply Z.mul_nonneg_nonneg; lia). lia.
  - intros p. rewrite in_positions; [|lia|intros k Hk; assert (0 <= Z.of_nat k * step_of s) by (apply Z.mul_nonneg_nonneg; lia); lia]. rewrite steps_in by exact H.
    rewrite picks_pos by exact H. reflexivity.
Qed.
Theorem slice_range_neg : forall s n, step_of s < 0 -> exists is, slice_range s n = Ok is /\ StronglySorted gt is /\ forall p, In p is <-> picks s n p = true.
Proof.
  intros s n H. rewrite slice_range_eq by lia. eexists. split; [reflexivity|].
  destruct (bounds_neg s (Z.of_nat n) H ltac:(lia)) as [B1 B2].
  assert (Pos : forall k : nat, Z.of_nat k < span (start_at s (Z.of_nat n)) (stop_at s (Z.of_nat n)) (step_of s) -> 0 <= start_at s (Z.of_nat n) + Z.of_nat k * step_of s).
  { intros k Hk. assert (X := proj1 (steps_in_neg (start_at s (Z.of_nat n)) (stop_at s (Z.of_nat n)) (step_of s) (start_at s (Z.of_nat n) + Z.of_nat k * step_of s) H)).
    destruct X as [X _]; [exists k; split; [exact Hk|reflexivity]|]. lia. }
  split.
  - apply sorted_map_seq. intros i j Hi Hj. assert (Z.of_nat j * step_of s < Z.of_nat i * step_of s) by (apply Z.mul_lt_mono_neg_r; lia).
    pose proof (Pos j ltac:(lia)). unfold gt. lia.
  - intros p. rewrite in_positions; [|lia|exact Pos]. rewrite steps_in_neg by exact H. rewrite picks_neg by exact H. reflexivity.
Qed.
Theorem slice_range_zero : forall s n, step_of s = 0 -> slice_range s n = Err ValueError.
Proof. intros s n H. unfold slice_range. fold (step_of s). rewrite H. reflexivity. Qed.

(** ** Reading *)
Lemma keeping_ext {A} : forall f g (l : list A) i, (forall p, (i <= p < i + length l)%nat -> f p = g p) -> keeping f i l = keeping g i l.
Proof.
  intros f g. induction l as [|x l IH]; intros i H; cbn; [reflexivity|]. rewrite (H i) by (cbn; lia). f_equal. apply IH. intros p Hp. apply H. cbn. lia.
Qed.
Lemma keeping_none {A} : forall f (l : list A) i, (forall p, (i <= p < i + length l)%nat -> f p = false) -> keeping f i l = [].
Proof.
  intros f. induction l as [|x l IH]; intros i H; cbn; [reflexivity|]. rewrite (H i) by (cbn; lia). cbn. apply IH. intros p Hp. apply H. cbn. lia.
Qed.
Lemma keeping_all {A} : forall f (l : list A) i, (forall p, (i <= p < i + length l)%nat -> f p = true) -> keeping f i l = l.
Proof.
  intros f. induction l as [|x l IH]; intros i H; cbn; [reflexivity|]. rewrite (H i) by (cbn; lia). cbn. f_equal. apply IH. intros p Hp. apply H. cbn. lia.
Qed.
Lemma keeping_app {A} : forall f (a b : list A) i, keeping f i (a ++ b) = keeping f i a ++ keeping f (i + length a) b.
Proof.
  intros f. induction a as [|x a IH]; intros b i; cbn; [rewrite Nat.add_0_r; reflexivity|]. rewrite IH, app_assoc. replace (S i + length a)%nat with (i + S (length a))%nat by lia. reflexivity.
Qed.
Definition picked {A} (l : list A) (is : list nat) : list A := flat_map (fun k => match nth_error l k with Some x => [x] | None => [] end) is.
Lemma picked_map {A B} : forall (f : A -> B) l is, picked (map f l) is = map f (picked l is).
Proof. intros f l is. induction is as [|i is IH]; cbn; [reflexivity|]. fold (picked (map f l) is). fold (picked l is). rewrite IH, nth_error_map. destruct (nth_error l i); reflexivity. Qed.
Lemma picked_sorted {A} : forall (l : list A) off is, StronglySorted lt is -> Forall (fun i => (off <= i < off + length l)%nat) is ->
  flat_map (fun k => match nth_error l (k - off) with Some x => [x] | None => [] end) is = keeping (fun p => existsb (Nat.eqb p) is) off l.
Proof.
  induction l as [|x l IH]; intros off is S F.
  - destruct is as [|i is]; [reflexivity|]. inversion F as [|? ? Hi]; subst. cbn in Hi. lia.
  - destruct is as [|i is]; [rewrite keeping_none by reflexivity; reflexivity|].
    inversion S as [|? ? S1 S2]; subst. inversion F as [|? ? Hi F2]; subst. cbn in Hi. destruct (Nat.eq_dec i off) as [->|Ne].
    + cbn [flat_map keeping existsb]. rewrite Nat.sub_diag, Nat.eqb_refl. cbn [nth_error app orb]. f_equal.
      assert (Fi : Forall (fun i => (Datatypes.S off <= i < Datatypes.S off + length l)%nat) is).
      { apply Forall_forall. intros j Hj. rewrite Forall_forall in S2, F2. specialize (S2 j Hj). specialize (F2 j Hj). cbn in F2. lia. }
      rewrite (keeping_ext _ (fun p => existsb (Nat.eqb p) is)), <- (IH (Datatypes.S off) is S1 Fi).
      * clear -Fi. induction Fi as [|j is Hj F IHF]; [reflexivity|]. cbn [flat_map]. rewrite IHF. f_equal. replace (j - off)%nat with (Datatypes.S (j - Datatypes.S off)) by lia. reflexivity.
      * intros p Hp. cbn. rewrite (proj2 (Nat.eqb_neq p off)) by lia. reflexivity.
    + assert (Fi : Forall (fun i => (Datatypes.S off <= i < Datatypes.S off + length l)%nat) (i :: is)).
      { constructor; [lia|]. apply Forall_forall. intros j Hj. rewrite Forall_forall in S2, F2. specialize (S2 j Hj). specialize (F2 j Hj). cbn in F2. lia. }
      cbn [keeping]. replace (existsb (Nat.eqb off) (i :: is)) with false.
      * cbn [app]. rewrite <- (IH (Datatypes.S off) (i :: is) S Fi). clear -Fi. induction Fi as [|j is' Hj F IHF]; [reflexivity|].
        cbn [flat_map]. rewrite IHF. f_equal. replace (j - off)%nat with (Datatypes.S (j - Datatypes.S off)) by lia. reflexivity.
      * symmetry. destruct (existsb _ _) eqn:Q; [|reflexivity]. apply existsb_exists in Q. destruct Q as [j [Hj Q]]. apply Nat.eqb_eq in Q. subst j. rewrite Forall_forall in Fi. specialize (Fi off Hj). lia.
Qed.
Lemma existsb_picks : forall s n is, (forall p, In p is <-> picks s n p = true) -> forall p, existsb (Nat.eqb p) is = picks s n p.
Proof.
  intros s n is H p. destruct (picks s n p) eqn:E.
  - apply existsb_exists. exists p. split; [apply H; exact E|apply Nat.eqb_refl].
  - destruct (existsb _ is) eqn:Q; [|reflexivity]. apply existsb_exists in Q. destruct Q as [j [Hj Q]]. apply Nat.eqb_eq in Q. subst j. apply H in Hj. congruence.
Qed.
Lemma sorted_rev : forall is, StronglySorted gt is -> StronglySorted lt (rev is).
Proof.
  induction is as [|i is IH]; intros S; cbn; [constructor|]. inversion S as [|? ? S1 S2]; subst. specialize (IH S1).
  assert (X : Forall (fun j => (j < i)%nat) (rev is)) by (apply Forall_rev; eapply Forall_impl; [|exact S2]; cbn; lia).
  revert IH X. generalize (rev is). induction l as [|j l IHl]; intros St X; cbn; [repeat constructor|].
  inversion St as [|? ? S3 S4]; subst. inversion X as [|? ? X1 X2]; subst. constructor; [apply IHl; assumption|]. apply Forall_app. split; [exact S4|]. constructor; [exact X1|constructor].
Qed.
Lemma sorted_rev_lt : forall is, StronglySorted lt is -> StronglySorted gt (rev is).
Proof.
  induction is as [|i is IH]; intros S; cbn; [constructor|]. inversion S as [|? ? S1 S2]; subst. specialize (IH S1).
  assert (X : Forall (fun j => (i < j)%nat) (rev is)) by (apply Forall_rev; exact S2).
  revert IH X. generalize (rev is). induction l as [|j l IHl]; intros St X; cbn; [repeat constructor|].
  inversion St as [|? ? S3 S4]; subst. inversion X as [|? ? X1 X2]; subst. constructor; [apply IHl; assumption|]. apply Forall_app. split; [exact S4|]. constructor; [unfold gt; exact X1|constructor].
Qed.
Lemma flat_map_rev_single {A B} : forall (f : A -> list B) l, (forall x, (length (f x) <= 1)%nat) -> flat_map f (rev l) = rev (flat_map f l).
Proof.
  intros f l H. induction l as [|x l IH]; cbn; [reflexivity|]. rewrite flat_map_app, IH, rev_app_distr. cbn. rewrite app_nil_r. f_equal.
  specialize (H x). destruct (f x) as [|y [|z r]]; cbn in *; try reflexivity; lia.
Qed.
Theorem get_slice_spec {A} : forall s (l : list A),
  (0 < step_of s -> get_slice s l = Ok (keeping (picks s (length l)) 0 l)) /\
  (step_of s < 0 -> get_slice s l = Ok (rev (keeping (picks s (length l)) 0 l))) /\
  (step_of s = 0 -> get_slice s l = Err ValueError).
Proof.
  intros s l.
  assert (K : forall is, StronglySorted lt is -> (forall p, In p is <-> picks s (length l) p = true) -> picked l is = keeping (picks s (length l)) 0 l).
  { intros is S H. rewrite (keeping_ext _ (fun p => existsb (Nat.eqb p) is)) by (intros; symmetry; apply existsb_picks; exact H).
    rewrite <- (picked_sorted l 0 is S).
    - unfold picked. apply flat_map_ext. intros k. rewrite Nat.sub_0_r. reflexivity.
    - apply Forall_forall. intros p Hp. apply H in Hp. apply picks_lt in Hp. cbn. lia. }
  unfold get_slice. repeat split; intros H.
  - destruct (slice_range_pos s (length l) H) as [is [E [S P]]]. rewrite E. cbn [bind]. fold (picked l is). rewrite (K is S P). reflexivity.
  - destruct (slice_range_neg s (length l) H) as [is [E [S P]]]. rewrite E. cbn [bind]. rewrite <- (K (rev is) (sorted_rev is S)) by (intros p; rewrite <- in_rev; apply P).
    unfold picked. rewrite flat_map_rev_single, rev_involutive; [reflexivity|]. intros k. destruct (nth_error l k); cbn; lia.
  - rewrite slice_range_zero by exact H. reflexivity.
Qed.
