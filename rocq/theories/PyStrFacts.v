(** Facts about the Python string primitives. *)
From Coq Require Decimal DecimalN DecimalPos DecimalFacts.
From Coq Require Import NArith ZArith List Bool Lia Arith.
From Verif Require Import PyStr.
Import ListNotations.
Open Scope N_scope.

Lemma str_eqb_eq a : forall b, str_eqb a b = true <-> a = b.
Proof.
  induction a as [|x a IH]; intros [|y b]; cbn; try (split; congruence).
  rewrite andb_true_iff, N.eqb_eq, IH. split; [intros [-> ->]; auto | intros H; injection H; auto].
Qed.
Lemma str_eqb_refl a : str_eqb a a = true.
Proof. now apply str_eqb_eq. Qed.
Lemma str_eqb_neq a b : str_eqb a b = false <-> a <> b.
Proof. rewrite <- not_true_iff_false, str_eqb_eq. tauto. Qed.
Lemma str_eqb_spec a b : reflect (a = b) (str_eqb a b).
Proof. apply iff_reflect. symmetry. apply str_eqb_eq. Qed.
Lemma str_eq_dec (a b : str) : {a = b} + {a <> b}.
Proof. apply (list_eq_dec N.eq_dec). Qed.

Lemma str_in_iff s l : str_in s l = true <-> In s l.
Proof.
  unfold str_in. rewrite existsb_exists. split.
  - intros (x & H & E). apply str_eqb_eq in E. now subst.
  - intros H. exists s. split; auto. apply str_eqb_refl.
Qed.
Lemma char_in_iff c s : char_in c s = true <-> In c s.
Proof.
  unfold char_in. rewrite existsb_exists. split.
  - intros (x & H & E). apply N.eqb_eq in E. now subst.
  - intros H. exists c. split; auto. apply N.eqb_refl.
Qed.

Lemma startswith_iff s p : startswith s p = true <-> exists t, s = p ++ t.
Proof.
  unfold startswith. revert s. induction p as [|x p IH]; intros s; cbn.
  - split; [exists s; auto | auto].
  - destruct s as [|y s].
    + split; [discriminate | intros (t & H); discriminate].
    + destruct (N.eqb_spec x y) as [->|Nq].
      * rewrite IH. split; intros (t & H); exists t; congruence.
      * split; [discriminate|]. intros (t & H). injection H as -> _. congruence.
Qed.
Lemma endswith_iff s p : endswith s p = true <-> exists t, s = t ++ p.
Proof.
  unfold endswith. rewrite startswith_iff. split; intros (t & H).
  - exists (rev t). rewrite <- (rev_involutive s), H, rev_app_distr, rev_involutive. auto.
  - exists (rev t). rewrite H. apply rev_app_distr.
Qed.

Lemma isblank_app a b : isblank (a ++ b) = isblank a && isblank b.
Proof. apply forallb_app. Qed.
Lemma isblank_concat l : isblank (concat l) = forallb isblank l.
Proof. induction l as [|x l IH]; cbn; auto. now rewrite isblank_app, IH. Qed.

Lemma takedrop p s : takewhile p s ++ dropwhile p s = s.
Proof. induction s as [|c s IH]; cbn; auto. destruct (p c); cbn; congruence. Qed.

(** Decimal rendering. *)
Section Dec.
Context {U : Unicode}.
Fixpoint uint_val (acc : N) (u : Decimal.uint) : N :=
  match u with
  | Decimal.Nil => acc
  | Decimal.D0 u => uint_val (10 * acc) u
  | Decimal.D1 u => uint_val (10 * acc + 1) u
  | Decimal.D2 u => uint_val (10 * acc + 2) u
  | Decimal.D3 u => uint_val (10 * acc + 3) u
  | Decimal.D4 u => uint_val (10 * acc + 4) u
  | Decimal.D5 u => uint_val (10 * acc + 5) u
  | Decimal.D6 u => uint_val (10 * acc + 6) u
  | Decimal.D7 u => uint_val (10 * acc + 7) u
  | Decimal.D8 u => uint_val (10 * acc + 8) u
  | Decimal.D9 u => uint_val (10 * acc + 9) u
  end.

Lemma int_acc_digit acc c s d : ascii_digit c = true -> d = c - 48 ->
  int_acc acc (c :: s) = int_acc (10 * acc + d) s.
Proof. intros H ->. cbn [int_acc]. unfold digit_val. now rewrite H. Qed.

Lemma int_acc_uint u : forall acc, int_acc acc (uint_str u) = Some (uint_val acc u).
Proof.
  induction u; intros acc; cbn [uint_str uint_val]; [reflexivity|..];
    erewrite int_acc_digit by reflexivity; rewrite IHu; f_equal; f_equal; lia.
Qed.

Lemma of_uint_acc_pos u : forall p, Npos (Pos.of_uint_acc u p) = uint_val (Npos p) u.
Proof.
  induction u; intros p; cbn [Pos.of_uint_acc uint_val]; auto; rewrite IHu; f_equal; lia.
Qed.
Lemma of_uint_val u : N.of_uint u = uint_val 0 u.
Proof.
  unfold N.of_uint.
  induction u; cbn [uint_val Pos.of_uint]; try reflexivity;
    try (rewrite of_uint_acc_pos; reflexivity).
  exact IHu.
Qed.

Lemma to_uint_nonnil n : N.to_uint n <> Decimal.Nil.
Proof.
  destruct n; cbn; [discriminate|]. apply DecimalPos.Unsigned.to_uint_nonnil.
Qed.
Lemma dec_nonempty n : dec n <> [].
Proof.
  unfold dec. pose proof (to_uint_nonnil n) as H. destruct (N.to_uint n); cbn; congruence.
Qed.
Lemma int_of_dec n : int_of_str (dec n) = Some n.
Proof.
  unfold int_of_str. pose proof (dec_nonempty n) as H. destruct (dec n) eqn:E; [congruence|].
  rewrite <- E. unfold dec. rewrite int_acc_uint, <- of_uint_val, DecimalN.Unsigned.of_to. auto.
Qed.
Lemma uint_str_digits u : forallb ascii_digit (uint_str u) = true.
Proof. induction u; cbn; auto. Qed.
Lemma dec_digits n : forallb ascii_digit (dec n) = true.
Proof. apply uint_str_digits. Qed.
Lemma ascii_digit_is_digit c : ascii_digit c = true -> is_digit c = true.
Proof. intros H. unfold is_digit, digit_val. now rewrite H. Qed.
Lemma dec_is_digits n : forallb is_digit (dec n) = true.
Proof.
  apply forallb_forall. intros c H. apply ascii_digit_is_digit.
  pose proof (dec_digits n) as D. rewrite forallb_forall in D. auto.
Qed.
Lemma is_digit_not_space c : is_digit c = true -> is_space c = false.
Proof.
  unfold is_digit, digit_val, ascii_digit.
  destruct ((48 <=? c) && (c <=? 57)) eqn:E.
  - intros _. unfold is_space. apply andb_true_iff in E as [E1 E2].
    apply N.leb_le in E1; apply N.leb_le in E2.
    repeat (rewrite orb_false_iff || rewrite andb_false_iff || rewrite N.leb_gt || rewrite N.eqb_neq).
    repeat split; lia.
  - destruct (c <? 128); [discriminate|]. destruct (is_space c); auto; discriminate.
Qed.
End Dec.
Lemma dec_inj a b : dec a = dec b -> a = b.
Proof.
  intros H. pose (U := unicode_none). pose proof (int_of_dec a) as Ha. rewrite H in Ha.
  rewrite int_of_dec in Ha. congruence.
Qed.

(** Index helpers. *)
Lemma update_at_app {A} (f : A -> A) : forall (a : list A) x b,
  update_at (length a) f (a ++ x :: b) = a ++ f x :: b.
Proof. induction a as [|y a IH]; intros x b; cbn; auto. now rewrite IH. Qed.
Lemma remove_at_app {A} : forall (a : list A) x b,
  remove_at (length a) (a ++ x :: b) = a ++ b.
Proof. induction a as [|y a IH]; intros x b; cbn; auto. now rewrite IH. Qed.
Lemma py_index_nonneg {A} (l : list A) k : (k < length l)%nat ->
  py_index l (Z.of_nat k) = Some k.
Proof.
  intros H. unfold py_index.
  destruct ((0 <=? Z.of_nat k)%Z && (Z.of_nat k <? Z.of_nat (length l))%Z) eqn:E.
  - now rewrite Nat2Z.id.
  - apply andb_false_iff in E as [E|E]; [apply Z.leb_gt in E|apply Z.ltb_ge in E]; lia.
Qed.
Lemma nth_error_mid {A} (a : list A) x b : nth_error (a ++ x :: b) (length a) = Some x.
Proof. now rewrite nth_error_app2, Nat.sub_diag by lia. Qed.

(** [dec] digit by digit. *)
Fixpoint usnoc (u t : Decimal.uint) : Decimal.uint :=
  match u with
  | Decimal.Nil => t
  | Decimal.D0 u => Decimal.D0 (usnoc u t)
  | Decimal.D1 u => Decimal.D1 (usnoc u t)
  | Decimal.D2 u => Decimal.D2 (usnoc u t)
  | Decimal.D3 u => Decimal.D3 (usnoc u t)
  | Decimal.D4 u => Decimal.D4 (usnoc u t)
  | Decimal.D5 u => Decimal.D5 (usnoc u t)
  | Decimal.D6 u => Decimal.D6 (usnoc u t)
  | Decimal.D7 u => Decimal.D7 (usnoc u t)
  | Decimal.D8 u => Decimal.D8 (usnoc u t)
  | Decimal.D9 u => Decimal.D9 (usnoc u t)
  end.
Lemma uint_str_snoc u t : uint_str (usnoc u t) = uint_str u ++ uint_str t.
Proof. induction u; cbn; congruence. Qed.
Lemma uint_val_snoc u t : forall acc, uint_val acc (usnoc u t) = uint_val (uint_val acc u) t.
Proof. induction u; intros acc; cbn [usnoc uint_val]; auto. Qed.
Definition starts_nonzero (u : Decimal.uint) : Prop :=
  match u with Decimal.Nil => False | Decimal.D0 _ => False | _ => True end.
Lemma to_uint_starts n : 0 < n -> starts_nonzero (N.to_uint n).
Proof.
  intros Hn. pose proof (DecimalN.Unsigned.to_of (N.to_uint n)) as E.
  rewrite DecimalN.Unsigned.of_to in E.
  pose proof (to_uint_nonnil n) as Nn.
  destruct (N.to_uint n) as [|u| | | | | | | | |] eqn:F; try exact I; [congruence|].
  exfalso. rewrite DecimalFacts.unorm_D0 in E. destruct u as [|u|u|u|u|u|u|u|u|u|u].
  1: { apply (f_equal N.of_uint) in F. rewrite DecimalN.Unsigned.of_to in F. cbn in F. lia. }
  all: match type of E with _ = Decimal.unorm ?w =>
    pose proof (DecimalFacts.nb_digits_unorm w) as Q; rewrite <- E in Q; cbn in Q;
    specialize (Q ltac:(discriminate)); lia end.
Qed.
Lemma unorm_starts u : starts_nonzero u -> Decimal.unorm u = u.
Proof. destruct u; cbn; intros []; reflexivity. Qed.
Lemma starts_snoc u t : starts_nonzero u -> starts_nonzero (usnoc u t).
Proof. destruct u; cbn; auto; intros []. Qed.
Lemma dec_small n : n < 10 -> dec n = [48 + n].
Proof.
  intros H. assert (E : exists k, (k < 10)%nat /\ n = N.of_nat k) by (exists (N.to_nat n); lia).
  destruct E as (k & Hk & ->). do 10 (destruct k as [|k]; [reflexivity|]). lia.
Qed.
Lemma dec_step n : 10 <= n -> dec n = dec (n / 10) ++ [48 + n mod 10].
Proof.
  intros H. set (q := n / 10). set (r := n mod 10).
  assert (Hq : 0 < q). { unfold q. apply N.div_str_pos. lia. }
  assert (Hr : r < 10) by (apply N.mod_lt; lia).
  assert (E : N.to_uint n = usnoc (N.to_uint q) (N.to_uint r)).
  { rewrite <- (unorm_starts (usnoc (N.to_uint q) (N.to_uint r))) by now apply starts_snoc, to_uint_starts.
    rewrite <- DecimalN.Unsigned.to_of. f_equal. rewrite of_uint_val, uint_val_snoc, <- of_uint_val, DecimalN.Unsigned.of_to.
    assert (V : forall a, uint_val a (N.to_uint r) = 10 * a + r).
    { intros a. assert (Ek : exists k, (k < 10)%nat /\ r = N.of_nat k) by (exists (N.to_nat r); lia).
      destruct Ek as (k & Hk & ->). do 10 (destruct k as [|k]; [cbn [N.of_nat N.to_uint uint_val]; cbn; lia|]). lia. }
    rewrite V. unfold q, r. apply N.div_mod. lia. }
  unfold dec. rewrite E, uint_str_snoc. f_equal. apply dec_small. auto.
Qed.
Lemma dec_length_lower k : forall n, 10 ^ N.of_nat k <= n -> (k < length (dec n))%nat.
Proof.
  induction k as [|k IH]; intros n H.
  - pose proof (dec_nonempty n). destruct (dec n); [congruence|cbn; lia].
  - rewrite Nnat.Nat2N.inj_succ, N.pow_succ_r' in H.
    assert (P : 1 <= 10 ^ N.of_nat k) by (pose proof (N.pow_nonzero 10 (N.of_nat k)); lia).
    rewrite dec_step by lia. rewrite app_length. cbn.
    assert (L : 10 ^ N.of_nat k <= n / 10) by (apply N.div_le_lower_bound; lia).
    specialize (IH _ L). lia.
Qed.
Lemma dec_length_upper k : forall n, n < 10 ^ N.of_nat (S k) -> (length (dec n) <= S k)%nat.
Proof.
  induction k as [|k IH]; intros n H.
  - rewrite dec_small by (cbn in H; lia). cbn; lia.
  - destruct (N.lt_ge_cases n 10) as [L|L]; [rewrite dec_small by lia; cbn; lia|].
    rewrite dec_step by lia. rewrite app_length. cbn.
    assert (Q : n / 10 < 10 ^ N.of_nat (S k)).
    { apply N.div_lt_upper_bound; [lia|]. rewrite Nnat.Nat2N.inj_succ, N.pow_succ_r' in H. lia. }
    specialize (IH _ Q). lia.
Qed.

Lemma skipn_skipn {A} n m (l : list A) : skipn n (skipn m l) = skipn (n + m) l.
Proof.
  revert l. induction m as [|m IH]; intros l; [now rewrite Nat.add_0_r|].
  destruct l as [|x l]; [now rewrite !skipn_nil|].
  rewrite Nat.add_succ_r. cbn [skipn]. apply IH.
Qed.
