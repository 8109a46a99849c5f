(** Proofs about updating values: what the constructed patterns match. *)
From Coq Require Import Ascii String.
From Coq Require Import NArith ZArith List Bool Lia Arith.
From Verif Require Import PyStr PyStrFacts Regex RegexFacts M_value M_update Spec_update.
Import ListNotations.
Open Scope nat_scope.

Section Uni.
Context {U : Unicode}.
(** * Tokens *)
Inductive tsem (val : str -> str) : bool -> list token -> str -> str -> Prop :=
| tsem_nil a : tsem val a [] [] []
| tsem_const a v t l x y : tsem val false l x y -> tsem val a (TConst v t :: l) (t ++ x) (v ++ y)
| tsem_group a g t l x y : tsem val true l x y -> tsem val a (TGroup g t :: l) (t ++ x) (val g ++ y)
| tsem_var a s t l x y : (s <> [] -> s <> [LF] -> t <> []) -> (a = true -> forall c s', s = c :: s' -> is_word c = false -> exists t', t = c :: t') ->
    tsem val false l x y -> tsem val a (TVar s :: l) (t ++ x) (t ++ y).
Fixpoint apart (l : list token) : Prop :=
  match l with
  | TVar _ :: ((TVar _ :: _) as l') => False
  | _ :: l' => apart l'
  | [] => True
  end.
Lemma squash_var l a r : squash l = Some (TVar a :: r) -> exists b l', l = TVar b :: l'.
Proof.
  destruct l as [|t l]; cbn [squash]; [discriminate|]. destruct (squash l) as [r'|]; [|discriminate].
  destruct t as [x y|x|x y]; [|eauto|]; destruct r' as [|[]]; intros E; try discriminate.
Qed.
Lemma squash_sem val l : forall r, squash l = Some r -> apart l -> forall a x y, tsem val a r x y -> tsem val a l x y.
Proof.
  induction l as [|t l IH]; cbn [squash]; intros r E Ap a x y Ts; [injection E as <-; exact Ts|].
  destruct (squash l) as [r'|] eqn:Sq; [|discriminate].
  assert (Ap' : apart l) by (destruct t as [| |], l as [|[]]; cbn [apart] in Ap; tauto).
  specialize (IH r' eq_refl Ap').
  assert (Keep : r = t :: r' -> tsem val a (t :: l) x y).
  { intros ->. inversion Ts; subst; constructor; auto. }
  destruct t as [v u|v|g u]; destruct r' as [|[v' u'|v'|g' u'] r']; try (injection E as <-; exact (Keep eq_refl)).
  - injection E as <-. inversion Ts as [|? ? ? ? x0 y0 T0| |]; subst. rewrite <- !app_assoc. constructor. apply IH. constructor. exact T0.
  - exfalso. destruct (squash_var _ _ _ Sq) as (b & l' & ->). cbn [apart] in Ap. exact Ap.
  - discriminate.
Qed.
(** * The pattern for literals *)
Lemma var_parts b a v m : re_match (var_regex b a) v = Some m ->
  exists lf, v = group_str 1 m ++ group_str 2 m ++ group_str 3 m ++ lf /\ (lf = [] \/ lf = [LF]) /\
    (b = true -> exists w x, group_str 1 m = w ++ [x] /\ forallb is_word w = true /\ is_word x = false) /\
    (a = true -> exists w x, group_str 3 m = x :: w /\ forallb is_word w = true /\ is_word x = false).
Proof.
  intros E. apply re_match_sound in E. unfold var_regex in E. apply Match_Seq in E as (s0 & E0 & E). apply Match_Caret in E0 as [-> _].
  apply Match_Seq in E as (s1 & E1 & E). apply Match_Seq in E as (s2 & E2 & E). apply Match_Seq in E as (s3 & E3 & E4). apply Match_Dollar in E4 as [-> Hd].
  assert (X1 : exists w1, rest (mkst [] v []) = w1 ++ rest s1 /\ caps s1 = (if b then [(1, w1)] else []) /\ (b = false -> w1 = []) /\ (b = true -> exists w x, w1 = w ++ [x] /\ forallb is_word w = true /\ is_word x = false)).
  { destruct b.
    - apply Match_Grp_simple in E1 as (w1 & s' & E1 & Er & _ & C & ->); [|cbn; auto]. exists w1. cbn [rest caps]. split; [exact Er|]. split; [reflexivity|]. split; [discriminate|]. intros _.
      apply Match_Seq in E1 as (s'' & Ea & Eb). apply Match_Star in Ea as (w & Ea & Fa & _). apply Match_Ch in Eb as (x & Eb & Fx & _). exists w, x. split.
      + cbn [rest] in *. rewrite Ea, Eb in Er. change (x :: rest s') with ([x] ++ rest s') in Er. rewrite app_assoc in Er. apply app_inv_tail in Er. auto.
      + split; [exact Fa|]. unfold not_word in Fx. apply negb_true_iff. exact Fx.
    - apply Match_Eps in E1 as ->. exists []. cbn [rest caps app]. repeat split; auto; discriminate. }
  destruct X1 as (w1 & R1 & C1 & N1 & P1). apply Match_Grp_Star in E2 as (w2 & R2 & _ & _ & C2).
  assert (X3 : exists w3, rest s2 = w3 ++ rest s3 /\ caps s3 = (if a then [(3, w3)] else []) ++ caps s2 /\ (a = false -> w3 = []) /\ (a = true -> exists w x, w3 = x :: w /\ forallb is_word w = true /\ is_word x = false)).
  { destruct a.
    - apply Match_Grp_simple in E3 as (w3 & s' & E3 & Er & _ & C & ->); [|cbn; auto]. exists w3. cbn [rest caps app]. split; [exact Er|]. split; [reflexivity|]. split; [discriminate|]. intros _.
      apply Match_Seq in E3 as (s'' & Ea & Eb). apply Match_Ch in Ea as (x & Ea & Fx & _). apply Match_Star in Eb as (w & Eb & Fa & _). exists w, x. split.
      + rewrite Ea, Eb in Er. change (x :: w ++ rest s') with ((x :: w) ++ rest s') in Er. apply app_inv_tail in Er. auto.
      + split; [exact Fa|]. unfold not_word in Fx. apply negb_true_iff. exact Fx.
    - apply Match_Eps in E3 as ->. exists []. cbn [app]. repeat split; auto; discriminate. }
  destruct X3 as (w3 & R3 & C3 & N3 & P3). cbn [rest] in R1.
  assert (G1 : group_str 1 s3 = w1).
  { unfold group_str, group. rewrite C3, C2, C1. destruct a, b; cbn; try reflexivity; symmetry; apply N1; reflexivity. }
  assert (G2 : group_str 2 s3 = w2) by (unfold group_str, group; rewrite C3, C2, C1; destruct a, b; reflexivity).
  assert (G3 : group_str 3 s3 = w3).
  { unfold group_str, group. rewrite C3, C2, C1. destruct a, b; cbn; try reflexivity; symmetry; apply N3; reflexivity. }
  rewrite G1, G2, G3. exists (rest s3). split; [rewrite R1, R2, R3; reflexivity|]. split; [|auto].
  destruct (rest s3) as [|c [|d r]]; cbn [at_dollar] in Hd; [left; reflexivity| |discriminate]. right. apply N.eqb_eq in Hd. subst. reflexivity.
Qed.
(** What the text of a literal may become *)
Lemma var_ok (b a' : bool) v m t : re_match (var_regex b a') v = Some m -> (group_str 2 m = [] -> t = group_str 1 m ++ group_str 3 m) ->
  (group_str 2 m <> [] -> exists x, x <> [] /\ t = group_str 1 m ++ x ++ group_str 3 m) ->
  (v <> [] -> v <> [LF] -> t <> []) /\ (b = true -> forall c s', v = c :: s' -> is_word c = false -> exists t', t = c :: t').
Proof.
  intros E E0 E1. destruct (var_parts _ _ _ _ E) as (lf & Ev & Hlf & P1 & _). split.
  - intros Nv Nl. destruct (group_str 2 m) as [|c g2] eqn:G2.
    + rewrite (E0 eq_refl). intros X. apply app_eq_nil in X as [X1 X3]. rewrite X1, X3 in Ev. cbn in Ev. destruct Hlf as [->| ->]; contradiction.
    + destruct E1 as (x & Nx & ->); [discriminate|]. intros X. apply app_eq_nil in X as [_ X]. apply app_eq_nil in X as [X _]. contradiction.
  - intros Hb c s' -> Wc. destruct (P1 Hb) as (w & x & G1 & Fw & Wx). rewrite G1 in *. destruct w as [|d w].
    + cbn [app] in *. injection Ev as -> Ev. destruct (group_str 2 m); [rewrite (E0 eq_refl)|destruct E1 as (y & _ & ->); [discriminate|]]; cbn [app]; eauto.
    + cbn [app] in Ev. injection Ev as -> _. cbn [forallb] in Fw. rewrite Wc in Fw. discriminate.
Qed.
(** * Building the pattern *)
Definition after_group (before : list token) : bool := match before with TGroup _ _ :: _ => true | _ => false end.
Lemma nearby_after before : after_group before = true -> group_nearby before = true.
Proof. destruct before as [|[]]; cbn; congruence. Qed.
Lemma Match_BackRef n s s' : Match (BackRef n) s s' -> exists w, cap_get n (caps s) = Some w /\ rest s = w ++ rest s' /\ caps s' = caps s.
Proof. inversion 1; subst; cbn; eauto. Qed.
Definition covers (names : list str) (s : st) : Prop := forall k, k < length names -> exists v, cap_get k (caps s) = Some v.
Lemma find_index_nth p (l : list str) k : find_index p l = Some k -> exists x, nth_error l k = Some x /\ p x = true.
Proof.
  revert k. induction l as [|y l IH]; intros k; cbn [find_index]; [discriminate|]. destruct (p y) eqn:P; [intros E; injection E as <-; exists y; auto|].
  destruct (find_index p l) as [k'|]; cbn [option_map]; [|discriminate]. intros E. injection E as <-. apply (IH k'). reflexivity.
Qed.
Lemma covers_grp names g k w s s' : covers names s -> caps s' = (length names, w) :: caps s -> k = length names -> covers (names ++ [g]) s' /\ cap_get k (caps s') = Some w /\ (forall j, j < length names -> cap_get j (caps s') = cap_get j (caps s)).
Proof.
  intros C E ->. assert (Z : cap_get (length names) (caps s') = Some w) by (rewrite E; cbn; rewrite Nat.eqb_refl; reflexivity).
  assert (Y : forall j, j < length names -> cap_get j (caps s') = cap_get j (caps s)). { intros j L. rewrite E. cbn. destruct (Nat.eqb_spec j (length names)); [lia|reflexivity]. }
  split; [|auto]. intros j L. rewrite app_length in L. cbn in L. destruct (Nat.eq_dec j (length names)) as [->|]; [eauto|]. rewrite Y by lia. apply C. lia.
Qed.
Lemma nth_mid {A} (l : list A) x r : nth_error (l ++ x :: r) (length l) = Some x.
Proof. rewrite nth_error_app2 by lia. rewrite Nat.sub_diag. reflexivity. Qed.
Lemma build_sem : forall tokens before names sub rs ts names', build before tokens names sub = (rs, ts, names') ->
  forall s s', Match (fold_right Seq Dollar rs) s s' -> covers names s ->
  covers names' s' /\ (exists extra, names' = names ++ extra) /\ (forall k, k < length names -> cap_get k (caps s') = cap_get k (caps s)) /\ at_dollar (rest s') = true /\
  exists y, rest s = y ++ rest s' /\ forall val, (forall k g v, nth_error names' k = Some g -> cap_get k (caps s') = Some v -> val g = v) ->
    tsem val (after_group before) tokens (flat_map (fun t => match t with TText s => s | TField n => val n end) ts) y.
Proof.
  induction tokens as [|tok l IH]; intros before names sub rs ts names' B s s' M C.
  - cbn [build] in B. injection B as <- <- <-. cbn [fold_right] in M. apply Match_Dollar in M as [-> D]. split; [exact C|]. split; [exists []; rewrite app_nil_r; reflexivity|]. split; [reflexivity|]. split; [exact D|].
    exists []. split; [reflexivity|]. intros val _. constructor.
  - cbn [build] in B. destruct tok as [v t|v|g t].
    + destruct (build _ l names sub) as [[rs0 ts0] n0] eqn:B0. injection B as <- <- <-. cbn [fold_right] in M. apply Match_Seq in M as (s1 & M1 & M). apply Match_word in M1 as (R1 & _ & C1).
      assert (Cv : covers names s1) by (intros k L; rewrite C1; apply C; exact L). destruct (IH _ _ _ _ _ _ B0 _ _ M Cv) as (Cc & Ex & Kp & D & y & Ry & Ts). rewrite C1 in Kp.
      split; [exact Cc|]. split; [exact Ex|]. split; [exact Kp|]. split; [exact D|]. exists (v ++ y). split; [rewrite R1, Ry, app_assoc; reflexivity|].
      intros val Hv. cbn [flat_map]. constructor. apply Ts. exact Hv.
    + destruct (re_match (var_regex (group_nearby before) (group_nearby l)) v) as [m|] eqn:Rm.
      2: { destruct (build _ l names sub) as [[rs0 ts0] n0] eqn:B0. injection B as <- <- <-. cbn [fold_right] in M. apply Match_Seq in M as (s1 & M1 & M). apply Match_word in M1 as (R1 & _ & C1).
        assert (Cv : covers names s1) by (intros k L; rewrite C1; apply C; exact L). destruct (IH _ _ _ _ _ _ B0 _ _ M Cv) as (Cc & Ex & Kp & D & y & Ry & Ts). rewrite C1 in Kp.
        split; [exact Cc|]. split; [exact Ex|]. split; [exact Kp|]. split; [exact D|]. exists (v ++ y). split; [rewrite R1, Ry, app_assoc; reflexivity|].
        intros val Hv. cbn [flat_map]. constructor; [auto|eauto|]. apply Ts. exact Hv. }
      assert (Ab : after_group before = true -> group_nearby before = true) by apply nearby_after.
      destruct (group_str 2 m) as [|c2 g2] eqn:G2.
      * destruct (build _ l names sub) as [[rs0 ts0] n0] eqn:B0. injection B as <- <- <-. cbn [fold_right] in M. apply Match_Seq in M as (s1 & M1 & M). apply Match_Seq in M as (s2 & M2 & M). apply Match_word in M1 as (R1 & _ & C1). apply Match_word in M2 as (R2 & _ & C2).
        assert (Cv : covers names s2) by (intros k L; rewrite C2, C1; apply C; exact L). destruct (IH _ _ _ _ _ _ B0 _ _ M Cv) as (Cc & Ex & Kp & D & y & Ry & Ts). rewrite C2, C1 in Kp.
        split; [exact Cc|]. split; [exact Ex|]. split; [exact Kp|]. split; [exact D|]. exists ((group_str 1 m ++ group_str 3 m) ++ y). split; [rewrite R1, R2, Ry, !app_assoc; reflexivity|].
        intros val Hv. cbn [flat_map]. rewrite app_assoc.
        destruct (var_ok _ _ _ _ (group_str 1 m ++ group_str 3 m) Rm) as [V1 V2]; [reflexivity|rewrite G2; contradiction|]. constructor; [exact V1|intros A; apply V2; apply Ab; exact A|]. apply Ts. exact Hv.
      * destruct (build _ l (names ++ [sub_name sub]) (S sub)) as [[rs0 ts0] n0] eqn:B0. injection B as <- <- <-. cbn [fold_right] in M. apply Match_Seq in M as (s1 & M1 & M). apply Match_Seq in M as (s2 & M2 & M). apply Match_Seq in M as (s3 & M3 & M).
        apply Match_word in M1 as (R1 & _ & C1). apply Match_Grp_Plus in M2 as (w & Nw & R2 & _ & _ & C2). apply Match_word in M3 as (R3 & _ & C3). rewrite C1 in C2.
        destruct (covers_grp names (sub_name sub) _ w s s2 C C2 eq_refl) as (Cv & Gw & Kp2).
        assert (Cv3 : covers (names ++ [sub_name sub]) s3) by (intros k L; rewrite C3; apply Cv; exact L). destruct (IH _ _ _ _ _ _ B0 _ _ M Cv3) as (Cc & (ex & Ex) & Kp & D & y & Ry & Ts). rewrite C3 in Kp.
        split; [exact Cc|]. split; [exists (sub_name sub :: ex); rewrite Ex, <- app_assoc; reflexivity|]. split; [intros k L; rewrite Kp by (rewrite app_length; lia); apply Kp2; exact L|]. split; [exact D|].
        exists ((group_str 1 m ++ w ++ group_str 3 m) ++ y). split; [rewrite R1, R2, R3, Ry, !app_assoc; reflexivity|].
        intros val Hv. cbn [flat_map].
        assert (Ew : val (sub_name sub) = w). { apply (Hv (length names)). - rewrite Ex, <- app_assoc. apply nth_mid. - rewrite Kp by (rewrite app_length; cbn; lia). exact Gw. }
        rewrite Ew, !app_assoc, <- (app_assoc (group_str 1 m)).
        destruct (var_ok _ _ _ _ (group_str 1 m ++ w ++ group_str 3 m) Rm) as [V1 V2]; [rewrite G2; discriminate|intros _; exists w; auto|]. constructor; [exact V1|intros A; apply V2; apply Ab; exact A|]. apply Ts. exact Hv.
    + destruct (find_index (str_eqb g) names) as [k|] eqn:Fi.
      * destruct (build _ l names sub) as [[rs0 ts0] n0] eqn:B0. injection B as <- <- <-. cbn [fold_right] in M. apply Match_Seq in M as (s1 & M1 & M). apply Match_BackRef in M1 as (w & Cw & R1 & C1).
        assert (Cv : covers names s1) by (intros j L; rewrite C1; apply C; exact L). destruct (IH _ _ _ _ _ _ B0 _ _ M Cv) as (Cc & (ex & Ex) & Kp & D & y & Ry & Ts). rewrite C1 in Kp.
        split; [exact Cc|]. split; [exists ex; exact Ex|]. split; [exact Kp|]. split; [exact D|]. exists (w ++ y). split; [rewrite R1, Ry, app_assoc; reflexivity|].
        intros val Hv. cbn [flat_map].
        destruct (find_index_nth _ _ _ Fi) as (g' & Ng & Eg). apply str_eqb_eq in Eg. subst g'.
        assert (L : k < length names) by (apply nth_error_Some; congruence).
        assert (Ew : val g = w). { apply (Hv k). - rewrite Ex, nth_error_app1 by exact L. exact Ng. - rewrite Kp by exact L. exact Cw. }
        rewrite <- Ew. constructor. apply Ts. exact Hv.
      * destruct (build _ l (names ++ [g]) sub) as [[rs0 ts0] n0] eqn:B0. injection B as <- <- <-. cbn [fold_right] in M. apply Match_Seq in M as (s1 & M1 & M). apply Match_Grp_Plus in M1 as (w & Nw & R1 & _ & _ & C1).
        destruct (covers_grp names g _ w s s1 C C1 eq_refl) as (Cv & Gw & Kp2). destruct (IH _ _ _ _ _ _ B0 _ _ M Cv) as (Cc & (ex & Ex) & Kp & D & y & Ry & Ts).
        split; [exact Cc|]. split; [exists (g :: ex); rewrite Ex, <- app_assoc; reflexivity|]. split; [intros k L; rewrite Kp by (rewrite app_length; lia); apply Kp2; exact L|]. split; [exact D|].
        exists (w ++ y). split; [rewrite R1, Ry, app_assoc; reflexivity|]. intros val Hv. cbn [flat_map].
        assert (Ew : val g = w). { apply (Hv (length names)). - rewrite Ex, <- app_assoc. apply nth_mid. - rewrite Kp by (rewrite app_length; cbn; lia). exact Gw. }
        rewrite <- Ew. constructor. apply Ts. exact Hv.
Qed.
End Uni.
