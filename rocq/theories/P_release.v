(** Proofs about release strings. *)
From Coq Require Import Ascii String.
From Coq Require Import NArith ZArith List Bool Lia.
From Verif Require Import PyStr PyStrFacts Regex RegexFacts M_value M_release Spec_release P_evr P_prep.
From Verif Require P_value.
Import ListNotations.
Open Scope N_scope.

Section U.
Context {U : Unicode}.

Lemma digits_b ds : digits ds -> ds <> [] /\ forallb is_digit ds = true.
Proof. intros [N F]. split; auto. apply forallb_forall. now apply Forall_forall. Qed.
Lemma b_digits ds : ds <> [] -> forallb is_digit ds = true -> digits ds.
Proof. intros N F. split; auto. apply Forall_forall. now apply forallb_forall. Qed.
Lemma digits_dec n : digits (dec n).
Proof. apply b_digits; [apply dec_nonempty|apply dec_is_digits]. Qed.
Lemma digits_int ds : digits ds -> exists n, int_of_str ds = Some n.
Proof. intros D. apply digits_b in D as [N F]. now apply int_digits. Qed.

(** * Splitting off the dist macro *)
Lemma dist_match pr rs m : Match dist_regex (mkst pr rs []) m ->
  exists d x n e, dist_macro d /\ minor_bump x n /\ rs = d ++ x ++ e /\ at_dollar e = true /\ rest m = e /\ group_str 1 m = d /\
    match group_str 4 m with [] => None | d => int_of_str d end = n.
Proof.
  unfold dist_regex. rewrite Match_Seq. intros (s1 & G & T). apply Match_Grp in G as (d & s2 & A & E1 & E2 & E3 & E4 & E5).
  cbn [pre rest caps] in *.
  assert (D : dist_macro d /\ cap_get 4 (caps s2) = None /\ cap_get 1 (caps s2) = None).
  { apply Match_Seq in A as (q1 & P & A). apply Match_Ch in P as (c & R1 & Pc & R2 & R3). apply N.eqb_eq in Pc. subst c. cbn [pre rest caps] in *.
    apply Match_Seq in A as (q2 & O & A). apply Match_Seq in A as (q3 & W & I). apply Match_word in W as (W1 & W2 & W3).
    apply Match_Alt in O as [O|O].
    - apply Match_Grp in O as (w & q4 & O & O1 & O2 & O3 & O4 & O5). apply Match_Seq in O as (q5 & L & Qm). apply Match_Ch in L as (c & L1 & Lc & L2 & L3).
      apply N.eqb_eq in Lc. subst c. apply Match_IfGrp in I. rewrite W3, O5 in I. cbn [cap_get Nat.eqb] in I.
      apply Match_Ch in I as (c & I1 & Ic & I2 & I3). apply N.eqb_eq in Ic. subst c.
      assert (Cp : caps s2 = (2%nat, w) :: caps q4) by congruence.
      apply Match_Alt in Qm as [Qm|Qm].
      + apply Match_Ch in Qm as (c & Q1 & Qc & Q2 & Q3). apply N.eqb_eq in Qc. subst c.
        rewrite Cp, Q3, L3, R3. split; [|now cbn]. right; right; left.
        apply (app_inv_tail (rest s1)). rewrite <- E1, R1, L1, Q1, O2, W1, I1, E2. reflexivity.
      + apply Match_Eps in Qm. subst q4. rewrite Cp, L3, R3. split; [|now cbn]. right; left.
        apply (app_inv_tail (rest s1)). rewrite <- E1, R1, L1, O2, W1, I1, E2. reflexivity.
    - apply Match_Eps in O. subst q2. apply Match_IfGrp in I. rewrite W3, R3 in I. cbn [cap_get] in I. apply Match_Eps in I. subst s2.
      rewrite W3, R3. split; [|now cbn]. left. apply (app_inv_tail (rest s1)). rewrite <- E1, R1, W1, E2. reflexivity. }
  destruct D as (D & C4 & C1).
  apply Match_Seq in T as (s3 & O & Do). apply Match_Dollar in Do as [-> Do].
  apply Match_Alt in O as [O|O].
  - apply Match_Grp in O as (x & s4 & O & O1 & O2 & O3 & O4 & O5). apply Match_Seq in O as (s5 & Dt & Dg).
    apply Match_Ch in Dt as (c & D1 & Dc & D2 & D3). apply N.eqb_eq in Dc. subst c.
    apply Match_Grp_Plus in Dg as (w & Nw & G1 & G2 & G3 & G4).
    assert (Ex : x = DOT :: w).
    { apply (app_inv_tail (rest s3)). rewrite <- O1, D1, G1, O2. reflexivity. }
    exists d, x, (int_of_str w), (rest s3). split; [exact D|]. split.
    { right. exists w. split; [now apply b_digits|]. auto. }
    split; [now rewrite E1, O1|]. split; [exact Do|]. split; [reflexivity|].
    unfold group_str, group. rewrite O5, G4, D3, E5. cbn [cap_get Nat.eqb]. split; [reflexivity|]. destruct w; [congruence|reflexivity].
  - apply Match_Eps in O. subst s3. exists d, [], None, (rest s1). split; [exact D|]. split; [now left|]. split; [now rewrite E1|]. split; [exact Do|].
    split; [reflexivity|]. unfold group_str, group. rewrite E5. cbn [cap_get Nat.eqb]. now rewrite C4.
Qed.
Lemma dist_exists d x n pr : dist_macro d -> minor_bump x n -> exists m, Match dist_regex (mkst pr (d ++ x) []) m.
Proof.
  intros D M. unfold dist_regex.
  assert (A : exists cs, L (Seq (chr PCT) (Seq (Opt (Grp 2 (Seq (chr LBRACE) (Opt (chr QUESTION))))) (Seq (word (lit "dist")) (IfGrp 2 (chr RBRACE) Eps)))) [] d cs).
  { destruct D as [<-|[<-|[<-|[]]]].
    - eexists. eapply (L_seq _ _ _ [PCT] _ (lit "dist")); [eapply L_chr|]. eapply (L_seq _ _ _ [] _ (lit "dist")); [eapply L_altr, L_eps|].
      eapply (L_seq _ _ _ (lit "dist") _ []); [eapply L_word|]. apply L_iff; [reflexivity|apply L_eps].
    - eexists. eapply (L_seq _ _ _ [PCT] _ (lit "{dist}")); [eapply L_chr|]. eapply (L_seq _ _ _ [LBRACE] _ (lit "dist}")).
      { eapply L_altl, L_grp. eapply (L_seq _ _ _ [LBRACE] _ []); [eapply L_chr|eapply L_altr, L_eps]. }
      eapply (L_seq _ _ _ (lit "dist") _ [RBRACE]); [eapply L_word|]. eapply L_ift; [reflexivity|apply L_chr].
    - eexists. eapply (L_seq _ _ _ [PCT] _ (lit "{?dist}")); [eapply L_chr|]. eapply (L_seq _ _ _ (lit "{?") _ (lit "dist}")).
      { eapply L_altl, L_grp. eapply (L_seq _ _ _ [LBRACE] _ [QUESTION]); [eapply L_chr|apply L_altl, L_chr]. }
      eapply (L_seq _ _ _ (lit "dist") _ [RBRACE]); [eapply L_word|]. eapply L_ift; [reflexivity|apply L_chr]. }
  destruct A as (cs & A). apply (L_grp 1) in A.
  assert (B : exists cs', L (Opt (Grp 3 (Seq (chr DOT) (Grp 4 (Plus true is_digit))))) ((1%nat, d) :: cs) x cs').
  { destruct M as [[-> _]|(ds & Dd & -> & _)].
    - eexists. eapply L_altr, L_eps.
    - apply digits_b in Dd as [Nd Fd]. eexists. eapply L_altl, L_grp. eapply (L_seq _ _ _ [DOT] _ ds); [eapply L_chr|]. apply L_grp. now apply L_plus. }
  destruct B as (cs' & B). exists (mkst (rev x ++ rev d ++ pr) [] cs').
  apply (MSeq _ _ _ (mkst (rev d ++ pr) x ((1%nat, d) :: cs))); [apply A|].
  apply (MSeq _ _ _ (mkst (rev x ++ rev d ++ pr) [] cs')).
  - pose proof (B (rev d ++ pr) []) as Q. rewrite app_nil_r in Q. exact Q.
  - now constructor.
Qed.
Lemma pct_free_minor x n : minor_bump x n -> forallb (fun c => negb (c =? PCT)) x = true.
Proof.
  intros [[-> _]|(ds & D & -> & _)]; [reflexivity|]. apply digits_b in D as [_ D]. cbn [forallb]. apply andb_true_intro. split; [reflexivity|].
  rewrite forallb_forall in *. intros c Hc. apply D in Hc. apply negb_true_iff, N.eqb_neq. intros ->. discriminate.
Qed.
Lemma dist_tail d : dist_macro d -> exists t, d = PCT :: t /\ forallb (fun c => negb (c =? PCT)) t = true.
Proof. intros [<-|[<-|[<-|[]]]]; eexists; split; reflexivity. Qed.
Lemma with_dist_unique raw r d x n r' d' x' n' : with_dist raw r d x n -> with_dist raw r' d' x' n' -> r = r' /\ d = d' /\ x = x' /\ n = n'.
Proof.
  intros (E & D & M) (E' & D' & M'). destruct (dist_tail d D) as (t & -> & T). destruct (dist_tail d' D') as (t' & -> & T').
  rewrite E in E'. cbn [app] in E'.
  apply (last_unique (N.eqb PCT)) in E' as (-> & _ & Et); try apply N.eqb_refl.
  2, 3: rewrite forallb_app; apply andb_true_intro; split; [|eapply forallb_forall; intros c Hc; try (eapply forallb_forall in Hc; [|eapply pct_free_minor; eassumption]); rewrite N.eqb_sym; exact Hc].
  2: { apply forallb_forall. intros c Hc. rewrite forallb_forall in T. rewrite N.eqb_sym. now apply T. }
  2: { apply forallb_forall. intros c Hc. rewrite forallb_forall in T'. rewrite N.eqb_sym. now apply T'. }
  split; [reflexivity|].
  assert (Q : t = t' /\ x = x').
  { assert (X : forall u n, minor_bump u n -> u = [] \/ exists v, u = DOT :: v) by (intros u k [[-> _]|(v & _ & -> & _)]; eauto).
    clear T T' E raw. destruct (X _ _ M) as [->|(v & ->)], (X _ _ M') as [->|(v' & ->)];
    destruct D as [D|[D|[D|[]]]], D' as [D'|[D'|[D'|[]]]]; injection D as <-; injection D' as <-; cbn in Et |- *;
    try discriminate Et; try (split; [reflexivity|congruence]). }
  destruct Q as [-> ->]. repeat split; auto. destruct M as [[-> ->]|(ds & _ & -> & ->)], M' as [[Q ->]|(ds' & _ & Q & ->)]; congruence.
Qed.
Theorem split_dist raw r d x n : with_dist raw r d x n -> ~ In LF raw -> split_raw_release raw = (r, Some d, n).
Proof.
  intros W NL. pose proof W as (E & D & M). unfold split_raw_release, re_split1.
  destruct (re_search dist_regex raw) as [[q m]|] eqn:S.
  - apply search_from_Some in S as (w & rs & E1 & -> & Hm & _). 
    assert (Mm : Match dist_regex (mkst (rev w ++ []) rs []) m) by (apply results_Match; destruct (results _ _); [discriminate|injection Hm as ->; now left]).
    apply dist_match in Mm as (d' & x' & n' & e & D' & M' & E2 & De & _ & G1 & G4). rewrite G1, G4.
    assert (e = []). { apply at_dollar_noLF; auto. intros Q. apply NL. rewrite E1, E2, !in_app_iff. auto. } subst e. rewrite app_nil_r in E2.
    assert (W' : with_dist raw w d' x' n') by (split; [now rewrite E1, E2|auto]).
    destruct (with_dist_unique _ _ _ _ _ _ _ _ _ W W') as (-> & -> & -> & ->). now rewrite app_nil_r, rev_involutive.
  - exfalso. destruct (dist_exists d x n (rev r ++ []) D M) as (m & Mm). apply results_Match in Mm.
    rewrite (search_from_None _ _ _ S r (d ++ x) E) in Mm. destruct Mm.
Qed.
Theorem split_no_dist raw : no_dist raw -> ~ In LF raw -> split_raw_release raw = (raw, None, None).
Proof.
  intros W NL. unfold split_raw_release, re_split1. destruct (re_search dist_regex raw) as [[q m]|] eqn:S; [exfalso|reflexivity].
  apply search_from_Some in S as (w & rs & E1 & -> & Hm & _). 
  assert (Mm : Match dist_regex (mkst (rev w ++ []) rs []) m) by (apply results_Match; destruct (results _ _); [discriminate|injection Hm as ->; now left]).
  apply dist_match in Mm as (d' & x' & n' & e & D' & M' & E2 & De & _ & _).
  assert (e = []). { apply at_dollar_noLF; auto. intros Q. apply NL. rewrite E1, E2, !in_app_iff. auto. } subst e. rewrite app_nil_r in E2.
  apply W. exists w, d', x', n'. split; [now rewrite E1, E2|auto].
Qed.

(** Assigning the release. *)
Lemma no_lf_dist d : dist_macro d -> ~ In LF d.
Proof. intros [<-|[<-|[<-|[]]]]; vm_compute; intuition discriminate. Qed.
Theorem set_release_dist raw r d x n v : with_dist raw r d x n -> ~ In LF raw -> ~ In LF v ->
  get_updated_release raw v = v ++ d /\ split_raw_release (get_updated_release raw v) = (v, Some d, None).
Proof.
  intros W NL NV. unfold get_updated_release. rewrite (split_dist _ _ _ _ _ W NL). cbn [fst snd]. split; [reflexivity|].
  destruct W as (_ & D & _). apply (split_dist _ _ d [] None).
  - split; [now rewrite app_nil_r|]. split; [exact D|now left].
  - rewrite in_app_iff. intros [Q|Q]; [auto|]. now apply no_lf_dist in Q.
Qed.
Theorem set_release_no_dist raw v : no_dist raw -> ~ In LF raw -> no_dist v -> ~ In LF v ->
  get_updated_release raw v = v /\ split_raw_release v = (v, None, None).
Proof.
  intros W NL Wv NV. unfold get_updated_release. rewrite (split_no_dist _ W NL). cbn [fst snd]. rewrite app_nil_r. split; [reflexivity|]. now apply split_no_dist.
Qed.
End U.
