From Coq Require Import Ascii String.
From Coq Require Import NArith ZArith List Bool Lia Permutation.
From Verif Require Import PyStr PyStrFacts Regex RegexFacts M_constants M_evr Spec_changelog Spec_evr.
Import ListNotations.
Open Scope N_scope.

Definition dashes (s : str) : nat := count_occ N.eq_dec s DASH.
Lemma dashes_app a b : dashes (a ++ b) = (dashes a + dashes b)%nat.
Proof. apply count_occ_app. Qed.
Lemma dashes_0 s : ~ In DASH s -> dashes s = 0%nat.
Proof. apply count_occ_not_In. Qed.
Lemma dashes_cons s : dashes (DASH :: s) = S (dashes s).
Proof. reflexivity. Qed.

Lemma notin_forallb c s : forallb (fun x => negb (x =? c)) s = true <-> ~ In c s.
Proof.
  rewrite forallb_forall. split.
  - intros A B. apply A in B. rewrite N.eqb_refl in B. discriminate.
  - intros A x Hx. destruct (N.eqb_spec x c); auto. subst. contradiction.
Qed.
Lemma not_dash_forallb s : forallb not_dash s = true <-> ~ In DASH s.
Proof. apply (notin_forallb DASH). Qed.

Section U.
Context {U : Unicode}.

Lemma int_acc_app a : forall acc b, int_acc acc (a ++ b) =
  match int_acc acc a with Some x => int_acc x b | None => None end.
Proof.
  induction a as [|c a IH]; intros acc b; cbn; auto. destruct (digit_val c); auto.
Qed.
Lemma int_digits d : forallb is_digit d = true -> d <> [] -> exists n, int_of_str d = Some n.
Proof.
  intros Hd Hn. destruct d as [|c d]; [congruence|]. unfold int_of_str. clear Hn.
  generalize 0 as acc. revert Hd. generalize (c :: d) as l. clear.
  induction l as [|c l IH]; intros Hd acc; cbn; [eauto|].
  cbn in Hd. apply andb_true_iff in Hd as [Hc Hl]. unfold is_digit in Hc.
  destruct (digit_val c); [auto|discriminate].
Qed.
Lemma digits_of_int d : forall n, int_of_str d = Some n -> forallb is_digit d = true /\ d <> [].
Proof.
  intros n. destruct d as [|c d]; [discriminate|]. intros Hi. split; [|discriminate].
  unfold int_of_str in Hi. revert Hi. generalize 0 as acc. generalize (c :: d) as l. clear.
  induction l as [|c l IH]; intros acc Hi; cbn in *; auto.
  unfold is_digit. destruct (digit_val c); [|discriminate]. eapply IH; eauto.
Qed.

Definition ep_caps (k : nat) (o : option str) : list (nat * str) :=
  match o with Some d => [(k, d)] | None => [] end.
Definition ep_text (o : option str) : str := match o with Some d => d ++ [COLON] | None => [] end.
Definition rel_text (o : option str) : str := match o with Some r => DASH :: r | None => [] end.

Lemma evr_regex_Match k s s' : Match (evr_regex k) s s' ->
  exists ep v rel,
    rest s = ep_text ep ++ v ++ rel_text rel ++ rest s' /\
    (forall d, ep = Some d -> d <> [] /\ forallb is_digit d = true) /\
    v <> [] /\ ~ In DASH v /\
    (forall r, rel = Some r -> r <> [] /\ ~ In DASH r) /\
    caps s' = ep_caps (k + 2) rel ++ (k + 1, v)%nat :: ep_caps k ep ++ caps s.
Proof.
  unfold evr_regex, seqs, Opt. rewrite Match_Seq. intros (s1 & H1 & H2).
  apply Match_Seq in H2 as (s2 & H2 & H3).
  assert (E1 : exists ep, rest s = ep_text ep ++ rest s1 /\ caps s1 = ep_caps k ep ++ caps s /\
     forall d, ep = Some d -> d <> [] /\ forallb is_digit d = true).
  { apply Match_Alt in H1 as [H1|H1].
    - apply Match_Seq in H1 as (s0 & G & C). apply Match_Grp in G as (w & s0' & P & E & R & _ & _ & K).
      apply Match_Plus in P as (w' & Nw & E' & F & _ & K').
      assert (w' = w) by (rewrite R in E'; rewrite E in E'; now apply app_inv_tail in E'). subst w'.
      apply Match_Ch in C as (c & E2 & Ec & _ & K2). apply N.eqb_eq in Ec. subst c.
      exists (Some w). cbn. split; [|split].
      + rewrite E, E2, <- app_assoc. reflexivity.
      + rewrite K2, K, K'. reflexivity.
      + intros d Ed. injection Ed as <-. auto.
    - apply Match_Eps in H1. subst. exists None. cbn. split; [|split]; auto. discriminate. }
  destruct E1 as (ep & E1 & C1 & D1).
  apply Match_Grp in H2 as (v & s2' & P & E & R & _ & _ & K).
  apply Match_Plus in P as (w' & Nw & E' & F & _ & K').
  assert (w' = v) by (rewrite R in E'; rewrite E in E'; now apply app_inv_tail in E'). subst w'.
  assert (E3 : exists rel, rest s2 = rel_text rel ++ rest s' /\ caps s' = ep_caps (k + 2) rel ++ caps s2 /\
     forall r, rel = Some r -> r <> [] /\ ~ In DASH r).
  { apply Match_Alt in H3 as [H3|H3].
    - apply Match_Seq in H3 as (s0 & C & G). apply Match_Ch in C as (c & E2 & Ec & _ & K2).
      apply N.eqb_eq in Ec. subst c.
      apply Match_Grp in G as (w & s0' & P & E3 & R3 & _ & _ & K3).
      apply Match_Plus in P as (w' & Nw' & E4 & F4 & _ & K4).
      assert (w' = w) by (rewrite R3 in E4; rewrite E3 in E4; now apply app_inv_tail in E4). subst w'.
      exists (Some w). cbn. split; [|split].
      + rewrite E2, E3. reflexivity.
      + rewrite K3, K4, K2. reflexivity.
      + intros r Er. injection Er as <-. split; auto. now apply not_dash_forallb.
    - apply Match_Eps in H3. subst. exists None. cbn. split; [|split]; auto. discriminate. }
  destruct E3 as (rel & E3 & C3 & D3).
  exists ep, v, rel. repeat split; auto.
  - now rewrite E1, E, E3, <- ?app_assoc.
  - now apply D1.
  - now apply D1.
  - now apply not_dash_forallb.
  - now apply D3.
  - now apply D3.
  - rewrite C3, K, K', C1. reflexivity.
Qed.

Lemma evr_dashes ep v rel :
  (forall d, ep = Some d -> d <> [] /\ forallb is_digit d = true) -> ~ In DASH v ->
  (forall r, rel = Some r -> r <> [] /\ ~ In DASH r) ->
  dashes (ep_text ep ++ v ++ rel_text rel) = match rel with Some _ => 1%nat | None => 0%nat end.
Proof.
  intros H1 H2 H3. rewrite !dashes_app, (dashes_0 v H2).
  replace (dashes (ep_text ep)) with 0%nat.
  - destruct rel as [r|]; cbn [rel_text]; [|reflexivity]. rewrite dashes_cons, dashes_0; auto. now apply H3.
  - destruct ep as [d|]; cbn [ep_text]; [|reflexivity]. destruct (H1 d eq_refl) as [_ Hd].
    rewrite dashes_app, dashes_0; [reflexivity|]. intros Hin.
    rewrite forallb_forall in Hd. apply Hd in Hin. discriminate.
Qed.

(** The text form with an epoch written or not. *)
Definition ep_of (e : N) : option str := if 0 <? e then Some (dec e) else None.
Definition rel_of (r : str) : option str := match r with [] => None | _ => Some r end.
Lemma evr_str_eq x : evr_str x = ep_text (ep_of (e_epoch x)) ++ e_version x ++ rel_text (rel_of (e_release x)).
Proof.
  unfold evr_str, ep_of, rel_of. destruct (0 <? e_epoch x); destruct (e_release x); reflexivity.
Qed.
Lemma ep_of_ok e : forall d, ep_of e = Some d -> d <> [] /\ forallb is_digit d = true.
Proof.
  unfold ep_of. destruct (0 <? e); [|discriminate]. intros d E. injection E as <-.
  split; [apply dec_nonempty | apply dec_is_digits].
Qed.

(** Continuations [b] after the EVR pattern that can only succeed where we want. *)
Lemma evr_regex_H k b e v r pr rs cs m :
  rpm_version v -> ~ In DASH r ->
  let rel := rel_of r in
  (* shorter versions are not possible *)
  (forall v1 v2 pr', v = v1 ++ v2 -> v1 <> [] -> v2 <> [] ->
     forall cs' m', ~ Match (Seq (Opt (Seq (chr DASH) (Grp (k + 2) (Plus true not_dash)))) b)
                 (mkst pr' (v2 ++ rel_text rel ++ rs) cs') m') ->
  (* longer releases are not possible *)
  (forall w2 rs' pr' cs', rs = w2 ++ rs' -> w2 <> [] -> ~ In DASH w2 -> r <> [] ->
     forall m', ~ Match b (mkst pr' rs' cs') m') ->
  (r = [] -> forall pr' cs' m', ~ Match (Seq (Seq (chr DASH) (Grp (k + 2) (Plus true not_dash))) b) (mkst pr' rs cs') m') ->
  (forall w t, rs = w ++ COLON :: t -> forallb is_digit w = false) ->
  H b (mkst (rev (ep_text (ep_of e) ++ v ++ rel_text rel) ++ pr) rs
            (ep_caps (k + 2) rel ++ (k + 1, v)%nat :: ep_caps k (ep_of e) ++ cs)) m ->
  H (Seq (evr_regex k) b) (mkst pr (ep_text (ep_of e) ++ v ++ rel_text rel ++ rs) cs) m.
Proof.
  intros (Nv & Dv & Cv & Lv) Dr rel Hshort Hlong Hnorel Hcol Hb.
  unfold evr_regex, seqs. apply H_Seq_assoc.
  assert (Main : forall pr0 cs0, H b (mkst (rev (v ++ rel_text rel) ++ pr0) rs
            (ep_caps (k + 2) rel ++ (k + 1, v)%nat :: cs0)) m ->
    H (Seq (Seq (Grp (k + 1) (Plus false not_dash)) (Opt (Seq (chr DASH) (Grp (k + 2) (Plus true not_dash))))) b)
      (mkst pr0 (v ++ rel_text rel ++ rs) cs0) m).
  { intros pr0 cs0 Hb0. apply H_Seq_assoc. apply H_lazy; auto.
    - now apply not_dash_forallb.
    - intros w1 w2 E N1 N2. eapply Hshort; eauto.
    - unfold rel, rel_of in *. destruct r as [|r0 r'].
      + cbn [rel_text app] in *. apply H_Seq_altr.
        * intros m'. apply Hnorel; auto.
        * apply H_Seq_eps. now rewrite app_nil_r in Hb0.
      + apply H_Seq_altl. apply H_Seq_assoc. cbn [rel_text app].
        eapply H_seq; [apply H_chr|].
        change (r0 :: r' ++ rs) with ((r0 :: r') ++ rs).
        apply H_greedy; [discriminate| now apply not_dash_forallb| |].
        * intros w2 rs' E N2 D2. eapply Hlong; eauto; [|discriminate]. now apply not_dash_forallb.
        * cbn [rel_text ep_caps] in Hb0. rewrite rev_app_distr in Hb0. cbn [rev] in Hb0.
          rewrite <- ?app_assoc in Hb0. cbn [app rev] in *. rewrite <- ?app_assoc in *. exact Hb0. }
  unfold ep_of in *. destruct (0 <? e) eqn:Ee.
  - apply H_Seq_altl. apply H_Seq_assoc. cbn [ep_text ep_caps] in *. rewrite <- app_assoc.
    apply H_greedy.
    + apply dec_nonempty.
    + apply dec_is_digits.
    + intros w2 rs' E N2 D2 m' HM. destruct w2 as [|c w2]; [congruence|]. cbn in E. injection E as E1 E2.
      cbn in D2. subst c. discriminate.
    + cbn [app]. eapply H_seq; [apply H_chr|]. apply Main.
      rewrite !rev_app_distr in Hb. rewrite rev_app_distr. cbn [rev app] in *.
      rewrite <- ?app_assoc in *. cbn [app] in *. exact Hb.
  - apply H_Seq_altr.
    + intros m' HM. cbn [ep_text app] in HM. apply Match_Seq in HM as (s1 & HM & HM2).
      apply Match_Seq in HM as (s0 & HM0 & HM1).
      apply Match_Grp in HM0 as (w & s0' & P & E & R & _ & _ & K).
      apply Match_Plus in P as (w' & Nw & E' & F & _ & K').
      assert (w' = w) by (rewrite R in E'; rewrite E in E'; now apply app_inv_tail in E'). subst w'.
      apply Match_Ch in HM1 as (c & E2 & Ec & _). apply N.eqb_eq in Ec. subst c.
      cbn [rest] in E. rewrite E2 in E.
      (* v ++ ... = w ++ ":" ++ rest: the version has no colon, so all of v is digits *)
      assert (Q : v ++ (rel_text rel ++ rs) = w ++ COLON :: rest s1) by exact E.
      clear E. apply app_eq_app in Q as [l [[Q1 Q2]|[Q1 Q2]]].
      * destruct l as [|x l].
        -- cbn [app] in Q2. assert (E : rel_text rel ++ rs = [] ++ COLON :: rest s1) by (symmetry; exact Q2).
           unfold rel, rel_of in E. destruct r; cbn [rel_text app] in E; [|discriminate].
           apply (Hcol []) in E. discriminate.
        -- cbn in Q2. injection Q2 as <- Q2. apply Cv. subst v. rewrite in_app_iff. right; now left.
      * subst w. rewrite forallb_app in F. apply andb_true_iff in F as [_ F].
        unfold rel, rel_of in Q2. destruct r; cbn [rel_text app] in Q2.
        -- apply Hcol in Q2. congruence.
        -- destruct l as [|x l]; [discriminate|]. injection Q2 as <- Q2. discriminate.
    + apply H_Seq_eps. cbn [ep_text ep_caps app] in *. now apply Main.
Qed.

Lemma H_unique r s m : Match r s m -> (forall m', Match r s m' -> m' = m) -> H r s m.
Proof.
  intros HM Hu. unfold H. apply results_Match in HM. destruct (results r s) as [|m' l] eqn:E; [destruct HM|].
  cbn. f_equal. apply Hu. apply results_Match. rewrite E. now left.
Qed.
Lemma H_caret rs cs : H Caret (mkst [] rs cs) (mkst [] rs cs).
Proof. reflexivity. Qed.
Lemma H_dollar pr cs : H Dollar (mkst pr [] cs) (mkst pr [] cs).
Proof. reflexivity. Qed.

Lemma ep_group k e cs : k <> 0%nat -> epoch_group k (mkst [] [] (ep_caps k (ep_of e) ++ cs)) = e \/ ep_of e = None.
Proof.
  intros _. unfold ep_of. destruct (0 <? e); [left|now right].
  unfold epoch_group, group. cbn [caps ep_caps app cap_get]. rewrite Nat.eqb_refl, int_of_dec. reflexivity.
Qed.

(** Reading the groups back. *)
Lemma groups_back k e v r cs pr rs :
  cap_get k cs = None ->
  let m := mkst pr rs (ep_caps (k + 2) (rel_of r) ++ (k + 1, v)%nat :: ep_caps k (ep_of e) ++ cs) in
  epoch_group k m = e /\ group_str (k + 1) m = v /\
  group (k + 2) m = match rel_of r with Some x => Some x | None => cap_get (k + 2) cs end.
Proof.
  intros Hc m. unfold epoch_group, group_str, group, m. cbn [caps].
  assert (Q1 : Nat.eqb k (k + 2) = false) by (apply Nat.eqb_neq; lia).
  assert (Q2 : Nat.eqb k (k + 1) = false) by (apply Nat.eqb_neq; lia).
  assert (Q3 : Nat.eqb (k + 1) (k + 2) = false) by (apply Nat.eqb_neq; lia).
  assert (Q4 : Nat.eqb (k + 2) (k + 1) = false) by (apply Nat.eqb_neq; lia).
  assert (Q5 : Nat.eqb (k + 2) k = false) by (apply Nat.eqb_neq; lia).
  unfold ep_of. destruct (0 <? e) eqn:Ee; destruct (rel_of r); cbn [ep_caps app cap_get];
    rewrite ?Q1, ?Q2, ?Q3, ?Q4, ?Q5, ?Nat.eqb_refl, ?int_of_dec, ?Hc; repeat split; auto.
  all: apply N.ltb_ge in Ee; lia.
Qed.

Lemma short_dollar v v1 v2 rel k pr' cs' m' b : ~ In DASH v -> v = v1 ++ v2 -> v2 <> [] ->
  (forall pr cs m, ~ Match b (mkst pr (v2 ++ rel) cs) m) ->
  ~ Match (Seq (Opt (Seq (chr DASH) (Grp k (Plus true not_dash)))) b) (mkst pr' (v2 ++ rel) cs') m'.
Proof.
  intros Dv -> N2 Hb HM. apply Match_Seq in HM as (s1 & HM & Hd). apply Match_Alt in HM as [HM|HM].
  - apply Match_Seq in HM as (s0 & HM & _). apply Match_Ch in HM as (c & E & Ec & _).
    apply N.eqb_eq in Ec. subst c. destruct v2; [congruence|]. cbn in E. injection E as -> _.
    apply Dv. apply in_or_app. right; now left.
  - apply Match_Eps in HM. subst s1. eapply Hb; eauto.
Qed.
Lemma dollar_no v2 rel pr cs m : v2 <> [] -> ~ In LF v2 -> ~ Match Dollar (mkst pr (v2 ++ rel) cs) m.
Proof.
  intros N2 L2 HM. apply Match_Dollar in HM as [_ HM]. cbn [rest] in HM. destruct v2 as [|c v2]; [congruence|].
  cbn in HM. destruct (v2 ++ rel); [|discriminate]. apply N.eqb_eq in HM. subst c. apply L2. now left.
Qed.

Lemma evr_H_dollar k e v r pr cs : rpm_version v -> ~ In DASH r ->
  H (Seq (evr_regex k) Dollar) (mkst pr (ep_text (ep_of e) ++ v ++ rel_text (rel_of r)) cs)
    (mkst (rev (ep_text (ep_of e) ++ v ++ rel_text (rel_of r)) ++ pr) []
          (ep_caps (k + 2) (rel_of r) ++ (k + 1, v)%nat :: ep_caps k (ep_of e) ++ cs)).
Proof.
  intros Hv Hr. rewrite <- (app_nil_r (rel_text _)) at 1. apply evr_regex_H; auto.
  - intros v1 v2 pr' E N1 N2 cs' m'. rewrite app_nil_r. apply (short_dollar v v1 v2); auto; [apply Hv|].
    intros. apply dollar_no; auto. intros Hin. apply Hv. subst v. apply in_or_app. now right.
  - intros w2 rs' pr' cs' E N2. destruct w2; [congruence|discriminate].
  - intros _ pr' cs' m' HM. apply Match_Seq in HM as (s1 & HM & Hd).
    apply Match_Seq in HM as (s0 & HM & _). apply Match_Ch in HM as (c & E & _). discriminate.
  - intros w t E. destruct w; discriminate.
  - apply H_dollar.
Qed.

Theorem evr_roundtrip x : wf_evr x -> evr_from_string (evr_str x) = Ok x.
Proof.
  destruct x as [e v r]. intros [Hv [Hr _]]. cbn [e_version e_release] in *.
  unfold evr_from_string. rewrite evr_str_eq. cbn [e_epoch e_version e_release].
  assert (E : re_match (Seq Caret (Seq (evr_regex 1) Dollar)) (ep_text (ep_of e) ++ v ++ rel_text (rel_of r)) =
    Some (mkst (rev (ep_text (ep_of e) ++ v ++ rel_text (rel_of r)) ++ []) []
          (ep_caps 3 (rel_of r) ++ (2, v)%nat :: ep_caps 1 (ep_of e) ++ []))).
  { apply re_match_H. eapply H_seq; [apply H_caret|]. apply (evr_H_dollar 1); auto. }
  rewrite E. destruct (groups_back 1 e v r [] (rev (ep_text (ep_of e) ++ v ++ rel_text (rel_of r)) ++ []) [] eq_refl)
    as (G1 & G2 & G3). cbn [Nat.add] in *. unfold group_str in *. rewrite G1, G2, G3.
  destruct r; reflexivity.
Qed.

Lemma Match_caret_seq r s m : Match (Seq Caret r) (mkst [] s []) m <-> Match r (mkst [] s []) m.
Proof.
  rewrite Match_Seq. split.
  - intros (s1 & H1 & H2). apply Match_Caret in H1 as [-> _]. auto.
  - intros HM. exists (mkst [] s []). split; auto. now apply Match_Caret.
Qed.

Lemma at_dollar_end t : at_dollar t = true -> end_text t.
Proof.
  destruct t as [|c [|d t]]; cbn; [now left| |discriminate].
  intros E. apply N.eqb_eq in E. subst. now right.
Qed.
Lemma end_at_dollar t : end_text t -> at_dollar t = true.
Proof. intros [->| ->]; reflexivity. Qed.

Theorem evr_parse_sound s x : evr_from_string s = Ok x ->
  exists ep rel t, s = ep ++ e_version x ++ rel ++ t /\ epoch_text (e_epoch x) ep /\
    e_version x <> [] /\ ~ In DASH (e_version x) /\ release_text (e_release x) rel /\ end_text t.
Proof.
  unfold evr_from_string. destruct (re_match _ _) as [m|] eqn:E; [|discriminate].
  intros Q; injection Q as <-. apply re_match_sound in E. apply (proj1 (Match_caret_seq _ _ _)) in E.
  apply Match_Seq in E as (s1 & H1 & H2). apply Match_Dollar in H2 as [-> Hd].
  apply evr_regex_Match in H1 as (ep & v & rel & E & Dep & Nv & Dv & Drel & C). cbn [rest caps] in *.
  exists (ep_text ep), (rel_text rel), (rest s1). cbn [e_version e_release e_epoch].
  unfold epoch_group, group_str, group. rewrite C.
  split.
  { destruct ep, rel; exact E. }
  split.
  { destruct ep as [d|].
    - destruct (Dep d eq_refl) as [Nd Fd]. destruct (int_digits d Fd Nd) as [n En].
      right. exists d. split; auto. destruct rel; cbn; rewrite En; reflexivity.
    - left. destruct rel; cbn; auto. }
  split; [destruct rel; exact Nv|]. split; [destruct rel; exact Dv|].
  split; [|now apply at_dollar_end].
  destruct rel as [r|]; destruct ep as [d|]; cbn; [right|right|left|left]; auto; split; auto; apply Drel; auto.
Qed.

(** Every string of the right shape is accepted. *)
Theorem evr_parse_complete v rel t r : v <> [] -> ~ In DASH v -> release_text r rel -> end_text t ->
  exists x, evr_from_string (v ++ rel ++ t) = Ok x.
Proof.
  intros Nv Dv Hr Ht. unfold evr_from_string.
  destruct (re_match _ _) as [m|] eqn:E; [eauto|exfalso].
  rewrite re_match_None in E.
  assert (Hx : exists s1, Match (evr_regex 1) (mkst [] (v ++ rel ++ t) []) s1 /\ rest s1 = t).
  { assert (X : exists cs, L (evr_regex 1) [] (v ++ rel) cs).
    { eexists. change (v ++ rel) with ([] ++ v ++ rel). unfold evr_regex, seqs.
      eapply L_seq; [apply L_altr, L_eps|]. eapply L_seq; [apply L_grp, L_plus; auto; now apply not_dash_forallb|].
      instantiate (1 := match rel with [] => _ | _ => _ end).
      destruct Hr as [[-> _]|(-> & Nr & Dr)].
      - apply L_altr, L_eps.
      - apply L_altl. change (DASH :: r) with ([DASH] ++ r). eapply L_seq; [apply L_chr|].
        apply L_grp, L_plus; auto. now apply not_dash_forallb. }
    destruct X as [cs X]. specialize (X [] t). rewrite <- app_assoc in X. eexists; split; [exact X|reflexivity]. }
  destruct Hx as (s1 & HM & Er). apply (E s1). apply (proj2 (Match_caret_seq _ _ _)). econstructor; eauto.
  apply Match_Dollar. rewrite Er. split; auto. now apply end_at_dollar.
Qed.

Theorem evr_text_back s x : evr_from_string s = Ok x -> ~ In LF s ->
  (forall d t, s = d ++ COLON :: t -> d <> [] -> forallb is_digit d = true -> exists n, 0 < n /\ d = dec n) ->
  evr_str x = s.
Proof.
  intros Hx Hlf Hep. apply evr_parse_sound in Hx as (ep & rel & t & E & He & Nv & Dv & Hr & Ht).
  assert (t = []) as ->.
  { destruct Ht as [->| ->]; auto. exfalso. apply Hlf. rewrite E, !in_app_iff. right; right; right; now left. }
  rewrite app_nil_r in E. unfold evr_str.
  assert (Er : (match e_release x with [] => [] | r => DASH :: r end) = rel).
  { destruct Hr as [[-> ->]|(-> & Nr & _)]; auto. destruct (e_release x); [congruence|auto]. }
  rewrite Er. destruct He as [[-> En]|(d & -> & Hi)].
  - rewrite En. cbn. now rewrite E.
  - destruct (digits_of_int _ _ Hi) as [Fd Nd].
    assert (E2 : s = d ++ COLON :: (e_version x ++ rel)) by (rewrite E, <- app_assoc; reflexivity).
    destruct (Hep _ _ E2 Nd Fd) as (n & Hn & ->). rewrite int_of_dec in Hi. injection Hi as Hi.
    rewrite <- Hi. destruct (N.ltb_spec 0 n); [|lia]. now rewrite E.
Qed.

Lemma nevr_shorter k b n w1 w2 v r e pr cs m :
  n = w1 ++ w2 -> w1 <> [] -> w2 <> [] -> ~ In DASH v -> ~ In DASH r ->
  (r <> [] \/ ~ In DASH n) ->
  (forall s1 m', Match b s1 m' -> dashes (rest s1) = 0%nat) -> forall tl, dashes tl = 0%nat ->
  ~ Match (Seq (Seq (chr DASH) (evr_regex k)) b)
     (mkst pr (w2 ++ DASH :: ep_text (ep_of e) ++ v ++ rel_text (rel_of r) ++ tl) cs) m.
Proof.
  intros En N1 N2 Dv Dr Hrn Hb tl0 Htl HM.
  apply Match_Seq in HM as (s1 & HM & HB). apply Match_Seq in HM as (s0 & HC & HE).
  apply Match_Ch in HC as (c & E0 & Ec & _). apply N.eqb_eq in Ec. subst c.
  destruct w2 as [|c w2]; [congruence|]. cbn [rest app] in E0. injection E0 as -> E0.
  assert (Hdn : r <> []). { destruct Hrn as [Hq|Hq]; auto. exfalso. apply Hq. subst n. apply in_or_app. right; now left. }
  apply evr_regex_Match in HE as (ep & v' & rel & E & Dep & Nv & Dv' & Drel & _).
  assert (Q : dashes (rest s0) = match rel with Some _ => 1%nat | None => 0%nat end).
  { rewrite E. replace (ep_text ep ++ v' ++ rel_text rel ++ rest s1) with ((ep_text ep ++ v' ++ rel_text rel) ++ rest s1)
      by (rewrite <- !app_assoc; reflexivity).
    rewrite dashes_app, evr_dashes by auto. rewrite (Hb s1 m HB). lia. }
  assert (Q2 : (2 <= dashes (rest s0))%nat).
  { rewrite <- E0, dashes_app, dashes_cons. unfold rel_of. destruct r as [|r0 r]; [congruence|].
    cbn [rel_text]. rewrite !dashes_app, dashes_cons. lia. }
  destruct rel; lia.
Qed.

Theorem nevr_roundtrip x :
  rpm_name (n_name x) -> wf_evr (n_evr x) -> (e_release (n_evr x) <> [] \/ ~ In DASH (n_name x)) ->
  nevr_from_string (nevr_str x) = Ok x.
Proof.
  destruct x as [n [e v r]]. cbn [n_name n_evr]. intros [Nn Ln] [Hv [Hr Lr]] Hrn. cbn [e_version e_release] in *.
  unfold nevr_from_string, nevr_str. cbn [n_name n_evr]. rewrite evr_str_eq. cbn [e_epoch e_version e_release].
  set (txt := ep_text (ep_of e) ++ v ++ rel_text (rel_of r)).
  assert (E : re_match (Seq Caret (Seq nevr_regex Dollar)) (n ++ [DASH] ++ txt) =
    Some (mkst (rev txt ++ DASH :: rev n ++ []) []
          (ep_caps 4 (rel_of r) ++ (3, v)%nat :: ep_caps 2 (ep_of e) ++ [(1%nat, n)]))).
  { apply re_match_H. eapply H_seq; [apply H_caret|]. unfold nevr_regex. apply H_Seq_assoc.
    apply H_lazy; auto.
    - unfold dot. now apply notin_forallb.
    - intros w1 w2 En N1 N2 m'. cbn [app]. unfold txt. rewrite <- (app_nil_r (rel_text (rel_of r))).
      apply (nevr_shorter 2 Dollar n w1 w2 v r e); auto; [apply Hv|].
      intros s1 m0 HD. apply Match_Dollar in HD as [_ HD]. apply at_dollar_end in HD as [->| ->]; reflexivity.
    - apply H_Seq_assoc. cbn [app]. eapply H_seq; [apply H_chr|]. apply (evr_H_dollar 2); auto. }
  rewrite E.
  destruct (groups_back 2 e v r [(1%nat, n)] (rev txt ++ DASH :: rev n ++ []) [] eq_refl) as (G1 & G2 & G3).
  cbn [Nat.add] in *. unfold group_str in *. rewrite G1, G2, G3.
  replace (group 1 _) with (Some n).
  - destruct r; reflexivity.
  - unfold ep_of. destruct (0 <? e); destruct r; reflexivity.
Qed.

(** NEVRA. *)
Definition plain_arch (a : str) : Prop := a <> [] /\ ~ In DOT a /\ ~ In DASH a /\ ~ In LF a /\ ~ In COLON a.

Lemma Match_alts l : forall s s', Match (alts l) s s' -> exists r, In r l /\ Match r s s'.
Proof.
  induction l as [|a l IH]; intros s s' HM.
  - cbn in HM. apply Match_Ch in HM as (c & _ & F & _). discriminate.
  - destruct l as [|b l].
    + exists a. split; [now left|auto].
    + change (alts (a :: b :: l)) with (Alt a (alts (b :: l))) in HM. apply Match_Alt in HM as [HM|HM].
      * exists a. split; [now left|auto].
      * destruct (IH _ _ HM) as (r & Hin & Hr). exists r. split; [now right|auto].
Qed.
Lemma Match_arches n arches s s' : Match (arches_regex n arches) s s' ->
  exists a, In a arches /\ rest s = a ++ rest s' /\ pre s' = rev a ++ pre s /\ caps s' = (n, a) :: caps s.
Proof.
  unfold arches_regex. intros HM. apply Match_Grp in HM as (w & s1 & HM & E & R & P & P2 & K).
  apply Match_alts in HM as (r & Hin & HM). apply in_map_iff in Hin as (a & <- & Ha).
  apply Match_word in HM as (E1 & E2 & E3). rewrite R in E1.
  assert (w = a) by (rewrite E in E1; now apply app_inv_tail in E1). subst w.
  exists a. repeat split; auto. now rewrite K, E3.
Qed.

Definition tail_re (arches : list str) : re := Seq (Seq (chr DOT) (arches_regex 5 arches)) Dollar.
Lemma tail_Match arches s m : Match (tail_re arches) s m ->
  exists a t, In a arches /\ rest s = DOT :: a ++ t /\ end_text t /\ m = mkst (rev a ++ DOT :: pre s) t ((5%nat, a) :: caps s).
Proof.
  intros HM. apply Match_Seq in HM as (s1 & HM & HD). apply Match_Dollar in HD as [-> HD].
  apply Match_Seq in HM as (s0 & HC & HA). apply Match_Ch in HC as (c & E & Ec & Ep & Ek).
  apply N.eqb_eq in Ec. subst c. apply Match_arches in HA as (a & Hin & E2 & P2 & K2).
  exists a, (rest s1). rewrite E, E2. repeat split; auto; [now apply at_dollar_end|].
  destruct s1; cbn in *. now rewrite P2, Ep, K2, Ek.
Qed.

Lemma dot_tail_unique A a B b t : A ++ DOT :: a = B ++ DOT :: b ++ t -> ~ In DOT a -> ~ In LF a -> ~ In DOT b -> end_text t ->
  A = B /\ a = b /\ t = [].
Proof.
  intros E Da La Db Ht.
  assert (t = []) as ->.
  { destruct Ht as [->| ->]; auto. exfalso.
    assert (Q : last (A ++ DOT :: a) 0 = LF) by (rewrite E; replace (B ++ DOT :: b ++ [LF]) with ((B ++ DOT :: b) ++ [LF]) by (rewrite <- app_assoc; reflexivity); apply last_last).
    destruct a as [|c a] using rev_ind.
    - rewrite last_last in Q. discriminate.
    - replace (A ++ DOT :: a ++ [c]) with ((A ++ DOT :: a) ++ [c]) in Q by (rewrite <- app_assoc; reflexivity).
      rewrite last_last in Q. subst c. apply La. apply in_or_app. right; now left. }
  rewrite app_nil_r in E.
  destruct (last_unique (N.eqb DOT) _ _ _ _ _ _ E eq_refl eq_refl) as (-> & _ & ->); auto.
  - rewrite forallb_forall. intros x Hx. destruct (N.eqb_spec DOT x); auto. subst. contradiction.
  - rewrite forallb_forall. intros x Hx. destruct (N.eqb_spec DOT x); auto. subst. contradiction.
Qed.

Lemma evr_H_tail k e v r a arches pr cs : rpm_version v -> ~ In DASH r ->
  In a arches -> Forall plain_arch arches ->
  H (Seq (evr_regex k) (tail_re arches)) (mkst pr (ep_text (ep_of e) ++ v ++ rel_text (rel_of r) ++ DOT :: a) cs)
    (mkst (rev a ++ DOT :: rev (ep_text (ep_of e) ++ v ++ rel_text (rel_of r)) ++ pr) []
          ((5%nat, a) :: ep_caps (k + 2) (rel_of r) ++ (k + 1, v)%nat :: ep_caps k (ep_of e) ++ cs)).
Proof.
  intros Hv Hr Ha Hpl. rewrite Forall_forall in Hpl. pose proof (Hpl a Ha) as (Na & Dota & Da & La & Ca).
  apply evr_regex_H; auto.
  - intros v1 v2 pr' E N1 N2 cs' m'. apply (short_dollar v v1 v2); auto; [apply Hv|].
    intros pr0 cs0 m0 HM. apply tail_Match in HM as (b & t & Hb & E2 & Ht & _). cbn [rest] in E2.
    assert (Q : dashes (v2 ++ rel_text (rel_of r) ++ DOT :: a) = dashes (DOT :: b ++ t)) by now rewrite E2.
    destruct (Hpl b Hb) as (_ & _ & Db & _ & _).
    assert (Q2 : dashes (DOT :: b ++ t) = 0%nat).
    { change (DOT :: b ++ t) with ([DOT] ++ b ++ t). rewrite !dashes_app, (dashes_0 b Db).
      destruct Ht as [->| ->]; reflexivity. }
    rewrite Q2 in Q. rewrite !dashes_app in Q. unfold rel_of in Q, E2. destruct r.
    { cbn [rel_text app] in E2. destruct (Hpl b Hb) as (_ & Dotb & _). destruct (dot_tail_unique v2 a [] b t) as (Q3 & _); auto. }
    cbn [rel_text] in Q. rewrite dashes_cons in Q. lia.
  - intros w2 rs' pr' cs' E N2 D2 _ m' HM. apply tail_Match in HM as (b & t & Hb & E2 & Ht & _).
    cbn [rest] in E2. subst rs'. destruct (Hpl b Hb) as (_ & Dotb & _).
    destruct (dot_tail_unique [] a w2 b t) as (Q & _); auto.
  - intros _ pr' cs' m' HM. apply Match_Seq in HM as (s1 & HM & _). apply Match_Seq in HM as (s0 & HC & _). apply Match_Ch in HC as (c & E0 & Ec & _). apply N.eqb_eq in Ec. subst c. discriminate.
  - intros w t E. destruct w as [|c w]; [discriminate|]. cbn in E. injection E as <- E. reflexivity.
  - apply H_unique.
    + apply MSeq with (s1 := mkst (rev a ++ DOT :: rev (ep_text (ep_of e) ++ v ++ rel_text (rel_of r)) ++ pr) []
          ((5%nat, a) :: ep_caps (k + 2) (rel_of r) ++ (k + 1, v)%nat :: ep_caps k (ep_of e) ++ cs)); [|now apply Match_Dollar].
      eapply MSeq; [apply MCh, N.eqb_refl|]. rewrite <- (app_nil_r a) at 1.
      apply (L_grp 5 _ _ _ _ (L_alts_in _ (word a) _ _ _ (in_map word _ _ Ha) (L_word a _))).
    + intros m' HM. apply tail_Match in HM as (b & t & Hb & E & Ht & ->). cbn [rest pre caps] in *.
      destruct (Hpl b Hb) as (_ & Dotb & _).
      destruct (dot_tail_unique [] a [] b t) as (_ & -> & ->); auto.
Qed.

Theorem nevra_roundtrip_gen arches x r : Forall plain_arch arches -> In (a_arch x) arches ->
  a_release x = rel_of r -> r <> [] \/ ~ In DASH (a_name x) -> rpm_release r -> rpm_name (a_name x) -> rpm_version (a_version x) ->
  nevra_from_string arches (nevra_str x) = Ok x.
Proof.
  destruct x as [n e v ro a]. cbn [a_name a_epoch a_version a_release a_arch].
  intros Hpl Ha -> Nr [Hr Lr] [Nn Ln] Hv.
  unfold nevra_from_string, nevra_str, nevr_str. cbn [a_name a_epoch a_version a_release a_arch n_name n_evr].
  replace (match rel_of r with Some r => r | None => [] end) with r by now destruct r.
  rewrite evr_str_eq. cbn [e_epoch e_version e_release].
  set (txt := ep_text (ep_of e) ++ v ++ rel_text (rel_of r)).
  assert (E : re_match (Seq Caret (Seq (nevra_regex arches) Dollar)) ((n ++ [DASH] ++ txt) ++ [DOT] ++ a) =
    Some (mkst (rev a ++ DOT :: rev txt ++ DASH :: rev n ++ []) []
          ((5%nat, a) :: ep_caps 4 (rel_of r) ++ (3, v)%nat :: ep_caps 2 (ep_of e) ++ [(1%nat, n)]))).
  { apply re_match_H. eapply H_seq; [apply H_caret|]. unfold nevra_regex, nevr_regex. do 2 apply H_Seq_assoc.
    rewrite <- app_assoc. apply H_lazy; auto.
    - unfold dot. now apply notin_forallb.
    - intros w1 w2 En N1 N2 m' HM. rewrite <- app_assoc in HM. cbn [app] in HM. unfold txt in HM. rewrite <- !app_assoc in HM. cbn [app] in HM.
      apply Match_Seq_assoc in HM. 
      assert (HM' : Match (Seq (Seq (chr DASH) (evr_regex 2)) (tail_re arches))
         (mkst (rev w1 ++ []) (w2 ++ DASH :: ep_text (ep_of e) ++ v ++ rel_text (rel_of r) ++ DOT :: a) [(1%nat, w1)]) m').
      { apply Match_Seq_assoc in HM. unfold tail_re. apply Match_Seq in HM as (s1 & HM1 & HM2).
        apply Match_Seq. exists s1. split; auto. }
      revert HM'. rewrite Forall_forall in Hpl. destruct (Hpl a Ha) as (_ & _ & Da & _).
      apply (nevr_shorter 2 (tail_re arches) n w1 w2 v r e); auto; [apply Hv| |].
      + intros s1 m0 HD. apply tail_Match in HD as (b & t & Hb & -> & Ht & _). destruct (Hpl b Hb) as (_ & _ & Db & _).
        change (DOT :: b ++ t) with ([DOT] ++ b ++ t). rewrite !dashes_app, (dashes_0 b Db). destruct Ht as [->| ->]; reflexivity.
      + change (DOT :: a) with ([DOT] ++ a). now rewrite dashes_app, (dashes_0 a Da).
    - unfold txt. rewrite <- !app_assoc. cbn [app]. apply H_Seq_assoc. eapply H_seq; [apply H_chr|].
      apply (evr_H_tail 2 e v r a arches (DASH :: rev n ++ []) [(1%nat, n)]); auto. }
  rewrite E.
  destruct (groups_back 2 e v r [(1%nat, n)] [] [] eq_refl) as (G1 & G2 & G3).
  unfold epoch_group, group_str, group in *. cbn [Nat.add caps cap_get Nat.eqb] in *. rewrite G1, G2, G3.
  replace (cap_get 1 _) with (Some n) by (unfold ep_of; destruct (0 <? e); destruct r; reflexivity).
  unfold make_nevra.
  destruct (re_match (Seq Caret (Seq (arches_regex 1 arches) Dollar)) a) as [m|] eqn:E2.
  - unfold group. cbn [Nat.add caps cap_get Nat.eqb]. destruct r; [unfold ep_of; destruct (0 <? e)|]; reflexivity.
  - exfalso. rewrite re_match_None in E2. eapply E2. apply match_whole_caret.
    apply L_grp. eapply L_alts_in; [apply in_map, Ha|]. apply L_word.
Qed.

Lemma forall_dec_plain : forallb (fun a => negb (match a with [] => true | _ => false end)
   && negb (existsb (fun c => (c =? DOT) || (c =? DASH) || (c =? LF) || (c =? COLON)) a)) arch_set = true.
Proof. vm_compute. reflexivity. Qed.
Lemma arch_plain : Forall plain_arch arch_set.
Proof.
  apply Forall_forall. intros a Ha. pose proof forall_dec_plain as F. rewrite forallb_forall in F.
  apply F in Ha. apply andb_true_iff in Ha as [H1 H2]. apply negb_true_iff in H2.
  assert (Q : forall c, In c a -> (c =? DOT) || (c =? DASH) || (c =? LF) || (c =? COLON) = false).
  { intros c Hc. apply not_true_iff_false. intros E.
    rewrite <- not_true_iff_false in H2. apply H2. apply existsb_exists. eauto. }
  repeat split.
  - destruct a; [discriminate|congruence].
  - intros Hi. apply Q in Hi. discriminate.
  - intros Hi. apply Q in Hi. discriminate.
  - intros Hi. apply Q in Hi. discriminate.
  - intros Hi. apply Q in Hi. discriminate.
Qed.

Lemma arches_plain arches : Permutation arches (lit "noarch" :: ARCH_NAMES) -> Forall plain_arch arches.
Proof.
  intros Hp. rewrite Forall_forall. intros a Hin. pose proof arch_plain as Q. rewrite Forall_forall in Q. apply Q. eapply Permutation_in; [|exact Hin].
  rewrite Hp. apply Permutation_cons_append.
Qed.
Theorem nevra_roundtrip arches x r : Permutation arches (lit "noarch" :: ARCH_NAMES) -> a_arch x = lit "noarch" \/ In (a_arch x) ARCH_NAMES ->
  a_release x = Some r -> r <> [] -> rpm_release r -> rpm_name (a_name x) -> rpm_version (a_version x) ->
  nevra_from_string arches (nevra_str x) = Ok x.
Proof.
  intros Hp Ha E Nr. apply nevra_roundtrip_gen; auto; [now apply arches_plain| |rewrite E; now destruct r].
  eapply Permutation_in; [apply Permutation_sym; eauto|]. destruct Ha as [->|Ha]; [now left|now right].
Qed.
Theorem nevra_no_release arches x : Permutation arches (lit "noarch" :: ARCH_NAMES) -> a_arch x = lit "noarch" \/ In (a_arch x) ARCH_NAMES ->
  a_release x = None -> rpm_name (a_name x) -> ~ In DASH (a_name x) -> rpm_version (a_version x) ->
  nevra_from_string arches (nevra_str x) = Ok x.
Proof.
  intros Hp Ha E N D V. apply (nevra_roundtrip_gen arches x []); auto; [now apply arches_plain| |split; intros []].
  eapply Permutation_in; [apply Permutation_sym; eauto|]. destruct Ha as [->|Ha]; [now left|now right].
Qed.
End U.

(** Ordering. *)
Section Cmp.
Variable cmp : label -> label -> Z.
Hypothesis Hc : total_preorder cmp.
Lemma cmp_flip x y : (cmp x y < 0 <-> cmp y x > 0)%Z.
Proof. destruct Hc as [A _]. pose proof (A y x). lia. Qed.
Lemma cmp_zero x y : (cmp x y = 0 <-> cmp y x = 0)%Z.
Proof. destruct Hc as [A _]. pose proof (A y x). pose proof (A x y). lia. Qed.
Lemma cmp_refl x : (cmp x x = 0)%Z.
Proof. destruct Hc as [A _]. pose proof (A x x). lia. Qed.

Theorem evr_order_consistent x y :
  evr_le cmp x y = (evr_lt cmp x y || evr_eq cmp x y) /\
  evr_ge cmp x y = evr_le cmp y x /\
  evr_gt cmp x y = evr_lt cmp y x /\
  evr_lt cmp x y = negb (evr_ge cmp x y) /\
  evr_ne cmp x y = negb (evr_eq cmp x y) /\
  evr_eq cmp x y = (evr_le cmp x y && evr_le cmp y x).
Proof.
  unfold evr_le, evr_lt, evr_eq, evr_ge, evr_gt, evr_ne, evr_cmp.
  pose proof (cmp_flip (evr_label x) (evr_label y)). pose proof (cmp_flip (evr_label y) (evr_label x)).
  pose proof (cmp_zero (evr_label x) (evr_label y)).
  set (a := cmp (evr_label x) (evr_label y)) in *. set (b := cmp (evr_label y) (evr_label x)) in *.
  rewrite !Z.geb_leb, !Z.gtb_ltb.
  destruct (Z.leb_spec a 0), (Z.ltb_spec a 0), (Z.eqb_spec a 0), (Z.leb_spec 0 a), (Z.leb_spec b 0), (Z.ltb_spec b 0), (Z.ltb_spec 0 a);
    cbn; repeat split; auto; lia.
Qed.
Theorem evr_order_total x y : evr_le cmp x y = true \/ evr_le cmp y x = true.
Proof.
  unfold evr_le, evr_cmp. pose proof (cmp_flip (evr_label x) (evr_label y)).
  destruct (Z.leb_spec (cmp (evr_label x) (evr_label y)) 0); auto. right. apply Z.leb_le.
  destruct Hc as [A _]. pose proof (A (evr_label y) (evr_label x)). lia.
Qed.
Theorem evr_order_trans x y z : evr_le cmp x y = true -> evr_le cmp y z = true -> evr_le cmp x z = true.
Proof. unfold evr_le, evr_cmp. rewrite !Z.leb_le. apply Hc. Qed.
Theorem evr_same_key x y : evr_key x = evr_key y -> evr_eq cmp x y = true.
Proof.
  destruct x as [e v r], y as [e' v' r']. unfold evr_key. cbn. intros E. injection E as -> -> ->.
  unfold evr_eq, evr_cmp. rewrite cmp_refl. reflexivity.
Qed.
Lemma nevr_same_key : forall x y : nevr, nevr_key x = nevr_key y -> x = y /\ nevr_eq cmp x y = true.
Proof.
  intros [n [e v r]] [n' [e' v' r']] H. injection H as -> -> -> ->. split; [reflexivity|]. unfold nevr_eq. cbn [n_name n_evr]. rewrite str_eqb_refl. now apply evr_same_key.
Qed.
Lemma nevra_same_key : forall x y : nevra, nevra_key x = nevra_key y -> x = y /\ nevra_eq cmp x y = true.
Proof.
  intros [n e v r a] [n' e' v' r' a'] H. injection H as -> -> -> -> ->. split; [reflexivity|]. unfold nevra_eq. rewrite !str_eqb_refl. apply Z.eqb_eq. apply cmp_refl.
Qed.
(** NEVR and NEVRA are compared by EVR, provided name (and arch) agree. *)
Theorem nevr_order x y :
  (n_name x = n_name y ->
    nevr_lt cmp x y = Some (evr_lt cmp (n_evr x) (n_evr y)) /\
    nevr_le cmp x y = Some (evr_le cmp (n_evr x) (n_evr y)) /\
    nevr_ge cmp x y = Some (evr_ge cmp (n_evr x) (n_evr y)) /\
    nevr_gt cmp x y = Some (evr_gt cmp (n_evr x) (n_evr y)) /\
    nevr_eq cmp x y = evr_eq cmp (n_evr x) (n_evr y)) /\
  (n_name x <> n_name y ->
    nevr_lt cmp x y = None /\ nevr_le cmp x y = None /\ nevr_ge cmp x y = None /\ nevr_gt cmp x y = None /\
    nevr_eq cmp x y = false) /\
  nevr_ne cmp x y = negb (nevr_eq cmp x y).
Proof.
  unfold nevr_lt, nevr_le, nevr_ge, nevr_gt, nevr_eq, nevr_ne, nevr_ord. repeat split; intros.
  1-5: rewrite H, str_eqb_refl; reflexivity.
  1-5: apply str_eqb_neq in H; rewrite H; reflexivity.
  destruct (str_eqb _ _); reflexivity.
Qed.
Theorem nevra_order x y r r' : a_release x = Some r -> a_release y = Some r' ->
  (a_name x = a_name y /\ a_arch x = a_arch y ->
    nevra_lt cmp x y = Some (evr_lt cmp (nevra_evr x r) (nevra_evr y r')) /\
    nevra_le cmp x y = Some (evr_le cmp (nevra_evr x r) (nevra_evr y r')) /\
    nevra_ge cmp x y = Some (evr_ge cmp (nevra_evr x r) (nevra_evr y r')) /\
    nevra_gt cmp x y = Some (evr_gt cmp (nevra_evr x r) (nevra_evr y r')) /\
    nevra_eq cmp x y = evr_eq cmp (nevra_evr x r) (nevra_evr y r')) /\
  (a_name x <> a_name y \/ a_arch x <> a_arch y ->
    nevra_lt cmp x y = None /\ nevra_le cmp x y = None /\ nevra_ge cmp x y = None /\ nevra_gt cmp x y = None /\
    nevra_eq cmp x y = false) /\
  nevra_ne cmp x y = negb (nevra_eq cmp x y).
Proof.
  intros Ex Ey.
  assert (Q : nevra_cmp cmp x y = evr_cmp cmp (nevra_evr x r) (nevra_evr y r')).
  { unfold nevra_cmp, evr_cmp, nevra_label, evr_label. now rewrite Ex, Ey. }
  unfold nevra_lt, nevra_le, nevra_ge, nevra_gt, nevra_eq, nevra_ne, nevra_ord. rewrite Q.
  split; [|split].
  - intros [-> ->]. rewrite !str_eqb_refl. cbn. repeat split; auto.
  - intros [E|E]; apply str_eqb_neq in E; rewrite E; cbn; rewrite ?orb_true_r, ?andb_false_r; auto.
  - destruct (str_eqb _ _), (str_eqb _ _); reflexivity.
Qed.
End Cmp.

(** File names. *)
Lemma rsplit_last_spec c s : match rsplit_last c s with
  | Some (a, b) => s = a ++ c :: b /\ ~ In c b
  | None => ~ In c s end.
Proof.
  induction s as [|d s IH]; cbn; auto. destruct (rsplit_last c s) as [[a b]|].
  - destruct IH as [-> Hn]. split; auto.
  - destruct (N.eqb_spec d c); [subst; auto|]. intros [E|E]; auto.
Qed.
Lemma split_on_last c : forall s cur, ~ In c (rev cur) ->
  exists p, (forall d, In d p -> True) /\ (rev cur ++ s = p ++ last (split_on c cur s) [] /\ ~ In c (last (split_on c cur s) []) /\
    (p = [] \/ exists q, p = q ++ [c])).
Proof.
  induction s as [|d s IH]; intros cur Hn; cbn [split_on].
  - exists []. cbn. rewrite app_nil_r. auto.
  - destruct (N.eqb_spec c d) as [->|Nd].
    + destruct (IH [] (fun x => x)) as (p & _ & E & Hl & Hp). cbn in E.
      assert (Ne : split_on d [] s <> []) by (destruct s as [|z s]; cbn; [discriminate|destruct (d =? z); try discriminate]; clear; generalize [z] as cur; induction s as [|y s IH]; cbn; intros; [discriminate|destruct (d =? y); [discriminate|apply IH]]).
      replace (last (rev cur :: split_on d [] s) []) with (last (split_on d [] s) []) by (cbn; destruct (split_on d [] s); [congruence|auto]).
      exists (rev cur ++ d :: p). split; auto. split; [rewrite E at 1; now rewrite <- app_assoc|]. split; auto.
      right. destruct Hp as [->|[q ->]].
      * exists (rev cur). reflexivity.
      * exists (rev cur ++ d :: q). now rewrite <- app_assoc.
    + destruct (IH (d :: cur)) as (p & _ & E & Hl & Hp).
      { cbn. rewrite in_app_iff. intros [X|[X|[]]]; auto. }
      exists p. split; auto. cbn [rev] in E. rewrite <- app_assoc in E. auto.
Qed.

Theorem filename_spec l :
  (~ In SLASH l /\ get_filename_from_location l = l) \/
  (exists p, l = p ++ get_filename_from_location l /\
     ~ In SLASH (get_filename_from_location l) /\ ~ In EQUALS (get_filename_from_location l) /\
     In SLASH l /\ exists q c, p = q ++ [c] /\ (c = SLASH \/ c = EQUALS)).
Proof.
  unfold get_filename_from_location. pose proof (rsplit_last_spec SLASH l) as S0.
  destruct (rsplit_last SLASH l) as [[a b]|]; [right|left; auto].
  destruct S0 as [-> Hb]. destruct (split_on_last EQUALS b [] (fun x => x)) as (p & _ & E & Hl & Hp). cbn [rev app] in E.
  exists (a ++ SLASH :: p). split; [rewrite E at 1; now rewrite <- app_assoc|]. split.
  - intros Hi. apply Hb. rewrite E. apply in_or_app. now right.
  - split; auto. split; [apply in_or_app; right; now left|]. destruct Hp as [->|[q ->]].
    + exists a, SLASH. auto.
    + exists (a ++ SLASH :: q), EQUALS. rewrite <- app_assoc. auto.
Qed.
