(** Proofs about condition processing: the condition regex. *)
From Coq Require Import Ascii String.
From Coq Require Import NArith ZArith List Bool Lia.
From Verif Require Import PyStr PyStrFacts Regex RegexFacts M_value M_macro_definitions Spec_macro_definitions
  P_macro_definitions P_macro_definitions2 P_macro_definitions3 M_conditions Spec_conditions.
Import ListNotations.
Open Scope N_scope.

Lemma kwd_sound s s' : Match kwd_regex s s' ->
  exists kw, In kw keywords /\ rest s = kw ++ rest s' /\ pre s' = rev kw ++ pre s /\ caps s' = caps s.
Proof.
  unfold kwd_regex. intros HM. apply Match_Seq in HM as (s1 & H1 & H2).
  apply Match_Ch in H1 as (c & E1 & Ec & P1 & C1). apply N.eqb_eq in Ec. subst c.
  cbn [alts] in H2.
  apply Match_Alt in H2 as [H2|H2].
  - apply Match_Seq in H2 as (s2 & H2 & H3). apply Match_Seq in H3 as (s3 & H3 & H4).
    apply Match_word in H3 as (E3 & P3 & C3).
    unfold Opt in H2. rewrite Match_Alt, Match_word, Match_Eps in H2.
    unfold Opt in H4. rewrite Match_Alt, Match_Eps in H4.
    assert (K : exists k2, In k2 [[]; lit "arch"; lit "narch"; lit "os"; lit "nos"] /\ rest s3 = k2 ++ rest s' /\ pre s' = rev k2 ++ pre s3 /\ caps s' = caps s3).
    { destruct H4 as [H4| ->]; [|exists []; cbn; auto].
      apply Match_Seq in H4 as (s4 & H4 & H5). rewrite Match_Alt, !Match_word in H5. unfold Opt, chr in H4. rewrite Match_Alt, Match_Ch, Match_Eps in H4.
      destruct H4 as [(c & E4 & Ec & P4 & C4)| ->].
      - apply N.eqb_eq in Ec. subst c. destruct H5 as [(E5 & P5 & C5)|(E5 & P5 & C5)].
        + exists (lit "narch"). rewrite E4, E5, P5, P4, C5, C4. cbn; auto 10.
        + exists (lit "nos"). rewrite E4, E5, P5, P4, C5, C4. cbn; auto 10.
      - destruct H5 as [(E5 & P5 & C5)|(E5 & P5 & C5)].
        + exists (lit "arch"). rewrite E5, P5, C5. cbn; auto 10.
        + exists (lit "os"). rewrite E5, P5, C5. cbn; auto 10. }
    destruct K as (k2 & Hk & E4 & P4 & C4).
    assert (J : exists k1, In k1 [[]; lit "el"] /\ rest s1 = k1 ++ rest s2 /\ pre s2 = rev k1 ++ pre s1 /\ caps s2 = caps s1).
    { destruct H2 as [(E2 & P2 & C2)| ->]; [exists (lit "el")|exists []]; cbn; auto. }
    destruct J as (k1 & Hj & E2 & P2 & C2).
    exists (PCT :: k1 ++ lit "if" ++ k2). split; [|split; [|split]].
    + cbn in Hj, Hk. destruct Hj as [<-|[<-|[]]]; destruct Hk as [<-|[<-|[<-|[<-|[<-|[]]]]]]; vm_compute; tauto.
    + rewrite E1, E2, E3, E4. cbn [app]. f_equal. repeat (rewrite <- ?app_assoc; cbn [app]). reflexivity.
    + rewrite P4, P3, P2, P1. cbn [rev]. rewrite !rev_app_distr, <- !app_assoc. reflexivity.
    + congruence.
  - rewrite Match_Alt, !Match_word in H2. destruct H2 as [(E2 & P2 & C2)|(E2 & P2 & C2)].
    + exists (lit "%endif"). rewrite E1, E2, P2, P1, C2, C1. split; [vm_compute; tauto|auto].
    + exists (lit "%else"). rewrite E1, E2, P2, P1, C2, C1. split; [vm_compute; tauto|auto].
Qed.

Lemma blank_iff s : blank s <-> forallb is_space s = true.
Proof. unfold blank. rewrite forallb_forall, Forall_forall. reflexivity. Qed.

Theorem cond_sound x m : re_match condition_regex x = Some m ->
  exists kw after, keyword_line x kw after /\ group_str 1 m = kw.
Proof.
  intros HM. apply re_match_sound in HM. unfold condition_regex in HM.
  apply Match_Seq in HM as (s0 & H0 & HM). apply Match_Caret in H0 as [-> _].
  apply Match_Seq in HM as (s1 & H1 & HM). apply Match_Star in H1 as (w & E1 & B1 & P1 & C1). cbn [rest] in E1.
  apply Match_Seq in HM as (s2 & H2 & HM). apply Match_Grp in H2 as (kw' & s2' & Hk & E2 & R2 & Q2 & P2 & C2).
  apply kwd_sound in Hk as (kw & Ik & Ek & Pk & Ck).
  assert (kw' = kw) as ->. { rewrite R2 in Ek. rewrite E2 in Ek. now apply app_inv_tail in Ek. }
  apply Match_Seq in HM as (s3 & H3 & HM). apply Match_Star in H3 as (w3 & E3 & B3 & P3 & C3).
  apply Match_Seq in HM as (s4 & H4 & H5). apply Match_Dollar in H5 as [-> D].
  exists kw, (rest s2). split.
  - exists w. rewrite E1, E2. split; [reflexivity|]. split; [now apply blank_iff|]. split; [auto|].
    rewrite E3. destruct w3 as [|c w3]; [|right; exists c, (w3 ++ rest s3); cbn in B3; apply andb_true_iff in B3 as [B3 _]; auto].
    unfold Opt in H4. rewrite Match_Alt, Match_Eps in H4. destruct H4 as [H4| ->].
    + apply Match_Seq in H4 as (s5 & H4 & _). apply Match_Plus in H4 as (w5 & N5 & E5 & B5 & _).
      right. destruct w5 as [|c w5]; [congruence|]. exists c, (w5 ++ rest s5). rewrite E5. cbn in B5. apply andb_true_iff in B5 as [B5 _]. auto.
    + cbn [app]. unfold at_dollar in D. destruct (rest s3) as [|c [|? ?]]; [now left| |discriminate].
      apply N.eqb_eq in D. subst c. right. exists LF, []. auto.
  - unfold Opt in H4. rewrite Match_Alt, Match_Eps in H4.
    assert (K : cap_get 1 (caps s4) = Some kw).
    { assert (K0 : cap_get 1 (caps s3) = Some kw) by (rewrite C3, C2; reflexivity).
      destruct H4 as [H4| ->]; [|exact K0].
      apply Match_Seq in H4 as (s5 & H4 & H6). apply Match_Plus in H4 as (w5 & N5 & E5 & B5 & P5 & C5).
      apply Match_Seq in H6 as (s6 & H6 & H7). apply Match_Grp_Star in H6 as (w6 & _ & _ & _ & C6).
      apply Match_Grp_simple in H7 as (w7 & s7 & _ & _ & _ & _ & ->); [|cbn; tauto].
      cbn [caps cap_get Nat.eqb]. rewrite C6. cbn [cap_get Nat.eqb]. rewrite C5. exact K0. }
    unfold group_str, group. now rewrite K.
Qed.

Theorem plain_no_match x : plain_line x -> re_match condition_regex x = None.
Proof.
  intros P. destruct (re_match condition_regex x) as [m|] eqn:E; auto.
  apply cond_sound in E as (kw & after & K & _). now apply P in K.
Qed.

Lemma space_letters c : is_space c = true ->
  (97 =? c) = false /\ (110 =? c) = false /\ (111 =? c) = false /\ (101 =? c) = false /\ (105 =? c) = false /\ (114 =? c) = false /\ (115 =? c) = false.
Proof.
  intros S. repeat split; apply N.eqb_neq; intros <-; vm_compute in S; discriminate.
Qed.

Lemma kwd_first kw after pr cs : In kw keywords -> (after = [] \/ exists c r, after = c :: r /\ is_space c = true) ->
  H kwd_regex (mkst pr (kw ++ after) cs) (mkst (rev kw ++ pr) after cs).
Proof.
  intros Ik Ha. unfold H.
  destruct Ha as [->|(c & r & -> & Sc)].
  - cbn in Ik. repeat (destruct Ik as [<-|Ik]; [reflexivity|]). destruct Ik.
  - destruct (space_letters c Sc) as (Ea & En & Eo & Ee & Ei & Er & Es).
    unfold keywords, if_keywords, elif_keywords in Ik. cbn in Ik.
    repeat (destruct Ik as [<-|Ik]; [
      cbn -[N.eqb];
      repeat (first [ rewrite Ea | rewrite En | rewrite Eo
                    | match goal with |- context [N.eqb ?a ?b] =>
                        let v := eval vm_compute in (N.eqb a b) in
                        match v with true => change (N.eqb a b) with true | false => change (N.eqb a b) with false end end ];
              cbn -[N.eqb]);
      reflexivity|]).
    destruct Ik.
Qed.

Lemma rstrip_split s : exists t, s = rstrip s ++ t /\ isblank t = true /\
  (rstrip s = [] \/ exists a c, rstrip s = a ++ [c] /\ is_space c = false).
Proof.
  unfold rstrip. pose proof (takedrop is_space (rev s)) as E. exists (rev (takewhile is_space (rev s))).
  split; [|split].
  - rewrite <- rev_app_distr, E. now rewrite rev_involutive.
  - unfold isblank. rewrite forallb_forall. intros c Hc. apply in_rev in Hc. clear E.
    induction (rev s) as [|d l IH]; cbn in *; [tauto|]. destruct (is_space d) eqn:Ed; [|destruct Hc].
    destruct Hc as [<-|Hc]; auto.
  - destruct (dropwhile is_space (rev s)) as [|c l] eqn:D; [now left|right].
    exists (rev l), c. split; [reflexivity|]. clear E. induction (rev s) as [|d l' IH]; cbn in D; [discriminate|].
    destruct (is_space d) eqn:Ed; auto. congruence.
Qed.
Lemma lstrip_split s : exists w, s = w ++ lstrip s /\ isblank w = true /\
  (lstrip s = [] \/ exists c r, lstrip s = c :: r /\ is_space c = false).
Proof.
  unfold lstrip. exists (takewhile is_space s). split; [symmetry; apply takedrop|]. split.
  - unfold isblank. induction s as [|d l IH]; cbn; auto. destruct (is_space d) eqn:Ed; cbn; auto. now rewrite Ed.
  - induction s as [|d l IH]; cbn; auto. destruct (is_space d) eqn:Ed; auto. right; eauto.
Qed.

Definition expr_of (m : st) : str :=
  let e0 := group_str 2 m in
  if str_eqb e0 [] then [] else if str_eqb (group_str 3 m) [BSLASH] then e0 ++ [BSLASH] else e0.

Definition re_tail : re := Seq (Grp 3 (Alt (Star true is_space) (chr BSLASH))) Dollar.
Lemma re_tail_match s m : Match re_tail s m -> ~ In LF (rest s) -> isblank (rest s) = true \/ rest s = [BSLASH].
Proof.
  intros HM NL. apply Match_Seq in HM as (s1 & H1 & H2). apply Match_Dollar in H2 as [-> D].
  apply Match_Grp_simple in H1 as (w & s2 & H1 & E & _ & _ & ->); [|cbn; tauto]. cbn [rest] in *.
  assert (rest s2 = []) as R. { apply at_dollar_noLF; auto. intros Hi. apply NL. rewrite E. apply in_or_app. now right. }
  unfold chr in H1. rewrite Match_Alt, Match_Ch, Match_Star in H1. destruct H1 as [(w' & E' & B & _)|(c & E' & Ec & _)].
  - left. rewrite E', R, app_nil_r. exact B.
  - right. apply N.eqb_eq in Ec. subst c. now rewrite E', R.
Qed.
Lemma re_tail_blank pr t cs : isblank t = true -> exists cs', H re_tail (mkst pr t cs) (mkst (rev t ++ pr) [] cs') /\ cs' = (3%nat, t) :: cs.
Proof.
  intros B. eexists. split; [|reflexivity]. unfold re_tail. eapply H_seq.
  - eapply (H_grp _ _ _ (mkst (rev t ++ pr) [] cs) t); [|reflexivity]. apply H_altl.
    rewrite <- (app_nil_r t) at 1. apply H_star; auto. discriminate.
  - reflexivity.
Qed.

Lemma re_tail_bs pr cs : H re_tail (mkst pr [BSLASH] cs) (mkst (BSLASH :: pr) [] ((3%nat, [BSLASH]) :: cs)).
Proof. unfold H. cbn -[consumed]. now rewrite (consumed_eq _ _ [BSLASH]). Qed.

Lemma isblank_last a c t : is_space c = false -> isblank ((a ++ [c]) ++ t) = false.
Proof.
  intros S. unfold isblank. rewrite !forallb_app. cbn. rewrite S. now rewrite andb_false_r.
Qed.

Theorem cond_match x kw e : cond_line x kw e ->
  exists m, re_match condition_regex x = Some m /\ group_str 1 m = kw /\ expr_of m = e.
Proof.
  intros (after & (w & Ex & Bw & Ik & Ha) & NL & Ee).
  assert (Nk : forall c r, kw ++ after = c :: r -> is_space c = false).
  { intros c r E. assert (exists r', kw = PCT :: r') as (r' & ->).
    { cbn in Ik. repeat (destruct Ik as [<-|Ik]; [eexists; reflexivity|]). destruct Ik. }
    injection E as <- _. reflexivity. }
  destruct (lstrip_split after) as (w2 & Ea & B2 & Hl).
  assert (NLa : ~ In LF after) by (intros Hi; apply NL; rewrite Ex; apply in_or_app; right; apply in_or_app; auto).
  assert (Step : forall m, H (Seq (Star true is_space)
     (Seq (Opt (Seq (Plus true is_space)
            (Seq (Grp 2 (Star false dot)) (Grp 3 (Alt (Star true is_space) (chr BSLASH)))))) Dollar))
       (mkst (rev kw ++ rev w) after [(1%nat, kw)]) m -> re_match condition_regex x = Some m).
  { intros m Hm. apply re_match_H. unfold condition_regex. subst x.
    eapply H_seq; [reflexivity|]. eapply H_seq; [apply H_star; [now apply blank_iff|exact Nk]|].
    rewrite app_nil_r. eapply H_seq; [|exact Hm].
    apply (H_grp _ _ _ (mkst (rev kw ++ rev w) after []) kw); [|reflexivity]. now apply kwd_first. }
  destruct Hl as [L0|(c & r & Lr & Sc)].
  - rewrite L0, app_nil_r in Ea. eexists. split; [apply Step|].
    + eapply H_seq; [rewrite Ea; rewrite <- (app_nil_r w2) at 1; apply H_star; [exact B2|discriminate]|].
      eapply H_seq; [apply H_altr; [|apply H_eps]|reflexivity].
      apply seq_nil. reflexivity.
    + split; [reflexivity|]. rewrite Ee. unfold strip. rewrite L0. reflexivity.
  - assert (Nw : w2 <> []).
    { intros ->. cbn in Ea. destruct Ha as [->|(c' & r' & -> & Sc')]; [discriminate|]. rewrite Lr in Ea. injection Ea as -> ->. congruence. }
    destruct (exists_last Nw) as (w' & sp & ->).
    unfold isblank in B2. rewrite forallb_app in B2. apply andb_true_iff in B2 as [B2 Bs]. cbn in Bs. rewrite andb_true_r in Bs.
    set (l := lstrip after) in *.
    assert (NLl : ~ In LF l) by (intros Hi; apply NLa; rewrite Ea; apply in_or_app; auto).
    assert (Red : forall m, H (Seq (Grp 2 (Star false dot)) re_tail) (mkst (sp :: rev w' ++ rev kw ++ rev w) l [(1%nat, kw)]) m ->
       re_match condition_regex x = Some m).
    { intros m Hm. apply Step. rewrite Ea, <- app_assoc.
      destruct (star_greedy_split is_space w' (rev kw ++ rev w) ([sp] ++ l) [(1%nat, kw)] B2) as (l1 & l2 & El & Hl1).
      eapply H_Seq_first; [cbn [results pre rest caps]; exact El| |].
      - intros z Hz m' HM. apply Hl1 in Hz as (w3 & rs' & N3 & E3 & B3 & ->).
        assert (w3 = [sp] /\ rs' = l) as [-> ->].
        { destruct w3 as [|a w3]; [congruence|]. cbn in E3. injection E3 as <- E3. destruct w3 as [|b w3]; [cbn in E3; auto|].
          rewrite Lr in E3. cbn in E3. injection E3 as <- _. cbn in B3. rewrite Sc in B3. rewrite andb_false_r in B3. discriminate. }
        apply Match_Seq in HM as (s4 & H4 & H5). apply Match_Dollar in H5 as [-> D].
        unfold Opt in H4. rewrite Match_Alt, Match_Eps in H4. destruct H4 as [H4| ->].
        + apply Match_Seq in H4 as (s5 & H4 & _). apply Match_Plus in H4 as (w5 & N5 & E5 & B5 & _). cbn [rest] in E5.
          destruct w5 as [|a w5]; [congruence|]. rewrite Lr in E5. injection E5 as <- _. cbn in B5. rewrite Sc in B5. discriminate.
        + cbn [rest] in D. apply at_dollar_noLF in D; auto. rewrite Lr in D. discriminate.
      - apply H_Seq_altl. apply H_Seq_assoc. eapply H_seq; [apply (H_plus is_space _ [sp] l)|].
        + discriminate.
        + cbn. now rewrite Bs.
        + rewrite Lr. intros c' rs' Q. injection Q as <- _. exact Sc.
        + cbn [rev app]. apply H_Seq_assoc. exact Hm. }
    destruct (rstrip_split l) as (t & El & Bt & Hr).
    assert (exists a d, rstrip l = a ++ [d] /\ is_space d = false) as (a & d & Er & Sd).
    { destruct Hr as [Hr|Hr]; auto. exfalso. rewrite Hr in El. cbn in El. rewrite El in Lr. rewrite Lr in Bt. cbn in Bt. rewrite Sc in Bt. discriminate. }
    assert (Es : strip after = a ++ [d]) by (unfold strip; exact Er).
    assert (D : (t = [] /\ d = BSLASH) \/ ~ (t = [] /\ d = BSLASH)).
    { destruct t; [|right; intros [? _]; discriminate]. destruct (N.eq_dec d BSLASH); [left; auto|right; intros [_ ?]; contradiction]. }
    destruct D as [[-> ->]|Nb].
    + (* ends in a backslash *)
      rewrite app_nil_r, Er in El. eexists. split; [apply Red|].
      * rewrite El. apply H_lazy_star; [apply noLF_dot; intros Hi; apply NLl; rewrite El; apply in_or_app; auto| |apply re_tail_bs].
        intros w1 w3 E13 N3 m' HM. apply re_tail_match in HM; cbn [rest] in *.
        -- destruct HM as [HM|HM].
           ++ unfold isblank in HM. rewrite forallb_app in HM. apply andb_true_iff in HM as [_ HM]. discriminate.
           ++ destruct w3 as [|? w3]; [congruence|]. injection HM as _ HM. destruct w3; discriminate.
        -- intros Hi. apply NLl. rewrite El. apply in_app_or in Hi as [Hi|Hi]; apply in_or_app; [left|now right].
           rewrite E13. apply in_or_app. now right.
      * split; [reflexivity|]. unfold expr_of, group_str, group. cbn [caps cap_get Nat.eqb]. rewrite Ee, Es. fold l. rewrite El.
        destruct a as [|a0 a]; [reflexivity|]. change (str_eqb (a0 :: a) []) with false. cbv iota.
        unfold group_str, group. cbn [caps cap_get Nat.eqb]. change (str_eqb [BSLASH] [BSLASH]) with true.
        cbv iota. destruct (str_eqb ((a0 :: a) ++ [BSLASH]) [BSLASH]) eqn:Q; auto.
        apply str_eqb_eq in Q. destruct a; discriminate.
    + destruct (re_tail_blank (rev (rstrip l) ++ sp :: rev w' ++ rev kw ++ rev w) t ((2%nat, rstrip l) :: [(1%nat, kw)]) Bt) as (cs' & Ht & ->).
      eexists. split; [apply Red|].
      * rewrite El at 1. apply H_lazy_star; [apply noLF_dot; intros Hi; apply NLl; rewrite El; apply in_or_app; auto| |exact Ht].
        intros w1 w3 E13 N3 m' HM. apply re_tail_match in HM; cbn [rest] in *.
        -- rewrite Er in E13. destruct (exists_last N3) as (w4 & d' & ->). rewrite app_assoc in E13.
           apply app_inj_tail in E13 as [_ ->].
           destruct HM as [HM|HM].
           ++ rewrite isblank_last in HM by auto. discriminate.
           ++ apply Nb. destruct w4 as [|? w4]; [cbn in HM; injection HM as -> ->; auto|].
              injection HM as _ HM. destruct w4; discriminate.
        -- intros Hi. apply NLl. rewrite El. apply in_app_or in Hi as [Hi|Hi]; apply in_or_app; [left|now right].
           rewrite E13. apply in_or_app. now right.
      * split; [reflexivity|]. unfold expr_of. unfold group_str, group. cbn [caps cap_get Nat.eqb]. rewrite Ee, Es, Er.
        assert (str_eqb (a ++ [d]) [] = false) as -> by (apply str_eqb_neq; destruct a; discriminate).
        assert (str_eqb t [BSLASH] = false) as -> by (apply str_eqb_neq; intros ->; discriminate).
        fold l. destruct (str_eqb l [BSLASH]) eqn:Q; auto.
        exfalso. apply str_eqb_eq in Q. rewrite Er in El. rewrite El in Q. apply Nb.
        destruct a as [|? a]; [cbn in Q; injection Q as -> ->; auto|]. injection Q as _ Q. destruct a; discriminate.
Qed.
