From Coq Require Import Ascii String.
From Coq Require Import NArith ZArith List Bool Lia Arith.
From Verif Require Import PyStr PyStrFacts Regex RegexFacts M_evr M_changelog Spec_changelog P_changelog.
Import ListNotations.
Open Scope N_scope.

(** ** Filtering *)
Lemma first_index_spec test f data : (forall e, In e data -> test e = Ok (f e)) -> forall i,
  first_index test data i = Ok (option_map (fun k => (k + i)%nat) (find_index f data)).
Proof.
  induction data as [|e data IH]; intros H i; cbn [first_index find_index]; auto.
  rewrite H by now left. cbn [bind]. destruct (f e); cbn; auto.
  rewrite IH by (intros; apply H; now right). destruct (find_index f data); cbn; auto.
  now rewrite <- plus_n_Sm.
Qed.

Lemma find_index_Some {A} (f : A -> bool) l k : find_index f l = Some k ->
  exists a x b, l = a ++ x :: b /\ length a = k /\ f x = true /\ forallb (fun y => negb (f y)) a = true.
Proof.
  revert k. induction l as [|y l IH]; intros k; cbn; [discriminate|].
  destruct (f y) eqn:E.
  - intros H; injection H as <-. exists [], y, l. auto.
  - destruct (find_index f l) as [j|]; cbn; [|discriminate]. intros H; injection H as <-.
    destruct (IH j eq_refl) as (a & x & b & -> & <- & Fx & Fa). exists (y :: a), x, b. cbn. rewrite E. auto.
Qed.
Lemma find_index_None {A} (f : A -> bool) l : find_index f l = None -> forallb (fun y => negb (f y)) l = true.
Proof.
  induction l as [|y l IH]; cbn; auto. destruct (f y); [discriminate|].
  destruct (find_index f l); [discriminate|]. cbn. auto.
Qed.
Lemma filter_all {A} (f : A -> bool) l : forallb f l = true -> List.filter f l = l.
Proof. induction l; cbn; auto. intros H. apply andb_true_iff in H as [-> H]. now rewrite IHl. Qed.
Lemma filter_none {A} (f : A -> bool) l : forallb (fun y => negb (f y)) l = true -> List.filter f l = [].
Proof. induction l; cbn; auto. intros H. apply andb_true_iff in H as [E H]. destruct (f a); [discriminate|auto]. Qed.

(** Cutting a list at the boundary of an up-closed and a down-closed predicate. *)
Lemma cut_filter {A} (f g : A -> bool) (a b c d : list A) s e :
  a ++ b = c ++ d ->
  forallb (fun y => negb (f y)) a = true -> forallb f b = true ->
  forallb g c = true -> forallb (fun y => negb (g y)) d = true ->
  (s = length a \/ (b = [] /\ s >= length a)%nat) -> (e = length c \/ (d = [] /\ e >= length c)%nat) ->
  skipn s (firstn e (a ++ b)) = List.filter (fun x => f x && g x) (a ++ b).
Proof.
  intros E Ha Hb Hc Hd Hs He.
  assert (F : firstn e (a ++ b) = c).
  { rewrite E. destruct He as [->|[-> L]].
    - rewrite firstn_app, firstn_all, Nat.sub_diag. cbn. apply app_nil_r.
    - rewrite app_nil_r. now apply firstn_all2. }
  rewrite F.
  assert (Fc : List.filter (fun x => f x && g x) (a ++ b) = List.filter f c).
  { rewrite E, filter_app. rewrite (filter_none _ d).
    - rewrite app_nil_r. apply filter_ext_in. intros x Hx. rewrite forallb_forall in Hc. rewrite (Hc x Hx).
      apply andb_true_r.
    - rewrite forallb_forall in *. intros x Hx. specialize (Hd x Hx).
      destruct (g x); [discriminate|]. now rewrite andb_false_r. }
  rewrite Fc.
  destruct (Nat.le_gt_cases (length a) (length c)) as [Lac|Lac].
  - assert (C : c = a ++ skipn (length a) c).
    { pose proof (f_equal (firstn (length a)) E) as E1. rewrite !firstn_app, firstn_all, Nat.sub_diag in E1.
      replace (length a - length c)%nat with 0%nat in E1 by lia. cbn in E1. rewrite !app_nil_r in E1.
      rewrite E1 at 1. symmetry. apply firstn_skipn. }
    assert (B : b = skipn (length a) c ++ d).
    { rewrite C in E. rewrite <- app_assoc in E. now apply app_inv_head in E. }
    rewrite C, filter_app, (filter_none _ a Ha). cbn [app].
    rewrite (filter_all f).
    + destruct Hs as [->|[-> L]].
      * rewrite skipn_app, skipn_all, Nat.sub_diag. reflexivity.
      * symmetry in B. apply app_eq_nil in B as [B _]. rewrite B, app_nil_r.
        now apply skipn_all2.
    + rewrite B, forallb_app in Hb. now apply andb_true_iff in Hb as [Hb _].
  - assert (C : a = c ++ skipn (length c) a).
    { pose proof (f_equal (firstn (length c)) E) as E1. rewrite !firstn_app, firstn_all, Nat.sub_diag in E1.
      replace (length c - length a)%nat with 0%nat in E1 by lia. cbn in E1. rewrite !app_nil_r in E1.
      rewrite <- E1 at 1. symmetry. apply firstn_skipn. }
    rewrite C, forallb_app in Ha. apply andb_true_iff in Ha as [Ha _]. rewrite (filter_none _ c Ha).
    apply skipn_all2. destruct Hs as [->|[_ L]]; lia.
Qed.

Section Filter.
Context {U : Unicode}.
Variable cmp : label -> label -> Z.
Hypothesis Hcmp : total_preorder cmp.

Lemma parse_evr_ok e : entry_evr e <> None -> parse_evr (entry_evr e) = Ok (entry_key e).
Proof.
  unfold entry_key. destruct (entry_evr e) as [s|]; [intros _|congruence].
  cbn. unfold evr_or_zero. now destruct (evr_from_string s).
Qed.
Lemma parse_evr_some s : parse_evr (Some s) = Ok (evr_or_zero s).
Proof. cbn. unfold evr_or_zero. now destruct (evr_from_string s). Qed.

Lemma ge_le x y : evr_ge cmp x y = (cmp (evr_label y) (evr_label x) <=? 0)%Z.
Proof.
  unfold evr_ge, evr_cmp. destruct Hcmp as [Hs _].
  specialize (Hs (evr_label y) (evr_label x)).
  destruct (Z.geb_spec (cmp (evr_label x) (evr_label y)) 0), (Z.leb_spec (cmp (evr_label y) (evr_label x)) 0); auto; lia.
Qed.

Lemma in_after {A} (x y : A) b : In y b -> exists b1 c, b = b1 ++ y :: c.
Proof. apply in_split. Qed.

Theorem filter_correct c since until :
  (forall e, In e (entries c) -> entry_evr e <> None) -> ascending cmp (entries c) ->
  filter cmp c since until =
  Ok (mk_changelog (List.filter (in_range cmp since until) (entries c)) (predecessor c)).
Proof.
  intros Hev Hasc. destruct Hcmp as [Hs Ht].
  set (f := fun e => match since with
     | Some s => (cmp (evr_label (evr_or_zero s)) (evr_label (entry_key e)) <=? 0)%Z | None => true end).
  set (g := fun e => match until with
     | Some s => (cmp (evr_label (entry_key e)) (evr_label (evr_or_zero s)) <=? 0)%Z | None => true end).
  set (data := entries c) in *.
  (* start index *)
  assert (S1 : exists a b s, data = a ++ b /\
     (match since with None => Ok 0%nat | Some s =>
        let! r := first_index (fun e =>
           let! x := parse_evr (entry_evr e) in let! y := parse_evr (Some s) in
           Ok (evr_ge cmp x y)) data 0 in
        Ok (match r with Some i => i | None => S (length data) end) end) = Ok s /\
     forallb (fun y => negb (f y)) a = true /\ forallb f b = true /\
     (s = length a \/ (b = [] /\ s >= length a)%nat)).
  { destruct since as [s|].
    - rewrite (first_index_spec _ f).
      2:{ intros e He. rewrite parse_evr_ok by auto. cbn [bind]. rewrite parse_evr_some. cbn [bind].
          rewrite ge_le. reflexivity. }
      cbn [bind]. destruct (find_index f data) as [k|] eqn:Fi.
      + apply find_index_Some in Fi as (a & x & b & E & L & Fx & Fa). exists a, (x :: b), k.
        cbn [option_map]. rewrite Nat.add_0_r. repeat split; auto. cbn [forallb]. rewrite Fx. cbn.
        apply forallb_forall. intros y Hy. apply in_split in Hy as (b1 & b2 & ->).
        assert (Q : le_entry cmp x y) by (eapply Hasc; eauto).
        unfold f in *. apply Z.leb_le in Fx. apply Z.leb_le. eapply Ht; eauto.
      + apply find_index_None in Fi. exists data, [], (S (length data)). cbn. rewrite app_nil_r. repeat split; auto.
    - exists [], data, 0%nat. cbn. repeat split; auto. apply forallb_forall. auto. }
  assert (S2 : exists a b s, data = a ++ b /\
     (match until with None => Ok (S (length data)) | Some s =>
        let! r := first_index (fun e =>
           let! x := parse_evr (entry_evr e) in let! y := parse_evr (Some s) in
           Ok (evr_le cmp x y)) (rev data) 0 in
        Ok (match r with Some j => (length data - 1 - j + 1)%nat | None => 0%nat end) end) = Ok s /\
     forallb g a = true /\ forallb (fun y => negb (g y)) b = true /\
     (s = length a \/ (b = [] /\ s >= length a)%nat)).
  { destruct until as [s|].
    - rewrite (first_index_spec _ g).
      2:{ intros e He. apply in_rev in He. rewrite parse_evr_ok by auto. cbn [bind]. rewrite parse_evr_some. cbn [bind]. reflexivity. }
      cbn [bind]. destruct (find_index g (rev data)) as [k|] eqn:Fi.
      + apply find_index_Some in Fi as (a & x & b & E & Lk & Fx & Fa).
        assert (D : data = (rev b ++ [x]) ++ rev a).
        { rewrite <- (rev_involutive data), E, rev_app_distr. reflexivity. }
        exists (rev b ++ [x]), (rev a). eexists. repeat split; eauto.
        * rewrite forallb_app. cbn. rewrite Fx. rewrite andb_true_r. apply forallb_forall. intros y Hy.
          apply in_split in Hy as (b1 & b2 & Eb). assert (Q : le_entry cmp y x).
          { apply (Hasc b1 y b2 x (rev a)). rewrite D, Eb, <- !app_assoc. reflexivity. }
          unfold g in *. apply Z.leb_le in Fx. apply Z.leb_le. eapply Ht; eauto.
        * rewrite forallb_forall in *. intros y Hy. apply Fa. now apply in_rev.
        * left. cbn [option_map]. rewrite D, !app_length. cbn. rewrite !rev_length. lia.
      + apply find_index_None in Fi. exists [], data, 0%nat. cbn. repeat split; auto.
        rewrite forallb_forall in *. intros y Hy. apply Fi. now apply in_rev in Hy.
    - exists data, [], (S (length data)). cbn. rewrite app_nil_r. repeat split; auto. apply forallb_forall. auto. }
  destruct S1 as (a & b & s & E1 & R1 & A1 & B1 & L1). destruct S2 as (a2 & b2 & s2 & E2 & R2 & A2 & B2 & L2).
  unfold filter. fold data. rewrite R1. cbn [bind]. rewrite R2. cbn [bind]. f_equal. f_equal.
  unfold slice. rewrite E1. rewrite (cut_filter f g a b a2 b2); auto. congruence.
Qed.
End Filter.

(** ** Reading back what [assemble] wrote *)
Section Assemble.
Context {U : Unicode}.

Lemma nospace_b v : Forall (fun c => is_space c = false) v <-> forallb not_space v = true.
Proof.
  rewrite forallb_forall, Forall_forall. unfold not_space. split; intros H x Hx; specialize (H x Hx);
    destruct (is_space x); auto; discriminate.
Qed.

Lemma header_evr P v c f : ~ In LF P -> evr_token v ->
  entry_evr (mk_entry (P ++ SPC :: v) c f) = Some v.
Proof.
  intros HP (Hs & (a & b & Hab & Na & Nb) & Hlb & Hlp & Hcol). unfold entry_evr. cbn [header].
  assert (NL : ~ In LF (P ++ SPC :: v)).
  { rewrite in_app_iff. intros [H|[H|H]]; auto; [discriminate|].
    rewrite Forall_forall in Hs. specialize (Hs _ H). discriminate. }
  assert (Ns : forallb not_space v = true) by now apply nospace_b.
  assert (M0 : exists m, Match entry_evr_regex (mkst [] (P ++ SPC :: v) []) m).
  { exists (mkst (rev (P ++ SPC :: v)) [] [(4%nat, v)]).
    unfold entry_evr_regex. cbn [seqs]. econstructor; [constructor|].
    assert (E : P ++ SPC :: v = P ++ [SPC] ++ [] ++ v ++ [] ++ [] ++ [] ++ []) by (rewrite !app_nil_r; reflexivity).
    assert (HL : L (seqs [Star true dot; Plus true is_space;
        Opt (Grp 1 (Alt (Grp 2 (chr LBRACK)) (Grp 3 (chr LPAR))));
        Grp 4 (seqs [Opt (Grp 5 (Seq (Plus true is_digit) (chr COLON)));
                     Plus true not_space; chr DASH; Plus false not_space]);
        IfGrp 2 (chr RBRACK) (IfGrp 3 (chr RPAR) Eps); Opt (chr COLON); Star true is_space]) []
        (P ++ [SPC] ++ [] ++ v ++ [] ++ [] ++ []) [(4%nat, v)]).
    { cbn [seqs]. apply L_seq with (cs1 := []).
      { apply L_star. apply forallb_forall. intros x Hx. unfold dot.
        destruct (N.eqb_spec x LF); auto. subst; contradiction. }
      apply L_seq with (cs1 := []). { apply L_plus; [reflexivity|discriminate]. }
      apply L_seq with (cs1 := []). { apply L_altr, L_eps. }
      apply L_seq with (cs1 := [(4%nat, v)]).
      { apply L_grp. rewrite Hab. change (a ++ DASH :: b) with ([] ++ a ++ [DASH] ++ b).
        rewrite Hab, forallb_app in Ns. cbn in Ns. apply andb_true_iff in Ns as [Ns1 Ns2].
        apply L_seq with (cs1 := []). { apply L_altr, L_eps. }
        apply L_seq with (cs1 := []). { now apply L_plus. }
        apply L_seq with (cs1 := []). { apply L_chr. }
        now apply L_plus. }
      apply L_seq with (cs1 := [(4%nat, v)]). { apply L_iff; [reflexivity|]. apply L_iff; [reflexivity|apply L_eps]. }
      apply L_seq with (cs1 := [(4%nat, v)]). { apply L_altr, L_eps. }
      now apply L_star. }
    specialize (HL [] []). cbn [seqs] in HL.
    rewrite app_nil_r in HL. rewrite E. rewrite !app_nil_r in *. cbn [app] in *.
    clear - HL. set (cs' := [(4%nat, v)]) in *.
    repeat match type of HL with
      | Match (Seq _ _) _ _ => apply Match_Seq in HL as (? & ? & HL); econstructor; [eassumption|]
      end.
    econstructor; [eassumption|]. rewrite ?app_nil_r. now constructor. }
  destruct M0 as (m0 & M0). destruct (re_match_exists _ _ _ M0) as (m & Em & Mm). rewrite Em.
  clear m0 M0 Em.
  unfold entry_evr_regex in Mm. cbn [seqs] in Mm.
  apply Match_Seq in Mm as (s0 & H0 & Mm). apply Match_Caret in H0 as (-> & _).
  apply Match_Seq in Mm as (s1 & H1 & Mm). apply Match_Star in H1 as (w1 & E1 & _ & _ & C1).
  apply Match_Seq in Mm as (s2 & H2 & Mm). apply Match_Plus in H2 as (w2 & N2 & E2 & F2 & _ & C2).
  apply Match_Seq in Mm as (s3 & H3 & Mm). destruct (Match_span _ _ _ H3) as (w3 & E3 & _).
  apply Match_Seq in Mm as (s4 & H4 & Mm). apply Match_Grp in H4 as (w4 & s4' & H4 & E4 & R4 & _ & _ & C4).
  apply Match_Seq in Mm as (s5 & H5 & Mm). destruct (Match_span _ _ _ H5) as (w5 & E5 & _).
  apply Match_Seq in Mm as (s6 & H6 & Mm). destruct (Match_span _ _ _ H6) as (w6 & E6 & _).
  apply Match_Seq in Mm as (s7 & H7 & Mm). apply Match_Star in H7 as (w7 & E7 & F7 & _ & C7).
  apply Match_Dollar in Mm as (-> & D). cbn [rest caps] in *.
  (* the text is split *)
  assert (E : P ++ SPC :: v = w1 ++ w2 ++ w3 ++ w4 ++ w5 ++ w6 ++ w7 ++ rest s7).
  { rewrite E1, E2, E3, E4, E5, E6, E7. reflexivity. }
  assert (R : rest s7 = []).
  { apply at_dollar_noLF; auto. intros HI. apply NL. rewrite E. do 7 (apply in_or_app; right). exact HI. }
  rewrite R in *. rewrite app_nil_r in E.
  (* shapes of the parts *)
  assert (S4 : w4 <> [] /\ forallb not_space w4 = true).
  { apply (Match_text not_space) in H4.
    - destruct H4 as (x & Ex & _ & Fx & Lx). cbn in Lx. rewrite E4, R4 in Ex. apply app_inv_tail in Ex. subst x.
      split; auto. intros ->. cbn in Lx. lia.
    - assert (Dg : forall c', is_digit c' = true -> not_space c' = true).
      { intros c' Hc. unfold not_space. now rewrite is_digit_not_space. }
      assert (Eq : forall x c', not_space x = true -> N.eqb x c' = true -> not_space c' = true).
      { intros x c' Hx Hc. apply N.eqb_eq in Hc. now subst. }
      unfold Opt, Plus, chr; cbn [seqs re_all]. repeat split; try exact Dg; try (intros c'; apply Eq; reflexivity); auto. }
  destruct S4 as [N4 S4].
  assert (S3 : forallb not_space w3 = true).
  { apply (Match_text not_space) in H3.
    - destruct H3 as (x & Ex & _ & Fx & _). rewrite E3 in Ex. apply app_inv_tail in Ex. now subst x.
    - unfold Opt, Plus, chr; cbn [seqs re_all]. repeat split; intros c0 Hc; apply N.eqb_eq in Hc; subst c0; reflexivity. }
  assert (S5 : forallb not_space w5 = true).
  { apply (Match_text not_space) in H5.
    - destruct H5 as (x & Ex & _ & Fx & _). rewrite E5 in Ex. apply app_inv_tail in Ex. now subst x.
    - unfold Opt, Plus, chr; cbn [seqs re_all]. repeat split; intros c0 Hc; apply N.eqb_eq in Hc; subst c0; reflexivity. }
  assert (S6 : forallb not_space w6 = true).
  { apply (Match_text not_space) in H6.
    - destruct H6 as (x & Ex & _ & Fx & _). rewrite E6 in Ex. apply app_inv_tail in Ex. now subst x.
    - unfold Opt, Plus, chr; cbn [seqs re_all]. repeat split; intros c0 Hc; apply N.eqb_eq in Hc; subst c0; reflexivity. }
  (* w7 is empty *)
  assert (W7 : w7 = []).
  { destruct w7 as [|y w7]; auto. exfalso. destruct (@exists_last _ (y :: w7)) as (w7' & z & Ez); [discriminate|].
    rewrite Ez in *. destruct (@exists_last _ v) as (v' & z' & Ev).
    { intros ->. now destruct a. }
    rewrite Ev in E. replace (P ++ SPC :: v' ++ [z']) with ((P ++ SPC :: v') ++ [z']) in E by now rewrite <- app_assoc.
    rewrite !app_assoc in E. apply app_inj_tail in E as [_ <-].
    rewrite forallb_app in F7. apply andb_true_iff in F7 as [_ F7]. cbn in F7. rewrite andb_true_r in F7.
    rewrite Forall_forall in Hs. specialize (Hs z'). rewrite Ev in Hs. rewrite Hs in F7; [discriminate|].
    apply in_or_app; right; now left. }
  subst w7. rewrite app_nil_r in E.
  destruct (exists_last N2) as (w2' & sp & Ew2). rewrite Ew2 in *.
  rewrite forallb_app in F2. apply andb_true_iff in F2 as [_ F2]. cbn in F2. rewrite andb_true_r in F2.
  assert (V : v = w3 ++ w4 ++ w5 ++ w6).
  { replace (w1 ++ (w2' ++ [sp]) ++ w3 ++ w4 ++ w5 ++ w6) with ((w1 ++ w2') ++ sp :: (w3 ++ w4 ++ w5 ++ w6)) in E
      by (rewrite <- !app_assoc; reflexivity).
    apply (last_unique is_space) in E as (_ & _ & E); auto.
    rewrite !forallb_app. unfold not_space in *. now rewrite S3, S4, S5, S6. }
  (* no bracket, no colon *)
  assert (W3 : w3 = [] /\ caps s3 = caps s2).
  { apply Match_Alt in H3 as [H3|H3].
    - exfalso. apply Match_Grp in H3 as (x & u & H3 & Ex & Ru & _).
      rewrite E3 in Ex. apply app_inv_tail in Ex. subst x.
      apply Match_Alt in H3 as [H3|H3]; apply Match_Grp in H3 as (x & u2 & H3 & Ex & Ru2 & _);
        apply Match_Ch in H3 as (y & Ey & Fy & _); apply N.eqb_eq in Fy; subst y;
        rewrite E3, <- Ru, <- Ru2 in Ey; 
        (change (?c :: rest u2) with ([c] ++ rest u2) in Ey || idtac).
      + destruct w3 as [|y3 w3]; [apply (f_equal (@length _)) in Ey; cbn in Ey; lia|].
        cbn in Ey. injection Ey as -> _. cbn in V. eapply Hlb; eauto.
      + destruct w3 as [|y3 w3]; [apply (f_equal (@length _)) in Ey; cbn in Ey; lia|].
        cbn in Ey. injection Ey as -> _. cbn in V. eapply Hlp; eauto.
    - apply Match_Eps in H3 as ->. split; auto. apply (f_equal (@length _)) in E3. rewrite app_length in E3.
      destruct w3; auto. cbn in E3. lia. }
  destruct W3 as (-> & C3). cbn [app] in V.
  (* captures while matching group 4 never include groups 2 and 3 *)
  assert (C4' : cap_get 2 (caps s4) = None /\ cap_get 3 (caps s4) = None /\ cap_get 4 (caps s4) = Some w4).
  { assert (K : cap_get 2 (caps s4') = None /\ cap_get 3 (caps s4') = None).
    { cbn [seqs] in H4. apply Match_Seq in H4 as (t1 & K1 & H4). apply Match_Seq in H4 as (t2 & K2 & H4).
      apply Match_Seq in H4 as (t3 & K3 & H4). apply Match_Plus in K2 as (? & _ & _ & _ & _ & G2).
      apply Match_Ch in K3 as (? & _ & _ & _ & G3). apply Match_Plus in H4 as (? & _ & _ & _ & _ & G4).
      rewrite G4, G3, G2. apply Match_Alt in K1 as [K1|K1].
      - apply Match_Grp in K1 as (y1 & u & K1 & _ & _ & _ & _ & G1).
        apply Match_Seq in K1 as (u1 & K1 & K1'). apply Match_Plus in K1 as (? & _ & _ & _ & _ & G5).
        apply Match_Ch in K1' as (? & _ & _ & _ & G6). rewrite G1, G6, G5, C3, C2, C1. cbn. auto.
      - apply Match_Eps in K1 as ->. rewrite C3, C2, C1. cbn. auto. }
    rewrite C4. cbn. tauto. }
  destruct C4' as (K2 & K3 & K4).
  apply Match_IfGrp in H5. rewrite K2 in H5. apply Match_IfGrp in H5. rewrite K3 in H5. apply Match_Eps in H5. subst s5.
  assert (W5 : w5 = []).
  { apply (f_equal (@length _)) in E5. rewrite app_length in E5. destruct w5; auto. cbn in E5. lia. }
  subst w5. cbn [app] in V.
  apply Match_Alt in H6 as [H6|H6].
  - exfalso. apply Match_Ch in H6 as (y & Ey & Fy & _). apply N.eqb_eq in Fy. subst y.
    rewrite E6 in Ey. change (COLON :: rest s6) with ([COLON] ++ rest s6) in Ey. apply app_inv_tail in Ey. subst w6.
    eapply Hcol; eauto.
  - apply Match_Eps in H6. subst s6.
    assert (W6 : w6 = []).
    { apply (f_equal (@length _)) in E6. rewrite app_length in E6. destruct w6; auto. cbn in E6. lia. }
    subst w6. rewrite app_nil_r in V. unfold group. rewrite C7, K4. congruence.
Qed.

Lemma dot_iff s : forallb dot s = true <-> ~ In LF s.
Proof.
  rewrite forallb_forall. unfold dot. split.
  - intros H1 H2. specialize (H1 _ H2). discriminate.
  - intros H1 x Hx. destruct (N.eqb_spec x LF); auto. subst; contradiction.
Qed.
Lemma dec_nolf n : forallb dot (dec n) = true.
Proof.
  pose proof (dec_digits n) as D. rewrite forallb_forall in *. intros x Hx. specialize (D x Hx).
  unfold dot. destruct (N.eqb_spec x LF); auto. subst. discriminate.
Qed.
Lemma dec_pad_nolf w n : forallb dot (dec_pad w n) = true.
Proof.
  unfold dec_pad. rewrite forallb_app, dec_nolf, andb_true_r. generalize (w - List.length (dec n))%nat.
  induction n0; cbn; auto.
Qed.
Lemma weekday_nolf k : forallb dot (nth k WEEKDAYS []) = true.
Proof. do 7 (destruct k as [|k]; [reflexivity|]). destruct k; reflexivity. Qed.
Lemma month_nolf k : forallb dot (nth k MONTHS []) = true.
Proof. do 12 (destruct k as [|k]; [reflexivity|]). destruct k; reflexivity. Qed.
Lemma removelast_nolf p : forallb dot p = true -> forallb dot (removelast p) = true.
Proof.
  intros H0. destruct (list_eq_dec N.eq_dec p []) as [->|N]; [reflexivity|].
  rewrite (app_removelast_last 0 N), forallb_app in H0. now apply andb_true_iff in H0 as [H0 _].
Qed.

Lemma assemble_evr_readback ts author cont v padding nl :
  ~ In LF author -> ~ In LF padding -> time_nolf ts -> evr_token v ->
  entry_evr (assemble ts author cont (Some v) padding nl) = Some v.
Proof.
  intros Ha Hp Ht Hv. unfold assemble.
  match goal with |- entry_evr (mk_entry (?A ++ lit " - " ++ v) _ _) = _ =>
    replace (A ++ lit " - " ++ v) with ((A ++ lit " -") ++ SPC :: v)
      by (rewrite <- app_assoc; reflexivity) end.
  apply header_evr; auto. apply dot_iff. apply dot_iff in Ha. apply dot_iff in Hp.
  rewrite !forallb_app, weekday_nolf, month_nolf, Ha, dec_pad_nolf.
  assert (Q1 : forallb dot (if endswith padding [ZERO]
     then [SPC] ++ removelast padding ++ dec_pad 2 (t_day ts)
     else [SPC] ++ padding ++ dec (t_day ts)) = true).
  { destruct (endswith padding [ZERO]); rewrite !forallb_app, ?dec_pad_nolf, ?dec_nolf, ?removelast_nolf, ?Hp by auto; reflexivity. }
  rewrite Q1. unfold time_nolf in Ht. destruct (t_time ts) as [[[[hh mm] ss] tz]|].
  - apply dot_iff in Ht. rewrite !forallb_app, !dec_pad_nolf, Ht. reflexivity.
  - reflexivity.
Qed.

(** Padding *)
Lemma spaces_all k : forallb (N.eqb SPC) (spaces k) = true.
Proof. induction k; cbn; auto. Qed.

Lemma weekday_results pr k x : (k < 7)%nat ->
  H (Grp 1 (alts (map word WEEKDAYS))) (mkst pr (nth k WEEKDAYS [] ++ x) [])
    (mkst (rev (nth k WEEKDAYS []) ++ pr) x [(1%nat, nth k WEEKDAYS [])]).
Proof.
  intros Hk.
  assert (Q : H (alts (map word WEEKDAYS)) (mkst pr (nth k WEEKDAYS [] ++ x) [])
    (mkst (rev (nth k WEEKDAYS []) ++ pr) x [])).
  { do 7 (destruct k as [|k]; [reflexivity|]). lia. }
  exact (H_grp 1 _ _ _ (nth k WEEKDAYS []) Q eq_refl).
Qed.
Lemma month_results pr cs k x : (k < 12)%nat ->
  H (Grp 2 (alts (map word MONTHS))) (mkst pr (nth k MONTHS [] ++ x) cs)
    (mkst (rev (nth k MONTHS []) ++ pr) x ((2%nat, nth k MONTHS []) :: cs)).
Proof.
  intros Hk.
  assert (Q : H (alts (map word MONTHS)) (mkst pr (nth k MONTHS [] ++ x) cs)
    (mkst (rev (nth k MONTHS []) ++ pr) x cs)).
  { do 12 (destruct k as [|k]; [reflexivity|]). lia. }
  exact (H_grp 2 _ _ _ (nth k MONTHS []) Q eq_refl).
Qed.

Lemma padding_search wd mo k dd m x :
  (wd < 7)%nat -> (mo < 12)%nat ->
  (forall c rs, dd ++ x = c :: rs -> (SPC =? c) = false) ->
  (forall pr cs, H (Grp 4 (alts [Seq (Opt (Grp 5 (chr ZERO))) (Ch is_digit);
                     Seq (Ch (range_c 49 50)) (Ch is_digit);
                     Seq (chr 51) (Ch (range_c 48 49))])) (mkst pr (dd ++ x) cs) (m pr cs)) ->
  exists pr cs, re_search padding_regex
     (lit "* " ++ nth wd WEEKDAYS [] ++ [SPC] ++ nth mo MONTHS [] ++ [SPC] ++ spaces k ++ dd ++ x) =
     Some ([SPC; STAR], m pr ((3%nat, spaces k) :: cs)) /\ cap_get 5 cs = None.
Proof.
  intros Hw Hm Hd HD. unfold re_search.
  change (lit "* " ++ ?y) with (STAR :: SPC :: y).
  rewrite search_skip by reflexivity. rewrite search_skip by reflexivity.
  eexists _, _. split.
  - apply search_here. unfold padding_regex. cbn [seqs].
    eapply H_seq; [apply weekday_results; auto|]. cbn [app].
    eapply H_seq; [apply H_chr|]. eapply H_seq; [apply month_results; auto|]. cbn [app].
    eapply H_seq; [apply H_chr|].
    eapply H_seq; [|apply HD].
    refine (H_grp 3 _ _ (mkst (rev (spaces k) ++ _) (dd ++ x) _) (spaces k) _ eq_refl).
    apply H_star; [apply spaces_all|auto].
  - reflexivity.
Qed.

Lemma day_cases d : 1 <= d <= 31 -> exists k : nat, (1 <= k <= 31)%nat /\ d = N.of_nat k.
Proof. intros Hd. exists (N.to_nat d). split; lia. Qed.

Lemma endswith_spaces k : endswith (spaces k) [ZERO] = false.
Proof.
  apply not_true_iff_false. rewrite endswith_iff. intros (t & E).
  assert (I : In ZERO (spaces k)) by (rewrite E; apply in_or_app; right; now left).
  apply repeat_spec in I. discriminate.
Qed.
Lemma endswith_spaces0 k : endswith (spaces k ++ [ZERO]) [ZERO] = true.
Proof. rewrite endswith_iff. eauto. Qed.

Definition grp4 : re := Grp 4 (alts [Seq (Opt (Grp 5 (chr ZERO))) (Ch is_digit);
                     Seq (Ch (range_c 49 50)) (Ch is_digit);
                     Seq (chr 51) (Ch (range_c 48 49))]).
Lemma grp4_nozero pr c x cs : ascii_digit c = true -> c <> ZERO ->
  H grp4 (mkst pr (c :: x) cs) (mkst (c :: pr) x ((4%nat, [c]) :: cs)).
Proof.
  intros Hc Hz. refine (H_grp 4 _ (mkst pr (c :: x) cs) (mkst (c :: pr) x cs) [c] _ eq_refl).
  cbn [alts]. apply H_altl. eapply H_seq.
  - apply H_altr; [|apply H_eps]. cbn [results chr rest]. destruct (N.eqb_spec ZERO c); [congruence|reflexivity].
  - apply H_ch. now apply ascii_digit_is_digit.
Qed.
Lemma grp4_zero pr c x cs : ascii_digit c = true ->
  H grp4 (mkst pr (ZERO :: c :: x) cs) (mkst (c :: ZERO :: pr) x ((4%nat, [ZERO; c]) :: (5%nat, [ZERO]) :: cs)).
Proof.
  intros Hc. refine (H_grp 4 _ (mkst pr (ZERO :: c :: x) cs) (mkst (c :: ZERO :: pr) x ((5%nat, [ZERO]) :: cs)) [ZERO; c] _ eq_refl).
  cbn [alts]. apply H_altl. eapply H_seq.
  - apply H_altl. exact (H_grp 5 _ (mkst pr (ZERO :: c :: x) cs) (mkst (ZERO :: pr) (c :: x) cs) [ZERO] (H_chr _ _ _ _) eq_refl).
  - apply H_ch. now apply ascii_digit_is_digit.
Qed.

Lemma day_text d : 1 <= d <= 31 ->
  (d < 10 /\ exists c, dec d = [c] /\ dec_pad 2 d = [ZERO; c] /\ ascii_digit c = true /\ c <> ZERO) \/
  (10 <= d /\ exists c c2, dec d = [c; c2] /\ dec_pad 2 d = [c; c2] /\ ascii_digit c = true /\ c <> ZERO).
Proof.
  intros Hd. destruct (day_cases _ Hd) as (k & Hk & ->). clear Hd.
  do 32 (destruct k as [|k]; [try lia; 
    solve [left; split; [lia|]; eexists; split; [reflexivity|]; split; [reflexivity|]; split; [reflexivity|discriminate]
          |right; split; [lia|]; eexists _, _; split; [reflexivity|]; split; [reflexivity|]; split; [reflexivity|discriminate]]|]).
  lia.
Qed.

Lemma padding_readback ts author cont v k zero nl :
  valid_date ts ->
  day_of_month_padding (assemble ts author cont v (spaces k ++ (if zero : bool then [ZERO] else [])) nl) =
  spaces k ++ (if zero && (t_day ts <? 10) then [ZERO] else []).
Proof.
  intros (Hw & Hm & Hd & _). unfold assemble, day_of_month_padding. cbn [header].
  set (tail1 := match t_time ts with Some _ => _ | None => _ end).
  set (tail2 := match v with Some _ => _ | None => _ end).
  assert (Hm' : (t_month ts - 1 < 12)%nat) by lia.
  destruct zero.
  - rewrite endswith_spaces0, removelast_last. cbn [andb]. repeat rewrite <- app_assoc.
    set (tail := tail1 ++ _).
    destruct (day_text _ Hd) as [(L & c & _ & Ep & Hc & Hz)|(L & c & c2 & _ & Ep & Hc & Hz)]; rewrite Ep.
    + destruct (N.ltb_spec (t_day ts) 10); [|lia].
      destruct (padding_search (t_weekday ts) (t_month ts - 1) k [ZERO; c]
         (fun pr cs => mkst (c :: ZERO :: pr) tail ((4%nat, [ZERO; c]) :: (5%nat, [ZERO]) :: cs)) tail Hw Hm')
         as (pr & cs & E & N5).
      * intros c' rs' E. cbn in E. injection E as <- _. reflexivity.
      * intros pr cs. now apply grp4_zero.
      * rewrite E. reflexivity.
    + destruct (N.ltb_spec (t_day ts) 10); [lia|].
      destruct (padding_search (t_weekday ts) (t_month ts - 1) k [c; c2]
         (fun pr cs => mkst (c :: pr) (c2 :: tail) ((4%nat, [c]) :: cs)) tail Hw Hm')
         as (pr & cs & E & N5).
      * intros c' rs' E. cbn in E. injection E as <- _. apply N.eqb_neq. intros <-. discriminate.
      * intros pr cs. now apply grp4_nozero.
      * rewrite E. unfold group_str, group. cbn [caps cap_get Nat.eqb]. rewrite N5, ?app_nil_r. reflexivity.
  - rewrite !app_nil_r, endswith_spaces. cbn [andb]. repeat rewrite <- app_assoc.
    set (tail := tail1 ++ _).
    destruct (day_text _ Hd) as [(L & c & Ep & _ & Hc & Hz)|(L & c & c2 & Ep & _ & Hc & Hz)]; rewrite Ep.
    + destruct (padding_search (t_weekday ts) (t_month ts - 1) k [c]
         (fun pr cs => mkst (c :: pr) tail ((4%nat, [c]) :: cs)) tail Hw Hm')
         as (pr & cs & E & N5).
      * intros c' rs' E. cbn in E. injection E as <- _. apply N.eqb_neq. intros <-. discriminate.
      * intros pr cs. now apply grp4_nozero.
      * rewrite E. unfold group_str, group. cbn [caps cap_get Nat.eqb]. rewrite N5, ?app_nil_r. reflexivity.
    + destruct (padding_search (t_weekday ts) (t_month ts - 1) k [c; c2]
         (fun pr cs => mkst (c :: pr) (c2 :: tail) ((4%nat, [c]) :: cs)) tail Hw Hm')
         as (pr & cs & E & N5).
      * intros c' rs' E. cbn in E. injection E as <- _. apply N.eqb_neq. intros <-. discriminate.
      * intros pr cs. now apply grp4_nozero.
      * rewrite E. unfold group_str, group. cbn [caps cap_get Nat.eqb]. rewrite N5, ?app_nil_r. reflexivity.
Qed.

(** Extended timestamps *)
Lemma two_digits n : n < 60 -> exists a b, dec_pad 2 n = [a; b] /\ range_c 48 53 a = true /\ is_digit b = true /\
   (n < 24 -> (range_c 48 49 a = true) \/ (a = 50 /\ range_c 48 51 b = true)).
Proof.
  intros Hn. assert (Hk : exists k, (k < 60)%nat /\ n = N.of_nat k) by (exists (N.to_nat n); lia).
  destruct Hk as (k & Hk & ->). clear Hn.
  do 60 (destruct k as [|k]; [eexists _, _; split; [reflexivity|]; split; [reflexivity|]; split; [reflexivity|];
     first [left; reflexivity | intros Hl; first [lia | right; split; reflexivity | left; reflexivity]]|]).
  lia.
Qed.

Lemma four_digits n : 1000 <= n <= 9999 -> exists a b c d, dec_pad 4 n = [a; b; c; d] /\
  forallb is_digit [a; b; c; d] = true.
Proof.
  intros Hn. pose proof (dec_length_lower 3 n) as L1. pose proof (dec_length_upper 3 n) as L2.
  cbn in L1, L2. specialize (L1 ltac:(lia)). specialize (L2 ltac:(lia)).
  unfold dec_pad. replace (4 - length (dec n))%nat with 0%nat by lia. cbn [repeat app].
  pose proof (dec_is_digits n) as D.
  destruct (dec n) as [|a [|b [|c [|d [|e x]]]]]; cbn in L1, L2; try lia.
  exists a, b, c, d. auto.
Qed.

Lemma day_L d cs : 1 <= d <= 31 ->
  L (Alt (Seq (Opt (Ch (range_c 49 50))) (Ch is_digit)) (Seq (chr 51) (Ch (range_c 48 49)))) cs (dec d) cs.
Proof.
  intros Hd. destruct (day_cases _ Hd) as (k & Hk & ->). clear Hd.
  assert (A1 : forall a, is_digit a = true ->
    L (Alt (Seq (Opt (Ch (range_c 49 50))) (Ch is_digit)) (Seq (chr 51) (Ch (range_c 48 49)))) cs [a] cs).
  { intros a Ha. apply L_altl. change [a] with ([] ++ [a]). eapply L_seq; [apply L_altr, L_eps|now apply L_ch]. }
  assert (A2 : forall a b, range_c 49 50 a = true -> is_digit b = true ->
    L (Alt (Seq (Opt (Ch (range_c 49 50))) (Ch is_digit)) (Seq (chr 51) (Ch (range_c 48 49)))) cs [a; b] cs).
  { intros a b Ha Hb. apply L_altl. change [a; b] with ([a] ++ [b]). eapply L_seq; [apply L_altl; now apply L_ch|now apply L_ch]. }
  assert (A3 : forall b, range_c 48 49 b = true ->
    L (Alt (Seq (Opt (Ch (range_c 49 50))) (Ch is_digit)) (Seq (chr 51) (Ch (range_c 48 49)))) cs [51; b] cs).
  { intros b Hb. apply L_altr. change [51; b] with ([51] ++ [b]). eapply L_seq; [apply L_chr|now apply L_ch]. }
  do 32 (destruct k as [|k]; [try lia; first [apply A1; reflexivity | apply A2; reflexivity | apply A3; reflexivity]|]).
  lia.
Qed.

Lemma extended_readback ts author cont v k zero nl :
  valid_date ts -> valid_time ts -> (zero = true -> 10 <= t_day ts) ->
  extended_timestamp (assemble ts author cont v (spaces k ++ (if zero : bool then [ZERO] else [])) nl) = true.
Proof.
  intros (Hw & Hm & Hd & Hy) (hh & mm & ss & tz & Et & Hh & Hmm & Hss & Ntz & Stz) Hz.
  unfold extended_timestamp, assemble. cbn [header]. rewrite Et.
  set (tail2 := match v with Some _ => _ | None => _ end).
  set (dd := dec (t_day ts)).
  assert (Day : (if endswith (spaces k ++ (if zero then [ZERO] else [])) [ZERO]
     then [SPC] ++ removelast (spaces k ++ (if zero then [ZERO] else [])) ++ dec_pad 2 (t_day ts)
     else [SPC] ++ (spaces k ++ (if zero then [ZERO] else [])) ++ dd) = (SPC :: spaces k) ++ dd).
  { destruct zero.
    - rewrite endswith_spaces0, removelast_last.
      destruct (day_text _ Hd) as [(Lt & _)|(_ & c & c2 & E1 & E2 & _)]; [specialize (Hz eq_refl); lia|].
      replace (dec_pad 2 (t_day ts)) with dd by (unfold dd; congruence). reflexivity.
    - rewrite app_nil_r, endswith_spaces. reflexivity. }
  rewrite Day.
  destruct (two_digits hh) as (h1 & h2 & Eh & Rh & Dh & Ch24); [lia|].
  destruct (two_digits mm) as (m1 & m2 & Em & Rm & Dm & _); [lia|].
  destruct (two_digits ss) as (s1 & s2 & Es & Rs & Ds & _); [lia|].
  destruct (four_digits _ Hy) as (y1 & y2 & y3 & y4 & Ey & Dy).
  rewrite Eh, Em, Es, Ey.
  assert (Q : exists cs', L extended_regex []
     (nth (t_weekday ts) WEEKDAYS [] ++ [SPC] ++ nth (t_month ts - 1) MONTHS [] ++ (SPC :: spaces k) ++ dd ++ [SPC] ++
      [h1; h2] ++ [COLON] ++ [m1; m2] ++ [COLON] ++ [s1; s2] ++ [SPC] ++ tz ++ [SPC] ++ [y1; y2; y3; y4]) cs').
  { eexists. unfold extended_regex. cbn [seqs].
    eapply L_seq. { apply L_grp. eapply L_alts_in; [|apply L_word]. apply in_map, nth_In. exact Hw. }
    eapply L_seq. { apply L_chr. }
    eapply L_seq. { apply L_grp. eapply L_alts_in; [|apply L_word]. apply in_map, nth_In. cbn. lia. }
    eapply L_seq. { apply L_plus; [cbn; apply spaces_all|discriminate]. }
    eapply L_seq.
    { apply L_grp. apply day_L. exact Hd. }
    eapply L_seq. { apply L_chr. }
    eapply L_seq.
    { apply L_grp. destruct (Ch24 Hh) as [R|[-> R]].
      - apply L_altl. change [h1; h2] with ([h1] ++ [h2]). eapply L_seq; apply L_ch; auto.
      - apply L_altr. change [50; h2] with ([50] ++ [h2]). eapply L_seq; [apply L_chr|apply L_ch; auto]. }
    eapply L_seq. { apply L_chr. }
    eapply L_seq. { apply L_grp. change [m1; m2] with ([m1] ++ [m2]). eapply L_seq; apply L_ch; auto. }
    eapply L_seq. { apply L_chr. }
    eapply L_seq. { apply L_grp. change [s1; s2] with ([s1] ++ [s2]). eapply L_seq; apply L_ch; auto. }
    eapply L_seq. { apply L_chr. }
    eapply L_seq. { apply L_plus; auto. now apply nospace_b. }
    eapply L_seq. { apply L_chr. }
    cbn [forallb] in Dy. apply andb_true_iff in Dy as [D1 Dy]. apply andb_true_iff in Dy as [D2 Dy].
    apply andb_true_iff in Dy as [D3 Dy]. apply andb_true_iff in Dy as [D4 _].
    change [y1; y2; y3; y4] with ([y1] ++ [y2] ++ [y3] ++ [y4]).
    eapply L_seq; [apply L_ch; auto|]. eapply L_seq; [apply L_ch; auto|]. eapply L_seq; [apply L_ch; auto|]. apply L_ch; auto. }
  destruct Q as (cs' & Q).
  apply (search_exists _ (lit "* ") _ ([SPC] ++ author ++ tail2)) in Q as (x & Q).
  match goal with |- context [re_search extended_regex ?t] =>
    match type of Q with re_search extended_regex ?u = _ => replace t with u end end.
  - now rewrite Q.
  - repeat (rewrite <- ?app_assoc; cbn [app]). reflexivity.
Qed.
End Assemble.

Lemma ascending_pair {U : Unicode} (cmp : label -> label -> Z) x y :
  le_entry cmp x y -> ascending cmp [x; y].
Proof.
  intros Hle a x' b y' c E.
  destruct a as [|a1 [|a2 a]]; cbn [app] in E; injection E as E1 E2.
  - destruct b as [|b1 b]; cbn [app] in E2; injection E2 as E3 E4.
    + subst; assumption.
    + destruct b; discriminate.
  - destruct b; discriminate.
  - destruct a; discriminate.
Qed.
