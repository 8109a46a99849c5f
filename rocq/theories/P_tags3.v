(** Proofs about tags: comments and the round trip. *)
From Coq Require Import Ascii String.
From Coq Require Import NArith ZArith List Bool Lia.
From Verif Require Import PyStr PyStrFacts Regex RegexFacts M_constants M_value Spec_value P_value P_value2 Spec_sections P_sections M_macro_definitions Spec_macro_definitions P_macro_definitions
  M_conditions P_conditions P_conditions2 P_conditions3 M_tags Spec_tags P_tags P_tags2.
Import ListNotations.
Open Scope N_scope.

(** Comment lines. *)
Lemma comment_match line m : ~ In LF line -> re_match comment_regex line = Some m ->
  comment_str (mk_comment (group_str 2 m) (group_str 1 m)) = line /\ comment_line line.
Proof.
  intros NL E. apply re_match_sound in E. unfold comment_regex in E. apply Match_Seq in E as (s0 & M0 & M). apply Match_Caret in M0 as [-> _].
  apply Match_Seq in M as (s1 & M1 & M2). apply Match_Grp in M1 as (w1 & s1' & M1 & R1 & E1 & E2 & P1 & C1). cbn [rest pre caps] in *.
  apply Match_Seq in M1 as (a1 & Ma & Mb). apply Match_Star in Ma as (x1 & Ra & Sa & Pa & Ca).
  apply Match_Seq in Mb as (a2 & Mb & Mc). unfold chr in Mb. apply Match_Ch in Mb as (c & Rb & Sb & Pb & Cb). apply N.eqb_eq in Sb. subst c.
  apply Match_Star in Mc as (x2 & Rc & Sc & Pc & Cc). cbn [rest caps] in *.
  apply Match_Seq in M2 as (s2 & M2 & M3). apply Match_Grp in M2 as (w2 & s2' & M2 & R2 & E3 & E4 & P2 & C2).
  apply Match_Star in M2 as (v & Rv & Sv & Pv & Cv). apply Match_Dollar in M3 as [-> D]. apply at_dollar_noLF in D.
  2:{ intros Q. apply NL. rewrite R1, R2, !in_app_iff. auto. }
  rewrite D, app_nil_r in R2. unfold group_str, group. rewrite C2, Cv, C1, Cc, Cb, Ca. cbn [cap_get Nat.eqb]. split.
  - unfold comment_str. cbn [c_prefix c_text]. now rewrite R1, R2.
  - exists x1, (x2 ++ rest s1'). split; [rewrite Ra, Rb, Rc; reflexivity|]. unfold space_text. now apply Forall_forall, forallb_forall.
Qed.
Lemma comment_found line : ~ In LF line -> comment_line line -> exists m, re_match comment_regex line = Some m.
Proof.
  intros NL (a & b & -> & Sa). destruct (re_match comment_regex (a ++ HASH :: b)) as [m|] eqn:E; [eauto|]. exfalso.
  rewrite re_match_None in E. eapply E. unfold comment_regex. eapply MSeq; [constructor|].
  assert (L1 : L (Grp 1 (Seq (Star true is_space) (Seq (chr HASH) (Star true is_space)))) [] (a ++ [HASH] ++ []) [(1%nat, a ++ [HASH] ++ [])]).
  { apply L_grp. apply (L_seq _ _ _ a []); [apply L_star; now apply forallb_forall, Forall_forall|].
    apply (L_seq _ _ _ [HASH] []); [apply L_chr|]. now apply L_star. }
  replace (a ++ HASH :: b) with ((a ++ [HASH] ++ []) ++ b) by (rewrite <- app_assoc; reflexivity).
  eapply MSeq; [apply L1|].
  assert (L2 : L (Grp 2 (Star true dot)) [(1%nat, a ++ [HASH] ++ [])] b ((2%nat, b) :: [(1%nat, a ++ [HASH] ++ [])])).
  { apply L_grp, L_star. apply forallb_forall. intros x Hx. unfold dot. apply negb_true_iff, N.eqb_neq. intros ->. apply NL. apply in_app_iff. right. now right. }
  eapply MSeq; [rewrite <- (app_nil_r b) at 1; apply L2|]. now constructor.
Qed.
(** The comments are the longest run of comment lines at the end. *)
Theorem comments_parse_spec lines : Forall (fun l => ~ In LF l) lines ->
  comments_raw (comments_parse lines) = lines /\
  Forall comment_line (map comment_str (cs_data (comments_parse lines))) /\
  (forall p l, cs_preceding (comments_parse lines) = p ++ [l] -> ~ comment_line l).
Proof.
  intros F. unfold comments_parse. rewrite <- (rev_involutive lines) in F. rewrite <- fold_left_rev_right. rewrite rev_involutive in *.
  assert (K : forall ls, Forall (fun l => ~ In LF l) ls ->
     let (cs, pl) := fold_right (fun y x => comment_step x y) ([], []) ls in
     pl ++ map comment_str cs = ls /\ Forall comment_line (map comment_str cs) /\ (forall p l, pl = p ++ [l] -> ~ comment_line l)).
  { clear. induction ls as [|l ls IH]; intros F; cbn [fold_right]; [split; [reflexivity|split; [constructor|intros [|? ?] ? Q; discriminate]]|].
    inversion F as [|? ? NL F']; subst. specialize (IH F'). destruct (fold_right _ _ ls) as [cs pl]. destruct IH as (I1 & I2 & I3).
    unfold comment_step. destruct (re_match comment_regex l) as [m|] eqn:E; [destruct pl as [|x pl]|].
    - destruct (comment_match l m NL E) as [Q1 Q2]. cbn [app map]. rewrite Q1. cbn [app] in I1. rewrite I1 in *. split; [reflexivity|split; [constructor; auto|intros [|? ?] ? Q; discriminate]].
    - cbn [app]. rewrite <- I1. split; [reflexivity|split; [assumption|]]. intros [|y p] z Q; [discriminate|]. cbn in Q. injection Q as <- Q. eauto.
    - cbn [app]. rewrite <- I1. split; [reflexivity|split; [assumption|]]. intros [|y p] z Q; cbn in Q.
      + injection Q as <- Q. intros Cm. destruct (comment_found l NL Cm) as (m & Em). congruence.
      + injection Q as <- Q. eauto. }
  specialize (K lines F). destruct (fold_right _ _ lines) as [cs pl]. unfold comments_raw. cbn [cs_preceding cs_data]. exact K.
Qed.

Section Uni.
Context {U : Unicode}.
Lemma split_exact line b p s : regular line -> split_conditional_macro_expansion line = Ok (b, p, s) -> p ++ b ++ s = line.
Proof.
  intros X. unfold split_conditional_macro_expansion. destruct (parse line) as [ns|e] eqn:E.
  - destruct ns as [|n [|n2 ns]]; [intros Q; injection Q as <- <- <-; cbn [app]; now rewrite app_nil_r| |
      destruct n; intros Q; injection Q as <- <- <-; cbn [app]; now rewrite app_nil_r].
    destruct n as [| | | | |cp cn cb|]; intros Q; injection Q as Q1 Q2 Q3; subst b p s; cbn [app]; rewrite ?app_nil_r; auto.
    rewrite <- (X cp cn cb E). cbn [node_str]. unfold braced, nodes_str. cbn [app].
    repeat (rewrite <- ?app_assoc; cbn [app]). reflexivity.
  - destruct e; try discriminate. intros Q; injection Q as <- <- <-. cbn [app]. now rewrite app_nil_r.
Qed.
(** Trailing white space of a line. *)
Lemma trailing_split line b w : ~ In LF line -> split_trailing line [] = (b, w) -> line = b ++ w.
Proof.
  intros NL E. apply split_trailing_noLF in E; [now rewrite app_nil_r in E|].
  intros x y -> _ _. apply NL. rewrite !in_app_iff. right. right. now left.
Qed.
Lemma trailing_found a w : w <> [] -> isblank w = true -> ~ In LF w -> results re_trailing (mkst (rev a ++ []) w []) <> [].
Proof.
  intros N B NL Q. apply (in_nil (A:=st) (a:=mkst (rev w ++ rev a ++ []) [] [(1%nat, w)])). rewrite <- Q. apply results_Match. unfold re_trailing.
  eapply MSeq; [|now constructor].
  assert (K : L (Grp 1 (Plus true space_not_lf)) [] w [(1%nat, w)]).
  { apply L_grp, L_plus; auto. apply forallb_forall. intros c Hc. unfold space_not_lf. unfold isblank in B. rewrite forallb_forall in B. rewrite (B c Hc).
    cbn [andb]. apply negb_true_iff, N.eqb_neq. intros ->. auto. }
  specialize (K (rev a ++ []) []). rewrite (app_nil_r w) in K. exact K.
Qed.
Lemma rstrip_app b w : isblank w = true -> (forall a c, b = a ++ [c] -> is_space c = false) -> rstrip (b ++ w) = b.
Proof.
  intros B Hb. unfold rstrip. rewrite rev_app_distr.
  assert (K : forall v u, forallb is_space v = true -> dropwhile is_space (v ++ u) = dropwhile is_space u).
  { induction v as [|c v IH]; intros u F; auto. cbn in F. apply andb_true_iff in F as [F1 F2]. cbn. rewrite F1. auto. }
  rewrite K. 2:{ apply forallb_forall. intros c Hc. apply in_rev in Hc. unfold isblank in B. rewrite forallb_forall in B. auto. }
  destruct (rev b) as [|c r] eqn:E; [apply (f_equal (@rev N)) in E; rewrite rev_involutive in E; now subst|].
  apply (f_equal (@rev N)) in E. rewrite rev_involutive in E. cbn [rev] in E. cbn. rewrite (Hb _ _ E). now rewrite E.
Qed.
Lemma trailing_rstrip line b w : ~ In LF line -> split_trailing line [] = (b, w) -> b = rstrip line /\ isblank w = true.
Proof.
  intros NL E. pose proof (trailing_split line b w NL E) as El.
  unfold split_trailing, re_split1, re_search in E. destruct (search_from re_trailing [] line) as [[pr m]|] eqn:Es.
  - apply search_from_Some in Es as (x & rs & Ex & -> & Hm & F). injection E as Eb Ew. rewrite app_nil_r, rev_involutive in Eb. subst x.
    assert (Bw : isblank w = true).
    { assert (HM : Match re_trailing (mkst (rev b ++ []) rs []) m).
      { apply results_Match. destruct (results _ _); cbn in Hm; [discriminate|]. injection Hm as ->. now left. }
      unfold re_trailing in HM. apply Match_Seq in HM as (s1 & HM & HD). apply Match_Grp_Plus in HM as (y & Ny & E1 & B & _ & C).
      apply Match_Dollar in HD as [-> HD]. unfold group_str, group in Ew. rewrite C in Ew. cbn [cap_get Nat.eqb] in Ew. rewrite <- Ew, app_nil_r.
      unfold isblank. rewrite forallb_forall in *. intros c Hc. specialize (B c Hc). unfold space_not_lf in B. now apply andb_true_iff in B. }
    split; auto.
    assert (Ers : rs = w) by (rewrite Ex in El; now apply app_inv_head in El). subst rs.
    rewrite El. symmetry. apply rstrip_app; auto. intros a c ->. destruct (is_space c) eqn:Sc; auto. exfalso.
    apply (trailing_found a (c :: w)); [discriminate| |rewrite El, <- app_assoc in NL; intros Q; apply NL, in_app_iff; now right|].
    + unfold isblank in *. cbn. now rewrite Sc.
    + exact (F a [c] eq_refl ltac:(discriminate)).
  - injection E as <- <-. split; auto. rewrite <- (app_nil_r line) at 2. symmetry. apply rstrip_app; auto.
    intros a c ->. destruct (is_space c) eqn:Sc; auto. exfalso. apply (trailing_found a [c]); [discriminate| | |].
    + cbn. now rewrite Sc.
    + intros Q. apply NL, in_app_iff. now right.
    + exact (search_from_None _ _ _ Es a [c] eq_refl).
Qed.
Lemma re_trailing_split line : ~ In LF line ->
  match re_split1 re_trailing line with Some (b, m) => line = b ++ group_str 1 m /\ group_str 1 m <> [] | None => True end.
Proof.
  intros NL. destruct (re_split1 re_trailing line) as [[b m]|] eqn:E; auto. split.
  - apply trailing_split; auto. unfold split_trailing. now rewrite E, app_nil_r.
  - unfold re_split1, re_search in E. destruct (search_from re_trailing [] line) as [[pr m']|] eqn:Es; [|discriminate]. injection E as <- <-.
    apply search_from_Some in Es as (x & rs & -> & -> & Hm & _).
    assert (HM : Match re_trailing (mkst (rev x ++ []) rs []) m').
    { apply results_Match. destruct (results _ _); cbn in Hm; [discriminate|]. injection Hm as ->. now left. }
    unfold re_trailing in HM. apply Match_Seq in HM as (s1 & HM & HD). apply Match_Grp_Plus in HM as (y & Ny & E1 & B & _ & C).
    apply Match_Dollar in HD as [-> HD]. unfold group_str, group. rewrite C. exact Ny.
Qed.
Lemma extend_value_spec : forall lines v ws v' ws' ls, Forall (fun l => ~ In LF (fst l)) lines -> extend_value v ws lines = (v', ws', ls) ->
  (v' = v /\ ws' = ws /\ ls = lines) \/
  (In LF v' /\ exists taken, lines = taken ++ ls /\ taken <> [] /\
    (ws' = [] -> ws = [] /\ v' = v ++ flat_map (fun l => LF :: fst l) taken)).
Proof.
  induction lines as [|[l b] lines IH]; intros v ws v' ws' ls F; cbn [extend_value].
  - intros E; injection E as <- <- <-. auto.
  - inversion F as [|? ? NL F']; subst. cbn [fst] in NL. destruct (value_open v); [|intros E; injection E as <- <- <-; auto].
    pose proof (re_trailing_split l NL) as T. set (p := match re_split1 re_trailing l with Some (b, m) => (b, group_str 1 m) | None => (l, ws) end).
    destruct p as [l1 ws1] eqn:Ep. intros E. right. apply IH in E; auto.
    assert (Hw : ws1 = [] -> ws = [] /\ l1 = l).
    { unfold p in Ep. destruct (re_split1 re_trailing l) as [[b1 m]|]; injection Ep as <- <-; [|auto]. destruct T as [_ T]. congruence. }
    destruct E as [(-> & -> & ->)|(L & taken & -> & N & K)].
    + split; [apply in_app_iff; right; now left|]. exists [(l, b)]. split; auto. split; [discriminate|]. intros Q. destruct (Hw Q) as [-> ->].
      split; auto. cbn. now rewrite !app_nil_r.
    + split; auto. exists ((l, b) :: taken). split; auto. split; [discriminate|]. intros Q. destruct (K Q) as [Q2 ->]. destruct (Hw Q2) as [-> ->].
      split; auto. cbn [flat_map fst]. rewrite app_nil_r, <- !app_assoc. reflexivity.
Qed.
Definition tame (t : tag) : Prop := In LF (t_value t) -> t_suffix t = [].
Lemma tags_loop_raw : forall fuel lines data buffer ts, (length lines <= fuel)%nat ->
  Forall (fun l => ~ In LF (fst l)) lines -> Forall (fun l => regular (rstrip (fst l))) lines -> Forall (fun l => ~ In LF l) buffer ->
  tags_loop TAG_NAMES fuel lines data buffer = Ok ts -> Forall tame (ts_data ts) ->
  tags_raw ts = flat_map tag_raw data ++ buffer ++ map fst lines /\ exists more, ts_data ts = data ++ more.
Proof.
  induction fuel as [|fuel IH]; intros lines data buffer ts Lf F X Fb; cbn [tags_loop].
  - destruct lines; [|cbn in Lf; lia]. intros E _; injection E as <-. unfold tags_raw. cbn. rewrite app_nil_r. split; auto. exists []. now rewrite app_nil_r.
  - destruct lines as [|[line0 valid] lines].
    + intros E _; injection E as <-. unfold tags_raw. cbn. rewrite app_nil_r. split; auto. exists []. now rewrite app_nil_r.
    + cbn in Lf. inversion F as [|? ? NL F']; subst. inversion X as [|? ? X0 X']; subst. cbn [fst] in NL, X0.
      destruct (split_trailing line0 []) as [line ws] eqn:Et. pose proof (trailing_split _ _ _ NL Et) as El. destruct (trailing_rstrip _ _ _ NL Et) as [Er _].
      destruct (split_conditional_macro_expansion line) as [[[line1 prefix] suffix]|e] eqn:Es; cbn [bind]; [|discriminate].
      apply (split_exact line) in Es; [|now rewrite Er].
      assert (NL1 : ~ In LF line1) by (intros Q; apply NL; rewrite El, <- Es, !in_app_iff; auto).
      pose proof (first_match_tag_line line1 NL1) as T. destruct (first_match TAG_NAMES line1) as [m|] eqn:Em.
      * destruct T as (El1 & _).
        destruct (if str_eqb suffix [] then extend_value (group_str 3 m) ws lines else (group_str 3 m, ws, lines)) as [[value ws'] rest] eqn:Ev.
        set (t := mk_tag (group_str 1 m) value (group_str 2 m) (comments_parse buffer) valid prefix (suffix ++ ws')).
        intros E Tm.
        assert (K : exists taken, lines = taken ++ rest /\ (tame t -> tag_text t = line0 ++ flat_map (fun l => LF :: fst l) taken)).
        { assert (Base : value = group_str 3 m -> ws' = ws -> tag_text t = line0).
          { intros Q1 Q2. unfold tag_text, t. cbn [t_prefix t_name t_separator t_value t_suffix]. rewrite Q1, Q2, El, <- Es, El1. now rewrite <- !app_assoc. }
          destruct (str_eqb suffix []) eqn:Esf.
          - apply str_eqb_eq in Esf. destruct (extend_value_spec _ _ _ _ _ _ F' Ev) as [(Q1 & Q2 & ->)|(L & taken & -> & _ & K)].
            + exists []. split; auto. intros _. cbn. rewrite app_nil_r. auto.
            + exists taken. split; auto. intros Ht. unfold tame, t in Ht. cbn [t_value t_suffix] in Ht. specialize (Ht L). rewrite Esf in Ht. cbn [app] in Ht.
              destruct (K Ht) as [Q1 Q2]. unfold tag_text, t. cbn [t_prefix t_name t_separator t_value t_suffix]. rewrite Q2, Ht, Esf, El, Q1, <- Es, El1, Esf.
              rewrite !app_nil_r. now rewrite <- !app_assoc.
          - injection Ev as <- <- <-. exists []. split; auto. intros _. cbn. rewrite app_nil_r. auto. }
        destruct K as (taken & El2 & K).
        assert (Fr : Forall (fun l => ~ In LF (fst l)) rest) by (rewrite El2 in F'; now apply Forall_app in F').
        assert (Xr : Forall (fun l => regular (rstrip (fst l))) rest) by (rewrite El2 in X'; now apply Forall_app in X').
        destruct (IH rest (data ++ [t]) [] ts) as (R & more & Em'); auto.
        { rewrite El2, app_length in Lf. lia. }
        assert (Ht : tame t). { rewrite Em' in Tm. apply Forall_app in Tm as [Tm _]. apply Forall_app in Tm as [_ Tm]. now inversion Tm. }
        split; [|exists (t :: more); rewrite Em', <- app_assoc; reflexivity].
        rewrite R, flat_map_app, <- app_assoc. f_equal. cbn [flat_map app]. rewrite app_nil_r. unfold tag_raw. rewrite (K Ht).
        rewrite split_on_lines by (auto; rewrite El2 in F'; now apply Forall_app in F').
        destruct (comments_parse_spec buffer Fb) as (Cb & _). cbn [t t_comments]. rewrite Cb. cbn [map fst]. rewrite El2, map_app. cbn [app]. now rewrite <- !app_assoc.
      * intros E Tm. destruct (IH lines data (buffer ++ [prefix ++ line1 ++ suffix ++ ws]) ts) as (R & more & Em'); auto; [lia| |].
        { apply Forall_app. split; auto. constructor; auto. replace (prefix ++ line1 ++ suffix ++ ws) with line0; auto.
          rewrite El, <- Es. now rewrite <- !app_assoc. }
        split; [|now exists more]. rewrite R. f_equal. rewrite <- app_assoc. cbn [app map fst]. do 2 f_equal. rewrite El, <- Es. now rewrite <- !app_assoc.
Qed.
(** Without trailing white space all tags are tame. *)
Lemma no_trailing line : ~ In LF line -> rstrip line = line -> split_trailing line [] = (line, []) /\ re_split1 re_trailing line = None.
Proof.
  intros NL E. destruct (split_trailing line []) as [b w] eqn:Es. pose proof (trailing_split _ _ _ NL Es) as El.
  destruct (trailing_rstrip _ _ _ NL Es) as [Eb _]. rewrite E in Eb. subst b. rewrite <- (app_nil_r line) in El at 1. apply app_inv_head in El. subst w.
  split; auto. unfold split_trailing in Es. pose proof (re_trailing_split line NL) as T. destruct (re_split1 re_trailing line) as [[b m]|]; auto.
  destruct T as [T1 T2]. injection Es as _ Q. rewrite app_nil_r in Q. congruence.
Qed.
Lemma extend_value_ws : forall lines v v' ws' ls, Forall (fun l => ~ In LF (fst l) /\ rstrip (fst l) = fst l) lines ->
  extend_value v [] lines = (v', ws', ls) -> ws' = [].
Proof.
  induction lines as [|[l b] lines IH]; intros v v' ws' ls F; cbn [extend_value].
  - intros E; now injection E as <- <- <-.
  - inversion F as [|? ? [NL Nt] F']; subst. cbn [fst] in *. destruct (value_open v); [|intros E; now injection E as <- <- <-].
    destruct (no_trailing l NL Nt) as [_ ->]. intros E. now apply IH in E.
Qed.
Lemma tags_loop_tame : forall fuel lines data buffer ts,
  Forall (fun l => ~ In LF (fst l) /\ rstrip (fst l) = fst l) lines -> Forall (fun l => regular (rstrip (fst l))) lines ->
  Forall tame data -> tags_loop TAG_NAMES fuel lines data buffer = Ok ts -> Forall tame (ts_data ts).
Proof.
  induction fuel as [|fuel IH]; intros lines data buffer ts F X T; cbn [tags_loop]; [intros E; now injection E as <-|].
  destruct lines as [|[line0 valid] lines]; [intros E; now injection E as <-|].
  inversion F as [|? ? [NL Nt] F']; subst. inversion X as [|? ? X0 X']; subst. cbn [fst] in *.
  destruct (no_trailing line0 NL Nt) as [-> _].
  destruct (split_conditional_macro_expansion line0) as [[[line1 prefix] suffix]|e] eqn:Es; cbn [bind]; [|discriminate].
  apply (split_exact line0) in Es; [|now rewrite Nt in X0].
  assert (NL1 : ~ In LF line1) by (intros Q; apply NL; rewrite <- Es, !in_app_iff; auto).
  pose proof (first_match_tag_line line1 NL1) as Tl. destruct (first_match TAG_NAMES line1) as [m|] eqn:Em.
  - destruct Tl as (El1 & _).
    destruct (if str_eqb suffix [] then extend_value (group_str 3 m) [] lines else (group_str 3 m, [], lines)) as [[value ws'] rest] eqn:Ev.
    assert (K : exists taken, lines = taken ++ rest).
    { destruct (str_eqb suffix []).
      - apply extend_value_spec in Ev; [|eapply Forall_impl; [|exact F']; now intros ? []].
        destruct Ev as [(_ & _ & ->)|(_ & taken & -> & _)]; [now exists []|now exists taken].
      - injection Ev as _ _ <-. now exists []. }
    destruct K as (taken & El).
    intros E. rewrite El in F', X'. apply Forall_app in F' as [F1 F2]. apply Forall_app in X' as [X1 X2]. apply IH in E; auto.
    apply Forall_app. split; auto. constructor; auto. intros L. cbn [t_suffix t_value] in *.
    destruct (str_eqb suffix []) eqn:Q.
    + apply str_eqb_eq in Q. subst. apply extend_value_ws in Ev; [now subst|]. apply Forall_app; auto.
    + injection Ev as <- <- <-. exfalso. apply NL1. rewrite El1, !in_app_iff. auto.
  - intros E. now apply IH in E.
Qed.
(** Lines that are written back as they are. *)
Lemma regular_not_braced line : (forall x, line <> PCT :: LBRACE :: x) -> regular line.
Proof. intros N p m body E. apply parse_reads in E. inversion E; subst. exfalso. eapply N. reflexivity. Qed.
Lemma reads_no_pct ns t : reads ns t -> ~ In PCT t -> nodes_str ns = t.
Proof.
  induction 1 as [|v ns t Nv HR IH|b ns t HR IH|b ns t HR IH|p n ns t HR IH|p n args x ns t Hx HR IH
    |p n body x ns t Hq Hc HB IHB HR IH|n b ns t Hc HR IH]; cbn [nodes_str flat_map node_str]; try (fold (nodes_str ns)); intros F; auto;
    try (exfalso; apply F; now left).
  rewrite IH; auto. intros Q. apply F, in_app_iff. now right.
Qed.
Lemma regular_one_pct a : ~ In PCT a -> regular (PCT :: a).
Proof.
  intros N p m body E. apply parse_reads in E. inversion E as [| | | | | |? ? ? x ? t Hq Hc HB HR|]; subst. inversion HR; subst.
  apply reads_no_pct in HB. 2:{ intros Q. apply N. right. apply in_app_iff. right. apply in_app_iff. right. right. apply in_app_iff. now left. }
  cbn [node_str]. fold (nodes_str body). rewrite HB. unfold braced. repeat (rewrite <- ?app_assoc; cbn [app]). reflexivity.
Qed.
Lemma regular_no_space line : Forall (fun c => is_space c = false) line -> regular line.
Proof.
  intros F p m body E. apply parse_exact in E; [|apply forallb_forall; intros c Hc; rewrite Forall_forall in F; now rewrite F].
  unfold nodes_str in E. cbn [flat_map] in E. now rewrite app_nil_r in E.
Qed.
(** The tags found are the tags written. *)
Lemma tags_loop_written : forall fuel lines data buffer ts, (length lines <= fuel)%nat ->
  Forall (fun l => ~ In LF (fst l)) lines -> Forall (fun l => regular (rstrip (fst l))) lines ->
  tags_loop TAG_NAMES fuel lines data buffer = Ok ts -> (forall t, In t (ts_data ts) -> ~ In LF (t_value t)) ->
  exists found, ts_data ts = data ++ found /\ written lines found.
Proof.
  induction fuel as [|fuel IH]; intros lines data buffer ts Lf F X; cbn [tags_loop].
  - destruct lines; [|cbn in Lf; lia]. intros E _; injection E as <-. exists []. rewrite app_nil_r. split; auto. constructor.
  - destruct lines as [|[line0 valid] lines].
    + intros E _; injection E as <-. exists []. rewrite app_nil_r. split; auto. constructor.
    + cbn in Lf. inversion F as [|? ? NL F']; subst. inversion X as [|? ? X0 X']; subst. cbn [fst] in NL, X0.
      destruct (split_trailing line0 []) as [line ws] eqn:Et. pose proof (trailing_split _ _ _ NL Et) as El. destruct (trailing_rstrip _ _ _ NL Et) as [Er _].
      destruct (split_conditional_macro_expansion line) as [[[line1 prefix] suffix]|e] eqn:Es; cbn [bind]; [|discriminate].
      pose proof Es as Es2. apply (split_exact line) in Es2; [|now rewrite Er].
      assert (NL1 : ~ In LF line1) by (intros Q; apply NL; rewrite El, <- Es2, !in_app_iff; auto).
      pose proof (first_match_tag_line line1 NL1) as T. destruct (first_match TAG_NAMES line1) as [m|] eqn:Em.
      * destruct (if str_eqb suffix [] then extend_value (group_str 3 m) ws lines else (group_str 3 m, ws, lines)) as [[value ws'] rest] eqn:Ev.
        intros E Tm.
        assert (K : (value = group_str 3 m /\ ws' = ws /\ rest = lines) \/ (In LF value /\ exists taken, lines = taken ++ rest)).
        { destruct (str_eqb suffix []); [|injection Ev as <- <- <-; auto].
          destruct (extend_value_spec _ _ _ _ _ _ F' Ev) as [(Q1 & Q2 & Q3)|(L & taken & Q & _)]; [auto|right; eauto]. }
        destruct K as [(-> & -> & ->)|(L & taken & El2)].
        -- apply IH in E as (found & Ed & Wr); auto; [|lia]. eexists (_ :: found). rewrite <- app_assoc in Ed. split; [exact Ed|].
           apply (W_tag line0 valid line1 prefix suffix); cbn [t_name t_separator t_value t_valid t_prefix t_suffix]; auto; [now rewrite <- Er|].
           exists ws. split; auto. now rewrite <- Er.
        -- exfalso. rewrite El2 in F', X'. apply Forall_app in F' as [_ F']. apply Forall_app in X' as [_ X'].
           apply IH in E as (found & Ed & _); auto; [|rewrite El2, app_length in Lf; lia].
           apply (Tm (mk_tag (group_str 1 m) value (group_str 2 m) (comments_parse buffer) valid prefix (suffix ++ ws'))); auto.
           rewrite Ed. apply in_app_iff. left. apply in_app_iff. right. now left.
      * intros E Tm. apply IH in E as (found & Ed & Wr); auto; [|lia]. exists found. split; auto.
        apply (W_other line0 valid line1 prefix suffix); auto. now rewrite <- Er.
Qed.
Section Parse.
Context {W : Type} (expand : bool -> W -> str -> result str * W).
Theorem tags_round_trip w lines ts w' : Forall (fun l => ~ In LF l) lines -> Forall (fun l => regular (rstrip l)) lines ->
  tags_parse expand TAG_NAMES w lines = (Ok ts, w') -> (forall t, In t (ts_data ts) -> In LF (t_value t) -> t_suffix t = []) -> tags_raw ts = lines.
Proof.
  intros F X E T. unfold tags_parse in E. destruct (process_conditions expand w lines (Some (parse_plain lines))) as [[tagged|e] w1] eqn:P; [|discriminate].
  injection E as E _. apply process_lines in P. subst lines.
  apply (tags_loop_raw (length tagged) tagged [] [] ts) in E as [R _]; auto.
  - apply Forall_forall. intros l Hl. rewrite Forall_forall in F. apply F, in_map, Hl.
  - apply Forall_forall. intros l Hl. rewrite Forall_forall in X. apply (X (fst l)), in_map, Hl.
  - apply Forall_forall. exact T.
Qed.
Theorem tags_round_trip_plain w lines ts w' : Forall (fun l => ~ In LF l) lines -> Forall (fun l => rstrip l = l) lines -> Forall regular lines ->
  tags_parse expand TAG_NAMES w lines = (Ok ts, w') -> tags_raw ts = lines.
Proof.
  intros F S X E. apply (tags_round_trip w lines ts w'); auto.
  { apply Forall_forall. intros l Hl. rewrite Forall_forall in S, X. rewrite S; auto. }
  unfold tags_parse in E. destruct (process_conditions expand w lines (Some (parse_plain lines))) as [[tagged|e] w1] eqn:P; [|discriminate].
  injection E as E _. apply process_lines in P. subst lines. rewrite Forall_forall in F, S, X.
  apply tags_loop_tame in E; auto.
  - rewrite Forall_forall in E. exact E.
  - apply Forall_forall. intros l Hl. split; [apply F|apply S]; apply in_map, Hl.
  - apply Forall_forall. intros l Hl. rewrite S by apply in_map, Hl. apply X, in_map, Hl.
Qed.
Theorem tags_written w lines ts w' : Forall (fun l => ~ In LF l) lines -> Forall (fun l => regular (rstrip l)) lines ->
  tags_parse expand TAG_NAMES w lines = (Ok ts, w') -> (forall t, In t (ts_data ts) -> ~ In LF (t_value t)) ->
  exists tagged, process_conditions expand w lines (Some (parse_plain lines)) = (Ok tagged, w') /\ map fst tagged = lines /\ written tagged (ts_data ts).
Proof.
  intros F X E T. unfold tags_parse in E. destruct (process_conditions expand w lines (Some (parse_plain lines))) as [[tagged|e] w1] eqn:P; [|discriminate].
  injection E as E <-. exists tagged. split; auto. pose proof (process_lines expand w lines _ tagged _ P) as L. split; auto. subst lines.
  apply tags_loop_written in E as (found & Ed & Wr); auto.
  - cbn in Ed. now rewrite Ed.
  - apply Forall_forall. intros l Hl. rewrite Forall_forall in F. apply F, in_map, Hl.
  - apply Forall_forall. intros l Hl. rewrite Forall_forall in X. apply (X (fst l)), in_map, Hl.
Qed.
End Parse.
End Uni.
