From Coq Require Import Ascii String.
From Coq Require Import NArith ZArith List Bool Lia.
From Verif Require Import PyStr PyStrFacts Regex RegexFacts M_value P_value P_evr M_macro_definitions Spec_macro_definitions P_macro_definitions.
Import ListNotations.
Open Scope N_scope.

Section U.
Context {U : Unicode}.

Lemma H_word t pr rs cs : H (word t) (mkst pr (t ++ rs) cs) (mkst (rev t ++ pr) rs cs).
Proof.
  apply H_unique.
  - apply Match_word. auto.
  - intros [p r c] HM. apply Match_word in HM as (E & P & C). cbn [rest pre caps] in *. apply app_inv_head in E. now subst.
Qed.
Lemma is_word_not_space c : is_word c = true -> is_space c = false.
Proof.
  unfold is_word, is_alnum. intros E. destruct (is_space c) eqn:S; auto. exfalso.
  cbn [negb] in E. rewrite andb_false_r in E. cbn [andb] in E. rewrite orb_false_r in E.
  assert (Hc : c = 32 \/ (9 <= c <= 13) \/ (28 <= c <= 31) \/ 128 <= c).
  { unfold is_space in S. repeat (apply orb_true_iff in S as [S|S]);
    repeat match goal with
    | [ S : _ && _ = true |- _ ] => apply andb_true_iff in S as [? S]
    | [ S : (_ <=? _) = true |- _ ] => apply N.leb_le in S
    | [ S : (_ =? _) = true |- _ ] => apply N.eqb_eq in S
    end; lia. }
  unfold ascii_digit, ascii_alpha, ascii_upper, ascii_lower in E.
  repeat (apply orb_true_iff in E as [E|E]);
    repeat match goal with
    | [ S : _ && _ = true |- _ ] => apply andb_true_iff in S as [? S]
    | [ S : (_ <=? _) = true |- _ ] => apply N.leb_le in S
    | [ S : (_ =? _) = true |- _ ] => apply N.eqb_eq in S
    end; lia.
Qed.
Lemma space_not_word c : is_space c = true -> is_word c = false.
Proof. intros E. destruct (is_word c) eqn:Q; auto. apply is_word_not_space in Q. congruence. Qed.

Definition tail_re : re :=
  Seq (Grp 4 (Alt (word (lit "global")) (word (lit "define"))))
  (Seq (Grp 5 (Plus true is_space)) (Seq (Grp 6 re_name) (Seq (Grp 7 (Plus true is_space))
  (Seq (Grp 8 (Star false dot)) (Seq (Grp 9 (Alt (Star true is_space) (chr BSLASH))) Dollar))))).

Lemma noLF_dot s : ~ In LF s -> forallb dot s = true.
Proof. intros N. apply forallb_forall. intros c Hc. unfold dot. destruct (N.eqb_spec c LF); auto. subst. contradiction. Qed.

Lemma H_body n9 body w3 pr cs : ~ In LF body -> blank w3 -> (exists b c, body = b ++ [c] /\ is_space c = false /\ c <> BSLASH) -> ~ In LF w3 ->
  H (Seq (Grp 8 (Star false dot)) (Seq (Grp n9 (Alt (Star true is_space) (chr BSLASH))) Dollar))
    (mkst pr (body ++ w3) cs) (mkst (rev w3 ++ rev body ++ pr) [] ((n9, w3) :: (8%nat, body) :: cs)).
Proof.
  intros NB B3 (b & c & Eb & Sc & Nc) N3. apply H_lazy_star.
  - now apply noLF_dot.
  - intros w1 w2 Ew Nw m' HM. apply Match_Seq in HM as (s1 & HM & HD). apply Match_Dollar in HD as [-> HD].
    apply Match_Grp_simple in HM as (w & s2 & HM & E & _ & _ & ->); [|cbn; tauto]. cbn [rest pre] in *.
    assert (Hw2 : exists y, w2 = y ++ [c]).
    { destruct (exists_last Nw) as (y & d & ->). exists y. rewrite Eb, app_assoc in Ew. apply app_inj_tail in Ew as [_ ->]. reflexivity. }
    destruct Hw2 as (y & ->).
    assert (NLF : ~ In LF ((y ++ [c]) ++ w3)).
    { rewrite in_app_iff. intros [Q|Q]; auto. apply NB. rewrite Ew, in_app_iff. auto. }
    apply at_dollar_noLF in HD.
    2:{ intros Q. apply NLF. rewrite E, in_app_iff. auto. }
    rewrite HD, app_nil_r in E.
    apply Match_Alt in HM as [HM|HM].
    + apply Match_Star in HM as (w' & Q & F & _). cbn [rest] in Q. rewrite HD, app_nil_r in Q. subst w'.
      rewrite !forallb_app in F. cbn in F. rewrite Sc in F. rewrite andb_false_r in F. discriminate.
    + apply Match_Ch in HM as (d & Q & F & _). cbn [rest] in Q. rewrite HD in Q. apply N.eqb_eq in F. subst d.
      destruct y as [|z y]; [|destruct y; discriminate]. injection Q as -> _. congruence.
  - eapply H_seq; [|apply H_dollar].
    pose proof (H_grp n9 (Alt (Star true is_space) (chr BSLASH)) (mkst (rev body ++ pr) w3 ((8%nat, body) :: cs))
      (mkst (rev w3 ++ rev body ++ pr) [] ((8%nat, body) :: cs)) w3) as HG. cbn [pre rest caps] in HG. apply HG; auto.
    apply H_altl. rewrite <- (app_nil_r w3) at 1. apply H_star; [now apply blank_forallb|discriminate].
Qed.

Lemma H_gplus n p w b pr rs cs m : w <> [] -> forallb p w = true -> (forall c rs', rs = c :: rs' -> p c = false) ->
  H b (mkst (rev w ++ pr) rs ((n, w) :: cs)) m -> H (Seq (Grp n (Plus true p)) b) (mkst pr (w ++ rs) cs) m.
Proof.
  intros N F E HB. eapply H_seq; [|exact HB].
  apply (H_grp n _ (mkst pr (w ++ rs) cs) (mkst (rev w ++ pr) rs cs) w); [|reflexivity]. now apply H_plus.
Qed.

Lemma H_name nm c rs pr cs : ordinary_name nm -> is_space c = true ->
  H re_name (mkst pr (nm ++ c :: rs) cs) (mkst (rev nm ++ pr) (c :: rs) cs).
Proof.
  intros (w & p & -> & Nw & Fw & Hp) Sc. unfold re_name. rewrite <- app_assoc. eapply H_seq.
  - apply H_plus; auto. intros d rs' Q. destruct Hp as [->|(x & -> & _)]; injection Q as <- _; [now apply space_not_word|reflexivity].
  - destruct Hp as [->|(x & -> & Nx & NL)].
    + rewrite app_nil_r. cbn [app]. apply H_altr; [|apply H_eps].
      apply seq_nil, results_nil. intros m HM. apply Match_Ch in HM as (d & E & Q & _). apply N.eqb_eq in Q. subst d. injection E as -> _. discriminate.
    + apply H_altl. rewrite rev_app_distr. cbn [rev app]. rewrite rev_app_distr. cbn [rev app]. rewrite <- !app_assoc. cbn [app].
      eapply H_seq; [apply H_chr|]. apply (H_lazy_until dot RPAR (LPAR :: rev w ++ pr) x (c :: rs) cs); auto. now apply noLF_dot.
Qed.

Lemma H_tail k w1 nm w2 body w3 pr cs : keyword k -> blank w1 -> w1 <> [] -> ordinary_name nm -> blank w2 -> w2 <> [] ->
  (exists c b, body = c :: b /\ is_space c = false) -> ~ In LF body -> blank w3 -> (exists b c, body = b ++ [c] /\ is_space c = false /\ c <> BSLASH) -> ~ In LF w3 ->
  exists pr', H tail_re (mkst pr (k ++ w1 ++ nm ++ w2 ++ body ++ w3) cs)
    (mkst pr' [] ((9%nat, w3) :: (8%nat, body) :: (7%nat, w2) :: (6%nat, nm) :: (5%nat, w1) :: (4%nat, k) :: cs)).
Proof.
  intros Hk B1 N1 Hn B2 N2 (c0 & b0 & Eb0 & S0) NB B3 HB N3. eexists. unfold tail_re.
  eapply H_seq.
  { apply (H_grp 4 _ (mkst pr (k ++ w1 ++ nm ++ w2 ++ body ++ w3) cs) (mkst (rev k ++ pr) (w1 ++ nm ++ w2 ++ body ++ w3) cs) k); [|reflexivity].
    destruct Hk as [->| ->]; [apply H_altl, H_word|]. apply H_altr; [|apply H_word].
    apply results_nil. intros m HM. apply Match_word in HM as (Q & _). discriminate. }
  cbn [pre rest caps].
  apply H_gplus; auto; [now apply blank_forallb| |].
  { intros c rs' Q. destruct Hn as (w & p & -> & Nw & Fw & _). destruct w as [|d w]; [congruence|].
    injection Q as <- _. cbn [forallb] in Fw. apply andb_true_iff in Fw as [Fw _]. now apply is_word_not_space. }
  eapply H_seq.
  { destruct w2 as [|c2 w2]; [congruence|].
    apply (H_grp 6 _ (mkst (rev w1 ++ rev k ++ pr) (nm ++ (c2 :: w2) ++ body ++ w3) ((5%nat, w1) :: (4%nat, k) :: cs))
       (mkst (rev nm ++ rev w1 ++ rev k ++ pr) ((c2 :: w2) ++ body ++ w3) ((5%nat, w1) :: (4%nat, k) :: cs)) nm); [|reflexivity].
    cbn [app]. apply H_name; auto. now inversion B2. }
  cbn [pre rest caps].
  apply H_gplus; auto; [now apply blank_forallb| |].
  { rewrite Eb0. intros c rs' Q. now injection Q as <- _. }
  apply H_body; auto.
Qed.

(** The beginning of the line: [%dnl] with a prefix, [#], or [%]. *)
Lemma md_regex_eq : md_regex = Seq Caret (Seq (Grp 1 (Star true is_space)) (Seq (Opt (Grp 2 (word (lit "%dnl")))) (Seq (Grp 3 re_sc) tail_re))).
Proof. reflexivity. Qed.

Lemma H_ws0 w0 t b m : blank w0 -> (forall c t', t = c :: t' -> is_space c = false) ->
  H b (mkst (rev w0) t [(1%nat, w0)]) m -> re_match (Seq Caret (Seq (Grp 1 (Star true is_space)) b)) (w0 ++ t) = Some m.
Proof.
  intros B E HB. apply re_match_H. eapply H_seq; [apply H_caret|]. eapply H_seq.
  - apply (H_grp 1 _ (mkst [] (w0 ++ t) []) (mkst (rev w0) t []) w0); [|cbn; now rewrite app_nil_r].
    rewrite <- (app_nil_r (rev w0)). apply H_star; [now apply blank_forallb|auto].
  - exact HB.
Qed.

Lemma match_dnl w0 x t caps' : blank w0 -> ~ In PCT x -> ~ In LF x ->
  (forall pr cs, exists pr', H tail_re (mkst pr t cs) (mkst pr' [] (caps' ++ cs))) ->
  exists m, re_match md_regex (w0 ++ lit "%dnl" ++ x ++ PCT :: t) = Some m /\
    caps m = caps' ++ [(3%nat, x ++ [PCT]); (2%nat, lit "%dnl"); (1%nat, w0)].
Proof.
  intros B Np NL HT. rewrite md_regex_eq.
  edestruct HT as (p & HT'). eexists. split.
  - apply H_ws0; auto; [intros c t' Q; now injection Q as <- _|].
    eapply H_seq.
    { apply H_altl. apply (H_grp 2 _ (mkst (rev w0) (lit "%dnl" ++ x ++ PCT :: t) [(1%nat, w0)])
        (mkst (rev (lit "%dnl") ++ rev w0) (x ++ PCT :: t) [(1%nat, w0)]) (lit "%dnl")); [|reflexivity]. apply H_word. }
    cbn [pre rest caps]. eapply H_seq.
    { apply (H_grp 3 _ (mkst (rev (lit "%dnl") ++ rev w0) (x ++ PCT :: t) [(2%nat, lit "%dnl"); (1%nat, w0)])
        (mkst (PCT :: rev x ++ rev (lit "%dnl") ++ rev w0) t [(2%nat, lit "%dnl"); (1%nat, w0)]) (x ++ [PCT])).
      - unfold re_sc, H. cbn [results caps cap_get Nat.eqb]. apply (H_lazy_until dot PCT _ x t); auto. now apply noLF_dot.
      - cbn [pre]. rewrite rev_app_distr. reflexivity. }
    cbn [pre rest caps]. exact HT'.
  - reflexivity.
Qed.
Lemma match_active w0 k t caps' : blank w0 -> keyword k ->
  (forall pr cs, exists pr', H tail_re (mkst pr (k ++ t) cs) (mkst pr' [] (caps' ++ cs))) ->
  exists m, re_match md_regex (w0 ++ PCT :: k ++ t) = Some m /\ caps m = caps' ++ [(3%nat, [PCT]); (1%nat, w0)].
Proof.
  intros B Hk HT. rewrite md_regex_eq.
  edestruct HT as (p & HT'). eexists. split.
  - apply H_ws0; auto; [intros c t' Q; now injection Q as <- _|].
    eapply H_seq.
    { apply H_altr; [|apply H_eps]. apply results_nil. intros m HM. apply Match_Grp_simple in HM as (w & s1 & HM & _); [|cbn; tauto].
      apply Match_word in HM as (Q & _). destruct Hk as [->| ->]; discriminate. }
    eapply H_seq.
    { apply (H_grp 3 _ (mkst (rev w0) (PCT :: k ++ t) [(1%nat, w0)]) (mkst (PCT :: rev w0) (k ++ t) [(1%nat, w0)]) [PCT]); [|reflexivity].
      reflexivity. }
    cbn [pre rest caps]. exact HT'.
  - reflexivity.
Qed.
Lemma match_hash w0 k t caps' : blank w0 -> keyword k -> (forall a k' b, keyword k' -> k ++ t <> a ++ PCT :: k' ++ b) ->
  (forall pr cs, exists pr', H tail_re (mkst pr (k ++ t) cs) (mkst pr' [] (caps' ++ cs))) ->
  exists m, re_match md_regex (w0 ++ HASH :: k ++ t) = Some m /\ caps m = caps' ++ [(3%nat, [HASH]); (1%nat, w0)].
Proof.
  intros B Hk NK HT. rewrite md_regex_eq.
  edestruct HT as (p & HT'). eexists. split.
  - apply H_ws0; auto; [intros c t' Q; now injection Q as <- _|].
    eapply H_seq.
    { apply H_altr; [|apply H_eps]. apply results_nil. intros m HM. apply Match_Grp_simple in HM as (w & s1 & HM & _); [|cbn; tauto].
      apply Match_word in HM as (Q & _). discriminate. }
    eapply (H_Seq_first _ _ _ (mkst (HASH :: rev w0) (k ++ t) [(3%nat, [HASH]); (1%nat, w0)]) _
      (map (fun s' => mkst (pre s') (rest s') ((3%nat, consumed (mkst (rev w0) (HASH :: k ++ t) [(1%nat, w0)]) s') :: caps s'))
           (results (Seq (Star false dot) (chr PCT)) (mkst (HASH :: rev w0) (k ++ t) [(1%nat, w0)]))) []).
    + unfold re_sc, Opt, chr. cbn [results caps cap_get Nat.eqb pre rest]. change (PCT =? HASH) with false. change (HASH =? HASH) with true.
      cbn [app flat_map]. rewrite app_nil_r, map_app. cbn [map pre rest caps]. rewrite (consumed_eq _ _ [HASH]) by reflexivity. reflexivity.
    + intros z Hz m' HM. apply in_map_iff in Hz as (s1 & <- & Hs). apply results_Match in Hs.
      apply Match_Seq in Hs as (s2 & Hs & Hc). apply Match_Star in Hs as (x & Ex & _). apply Match_Ch in Hc as (c & Ec & Qc & _).
      apply N.eqb_eq in Qc. subst c. cbn [rest] in *. unfold tail_re in HM. apply Match_Seq in HM as (s3 & HM & _).
      apply Match_Grp_simple in HM as (k' & s4 & HM & E4 & _); [|cbn; tauto]. cbn [rest] in E4.
      assert (Hk' : keyword k').
      { apply Match_Alt in HM as [HM|HM]; apply Match_word in HM as (Q & _); cbn [rest] in Q; rewrite E4 in Q; apply app_inv_tail in Q; [left|right]; auto. }
      apply (NK x k' (rest s4) Hk'). rewrite Ex, Ec, E4. reflexivity.
    + exact HT'.
  - reflexivity.
Qed.

Lemma split_trailing_none body w3 : ~ In LF body -> (exists b c, body = b ++ [c] /\ is_space c = false /\ c <> BSLASH) ->
  split_trailing body w3 = (body, w3).
Proof.
  intros NL (b & c & Eb & Sc & _). unfold split_trailing, re_split1, re_search.
  destruct (search_from re_trailing [] body) as [[pr m]|] eqn:E; auto. exfalso.
  apply search_from_Some in E as (x & rs & Ex & -> & Hm & _).
  assert (HM : Match re_trailing (mkst (rev x ++ []) rs []) m).
  { apply results_Match. destruct (results _ _); cbn in Hm; [discriminate|]. injection Hm as ->. now left. }
  apply Match_Seq in HM as (s1 & HM & HD). apply Match_Grp_Plus in HM as (y & Ny & E1 & F & _). apply Match_Dollar in HD as [-> HD].
  cbn [rest] in E1. apply at_dollar_noLF in HD.
  2:{ intros Q. apply NL. rewrite Ex, E1, !in_app_iff. auto. }
  rewrite HD, app_nil_r in E1. subst rs. destruct (exists_last Ny) as (y' & d & ->). rewrite Eb, app_assoc in Ex.
  apply app_inj_tail in Ex as [_ <-]. rewrite forallb_app in F. cbn in F. unfold space_not_lf in F. rewrite Sc in F. cbn in F. now rewrite andb_false_r in F.
Qed.

(** Reading back one definition at the head of the text. *)
Lemma loop_data : forall fuel lines data buffer, exists ds, md_data (parse_loop fuel lines data buffer) = data ++ ds.
Proof.
  induction fuel as [|fuel IH]; intros lines data buffer; cbn [parse_loop]; [exists []; now rewrite app_nil_r|].
  destruct lines as [|[l v] lines]; [exists []; now rewrite app_nil_r|].
  destruct (re_match md_regex l) as [m|]; [|apply IH]. destruct (make_def m v buffer lines) as [d rest].
  destruct (IH rest (data ++ [d]) []) as (ds & ->). exists (d :: ds). now rewrite <- app_assoc.
Qed.
Lemma at_head_intro l m d lines rest : re_match md_regex l = Some m -> make_def m true [] (map (fun l => (l, true)) lines) = (d, rest) ->
  at_head d (l :: lines).
Proof.
  intros E1 E2. unfold at_head, parse_plain, parse_tagged. cbn [map length parse_loop]. rewrite E1, E2. cbn [app].
  destruct (loop_data (length (map (fun l0 : list N => (l0, true)) lines)) rest [d] []) as (ds & Q).
  destruct (parse_loop _ rest [d] []) as [dd r]. cbn [md_data] in Q. subst dd. exists ds, r. reflexivity.
Qed.

Lemma sc_snoc_not_escaped x : ~ In PCT x -> sc_escaped (x ++ [PCT]) = false.
Proof.
  intros N. unfold sc_escaped. destruct (endswith (x ++ [PCT]) [PCT; PCT]) eqn:Q; [|now rewrite andb_false_r].
  apply endswith_iff in Q as (t & Q). change [PCT; PCT] with ([PCT] ++ [PCT]) in Q. rewrite app_assoc in Q.
  apply app_inj_tail in Q as [-> _]. exfalso. apply N. apply in_app_iff. right. now left.
Qed.
Lemma body_closed_extend body lines : body_open body = false -> extend_body body lines = (body, lines).
Proof. intros E. destruct lines as [|[l v] lines]; cbn [extend_body]; [reflexivity|]. now rewrite E. Qed.

Lemma kw (g : bool) : keyword (if g then lit "global" else lit "define").
Proof. destruct g; [now left|now right]. Qed.
Lemma kw_global (g : bool) : str_eqb (if g then lit "global" else lit "define") (lit "global") = g.
Proof. destruct g; reflexivity. Qed.

Theorem comment_dnl d lines : ordinary d -> d_commented_out d = true -> d_style d = DNL -> ~ In LF (d_prefix d) ->
  d_preceding d = [] -> d_valid d = true -> at_head d (mdef_str d :: lines).
Proof.
  destruct d as [n b g co sty [[[w0 w1] w2] w3] pf v pl]. unfold ordinary. cbn [d_ws d_name d_prefix d_body d_commented_out d_style d_preceding d_valid].
  intros (B0 & B1 & N1 & B2 & N2 & B3 & NL & Hn & Np & Nb & Hb0 & Hb) -> -> NLp -> ->.
  rewrite !in_app_iff in NL. assert (NL3 : ~ In LF w3) by tauto.
  unfold mdef_str, d_head, d_ws3. cbn [d_ws d_name d_prefix d_body d_commented_out d_style d_is_global].
  set (k := if g then _ else _).
  destruct (match_dnl w0 pf (k ++ w1 ++ n ++ w2 ++ b ++ w3) ((9%nat, w3) :: (8%nat, b) :: (7%nat, w2) :: (6%nat, n) :: (5%nat, w1) :: [(4%nat, k)])) as (m & EM & EC); auto.
  { intros pr cs. destruct (H_tail k w1 n w2 b w3 pr cs) as (pr' & HT); auto; [apply kw|]. exists pr'. exact HT. }
  eapply at_head_intro with (m := m).
  - rewrite <- EM. f_equal. rewrite <- !app_assoc. reflexivity.
  - unfold make_def, group_str, group. rewrite EC. cbn [app cap_get Nat.eqb negb andb].
    rewrite sc_hashed_snoc, sc_prefix_snoc, sc_snoc_not_escaped by auto. rewrite split_trailing_none by auto.
    subst k. rewrite kw_global. reflexivity.
Qed.
Theorem comment_hash d lines : ordinary d -> d_commented_out d = true -> d_style d = HASHED -> d_prefix d = [] ->
  (forall a k b, keyword k -> d_name d ++ snd (fst (d_ws d)) ++ d_body d <> a ++ PCT :: k ++ b) ->
  d_preceding d = [] -> d_valid d = true -> at_head d (mdef_str d :: lines).
Proof.
  destruct d as [n b g co sty [[[w0 w1] w2] w3] pf v pl]. unfold ordinary. cbn [d_ws d_name d_prefix d_body d_commented_out d_style d_preceding d_valid fst snd].
  intros (B0 & B1 & N1 & B2 & N2 & B3 & NL & Hn & Np & Nb & Hb0 & Hb) -> -> -> NK -> ->.
  rewrite !in_app_iff in NL. assert (NL3 : ~ In LF w3) by tauto.
  unfold mdef_str, d_head, d_ws3. cbn [d_ws d_name d_prefix d_body d_commented_out d_style d_is_global].
  set (k := if g then _ else _).
  assert (Bp : forall w, blank w -> ~ In PCT w).
  { intros w Hw Q. unfold blank in Hw. rewrite Forall_forall in Hw. specialize (Hw _ Q). discriminate. }
  assert (Kp : forall k, keyword k -> ~ In PCT k).
  { intros k' [->| ->] Q; cbn in Q; repeat (destruct Q as [Q|Q]; [discriminate|]); destruct Q. }
  destruct (match_hash w0 k (w1 ++ n ++ w2 ++ b ++ w3) ((9%nat, w3) :: (8%nat, b) :: (7%nat, w2) :: (6%nat, n) :: (5%nat, w1) :: [(4%nat, k)])) as (m & EM & EC); auto.
  { apply kw. }
  { intros a k' y Hk' Q.
    (* strip leading percent-free part and trailing blank *)
    assert (Q2 : forall u v, ~ In PCT u -> u ++ v = a ++ PCT :: k' ++ y -> exists a', v = a' ++ PCT :: k' ++ y).
    { clear. intros u. revert a. induction u as [|c u IH]; intros a v Nu E; [exists a; exact E|].
      destruct a as [|c' a]; injection E as E1 E2; [exfalso; apply Nu; left; exact E1|].
      apply (IH a v); auto. intros Hi. apply Nu. now right. }
    assert (Q3 : exists a', n ++ w2 ++ b ++ w3 = a' ++ PCT :: k' ++ y).
    { apply (Q2 (k ++ w1)); [rewrite in_app_iff; intros [Z|Z]; [apply (Kp k (kw g) Z)|apply (Bp w1 B1 Z)]|]. now rewrite <- app_assoc. }
    destruct Q3 as (a' & Q3).
    assert (Q4 : exists y', n ++ w2 ++ b = a' ++ PCT :: k' ++ y').
    { assert (Kl : forall k'', keyword k'' -> forall z c, is_space c = true -> k'' <> z ++ [c]).
      { intros k'' [->| ->] z c Sc Z; [change (lit "global") with (lit "globa" ++ lit "l") in Z|change (lit "define") with (lit "defin" ++ lit "e") in Z];
          apply app_inj_tail in Z as [_ <-]; discriminate. }
      clear -Q3 B3 Hk' Kl. revert y Q3. induction w3 as [|c w IH] using rev_ind; intros y Q3.
      - exists y. now rewrite app_nil_r in Q3.
      - unfold blank in B3. apply Forall_app in B3 as [B3 Bc]. inversion Bc as [|? ? Sc]; subst.
        destruct y as [|c' y'] using rev_ind.
        + exfalso. rewrite app_nil_r in Q3. destruct (exists_last (l := k')) as (z & e & Ez); [destruct Hk' as [->| ->]; discriminate|].
          rewrite Ez in Q3. rewrite !app_assoc in Q3. change (a' ++ PCT :: z ++ [e]) with (a' ++ (PCT :: z) ++ [e]) in Q3.
          rewrite !app_assoc in Q3. apply app_inj_tail in Q3 as [_ <-]. apply (Kl k' Hk' z c Sc Ez).
        + clear IHy'. apply (IH B3 y'). rewrite !app_assoc in Q3.
          change (a' ++ PCT :: (k' ++ y') ++ [c']) with (a' ++ (PCT :: k' ++ y') ++ [c']) in Q3. rewrite app_assoc in Q3.
          apply app_inj_tail in Q3 as [Q3 _]. now rewrite <- !app_assoc in Q3. }
    destruct Q4 as (y' & Q4). apply (NK a' k' y' Hk' Q4). }
  { intros pr cs. destruct (H_tail k w1 n w2 b w3 pr cs) as (pr' & HT); auto; [apply kw|]. exists pr'. exact HT. }
  eapply at_head_intro with (m := m).
  - rewrite <- EM. f_equal. repeat (rewrite <- ?app_assoc; cbn [app]). reflexivity.
  - unfold make_def, group_str, group. rewrite EC. cbn [app cap_get Nat.eqb negb andb].
    change (sc_hashed [HASH]) with true. change (sc_escaped [HASH]) with false. cbn [negb andb]. rewrite split_trailing_none by auto.
    subst k. rewrite kw_global. reflexivity.
Qed.
Theorem uncomment d lines : ordinary d -> d_commented_out d = false -> blank (d_prefix d) -> body_open (d_body d) = false ->
  d_preceding d = [] -> d_valid d = true ->
  let '(w0, w1, w2, w3) := d_ws d in
  at_head (mk_mdef (d_name d) (d_body d) (d_is_global d) false DNL (w0 ++ d_prefix d, w1, w2, w3) [] true []) (mdef_str d :: lines).
Proof.
  destruct d as [n b g co sty [[[w0 w1] w2] w3] pf v pl]. unfold ordinary. cbn [d_ws d_name d_prefix d_body d_commented_out d_style d_preceding d_valid fst snd d_is_global].
  intros (B0 & B1 & N1 & B2 & N2 & B3 & NL & Hn & Np & Nb & Hb0 & Hb) -> Bp Hcl -> ->.
  rewrite !in_app_iff in NL. assert (NL3 : ~ In LF w3) by tauto.
  unfold mdef_str, d_head, d_ws3. cbn [d_ws d_name d_prefix d_body d_commented_out d_style d_is_global].
  set (k := if g then _ else _).
  destruct (match_active (w0 ++ pf) k (w1 ++ n ++ w2 ++ b ++ w3) ((9%nat, w3) :: (8%nat, b) :: (7%nat, w2) :: (6%nat, n) :: (5%nat, w1) :: [(4%nat, k)])) as (m & EM & EC); auto.
  { apply Forall_app. auto. }
  { apply kw. }
  { intros pr cs. destruct (H_tail k w1 n w2 b w3 pr cs) as (pr' & HT); auto; [apply kw|]. exists pr'. exact HT. }
  eapply at_head_intro with (m := m).
  - rewrite <- EM. f_equal. repeat (rewrite <- ?app_assoc; cbn [app]). reflexivity.
  - unfold make_def, group_str, group. rewrite EC. cbn [app cap_get Nat.eqb negb andb].
    change (sc_hashed [PCT]) with false. change (sc_escaped [PCT]) with false. cbn [negb andb].
    assert (E3 : str_eqb w3 [BSLASH] = false).
    { destruct (str_eqb w3 [BSLASH]) eqn:Q; auto. apply str_eqb_eq in Q. subst w3. inversion B3; subst. discriminate. }
    rewrite E3, body_closed_extend, split_trailing_none by auto.
    subst k. rewrite kw_global. reflexivity.
Qed.
End U.
