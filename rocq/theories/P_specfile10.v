(** Proofs about operations on a whole spec file: what is read after single lines were replaced. *)
From Coq Require Import Ascii String.
From Coq Require Import NArith ZArith List Bool Lia.
From Verif Require Import PyStr PyStrFacts Regex RegexFacts M_constants M_options M_value M_macro_definitions Spec_macro_definitions P_macro_definitions P_macro_definitions2
  P_macro_definitions3 M_conditions M_sections Spec_sections P_sections P_sections2 Spec_specfile P_specfile5.
Import ListNotations.
Open Scope N_scope.
Open Scope nat_scope.

Section Uni.
Context {U : Unicode}.
Notation F := (map (fun l : str => (l, true))).
(** A body that fits on one line. *)
Definition fits (v : str) : Prop :=
  ~ In LF v /\ (exists c b, v = c :: b /\ is_space c = false) /\ (exists b c, v = b ++ [c] /\ is_space c = false /\ c <> BSLASH) /\ body_open v = false.
(** A definition with a new body, commented in, and what is read from its line. *)
Definition renewed (v : str) (d : mdef) : mdef := with_commented_out false (with_body v d).
Definition reread (v : str) (buffer : list str) (d : mdef) : mdef :=
  let '(w0, w1, w2, w3) := d_ws d in mk_mdef (d_name d) v (d_is_global d) false DNL (w0 ++ d_prefix d, w1, w2, w3) [] true buffer.
Lemma active_reads d v : ordinary d -> blank (d_prefix d) -> fits v ->
  exists m, re_match md_regex (mdef_str (renewed v d)) = Some m /\ forall buffer lines, make_def m true buffer lines = (reread v buffer d, lines).
Proof.
  destruct d as [n b g co sty [[[w0 w1] w2] w3] pf vl pl]. unfold ordinary, reread, renewed. cbn [d_ws d_name d_prefix d_body d_is_global].
  intros (B0 & B1 & N1 & B2 & N2 & B3 & NL & Hn & Np & _) Bp (Nb & Hb0 & Hb & Hcl).
  rewrite !in_app_iff in NL. assert (NL3 : ~ In LF w3) by tauto.
  unfold mdef_str, d_head, d_ws3. cbn [with_commented_out with_body d_ws d_name d_prefix d_body d_commented_out d_style d_is_global].
  set (k := if g then _ else _).
  destruct (match_active (w0 ++ pf) k (w1 ++ n ++ w2 ++ v ++ w3) ((9%nat, w3) :: (8%nat, v) :: (7%nat, w2) :: (6%nat, n) :: (5%nat, w1) :: [(4%nat, k)])) as (m & EM & EC); auto.
  { apply Forall_app. auto. }
  { apply kw. }
  { intros pr cs. destruct (H_tail k w1 n w2 v w3 pr cs) as (pr' & HT); auto; [apply kw|]. exists pr'. exact HT. }
  exists m. split.
  - rewrite <- EM. f_equal. repeat (rewrite <- ?app_assoc; cbn [app]). reflexivity.
  - intros buffer lines. unfold make_def, group_str, group. rewrite EC. cbn [app cap_get Nat.eqb negb andb].
    change (sc_hashed [PCT]) with false. change (sc_escaped [PCT]) with false. cbn [negb andb].
    assert (E3 : str_eqb w3 [BSLASH] = false).
    { destruct (str_eqb w3 [BSLASH]) eqn:Q; auto. apply str_eqb_eq in Q. subst w3. inversion B3; subst. discriminate. }
    rewrite E3, body_closed_extend, split_trailing_none by auto.
    subst k. rewrite kw_global. reflexivity.
Qed.

(** [like lines lines' vs]: the second lines differ from the first in lines that are no definitions in either, and in definitions on one line that
    got a new body; [vs] tells which definitions. *)
Inductive like : list str -> list str -> list (option str) -> Prop :=
| K_nil : like [] [] []
| K_other l l' r r' vs : re_match md_regex l = None -> re_match md_regex l' = None -> like r r' vs -> like (l :: r) (l' :: r') vs
| K_same l m taken r r' d vs : re_match md_regex l = Some m -> make_def m true [] (F (taken ++ r)) = (d, F r) -> like r r' vs ->
    like (l :: taken ++ r) (l :: taken ++ r') (None :: vs)
| K_edit l m d v r r' vs : re_match md_regex l = Some m -> make_def m true [] (F r) = (d, F r) -> ordinary d -> blank (d_prefix d) -> fits v -> like r r' vs ->
    like (l :: r) (mdef_str (renewed v d) :: r') (Some v :: vs).
Lemma like_length r r' vs : like r r' vs -> length r = length r'.
Proof. induction 1; cbn; auto; try congruence. rewrite !app_length. lia. Qed.

(** What becomes of a definition. *)
Definition became (o : option str) (d d' : mdef) : Prop :=
  length (d_preceding d) = length (d_preceding d') /\
  match o with
  | None => d' = with_preceding (d_preceding d') d
  | Some v => ordinary d /\ blank (d_prefix d) /\ fits v /\ d' = reread v (d_preceding d') d
  end.
Inductive became_all : list (option str) -> list mdef -> list mdef -> Prop :=
| B_nil : became_all [] [] []
| B_cons o d d' vs ds ds' : became o d d' -> became_all vs ds ds' -> became_all (o :: vs) (d :: ds) (d' :: ds').
Lemma make_def_buffer m v b b' lines d rest : make_def m v b lines = (d, rest) -> make_def m v b' lines = (with_preceding b' d, rest).
Proof.
  unfold make_def. destruct (_ && _ && _); [destruct (str_eqb (group_str 9 m) [BSLASH]); destruct (extend_body _ _)|]; destruct (split_trailing _ _); intros Q; injection Q as <- <-; reflexivity.
Qed.
Lemma like_loop r r' vs : like r r' vs -> forall fuel data buffer data' buffer', length r <= fuel -> length buffer = length buffer' ->
  exists found found' rem rem', parse_loop fuel (F r) data buffer = mk_mdefs (data ++ found) rem /\ parse_loop fuel (F r') data' buffer' = mk_mdefs (data' ++ found') rem' /\
    became_all vs found found' /\ length rem = length rem'.
Proof.
  induction 1 as [|l l' r r' vs M M' K IH|l m taken r r' d vs M D K IH|l m d v r r' vs M D O B V K IH]; intros fuel data buffer data' buffer' Lf Lb.
  - exists [], [], buffer, buffer'. cbn [map]. assert (P : forall dt bf, parse_loop fuel [] dt bf = mk_mdefs dt bf) by (destruct fuel; reflexivity).
    rewrite !P, !app_nil_r. repeat split; auto; constructor.
  - destruct fuel as [|fuel]; [cbn in Lf; lia|]. cbn [map parse_loop]. rewrite M, M'. apply IH; [cbn in Lf; lia|rewrite !app_length; cbn; lia].
  - destruct fuel as [|fuel]; [cbn in Lf; lia|]. cbn [map parse_loop]. rewrite M.
    pose proof (make_def_buffer _ _ _ buffer _ _ _ D) as D1. rewrite D1.
    assert (D2 : make_def m true buffer' (F (taken ++ r')) = (with_preceding buffer' d, F r')).
    { apply (make_def_buffer _ _ [] buffer'). pose proof (like_length _ _ _ K) as Ll. rewrite map_app in D |- *. destruct r as [|x r].
      - destruct r'; [exact D|discriminate].
      - destruct r' as [|x' r']; [discriminate|]. eapply make_def_stop; [| |exact D]; discriminate. }
    rewrite D2. destruct (IH fuel (data ++ [with_preceding buffer d]) [] (data' ++ [with_preceding buffer' d]) []) as (f & f' & rem & rem' & E1 & E2 & Bc & Lr); auto.
    { cbn in Lf. rewrite app_length in Lf. lia. }
    exists (with_preceding buffer d :: f), (with_preceding buffer' d :: f'), rem, rem'. rewrite E1, E2, <- !app_assoc. repeat split; auto. constructor; auto.
    split; [exact Lb|reflexivity].
  - destruct fuel as [|fuel]; [cbn in Lf; lia|]. cbn [map parse_loop]. rewrite M.
    rewrite (make_def_buffer _ _ _ buffer _ _ _ D). destruct (active_reads d v O B V) as (m' & M' & D'). rewrite M', D'.
    destruct (IH fuel (data ++ [with_preceding buffer d]) [] (data' ++ [reread v buffer' d]) []) as (f & f' & rem & rem' & E1 & E2 & Bc & Lr); auto.
    { cbn in Lf. lia. }
    exists (with_preceding buffer d :: f), (reread v buffer' d :: f'), rem, rem'. rewrite E1, E2, <- !app_assoc. repeat split; auto. constructor; auto.
    unfold reread. destruct d as [n b g co sty [[[w0 w1] w2] w3] pf vl pl]. cbn in *. split; [exact Lb|]. auto.
Qed.
Theorem like_parse lines lines' vs : like lines lines' vs -> became_all vs (md_data (parse_plain lines)) (md_data (parse_plain lines')).
Proof.
  intros K. pose proof (like_length _ _ _ K) as L. destruct (like_loop _ _ _ K (length lines) [] [] [] []) as (f & f' & rem & rem' & E1 & E2 & B & _); auto.
  unfold parse_plain, parse_tagged. rewrite !map_length, E1, <- L, E2. exact B.
Qed.

(** The same lines belong to definitions, and to bodies. *)
Lemma split_on_single l : ~ In LF l -> split_on LF [] l = [l].
Proof. intros N. rewrite <- (app_nil_r l) at 1. rewrite split_on_app by auto. cbn [split_on]. now rewrite app_nil_r, rev_involutive. Qed.
Lemma own_one d : ~ In LF (d_body d ++ d_ws3 d) -> M_macro_definitions.own_lines d = [mdef_str d].
Proof. intros N. unfold M_macro_definitions.own_lines, mdef_str. now rewrite split_on_single. Qed.
Lemma ordinary_one d : ordinary d -> ~ In LF (d_body d ++ d_ws3 d).
Proof.
  unfold ordinary, d_ws3. destruct (d_ws d) as [[[w0 w1] w2] w3]. intros (_ & _ & _ & _ & _ & _ & NL & _ & _ & Nb & _). rewrite !in_app_iff in *. tauto.
Qed.
Lemma became_sizes o d d' : became o d d' -> length (d_preceding d) = length (d_preceding d') /\
  length (M_macro_definitions.own_lines d) = length (M_macro_definitions.own_lines d') /\ length (split_on LF [] (d_body d)) = length (split_on LF [] (d_body d')) /\ d_name d' = d_name d.
Proof.
  intros (L & H). split; [exact L|]. destruct o as [v|].
  - destruct H as (O & B & V & ->). pose proof (ordinary_one d O) as N1. rewrite (own_one d N1).
    unfold reread. unfold ordinary in O. unfold d_ws3 in N1. destruct d as [n b g co sty [[[w0 w1] w2] w3] pf vl pl]. cbn [d_ws d_prefix d_body d_name] in *.
    destruct V as (V1 & _). rewrite own_one.
    + rewrite !split_on_single; auto. rewrite in_app_iff in N1. tauto.
    + unfold d_ws3. cbn [d_body d_ws]. rewrite !in_app_iff in *. tauto.
  - rewrite H. split; [reflexivity|]. split; reflexivity.
Qed.
Lemma became_len vs ds ds' : became_all vs ds ds' -> length (flat_map mdef_raw ds) = length (flat_map mdef_raw ds') /\ length ds = length ds' /\ length vs = length ds.
Proof.
  induction 1 as [|o d d' vs ds ds' B _ (I1 & I2 & I3)]; auto. cbn [flat_map length]. apply became_sizes in B as (B1 & B2 & _). unfold mdef_raw at 1 3. rewrite !app_length. lia.
Qed.
Lemma became_split vs ds ds' : became_all vs ds ds' -> forall a d b, ds = a ++ d :: b -> exists v1 o v2 a' d' b', vs = v1 ++ o :: v2 /\ ds' = a' ++ d' :: b' /\
  became_all v1 a a' /\ became o d d' /\ became_all v2 b b'.
Proof.
  induction 1 as [|o d d' vs ds ds' B K IH]; intros [|x a] y b E; try discriminate; cbn [app] in E; injection E as -> ->.
  - exists [], o, vs, [], d', ds'. repeat split; auto; try apply B. constructor.
  - destruct (IH a y b eq_refl) as (v1 & o' & v2 & a' & d2 & b' & -> & -> & K1 & K2 & K3). exists (o :: v1), o', v2, (d' :: a'), d2, b'. repeat split; auto; try apply K2. constructor; auto.
Qed.
Lemma became_split' vs ds ds' : became_all vs ds ds' -> forall a d b, ds' = a ++ d :: b -> exists v1 o v2 a' d' b', vs = v1 ++ o :: v2 /\ ds = a' ++ d' :: b' /\
  became_all v1 a' a /\ became o d' d /\ became_all v2 b' b.
Proof.
  induction 1 as [|o d d' vs ds ds' B K IH]; intros [|x a] y b E; try discriminate; cbn [app] in E; injection E as -> ->.
  - exists [], o, vs, [], d, ds. repeat split; auto; try apply B. constructor.
  - destruct (IH a y b eq_refl) as (v1 & o' & v2 & a' & d2 & b' & -> & -> & K1 & K2 & K3). exists (o :: v1), o', v2, (d :: a'), d2, b'. repeat split; auto; try apply K2. constructor; auto.
Qed.
Lemma became_body_line vs m m' i : became_all vs (md_data m) (md_data m') -> (body_line m i <-> body_line m' i) /\ (in_definition m i <-> in_definition m' i).
Proof.
  intros K. split; split.
  - intros (a & d & b & k & E & Hk & Ei). destruct (became_split _ _ _ K _ _ _ E) as (v1 & o & v2 & a' & d' & b' & _ & E' & K1 & B & _).
    apply became_sizes in B as (B1 & B2 & B3 & _). apply became_len in K1 as (K1 & _). exists a', d', b', k. rewrite <- B1, <- B3, <- K1. auto.
  - intros (a & d & b & k & E & Hk & Ei). destruct (became_split' _ _ _ K _ _ _ E) as (v1 & o & v2 & a' & d' & b' & _ & E' & K1 & B & _).
    apply became_sizes in B as (B1 & B2 & B3 & _). apply became_len in K1 as (K1 & _). exists a', d', b', k. rewrite B1, B3, K1. auto.
  - intros (a & d & b & k & E & Hk & Ei). destruct (became_split _ _ _ K _ _ _ E) as (v1 & o & v2 & a' & d' & b' & _ & E' & K1 & B & _).
    apply became_sizes in B as (B1 & B2 & B3 & _). apply became_len in K1 as (K1 & _). exists a', d', b', k. rewrite <- B1, <- B2, <- K1. auto.
  - intros (a & d & b & k & E & Hk & Ei). destruct (became_split' _ _ _ K _ _ _ E) as (v1 & o & v2 & a' & d' & b' & _ & E' & K1 & B & _).
    apply became_sizes in B as (B1 & B2 & B3 & _). apply became_len in K1 as (K1 & _). exists a', d', b', k. rewrite B1, B2, K1. auto.
Qed.

(** Definitions that get a new body are the only ones with their name. *)
Definition only_one (vs : list (option str)) (ds : list mdef) : Prop :=
  forall i v d j u, nth_error vs i = Some (Some v) -> nth_error ds i = Some d -> nth_error ds j = Some u -> d_name u = d_name d -> j = i.
Lemma became_apart vs m m' : became_all vs (md_data m) (md_data m') -> only_one vs (md_data m) -> defined_apart m -> defined_apart m'.
Proof.
  intros K O A a d b x E Hx N. destruct (became_split' _ _ _ K _ _ _ E) as (v1 & o & v2 & a0 & d0 & b0 & Ev & E0 & K1 & B & K2).
  apply in_split in Hx as (a1 & a2 & ->). destruct (became_split' _ _ _ K1 _ _ _ eq_refl) as (v3 & o' & v4 & a3 & x0 & a4 & Ev3 & E3 & K3 & B' & K4). subst.
  pose proof (became_sizes _ _ _ B) as (_ & _ & _ & N1). pose proof (became_sizes _ _ _ B') as (_ & _ & _ & N2).
  destruct o as [v|].
  { exfalso. assert (Q : length a3 = length (a3 ++ x0 :: a4)).
    { apply (O (length (a3 ++ x0 :: a4)) v d0 (length a3) x0).
      - replace (length (a3 ++ x0 :: a4)) with (length (v3 ++ o' :: v4)); [apply nth_error_mid|]. apply became_len in K1 as (_ & _ & K1). exact K1.
      - rewrite E0. apply nth_error_mid.
      - rewrite E0, <- app_assoc. cbn [app]. apply nth_error_mid.
      - congruence. }
    rewrite app_length in Q. cbn in Q. lia. }
  destruct o' as [v|].
  { exfalso. assert (Q : length (a3 ++ x0 :: a4) = length a3).
    { apply (O (length a3) v x0 (length (a3 ++ x0 :: a4)) d0).
      - rewrite <- app_assoc. cbn [app]. replace (length a3) with (length v3); [apply nth_error_mid|]. apply became_len in K3 as (_ & _ & K3). exact K3.
      - rewrite E0, <- app_assoc. cbn [app]. apply nth_error_mid.
      - rewrite E0. apply nth_error_mid.
      - congruence. }
    rewrite app_length in Q. cbn in Q. lia. }
  destruct B as (_ & Ed), B' as (_ & Ex). rewrite Ed, Ex. cbn [with_preceding d_body]. apply (A (a3 ++ x0 :: a4) d0 b0 x0); [exact E0|apply in_or_app; right; now left|congruence].
Qed.

(** Some definitions of a file get a new body. *)
Inductive edited_all : list (option str) -> list mdef -> list mdef -> Prop :=
| E_nil : edited_all [] [] []
| E_keep d vs ds ds' : edited_all vs ds ds' -> edited_all (None :: vs) (d :: ds) (d :: ds')
| E_new v d vs ds ds' : ordinary d -> blank (d_prefix d) -> fits v -> edited_all vs ds ds' -> edited_all (Some v :: vs) (d :: ds) (renewed v d :: ds').
Lemma F_cut x : forall t y, F x = t ++ y -> exists t' y', x = t' ++ y' /\ t = F t' /\ y = F y'.
Proof.
  induction x as [|c x IH]; intros t y E; cbn [map] in E.
  - symmetry in E. apply app_eq_nil in E as [-> ->]. now exists [], [].
  - destruct t as [|z t]; cbn [app] in E.
    + subst y. now exists [], (c :: x).
    + injection E as <- E. apply IH in E as (t' & y' & -> & -> & ->). now exists (c :: t'), y'.
Qed.
Lemma preceding_buffer m v buffer lines d rest : make_def m v buffer lines = (d, rest) -> d_preceding d = buffer.
Proof.
  unfold make_def. destruct (_ && _ && _); [destruct (str_eqb (group_str 9 m) [BSLASH]); destruct (extend_body _ _)|]; destruct (split_trailing _ _); intros Q; injection Q as <- <-; reflexivity.
Qed.
Lemma with_preceding_str p v d : mdef_str (renewed v (with_preceding p d)) = mdef_str (renewed v d).
Proof. reflexivity. Qed.
Lemma like_defs : forall fuel lines data buffer found rem vs found', length lines <= fuel -> clean lines -> parse_loop fuel (F lines) data buffer = mk_mdefs (data ++ found) rem ->
  edited_all vs found found' -> exists lines', flat_map mdef_raw found' ++ rem = buffer ++ lines' /\ like lines lines' vs.
Proof.
  induction fuel as [|fuel IH]; intros lines data buffer found rem vs found' L C P E.
  { destruct lines; [|cbn in L; lia]. cbn in P. injection P as P1 P2. assert (found = []) as -> by (apply (app_inv_head data); now rewrite app_nil_r).
    inversion E; subst. exists []. cbn. rewrite app_nil_r. split; auto. constructor. }
  destruct lines as [|line lines].
  { cbn in P. injection P as P1 P2. assert (found = []) as -> by (apply (app_inv_head data); now rewrite app_nil_r).
    inversion E; subst. exists []. cbn. rewrite app_nil_r. split; auto. constructor. }
  cbn [length] in L. cbn [map parse_loop] in P. destruct (re_match md_regex line) as [m|] eqn:M.
  - destruct (make_def m true buffer (F lines)) as [d rest] eqn:D.
    assert (Em : map fst (F lines) = lines) by (rewrite map_map; apply map_id).
    destruct (make_def_raw line m true buffer (F lines) d rest) as (taken & Et & Er); auto; [now rewrite Em|].
    apply F_cut in Et as (t & r & -> & -> & ->). assert (Eft : map fst (F t) = t) by (rewrite map_map; apply map_id). rewrite Eft in Er. clear Em Eft.
    pose proof (preceding_buffer _ _ _ _ _ _ D) as Ep.
    assert (Eo : M_macro_definitions.own_lines d = line :: t) by (unfold mdef_raw in Er; rewrite Ep in Er; now apply app_inv_head in Er).
    destruct (P_specfile5.loop_data fuel (F r) (data ++ [d]) []) as (more & Hm). rewrite P in Hm. cbn [md_data] in Hm. rewrite <- app_assoc in Hm. apply app_inv_head in Hm. subst found.
    change (data ++ ([d] ++ more)) with (data ++ [d] ++ more) in P. rewrite app_assoc in P.
    assert (Lr : length r <= fuel) by (rewrite app_length in L; lia).
    assert (Cr : clean r) by (apply (clean_tail (line :: t)); exact C).
    assert (D0 : make_def m true [] (F (t ++ r)) = (with_preceding [] d, F r)) by (apply (make_def_buffer _ _ buffer); exact D).
    cbn [app] in E. inversion E as [|? vs' ? f' E'|v ? vs' ? f' O B V E']; subst.
    + destruct (IH r (data ++ [d]) [] more rem vs' f' Lr Cr P E') as (r' & Q & K). cbn [app] in Q. exists (line :: t ++ r'). cbn [flat_map]. rewrite <- app_assoc, Q, Er, <- app_assoc. split; [reflexivity|].
      eapply K_same; [exact M|exact D0|exact K].
    + destruct (IH r (data ++ [d]) [] more rem vs' f' Lr Cr P E') as (r' & Q & K). cbn [app] in Q.
      assert (t = []) as ->. { rewrite (own_one d (ordinary_one d O)) in Eo. now injection Eo. }
      cbn [app] in *. exists (mdef_str (renewed v d) :: r'). split.
      * cbn [flat_map]. rewrite <- app_assoc, Q. unfold mdef_raw at 1. rewrite (own_one (renewed v d)); [now rewrite <- app_assoc|].
        pose proof (ordinary_one d O) as N. unfold renewed. unfold d_ws3 in *. cbn [d_body d_ws with_commented_out with_body]. rewrite in_app_iff in *. destruct V as (V & _). tauto.
      * rewrite <- (with_preceding_str []). eapply K_edit; eauto.
  - destruct (IH lines data (buffer ++ [line]) found rem vs found') as (lines' & Q & K); auto; [lia|apply (clean_tail [line]); exact C|].
    exists (line :: lines'). rewrite Q, <- app_assoc. split; [reflexivity|]. constructor; auto.
Qed.
Theorem defs_like lines vs data' : clean lines -> edited_all vs (md_data (parse_plain lines)) data' ->
  like lines (get_raw_data (mk_mdefs data' (md_remainder (parse_plain lines)))) vs.
Proof.
  intros C E. unfold parse_plain, parse_tagged in *. rewrite map_length in *. destruct (parse_loop (length lines) (F lines) [] []) as [found rem] eqn:P. cbn [md_data md_remainder] in *.
  destruct (like_defs (length lines) lines [] [] found rem vs data') as (l' & Q & K); auto. unfold get_raw_data. cbn [md_data md_remainder app] in *. now rewrite Q.
Qed.

(** Lines that are not in definitions are replaced. *)
Lemma nth_ext_list {A} : forall (l l' : list A), length l = length l' -> (forall j x x', nth_error l j = Some x -> nth_error l' j = Some x' -> x = x') -> l = l'.
Proof.
  induction l as [|x l IH]; intros [|x' l'] L H; try discriminate; auto. f_equal; [apply (H 0); reflexivity|]. apply IH; [cbn in L; lia|]. intros j. apply (H (S j)).
Qed.
Lemma like_lines : forall fuel lines data buffer lines', length lines <= fuel -> clean lines -> length lines' = length lines ->
  (forall j l l', nth_error lines j = Some l -> nth_error lines' j = Some l' -> l = l' \/
     re_match md_regex l = None /\ re_match md_regex l' = None /\ ~ in_definition (parse_loop fuel (F lines) data buffer) (length (flat_map mdef_raw data) + length buffer + j)) ->
  exists vs, like lines lines' vs /\ Forall (fun o => o = None) vs.
Proof.
  induction fuel as [|fuel IH]; intros lines data buffer lines' L C Ll H.
  { destruct lines; [|cbn in L; lia]. destruct lines'; [|discriminate]. exists []. split; constructor. }
  destruct lines as [|line lines]; [destruct lines'; [|discriminate]; exists []; split; constructor|].
  destruct lines' as [|line' lines']; [discriminate|]. cbn [length] in L, Ll. cbn [map parse_loop] in H. destruct (re_match md_regex line) as [m|] eqn:M.
  - assert (line' = line) as -> by (destruct (H 0 line line' eq_refl eq_refl) as [Q|(Q & _)]; congruence).
    destruct (make_def m true buffer (F lines)) as [d rest] eqn:D.
    assert (Em : map fst (F lines) = lines) by (rewrite map_map; apply map_id).
    destruct (make_def_raw line m true buffer (F lines) d rest) as (taken & Et & Er); auto; [now rewrite Em|].
    apply F_cut in Et as (t & r & -> & -> & ->). assert (Eft : map fst (F t) = t) by (rewrite map_map; apply map_id). rewrite Eft in Er. clear Em Eft.
    pose proof (preceding_buffer _ _ _ _ _ _ D) as Ep.
    assert (Eo : M_macro_definitions.own_lines d = line :: t) by (unfold mdef_raw in Er; rewrite Ep in Er; now apply app_inv_head in Er).
    destruct (P_specfile5.loop_data fuel (F r) (data ++ [d]) []) as (more & Hm).
    set (t' := firstn (length t) lines'). set (r' := skipn (length t) lines').
    assert (El' : lines' = t' ++ r') by (symmetry; apply firstn_skipn).
    assert (Lt : length t' = length t) by (unfold t'; rewrite firstn_length, app_length in *; lia).
    assert (t' = t) as Ett.
    { apply nth_ext_list; auto. intros j x x' Hx Hx'. assert (Hj : j < length t) by (apply nth_error_Some; congruence).
      destruct (H (S j) x' x) as [Q|(_ & _ & Q)]; auto.
      - cbn [nth_error]. rewrite nth_error_app1; auto.
      - cbn [nth_error]. rewrite El', nth_error_app1; auto. lia.
      - exfalso. apply Q. exists data, d, more, (S j). rewrite Hm, <- app_assoc. split; [reflexivity|]. rewrite Eo, Ep. cbn [length]. split; lia. }
    rewrite Ett in El'. rewrite El' in *. clearbody r'. clear Lt Ett t'. rewrite !app_length in Ll.
    destruct (IH r (data ++ [d]) [] r') as (vs & K & N).
    + rewrite app_length in L. lia.
    + apply (clean_tail (line :: t)). exact C.
    + lia.
    + intros j x x' Hx Hx'. destruct (H (S (length t + j)) x x') as [Q|(Q1 & Q2 & Q3)]; auto.
      * cbn [nth_error]. rewrite nth_error_app2 by lia. now replace (length t + j - length t) with j by lia.
      * cbn [nth_error]. rewrite nth_error_app2 by lia. now replace (length t + j - length t) with j by lia.
      * right. split; [exact Q1|]. split; [exact Q2|]. intros Q. apply Q3.
        match type of Q with in_definition _ ?n => match goal with |- in_definition _ ?k => replace k with n; [exact Q|] end end.
        rewrite flat_map_app, app_length. cbn [flat_map length]. rewrite app_nil_r, Er, app_length. cbn [length]. lia.
    + exists (None :: vs). split; [|constructor; auto]. eapply K_same; [exact M| |exact K]. apply (make_def_buffer _ _ buffer []). exact D.
  - assert (M' : re_match md_regex line' = None) by (destruct (H 0 line line' eq_refl eq_refl) as [Q|(_ & Q & _)]; congruence).
    destruct (IH lines data (buffer ++ [line]) lines') as (vs & K & N); auto; [lia|apply (clean_tail [line]); exact C| |].
    + intros j x x' Hx Hx'. destruct (H (S j) x x' Hx Hx') as [Q|(Q1 & Q2 & Q3)]; auto. right. split; [exact Q1|]. split; [exact Q2|]. intros Q. apply Q3.
      match type of Q with in_definition _ ?n => match goal with |- in_definition _ ?k => replace k with n; [exact Q|] end end. rewrite app_length. cbn. lia.
    + exists vs. split; auto. constructor; auto.
Qed.
Theorem lines_like lines lines' : clean lines -> length lines' = length lines ->
  (forall j l l', nth_error lines j = Some l -> nth_error lines' j = Some l' -> l = l' \/
     re_match md_regex l = None /\ re_match md_regex l' = None /\ ~ in_definition (parse_plain lines) j) ->
  exists vs, like lines lines' vs /\ Forall (fun o => o = None) vs.
Proof.
  intros C L H. apply (like_lines (length lines) lines [] []); auto. intros j l l' Hl Hl'. destruct (H j l l' Hl Hl') as [Q|(Q1 & Q2 & Q3)]; auto. right. split; [exact Q1|]. split; [exact Q2|].
  cbn [flat_map length Nat.add]. unfold parse_plain, parse_tagged in Q3. now rewrite map_length in Q3.
Qed.
End Uni.
