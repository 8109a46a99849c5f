(** Proofs about operations on a whole spec file: lines that are taken out. *)
From Coq Require Import Ascii String.
From Coq Require Import NArith ZArith List Bool Lia Sorting.Sorted.
From Verif Require P_value.
From Verif Require Import PyStr PyStrFacts Regex RegexFacts M_constants M_options M_value M_macro_definitions Spec_macro_definitions P_macro_definitions P_macro_definitions2
  P_macro_definitions3 M_conditions P_conditions2 M_sections Spec_sections P_sections P_sections2 P_sections4 M_tags Spec_tags P_tags P_tags2 P_tags3 P_tags4 P_tags5 P_context
  M_sourcelist P_sourcelist M_sources Spec_sources P_sources P_sources2 P_sources3 P_sources4 P_sources5 P_sources6 P_sources7 P_sources8 P_sources9
  M_release M_update M_specfile M_specfile2 Spec_specfile Spec_update Spec_specfile2 Spec_specfile3 Spec_specfile4 P_specfile P_specfile2 P_specfile5 P_specfile6 P_specfile7 P_specfile10 P_specfile11 P_specfile12 P_specfile13 P_specfile18 P_specfile19 P_specfile20 P_specfile21 P_specfile22.
Import ListNotations.
Open Scope N_scope.
Open Scope nat_scope.

Section Uni.
Context {U : Unicode}.
Notation own := M_macro_definitions.own_lines.
Notation F := (map (fun l : str => (l, true))).
Lemma extend_end : forall x b b' y, y <> [] -> extend_body b (x ++ y) = (b', y) -> extend_body b x = (b', []).
Proof.
  induction x as [|[l f] x IH]; intros b b' y N; cbn [app].
  - destruct y as [|[l f] y]; [congruence|]. cbn [extend_body]. destruct (body_open b); [|intros Q; injection Q as <-; reflexivity].
    intros Q. apply extend_suffix in Q as (t & Q). apply (f_equal (@length _)) in Q. rewrite app_length in Q. cbn in Q. lia.
  - cbn [extend_body]. destruct (body_open b); [now apply IH|]. intros Q. injection Q as _ Q. apply (f_equal (@length _)) in Q. cbn in Q. rewrite app_length in Q. lia.
Qed.
Lemma make_def_end m v buffer x y d : y <> [] -> make_def m v buffer (x ++ y) = (d, y) -> make_def m v buffer x = (d, []).
Proof.
  intros N. unfold make_def. destruct (negb _ && negb (sc_escaped _) && negb (sc_hashed _)).
  - destruct (str_eqb (group_str 9 m) [BSLASH]);
    (match goal with |- context [extend_body ?b (x ++ y)] => destruct (extend_body b (x ++ y)) as [b' ls] eqn:E end);
    destruct (split_trailing _ _) eqn:Sp; intros Q; injection Q as <- ->; rewrite (extend_end _ _ _ _ N E), Sp; reflexivity.
  - destruct (split_trailing _ _). intros Q; injection Q as <- Q. assert (x = []) as ->; [|reflexivity]. apply (f_equal (@length _)) in Q. rewrite app_length in Q. destruct x; [auto|cbn in Q; lia].
Qed.
Lemma drop_loop : forall fuel x l y data buffer, length (x ++ l :: y) <= fuel -> clean (x ++ l :: y) ->
  let m := parse_loop fuel (F (x ++ l :: y)) data buffer in let base := length (flat_map mdef_raw data) + length buffer in
  (forall a d b k, md_data m = a ++ d :: b -> k < length (own d) -> base + length x <> length (flat_map mdef_raw a) + length (d_preceding d) + k) ->
  exists data' buffer', reach (F (x ++ y)) data buffer (F y) data' buffer' /\ reach (F (x ++ l :: y)) data buffer (F (l :: y)) data' buffer' /\
    length (flat_map mdef_raw data') + length buffer' = base + length x /\ re_match md_regex l = None.
Proof.
  induction fuel as [|fuel IH]; intros x l y data buffer L C m base H1; [exfalso; rewrite app_length in L; cbn in L; lia|].
  assert (Own : forall line m0 buffer r d rest, clean (line :: r) -> re_match md_regex line = Some m0 -> make_def m0 true buffer (F r) = (d, rest) ->
    exists t r', r = t ++ r' /\ rest = F r' /\ own d = line :: t /\ d_preceding d = buffer /\ mdef_raw d = buffer ++ line :: t).
  { clear. intros line m buffer r d rest C M D. assert (Em : map fst (F r) = r) by (rewrite map_map; apply map_id).
    destruct (make_def_raw line m true buffer (F r) d rest) as (taken & Et & Er); auto; [now rewrite Em|].
    apply F_cut in Et as (t & r' & Exy & -> & ->). assert (Eft : map fst (F t) = t) by (rewrite map_map; apply map_id). rewrite Eft in Er.
    pose proof (preceding_buffer _ _ _ _ _ _ D) as Ep. assert (Eo : own d = line :: t) by (unfold mdef_raw in Er; rewrite Ep in Er; now apply app_inv_head in Er). exists t, r'. auto. }
  destruct x as [|line x].
  { exists data, buffer. split; [constructor|]. split; [constructor|]. split; [unfold base; cbn; lia|]. cbn [app] in *. destruct (re_match md_regex l) as [m0|] eqn:M; [exfalso|reflexivity].
    subst m. cbn [map parse_loop] in H1. rewrite M in H1. destruct (make_def m0 true buffer (F y)) as [d rest] eqn:D. destruct (Own _ _ _ _ _ _ C M D) as (t & r' & _ & -> & Eo & Ep & _).
    destruct (P_specfile5.loop_data fuel (F r') (data ++ [d]) []) as (more & Hm). eapply (H1 data d more 0); [rewrite Hm, <- app_assoc; reflexivity|rewrite Eo; cbn; lia|]. rewrite Ep. unfold base. cbn. lia. }
  cbn [app length] in L. cbn [app] in C, m. unfold m in H1. cbn [map parse_loop] in H1. clear m. destruct (re_match md_regex line) as [m|] eqn:M.
  - destruct (make_def m true buffer (F (x ++ l :: y))) as [d rest] eqn:D. destruct (Own _ _ _ _ _ _ C M D) as (t & r & Exy & -> & Eo & Ep & Er). clear Own.
    destruct (P_specfile5.loop_data fuel (F r) (data ++ [d]) []) as (more & Hm).
    assert (Lt : length t <= length x).
    { destruct (Nat.le_gt_cases (length t) (length x)) as [|Q]; auto. exfalso. eapply (H1 data d more (S (length x))); [rewrite Hm, <- app_assoc; reflexivity|rewrite Eo; cbn; lia|].
      rewrite Ep. unfold base. cbn. lia. }
    assert (exists x1, x = t ++ x1) as (x1 & ->).
    { exists (skipn (length t) x). pose proof (f_equal (firstn (length t)) Exy) as Q. rewrite !firstn_app, Nat.sub_diag, firstn_all in Q. cbn [firstn] in Q. rewrite app_nil_r in Q.
      replace (length t - length x) with 0 in Q by lia. cbn [firstn] in Q. rewrite app_nil_r in Q. rewrite <- Q at 1. now rewrite firstn_skipn. }
    rewrite <- app_assoc in Exy. apply app_inv_head in Exy. subst r. rewrite <- app_assoc in *.
    assert (Rb : length (flat_map mdef_raw (data ++ [d])) + 0 = base + S (length t)).
    { rewrite flat_map_app, app_length. cbn [flat_map]. rewrite app_nil_r, Er, app_length. unfold base. cbn [length]. lia. }
    destruct (IH x1 l y (data ++ [d]) []) as (data' & buffer' & R1 & R2 & R3 & R4).
    + rewrite !app_length in *. cbn [length] in *. lia.
    + apply (clean_tail (line :: t)). exact C.
    + cbn [length] in *. intros a u b k Hu Hk Q. apply (H1 a u b k Hu Hk). rewrite <- Q, app_length. lia.
    + exists data', buffer'. split; [|split; [|split]].
      * cbn [app map]. rewrite <- app_assoc. eapply R_def; [exact M| |exact R1]. rewrite map_app in D |- *.
        assert (Nx : F (x1 ++ l :: y) <> []) by (intros Q; apply map_eq_nil in Q; destruct x1; discriminate).
        destruct (x1 ++ y) as [|z0 z] eqn:Ez; [rewrite app_nil_r; eapply make_def_end; eauto|]. eapply make_def_stop; [| |exact D]; [exact Nx|discriminate].
      * cbn [app map]. rewrite <- app_assoc. eapply R_def; [exact M|exact D|exact R2].
      * rewrite R3. cbn [length] in *. rewrite !app_length. lia.
      * exact R4.
  - destruct (IH x l y data (buffer ++ [line])) as (data' & buffer' & R1 & R2 & R3 & R4).
    + lia.
    + apply (clean_tail [line]). exact C.
    + intros a u b k Hu Hk Q. apply (H1 a u b k Hu Hk). rewrite <- Q, app_length. unfold base. cbn. lia.
    + exists data', buffer'. split; [|split; [|split]].
      * cbn [app map]. now apply R_other.
      * cbn [app map]. now apply R_other.
      * rewrite R3, app_length. unfold base. cbn. lia.
      * exact R4.
Qed.
Theorem drop_parse x l y : clean (x ++ l :: y) -> ~ in_definition (parse_plain (x ++ l :: y)) (length x) ->
  let m := parse_plain (x ++ y) in let m' := parse_plain (x ++ l :: y) in
  Forall2 shifted (md_data m) (md_data m') /\
  forall nb, (forall d, nb d <= length (own d)) -> (forall p d, nb (M_macro_definitions.with_preceding p d) = nb d) ->
    ~ cover nb (md_data m') (length x) /\
    forall i, (i < length x -> (cover nb (md_data m) i <-> cover nb (md_data m') i)) /\ (length x <= i -> (cover nb (md_data m) i <-> cover nb (md_data m') (S i))).
Proof.
  intros C B m m'.
  assert (Q : exists data buffer, reach (F (x ++ y)) [] [] (F y) data buffer /\ reach (F (x ++ l :: y)) [] [] (F (l :: y)) data buffer /\ length (flat_map mdef_raw data) + length buffer = length x /\ re_match md_regex l = None).
  { subst m m'. unfold parse_plain, parse_tagged in *. rewrite !map_length in *. destruct (drop_loop (length (x ++ l :: y)) x l y [] [] (le_n _) C) as (data & buffer & R1 & R2 & R3 & R4); [|exists data, buffer; auto].
    cbn [flat_map length Nat.add]. intros a d b k E Hk Q. apply B. exists a, d, b, k. auto. }
  destruct Q as (data & buffer & R1 & R2 & R3 & R4). exact (reach_parse x y l data buffer R1 R2 R3 R4).
Qed.
Lemma shifted_sym ds ds' : Forall2 shifted ds ds' -> Forall2 shifted ds' ds.
Proof. intros H. induction H as [|d d' ds ds' H _ IH]; constructor; auto. unfold shifted in *. rewrite H. destruct d. reflexivity. Qed.
Lemma shifted_trans ds1 : forall ds2 ds3, Forall2 shifted ds1 ds2 -> Forall2 shifted ds2 ds3 -> Forall2 shifted ds1 ds3.
Proof.
  intros ds2 ds3 H. revert ds3. induction H as [|d d1 l1 l2 H _ IH]; intros l3 H3; inversion H3 as [|? d2 ? l4 H4 H5]; subst; constructor; auto. unfold shifted in *. rewrite H4 at 1. rewrite H at 1. reflexivity.
Qed.
Theorem drop_front lines x l y bs : good_file lines -> front lines (x ++ l :: y) bs -> ~ in_definition (parse_plain lines) (length x) ->
  let lines' := (x ++ y) ++ block_lines bs in
  good_file lines' /\ front lines' (x ++ y) bs /\ Forall2 shifted (md_data (parse_plain lines)) (md_data (parse_plain lines')) /\
  forall i, length x <= i -> (in_definition (parse_plain lines') i <-> in_definition (parse_plain lines) (S i)).
Proof.
  intros (Sa & A & TO) Fr B lines'. pose proof (front_lines _ _ _ Fr) as El.
  assert (E1 : lines = x ++ l :: (y ++ block_lines bs)) by (rewrite El; now rewrite <- app_assoc).
  assert (E2 : lines' = x ++ (y ++ block_lines bs)) by (unfold lines'; now rewrite <- app_assoc). clearbody lines'.
  destruct (drop_parse x l (y ++ block_lines bs)) as (Sh & Cv).
  { rewrite <- E1. now apply sane_clean. }
  { now rewrite <- E1. }
  rewrite <- E1, <- E2 in Sh, Cv. apply shifted_sym in Sh.
  destruct (Cv (fun d => length (own d))) as (D0 & D1); [auto|auto|]. destruct (Cv (fun d => length (split_on LF [] (d_body d)))) as (C0 & C1); [apply body_own|auto|]. clear Cv.
  pose proof (shifted_apart _ _ Sh A) as A'.
  assert (TO' : tags_outside lines').
  { intros j z n' s' v' Hz D Tz. apply defn_cover in D. rewrite E2 in Hz. destruct (Nat.lt_ge_cases j (length x)) as [Hj|Hj].
    - rewrite nth_error_app1 in Hz by lia. apply (proj1 (D1 j) Hj) in D. eapply (TO j z); eauto. rewrite E1, nth_error_app1 by lia. exact Hz.
    - apply (proj2 (D1 j)) in D; [|lia]. eapply (TO (S j) z); eauto. rewrite E1, nth_error_app2 in * by lia. replace (S j - length x) with (S (j - length x)) by lia. exact Hz. }
  split; [|split; [|split; [exact Sh|]]].
  - split; [|split; auto]. rewrite E2. rewrite E1 in Sa. apply Forall_app in Sa as (S1 & S2). apply Forall_app. split; auto. now inversion S2.
  - eapply front_change; [exact Fr|exact A|exact A'|rewrite E2, <- app_assoc; reflexivity| |].
    + intros j z Hz Hh. pose proof (front_headers _ _ _ Fr A) as K. destruct (Nat.lt_ge_cases j (length x)) as [Hj|Hj].
      * rewrite nth_error_app1 in Hz by lia. apply body_cover, (proj1 (C1 j)); [lia|]. apply body_cover, (K j z); auto. rewrite nth_error_app1 by lia. exact Hz.
      * apply body_cover, (proj2 (C1 j)); [lia|]. apply body_cover, (K (S j) z); auto. rewrite nth_error_app2 in * by lia. replace (S j - length x) with (S (j - length x)) by lia. exact Hz.
    + intros j. rewrite !body_cover. rewrite !app_length. cbn [length]. replace (length x + Datatypes.S (length y) + j) with (S (length x + length y + j)) by lia. symmetry. apply C1. lia.
  - intros i Hi. rewrite !defn_cover. now apply D1.
Qed.
Theorem drop_lines z : forall lines x y bs, good_file lines -> front lines (x ++ z ++ y) bs -> (forall i, length x <= i < length x + length z -> ~ in_definition (parse_plain lines) i) ->
  let lines' := (x ++ y) ++ block_lines bs in
  good_file lines' /\ front lines' (x ++ y) bs /\ Forall2 shifted (md_data (parse_plain lines)) (md_data (parse_plain lines')).
Proof.
  induction z as [|l z IH]; intros lines x y bs G Fr H lines'.
  - cbn [app] in Fr. unfold lines'. rewrite <- (front_lines _ _ _ Fr). split; auto. split; auto. apply shifted_refl.
  - cbn [app length] in *. destruct (drop_front lines x l (z ++ y) bs G Fr) as (G1 & Fr1 & Sh1 & D1); [apply H; lia|].
    destruct (IH _ x y bs G1 Fr1) as (G2 & Fr2 & Sh2); [intros i Hi Q; apply D1 in Q; [|lia]; apply (H (S i)); auto; lia|]. split; auto. split; auto. eapply shifted_trans; eauto.
Qed.
(** The comments of tags that are read. *)
Lemma tags_loop_comments (P : tag -> Prop) : (forall buffer n v sp vl p su, Forall (fun l => ~ In LF l) buffer -> P (mk_tag n v sp (comments_parse buffer) vl p su)) ->
  forall fuel lines data buffer ts, Forall (fun l => ~ In LF (fst l)) lines -> Forall (fun l => regular (rstrip (fst l))) lines -> Forall P data -> Forall (fun l => ~ In LF l) buffer -> tags_loop TAG_NAMES fuel lines data buffer = Ok ts -> Forall P (ts_data ts).
Proof.
  intros HP. induction fuel as [|fuel IH]; intros lines data buffer ts F X D B; cbn [tags_loop].
  - intros E; injection E as <-. exact D.
  - destruct lines as [|[line0 valid] lines]; [intros E; injection E as <-; exact D|]. inversion F as [|? ? NL F']; subst. inversion X as [|? ? X0 X']; subst. cbn [fst] in NL, X0.
    destruct (split_trailing line0 []) as [line ws] eqn:Et. pose proof (trailing_split _ _ _ NL Et) as El. destruct (trailing_rstrip _ _ _ NL Et) as [Er _]. destruct (split_conditional_macro_expansion line) as [[[line1 prefix] suffix]|e] eqn:Es; cbn [bind]; [|discriminate].
    pose proof Es as Es2. apply (split_exact line) in Es2; [|now rewrite Er].
    destruct (first_match TAG_NAMES line1) as [m|].
    + destruct (if str_eqb suffix [] then extend_value (group_str 3 m) ws lines else (group_str 3 m, ws, lines)) as [[value ws'] rest] eqn:Ev. intros E.
      assert (K : exists taken, lines = taken ++ rest).
      { destruct (str_eqb suffix []); [|injection Ev as _ _ <-; now exists []]. destruct (extend_value_spec _ _ _ _ _ _ F' Ev) as [(_ & _ & ->)|(_ & taken & Q & _)]; [now exists []|eauto]. }
      destruct K as (taken & ->). apply Forall_app in F' as (_ & F'). apply Forall_app in X' as (_ & X'). eapply IH; [exact F'|exact X'| |constructor|exact E]. apply Forall_app. split; [exact D|]. constructor; [|constructor]. now apply HP.
    + intros E. eapply IH; [exact F'|exact X'|exact D| |exact E]. apply Forall_app. split; [exact B|]. constructor; [|constructor]. intros Q. apply NL. rewrite El, <- Es2, !in_app_iff in *. tauto.
Qed.
Section World.
Context {W : Type} (expand : list str -> bool -> W -> str -> result str * W).
Lemma opens_comments lines w ts w1 rest : Forall sane lines -> opens expand lines w ts w1 rest -> Forall (fun t => Forall comment_line (map comment_str (cs_data (t_comments t)))) (ts_data ts).
Proof.
  intros S (p & ss & w0 & P & T & _). destruct (parse_blocks _ _ _ _ _ P) as (rs & p' & bs & ss' & Er & Eb & _ & Q & _). injection Q as <- _. pose proof (blocks_lines _ _ _ _ _ Eb) as El.
  rewrite El in S. apply Forall_app in S as (S & _).
  assert (Fp : Forall (fun l => ~ In LF l) p) by (eapply Forall_impl; [|exact S]; intros l ((H & _) & _); now apply no_break_LF).
  assert (Fr : Forall (fun l => regular (rstrip l)) p) by (eapply Forall_impl; [|exact S]; intros l ((_ & H & R & _) & _); now rewrite H).
  unfold tags_parse in T. destruct (process_conditions (expand lines) w0 p (Some (parse_plain p))) as [[tagged|e] w2] eqn:Pc; [|discriminate]. injection T as T _. apply process_lines in Pc. rewrite <- Pc in Fp.
  rewrite <- Pc in Fr. eapply tags_loop_comments; [| | |constructor|constructor|exact T].
  - intros buffer n v sp vl pr su Fb. cbn [t_comments]. apply (comments_parse_spec buffer Fb).
  - apply Forall_forall. intros l Hl. rewrite Forall_forall in Fp. apply Fp, in_map, Hl.
  - apply Forall_forall. intros l Hl. rewrite Forall_forall in Fr. apply (Fr (fst l)), in_map, Hl.
Qed.
(** What is read from a file whose tags were changed. *)
Theorem reread pt dups imp dg lines w w1 s s' bs : regular_file lines -> plain_lists pt lines -> read_sources expand pt dups imp dg lines w = (lines, w1, Ok s) ->
  front lines (tags_raw (s_tags s)) bs -> s_lists s' = s_lists s -> s_patches s' = s_patches s ->
  Forall quiet (ts_data (s_tags s')) -> Forall simple_tag (ts_data (s_tags s')) -> Forall no_tag (ts_remainder (s_tags s')) ->
  let lines' := tags_raw (s_tags s') ++ block_lines bs in good_file lines' -> front lines' (tags_raw (s_tags s')) bs ->
  forall w' l2 w2' s2, read_sources expand pt dups imp dg lines' w' = (l2, w2', Ok s2) -> l2 = lines' /\ Forall simple_tag (ts_data (s_tags s2)) /\
    map tcore (ts_data (s_tags s2)) = map tcore (ts_data (s_tags s')) /\ get_items s2 = get_items s' /\ locations s2 = locations s' /\ numbers s2 = numbers s'.
Proof.
  intros Rg Pl Rs Fr Kl Kp Q Sm Nr lines' G' Fr' w' l2 w2' s2 Rd2. clearbody lines' || idtac.
  destruct (view_sopens_inv expand _ _ _ _ _ _ _ _ _ _ _ Rs) as (p & ss & ts & ls & w1' & So). unfold read_sources in Rs. rewrite (view_sopens _ _ _ _ _ _ _ _ _ _ _ _ _ _ So) in Rs. injection Rs as Rl -> Es. clear Rl.
  assert (Ls : ls = s_lists s) by now subst s. assert (Pt : s_patches s = pt) by now subst s.
  destruct (view_sopens_inv expand _ _ _ _ _ _ _ _ _ _ _ Rd2) as (p2 & ss2 & ts2 & ls2 & w3 & So2). unfold read_sources in Rd2. rewrite (view_sopens _ _ _ _ _ _ _ _ _ _ _ _ _ _ So2) in Rd2. injection Rd2 as Rl2 -> Es2.
  pose proof (proj1 (proj2 (regular_good lines') G')) as Td2. destruct (sopens_write expand _ _ _ _ _ _ _ _ Td2 So2) as (Wr2 & El2). cbn [s_lists s_tags] in Rl2. rewrite Wr2, El2 in Rl2. split; [now symmetry|].
  destruct (sopens_opens expand _ _ _ _ _ _ _ _ So2) as (wb & O2).
  destruct (front_read expand _ _ _ _ _ _ _ G' Fr' O2) as (I1 & I2 & I3 & I4 & I5); [unfold tags_raw; now apply quiet_closed|].
  assert (Et2 : s_tags s2 = ts2) by now subst s2. assert (Ec : map tcore (ts_data (s_tags s2)) = map tcore (ts_data (s_tags s'))) by (rewrite Et2, I5; unfold tags_raw in *; now apply quiet_cores).
  split; [now rewrite Et2|]. split; [exact Ec|].
  assert (Ee : entries s2 = entries s').
  { unfold entries. rewrite Kl, <- Ls. assert (s_lists s2 = ls2) as -> by now subst s2. symmetry. eapply same_entries; [exact (proj1 Rg)|exact Td2|exact Pl|exact Fr|exact Fr'|exact So|exact So2]. }
  assert (Ep : s_patches s2 = s_patches s') by (rewrite Kp, Pt; now subst s2).
  split; [now apply same_items|]. now apply same_reading.
Qed.
Lemma plain_lists_sub pt lines lines' : (forall l, In l lines' -> In l lines) -> plain_lists pt lines -> plain_lists pt lines'.
Proof. intros I P l sp t Hl. apply P. auto. Qed.
(** Deleting a tag. *)
Lemma line_tag_nil : line_tag [] = [].
Proof. vm_compute. reflexivity. Qed.
Lemma settled_text t : settled t -> tag_text t <> [].
Proof. intros (_ & H & _) Q. rewrite Q, line_tag_nil in H. discriminate. Qed.
Lemma settled_raw t : settled t -> tag_raw t = comments_raw (t_comments t) ++ [tag_text t].
Proof. intros S. unfold tag_raw. now rewrite split_on_none by apply S. Qed.
Lemma no_tag_nil : no_tag [].
Proof. vm_compute. reflexivity. Qed.
Lemma quiet_preceding p u : settled u -> Forall no_tag p -> quiet (with_preceding p u).
Proof.
  intros S P. destruct (settled_quiet u S) as (A & B). split; [|exact B]. unfold with_preceding, comments_raw in *. cbn [t_comments cs_preceding cs_data]. apply Forall_app in A as (_ & A). apply Forall_app. auto.
Qed.
Lemma empty_repeat n : Forall empty_line (repeat [] n).
Proof. induction n; constructor; auto. reflexivity. Qed.
Lemma repeat_last {A} (x : A) n : repeat x (S n) = repeat x n ++ [x].
Proof. induction n as [|n IH]; [reflexivity|]. cbn [repeat app] in *. now rewrite IH at 1. Qed.
Theorem delete_step lines w ts w1 rest a t b bs : good_file lines -> opens expand lines w ts w1 rest -> Forall simple_tag (ts_data ts) -> front lines (tags_raw ts) bs -> ts_data ts = a ++ t :: b ->
  exists ts' x n m y, delete_at (Z.of_nat (length a)) ts = Ok ts' /\ let comments := map comment_str (cs_data (t_comments t)) in
    lines = x ++ (repeat [] n ++ comments ++ [tag_text t] ++ repeat [] m) ++ y /\ tags_raw ts' ++ block_lines bs = x ++ match repeat (@nil N) n ++ repeat [] m with [] => [] | _ => [@nil N] end ++ y /\
    (forall q, x <> q ++ [[]]) /\ (forall q, y <> [] :: q) /\ Forall quiet (ts_data ts') /\ Forall simple_tag (ts_data ts') /\ Forall no_tag (ts_remainder ts') /\ Forall comment_line comments /\
    let lines' := tags_raw ts' ++ block_lines bs in
    ((forall i, length x <= i < length x + length (repeat [] n ++ comments ++ [tag_text t] ++ repeat [] m) -> ~ in_definition (parse_plain lines) i) ->
      good_file lines' /\ front lines' (tags_raw ts') bs /\ Forall2 shifted (md_data (parse_plain lines)) (md_data (parse_plain lines'))).
Proof.
  intros G O Sm Fr Ed. destruct (front_settled expand lines w ts w1 rest G O Sm) as (Se & Nr & Sf & _). pose proof (opens_comments _ _ _ _ _ (proj1 G) O) as Cm. pose proof (front_lines _ _ _ Fr) as El.
  assert (Hh : Forall (fun b => is_header (fst b) = true) bs) by (destruct Fr as (rs & _ & Eb); eapply blocks_headers; eauto).
  pose proof (delete_spec ts a t b Ed) as Dl. set (ts' := match b with [] => _ | _ => _ end) in Dl. exists ts'.
  set (below := match b with u :: _ => t_preceding u | [] => ts_remainder ts end).
  set (z := match b with u :: b' => map comment_str (cs_data (t_comments u)) ++ [tag_text u] ++ flat_map tag_raw b' ++ ts_remainder ts | [] => [] end).
  set (cs := map comment_str (cs_data (t_comments t))).
  rewrite Ed in Se, Sm, Cm. apply Forall_app in Se as (Sea & Seb). apply Forall_cons_iff in Seb as (Set' & Seb). apply Forall_app in Sm as (Sma & Smb). apply Forall_cons_iff in Smb as (Smt & Smb).
  apply Forall_app in Cm as (Cma & Cmb). apply Forall_cons_iff in Cmb as (Cmt & Cmb).
  assert (E1 : tags_raw ts = flat_map tag_raw a ++ t_preceding t ++ cs ++ [tag_text t] ++ below ++ z).
  { unfold tags_raw. rewrite Ed, flat_map_app. cbn [flat_map]. rewrite (settled_raw t) by auto. unfold comments_raw. fold cs. unfold below, z. destruct b as [|u b']; cbn [flat_map].
    - rewrite !app_nil_r, <- !app_assoc. reflexivity.
    - inversion Seb; subst. rewrite (settled_raw u) by auto. unfold comments_raw, t_preceding. rewrite <- !app_assoc. reflexivity. }
  assert (E2 : tags_raw ts' = flat_map tag_raw a ++ merge_preceding (t_preceding t) below ++ z).
  { unfold ts', below, z. destruct b as [|u b']; unfold tags_raw; cbn [ts_data ts_remainder]; [now rewrite app_nil_r|]. pose proof (Forall_inv Seb) as Su. rewrite flat_map_app. cbn [flat_map]. unfold tag_raw at 2.
    change (tag_text (with_preceding (merge_preceding (t_preceding t) (t_preceding u)) u)) with (tag_text u). rewrite split_on_none by apply Su. unfold with_preceding, comments_raw. cbn [t_comments cs_preceding cs_data]. rewrite <- !app_assoc. reflexivity. }
  destruct (merge_spec (t_preceding t) below) as (p' & n & m & l' & Ep & Eb & Np & Nl & Em).
  assert (Ntp : Forall no_tag (t_preceding t)). { destruct Set' as (H & _). unfold comments_raw in H. apply Forall_app in H as (H & _). exact H. }
  assert (Ntb : Forall no_tag below). { unfold below. destruct b as [|u b']; auto. inversion Seb as [|? ? (H & _)]; subst. unfold comments_raw in H. now apply Forall_app in H. }
  assert (Ntm : Forall no_tag (merge_preceding (t_preceding t) below)).
  { rewrite Em. rewrite Ep in Ntp. apply Forall_app in Ntp as (N1 & _). rewrite Eb in Ntb. apply Forall_app in Ntb as (_ & N2). apply Forall_app. split; auto. apply Forall_app. split; auto. destruct (Nat.eqb _ _); repeat constructor; apply no_tag_nil. }
  assert (Qa : Forall quiet a) by (eapply Forall_impl; [|exact Sea]; intros; now apply settled_quiet).
  exists (flat_map tag_raw a ++ p'), n, m, (l' ++ z ++ block_lines bs). split; [exact Dl|]. cbv zeta. rewrite Ep, Eb in E1. rewrite Em in E2.
  set (x := flat_map tag_raw a ++ p') in *. set (y := l' ++ z) in *.
  assert (F1 : tags_raw ts = x ++ (repeat [] n ++ cs ++ [tag_text t] ++ repeat [] m) ++ y) by (rewrite E1; unfold x, y; rewrite <- !app_assoc; reflexivity).
  set (mid := match repeat (@nil N) n ++ repeat [] m with [] => [] | _ => [@nil N] end).
  assert (F2 : tags_raw ts' = x ++ mid ++ y).
  { rewrite E2. unfold x, y, mid. replace (repeat [] (if (n + m =? 0)%nat then 0 else 1)) with (match repeat (@nil N) n ++ repeat [] m with [] => [] | _ => [@nil N] end); [rewrite <- !app_assoc; reflexivity|]. destruct n, m; reflexivity. }
  split; [rewrite El, F1; unfold y; rewrite <- !app_assoc; reflexivity|]. split; [rewrite F2; unfold y; rewrite <- !app_assoc; reflexivity|].
  split.
  { intros q Q. unfold x in Q. destruct p' as [|c0 p0] using rev_ind; [|clear IHp0; rewrite app_assoc in Q; apply app_inj_tail in Q as (_ & ->); eapply Np; reflexivity]. rewrite app_nil_r in Q.
    destruct a as [|u a0] using rev_ind; [destruct q; discriminate|]. apply Forall_app in Sea as (_ & Su). apply Forall_inv in Su. rewrite flat_map_app in Q. cbn [flat_map] in Q. rewrite app_nil_r, (settled_raw u), app_assoc in Q by auto.
    apply app_inj_tail in Q as (_ & Q). now apply settled_text in Su. }
  split.
  { intros q Q. destruct l' as [|c0 l']; [|injection Q as -> Q; eapply Nl; reflexivity]. cbn [app] in Q. unfold z in Q. destruct b as [|u b'].
    - cbn [app] in Q. destruct bs as [|[h ls] bs]; [discriminate|]. injection Q as -> _. apply Forall_inv in Hh. vm_compute in Hh. discriminate.
    - apply Forall_inv in Seb. apply Forall_inv in Cmb. destruct (cs_data (t_comments u)) as [|c1 c2]; cbn [map app] in Q; injection Q as Q _; [now apply settled_text in Seb|].
      apply Forall_inv in Cmb. destruct Cmb as (c3 & c4 & Q2 & _). rewrite Q in Q2. destruct c3; discriminate. }
  split.
  { unfold ts'. destruct b as [|u b']; cbn [ts_data]; auto. inversion Seb; subst. apply Forall_app. split; auto. constructor; [now apply quiet_preceding|]. eapply Forall_impl; [|eassumption]. intros; now apply settled_quiet. }
  split.
  { unfold ts'. destruct b as [|u b']; cbn [ts_data]; auto. apply Forall_app. split; auto. inversion Smb; subst. constructor; auto. }
  split; [unfold ts'; destruct b as [|u b']; cbn [ts_remainder]; auto|]. split; [exact Cmt|]. intros H. rewrite F2. rewrite F1 in Fr. unfold mid.
  destruct n as [|n'].
  - destruct m as [|m'].
    + cbn [repeat app] in *. apply (drop_lines _ lines x y bs G Fr). intros i Hi. apply H. rewrite !app_length in *. cbn [length] in *. lia.
    + change (repeat [] 0 ++ repeat [] (S m')) with ([] :: repeat (@nil N) m'). rewrite (repeat_last _ m') in H, Fr. cbn [repeat app] in H, Fr |- *. rewrite <- !app_assoc in Fr. cbn [app] in Fr. rewrite <- app_assoc in Fr. cbn [app] in Fr.
      assert (Fr2 : front lines (x ++ (cs ++ tag_text t :: repeat [] m') ++ [] :: y) bs) by (rewrite <- app_assoc; exact Fr).
      apply (drop_lines _ lines x ([] :: y) bs G Fr2). intros i Hi. apply H. rewrite !app_length in *. cbn [length] in *. rewrite !app_length. lia.
  - change (repeat [] (S n') ++ repeat [] m) with ([] :: (repeat (@nil N) n' ++ repeat [] m)). cbn [repeat app] in H, Fr |- *.
    change (x ++ [] :: y) with (x ++ [[]] ++ y). rewrite app_assoc.
    assert (Fr2 : front lines ((x ++ [[]]) ++ (repeat [] n' ++ cs ++ [tag_text t] ++ repeat [] m) ++ y) bs) by (rewrite <- !app_assoc in *; cbn [app] in *; rewrite <- ?app_assoc in *; exact Fr).
    apply (drop_lines _ lines (x ++ [[]]) y bs G Fr2). intros i Hi. apply H. rewrite !app_length in *. cbn [length] in *. rewrite !app_length in *. cbn [length] in *. lia.
Qed.
Theorem deleted_file pt dups imp dg lines w w1 s a t b ds ts' lines' f w2 : regular_file lines -> plain_lists pt lines ->
  read_sources expand pt dups imp dg lines w = (lines, w1, Ok s) -> Forall simple_tag (ts_data (s_tags s)) -> Forall neat (ts_data (s_tags s)) -> caseless_digits ->
  ts_data (s_tags s) = a ++ t :: b -> source_name (source_word s) (t_name t) ds -> delete_at (Z.of_nat (length a)) (s_tags s) = Ok ts' -> f s = Ok (with_tags ts' s) ->
  edit_sources expand pt dups imp dg f lines w = (lines', w2, Ok tt) -> keeps_other_tags s (with_tags ts' s) ->
  forall good : sources -> Prop, (forall s2, locations s2 = locations (with_tags ts' s) -> numbers s2 = numbers (with_tags ts' s) -> good s2) -> file_deleted expand pt dups imp dg lines s (t_value t) lines' good.
Proof.
  intros Rg Pl Rs Sm Ne Cd Da Sn Dl F Ed Ko good Gd. pose proof (proj1 (regular_good lines) Rg) as G. pose proof Rs as Rs0.
  assert (It : In t (ts_data (s_tags s))) by (rewrite Da, in_app_iff; cbn; auto).
  assert (Ol : one_line t) by (rewrite Forall_forall in Ne; apply (Ne t); [exact It|eapply word_like; eauto]).
  destruct (view_sopens_inv expand _ _ _ _ _ _ _ _ _ _ _ Rs) as (p & ss & ts & ls & w1' & So). unfold read_sources in Rs. rewrite (view_sopens _ _ _ _ _ _ _ _ _ _ _ _ _ _ So) in Rs. injection Rs as Rl -> Es.
  unfold edit_sources in Ed. rewrite (view_sopens _ _ _ _ _ _ _ _ _ _ _ _ _ _ So), Es, F in Ed. injection Ed as Vl _.
  assert (Ts : ts = s_tags s) by now subst s. assert (Ls : ls = s_lists s) by now subst s. clear Rl.
  destruct (sopens_write expand _ _ _ _ _ _ _ _ (proj1 Rg) So) as (Wr & El). change (s_lists (with_tags ts' s)) with (s_lists s) in Vl. rewrite <- Ls, Wr in Vl.
  destruct (sopens_opens expand _ _ _ _ _ _ _ _ So) as (wa & O). rewrite Ts in O, El.
  destruct (front_settled expand _ _ _ _ _ G O Sm) as (Se & _). destruct (opens_front expand _ _ _ _ _ (proj1 G) O) as (bs & Fr & Eb).
  assert (Stl : settled t) by (rewrite Forall_forall in Se; auto). destruct (settled_line t Stl Ol) as (E1 & _).
  destruct (delete_step _ _ _ _ _ a t b bs G O Sm Fr Da) as (ts0 & x & n & m & y & Dl0 & L1 & L2 & Nx & Ny & Q & Sm' & Nr' & Cm & K). rewrite Dl in Dl0. injection Dl0 as <-. cbv zeta in *.
  change (s_tags (with_tags ts' s)) with ts' in Vl. rewrite Eb in Vl. rewrite E1 in L1, K. rewrite Vl in L2, K.
  exists x, (repeat [] n), (map comment_str (cs_data (t_comments t))), (t_name t), ds, (t_separator t), (repeat [] m), y.
  split; [exact L1|]. split; [exact L2|]. split; [exact Sn|]. split; [exact Cm|]. split; [apply empty_repeat|]. split; [apply empty_repeat|]. split; [exact Nx|]. split; [exact Ny|].
  intros H. destruct (K H) as (G' & Fr' & Sh). split; [now apply regular_good|]. split.
  { apply (plain_lists_sub pt lines); auto. intros l Hl. rewrite L2 in Hl. rewrite L1, !in_app_iff in *. destruct Hl as [Hl|[Hl|Hl]]; auto. destruct n as [|n]; [destruct m as [|m]; [destruct Hl|]|]; destruct Hl as [<-|[]]; right; left; [do 3 right|left]; now left. }
  split; [now apply shifted_same|]. intros w' l2 w2' s2 Rd2.
  pose proof (reread pt dups imp dg lines w w1 s (with_tags ts' s) bs Rg Pl Rs0 Fr eq_refl eq_refl Q Sm' Nr') as R. cbv zeta in R. change (s_tags (with_tags ts' s)) with ts' in R. rewrite Vl in R.
  destruct (R G' Fr' _ _ _ _ Rd2) as (J1 & J2 & J3 & _ & J4 & J5).
  split; [exact J1|]. split; [exact J2|]. split; [|auto]. intros o Ho. eapply other_same; [symmetry; exact J3|]. now apply Ko.
Qed.
Lemma item_tag s k num j : Spec_sources.readable s -> nth_error (get_items s) k = Some (mk_item num (InTags j)) -> caseless_digits ->
  exists a t b ds, ts_data (s_tags s) = a ++ t :: b /\ length a = j /\ source_name (source_word s) (t_name t) ds /\ nth_error (locations s) k = Some (t_value t).
Proof.
  intros Rd Hx Cd. destruct (items_nth s _ _ Hx) as [(a & t & b & kd & E & K & _ & Q)|(l1 & sl & l2 & i & _ & _ & Q & _)]; [|discriminate]. injection Q as _ Q.
  destruct (kind_source (s_patches s) (t_name t) kd Cd) as (ds & Hs & _); [|exact K|].
  - destruct Rd as (_ & Rd). rewrite Forall_forall in Rd. apply Rd. rewrite E. apply in_map. rewrite in_app_iff. cbn. auto.
  - exists a, t, b, ds. split; auto. split; auto. split; auto. unfold locations. rewrite nth_error_map, Hx. cbn [option_map location_at i_place]. rewrite E, Q, nth_error_app2, Nat.sub_diag by lia. reflexivity.
Qed.
Theorem delete_file pt dups imp dg lines w w1 s k j lines' w2 : regular_file lines -> plain_lists pt lines ->
  read_sources expand pt dups imp dg lines w = (lines, w1, Ok s) -> Forall simple_tag (ts_data (s_tags s)) -> Forall neat (ts_data (s_tags s)) -> caseless_digits ->
  (exists n, nth_error (get_items s) k = Some (mk_item n (InTags j))) -> edit_sources expand pt dups imp dg (fun s => delete_item s (Z.of_nat k)) lines w = (lines', w2, Ok tt) ->
  exists v, nth_error (locations s) k = Some v /\ file_deleted expand pt dups imp dg lines s v lines'
    (fun s2 => locations s2 = removed k (locations s) /\ (increasing (numbers s) -> increasing (numbers s2)) /\ (all_numbered s -> no_list_entries s -> numbers s2 = removed k (numbers s))).
Proof.
  intros Rg Pl Rs Sm Ne Cd (num & Hx) Ed. destruct (read_opens _ _ _ _ _ _ _ _ _ (proj1 Rg) Rs Cd) as (_ & Rd & _). destruct (item_tag s k num j Rd Hx Cd) as (a & t & b & ds & Da & La & Sn & Lo).
  assert (Lk : k < length (locations s)) by (apply nth_error_Some; congruence). destruct (delete_semantics s k Rd Lk) as (s' & F & _ & S1 & S2 & S3 & S4).
  exists (t_value t). split; [exact Lo|]. pose proof F as F0. unfold delete_item in F0. rewrite py_index_nonneg, Hx in F0 by (apply nth_error_Some; congruence). cbn [i_place delete_place] in F0.
  destruct (delete_at (Z.of_nat j) (s_tags s)) as [ts'|] eqn:Dl; [|discriminate]. cbn [bind] in F0. injection F0 as <-. rewrite <- La in Dl.
  apply (deleted_file pt dups imp dg lines w w1 s a t b ds ts' lines' (fun s => delete_item s (Z.of_nat k)) w2); auto. intros s2 Q1 Q2. rewrite Q1, Q2. auto.
Qed.
Theorem remove_numbered_file pt dups imp dg lines w w1 s number lines' w2 : regular_file lines -> plain_lists pt lines ->
  read_sources expand pt dups imp dg lines w = (lines, w1, Ok s) -> Forall simple_tag (ts_data (s_tags s)) -> Forall neat (ts_data (s_tags s)) -> caseless_digits ->
  (forall x, In x (get_items s) -> i_number x = number -> exists j, i_place x = InTags j) -> edit_sources expand pt dups imp dg (fun s => remove_numbered s number) lines w = (lines', w2, Ok tt) ->
  ~ In number (numbers s) /\ lines' = lines \/
  exists k v, nth_error (numbers s) k = Some number /\ nth_error (locations s) k = Some v /\ file_deleted expand pt dups imp dg lines s v lines'
    (fun s2 => locations s2 = removed k (locations s) /\ (increasing (numbers s) -> increasing (numbers s2)) /\ (all_numbered s -> no_list_entries s -> numbers s2 = removed k (numbers s))).
Proof.
  intros Rg Pl Rs Sm Ne Cd It Ed. destruct (read_opens _ _ _ _ _ _ _ _ _ (proj1 Rg) Rs Cd) as (_ & Rd & _). unfold edit_sources in Ed.
  destruct (List.find (fun x => (i_number x =? number)%Z) (get_items s)) as [x|] eqn:Fi.
  - right. pose proof Fi as Fi'. apply find_some in Fi' as (Hin & Hn). apply Z.eqb_eq in Hn. destruct (It x Hin Hn) as (j & Hj). destruct x as [n pl]. cbn [i_number i_place] in *. subst n pl. apply In_nth_error in Hin as (k & Hx).
    destruct (item_tag s k number j Rd Hx Cd) as (a & t & b & ds & Da & La & Sn & Lo).
    assert (Lk : k < length (locations s)) by (apply nth_error_Some; congruence). destruct (delete_semantics s k Rd Lk) as (s' & F & _ & S1 & S2 & S3 & S4).
    exists k, (t_value t). split; [unfold numbers; now rewrite nth_error_map, Hx|]. split; [exact Lo|]. unfold delete_item in F. rewrite py_index_nonneg, Hx in F by (apply nth_error_Some; congruence). cbn [i_place delete_place] in F.
    destruct (delete_at (Z.of_nat j) (s_tags s)) as [ts'|] eqn:Dl; [|discriminate]. pose proof Dl as Dl'. cbn [bind] in F. injection F as <-. rewrite <- La in Dl.
    apply (deleted_file pt dups imp dg lines w w1 s a t b ds ts' lines' (fun s => remove_numbered s number) w2); auto.
    + unfold remove_numbered. rewrite Fi. cbn [i_place delete_place]. rewrite Dl'. reflexivity.
    + intros s2 Q1 Q2. rewrite Q1, Q2. auto.
  - left. split.
    + intros Hin. unfold numbers in Hin. apply in_map_iff in Hin as (y & Ey & Hy). apply (find_none _ _ Fi) in Hy. apply Z.eqb_neq in Hy. congruence.
    + destruct (view_sopens_inv expand _ _ _ _ _ _ _ _ _ _ _ Rs) as (p & ss & ts & ls & w1' & So). unfold read_sources in Rs. rewrite (view_sopens _ _ _ _ _ _ _ _ _ _ _ _ _ _ So) in Rs. injection Rs as Rl -> Es.
      rewrite (view_sopens _ _ _ _ _ _ _ _ _ _ _ _ _ _ So), Es in Ed. unfold remove_numbered in Ed. rewrite Fi in Ed. injection Ed as Vl _. rewrite <- Vl. rewrite <- Es. exact Rl.
Qed.
End World.
End Uni.
