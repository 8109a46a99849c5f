(** Proofs about operations on a whole spec file: lines of text that are put into sections. *)
From Coq Require Import Ascii String.
From Coq Require Import NArith ZArith List Bool Lia.
From Verif Require P_changelog P_specfile24.
From Verif Require Import PyStr PyStrFacts Regex RegexFacts M_constants M_options M_value M_macro_definitions Spec_macro_definitions P_macro_definitions P_macro_definitions2
  P_macro_definitions3 M_conditions M_sections Spec_sections P_sections P_sections2 P_sections4 M_tags Spec_tags
  P_tags2 P_tags3 P_tags4 P_tags5 P_context M_specfile Spec_specfile Spec_specfile2 Spec_specfile3 P_specfile P_specfile2 P_specfile5 P_specfile6 P_specfile7 P_specfile10 P_specfile11 P_specfile12 P_specfile13 P_specfile18
  Spec_specfile5.
Import ListNotations.
Open Scope N_scope.
Open Scope nat_scope.

Section Uni.
Context {U : Unicode}.
Notation own := M_macro_definitions.own_lines.
Lemma text_facts l : text_line l -> re_match md_regex l = None /\ is_header l = false /\ sane l.
Proof.
  intros (Td & K & P). pose proof Td as (Nb & R & _). assert (NL : ~ In LF l) by now apply no_break_LF.
  assert (Hh : is_header l = false). { destruct (is_header l) eqn:E; auto. exfalso. apply P. now apply header_spec. }
  split.
  { destruct (re_match md_regex l) as [m|] eqn:M; auto. exfalso. apply K. destruct (md_match _ _ NL M) as (w0 & dn & sc & k & w1 & nm & w2 & body & w3 & S). exists (w0 ++ dn ++ sc), k, (w1 ++ nm ++ w2 ++ body ++ w3).
    split; [apply (sh_k _ _ _ _ _ _ _ _ _ _ _ S)|]. rewrite (sh_line _ _ _ _ _ _ _ _ _ _ _ S), <- !app_assoc. reflexivity. }
  split; [exact Hh|]. split; [exact Td|].
  split; [exact NL|]. split; [|intros T; exfalso; now apply (no_trailing l)]. intros D. apply K. destruct D as (w & x & k & y & _ & Hk & _ & ->). exists (w ++ lit "%dnl" ++ x ++ [PCT; PCT]), k, y. split; [exact Hk|]. now rewrite <- !app_assoc.
Qed.
(** Lines that do not begin with "%". *)
Lemma text_plain l : no_break l -> rstrip l = l -> ~ mentions_keyword l -> (forall r, l <> PCT :: r) -> text_line l.
Proof.
  intros Nb R K P. split; [|split; auto].
  - split; [exact Nb|]. split; [exact R|]. split; [apply regular_not_braced; intros x ->; now apply (P (LBRACE :: x))|]. split; [intros (n & name & rest & _ & _ & E & _); now apply P in E|].
    intros (x & r & E & _). now apply P in E.
  - intros (n & name & rest & _ & _ & E & _). now apply P in E.
Qed.

(** Where a line that is no header goes. *)
Lemma blocks_insert hdr hdr' l : forall x y i p bs,
  (forall j z, j < length x -> hdr' (i + j) z = hdr (i + j) z) -> hdr' (i + length x) l = false -> (forall j z, hdr' (S (i + length x + j)) z = hdr (i + length x + j) z) ->
  blocks_of hdr i (x ++ y) = (p, bs) ->
  (forall p2, p = x ++ p2 -> blocks_of hdr' i (x ++ l :: y) = (x ++ l :: p2, bs)) /\
  (forall b1 h a b b2, bs = b1 ++ (h, a ++ b) :: b2 -> x = p ++ block_lines b1 ++ h :: a -> blocks_of hdr' i (x ++ l :: y) = (p, b1 ++ (h, a ++ l :: b) :: b2)).
Proof.
  induction x as [|c x IH]; intros y i p bs H1 H2 H3 E; cbn [app length] in *.
  - split; [|intros b1 h a b b2 _ Q; destruct p; [destruct b1|]; discriminate].
    intros p2 ->. cbn [blocks_of]. assert (K : blocks_of hdr' (S i) y = blocks_of hdr i y) by (apply blocks_keep; intros j z _; specialize (H3 j z); now rewrite Nat.add_0_r in H3).
    rewrite K, E. rewrite Nat.add_0_r in H2. now rewrite H2.
  - cbn [blocks_of] in *. destruct (blocks_of hdr (S i) (x ++ y)) as [p0 bs0] eqn:E0.
    destruct (IH y (S i) p0 bs0) as (I1 & I2).
    + intros j z Hj. specialize (H1 (S j) z). rewrite Nat.add_succ_r in H1. apply H1. lia.
    + now rewrite Nat.add_succ_r in H2.
    + intros j z. specialize (H3 j z). rewrite Nat.add_succ_r in H3. exact H3.
    + exact E0.
    + pose proof (H1 0 c ltac:(lia)) as Hc. rewrite Nat.add_0_r in Hc. rewrite Hc. destruct (hdr i c) eqn:Hh; injection E as <- <-.
      * split; [discriminate|]. intros [|[h0 q0] b1] h a b b2 E Q.
        -- cbn [app block_lines flat_map fst snd] in *. injection E as <- -> ->. injection Q as ->. now rewrite (I1 b eq_refl).
        -- cbn [app] in E. injection E as <- -> ->. unfold block_lines in Q. cbn [app flat_map fst snd] in Q. injection Q as Q. rewrite <- app_assoc in Q. rewrite (I2 _ _ _ _ _ eq_refl Q). reflexivity.
      * split.
        -- intros p2 E. cbn [app] in E. injection E as ->. now rewrite (I1 p2 eq_refl).
        -- intros b1 h a b b2 E Q. cbn [app] in Q. injection Q as Q. now rewrite (I2 _ _ _ _ _ E Q).
Qed.

(** A line of text is put into a section. *)
Lemma free_between lines q : ~ in_definition (parse_plain lines) q -> (q = length lines -> forall r, q = S r -> ~ in_definition (parse_plain lines) r) -> between_definitions lines q.
Proof. intros A B. split; auto. intros (a & d & b & j & E & Hj & Q). apply A. exists a, d, b, j. repeat split; auto. lia. Qed.
Theorem insert_text lines p b1 h a b b2 l : good_file lines -> front lines p (b1 ++ (h, a ++ b) :: b2) -> text_line l -> between_definitions lines (length (p ++ block_lines b1 ++ h :: a)) ->
  let lines' := p ++ block_lines (b1 ++ (h, a ++ l :: b) :: b2) in
  good_file lines' /\ front lines' p (b1 ++ (h, a ++ l :: b) :: b2) /\ Forall2 shifted (md_data (parse_plain lines)) (md_data (parse_plain lines')) /\
  ~ in_definition (parse_plain lines') (length (p ++ block_lines b1 ++ h :: a)) /\
  forall i, i < length (p ++ block_lines b1 ++ h :: a) -> (in_definition (parse_plain lines) i <-> in_definition (parse_plain lines') i).
Proof.
  intros (Sa & A & TO) Fr Tl B lines'. destruct (text_facts l Tl) as (Mn & Hn & Sl). pose proof (front_lines _ _ _ Fr) as El. set (x := p ++ block_lines b1 ++ h :: a) in *. set (y := b ++ block_lines b2).
  assert (Bl : forall u, p ++ block_lines (b1 ++ (h, a ++ u) :: b2) = x ++ u ++ block_lines b2).
  { intros u. unfold x, block_lines. rewrite flat_map_app. cbn [flat_map fst snd app]. rewrite <- !app_assoc. cbn [app]. now rewrite <- ?app_assoc. }
  assert (E1 : lines = x ++ y) by (rewrite El; apply Bl). assert (E2 : lines' = x ++ l :: y) by (unfold lines'; rewrite Bl; reflexivity). clearbody lines'.
  destruct (insert_parse x y l) as (Sh & Cv).
  { rewrite <- E1. now apply sane_clean. }
  { exact Mn. }
  { now rewrite <- E1. }
  rewrite <- E1, <- E2 in Sh, Cv.
  destruct (Cv (fun d => length (own d))) as (D0 & D1); [auto|auto|]. destruct (Cv (fun d => length (split_on LF [] (d_body d)))) as (C0 & C1); [apply body_own|auto|]. clear Cv.
  pose proof (shifted_apart _ _ Sh A) as A'.
  assert (TO' : tags_outside lines').
  { intros j z n' s' v' Hz D Tz. apply defn_cover in D. rewrite E2 in Hz. destruct (Nat.lt_trichotomy j (length x)) as [Hj|[->|Hj]].
    - rewrite nth_error_app1 in Hz by lia. apply D1 in D; [|lia]. eapply (TO j z); eauto. rewrite E1, nth_error_app1 by lia. exact Hz.
    - contradiction.
    - destruct j as [|j]; [lia|]. apply (proj2 (D1 j)) in D; [|lia]. eapply (TO j z); eauto. rewrite E1, nth_error_app2 in * by lia. replace (S j - length x) with (S (j - length x)) in Hz by lia. exact Hz. }
  split; [|split; [|split; [exact Sh|split; [exact D0|]]]].
  - split; [|split; auto]. rewrite E2. rewrite E1 in Sa. apply Forall_app in Sa as (S1 & S2). apply Forall_app. split; auto.
  - destruct Fr as (rs & Er & Eb). destruct (excluded_body _ (apart_distinct _ A)) as (r1 & Q1 & X1). rewrite Er in Q1. injection Q1 as <-.
    destruct (excluded_body _ (apart_distinct _ A')) as (rs' & Er' & X2). exists rs'. split; [exact Er'|]. rewrite E1 in Eb. rewrite E2.
    refine (proj2 (blocks_insert (header_at rs) (header_at rs') l x y 0 p _ _ _ _ Eb) _ _ _ _ _ eq_refl eq_refl); cbn [Nat.add].
    + intros j z Hj. unfold header_at. f_equal. f_equal. apply eq_true_iff_eq. rewrite X1, X2. symmetry. now apply C1.
    + unfold header_at. rewrite Hn. apply andb_false_r.
    + intros j z. unfold header_at. f_equal. f_equal. apply eq_true_iff_eq. rewrite X1, X2. symmetry. apply C1. lia.
  - intros i Hi. now apply D1.
Qed.
Theorem insert_texts new : Forall text_line new -> forall lines p b1 h a b b2, good_file lines -> front lines p (b1 ++ (h, a ++ b) :: b2) -> between_definitions lines (length (p ++ block_lines b1 ++ h :: a)) ->
  let lines' := p ++ block_lines (b1 ++ (h, a ++ new ++ b) :: b2) in
  good_file lines' /\ front lines' p (b1 ++ (h, a ++ new ++ b) :: b2) /\ Forall2 shifted (md_data (parse_plain lines)) (md_data (parse_plain lines')) /\
  forall i, i < length (p ++ block_lines b1 ++ h :: a) -> (in_definition (parse_plain lines) i <-> in_definition (parse_plain lines') i).
Proof.
  induction new as [|l new IH] using rev_ind; intros T lines p b1 h a b b2 G Fr B lines'.
  - unfold lines'. cbn [app]. rewrite <- (front_lines _ _ _ Fr). split; auto. split; auto. split; [apply shifted_refl|tauto].
  - apply Forall_app in T as (T & Tl). apply Forall_inv in Tl. destruct (insert_text lines p b1 h a b b2 l G Fr Tl B) as (G1 & F1 & S1 & D1 & I1). cbv zeta in *.
    set (lines1 := p ++ block_lines (b1 ++ (h, a ++ l :: b) :: b2)) in *.
    destruct (IH T lines1 p b1 h a (l :: b) b2 G1 F1) as (G2 & F2 & S2 & I2).
    + apply free_between; auto. intros Q. exfalso. revert Q. unfold lines1, block_lines. rewrite flat_map_app. cbn [flat_map fst snd]. rewrite !app_length. cbn [length app]. rewrite !app_length. cbn [length]. lia.
    + cbv zeta in *. unfold lines'. rewrite <- app_assoc. cbn [app]. split; auto. split; auto. split; [eapply P_specfile24.shifted_trans; eauto|]. intros i Hi. rewrite I1 by auto. now apply I2.
Qed.

(** Lines of text are put into some sections. *)
Definition grown (b b' : str * list str) : Prop := exists h x y new, b = (h, x ++ y) /\ b' = (h, x ++ new ++ y) /\ Forall text_line new.
Theorem grow_blocks lines p : good_file lines -> forall r r', Forall2 (fun b b' => b = b' \/ grown b b') r r' -> forall b0, front lines p (b0 ++ r) ->
  (forall b1 b b2 b1' b' b2' i, r = b1 ++ b :: b2 -> r' = b1' ++ b' :: b2' -> length b1 = length b1' -> b <> b' ->
    length (p ++ block_lines (b0 ++ b1)) <= i <= length (p ++ block_lines (b0 ++ b1 ++ [b])) -> ~ in_definition (parse_plain lines) i) ->
  let lines' := p ++ block_lines (b0 ++ r') in
  good_file lines' /\ front lines' p (b0 ++ r') /\ Forall2 shifted (md_data (parse_plain lines)) (md_data (parse_plain lines')) /\
  (forall i, i <= length (p ++ block_lines b0) -> (in_definition (parse_plain lines) i <-> in_definition (parse_plain lines') i)).
Proof.
  intros G r r' R. induction R as [|b b' r r' Hb R IH]; intros b0 Fr Fb lines'.
  - unfold lines'. rewrite <- (front_lines _ _ _ Fr). split; auto. split; auto. split; [apply shifted_refl|tauto].
  - destruct (IH (b0 ++ [b])) as (G1 & F1 & S1 & I1).
    + now rewrite <- app_assoc.
    + intros b1 c b2 b1' c' b2' i E E' L N Hi. apply (Fb (b :: b1) c b2 (b' :: b1') c' b2' i); cbn [app length]; try congruence. rewrite <- !app_assoc in Hi. exact Hi.
    + cbv zeta in *. rewrite <- !app_assoc in *. cbn [app] in *. set (lines1 := p ++ block_lines (b0 ++ b :: r')) in *.
      assert (Le : length (p ++ block_lines b0) < length (p ++ block_lines (b0 ++ [b]))).
      { destruct b as [h u]. unfold block_lines. rewrite flat_map_app, !app_length. cbn [flat_map fst snd length app]. lia. }
      destruct Hb as [<-|(h & x & y & new & -> & -> & T)].
      * unfold lines'. fold lines1. split; auto. split; auto. split; auto. intros i Hi. apply I1. lia.
      * destruct new as [|n new].
        { cbn [app] in *. unfold lines'. fold lines1. split; auto. split; auto. split; auto. intros i Hi. apply I1. lia. }
        assert (Nq : (h, x ++ y) <> (h, x ++ (n :: new) ++ y)). { intros E. injection E as E. apply (f_equal (@length _)) in E. rewrite !app_length in E. cbn [length] in E. rewrite app_length in E. lia. }
        assert (Fi : forall i, length (p ++ block_lines b0) <= i <= length (p ++ block_lines (b0 ++ [(h, x ++ y)])) -> ~ in_definition (parse_plain lines) i).
        { intros i Hi. apply (Fb [] (h, x ++ y) r [] (h, x ++ (n :: new) ++ y) r' i); auto. now rewrite app_nil_r. }
        assert (Po : length (p ++ block_lines b0 ++ h :: x) <= length (p ++ block_lines (b0 ++ [(h, x ++ y)]))).
        { unfold block_lines. rewrite flat_map_app, !app_length. cbn [flat_map fst snd length app]. rewrite !app_length. cbn [length]. lia. }
        assert (Pl : length (p ++ block_lines b0) < length (p ++ block_lines b0 ++ h :: x)) by (rewrite !app_length; cbn [length]; lia).
        destruct (insert_texts (n :: new) T lines1 p b0 h x y r' G1 F1) as (G2 & F2 & S2 & I2).
        -- apply free_between.
           ++ intros D. apply I1 in D; [|exact Po]. revert D. apply Fi. lia.
           ++ intros _ q Eq D. apply I1 in D; [|lia]. revert D. apply Fi. lia.
        -- cbv zeta in *. split; auto. split; auto. split; [eapply P_specfile24.shifted_trans; eauto|]. intros i Hi. rewrite I1 by lia. apply I2. lia.
Qed.
End Uni.
