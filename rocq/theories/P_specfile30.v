(** Proofs about operations on a whole spec file: lines and sections that are removed and added. *)
From Coq Require Import Ascii String.
From Coq Require Import NArith ZArith List Bool Lia.
From Verif Require P_specfile24.
From Verif Require Import PyStr PyStrFacts Regex RegexFacts M_constants M_options M_value M_macro_definitions Spec_macro_definitions P_macro_definitions P_macro_definitions2
  P_macro_definitions3 M_conditions M_sections Spec_sections P_sections P_sections2 P_sections4 M_tags Spec_tags
  P_tags2 P_tags3 P_tags4 P_tags5 P_context M_specfile Spec_specfile Spec_specfile2 Spec_specfile3 P_specfile P_specfile2 P_specfile5 P_specfile6 P_specfile7 P_specfile10 P_specfile11 P_specfile12 P_specfile13 P_specfile18
  Spec_specfile5 P_specfile27 Spec_specfile6.
Import ListNotations.
Open Scope N_scope.
Open Scope nat_scope.

Section Uni.
Context {U : Unicode}.
Notation own := M_macro_definitions.own_lines.
(** * Blocks, by the places of headers *)
Definition quiet (hdr : nat -> str -> bool) (i : nat) (u : list str) : Prop := forall j z, nth_error u j = Some z -> hdr (i + j) z = false.
Fixpoint marked (hdr : nat -> str -> bool) (i : nat) (bs : list (str * list str)) : Prop :=
  match bs with [] => True | (h, u) :: bs' => hdr i h = true /\ quiet hdr (S i) u /\ marked hdr (S i + length u) bs' end.
Lemma quiet_cons hdr i l u : quiet hdr i (l :: u) <-> hdr i l = false /\ quiet hdr (S i) u.
Proof.
  split.
  - intros Q. split; [specialize (Q 0 l eq_refl); now rewrite Nat.add_0_r in Q|]. intros j z Hz. specialize (Q (S j) z Hz). now rewrite Nat.add_succ_r in Q.
  - intros (A & B) [|j] z Hz; [injection Hz as <-; now rewrite Nat.add_0_r|]. rewrite Nat.add_succ_r. now apply (B j).
Qed.
Lemma blocks_iff hdr : forall L i p bs, blocks_of hdr i L = (p, bs) <-> L = p ++ block_lines bs /\ quiet hdr i p /\ marked hdr (i + length p) bs.
Proof.
  induction L as [|l L IH]; intros i p bs; cbn [blocks_of].
  - split.
    + intros E. injection E as <- <-. repeat split. intros [|j] z; discriminate.
    + intros (E & _ & _). destruct p; [|discriminate]. destruct bs; [reflexivity|discriminate].
  - destruct (blocks_of hdr (S i) L) as [p0 b0] eqn:E0. destruct (hdr i l) eqn:H.
    + apply IH in E0 as (E1 & Q1 & M1). split.
      * intros E. injection E as <- <-. split; [cbn; now rewrite E1|]. split; [intros [|j] z; discriminate|]. cbn [marked length]. rewrite Nat.add_0_r. auto.
      * intros (E & Q & M). destruct p as [|c p].
        -- destruct bs as [|[h u] bs]; [discriminate|]. cbn in E. injection E as <- E. cbn [marked length] in M. rewrite Nat.add_0_r in M. destruct M as (_ & Mq & Mm).
           assert (K : blocks_of hdr (S i) L = (u, bs)) by (apply IH; auto). assert (K0 : blocks_of hdr (S i) L = (p0, b0)) by (apply IH; auto). rewrite K in K0. injection K0 as <- <-. reflexivity.
        -- exfalso. cbn in E. injection E as <- _. apply quiet_cons in Q as [Q _]. congruence.
    + apply IH in E0 as (E1 & Q1 & M1). split.
      * intros E. injection E as <- <-. split; [cbn; now rewrite E1|]. split; [apply quiet_cons; auto|]. cbn [length]. now rewrite Nat.add_succ_r.
      * intros (E & Q & M). destruct p as [|c p].
        -- exfalso. destruct bs as [|[h u] bs]; [discriminate|]. cbn in E. injection E as <- _. cbn [marked length] in M. rewrite Nat.add_0_r in M. destruct M as (M & _). congruence.
        -- cbn in E. injection E as <- E. apply quiet_cons in Q as [_ Q]. cbn [length] in M. rewrite Nat.add_succ_r in M.
           assert (K : blocks_of hdr (S i) L = (p, bs)) by (apply IH; auto). assert (K0 : blocks_of hdr (S i) L = (p0, b0)) by (apply IH; auto). rewrite K in K0. injection K0 as <- <-. reflexivity.
Qed.
Lemma quiet_app hdr i u v : quiet hdr i (u ++ v) <-> quiet hdr i u /\ quiet hdr (i + length u) v.
Proof.
  split.
  - intros Q. split; intros j z Hz.
    + apply Q. rewrite nth_error_app1; auto. apply nth_error_Some. congruence.
    + rewrite <- Nat.add_assoc. apply Q. rewrite nth_error_app2 by lia. now replace (length u + j - length u) with j by lia.
  - intros (A & B) j z Hz. destruct (Nat.lt_ge_cases j (length u)) as [L|L].
    + rewrite nth_error_app1 in Hz by lia. now apply A.
    + rewrite nth_error_app2 in Hz by lia. replace (i + j) with (i + length u + (j - length u)) by lia. now apply B.
Qed.
Lemma marked_app hdr : forall b1 b2 i, marked hdr i (b1 ++ b2) <-> marked hdr i b1 /\ marked hdr (i + length (block_lines b1)) b2.
Proof.
  induction b1 as [|[h u] b1 IH]; intros b2 i; cbn [app marked].
  - cbn. rewrite Nat.add_0_r. tauto.
  - rewrite IH. replace (i + length (block_lines ((h, u) :: b1))) with (S i + length u + length (block_lines b1)); [tauto|]. unfold block_lines. cbn [flat_map fst snd app length]. rewrite app_length. lia.
Qed.
Lemma quiet_ext hdr hdr' i i' u : (forall j z, j < length u -> hdr' (i' + j) z = hdr (i + j) z) -> quiet hdr i u -> quiet hdr' i' u.
Proof. intros H Q j z Hz. rewrite H; [now apply Q|]. apply nth_error_Some. congruence. Qed.
Lemma marked_ext hdr hdr' : forall bs i i', (forall j z, j < length (block_lines bs) -> hdr' (i' + j) z = hdr (i + j) z) -> marked hdr i bs -> marked hdr' i' bs.
Proof.
  induction bs as [|[h u] bs IH]; intros i i' H; cbn [marked]; auto. unfold block_lines in H. cbn [flat_map fst snd app length] in H. rewrite app_length in H. fold (block_lines bs) in H.
  intros (A & B & C). split; [|split].
  - specialize (H 0 h ltac:(lia)). rewrite !Nat.add_0_r in H. now rewrite H.
  - eapply quiet_ext; [|exact B]. intros j z Hj. specialize (H (S j) z ltac:(lia)). now rewrite !Nat.add_succ_r in H.
  - eapply IH; [|exact C]. intros j z Hj. specialize (H (S (length u + j)) z ltac:(lia)). rewrite !Nat.add_succ_r, !Nat.add_assoc in H. exact H.
Qed.

(** * One line *)
(** A line outside of definitions is removed. *)
Theorem drop_any lines x l y : good_file lines -> lines = x ++ l :: y -> ~ in_definition (parse_plain lines) (length x) ->
  let lines' := x ++ y in
  good_file lines' /\ Forall2 shifted (md_data (parse_plain lines)) (md_data (parse_plain lines')) /\
  (forall i, i < length x -> (in_definition (parse_plain lines') i <-> in_definition (parse_plain lines) i)) /\
  (forall i, length x <= i -> (in_definition (parse_plain lines') i <-> in_definition (parse_plain lines) (S i))) /\
  forall rs, excluded_ranges (parse_plain lines) (md_data (parse_plain lines)) = Ok rs -> exists rs', excluded_ranges (parse_plain lines') (md_data (parse_plain lines')) = Ok rs' /\
    (forall i z, i < length x -> header_at rs' i z = header_at rs i z) /\ (forall i z, length x <= i -> header_at rs' i z = header_at rs (S i) z).
Proof.
  intros (Sa & A & TO) E1 B lines'. destruct (P_specfile24.drop_parse x l y) as (Sh & Cv).
  { rewrite <- E1. now apply sane_clean. }
  { now rewrite <- E1. }
  rewrite <- E1 in Sh, Cv. fold lines' in Sh, Cv. apply P_specfile24.shifted_sym in Sh.
  destruct (Cv (fun d => length (own d))) as (D0 & D1); [auto|auto|]. destruct (Cv (fun d => length (split_on LF [] (d_body d)))) as (C0 & C1); [apply body_own|auto|]. clear Cv.
  pose proof (shifted_apart _ _ Sh A) as A'.
  assert (TO' : tags_outside lines').
  { intros j z n' s' v' Hz D Tz. apply defn_cover in D. unfold lines' in Hz. destruct (Nat.lt_ge_cases j (length x)) as [Hj|Hj].
    - rewrite nth_error_app1 in Hz by lia. apply (proj1 (D1 j) Hj) in D. eapply (TO j z); eauto. rewrite E1, nth_error_app1 by lia. exact Hz.
    - apply (proj2 (D1 j)) in D; [|lia]. eapply (TO (S j) z); eauto. rewrite E1, nth_error_app2 in * by lia. replace (S j - length x) with (S (j - length x)) by lia. exact Hz. }
  split; [|split; [exact Sh|split; [|split]]].
  - split; [|split; auto]. unfold lines'. rewrite E1 in Sa. apply Forall_app in Sa as (S1 & S2). apply Forall_app. split; auto. now inversion S2.
  - intros i Hi. rewrite !defn_cover. now apply D1.
  - intros i Hi. rewrite !defn_cover. now apply D1.
  - intros rs Er. destruct (excluded_body _ (apart_distinct _ A)) as (r1 & Q1 & X1). rewrite Er in Q1. injection Q1 as <-. destruct (excluded_body _ (apart_distinct _ A')) as (rs' & Er' & X2). exists rs'. split; [exact Er'|].
    split; intros i z Hi; unfold header_at; f_equal; f_equal; apply eq_true_iff_eq; rewrite X1, X2, !body_cover; now apply C1.
Qed.
(** A line that defines nothing is put between definitions. *)
Theorem insert_any lines x l y : good_file lines -> lines = x ++ y -> sane l -> re_match md_regex l = None -> between_definitions lines (length x) ->
  let lines' := x ++ l :: y in
  good_file lines' /\ Forall2 shifted (md_data (parse_plain lines)) (md_data (parse_plain lines')) /\
  (forall i, i < length x -> (in_definition (parse_plain lines') i <-> in_definition (parse_plain lines) i)) /\
  ~ in_definition (parse_plain lines') (length x) /\
  (forall i, length x <= i -> (in_definition (parse_plain lines') (S i) <-> in_definition (parse_plain lines) i)) /\
  forall rs, excluded_ranges (parse_plain lines) (md_data (parse_plain lines)) = Ok rs -> exists rs', excluded_ranges (parse_plain lines') (md_data (parse_plain lines')) = Ok rs' /\
    (forall i z, i < length x -> header_at rs' i z = header_at rs i z) /\ (forall z, header_at rs' (length x) z = is_header z) /\ (forall i z, length x <= i -> header_at rs' (S i) z = header_at rs i z).
Proof.
  intros (Sa & A & TO) E1 Sl Mn B lines'. destruct (insert_parse x y l) as (Sh & Cv).
  { rewrite <- E1. now apply sane_clean. }
  { exact Mn. }
  { now rewrite <- E1. }
  rewrite <- E1 in Sh, Cv. fold lines' in Sh, Cv.
  destruct (Cv (fun d => length (own d))) as (D0 & D1); [auto|auto|]. destruct (Cv (fun d => length (split_on LF [] (d_body d)))) as (C0 & C1); [apply body_own|auto|]. clear Cv.
  pose proof (shifted_apart _ _ Sh A) as A'.
  assert (TO' : tags_outside lines').
  { intros j z n' s' v' Hz D Tz. apply defn_cover in D. unfold lines' in Hz. destruct (Nat.lt_trichotomy j (length x)) as [Hj|[->|Hj]].
    - rewrite nth_error_app1 in Hz by lia. apply D1 in D; [|lia]. eapply (TO j z); eauto. rewrite E1, nth_error_app1 by lia. exact Hz.
    - contradiction.
    - destruct j as [|j]; [lia|]. apply (proj2 (D1 j)) in D; [|lia]. eapply (TO j z); eauto. rewrite E1, nth_error_app2 in * by lia. replace (S j - length x) with (S (j - length x)) in Hz by lia. exact Hz. }
  split; [|split; [exact Sh|split; [|split; [exact D0|split]]]].
  - split; [|split; auto]. unfold lines'. rewrite E1 in Sa. apply Forall_app in Sa as (S1 & S2). apply Forall_app. split; auto.
  - intros i Hi. rewrite !defn_cover. symmetry. now apply D1.
  - intros i Hi. rewrite !defn_cover. symmetry. now apply D1.
  - intros rs Er. destruct (excluded_body _ (apart_distinct _ A)) as (r1 & Q1 & X1). rewrite Er in Q1. injection Q1 as <-. destruct (excluded_body _ (apart_distinct _ A')) as (rs' & Er' & X2). exists rs'. split; [exact Er'|].
    split; [|split].
    + intros i z Hi; unfold header_at; f_equal; f_equal; apply eq_true_iff_eq; rewrite X1, X2, !body_cover. symmetry. now apply C1.
    + intros z. unfold header_at. destruct (excluded rs' (length x)) eqn:Ex; [|reflexivity]. exfalso. apply X2 in Ex. now apply C0.
    + intros i z Hi; unfold header_at; f_equal; f_equal; apply eq_true_iff_eq; rewrite X1, X2, !body_cover. symmetry. now apply C1.
Qed.

(** * One line, in blocks *)
Lemma blocks_split_at p b1 h a b b2 : p ++ block_lines (b1 ++ (h, a ++ b) :: b2) = (p ++ block_lines b1 ++ h :: a) ++ b ++ block_lines b2.
Proof. unfold block_lines. rewrite flat_map_app. cbn [flat_map fst snd app]. rewrite <- !app_assoc. cbn [app]. now rewrite <- ?app_assoc. Qed.
Lemma blocks_cut_at p b1 (h : str) b2 : p ++ block_lines (b1 ++ (h, []) :: b2) = (p ++ block_lines b1) ++ h :: block_lines b2.
Proof. unfold block_lines. rewrite flat_map_app. cbn [flat_map fst snd app]. now rewrite <- !app_assoc. Qed.
Lemma blocks_join p b1 b2 : p ++ block_lines (b1 ++ b2) = (p ++ block_lines b1) ++ block_lines b2.
Proof. unfold block_lines. rewrite flat_map_app. now rewrite <- !app_assoc. Qed.
(** The first of two consecutive parts keeps its headers, and so does the second one at another place. *)
Definition moved (hdr hdr' : nat -> str -> bool) (n k k' : nat) : Prop :=
  (forall i z, i < n -> hdr' i z = hdr i z) /\ forall i z, hdr' (n + k' + i) z = hdr (n + k + i) z.
Lemma moved_text hdr hdr' p b1 h a c c' b b2 : moved hdr hdr' (length (p ++ block_lines b1 ++ h :: a)) (length c) (length c') -> quiet hdr' (length (p ++ block_lines b1 ++ h :: a)) c' ->
  quiet hdr 0 p /\ marked hdr (length p) (b1 ++ (h, a ++ c ++ b) :: b2) -> quiet hdr' 0 p /\ marked hdr' (length p) (b1 ++ (h, a ++ c' ++ b) :: b2).
Proof.
  intros (M1 & M2) Qc (Q & M). rewrite !app_length in *. cbn [length] in *. split; [eapply quiet_ext; [|exact Q]; intros j z Hj; cbn; apply M1; lia|].
  apply marked_app in M as (Ma & Mb). cbn [marked] in Mb. destruct Mb as (Mh & Mq & Mm). apply quiet_app in Mq as (Mq1 & Mq2). apply quiet_app in Mq2 as (_ & Mq2). rewrite !app_length in Mm. apply marked_app. split.
  { eapply marked_ext; [|exact Ma]. intros j z Hj. apply M1. lia. }
  cbn [marked]. split; [rewrite M1; auto; lia|]. split.
  - apply quiet_app. split; [eapply quiet_ext; [|exact Mq1]; intros j z Hj; apply M1; lia|]. apply quiet_app. split.
    + replace (S (length p + length (block_lines b1)) + length a) with (length p + (length (block_lines b1) + S (length a))) by lia. exact Qc.
    + eapply quiet_ext; [|exact Mq2]. intros j z Hj. specialize (M2 j z).
      replace (S (length p + length (block_lines b1)) + length a + length c' + j) with (length p + (length (block_lines b1) + S (length a)) + length c' + j) by lia.
      replace (S (length p + length (block_lines b1)) + length a + length c + j) with (length p + (length (block_lines b1) + S (length a)) + length c + j) by lia. exact M2.
  - rewrite !app_length. eapply marked_ext; [|exact Mm]. intros j z Hj. specialize (M2 (length b + j) z).
    replace (S (length p + length (block_lines b1)) + (length a + (length c' + length b)) + j) with (length p + (length (block_lines b1) + S (length a)) + length c' + (length b + j)) by lia.
    replace (S (length p + length (block_lines b1)) + (length a + (length c + length b)) + j) with (length p + (length (block_lines b1) + S (length a)) + length c + (length b + j)) by lia. exact M2.
Qed.
Lemma moved_head hdr hdr' p b1 c c' b2 : moved hdr hdr' (length (p ++ block_lines b1)) (length (block_lines c)) (length (block_lines c')) -> marked hdr' (length (p ++ block_lines b1)) c' ->
  quiet hdr 0 p /\ marked hdr (length p) (b1 ++ c ++ b2) -> quiet hdr' 0 p /\ marked hdr' (length p) (b1 ++ c' ++ b2).
Proof.
  intros (M1 & M2) Qc (Q & M). rewrite !app_length in *. cbn [length] in *. split; [eapply quiet_ext; [|exact Q]; intros j z Hj; cbn; apply M1; lia|].
  apply marked_app in M as (Ma & Mb). apply marked_app in Mb as (_ & Mb). apply marked_app. split; [|apply marked_app; split; [exact Qc|]].
  { eapply marked_ext; [|exact Ma]. intros j z Hj. apply M1. lia. }
  eapply marked_ext; [|exact Mb]. intros j z Hj. apply M2.
Qed.
Lemma front_iff lines p bs : front lines p bs <-> exists rs, excluded_ranges (parse_plain lines) (md_data (parse_plain lines)) = Ok rs /\ lines = p ++ block_lines bs /\ quiet (header_at rs) 0 p /\ marked (header_at rs) (length p) bs.
Proof. split; intros (rs & E & B); exists rs; split; auto; now apply blocks_iff in B. Qed.

Theorem drop_text lines p b1 h a l b b2 : good_file lines -> front lines p (b1 ++ (h, a ++ l :: b) :: b2) -> ~ in_definition (parse_plain lines) (length (p ++ block_lines b1 ++ h :: a)) ->
  let lines' := p ++ block_lines (b1 ++ (h, a ++ b) :: b2) in let n := length (p ++ block_lines b1 ++ h :: a) in
  good_file lines' /\ front lines' p (b1 ++ (h, a ++ b) :: b2) /\ Forall2 shifted (md_data (parse_plain lines)) (md_data (parse_plain lines')) /\
  (forall i, i < n -> (in_definition (parse_plain lines') i <-> in_definition (parse_plain lines) i)) /\ (in_definition (parse_plain lines') n <-> in_definition (parse_plain lines) (S n)).
Proof.
  intros G Fr B lines' n. pose proof (front_lines _ _ _ Fr) as El. unfold lines'. rewrite blocks_split_at. change (l :: b) with ([l] ++ b) in *. rewrite blocks_split_at in El. cbn [app] in El.
  destruct (drop_any lines _ l _ G El B) as (G' & Sh & I1 & I2 & Hr). split; [exact G'|]. split; [|split; [exact Sh|split; [exact I1|apply I2; apply le_n]]].
  apply front_iff in Fr as (rs & Er & _ & Q & M). destruct (Hr rs Er) as (rs' & Er' & H1 & H2). apply front_iff. exists rs'. split; [exact Er'|]. split; [now rewrite blocks_split_at|].
  change (a ++ b) with (a ++ [] ++ b). eapply moved_text; [| |split; [exact Q|exact M]]; [split; [exact H1|]|].
  - intros i z. cbn [length]. rewrite H2 by lia. f_equal. lia.
  - intros [|j] z; discriminate.
Qed.
Theorem drop_head lines p b1 h b2 : good_file lines -> front lines p (b1 ++ (h, []) :: b2) -> ~ in_definition (parse_plain lines) (length (p ++ block_lines b1)) ->
  let lines' := p ++ block_lines (b1 ++ b2) in let n := length (p ++ block_lines b1) in
  good_file lines' /\ front lines' p (b1 ++ b2) /\ Forall2 shifted (md_data (parse_plain lines)) (md_data (parse_plain lines')) /\
  (forall i, i < n -> (in_definition (parse_plain lines') i <-> in_definition (parse_plain lines) i)) /\ (in_definition (parse_plain lines') n <-> in_definition (parse_plain lines) (S n)).
Proof.
  intros G Fr B lines' n. pose proof (front_lines _ _ _ Fr) as El. unfold lines'. rewrite blocks_join. rewrite blocks_cut_at in El.
  destruct (drop_any lines _ h _ G El B) as (G' & Sh & I1 & I2 & Hr). split; [exact G'|]. split; [|split; [exact Sh|split; [exact I1|apply I2; apply le_n]]].
  apply front_iff in Fr as (rs & Er & _ & Q & M). destruct (Hr rs Er) as (rs' & Er' & H1 & H2). apply front_iff. exists rs'. split; [exact Er'|]. split; [now rewrite blocks_join|].
  change (b1 ++ b2) with (b1 ++ [] ++ b2). eapply (moved_head _ _ p b1 [(h, [])] [] b2); [|exact I|split; [exact Q|exact M]]. split; [exact H1|].
  intros i z. cbn [length block_lines flat_map app fst snd]. rewrite H2 by lia. f_equal. lia.
Qed.
Theorem add_text lines p b1 h a l b b2 : good_file lines -> front lines p (b1 ++ (h, a ++ b) :: b2) -> text_line l -> between_definitions lines (length (p ++ block_lines b1 ++ h :: a)) ->
  let lines' := p ++ block_lines (b1 ++ (h, a ++ l :: b) :: b2) in let n := length (p ++ block_lines b1 ++ h :: a) in
  good_file lines' /\ front lines' p (b1 ++ (h, a ++ l :: b) :: b2) /\ Forall2 shifted (md_data (parse_plain lines)) (md_data (parse_plain lines')) /\
  (forall i, i < n -> (in_definition (parse_plain lines') i <-> in_definition (parse_plain lines) i)) /\ ~ in_definition (parse_plain lines') n.
Proof.
  intros G Fr T B lines' n. destruct (insert_text lines p b1 h a b b2 l G Fr T B) as (A1 & A2 & A3 & A4 & A5). do 3 (split; [assumption|]). split; [|assumption]. intros i Hi. symmetry. now apply A5.
Qed.
Theorem add_head lines p b1 h b2 : good_file lines -> front lines p (b1 ++ b2) -> sane h -> re_match md_regex h = None -> is_header h = true -> between_definitions lines (length (p ++ block_lines b1)) ->
  let lines' := p ++ block_lines (b1 ++ (h, []) :: b2) in let n := length (p ++ block_lines b1) in
  good_file lines' /\ front lines' p (b1 ++ (h, []) :: b2) /\ Forall2 shifted (md_data (parse_plain lines)) (md_data (parse_plain lines')) /\
  (forall i, i < n -> (in_definition (parse_plain lines') i <-> in_definition (parse_plain lines) i)) /\ ~ in_definition (parse_plain lines') n /\ (in_definition (parse_plain lines') (S n) <-> in_definition (parse_plain lines) n).
Proof.
  intros G Fr Sh Mn Hh B lines' n. pose proof (front_lines _ _ _ Fr) as El. unfold lines'. rewrite blocks_cut_at. rewrite blocks_join in El.
  destruct (insert_any lines _ h _ G El Sh Mn B) as (G' & Sf & I1 & I2 & I3 & Hr). split; [exact G'|]. split; [|split; [exact Sf|split; [exact I1|split; [exact I2|now apply I3]]]].
  apply front_iff in Fr as (rs & Er & _ & Q & M). destruct (Hr rs Er) as (rs' & Er' & H1 & H0 & H2). apply front_iff. exists rs'. split; [exact Er'|]. split; [now rewrite blocks_cut_at|].
  change ((h, []) :: b2) with ([(h, [])] ++ b2). apply (moved_head (header_at rs) _ p b1 [] [(h, [])] b2); [|cbn [marked]; split; [now rewrite H0|split; [intros [|j] z; discriminate|exact I]]|split; [exact Q|exact M]]. split; [exact H1|].
  intros i z. cbn [length block_lines flat_map app fst snd]. replace (length (p ++ block_lines b1) + 1 + i) with (S (length (p ++ block_lines b1) + 0 + i)) by lia. apply H2. lia.
Qed.

(** * Contents and blocks *)
Notation keeps lines lines' n := (forall i, i <= n -> (in_definition (parse_plain lines') i <-> in_definition (parse_plain lines) i)).
Theorem edit_text h p b1 b2 : forall u u', lines_edited u u' -> forall lines a, good_file lines -> front lines p (b1 ++ (h, a ++ u) :: b2) ->
  (forall i, length (p ++ block_lines b1) <= i <= length (p ++ block_lines (b1 ++ [(h, a ++ u)])) -> ~ in_definition (parse_plain lines) i) ->
  let lines' := p ++ block_lines (b1 ++ (h, a ++ u') :: b2) in
  good_file lines' /\ front lines' p (b1 ++ (h, a ++ u') :: b2) /\ Forall2 shifted (md_data (parse_plain lines)) (md_data (parse_plain lines')) /\ keeps lines lines' (length (p ++ block_lines b1 ++ h :: a)).
Proof.
  induction 1 as [|l u u' H IH|l u u' H IH|l u u' T H IH]; intros lines a G Fr B lines'.
  - unfold lines'. rewrite <- (front_lines _ _ _ Fr). split; auto. split; auto. split; [apply shifted_refl|tauto].
  - destruct (IH lines (a ++ [l]) G) as (A1 & A2 & A3 & A4); [now rewrite <- app_assoc|now rewrite <- app_assoc|]. rewrite <- !app_assoc in *. cbn [app] in *. do 3 (split; [assumption|]). intros i Hi. apply A4. rewrite !app_length in *. cbn [length] in *. rewrite app_length. lia.
  - assert (Bn : forall i, length (p ++ block_lines b1) <= i <= S (length (p ++ block_lines b1 ++ h :: a)) -> ~ in_definition (parse_plain lines) i).
    { intros i Hi. apply B. split; [lia|]. unfold block_lines in *. rewrite flat_map_app. cbn [flat_map fst snd app]. rewrite !app_length in *. cbn [length] in *. rewrite !app_length in *. cbn [length]. lia. }
    destruct (IH lines (a ++ [l]) G) as (A1 & A2 & A3 & A4); [now rewrite <- app_assoc|now rewrite <- app_assoc|]. rewrite <- !app_assoc in *. cbn [app] in *.
    assert (Ln : length (p ++ block_lines b1 ++ h :: a ++ [l]) = S (length (p ++ block_lines b1 ++ h :: a))) by (rewrite !app_length; cbn [length]; rewrite app_length; cbn [length]; lia). rewrite Ln in A4.
    assert (Lb : length (p ++ block_lines b1) <= length (p ++ block_lines b1 ++ h :: a)) by (rewrite !app_length; lia).
    destruct (drop_text _ p b1 h a l u' b2 A1 A2) as (B1 & B2 & B3 & B4 & B5).
    { rewrite A4 by lia. apply Bn. lia. }
    cbv zeta in *. unfold lines'. do 2 (split; [assumption|]). split; [eapply P_specfile24.shifted_trans; eauto|]. intros i Hi. apply Nat.lt_eq_cases in Hi as [Hi| ->].
    + rewrite B4 by assumption. apply A4. lia.
    + rewrite B5, A4 by lia. split; intros Q; exfalso; revert Q; apply Bn; lia.
  - destruct (IH lines a G Fr B) as (A1 & A2 & A3 & A4).
    assert (Lb : length (p ++ block_lines b1) < length (p ++ block_lines b1 ++ h :: a)) by (rewrite !app_length; cbn [length]; lia).
    assert (Bn : forall i, length (p ++ block_lines b1) <= i <= length (p ++ block_lines b1 ++ h :: a) -> ~ in_definition (parse_plain lines) i).
    { intros i Hi. apply B. split; [lia|]. unfold block_lines in *. rewrite flat_map_app. cbn [flat_map fst snd app]. rewrite !app_length in *. cbn [length] in *. rewrite !app_length in *. cbn [length]. lia. }
    destruct (add_text _ p b1 h a l u' b2 A1 A2 T) as (B1 & B2 & B3 & B4 & B5).
    { apply free_between.
      - rewrite A4 by lia. apply Bn. lia.
      - intros _ r Er. rewrite A4 by lia. apply Bn. lia. }
    cbv zeta in *. unfold lines'. do 2 (split; [assumption|]). split; [eapply P_specfile24.shifted_trans; eauto|]. intros i Hi. apply Nat.lt_eq_cases in Hi as [Hi| ->].
    + rewrite B4 by assumption. apply A4. lia.
    + split; intros Q; exfalso; [contradiction|]. revert Q. apply Bn. lia.
Qed.
Definition fresh_block (b : str * list str) : Prop := sane (fst b) /\ re_match md_regex (fst b) = None /\ is_header (fst b) = true /\ Forall text_line (snd b).
Inductive blocks_edited (busy : nat -> Prop) : nat -> list (str * list str) -> list (str * list str) -> Prop :=
| BE_nil n : blocks_edited busy n [] []
| BE_keep n h u r r' : blocks_edited busy (n + S (length u)) r r' -> blocks_edited busy n ((h, u) :: r) ((h, u) :: r')
| BE_edit n h u u' r r' : (forall i, n <= i <= n + S (length u) -> ~ busy i) -> lines_edited u u' -> blocks_edited busy (n + S (length u)) r r' -> blocks_edited busy n ((h, u) :: r) ((h, u') :: r')
| BE_drop n h u r r' : (forall i, n <= i <= n + S (length u) -> ~ busy i) -> blocks_edited busy (n + S (length u)) r r' -> blocks_edited busy n ((h, u) :: r) r'
| BE_add n b r r' : (forall i, n - 1 <= i <= n -> ~ busy i) -> fresh_block b -> blocks_edited busy n r r' -> blocks_edited busy n r (b :: r').
Lemma all_dropped u : lines_edited u [].
Proof. induction u; constructor; auto. Qed.
Lemma all_added u : Forall text_line u -> lines_edited [] u.
Proof. induction 1; constructor; auto. Qed.
Lemma len_snoc p b0 (h : str) (u : list str) : length (p ++ block_lines (b0 ++ [(h, u)])) = length (p ++ block_lines b0) + S (length u).
Proof. unfold block_lines. rewrite flat_map_app, !app_length. cbn [flat_map fst snd app length]. rewrite app_nil_r. lia. Qed.
Theorem edit_blocks lines p : good_file lines -> forall n r r', blocks_edited (in_definition (parse_plain lines)) n r r' -> forall b0, n = length (p ++ block_lines b0) -> front lines p (b0 ++ r) ->
  let lines' := p ++ block_lines (b0 ++ r') in
  good_file lines' /\ front lines' p (b0 ++ r') /\ Forall2 shifted (md_data (parse_plain lines)) (md_data (parse_plain lines')) /\ keeps lines lines' n.
Proof.
  intros G n r r' E. induction E as [n|n h u r r' E IH|n h u u' r r' B Ed E IH|n h u r r' B E IH|n [h u] r r' B Fb E IH]; intros b0 -> Fr lines'.
  - unfold lines'. rewrite <- (front_lines _ _ _ Fr). split; auto. split; auto. split; [apply shifted_refl|tauto].
  - destruct (IH (b0 ++ [(h, u)])) as (A1 & A2 & A3 & A4); [symmetry; apply len_snoc|now rewrite <- app_assoc|]. rewrite <- !app_assoc in *. cbn [app] in *. do 3 (split; [assumption|]). intros i Hi. apply A4. lia.
  - destruct (IH (b0 ++ [(h, u)])) as (A1 & A2 & A3 & A4); [symmetry; apply len_snoc|now rewrite <- app_assoc|]. rewrite <- !app_assoc in *. cbn [app] in *.
    destruct (edit_text h p b0 r' u u' Ed _ [] A1 A2) as (B1 & B2 & B3 & B4).
    { cbn [app]. rewrite len_snoc. intros i Hi. rewrite A4 by lia. apply B. lia. }
    cbn [app] in *. unfold lines'. do 2 (split; [assumption|]). split; [eapply P_specfile24.shifted_trans; eauto|]. intros i Hi. rewrite B4; [apply A4; lia|]. rewrite !app_length in *. cbn [length]. lia.
  - destruct (IH (b0 ++ [(h, u)])) as (A1 & A2 & A3 & A4); [symmetry; apply len_snoc|now rewrite <- app_assoc|]. rewrite <- !app_assoc in *. cbn [app] in *.
    destruct (edit_text h p b0 r' u [] (all_dropped u) _ [] A1 A2) as (B1 & B2 & B3 & B4).
    { cbn [app]. rewrite len_snoc. intros i Hi. rewrite A4 by lia. apply B. lia. }
    cbn [app] in *. assert (Ln : length (p ++ block_lines b0 ++ [h]) = S (length (p ++ block_lines b0))) by (rewrite !app_length; cbn [length]; lia). rewrite Ln in B4.
    destruct (drop_head _ p b0 h r' B1 B2) as (C1 & C2 & C3 & C4 & C5).
    { rewrite B4, A4 by lia. apply B. lia. }
    cbv zeta in *. unfold lines'. do 2 (split; [assumption|]). split; [eapply P_specfile24.shifted_trans; [|exact C3]; eapply P_specfile24.shifted_trans; eauto|]. intros i Hi. apply Nat.lt_eq_cases in Hi as [Hi| ->].
    + rewrite C4, B4, A4 by lia. tauto.
    + rewrite C5, B4, A4 by lia. split; intros Q; exfalso; revert Q; apply B; lia.
  - destruct Fb as (Sh & Mn & Hh & Tu). cbn [fst snd] in *. destruct (IH b0 eq_refl Fr) as (A1 & A2 & A3 & A4). cbv zeta in *.
    destruct (add_head _ p b0 h r' A1 A2 Sh Mn Hh) as (B1 & B2 & B3 & B4 & B5 & B6).
    { apply free_between.
      - rewrite A4 by lia. apply B. lia.
      - intros _ q Eq. rewrite A4 by lia. apply B. lia. }
    cbv zeta in *.
    assert (K : forall i, i <= length (p ++ block_lines b0) -> (in_definition (parse_plain (p ++ block_lines (b0 ++ (h, []) :: r'))) i <-> in_definition (parse_plain lines) i)).
    { intros i Hi. apply Nat.lt_eq_cases in Hi as [Hi| ->].
      + rewrite B4 by assumption. apply A4. lia.
      + split; intros Q; exfalso; [contradiction|]. revert Q. apply B. lia. }
    destruct (edit_text h p b0 r' [] u (all_added u Tu) _ [] B1 B2) as (C1 & C2 & C3 & C4).
    { cbn [app]. rewrite len_snoc. cbn [length]. intros i Hi. destruct (Nat.eq_dec i (length (p ++ block_lines b0))) as [->|]; [exact B5|]. replace i with (S (length (p ++ block_lines b0))) by lia. rewrite B6, A4 by lia. apply B. lia. }
    cbn [app] in *. unfold lines'. do 2 (split; [assumption|]). split; [eapply P_specfile24.shifted_trans; [|exact C3]; eapply P_specfile24.shifted_trans; eauto|]. intros i Hi. rewrite C4; [now apply K|]. rewrite !app_length in *. cbn [length]. lia.
Qed.
End Uni.
