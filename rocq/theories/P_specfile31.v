(** Proofs about operations on a whole spec file: sections that are edited, removed and added. *)
From Coq Require Import Ascii String.
From Coq Require Import NArith ZArith List Bool Lia.
From Verif Require P_specfile24.
From Verif Require Import PyStr PyStrFacts Regex RegexFacts M_constants M_options M_value M_macro_definitions Spec_macro_definitions P_macro_definitions P_macro_definitions2
  P_macro_definitions3 M_conditions M_sections Spec_sections P_sections P_sections2 P_sections4 M_tags Spec_tags
  P_tags2 P_tags3 P_tags4 P_tags5 P_context M_specfile Spec_specfile Spec_specfile2 Spec_specfile3 P_specfile P_specfile2 P_specfile5 P_specfile6 P_specfile7 P_specfile10 P_specfile11 P_specfile12 P_specfile13 P_specfile18
  P_specfile15 P_specfile21 Spec_specfile5 P_specfile27 P_specfile28 Spec_specfile6 P_specfile30.
Import ListNotations.
Open Scope N_scope.
Open Scope nat_scope.

Section Uni.
Context {U : Unicode}.
Notation made_of := (Forall2 (fun b s => sec_of b = Ok s)).
Notation raw_of := (Forall2 (fun b s => section_raw s = fst b :: snd b)).
Lemma raws lines p : Forall sane lines -> forall bs ss b0 s0, front lines p (b0 ++ bs) -> Forall (fun b => plain_head (fst b)) (b0 ++ bs) -> made_of b0 s0 -> made_of bs ss -> raw_of bs ss.
Proof.
  intros Sn. induction bs as [|b bs IH]; intros ss b0 s0 Fr P M0 M; inversion M as [|? s ? ss' Hs M']; subst; constructor.
  - pose proof (made_raw _ _ _ b0 (b :: bs) s0 (s :: ss') Sn Fr P eq_refl M0 M) as R1.
    assert (M1 : made_of (b0 ++ [b]) (s0 ++ [s])) by (apply Forall2_app; auto).
    pose proof (made_raw _ _ _ (b0 ++ [b]) bs (s0 ++ [s]) ss' Sn Fr P ltac:(now rewrite <- app_assoc) M1 M') as R2.
    unfold sections_raw, block_lines in *. rewrite !flat_map_app, R1 in R2. apply app_inv_head in R2. cbn [flat_map] in R2. now rewrite !app_nil_r in R2.
  - apply (IH ss' (b0 ++ [b]) (s0 ++ [s])); auto; [now rewrite <- app_assoc|now rewrite <- app_assoc|]. apply Forall2_app; auto.
Qed.
Lemma from_blocks_length {W} (e : bool -> W -> str -> result str * W) : forall bs skip w ss w', from_blocks e skip w bs = (Ok ss, w') -> length ss = length bs.
Proof.
  induction bs as [|[h u] bs IH]; intros skip w ss w'; cbn [from_blocks fst snd]; [intros E; injection E as <- _; reflexivity|].
  destruct (split_id e skip w (tl h)) as [[r skip'] w1]. destruct r as [[[[[n o] d] sep] c]|x]; [|discriminate]. destruct (make_section n o d sep (c ++ u)) as [s|x]; [|discriminate].
  destruct (from_blocks e skip' w1 bs) as [[l|x] w2] eqn:E; [|discriminate]. intros Q. injection Q as <- _. cbn [length]. f_equal. eapply IH; eauto.
Qed.
Lemma no_keyword l : ~ In LF l -> ~ mentions_keyword l -> re_match md_regex l = None /\ ~ dnl_hash_escaped l.
Proof.
  intros NL K. split.
  - destruct (re_match md_regex l) as [m|] eqn:M; auto. exfalso. apply K. destruct (md_match _ _ NL M) as (w0 & dn & sc & k & w1 & nm & w2 & body & w3 & S). exists (w0 ++ dn ++ sc), k, (w1 ++ nm ++ w2 ++ body ++ w3).
    split; [apply (sh_k _ _ _ _ _ _ _ _ _ _ _ S)|]. rewrite (sh_line _ _ _ _ _ _ _ _ _ _ _ S), <- !app_assoc. reflexivity.
  - intros D. apply K. destruct D as (w & x & k & y & _ & Hk & _ & ->). exists (w ++ lit "%dnl" ++ x ++ [PCT; PCT]), k, y. split; [exact Hk|]. now rewrite <- !app_assoc.
Qed.
Lemma fresh_made s : fresh_section s -> exists b, fresh_block b /\ plain_head (fst b) /\ section_raw s = fst b :: snd b /\ sec_of b = Ok s.
Proof.
  intros (h & Er & Td & K & Hh & Ph & T & top & (Np & Nd) & Rd). pose proof Td as (Nb & Rs & _). assert (NL : ~ In LF h) by now apply no_break_LF. destruct (no_keyword h NL K) as (Mn & Nh). pose proof Hh as Hs. apply header_spec in Hs; auto.
  exists (h, s_data s). cbn [fst snd].
  assert (Pl : plain_head h). { intros a c t E Sc. apply (Ph h a c t); auto. now left. }
  split; [|split; [exact Pl|split; [exact Er|]]].
  - split; [|split; [exact Mn|split; [exact Hs|exact T]]]. cbn [fst]. split; [exact Td|]. split; [exact NL|]. split; [exact Nh|]. intros Tr. exfalso. now apply (no_trailing h).
  - destruct (parse_blocks _ _ _ _ _ (Rd unit (fun _ (_ : unit) t => (Ok t, tt)) tt)) as (rs & p & bs & ss & _ & Eb & El & Es & Ef). injection Es as -> <-. cbn [preamble s_data] in Nd. subst p. cbn [app] in El.
    pose proof (from_blocks_length _ _ _ _ _ _ Ef) as Ln. destruct bs as [|[h0 u0] [|b1 bs]]; try discriminate. unfold block_lines in El. cbn [flat_map fst snd app] in El. rewrite app_nil_r in El. injection El as <- <-.
    apply from_plain in Ef as (M & _); [|constructor; auto|constructor; auto]. now inversion M.
Qed.
Lemma edit_made busy n ss ss' : sections_edited busy n ss ss' -> forall bs, made_of bs ss -> raw_of bs ss -> Forall (fun b => is_header (fst b) = true) bs -> Forall (fun b => plain_head (fst b)) bs ->
  exists bs', blocks_edited busy n bs bs' /\ made_of bs' ss' /\ Forall (fun b => is_header (fst b) = true) bs' /\ Forall (fun b => plain_head (fst b)) bs'.
Proof.
  induction 1 as [n|n s ss ss' E IH|n s d ss ss' B L E IH|n s ss ss' B E IH|n s ss ss' B F E IH]; intros bs M R Hd P.
  - inversion M; subst. exists []. repeat split; constructor.
  - inversion M as [|[h u] ? r ? M1 M2]; subst; inversion R as [|? ? ? ? R1 R2]; subst; inversion Hd as [|? ? Hd1 Hd2]; subst; inversion P as [|? ? P1 P2]; subst. destruct (IH r) as (r' & A1 & A2 & A3 & A4); auto.
    rewrite R1 in A1. cbn [fst snd length] in A1. exists ((h, u) :: r'). split; [constructor; auto|]. repeat split; constructor; auto.
  - inversion M as [|[h u] ? r ? M1 M2]; subst; inversion R as [|? ? ? ? R1 R2]; subst; inversion Hd as [|? ? Hd1 Hd2]; subst; inversion P as [|? ? P1 P2]; subst. destruct (IH r) as (r' & A1 & A2 & A3 & A4); auto.
    rewrite R1 in A1, B. cbn [fst snd length] in A1, B. destruct (sec_of_data _ _ _ M1) as (Du & Dy). rewrite Du in L. exists ((h, d) :: r'). split; [eapply BE_edit; eauto|]. split; [constructor; auto; apply Dy|]. split; constructor; auto.
  - inversion M as [|[h u] ? r ? M1 M2]; subst; inversion R as [|? ? ? ? R1 R2]; subst; inversion Hd as [|? ? Hd1 Hd2]; subst; inversion P as [|? ? P1 P2]; subst. destruct (IH r) as (r' & A1 & A2 & A3 & A4); auto.
    rewrite R1 in A1, B. cbn [fst snd length] in A1, B. exists r'. split; [apply BE_drop; auto|]. auto.
  - destruct (IH bs) as (r' & A1 & A2 & A3 & A4); auto. destruct (fresh_made s F) as (b & Fb & Pb & _ & Mb). exists (b :: r'). split; [apply BE_add; auto|]. split; [constructor; auto|]. split; constructor; auto. apply Fb.
Qed.
Lemma edited_lines u u' : lines_edited u u' -> forall l, In l u' -> In l u \/ text_line l.
Proof. induction 1 as [|l0 u u' H IH|l0 u u' H IH|l0 u u' T H IH]; intros l Hl; auto. - destruct Hl as [->|Hl]; [left; now left|]. destruct (IH l Hl); [left; now right|auto]. - destruct (IH l Hl); [left; now right|auto]. - destruct Hl as [->|Hl]; auto. Qed.
Lemma edited_block_lines busy n bs bs' : blocks_edited busy n bs bs' -> forall l, In l (block_lines bs') -> In l (block_lines bs) \/ text_line l \/ In l (map fst bs').
Proof.
  unfold block_lines. induction 1 as [n|n h u r r' E IH|n h u u' r r' B Ed E IH|n h u r r' B E IH|n [h u] r r' B Fb E IH]; cbn [flat_map fst snd map app]; intros l Hl; auto.
  - destruct Hl as [->|Hl]; [left; now left|]. apply in_app_or in Hl as [Hl|Hl]; [left; right; apply in_or_app; now left|]. destruct (IH l Hl) as [K|[K|K]]; [left; right; apply in_or_app; now right|auto|right; right; now right].
  - destruct Hl as [->|Hl]; [left; now left|]. apply in_app_or in Hl as [Hl|Hl].
    + destruct (edited_lines _ _ Ed _ Hl) as [K|K]; auto. left. right. apply in_or_app. now left.
    + destruct (IH l Hl) as [K|[K|K]]; [left; right; apply in_or_app; now right|auto|right; right; now right].
  - destruct (IH l Hl) as [K|[K|K]]; [left; right; apply in_or_app; now right|auto|auto].
  - destruct Hl as [->|Hl]; [right; right; now left|]. apply in_app_or in Hl as [Hl|Hl].
    + destruct Fb as (_ & _ & _ & T). rewrite Forall_forall in T. auto.
    + destruct (IH l Hl) as [K|[K|K]]; auto. right. right. now right.
Qed.
Theorem edited_read lines top ss ss' : regular_file lines -> plain_headers lines -> reads_sections lines (top :: ss) -> sections_edited (in_definition (parse_plain lines)) (length (section_raw top)) ss ss' ->
  let lines' := sections_raw (top :: ss') in
  regular_file lines' /\ plain_headers lines' /\ same_macros (parse_plain lines) (parse_plain lines') /\ reads_sections lines' (top :: ss') /\ same_tags_read lines lines'.
Proof.
  intros R P E G lines'. destruct (plain_reads _ _ _ _ _ R P (E unit (fun _ (_ : unit) t => (Ok t, tt)) tt)) as (_ & p & bs & s0 & Fr & Es & M). injection Es as -> <-. apply regular_good in R. pose proof (proj1 R) as Sn.
  destruct (plain_blocks _ _ _ Sn P Fr) as (H & Pl). pose proof (raws lines p Sn bs ss [] [] Fr Pl (Forall2_nil _) M) as Rw.
  assert (Lp : length (section_raw (preamble p)) = length p). { pose proof (raw_preamble p []) as Q. unfold sections_raw in Q. cbn [flat_map] in Q. rewrite !app_nil_r in Q. now rewrite Q. }
  rewrite Lp in G. destruct (edit_made _ _ _ _ G bs M Rw H Pl) as (bs' & Ge & M' & H' & Pl').
  destruct (edit_blocks lines p R _ bs bs' Ge []) as (G' & Fr' & Sh & _); [now rewrite app_nil_r|exact Fr|]. cbn [app] in *.
  assert (Rd : sections_raw (preamble p :: ss') = p ++ block_lines bs').
  { rewrite raw_preamble. f_equal. apply (made_raw (p ++ block_lines bs') p bs' bs' [] ss' []); auto; [apply (proj1 G')|now rewrite app_nil_r]. }
  unfold lines'. rewrite Rd. split; [now apply regular_good|]. split.
  { intros l a c t Hl Hh El Sc. apply in_app_or in Hl as [Hl|Hl].
    - apply (P l a c t); auto. rewrite (front_lines _ _ _ Fr). apply in_or_app. now left.
    - destruct (edited_block_lines _ _ _ _ Ge l Hl) as [K|[K|K]].
      + apply (P l a c t); auto. rewrite (front_lines _ _ _ Fr). apply in_or_app. now right.
      + exfalso. now apply K.
      + apply in_map_iff in K as (b & <- & Hb). rewrite Forall_forall in Pl'. now apply (Pl' b Hb a c t). }
  split; [now apply shifted_same|]. split; [now apply (made_reads _ p bs' ss')|]. now apply (same_front _ _ p bs bs').
Qed.

(** * One section *)
Lemma edited_same busy ss : forall n, sections_edited busy n ss ss.
Proof. induction ss; intros n; constructor; auto. Qed.
Lemma edited_one busy s d b : lines_edited (s_data s) d -> forall a n, (forall i, n + length (sections_raw a) <= i <= n + length (sections_raw (a ++ [s])) -> ~ busy i) ->
  sections_edited busy n (a ++ s :: b) (a ++ with_data d s :: b).
Proof.
  intros L. induction a as [|x a IH]; intros n B; cbn [app].
  - apply SE_edit; auto; [|apply edited_same]. intros i Hi. apply B. unfold sections_raw. cbn [app flat_map length]. rewrite app_nil_r. lia.
  - apply SE_keep. apply IH. intros i Hi. apply B. unfold sections_raw in *. cbn [app flat_map]. rewrite !app_length in *. lia.
Qed.
Theorem section_edited lines a s b d : regular_file lines -> plain_headers lines -> reads_sections lines (a ++ s :: b) -> s_nid s <> PREAMBLE -> lines_edited (s_data s) d ->
  (forall i, length (sections_raw a) <= i <= length (sections_raw (a ++ [s])) -> ~ in_definition (parse_plain lines) i) ->
  let lines' := sections_raw (a ++ with_data d s :: b) in
  regular_file lines' /\ plain_headers lines' /\ same_macros (parse_plain lines) (parse_plain lines') /\ reads_sections lines' (a ++ with_data d s :: b) /\ same_tags_read lines lines'.
Proof.
  intros R P E N L B. destruct (plain_reads _ _ _ _ _ R P (E unit (fun _ (_ : unit) t => (Ok t, tt)) tt)) as (_ & p & bs & s0 & _ & Es & _). destruct a as [|top a].
  - exfalso. cbn [app] in Es. injection Es as -> _. now rewrite preamble_nid in N.
  - cbn [app] in *. apply edited_read with (ss := a ++ s :: b); auto. apply edited_one; auto. intros i Hi. apply B. unfold sections_raw in *. cbn [flat_map]. rewrite !app_length in *. lia.
Qed.
Lemma one_more (l : str) a b : text_line l -> lines_edited (a ++ b) (a ++ [l] ++ b).
Proof. intros T. induction a as [|x a IH]; cbn [app]; [apply LE_add; auto; induction b; constructor; auto|now apply LE_keep]. Qed.
Lemma one_less (l : str) a b : lines_edited (a ++ [l] ++ b) (a ++ b).
Proof. induction a as [|x a IH]; cbn [app]; [apply LE_drop; induction b; constructor; auto|now apply LE_keep]. Qed.
End Uni.
