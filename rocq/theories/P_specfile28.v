(** Proofs about operations on a whole spec file: sections that get more lines, changelog entries. *)
From Coq Require Import Ascii String.
From Coq Require Import NArith ZArith List Bool Lia.
From Verif Require P_changelog P_add_entry P_specfile22 P_specfile24.
From Verif Require Import PyStr PyStrFacts Regex RegexFacts M_constants M_options M_value M_macro_definitions Spec_macro_definitions P_macro_definitions P_macro_definitions2
  P_macro_definitions3 M_conditions M_sections Spec_sections P_sections P_sections2 P_sections4 M_tags Spec_tags
  P_tags2 P_tags3 P_tags4 P_tags5 P_context M_specfile Spec_specfile Spec_specfile2 Spec_specfile3 P_specfile P_specfile2 P_specfile5 P_specfile6 P_specfile7 P_specfile10 P_specfile11 P_specfile12 P_specfile13 P_specfile18
  P_specfile15 P_specfile21 M_changelog Spec_changelog M_add_entry Spec_add_entry Spec_specfile5 P_specfile27.
Import ListNotations.
Open Scope N_scope.
Open Scope nat_scope.

Section Uni.
Context {U : Unicode}.
(** * Headers that do not depend on macro expansion *)
Definition plain_head (h : str) : Prop := forall a c t, h = a ++ c :: PCT :: t -> is_space c = true -> ~ nosp t.
Definition plain_id (r : str) : result (str * option opts * str * str * list str) :=
  let! h := header_of (split_spaces false [] r) in let '(n, o, d) := h in Ok (n, o, d, [LF], []).
Lemma plain_split {W} (e : bool -> W -> str -> result str * W) skip w r : plain_head (PCT :: r) -> split_id e skip w r = (plain_id r, skip, w).
Proof.
  intros P. unfold split_id, plain_id. pose proof (alternating_split r) as A. pose proof (split_spaces_concat r false []) as C. cbn [rev app] in C. set (tokens := split_spaces false [] r) in *.
  destruct (Nat.ltb 2 (length tokens) && startswith (last tokens []) [PCT]) eqn:B; [|reflexivity].
  apply andb_true_iff in B as [B1 B2]. apply Nat.ltb_lt in B1. destruct (alternating_pop tokens A B1) as (tk & s & t & Et & At & Ss & Ns & Nt). exfalso.
  assert (Hl : last (tk ++ [s; t]) [] = t) by (change [s; t] with ([s] ++ [t]); now rewrite app_assoc, last_last).
  rewrite Et, Hl in B2. apply startswith_iff in B2 as [t' ->]. cbn [app] in *. destruct (exists_last Ns) as (s' & c & ->).
  apply (P (PCT :: concat tk ++ s') c t').
  - rewrite <- C, Et, concat_app. cbn [concat]. rewrite app_nil_r. cbn [app]. f_equal. rewrite <- !app_assoc. reflexivity.
  - apply Forall_app in Ss as [_ Ss]. now inversion Ss.
  - now inversion Nt.
Qed.
Definition sec_of (b : str * list str) : result section :=
  let! x := plain_id (tl (fst b)) in let '(n, o, d, sep, c) := x in make_section n o d sep (c ++ snd b).
Notation made_of := (Forall2 (fun b s => sec_of b = Ok s)).
Lemma from_plain {W} (e : bool -> W -> str -> result str * W) bs : Forall (fun b => is_header (fst b) = true) bs -> Forall (fun b => plain_head (fst b)) bs -> forall skip w ss w',
  from_blocks e skip w bs = (Ok ss, w') <-> made_of bs ss /\ w' = w.
Proof.
  induction bs as [|[h body] bs IH]; intros H P skip w ss w'; cbn [from_blocks fst snd].
  - split; [intros E; injection E as <- <-; split; [constructor|reflexivity]|]. intros [F ->]. inversion F; subst. reflexivity.
  - inversion H as [|? ? H1 H2]; inversion P as [|? ? P1 P2]; subst. cbn [fst] in *. apply is_header_pct in H1 as (r & ->). cbn [tl].
    rewrite (plain_split e skip w r P1). assert (Sq : sec_of (PCT :: r, body) = let! x := plain_id r in let '(n, o, d, sep, c) := x in make_section n o d sep (c ++ body)) by reflexivity.
    destruct (plain_id r) as [[[[[n o] d] sep] c]|x]; cbn [bind] in Sq.
    2: { split; [discriminate|]. intros [F _]. inversion F; subst. rewrite Sq in *. discriminate. }
    destruct (make_section n o d sep (c ++ body)) as [s|x] eqn:Em.
    2: { split; [discriminate|]. intros [F _]. inversion F; subst. rewrite Sq in *. discriminate. }
    specialize (IH H2 P2 skip w). destruct (from_blocks e skip w bs) as [[l|x] w2].
    + split.
      * intros E. injection E as <- <-. destruct (IH l w2) as [I _]. destruct (I eq_refl) as [I1 ->]. split; [|reflexivity]. constructor; [exact Sq|exact I1].
      * intros [F ->]. inversion F as [|? s' ? ss' Q1 Q2]; subst. rewrite Sq in Q1. injection Q1 as <-. destruct (IH ss' w) as [_ I]. specialize (I (conj Q2 eq_refl)). injection I as -> ->. reflexivity.
    + split; [discriminate|]. intros [F ->]. inversion F as [|? s' ? ss' Q1 Q2]; subst. destruct (IH ss' w) as [_ I]. specialize (I (conj Q2 eq_refl)). discriminate.
Qed.
Lemma plain_id_content r n o d sep c : plain_id r = Ok (n, o, d, sep, c) -> c = [].
Proof. unfold plain_id. destruct (header_of _) as [[[n0 o0] d0]|x]; cbn [bind]; [|discriminate]. intros E. now injection E. Qed.
Lemma sec_of_data h x s : sec_of (h, x) = Ok s -> s_data s = x /\ forall y, sec_of (h, y) = Ok (with_data y s).
Proof.
  unfold sec_of. cbn [fst snd]. destruct (plain_id (tl h)) as [[[[[n o] d] sep] c]|e] eqn:E; cbn [bind]; [|discriminate]. apply plain_id_content in E. subst c. cbn [app].
  unfold make_section. destruct (str_in (lower n) SECTION_NAMES); [|discriminate]. intros Q. injection Q as <-. split; [reflexivity|]. intros y. reflexivity.
Qed.
Lemma parse_front {W} (e : bool -> W -> str -> result str * W) w lines p bs ss w' : front lines p bs -> from_blocks e false w bs = (Ok ss, w') -> M_sections.parse e w lines = (Ok (preamble p :: ss), w').
Proof.
  intros (rs & Er & Eb) Ef. pose proof (blocks_lines _ _ _ _ _ Eb) as El. unfold M_sections.parse. rewrite Er, (starts_blocks rs lines 0 p bs Eb). cbn [plus].
  assert (Hd : hd 0 (block_starts (length p) bs ++ [length lines]) = length p).
  { destruct bs as [|b bs]; [|reflexivity]. cbn. rewrite El. cbn. now rewrite app_nil_r. }
  rewrite Hd. unfold make_section. rewrite lower_preamble. change (str_in PREAMBLE SECTION_NAMES) with true. cbv iota.
  rewrite <- (make_from_blocks e bs p false w), <- El in Ef. rewrite Ef.
  assert (Sl : M_sections.slice 0 (length p) lines = p) by (unfold M_sections.slice; cbn [skipn]; rewrite ?Nat.sub_0_r, El, firstn_app, Nat.sub_diag, firstn_all; cbn [firstn]; apply app_nil_r). now rewrite Sl.
Qed.
(** * Sections that grow *)
Lemma grow_made bs ss : made_of bs ss -> forall ss', Forall2 grown_section ss ss' -> exists bs', Forall2 (fun b b' => b = b' \/ grown b b') bs bs' /\ made_of bs' ss' /\ map fst bs' = map fst bs.
Proof.
  induction 1 as [|[h u] s bs ss Hb _ IH]; intros ss' G; inversion G as [|? s' ? ss0 G1 G2]; subst; [exists []; repeat split; constructor|].
  destruct (IH _ G2) as (bs' & I1 & I2 & I3). destruct (sec_of_data _ _ _ Hb) as (Du & Dy). destruct G1 as [->|(x & new & y & Ed & -> & T)].
  - exists ((h, u) :: bs'). split; [constructor; auto|]. split; [constructor; auto|]. cbn [map]. now rewrite I3.
  - exists ((h, x ++ new ++ y) :: bs'). split; [constructor; auto; right; exists h, x, y, new; rewrite <- Ed, Du; auto|]. split; [constructor; auto; apply Dy|]. cbn [map fst]. now rewrite I3.
Qed.
Lemma made_raw lines p bs b1 b2 ss1 ss2 : Forall sane lines -> front lines p bs -> Forall (fun b => plain_head (fst b)) bs -> bs = b1 ++ b2 -> made_of b1 ss1 -> made_of b2 ss2 -> sections_raw ss1 = block_lines b1.
Proof.
  intros Sn Fr P -> M1 M2. pose proof (front_lines _ _ _ Fr) as El. destruct Fr as (rs & _ & Eb). apply blocks_headers in Eb. apply Forall_app in Eb as [H1 _]. apply Forall_app in P as [P1 _].
  assert (I : forall l, In l (block_lines b1) -> sane l).
  { intros l Hl. rewrite Forall_forall in Sn. apply Sn. rewrite El. unfold block_lines in *. rewrite flat_map_app. apply in_or_app. right. apply in_or_app. now left. }
  assert (Ih : forall b, In b b1 -> In (fst b) (block_lines b1)). { intros b Hb. unfold block_lines. apply in_flat_map. exists b. split; auto. now left. }
  destruct (from_plain (fun _ (_ : unit) t => (Ok t, tt)) b1 H1 P1 false tt ss1 tt) as [_ F]. specialize (F (conj M1 eq_refl)).
  assert (Np : Forall (fun s => s_nid s <> PREAMBLE) ss1).
  { eapply from_blocks_not_preamble; eauto; [eapply Forall_impl; [|exact H1]; intros b; apply is_header_pct|]. apply Forall_forall. intros b Hb. apply I; auto. }
  destruct (from_blocks_raw _ b1 _ _ _ _ F H1) as [_ Q]; auto.
  - apply Forall_forall. intros b Hb. destruct (I (fst b) (Ih b Hb)) as [(Nb & _ & _ & St & _) _]. apply St. rewrite Forall_forall in H1. apply header_spec; [now apply no_break_LF|auto].
  - apply Q. apply Forall_forall. intros l Hl. apply (I l Hl).
Qed.

Lemma plain_blocks lines p bs : Forall sane lines -> plain_headers lines -> front lines p bs -> Forall (fun b => is_header (fst b) = true) bs /\ Forall (fun b => plain_head (fst b)) bs.
Proof.
  intros Sn P Fr. pose proof (front_lines _ _ _ Fr) as El. destruct Fr as (rs & _ & Eb). apply blocks_headers in Eb. split; [exact Eb|]. rewrite Forall_forall in *. intros b Hb a c t.
  assert (Hl : In (fst b) lines). { rewrite El. apply in_or_app. right. unfold block_lines. apply in_flat_map. exists b. split; auto. now left. }
  apply (P (fst b) a c t Hl). apply header_spec; [|auto]. apply no_break_LF. now destruct (Sn _ Hl) as [(Nb & _) _].
Qed.
Lemma plain_reads {W} (e : bool -> W -> str -> result str * W) w lines secs w' : regular_file lines -> plain_headers lines -> M_sections.parse e w lines = (Ok secs, w') ->
  w' = w /\ exists p bs ss, front lines p bs /\ secs = preamble p :: ss /\ made_of bs ss.
Proof.
  intros R P E. apply regular_good in R as (Sn & _). destruct (parse_blocks _ _ _ _ _ E) as (rs & p & bs & ss & Er & Eb & _ & -> & Ef).
  assert (Fr : front lines p bs) by (exists rs; auto). destruct (plain_blocks _ _ _ Sn P Fr) as (H & Pl). apply from_plain in Ef as [M ->]; auto. split; auto. exists p, bs, ss. auto.
Qed.
Lemma made_reads lines p bs ss : Forall (fun b => is_header (fst b) = true) bs -> Forall (fun b => plain_head (fst b)) bs -> front lines p bs -> made_of bs ss -> reads_sections lines (preamble p :: ss).
Proof. intros H P Fr M W e w. eapply parse_front; eauto. apply from_plain; auto. Qed.
Lemma plain_reads_always {W} (e : bool -> W -> str -> result str * W) w lines secs w' : regular_file lines -> plain_headers lines -> M_sections.parse e w lines = (Ok secs, w') -> w' = w /\ reads_sections lines secs.
Proof.
  intros R P E. destruct (plain_reads _ _ _ _ _ R P E) as (-> & p & bs & ss & Fr & -> & M). split; auto. apply regular_good in R as (Sn & _). destruct (plain_blocks _ _ _ Sn P Fr). eapply made_reads; eauto.
Qed.
Lemma heads_Forall (Q : str -> Prop) (bs bs' : list (str * list str)) : map fst bs' = map fst bs -> Forall (fun b => Q (fst b)) bs -> Forall (fun b => Q (fst b)) bs'.
Proof. intros E F. apply Forall_forall. intros b Hb. apply (in_map fst) in Hb. rewrite E in Hb. apply in_map_iff in Hb as (b0 & <- & Hb0). rewrite Forall_forall in F. auto. Qed.
Lemma front_det lines p bs p' bs' : front lines p bs -> front lines p' bs' -> p = p'.
Proof. intros (rs & E & B) (rs' & E' & B'). congruence. Qed.
Lemma same_front lines lines' p bs bs' : front lines p bs -> front lines' p bs' -> same_tags_read lines lines'.
Proof.
  intros Fr Fr' W expand w l w1 ts w' l' w1' ts' R R'. destruct (P_specfile2.read_opens _ _ _ _ _ _ R) as (rest & O & _). destruct (P_specfile2.read_opens _ _ _ _ _ _ R') as (rest' & O' & _).
  destruct (opens_loop _ _ _ _ _ _ O) as (rs & p1 & bs1 & E1 & B1 & _ & T1). destruct (opens_loop _ _ _ _ _ _ O') as (rs' & p2 & bs2 & E2 & B2 & _ & T2).
  assert (p1 = p) as -> by (eapply front_det; [exists rs; eauto|exact Fr]). assert (p2 = p) as -> by (eapply front_det; [exists rs'; eauto|exact Fr']).
  rewrite T1 in T2. injection T2 as T2 _. split.
  - apply (f_equal (@length _)) in T2. now rewrite !map_length in T2.
  - intros i t t' Ht Ht'. apply (map_nth_error unflagged) in Ht, Ht'. rewrite T2, Ht' in Ht. destruct t as [? ? ? ? ? ? ?], t' as [? ? ? ? ? ? ?]. unfold unflagged in Ht. cbn in Ht. injection Ht as -> -> -> -> -> -> . cbn. auto.
Qed.
Theorem sections_grow lines secs secs' : regular_file lines -> plain_headers lines -> reads_sections lines secs -> Forall2 grown_section secs secs' -> hd_error secs' = hd_error secs ->
  free_growth lines secs secs' ->
  let lines' := sections_raw secs' in
  regular_file lines' /\ plain_headers lines' /\ same_macros (parse_plain lines) (parse_plain lines') /\ reads_sections lines' secs' /\ same_tags_read lines lines'.
Proof.
  intros R P E G Hd Fb lines'. destruct (plain_reads _ _ _ _ _ R P (E unit (fun _ (_ : unit) t => (Ok t, tt)) tt)) as (_ & p & bs & ss & Fr & -> & M). apply regular_good in R. pose proof (proj1 R) as Sn.
  destruct (plain_blocks _ _ _ Sn P Fr) as (H & Pl). inversion G as [|? s0 ? ss' _ G2]; subst. cbn [hd_error] in Hd. injection Hd as ->. destruct (grow_made _ _ M _ G2) as (bs' & Gb & M' & Hf).
  destruct (grow_blocks lines p R bs bs' Gb [] Fr) as (G' & Fr' & Sh & _).
  - intros b1 b b2 b1' b' b2' i Eb Eb' L N Hi. cbn [app] in Hi.
    pose proof M as Ma. pose proof M' as Ma'. rewrite Eb in Ma. rewrite Eb' in Ma'. apply Forall2_app_inv_l in Ma as (x & y0 & M1 & M2 & Es). apply Forall2_app_inv_l in Ma' as (x' & y0' & M1' & M2' & Es').
    inversion M2 as [|? s ? y Hs M3]; inversion M2' as [|? s' ? y' Hs' M3']; subst y0 y0'.
    assert (L1 : length x = length x') by (rewrite <- (P_specfile5.Forall2_len _ _ _ M1), <- (P_specfile5.Forall2_len _ _ _ M1'); exact L).
    assert (R1 : sections_raw (preamble p :: x) = p ++ block_lines b1). { rewrite raw_preamble. f_equal. eapply made_raw; eauto. }
    assert (R2 : sections_raw ((preamble p :: x) ++ [s]) = p ++ block_lines (b1 ++ [b])).
    { cbn [app]. rewrite raw_preamble. f_equal. eapply (made_raw lines p bs (b1 ++ [b]) b2 (x ++ [s]) y); eauto; [now rewrite Eb, <- app_assoc|]. apply Forall2_app; auto. }
    apply (Fb (preamble p :: x) s y (preamble p :: x') s' y' i); try (cbn [app length]; congruence).
    + intros ->. apply N. destruct b as [h u], b' as [h' u']. destruct (sec_of_data _ _ _ Hs) as (<- & _). destruct (sec_of_data _ _ _ Hs') as (<- & _). f_equal.
      rewrite Eb, Eb' in Hf. rewrite !map_app in Hf. apply P_specfile22.app_split_len in Hf as [_ Hf]; [|now rewrite !map_length]. cbn [map fst] in Hf. congruence.
    + rewrite R1, R2. exact Hi.
  - cbv zeta in *. cbn [app] in *. pose proof (heads_Forall (fun h => is_header h = true) _ _ Hf H) as H'. pose proof (heads_Forall plain_head _ _ Hf Pl) as Pl'.
    assert (Rd : sections_raw (preamble p :: ss') = p ++ block_lines bs').
    { rewrite raw_preamble. f_equal. apply (made_raw (p ++ block_lines bs') p bs' bs' [] ss' []); auto; [apply (proj1 G')|now rewrite app_nil_r]. }
    unfold lines'. rewrite Rd. split; [now apply regular_good|]. split.
    { intros l a c t Hl Hh El Sc. destruct (is_header l) eqn:Eh.
      2: { apply header_spec in Hh; [congruence|]. apply no_break_LF. destruct G' as (Sn' & _). rewrite Forall_forall in Sn'. now destruct (Sn' _ Hl) as [(Nb & _) _]. }
      clear Eh.
      assert (K : In l lines \/ text_line l).
      { rewrite (front_lines _ _ _ Fr). apply in_app_or in Hl as [Hl|Hl]; [left; apply in_or_app; now left|]. clear - Gb Hl. induction Gb as [|b b' r r' Hb _ IH]; [destruct Hl|].
        unfold block_lines in Hl. cbn [flat_map] in Hl. apply in_app_or in Hl as [Hl|Hl].
        - destruct Hb as [<-|(h & x & y & new & -> & -> & T)].
          + left. apply in_or_app. right. unfold block_lines. cbn [flat_map]. apply in_or_app. now left.
          + cbn [fst snd] in Hl. rewrite Forall_forall in T. destruct Hl as [Hl|Hl].
            * left. apply in_or_app. right. left. exact Hl.
            * apply in_app_or in Hl as [Hl|Hl]; [|apply in_app_or in Hl as [Hl|Hl]; [right; auto|]]; left; apply in_or_app; right; right; apply in_or_app; left; apply in_or_app; auto.
        - destruct (IH Hl) as [K|K]; auto. left. apply in_app_or in K as [K|K]; apply in_or_app; auto. right. unfold block_lines. cbn [flat_map]. apply in_or_app. now right. }
      destruct K as [K|K]; [apply (P l a c t K Hh El Sc)|]. exfalso. now apply K. }
    split; [now apply shifted_same|]. split; [now apply (made_reads _ p bs' ss')|]. now apply (same_front _ _ p bs bs').
Qed.
(** * Changelog entries *)
Lemma split_unique (P : str -> Prop) : forall a a' b b', a ++ b = a' ++ b' -> Forall (fun l => ~ P l) a -> Forall (fun l => ~ P l) a' ->
  (b = [] \/ exists l r, b = l :: r /\ P l) -> (b' = [] \/ exists l r, b' = l :: r /\ P l) -> a = a' /\ b = b'.
Proof.
  induction a as [|x a IH]; intros a' b b' E Fa Fa' Hb Hb'; destruct a' as [|x' a']; cbn [app] in E; auto.
  - exfalso. subst b. inversion Fa'; subst. destruct Hb as [Hb|(l & r & Hb & Pl)]; [discriminate|injection Hb as -> _; contradiction].
  - exfalso. subst b'. inversion Fa; subst. destruct Hb' as [Hb'|(l & r & Hb' & Pl)]; [discriminate|injection Hb' as -> _; contradiction].
  - injection E as <- E. inversion Fa; inversion Fa'; subst. destruct (IH a' b b' E) as (-> & ->); auto.
Qed.
Lemma made_star s h : made s h -> Spec_changelog.header_line h.
Proof. intros (ts & p & a & v & _ & ->). eexists. reflexivity. Qed.
Lemma inserted_entry s h entry d : Spec_changelog.header_line h -> entry_text entry -> Spec_add_entry.inserted h entry (s_data s) d ->
  exists e, header e = h /\ content e = entry /\ M_changelog.parse d = mk_changelog (entries (M_changelog.parse (s_data s)) ++ [e]) (predecessor (M_changelog.parse (s_data s))).
Proof.
  intros Hh ((a0 & l0 & E0 & Nl0) & Ns) (a & b & Ed & Fa & Hd). set (c := M_changelog.parse (s_data s)) in *. destruct (P_changelog.parse_wf (s_data s)) as (Wp & We & Wt). fold c in Wp, We, Wt.
  pose proof (P_changelog.parse_raw (s_data s)) as Rw. fold c in Rw. unfold get_raw_section_data in Rw.
  assert (Hb : b = [] \/ exists l r, b = l :: r /\ Spec_changelog.header_line l) by (destruct Hd as [[-> _]|[(l & r & -> & H) _]]; eauto).
  assert (Ht : flat_map entry_lines (rev (entries c)) = [] \/ exists l r, flat_map entry_lines (rev (entries c)) = l :: r /\ Spec_changelog.header_line l).
  { apply Forall_rev in We. destruct (rev (entries c)) as [|x l]; [now left|right]. inversion We as [|? ? (Hx & _) _]; subst. cbn. eauto. }
  rewrite Ed in Rw. destruct (split_unique _ _ _ _ _ Rw Wp Fa Ht Hb) as (<- & <-).
  set (e := mk_entry h entry match entries c with [] => [] | _ => [[]] end).
  assert (Wf : wf_changelog (append c e)).
  { split; [exact Wp|]. split; [|].
    - cbn [entries append]. apply Forall_app. split; [exact We|]. constructor; [|constructor]. split; [exact Hh|]. split; [|split].
      + cbn [following e]. destruct (entries c); repeat constructor.
      + intros x l E. cbn [content e] in E. rewrite E0 in E. apply app_inj_tail in E as [_ <-]. exact Nl0.
      + intros x l y E Hl. exfalso. cbn [content e] in E. rewrite Forall_forall in Ns. apply (Ns l); auto. rewrite E. apply in_or_app. right. now left.
    - cbn [entries append]. destruct (entries c) as [|x es]; cbn [app tl]; [constructor|]. cbn [tl] in Wt. apply Forall_app. split; [exact Wt|]. constructor; [|constructor]. cbn [content e]. rewrite E0. destruct a0; discriminate. }
  apply P_changelog.raw_parse in Wf. exists e. split; [reflexivity|]. split; [reflexivity|]. change (mk_changelog (entries c ++ [e]) (predecessor c)) with (append c e). rewrite <- Wf. f_equal.
  unfold get_raw_section_data, append. cbn [entries predecessor]. rewrite rev_app_distr. cbn [rev app flat_map]. change (entry_lines e) with (h :: entry ++ match entries c with [] => [] | _ => [[]] end).
  destruct Hd as [[Hn ->]|[(l & r & Hn & Hl) ->]].
  - rewrite Hn. destruct (entries c) as [|x es] eqn:Ee; [now rewrite !app_nil_r|]. exfalso. apply (f_equal (@length _)) in Hn. cbn [rev] in Hn. rewrite flat_map_app, app_length in Hn. cbn [flat_map entry_lines app length] in Hn. lia.
  - destruct (entries c) as [|x es] eqn:Ee; [discriminate|]. cbn [app]. now rewrite <- app_assoc.
Qed.
Lemma extended_grows (good : section -> str -> Prop) entry s s' : (forall h, good s h -> text_line h) -> Forall text_line entry -> extended_by good entry s s' -> grown_section s s'.
Proof.
  intros Gt T [H1 H2]. destruct (P_add_entry.manual_dec s) as [M|M]; [|left; auto]. destruct (H1 M) as (h & d & Gh & -> & (a & b & Ed & _ & Hd)). right.
  assert (Te : text_line []). { apply text_plain; [constructor|reflexivity| |intros r; discriminate]. intros (x & k & y & K & E). destruct K as [->| ->]; destruct x; discriminate. }
  destruct Hd as [[-> ->]|[_ ->]].
  - exists a, (h :: entry), []. rewrite !app_nil_r in *. repeat split; auto.
  - exists a, (h :: entry ++ [[]]), b. split; [exact Ed|]. split; [cbn [app]; now rewrite <- app_assoc|]. constructor; [eauto|]. apply Forall_app. split; auto.
Qed.
Lemma Forall2_weaken {A B} (P Q : A -> B -> Prop) l l' : (forall x y, P x y -> Q x y) -> Forall2 P l l' -> Forall2 Q l l'.
Proof. intros H F. induction F; constructor; auto. Qed.
Theorem entry_added {W} expand surround now parse_expand entry author email ts evr lines (w : W) lines' w' : regular_file lines -> plain_headers lines ->
  add_changelog_entry expand surround now parse_expand entry author email ts evr lines w = (lines', w', Ok tt) ->
  exists secs secs', reads_sections lines secs /\ lines' = sections_raw secs' /\ Forall2 (extended_by made entry) secs secs' /\
    (free_sections manual lines secs -> Forall text_line entry -> Forall2 (extended_by (fun s h => made s h /\ text_line h) entry) secs secs' ->
     regular_file lines' /\ plain_headers lines' /\ same_macros (parse_plain lines) (parse_plain lines') /\ same_tags_read lines lines' /\ reads_sections lines' secs' /\
     (entry_text entry -> Forall2 (new_entry entry) secs secs')).
Proof.
  intros R P E. destruct (P_add_entry.add_text _ _ _ _ _ _ _ _ _ _ _ _ _ E) as (secs & w1 & secs' & Ep & -> & X). destruct (plain_reads_always _ _ _ _ _ R P Ep) as (_ & Rd).
  exists secs, secs'. split; auto. split; auto. split; auto. intros Fs T X2.
  destruct (plain_reads _ _ _ _ _ R P Ep) as (_ & p & bs & ss & Fr & Es & M).
  destruct (sections_grow lines secs secs' R P Rd) as (G1 & G2 & G3 & G4 & G5).
  - eapply Forall2_weaken; [|exact X2]. intros s s'. apply extended_grows; auto. intros h Hh. apply Hh.
  - subst secs. inversion X as [|? s0 ? ss' X1 _]; subst. cbn [hd_error]. f_equal. apply X1. intros [Q _]. rewrite preamble_nid in Q. discriminate.
  - intros x s y x' s' y' i E1 E2 L N Hi. apply (Fs x s y i E1); auto. rewrite E1, E2 in X.
    apply Forall2_app_inv_l in X as (z & z' & X3 & X4 & Q). apply P_specfile22.app_split_len in Q as [<- <-]; [|rewrite <- L; apply (P_specfile5.Forall2_len _ _ _ X3)].
    inversion X4 as [|? ? ? ? [_ X5] _]; subst. destruct (P_add_entry.manual_dec s) as [Q|Q]; auto. exfalso. auto.
  - do 5 (split; [assumption|]). intros Et. eapply Forall2_weaken; [|exact X2]. intros s s' [X3 _] Ms. destruct (X3 Ms) as (h & d & (Hm & _) & -> & Hi).
    destruct (inserted_entry s h entry d (made_star _ _ Hm) Et Hi) as (e & <- & He & Hp). exists e. split; auto.
Qed.
End Uni.
