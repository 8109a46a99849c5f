(** Proofs about operations on a whole spec file: the view of sources. *)
From Coq Require Import Ascii String.
From Coq Require Import NArith ZArith List Bool Lia.
From Verif Require P_value.
From Verif Require Import PyStr PyStrFacts Regex RegexFacts M_constants M_options M_value M_macro_definitions Spec_macro_definitions P_macro_definitions P_macro_definitions2
  P_macro_definitions3 M_conditions P_conditions2 M_sections Spec_sections P_sections P_sections2 P_sections4 M_tags Spec_tags P_tags P_tags2 P_tags3 P_tags4 P_tags5 P_context
  M_sourcelist P_sourcelist M_sources Spec_sources
  M_release M_update M_specfile M_specfile2 Spec_specfile Spec_update Spec_specfile2 Spec_specfile3 P_specfile P_specfile2 P_specfile5 P_specfile6 P_specfile7 P_specfile10 P_specfile11 P_specfile12 P_specfile13 P_specfile18 P_specfile19.
Import ListNotations.
Open Scope N_scope.
Open Scope nat_scope.

Section Uni.
Context {U : Unicode}.
(** Sections of lists. *)
Lemma list_name_sections pt x y : In (lower x) SECTION_NAMES -> x ++ y = list_name pt -> x = list_name pt /\ y = [].
Proof.
  intros Hx Q. assert (K : forall ln, (forall n, n <= length ln -> str_in (lower (firstn n ln)) SECTION_NAMES = true -> n = length ln) -> x ++ y = ln -> x = ln /\ y = []).
  { intros ln H E. assert (Ex : x = firstn (length x) ln) by (rewrite <- E, firstn_app, Nat.sub_diag, firstn_all; cbn; now rewrite app_nil_r).
    assert (Ll : length x <= length ln) by (rewrite <- E, app_length; lia).
    assert (L : length x = length ln) by (apply H; auto; rewrite <- Ex; now apply str_in_iff).
    rewrite L, firstn_all in Ex. split; auto. rewrite Ex in E. rewrite <- (app_nil_r ln) in E at 2. now apply app_inv_head in E. }
  apply K; auto. intros n Hn. destruct pt; (do 11 (destruct n as [|n]; [vm_compute; intros Q1; first [reflexivity|discriminate Q1|cbn in Hn; lia]|])); cbn in Hn; lia.
Qed.
Section Lists.
Context {W : Type} (e : bool -> W -> str -> result str * W).
Lemma list_section pt skip w r n o d sep content skip' w' body s : split_id e skip w r = (Ok (n, o, d, sep, content), skip', w') -> make_section n o d sep (content ++ body) = Ok s ->
  (forall sp t, blank sp -> PCT :: r <> PCT :: list_name pt ++ sp ++ PCT :: t) -> (is_list pt s = true <-> r = list_name pt) /\ (is_list pt s = true -> M_sections.s_data s = body).
Proof.
  intros Es Em Pl. apply split_id_spec in Es as (Nn & text & tail & -> & Ho & Ht). apply make_section_Ok in Em as [Hs ->].
  assert (F : is_list pt (mk_section n (match o with Some o => o | None => mk_opts [] (section_options n) [] end) d sep (content ++ body)) = true -> n = list_name pt /\ d = [] /\ text = [] /\ tail = [] /\ content = []).
  { intros Hl. apply str_eqb_eq in Hl. unfold s_id in Hl. cbn [s_name s_opts] in Hl. apply str_in_iff in Hs. apply (list_name_sections pt) in Hl as (-> & Hl); auto. split; auto.
    assert (d = [] /\ text = []) as [-> ->].
    { destruct Ho as [(-> & -> & ->)|(Sd & Nz & l & Tl & ->)]; auto. apply app_eq_nil in Hl as [Nd _]. unfold s_delim in Nd. cbn [s_opts s_delimiter] in Nd. destruct (options_true _); destruct d; congruence. }
    destruct Ht as [(-> & _ & ->)|(t & -> & B & _)]; auto. exfalso. apply (Pl sep t); auto. }
  split.
  - split; [intros Hl; destruct (F Hl) as (-> & -> & -> & -> & ->); cbn [app]; now rewrite app_nil_r|]. intros E.
    assert (NS : nosp (list_name pt)) by (destruct pt; repeat constructor). rewrite <- E in NS. apply Forall_app in NS as (_ & NS). apply Forall_app in NS as (N1 & NS). apply Forall_app in NS as (_ & N2).
    assert (o = None /\ d = [] /\ text = []) as (-> & -> & ->).
    { destruct Ho as [Ho|(Sd & Nz & _)]; auto. destruct d as [|c d]; [congruence|]. inversion N1; inversion Sd; congruence. }
    assert (tail = []) as ->. { destruct Ht as [(-> & _)|(t & -> & B & Nz & _)]; auto. apply Forall_app in N2 as (N2 & _). destruct sep as [|c sep]; [congruence|]. inversion N2; inversion B; congruence. }
    cbn [app] in E. rewrite app_nil_r in E. subst n. unfold is_list, s_id, s_delim. cbn. apply str_eqb_eq. now rewrite app_nil_r.
  - intros Hl. destruct (F Hl) as (_ & _ & _ & _ & ->). reflexivity.
Qed.
Definition list_block (pt : bool) (b : str * list str) : bool := str_eqb (tl (fst b)) (list_name pt).
Lemma lists_of pt (e' : bool -> W -> str -> result str * W) bs : forall skip w ss w' w0 ls w1, from_blocks e skip w bs = (Ok ss, w') -> Forall (fun b => exists r, fst b = PCT :: r) bs ->
  Forall (fun b => forall sp t, blank sp -> fst b <> PCT :: list_name pt ++ sp ++ PCT :: t) bs -> Forall (fun b => Forall (fun l => ~ In LF l) (snd b)) bs ->
  parse_lists e' pt w0 ss = (Ok ls, w1) -> map (fun l => map e_location (sl_data l)) ls = map (fun b => filter is_entry (snd b)) (filter (list_block pt) bs).
Proof.
  induction bs as [|[h body] bs IH]; intros skip w ss w' w0 ls w1 E Fh Pl Nl P; cbn [from_blocks fst snd] in E.
  { injection E as <- _. cbn in P. injection P as <- _. reflexivity. }
  inversion Fh as [|? ? [r Eh] Fh']; inversion Pl as [|? ? Plh Pl']; inversion Nl as [|? ? Nlh Nl']; subst. cbn [fst snd] in *. subst h. cbn [tl] in E.
  destruct (split_id e skip w r) as [[[[[[[n o] d] sep] content]|x] skip'] w2] eqn:Es; [|discriminate]. destruct (make_section n o d sep (content ++ body)) as [s|] eqn:Em; [|discriminate].
  destruct (from_blocks e skip' w2 bs) as [[l|] w3] eqn:Ef; [|discriminate]. injection E as <- <-.
  destruct (list_section pt _ _ _ _ _ _ _ _ _ _ _ _ Es Em Plh) as (H1 & H2). cbn [parse_lists] in P. unfold list_block at 1. cbn [filter fst tl].
  destruct (is_list pt s) eqn:Hl.
  - destruct (slist_parse e' w0 (M_sections.s_data s)) as [[sl|] w4] eqn:Sp; [|discriminate]. destruct (parse_lists e' pt w4 l) as [[ls'|] w5] eqn:Pp; [|discriminate]. injection P as <- _.
    rewrite (proj2 (str_eqb_eq r (list_name pt)) (proj1 H1 eq_refl)). cbn [map]. rewrite H2 in Sp by auto. rewrite (slist_entries _ _ _ _ _ Nlh Sp). f_equal. eapply IH; eauto.
  - destruct (str_eqb r (list_name pt)) eqn:Q; [apply str_eqb_eq in Q; apply H1 in Q; discriminate|]. eapply IH; eauto.
Qed.
Lemma write_back pt (e' : bool -> W -> str -> result str * W) ss : forall w0 ls w1, Forall (fun s => Forall (fun l => ~ In LF l) (M_sections.s_data s)) ss -> parse_lists e' pt w0 ss = (Ok ls, w1) -> write_lists pt ss ls = ss.
Proof.
  induction ss as [|s ss IH]; intros w0 ls w1 N P; [reflexivity|]. inversion N as [|? ? N0 N']; subst. cbn [parse_lists write_lists] in *. destruct (is_list pt s).
  - destruct (slist_parse e' w0 (M_sections.s_data s)) as [[sl|] w4] eqn:Sp; [|discriminate]. destruct (parse_lists e' pt w4 ss) as [[ls'|] w5] eqn:Pp; [|discriminate]. injection P as <- _.
    rewrite (slist_round_trip _ _ _ _ _ N0 Sp), (IH _ _ _ N' Pp). f_equal. now destruct s.
  - now rewrite (IH _ _ _ N' P).
Qed.
End Lists.

Section World.
Context {W : Type} (expand : list str -> bool -> W -> str -> result str * W).
Definition sopens (pt : bool) (lines : list str) (w : W) (p : list str) (ss : list section) (ts : tags) (ls : list sourcelist) (w1 : W) : Prop :=
  exists w0 wa, M_sections.parse (expand lines) w lines = (Ok (preamble p :: ss), w0) /\ tags_parse (expand lines) TAG_NAMES w0 p = (Ok ts, wa) /\ parse_lists (expand lines) pt wa ss = (Ok ls, w1).
Lemma preamble_no_list pt p : is_list pt (preamble p) = false.
Proof. destruct pt; vm_compute; reflexivity. Qed.
Lemma view_sopens pt dups imp dg lines w p ss ts ls w1 A body : sopens pt lines w p ss ts ls w1 ->
  view_sources (A:=A) expand pt dups imp dg body lines w =
  (let '(s', w2, r) := body (mk_sources ts ls dups imp dg pt) w1 in (tags_raw (s_tags s') ++ sections_raw (write_lists pt ss (s_lists s')), w2, r)).
Proof.
  intros (w0 & wa & P & T & L). unfold view_sources. rewrite P, find_preamble. cbn [nth_error].
  change (M_sections.s_data (preamble p)) with p. rewrite T. cbn [parse_lists]. rewrite preamble_no_list, L. destruct (body _ w1) as [[s' w2] r]. cbn [write_lists]. rewrite preamble_no_list. cbn [update_at].
  change (with_data (tags_raw (s_tags s')) (preamble p)) with (preamble (tags_raw (s_tags s'))). now rewrite raw_preamble.
Qed.
Lemma view_sopens_inv pt dups imp dg lines w A body l2 w2 x : view_sources (A:=A) expand pt dups imp dg body lines w = (l2, w2, Ok x) -> exists p ss ts ls w1, sopens pt lines w p ss ts ls w1.
Proof.
  unfold view_sources. destruct (M_sections.parse (expand lines) w lines) as [[secs|e] w0] eqn:E; [|discriminate]. destruct (parse_blocks _ _ _ _ _ E) as (rs & p & bs & ss & _ & _ & _ & -> & _).
  rewrite find_preamble. cbn [nth_error]. change (M_sections.s_data (preamble p)) with p. destruct (tags_parse (expand lines) TAG_NAMES w0 p) as [[ts|e] wa] eqn:T; [|discriminate].
  cbn [parse_lists]. rewrite preamble_no_list. destruct (parse_lists (expand lines) pt wa ss) as [[ls|e] w1] eqn:L; [|discriminate]. intros _. exists p, ss, ts, ls, w1, w0, wa. auto.
Qed.
Lemma sopens_opens pt lines w p ss ts ls w1 : sopens pt lines w p ss ts ls w1 -> exists wa, opens expand lines w ts wa (sections_raw ss).
Proof. intros (w0 & wa & P & T & L). exists wa. exists p, ss, w0. auto. Qed.
Lemma sopens_data pt lines w p ss ts ls w1 : Forall (fun l => ~ In LF l) lines -> sopens pt lines w p ss ts ls w1 -> Forall (fun s => Forall (fun l => ~ In LF l) (M_sections.s_data s)) ss.
Proof.
  intros N (w0 & wa & P & _). destruct (parse_blocks _ _ _ _ _ P) as (rs & p' & bs & ss' & _ & Eb & El & Es & Fb). injection Es as <- <-.
  assert (Fh : Forall (fun b => exists r, fst b = PCT :: r) bs) by (apply blocks_headers in Eb; eapply Forall_impl; [|exact Eb]; intros b; apply is_header_pct). rewrite El in N. apply Forall_app in N as (_ & N). clear - N Fb Fh.
  pose proof (from_blocks_belongs _ bs _ _ _ _ Fb Fh) as B. assert (Nb : forall b, In b bs -> ~ In LF (fst b) /\ Forall (fun l => ~ In LF l) (snd b)).
  { intros b Hb. unfold block_lines in N. rewrite Forall_forall in N. split; [apply N|apply Forall_forall; intros l Hl; apply N]; apply in_flat_map; exists b; split; auto; [now left|now right]. }
  clear N Fb Fh. induction B as [|b s bs ss H _ IH]; [constructor|]. constructor; [|apply IH; intros; apply Nb; now right]. destruct (Nb b (or_introl eq_refl)) as (N1 & N2). destruct H as (_ & [->|(t & x & -> & E & _)]); auto.
  constructor; auto. rewrite E, in_app_iff in N1. tauto.
Qed.
Lemma tidy_LF lines : Forall tidy_line lines -> Forall (fun l => ~ In LF l) lines.
Proof. intros T. eapply Forall_impl; [|exact T]. intros l (B & _). now apply no_break_LF. Qed.
Lemma sopens_write pt lines w p ss ts ls w1 : Forall tidy_line lines -> sopens pt lines w p ss ts ls w1 -> write_lists pt ss ls = ss /\ tags_raw ts ++ sections_raw ss = lines.
Proof.
  intros T S. split.
  - pose proof (sopens_data _ _ _ _ _ _ _ _ (tidy_LF _ T) S) as D. destruct S as (w0 & wa & _ & _ & L). eapply write_back; eauto.
  - apply sopens_opens in S as (wa & O). eapply tidy_opens; eauto.
Qed.
End World.
End Uni.
