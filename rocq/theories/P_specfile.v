(** Proofs about operations on a whole spec file: reading and setting. *)
From Coq Require Import Ascii String.
From Coq Require Import NArith ZArith List Bool Lia.
From Verif Require Import PyStr PyStrFacts M_constants M_options M_value M_macro_definitions Spec_macro_definitions P_macro_definitions P_macro_definitions2
  M_conditions M_sections Spec_sections P_sections P_sections2 P_sections4 M_tags Spec_tags P_tags P_tags2 P_tags3 P_tags4 P_tags5 P_context
  M_release M_update M_specfile Spec_specfile.
Import ListNotations.
Open Scope N_scope.

Section Uni.
Context {U : Unicode} {W : Type} (expand : list str -> bool -> W -> str -> result str * W).

(** The view of tags is opened on [lines] in world [w]: it shows [ts]; [rest] are the lines of the other sections. *)
Definition opens (lines : list str) (w : W) (ts : tags) (w1 : W) (rest : list str) : Prop :=
  exists p ss w0, M_sections.parse (expand lines) w lines = (Ok (preamble p :: ss), w0) /\
    tags_parse (expand lines) TAG_NAMES w0 p = (Ok ts, w1) /\ rest = sections_raw ss.
Lemma find_preamble p ss : sec_find (preamble p :: ss) PREAMBLE = Ok O.
Proof.
  assert (E : str_eqb (s_nid (preamble p)) (lower PREAMBLE) = true) by (rewrite preamble_nid; vm_compute; reflexivity).
  unfold sec_find. cbn [find_index]. now rewrite E.
Qed.
Lemma raw_preamble p ss : sections_raw (preamble p :: ss) = p ++ sections_raw ss.
Proof. unfold sections_raw. cbn [flat_map]. f_equal. Qed.
Lemma view_opens lines w ts w1 rest A body : opens lines w ts w1 rest ->
  view_tags (A:=A) expand body lines w = (let '(ts', w2, r) := body ts w1 in (tags_raw ts' ++ rest, w2, r)).
Proof.
  intros (p & ss & w0 & E & T & ->). unfold view_tags. rewrite E, find_preamble. cbn [nth_error preamble s_data].
  change (M_sections.s_data (preamble p)) with p. rewrite T. destruct (body ts w1) as [[ts' w2] r]. cbn [update_at].
  change (with_data (tags_raw ts') (preamble p)) with (preamble (tags_raw ts')). now rewrite raw_preamble.
Qed.
Lemma view_cases lines w : (exists ts w1 rest, opens lines w ts w1 rest) \/
  (exists l w' e, forall A body, view_tags (A:=A) expand body lines w = (l, w', Err e)).
Proof.
  destruct (M_sections.parse (expand lines) w lines) as [[secs|e] w0] eqn:E.
  - destruct (parse_blocks _ _ _ _ _ E) as (rs & p & bs & ss & _ & _ & _ & -> & _).
    destruct (tags_parse (expand lines) TAG_NAMES w0 p) as [[ts|e] w1] eqn:T.
    + left. exists ts, w1, (sections_raw ss), p, ss, w0. auto.
    + right. exists (sections_raw (preamble p :: ss)), w1, e. intros A body. unfold view_tags. rewrite E, find_preamble. cbn [nth_error].
      change (M_sections.s_data (preamble p)) with p. now rewrite T.
  - right. exists lines, w0, e. intros A body. unfold view_tags. now rewrite E.
Qed.


(** Tidy files are not changed by being read. *)
Lemma bare_section e skip w r n o d sep content skip' w' body s : split_id (W:=W) e skip w r = (Ok (n, o, d, sep, content), skip', w') ->
  make_section n o d sep body = Ok s -> s_nid s = PREAMBLE -> bare_package (PCT :: r).
Proof.
  intros Es Em Np. apply split_id_spec in Es as (Nn & text & tail & -> & Ho & Ht). apply make_section_Ok in Em as [Hs ->].
  unfold s_nid in Np. cbn [s_name s_opts s_delimiter] in Np.
  assert (P : forall x y, In x SECTION_NAMES -> x ++ y = PREAMBLE -> x = PREAMBLE /\ y = []).
  { intros x y Hx. assert (F : Forall (fun x => firstn (length x) PREAMBLE <> x \/ x = PREAMBLE) SECTION_NAMES).
    { apply Forall_forall. intros z Hz. assert (B : forallb (fun x => negb (str_eqb (firstn (length x) PREAMBLE) x) || str_eqb x PREAMBLE) SECTION_NAMES = true) by (vm_compute; reflexivity).
      rewrite forallb_forall in B. specialize (B z Hz). apply orb_true_iff in B as [B|B]; [left|right; now apply str_eqb_eq].
      apply negb_true_iff in B. now apply str_eqb_neq. }
    rewrite Forall_forall in F. intros Q. destruct (F x Hx) as [Hf|Hf].
    - exfalso. apply Hf. rewrite <- Q, firstn_app, Nat.sub_diag, firstn_all. cbn. apply app_nil_r.
    - split; auto. subst x. rewrite <- (app_nil_r PREAMBLE) in Q at 2. now apply app_inv_head in Q. }
  apply P in Np as [Nl Nd]; [|now apply str_in_iff in Hs].
  assert (d = [] /\ text = []) as [-> ->].
  { destruct Ho as [(-> & -> & ->)|(Sd & Nz & l & Tl & ->)]; auto. apply app_eq_nil in Nd as [Nd _]. unfold s_delim in Nd. cbn [s_opts s_delimiter] in Nd.
    destruct (options_true _); destruct d; congruence. }
  exists n, tail. split; [reflexivity|]. split; [exact Nl|]. destruct Ht as [(-> & _)|(t & -> & B & _)]; [now left|]. right. eauto.
Qed.
Lemma from_blocks_not_preamble e bs : forall skip w ss w', from_blocks (W:=W) e skip w bs = (Ok ss, w') ->
  Forall (fun b => exists r, fst b = PCT :: r) bs -> Forall (fun b => ~ bare_package (fst b)) bs -> Forall (fun s => s_nid s <> PREAMBLE) ss.
Proof.
  induction bs as [|[h body] bs IH]; intros skip w ss w' E F G; cbn [from_blocks fst snd] in E.
  - injection E as <- _. constructor.
  - inversion F as [|? ? [r Eh] F']; inversion G as [|? ? Gh G']; subst. cbn in Eh. subst h. cbn [tl fst] in E, Gh.
    destruct (split_id e skip w r) as [[[[[[[n o] d] sep] content]|x] skip'] w1] eqn:Es; [|discriminate].
    destruct (make_section n o d sep (content ++ body)) as [s|x] eqn:Em; [|discriminate].
    destruct (from_blocks e skip' w1 bs) as [[l|x] w2] eqn:Eb; [|discriminate]. injection E as <- _.
    constructor; [|eapply IH; eauto]. intros Q. apply Gh. eapply bare_section; eauto.
Qed.
Lemma tidy_not_preamble e w lines secs w' : M_sections.parse (W:=W) e w lines = (Ok secs, w') -> Forall tidy_line lines -> Forall (fun s => s_nid s <> PREAMBLE) (tl secs).
Proof.
  intros E T. destruct (parse_blocks _ _ _ _ _ E) as (rs & p & bs & ss & _ & Eb & El & -> & Ef). cbn [tl].
  eapply from_blocks_not_preamble; eauto.
  - apply blocks_headers in Eb. eapply Forall_impl; [|exact Eb]. intros b. apply is_header_pct.
  - rewrite Forall_forall in *. intros b Hb. apply T. rewrite El. apply in_or_app. right. unfold block_lines. apply in_flat_map. exists b. split; auto. now left.
Qed.
Theorem tidy_sections e w lines secs w' : M_sections.parse (W:=W) e w lines = (Ok secs, w') -> Forall tidy_line lines -> sections_raw secs = lines.
Proof.
  intros E T. destruct (sections_round_trip e w lines secs w' E) as [Q _]; auto.
  - eapply Forall_impl; [|exact T]. intros l Hl. apply Hl.
  - eapply Forall_impl; [|exact T]. intros l Hl. apply Hl.
  - eapply tidy_not_preamble; eauto.
Qed.
Lemma tidy_opens lines w ts w1 rest : Forall tidy_line lines -> opens lines w ts w1 rest -> tags_raw ts ++ rest = lines.
Proof.
  intros T (p & ss & w0 & E & Et & ->). pose proof (tidy_sections _ _ _ _ _ E T) as Q. rewrite raw_preamble in Q.
  assert (Tp : Forall tidy_line p). { rewrite <- Q in T. now apply Forall_app in T. }
  rewrite (tags_round_trip_plain (expand lines) w0 p ts w1); auto; eapply Forall_impl; try exact Tp; intros l Hl; try apply Hl. now apply no_break_LF, Hl.
Qed.
Theorem tidy_read A (f : tags -> W -> W * result A) lines w : Forall tidy_line lines ->
  fst (fst (view_tags expand (fun ts w => let (w, r) := f ts w in (ts, w, r)) lines w)) = lines.
Proof.
  intros T. destruct (view_cases lines w) as [(ts & w1 & rest & O)|(l & w' & e & V)].
  - rewrite (view_opens _ _ _ _ _ _ _ O). destruct (f ts w1) as [w2 r]. cbn. now apply (tidy_opens lines w ts w1).
  - rewrite V. cbn. specialize (V unit (fun ts w => (ts, w, Ok tt))). unfold view_tags in V.
    destruct (M_sections.parse (expand lines) w lines) as [[secs|x] w0] eqn:E; [|congruence].
    destruct (parse_blocks _ _ _ _ _ E) as (rs & p & bs & ss & _ & _ & _ & -> & _). pose proof (tidy_sections _ _ _ _ _ E T) as Q.
    rewrite find_preamble in V. cbn [nth_error] in V. destruct (tags_parse _ _ _ _) as [[ts|x] w1] in V; congruence.
Qed.
End Uni.
