(** Proofs about operations on a whole spec file: edits through views. *)
From Coq Require Import Ascii String.
From Coq Require Import NArith ZArith List Bool Lia.
From Verif Require P_changelog P_views2 P_prep P_prep2.
From Verif Require Import PyStr PyStrFacts M_constants M_options M_macro_definitions Spec_macro_definitions M_sections Spec_sections P_sections2 M_tags M_changelog Spec_changelog M_prep Spec_prep M_context Spec_context M_views Spec_views
  Spec_specfile Spec_specfile2 Spec_specfile5 Spec_specfile6 P_specfile31.
Import ListNotations.
Open Scope nat_scope.

Section Uni.
Context {U : Unicode} (E : bool -> str -> result str) (ids : nat -> str) (autosave : bool).
Notation observe := (Spec_context.observe (view_load E ids) (view_store ids) autosave).
Notation shows := (shows E ids).
Lemma reads_oracle lines secs : reads_sections lines secs -> fst (M_sections.parse (oracle E) tt lines) = Ok secs.
Proof. intros R. now rewrite (R unit (oracle E) tt). Qed.
Lemma shows_reads n lines secs : reads_sections lines secs -> shows n lines = view_load E ids n (VSections secs).
Proof. intros R. unfold shows. change (view_load E ids SECTIONS (VLines lines)) with (let! s := fst (M_sections.parse (oracle E) tt lines) in Ok (VSections s)). now rewrite (reads_oracle _ _ R). Qed.
Lemma attr_first a s b id : Forall (fun x => s_nid x <> lower id) a -> s_nid s = lower id -> attr (a ++ s :: b) id = Some s.
Proof.
  intros F N. unfold attr. induction a as [|x a IH]; cbn [app List.find].
  - now rewrite (proj2 (str_eqb_eq _ _) N).
  - inversion F as [|? ? F1 F2]; subst. destruct (str_eqb (s_nid x) (lower id)) eqn:Q; [apply str_eqb_eq in Q; contradiction|auto].
Qed.
Theorem view_sections f lines top ss ss' : regular_file lines -> plain_headers lines -> reads_sections lines (top :: ss) -> f (top :: ss) = top :: ss' ->
  sections_edited (in_definition (parse_plain lines)) (length (section_raw top)) ss ss' ->
  exists lines', observe (With [SECTIONS] (Edit 0 (on_sections f))) (VLines lines) = writes autosave lines' [SECTIONS] /\ rereads lines lines' (top :: ss').
Proof.
  intros R P Rd Ef Ed. exists (sections_raw (top :: ss')). split.
  - rewrite (P_views2.edit_sections E ids autosave f lines (top :: ss)); [now rewrite Ef|now apply reads_oracle].
  - destruct (edited_read _ _ _ _ R P Rd Ed) as (A1 & A2 & A3 & A4 & A5). repeat (split; [first [reflexivity|assumption]|]). exact A4.
Qed.
Lemma one_rereads lines a s b d : regular_file lines -> plain_headers lines -> reads_sections lines (a ++ s :: b) -> s_nid s <> PREAMBLE -> lines_edited (s_data s) d -> free_section lines a s ->
  rereads lines (sections_raw (a ++ with_data d s :: b)) (a ++ with_data d s :: b).
Proof. intros R P Rd N Ed Fr. destruct (section_edited _ _ _ _ _ R P Rd N Ed Fr) as (A1 & A2 & A3 & A4 & A5). repeat (split; [first [reflexivity|assumption]|]). exact A4. Qed.
Theorem view_changelog f lines a s b : regular_file lines -> plain_headers lines -> reads_sections lines (a ++ s :: b) -> Forall (fun x => s_nid x <> lit "changelog") a -> s_nid s = lit "changelog" ->
  let c := f (M_changelog.parse (s_data s)) in
  lines_edited (s_data s) (get_raw_section_data c) -> free_section lines a s ->
  exists lines', observe (With [CHANGELOG; SECTIONS] (Edit 0 (on_changelog f))) (VLines lines) = writes autosave lines' [CHANGELOG; SECTIONS] /\
    rereads lines lines' (a ++ with_data (get_raw_section_data c) s :: b) /\ (wf_changelog c -> shows CHANGELOG lines' = Ok (VChangelog (Some c))).
Proof.
  intros R P Rd F N c Ed Fr. assert (Np : s_nid s <> PREAMBLE) by (rewrite N; discriminate). pose proof (one_rereads _ _ _ b _ R P Rd Np Ed Fr) as Rr. eexists. split; [|split; [exact Rr|]].
  - apply P_views2.edit_changelog; auto. now apply reads_oracle.
  - intros Wf. destruct Rr as (_ & _ & _ & _ & _ & Rs). rewrite (shows_reads _ _ _ Rs). change (view_load E ids CHANGELOG (VSections ?l)) with (Ok (VChangelog (option_map (fun s => M_changelog.parse (s_data s)) (attr l (lit "changelog"))))).
    rewrite attr_first; [|exact F|exact N]. cbn [option_map with_data s_data]. now rewrite P_changelog.raw_parse.
Qed.
Theorem view_prep f lines a s b p : regular_file lines -> plain_headers lines -> reads_sections lines (a ++ s :: b) -> Forall (fun x => s_nid x <> lit "prep") a -> s_nid s = lit "prep" -> M_prep.parse (s_data s) = Ok p ->
  lines_edited (s_data s) (prep_raw (f p)) -> free_section lines a s ->
  exists lines', observe (With [PREP; SECTIONS] (Edit 0 (on_prep f))) (VLines lines) = writes autosave lines' [PREP; SECTIONS] /\
    rereads lines lines' (a ++ with_data (prep_raw (f p)) s :: b) /\ (forall q, M_prep.parse (prep_raw (f p)) = Ok q -> shows PREP lines' = Ok (VPrep (Some q))).
Proof.
  intros R P Rd F N Q Ed Fr. assert (Np : s_nid s <> PREAMBLE) by (rewrite N; discriminate). pose proof (one_rereads _ _ _ b _ R P Rd Np Ed Fr) as Rr. eexists. split; [|split; [exact Rr|]].
  - apply P_views2.edit_prep; auto. now apply reads_oracle.
  - intros q Eq. destruct Rr as (_ & _ & _ & _ & _ & Rs). rewrite (shows_reads _ _ _ Rs).
    change (view_load E ids PREP (VSections ?l)) with (match attr l (lit "prep") with Some s => let! p := M_prep.parse (s_data s) in Ok (VPrep (Some p)) | None => Ok (VPrep None) end).
    rewrite attr_first; [|exact F|exact N]. cbn [with_data s_data]. now rewrite Eq.
Qed.
(** * Patch macros *)
Theorem patch_added lines a s b infos num old kw m n : regular_file lines -> plain_headers lines -> reads_sections lines (a ++ s :: b) -> Forall (fun x => s_nid x <> lit "prep") a -> s_nid s = lit "prep" ->
  Forall2 kept infos (s_data s) -> new_patch num old kw = Ok m -> number m = Ok n -> (forall p, M_prep.parse (s_data s) = Ok p -> exists ns, patch_numbers (p_macros p) ns) -> text_line (macro_line m) -> free_section lines a s ->
  exists lines' x y, s_data s = x ++ y /\ observe (With [PREP; SECTIONS] (Edit 0 (on_prep (adding num old kw)))) (VLines lines) = writes autosave lines' [PREP; SECTIONS] /\
    rereads lines lines' (a ++ with_data (x ++ [macro_line m] ++ y) s :: b).
Proof.
  intros R P Rd F N K Em En Np T Fr. destruct (P_prep.parse_round_trip _ _ K) as (p & Ep & Er & _). destruct (Np p Ep) as (ns & Hns).
  destruct (P_prep2.add_lines _ _ _ _ _ _ _ Em En Hns) as (p' & x & y & Ea & Ex & Ey). rewrite Er in Ex.
  destruct (view_prep (adding num old kw) lines a s b p R P Rd F N Ep) as (lines' & O & Rr & _).
  - unfold adding. rewrite Ea, Ey, Ex. now apply one_more.
  - exact Fr.
  - exists lines', x, y. split; [exact Ex|]. split; [exact O|]. unfold adding in Rr. rewrite Ea, Ey in Rr. exact Rr.
Qed.
Theorem patch_removed lines a s b infos p ma m mb n : regular_file lines -> plain_headers lines -> reads_sections lines (a ++ s :: b) -> Forall (fun x => s_nid x <> lit "prep") a -> s_nid s = lit "prep" ->
  Forall2 kept infos (s_data s) -> M_prep.parse (s_data s) = Ok p -> p_macros p = ma ++ m :: mb -> ma <> [] -> m_kind m = Patch -> number m = Ok n ->
  (forall x, In x ma -> m_kind x = Patch -> exists k, number x = Ok k /\ k <> n) -> free_section lines a s ->
  exists lines' x y, s_data s = x ++ [macro_line m] ++ y /\ observe (With [PREP; SECTIONS] (Edit 0 (on_prep (removing n)))) (VLines lines) = writes autosave lines' [PREP; SECTIONS] /\
    rereads lines lines' (a ++ with_data (x ++ y) s :: b).
Proof.
  intros R P Rd F N K Ep Ems Ne Km En Hx Fr. destruct (P_prep.parse_round_trip _ _ K) as (p0 & Ep0 & Er & _). rewrite Ep in Ep0. injection Ep0 as <-.
  destruct (P_prep2.remove_first_spec _ _ _ _ _ Ems Ne Km En Hx) as (p' & x & y & Ea & _ & Ex & Ey & _). rewrite Er in Ex.
  destruct (view_prep (removing n) lines a s b p R P Rd F N Ep) as (lines' & O & Rr & _).
  - unfold removing. rewrite Ea, Ey, Ex. apply one_less.
  - exact Fr.
  - exists lines', x, y. split; [exact Ex|]. split; [exact O|]. unfold removing in Rr. rewrite Ea, Ey in Rr. exact Rr.
Qed.
End Uni.
