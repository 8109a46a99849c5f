(** Properties C187-C189: sections of a whole spec file edited, removed and added; edits through views; patch macros.
    Specification: Spec_specfile6.v, Spec_specfile5.v, Spec_specfile2.v, Spec_prep.v, Spec_views.v. *)
From Coq Require Import Ascii String.
From Coq Require Import NArith ZArith List Bool Arith Lia.
From Verif Require Import PyStr PyStrFacts M_options M_macro_definitions Spec_macro_definitions M_sections Spec_sections M_tags
  Spec_specfile Spec_specfile2 M_changelog Spec_changelog M_prep Spec_prep M_context Spec_context M_views Spec_views Spec_specfile5 Spec_specfile6 P_specfile9 P_specfile31 P_specfile32 P_specfile33.
Import ListNotations.
Open Scope N_scope.

(** * C187 *)
(** Below the first section, the contents of sections are edited, sections are removed and sections are added.  Reading the file that is written shows exactly
    these sections, the same macro definitions and the same tags, whatever macros expand to. *)
Theorem C187_sections_edited : forall (U : Unicode) lines top ss ss', regular_file lines -> plain_headers lines -> reads_sections lines (top :: ss) ->
  sections_edited (in_definition (parse_plain lines)) (length (section_raw top)) ss ss' ->
  let lines' := sections_raw (top :: ss') in
  regular_file lines' /\ plain_headers lines' /\ same_macros (parse_plain lines) (parse_plain lines') /\ reads_sections lines' (top :: ss') /\ same_tags_read lines lines'.
Proof. exact @edited_read. Qed.
Print Assumptions C187_sections_edited.
Example C187_witness : regular_file (U:=unicode_none) prep_file /\ plain_headers prep_file /\ reads_sections (U:=unicode_none) prep_file (p_top :: [p_prep; p_build; p_log]) /\
  sections_edited (U:=unicode_none) (in_definition (parse_plain (U:=unicode_none) prep_file)) (length (section_raw (U:=unicode_none) p_top)) [p_prep; p_build; p_log] edited_secs /\
  sections_raw (U:=unicode_none) (p_top :: edited_secs) = file ["%global v 1"; "Name: x"; "%prep"; "%setup"; "%patch 2"; "%check"; "make check"; "%changelog"; "* Fri Jan  3 2025 A - 1-1"; "- first"]%string.
Proof. destruct prep_regular as (A & B). split; [exact A|]. split; [exact B|]. split; [exact prep_reads|]. split; [exact prep_edited|exact edited_text]. Qed.

(** * C188 *)
(** A change of the sections through the view sections() is in the file that is written, and reading that file shows it. *)
Theorem C188_sections : forall (U : Unicode) (E : bool -> str -> result str) (ids : nat -> str) (autosave : bool) f lines top ss ss',
  regular_file lines -> plain_headers lines -> reads_sections lines (top :: ss) -> f (top :: ss) = top :: ss' ->
  sections_edited (in_definition (parse_plain lines)) (length (section_raw top)) ss ss' ->
  exists lines', observe (view_load E ids) (view_store ids) autosave (With [SECTIONS] (Edit 0 (on_sections f))) (VLines lines) = writes autosave lines' [SECTIONS] /\ rereads lines lines' (top :: ss').
Proof. exact @view_sections. Qed.
Print Assumptions C188_sections.
(** The same for the changelog: the view shows it when the file that is written is read. *)
Theorem C188_changelog : forall (U : Unicode) (E : bool -> str -> result str) (ids : nat -> str) (autosave : bool) f lines a s b,
  regular_file lines -> plain_headers lines -> reads_sections lines (a ++ s :: b) -> Forall (fun x => s_nid x <> lit "changelog") a -> s_nid s = lit "changelog" ->
  let c := f (M_changelog.parse (s_data s)) in
  lines_edited (s_data s) (get_raw_section_data c) -> free_section lines a s ->
  exists lines', observe (view_load E ids) (view_store ids) autosave (With [CHANGELOG; SECTIONS] (Edit 0 (on_changelog f))) (VLines lines) = writes autosave lines' [CHANGELOG; SECTIONS] /\
    rereads lines lines' (a ++ with_data (get_raw_section_data c) s :: b) /\ (wf_changelog c -> shows E ids CHANGELOG lines' = Ok (VChangelog (Some c))).
Proof. exact @view_changelog. Qed.
Print Assumptions C188_changelog.
(** The same for %prep. *)
Theorem C188_prep : forall (U : Unicode) (E : bool -> str -> result str) (ids : nat -> str) (autosave : bool) f lines a s b p,
  regular_file lines -> plain_headers lines -> reads_sections lines (a ++ s :: b) -> Forall (fun x => s_nid x <> lit "prep") a -> s_nid s = lit "prep" -> M_prep.parse (s_data s) = Ok p ->
  lines_edited (s_data s) (prep_raw (f p)) -> free_section lines a s ->
  exists lines', observe (view_load E ids) (view_store ids) autosave (With [PREP; SECTIONS] (Edit 0 (on_prep f))) (VLines lines) = writes autosave lines' [PREP; SECTIONS] /\
    rereads lines lines' (a ++ with_data (prep_raw (f p)) s :: b) /\ (forall q, M_prep.parse (prep_raw (f p)) = Ok q -> shows E ids PREP lines' = Ok (VPrep (Some q))).
Proof. exact @view_prep. Qed.
Print Assumptions C188_prep.
Definition no_log (c : changelog) : changelog := mk_changelog [] [].
Example C188_witness : regular_file (U:=unicode_none) prep_file /\ plain_headers prep_file /\ reads_sections (U:=unicode_none) prep_file ([p_top; p_prep; p_build] ++ p_log :: []) /\
  Forall (fun x => s_nid (U:=unicode_none) x <> lit "changelog") [p_top; p_prep; p_build] /\ s_nid (U:=unicode_none) p_log = lit "changelog" /\
  lines_edited (U:=unicode_none) (s_data p_log) (get_raw_section_data (no_log (M_changelog.parse (s_data p_log)))) /\ free_section (U:=unicode_none) prep_file [p_top; p_prep; p_build] p_log /\
  wf_changelog (no_log (M_changelog.parse (s_data p_log))) /\
  M_prep.parse (U:=unicode_none) (s_data p_prep) = Ok prep_parsed /\ lines_edited (U:=unicode_none) (s_data p_prep) (prep_raw (mk_prep [setup_macro] [])).
Proof.
  destruct prep_regular as (A & B). split; [exact A|]. split; [exact B|]. split; [exact prep_reads|].
  split; [repeat constructor; vm_compute; discriminate|]. split; [reflexivity|]. split; [apply P_specfile30.all_dropped|]. split; [apply prep_free; [discriminate|reflexivity]|].
  split; [repeat constructor|]. split; [vm_compute; reflexivity|]. change (s_data p_prep) with [lit "%setup"; lit "%patch 1"]. change (prep_raw (mk_prep [setup_macro] [])) with [lit "%setup"]. apply LE_keep, LE_drop, LE_nil.
Qed.

(** * C189 *)
(** add_patch_macro on prep(): the file has one line more, which is the macro in %prep.  Reading it shows %prep with this line and otherwise the same sections, macro definitions and tags. *)
Theorem C189_patch_added : forall (U : Unicode) (E : bool -> str -> result str) (ids : nat -> str) (autosave : bool) lines a s b infos num old kw m n,
  regular_file lines -> plain_headers lines -> reads_sections lines (a ++ s :: b) -> Forall (fun x => s_nid x <> lit "prep") a -> s_nid s = lit "prep" ->
  Forall2 kept infos (s_data s) -> new_patch num old kw = Ok m -> number m = Ok n -> (forall p, M_prep.parse (s_data s) = Ok p -> exists ns, patch_numbers (p_macros p) ns) -> text_line (macro_line m) -> free_section lines a s ->
  exists lines' x y, s_data s = x ++ y /\ observe (view_load E ids) (view_store ids) autosave (With [PREP; SECTIONS] (Edit 0 (on_prep (adding num old kw)))) (VLines lines) = writes autosave lines' [PREP; SECTIONS] /\
    rereads lines lines' (a ++ with_data (x ++ [macro_line m] ++ y) s :: b).
Proof. exact @patch_added. Qed.
Print Assumptions C189_patch_added.
(** remove_patch_macro on prep(): the file has one line less, that of the first %patch with the number, if this is not the first macro (see C85). *)
Theorem C189_patch_removed : forall (U : Unicode) (E : bool -> str -> result str) (ids : nat -> str) (autosave : bool) lines a s b infos p ma m mb n,
  regular_file lines -> plain_headers lines -> reads_sections lines (a ++ s :: b) -> Forall (fun x => s_nid x <> lit "prep") a -> s_nid s = lit "prep" ->
  Forall2 kept infos (s_data s) -> M_prep.parse (s_data s) = Ok p -> p_macros p = ma ++ m :: mb -> ma <> [] -> m_kind m = Patch -> number m = Ok n ->
  (forall x, In x ma -> m_kind x = Patch -> exists k, number x = Ok k /\ k <> n) -> free_section lines a s ->
  exists lines' x y, s_data s = x ++ [macro_line m] ++ y /\ observe (view_load E ids) (view_store ids) autosave (With [PREP; SECTIONS] (Edit 0 (on_prep (removing n)))) (VLines lines) = writes autosave lines' [PREP; SECTIONS] /\
    rereads lines lines' (a ++ with_data (x ++ y) s :: b).
Proof. exact @patch_removed. Qed.
Print Assumptions C189_patch_removed.
Example C189_witness : regular_file (U:=unicode_none) prep_file /\ plain_headers prep_file /\ reads_sections (U:=unicode_none) prep_file ([p_top] ++ p_prep :: [p_build; p_log]) /\
  Forall (fun x => s_nid (U:=unicode_none) x <> lit "prep") [p_top] /\ s_nid (U:=unicode_none) p_prep = lit "prep" /\ Forall2 (kept (U:=unicode_none)) prep_infos (s_data p_prep) /\
  new_patch (Some 2%Z) false [] = Ok new_macro /\ number (U:=unicode_none) new_macro = Ok 2%Z /\ (forall p, M_prep.parse (U:=unicode_none) (s_data p_prep) = Ok p -> exists ns, patch_numbers (U:=unicode_none) (p_macros p) ns) /\
  text_line (U:=unicode_none) (macro_line new_macro) /\ free_section (U:=unicode_none) prep_file [p_top] p_prep /\
  M_prep.parse (U:=unicode_none) (s_data p_prep) = Ok prep_parsed /\ p_macros prep_parsed = [setup_macro] ++ patch_macro_1 :: [] /\ m_kind patch_macro_1 = Patch /\ number (U:=unicode_none) patch_macro_1 = Ok 1%Z /\
  (forall x, In x [setup_macro] -> m_kind x = Patch -> exists k, number (U:=unicode_none) x = Ok k /\ k <> 1%Z).
Proof.
  destruct prep_regular as (A & B). split; [exact A|]. split; [exact B|]. split; [exact prep_reads|].
  split; [constructor; [vm_compute; discriminate|constructor]|]. split; [reflexivity|]. split; [exact prep_kept|]. split; [vm_compute; reflexivity|]. split; [vm_compute; reflexivity|].
  split; [exact prep_numbers|]. split; [exact new_text|]. split; [apply prep_free; [discriminate|reflexivity]|]. split; [vm_compute; reflexivity|]. split; [reflexivity|]. split; [reflexivity|]. split; [vm_compute; reflexivity|].
  intros x [<-|[]] Q. discriminate.
Qed.

(** * C190 (refuted) *)
(** "A section that is added at the end of the file is read again": not if the last line of the file is in a macro definition that goes on in the next line. *)
Theorem C190_refuted : ~ forall (U : Unicode) lines secs s, regular_file lines -> plain_headers lines -> reads_sections lines secs -> fresh_section s ->
  reads_sections (sections_raw (secs ++ [s])) (secs ++ [s]).
Proof.
  intros H. destruct cont_regular as (A & B). pose proof (H unicode_none cont_file cont_secs p_check A B cont_reads check_fresh unit (fun _ (_ : unit) s => (Ok s, tt)) tt) as Q.
  pose proof cont_lost as L. rewrite Q in L. cbn [option_map] in L. apply (f_equal (fun o => match o with Some l => length l | None => O end)) in L. cbv beta iota in L. rewrite !map_length, app_length in L. cbn [length] in L. lia.
Qed.
Print Assumptions C190_refuted.
