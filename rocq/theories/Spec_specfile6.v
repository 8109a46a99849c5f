(** Independent specification of what editing, adding and removing sections does to a whole spec file. *)
From Coq Require Import Ascii String.
From Coq Require Import NArith ZArith List Bool.
From Verif Require Import PyStr M_macro_definitions Spec_macro_definitions M_sections Spec_sections Spec_specfile Spec_specfile2 Spec_specfile5 M_options M_changelog M_prep M_views.
Import ListNotations.
Open Scope N_scope.

Section Uni.
Context {U : Unicode}.
(** Some lines are removed, and lines of text are added anywhere. *)
Inductive lines_edited : list str -> list str -> Prop :=
| LE_nil : lines_edited [] []
| LE_keep l u u' : lines_edited u u' -> lines_edited (l :: u) (l :: u')
| LE_drop l u u' : lines_edited u u' -> lines_edited (l :: u) u'
| LE_add l u u' : text_line l -> lines_edited u u' -> lines_edited u (l :: u').
(** The first section of a file as it is read if nothing is above the first header. *)
Definition nothing_above (s : section) : Prop := s_nid s = PREAMBLE /\ s_data s = [].
(** A section that can be added: it is written as one header and lines of text, and reading them shows the section. *)
Definition fresh_section (s : section) : Prop :=
  exists h, section_raw s = h :: s_data s /\ tidy_line h /\ ~ mentions_keyword h /\ Spec_sections.header_line h /\ plain_headers [h] /\ Forall text_line (s_data s) /\
    exists top, nothing_above top /\ reads_sections (h :: s_data s) [top; s].
(** Some sections are removed, the content of some sections is edited, and sections are added anywhere.  The first section in the list begins at line [n].
    Lines of sections that are removed or edited, the lines right below them, and those where a section is added are not [busy]. *)
Inductive sections_edited (busy : nat -> Prop) : nat -> list section -> list section -> Prop :=
| SE_nil n : sections_edited busy n [] []
| SE_keep n s ss ss' : sections_edited busy (n + length (section_raw s)) ss ss' -> sections_edited busy n (s :: ss) (s :: ss')
| SE_edit n s d ss ss' : (forall i, n <= i <= n + length (section_raw s) -> ~ busy i)%nat -> lines_edited (s_data s) d ->
    sections_edited busy (n + length (section_raw s)) ss ss' -> sections_edited busy n (s :: ss) (with_data d s :: ss')
| SE_drop n s ss ss' : (forall i, n <= i <= n + length (section_raw s) -> ~ busy i)%nat ->
    sections_edited busy (n + length (section_raw s)) ss ss' -> sections_edited busy n (s :: ss) ss'
| SE_add n s ss ss' : (forall i, n - 1 <= i <= n -> ~ busy i)%nat -> fresh_section s -> sections_edited busy n ss ss' -> sections_edited busy n ss (s :: ss').
(** What is written for the sections [secs'] is a file from which these sections are read, and the same macro definitions and tags as from [lines]. *)
Definition rereads (lines lines' : list str) (secs' : list section) : Prop :=
  lines' = sections_raw secs' /\ regular_file lines' /\ plain_headers lines' /\ same_macros (parse_plain lines) (parse_plain lines') /\ same_tags_read lines lines' /\ reads_sections lines' secs'.
(** Neither lines of the section [s] below the sections [a], nor the one right below it, are in macro definitions. *)
Definition free_section (lines : list str) (a : list section) (s : section) : Prop :=
  forall i, (length (sections_raw a) <= i <= length (sections_raw (a ++ [s])))%nat -> ~ in_definition (parse_plain lines) i.
End Uni.
(** Changes of what the views sections(), changelog() and prep() show. *)
Definition on_prep (f : prep -> prep) (v : value) : value := match v with VPrep (Some q) => VPrep (Some (f q)) | _ => v end.
Definition on_changelog (f : changelog -> changelog) (v : value) : value := match v with VChangelog (Some c) => VChangelog (Some (f c)) | _ => v end.
Definition on_sections (f : list section -> list section) (v : value) : value := match v with VSections l => VSections (f l) | _ => v end.
(** What a view of a section shows when the file is read. *)
Definition shows {U : Unicode} (E : bool -> str -> result str) (ids : nat -> str) (n : nat) (lines : list str) : result value :=
  let! v := view_load E ids SECTIONS (VLines lines) in view_load E ids n v.
(** Adding and removing patch macros, where this works. *)
Definition adding {U : Unicode} (num : option Z) (old : bool) (kw : list (char * oval)) (p : prep) : prep := match add_patch_macro p num old kw with Ok p' => p' | Err _ => p end.
Definition removing {U : Unicode} (n : Z) (p : prep) : prep := match remove_patch_macro p n with Ok p' => p' | Err _ => p end.
