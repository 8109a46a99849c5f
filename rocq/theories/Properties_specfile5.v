(** Properties C184-C186: lines added to sections of a whole spec file, changelog entries.  Specification: Spec_specfile5.v, Spec_add_entry.v, Spec_specfile2.v. *)
From Coq Require Import Ascii String.
From Coq Require Import NArith ZArith List Bool Arith Lia.
From Verif Require Import PyStr PyStrFacts Regex M_value M_macro_definitions Spec_macro_definitions M_sections Spec_sections M_tags Spec_tags
  M_specfile Spec_specfile Spec_specfile2 M_changelog M_release Spec_changelog M_add_entry Spec_add_entry Spec_specfile5 P_specfile9 P_specfile28 P_specfile29.
Import ListNotations.
Open Scope N_scope.

(** * C184 *)
(** Sections other than the preamble get lines of text somewhere in their content.  Reading the file that is written shows exactly these sections, the same
    macro definitions and the same tags, whatever macros expand to. *)
Theorem C184_sections_grow : forall (U : Unicode) lines secs secs', regular_file lines -> plain_headers lines -> reads_sections lines secs ->
  Forall2 grown_section secs secs' -> hd_error secs' = hd_error secs -> free_growth lines secs secs' ->
  let lines' := sections_raw secs' in
  regular_file lines' /\ plain_headers lines' /\ same_macros (parse_plain lines) (parse_plain lines') /\ reads_sections lines' secs' /\ same_tags_read lines lines'.
Proof. exact @sections_grow. Qed.
Print Assumptions C184_sections_grow.
(** If the headers are plain, the sections do not depend on what macros expand to. *)
Theorem C184_any_expansion : forall (U : Unicode) (W : Type) (e : bool -> W -> str -> result str * W) w lines secs w', regular_file lines -> plain_headers lines ->
  M_sections.parse e w lines = (Ok secs, w') -> w' = w /\ reads_sections lines secs.
Proof. exact @plain_reads_always. Qed.
Print Assumptions C184_any_expansion.
Example C184_witness : regular_file (U:=unicode_none) log_file /\ plain_headers log_file /\ reads_sections (U:=unicode_none) log_file log_secs /\
  Forall2 (grown_section (U:=unicode_none)) log_secs more_secs /\ hd_error more_secs = hd_error log_secs /\ free_growth (U:=unicode_none) log_file log_secs more_secs /\
  sections_raw (U:=unicode_none) more_secs = file ["%global v 1"; "Name: x"; "%build"; "make"; "make doc"; "%changelog"; "* Fri Jan  3 2025 A - 1-1"; "- first"]%string.
Proof.
  destruct log_regular as (A & B). split; [exact A|]. split; [exact B|]. split; [exact log_reads|]. split; [exact more_grown|]. split; [reflexivity|]. split; [exact more_free|]. vm_compute. reflexivity.
Qed.

(** * C185 *)
(** An entry is added to the changelogs that are written by hand.  The file has the sections it had, those changelogs with the header and the lines of the entry,
    and, if they and the header are lines of text, reading the file again shows these sections, the same macro definitions, the same tags, and the
    changelogs with a new entry that has the given content as the newest one; older entries are as they were. *)
Theorem C185_entry_added : forall (U : Unicode) (W : Type) expand surround now parse_expand entry author email ts evr lines (w : W) lines' w',
  regular_file lines -> plain_headers lines ->
  add_changelog_entry expand surround now parse_expand entry author email ts evr lines w = (lines', w', Ok tt) ->
  exists secs secs', reads_sections lines secs /\ lines' = sections_raw secs' /\ Forall2 (extended_by made entry) secs secs' /\
    (free_sections manual lines secs -> Forall text_line entry -> Forall2 (extended_by (fun s h => made s h /\ text_line h) entry) secs secs' ->
     regular_file lines' /\ plain_headers lines' /\ same_macros (parse_plain lines) (parse_plain lines') /\ same_tags_read lines lines' /\ reads_sections lines' secs' /\
     (entry_text entry -> Forall2 (new_entry entry) secs secs')).
Proof. exact @entry_added. Qed.
Print Assumptions C185_entry_added.
Example C185_witness : regular_file (U:=unicode_none) log_file /\ plain_headers log_file /\ log_add log_text log_file = (log_after, tt, Ok tt) /\
  free_sections (U:=unicode_none) (manual (U:=unicode_none)) log_file log_secs /\ Forall (text_line (U:=unicode_none)) log_text /\ entry_text log_text /\
  Forall2 (extended_by (U:=unicode_none) (fun s h => made (U:=unicode_none) s h /\ text_line (U:=unicode_none) h) log_text) log_secs log_secs' /\ reads_sections (U:=unicode_none) log_file log_secs /\ log_after = sections_raw (U:=unicode_none) log_secs'.
Proof.
  destruct log_regular as (A & B). destruct log_entry as (C & D). split; [exact A|]. split; [exact B|]. split; [exact log_added|]. split; [exact log_free|]. split; [exact C|]. split; [exact D|].
  split; [exact log_extended|]. split; [exact log_reads|]. vm_compute. reflexivity.
Qed.

(** * C186 (refuted) *)
(** "The lines of an entry are read as lines of the changelog afterwards": a line of the entry that looks like the header of a section begins a section,
    and the older entries are in that section. *)
Theorem C186_refuted : ~ forall (U : Unicode) (W : Type) expand surround now parse_expand entry author email ts evr lines (w : W) lines' w' secs secs',
  regular_file lines -> plain_headers lines -> Forall no_break entry ->
  add_changelog_entry expand surround now parse_expand entry author email ts evr lines w = (lines', w', Ok tt) ->
  reads_sections lines secs -> reads_sections lines' secs' -> map s_nid secs' = map s_nid secs.
Proof.
  intros H. destruct log_regular as (A & B). destruct odd_added as (C & D & E & F).
  assert (N : Forall no_break odd_text) by (repeat constructor). unfold log_add in C.
  pose proof (H unicode_none unit log_expand log_surround log_now _ odd_text _ _ _ _ log_file tt odd_after tt log_secs odd_secs A B N C log_reads D) as Q. rewrite E, F in Q. discriminate.
Qed.
Print Assumptions C186_refuted.
