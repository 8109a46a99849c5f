(** Independent specification of what adding lines to sections, such as changelog entries, does to a whole spec file. *)
From Coq Require Import Ascii String.
From Coq Require Import NArith ZArith List Bool.
From Verif Require Import PyStr M_macro_definitions Spec_macro_definitions M_sections Spec_sections Spec_specfile Spec_specfile2 M_changelog Spec_changelog M_add_entry Spec_add_entry.
Import ListNotations.
Open Scope N_scope.

Section Uni.
Context {U : Unicode}.
(** A line of text: it is no section header, it does not end in white space, and does not mention "global" or "define". *)
Definition text_line (l : str) : Prop := tidy_line l /\ ~ mentions_keyword l /\ ~ Spec_sections.header_line l.
(** No section header ends in a word that begins with "%", such a word may be the beginning of the content of the section. *)
Definition plain_headers (lines : list str) : Prop :=
  forall l a c t, In l lines -> Spec_sections.header_line l -> l = a ++ c :: PCT :: t -> is_space c = true -> ~ Forall (fun c => is_space c = false) t.
(** No line of the sections selected by [P], and no line right below them, is in a macro definition. *)
Definition free_sections (P : section -> Prop) (lines : list str) (secs : list section) : Prop :=
  forall x s y i, secs = x ++ s :: y -> P s -> (length (sections_raw x) <= i <= length (sections_raw (x ++ [s])))%nat -> ~ in_definition (parse_plain lines) i.
(** What was read from [lines'] as compared to what is read from [lines]: these sections, the same macro definitions, and nothing unusual. *)
Definition reads_sections (lines' : list str) (secs : list section) : Prop :=
  forall (W : Type) (e : bool -> W -> str -> result str * W) w, M_sections.parse e w lines' = (Ok secs, w).
(** An entry as a changelog has it: with some text, and text at the end. *)
Definition entry_text (entry : list str) : Prop := (exists a l, entry = a ++ [l] /\ ~ blank_line l) /\ Forall (fun l => ~ Spec_changelog.header_line l) entry.
(** The changelog has got a new entry, which is the last one in the list of entries. *)
Definition new_entry (entry : list str) (s s' : section) : Prop :=
  manual s -> exists e, made s (header e) /\ content e = entry /\
    M_changelog.parse (s_data s') = mk_changelog (entries (M_changelog.parse (s_data s)) ++ [e]) (predecessor (M_changelog.parse (s_data s))).
(** The section is as it was, or some lines of text have been put somewhere into its content. *)
Definition grown_section (s s' : section) : Prop :=
  s' = s \/ exists x new y, s_data s = x ++ y /\ s' = with_data (x ++ new ++ y) s /\ Forall text_line new.
(** No line of a section that gets lines, and no line right below it, is in a macro definition. *)
Definition free_growth (lines : list str) (secs secs' : list section) : Prop :=
  forall x s y x' s' y' i, secs = x ++ s :: y -> secs' = x' ++ s' :: y' -> length x = length x' -> s' <> s ->
    (length (sections_raw x) <= i <= length (sections_raw (x ++ [s])))%nat -> ~ in_definition (parse_plain lines) i.
(** The same tags are read from both files, whatever macros expand to. *)
Definition same_tags_read (lines lines' : list str) : Prop :=
  forall (W : Type) (expand : list str -> bool -> W -> str -> result str * W) w l w1 ts w' l' w1' ts',
    read_tags expand lines w = (l, w1, Ok ts) -> read_tags expand lines' w' = (l', w1', Ok ts') -> same_tags ts ts'.
End Uni.
