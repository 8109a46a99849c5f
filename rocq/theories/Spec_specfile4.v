(** Independent specification of what deleting a source, and adding a patch with a comment, does to a whole spec file. *)
From Coq Require Import Ascii String.
From Coq Require Import NArith ZArith List Bool.
From Verif Require Import PyStr M_value M_macro_definitions Spec_macro_definitions M_sections Spec_sections M_tags Spec_tags M_sourcelist M_sources Spec_sources
  M_specfile M_specfile2 Spec_specfile Spec_specfile2 Spec_specfile3.
Import ListNotations.
Open Scope N_scope.

Section Uni.
Context {U : Unicode}.
Definition empty_line (l : str) : Prop := l = [].
(** The line of a source tag goes away and so do the comments right above it.  All the empty lines above and below become one, if there are any.
    If no macro definition is among the lines that go away, then the file is regular, defines the same macros, and has the same other tags, and what is
    read from it is [good]. *)
Definition file_deleted {W : Type} (expand : list str -> bool -> W -> str -> result str * W) (patches dups implicit : bool) (digits : nat)
    (lines : list str) (s : sources) (v : str) (lines' : list str) (good : sources -> Prop) : Prop :=
  exists x above comments name ds sep below y,
  lines = x ++ (above ++ comments ++ [name ++ sep ++ v] ++ below) ++ y /\ lines' = x ++ match above ++ below with [] => [] | _ => [[]] end ++ y /\
  source_name (source_word s) name ds /\ Forall comment_line comments /\
  Forall empty_line above /\ Forall empty_line below /\ (forall q, x <> q ++ [[]]) /\ (forall q, y <> [] :: q) /\
  ((forall i, length x <= i < length x + length (above ++ comments ++ [name ++ sep ++ v] ++ below) -> ~ in_definition (parse_plain lines) i)%nat ->
     regular_file lines' /\ plain_lists patches lines' /\ same_macros (parse_plain lines) (parse_plain lines') /\
     forall w' l2 w2' s2, read_sources expand patches dups implicit digits lines' w' = (l2, w2', Ok s2) -> l2 = lines' /\ Forall simple_tag (ts_data (s_tags s2)) /\
       same_other_tags s s2 /\ good s2).
(** A comment that is read as one: not empty, without white space at the end, and without "global" and "define". *)
Definition quiet_comment (c : str) : Prop := c <> [] /\ rstrip c = c /\ ~ mentions_keyword c.
(** An insertion as in [file_inserted], with comments right above the new line. *)
Definition file_inserted_below {W : Type} (expand : list str -> bool -> W -> str -> result str * W) (patches dups implicit : bool) (digits : nat)
    (lines : list str) (s : sources) (comments : list str) (loc : str) (lines' : list str) (good : sources -> Prop) : Prop :=
  exists x y y' name ds sep, lines = x ++ y /\ lines' = x ++ map (fun c => lit "# " ++ c) comments ++ (name ++ sep ++ loc) :: y' /\
  source_name (source_word s) name ds /\ Forall2 (renumbered_line s) y y' /\
  (between_definitions lines (length x) -> Forall quiet_comment comments -> regular_file lines' /\ same_macros (parse_plain lines) (parse_plain lines') /\
     forall w' l2 w2' s2, read_sources expand patches dups implicit digits lines' w' = (l2, w2', Ok s2) -> l2 = lines' /\ same_other_tags s s2 /\ good s2).
End Uni.
