(** Independent specification of what adding and deleting a source does to the bytes of a file. *)
From Coq Require Import Ascii String.
From Coq Require Import NArith ZArith List Bool.
From Verif Require Import PyStr M_macro_definitions M_tags Spec_tags M_sources Spec_sources Spec_specfile Spec_specfile3 Spec_specfile4 M_file Spec_file M_bytes Spec_bytes.
Import ListNotations.
Open Scope N_scope.

Section Uni.
Context {U : Unicode} {W : Type}.
(** The operation [o] on the file of bytes [b], with lines [lines]: the line of the source with location [v], the comments right above it and the empty lines around them are replaced
    by one line feed if there are such empty lines, and by nothing otherwise; all other bytes stay (provided that more lines follow). *)
Definition source_cut (o : list str -> W -> list str * W * result unit) (s : sources) (v : str) (b : list N) (lines : list str) (w w' : W) : Prop :=
  exists x above comments name ds sep below y, lines = x ++ (above ++ comments ++ [name ++ sep ++ v] ++ below) ++ y /\ source_name (source_word s) name ds /\ Forall comment_line comments /\
    Forall empty_line above /\ Forall empty_line below /\ (forall q, x <> q ++ [[]]) /\ (forall q, y <> [] :: q) /\
    (y <> [] -> exists b', with_file o b w = (b', w', Ok tt) /\
       bytes_replaced (text_of_lines x) (text_of_lines (above ++ comments ++ [name ++ sep ++ v] ++ below)) (match above ++ below with [] => [] | _ => [LF] end) b b').
(** The lines [comments] and that of the new source, which has location [loc], are inserted.  Of the lines below, only those of source tags that got new numbers are different; with
    [same] the lines at the end, from below the last of those on, all bytes above the new lines and of [same] stay.  If no number is new, then [old] is empty. *)
Definition source_put (o : list str -> W -> list str * W * result unit) (s : sources) (comments : list str) (loc : str) (b : list N) (lines : list str) (w w' : W) : Prop :=
  exists x y y' name ds sep, lines = x ++ y /\ source_name (source_word s) name ds /\ Forall2 (renumbered_line s) y y' /\
    forall old new same nb, y = old ++ same -> y' = new ++ same -> same <> [] -> encode (text_of_lines (comments ++ [name ++ sep ++ loc] ++ new)) = Some nb ->
    exists b', with_file o b w = (b', w', Ok tt) /\ bytes_replaced (text_of_lines x) (text_of_lines old) (text_of_lines (comments ++ [name ++ sep ++ loc] ++ new)) b b'.
End Uni.
