(** Independent specification for tags. *)
From Coq Require Import Ascii String.
From Coq Require Import NArith List Bool.
From Verif Require Import PyStr M_constants M_value Spec_sections M_tags.
Import ListNotations.
Open Scope N_scope.

Definition space_text (s : str) : Prop := Forall (fun c => is_space c = true) s.
Section Uni.
Context {U : Unicode}.
(** What may follow the letters of a tag name: "(...)" for some tags, digits for "source" and "patch". *)
Definition name_argument (n arg : str) : Prop :=
  arg = [] \/
  (In n TAGS_WITH_ARG /\ exists s1 s2 x s3, arg = s1 ++ LPAR :: s2 ++ x ++ s3 ++ [RPAR] /\
     space_text s1 /\ space_text s2 /\ space_text s3 /\ Forall (fun c => is_space c = false /\ c <> RPAR) x) \/
  ((n = lit "source" \/ n = lit "patch") /\ Forall (fun c => is_digit c = true) arg).
(** The line is a tag: a known name in any case, a colon maybe surrounded by white space, and a value.
    White space belongs to the separator, except that a value of white space only is its last character. *)
Definition tag_line (line name sep value : str) : Prop :=
  line = name ++ sep ++ value /\
  (exists n letters arg, In n TAG_NAMES /\ Forall2 same_letter n letters /\ name_argument n arg /\ name = letters ++ arg) /\
  (exists s1 s2, sep = s1 ++ COLON :: s2 /\ space_text s1 /\ space_text s2) /\
  (exists c v, value = c :: v /\ (is_space c = true -> v = [])).

(** If the line is one conditional macro expansion [%{?name:body}] as a whole, parsing and writing it gives the line again
    (see [C11_regular_lines] for lines of which this is true). *)
Definition regular (line : str) : Prop :=
  forall p n body, parse line = Ok [ConditionalMacroExpansion p n body] -> node_str (ConditionalMacroExpansion p n body) = line.
(** The tags written in lines with validity flags, one tag per line.  A tag may be the body of one conditional macro expansion. *)
Inductive written : list (str * bool) -> list tag -> Prop :=
| W_nil : written [] []
| W_other line valid body p s lines ts :
    split_conditional_macro_expansion (rstrip line) = Ok (body, p, s) -> (forall n sep v, ~ tag_line body n sep v) ->
    written lines ts -> written ((line, valid) :: lines) ts
| W_tag line valid body p s lines t ts :
    split_conditional_macro_expansion (rstrip line) = Ok (body, p, s) -> tag_line body (t_name t) (t_separator t) (t_value t) ->
    t_valid t = valid -> t_prefix t = p -> (exists w, t_suffix t = s ++ w /\ line = rstrip line ++ w) ->
    written lines ts -> written ((line, valid) :: lines) (t :: ts).
End Uni.

(** A comment line: a hash sign, maybe after white space. *)
Definition comment_line (line : str) : Prop := exists a b, line = a ++ HASH :: b /\ space_text a.

(** Lines that are not empty. *)
Definition nonempty_lines (l : list str) : list str := filter (fun s => match s with [] => false | _ => true end) l.
(** The lines of a tag without the lines above its comments. *)
Definition own_lines (t : tag) : list str := map comment_str (cs_data (t_comments t)) ++ split_on LF [] (tag_text t).
(** Equal up to the validity flag and the lines above the comments. *)
Definition same_tag (a b : tag) : Prop :=
  t_name a = t_name b /\ t_value a = t_value b /\ t_separator a = t_separator b /\
  cs_data (t_comments a) = cs_data (t_comments b) /\ t_prefix a = t_prefix b /\ t_suffix a = t_suffix b.
(** The lines of a list of tags where only those selected by [keep] show their own lines. *)
Fixpoint lines_keeping (keep : nat -> bool) (i : nat) (l : list tag) : list str :=
  match l with
  | [] => []
  | t :: l' => t_preceding t ++ (if keep i then own_lines t else []) ++ lines_keeping keep (S i) l'
  end.
(** The lines between tag [k - 1] and tag [k] that belong to neither; the last lines if there is no tag [k]. *)
Definition between (k : nat) (ts : tags) : list str := match nth_error (ts_data ts) k with Some u => t_preceding u | None => ts_remainder ts end.
