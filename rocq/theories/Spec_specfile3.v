(** Independent specification of what adding a source does to a whole spec file. *)
From Coq Require Import Ascii String.
From Coq Require Import NArith ZArith List Bool.
From Verif Require Import PyStr M_value M_macro_definitions Spec_macro_definitions M_sections Spec_sections M_tags Spec_tags M_sourcelist M_sources Spec_sources
  M_specfile M_specfile2 Spec_specfile Spec_specfile2.
Import ListNotations.
Open Scope N_scope.

Section Uni.
Context {U : Unicode}.
(** Line [i] belongs to a definition that begins above it. *)
Definition continues (m : mdefs) (i : nat) : Prop :=
  exists a d b j, md_data m = a ++ d :: b /\ (0 < j < length (M_macro_definitions.own_lines d))%nat /\ i = (length (flat_map mdef_raw a) + length (d_preceding d) + j)%nat.
(** A new line number [p] is no part of a macro definition: the line there now does not continue one; and if there is none, the last
    line is no part of one. *)
Definition between_definitions (lines : list str) (p : nat) : Prop :=
  ~ continues (parse_plain lines) p /\ (p = length lines -> forall q, p = S q -> ~ in_definition (parse_plain lines) q).
(** A line of a source tag that got another number, or the same line. *)
Definition renumbered_line (s : sources) (l l' : str) : Prop :=
  l' = l \/ exists name ds sep ds' sep' v, source_name (source_word s) name ds /\ ds <> [] /\ Forall (fun c => is_digit c = true) ds' /\ ds' <> [] /\
    l = name ++ sep ++ v /\ l' = (s_prefix s ++ ds') ++ sep' ++ v.
(** A tag named like a source or a patch (or whose name begins like that), as they are usually written: on one line, with the colon right after the name. *)
Definition source_like (t : tag) : Prop := named_source (t_name t) \/ exists ds, source_name (lit "patch") (t_name t) ds.
Definition colon_sep (t : tag) : Prop := exists r, t_separator t = COLON :: r.
Definition neat (t : tag) : Prop := source_like t -> one_line t /\ colon_sep t.
(** No list section has a macro in its header that might be (the beginning of) its content. *)
Definition plain_lists (patches : bool) (lines : list str) : Prop :=
  forall l sp t, In l lines -> blank sp -> l <> PCT :: (if patches then lit "patchlist" else lit "sourcelist") ++ sp ++ PCT :: t.
(** The source at index [i], or the last one if there are not so many, is a tag; and if there are none, the file has no list sections. *)
Definition into_tags (s : sources) (i : nat) : Prop :=
  (forall x, nth_error (get_items s) (Nat.min i (length (get_items s) - 1)) = Some x -> exists j, i_place x = InTags j) /\ (get_items s = [] -> s_lists s = []).
(** A tag as it is written. *)
Definition shown (t : tag) : str * str * str * str * str := (t_prefix t, t_name t, t_separator t, t_value t, t_suffix t).
Definition same_other_tags (s s' : sources) : Prop :=
  forall o, other_tags (source_word s) (ts_data (s_tags s)) o -> exists o', other_tags (source_word s) (ts_data (s_tags s')) o' /\ map shown o' = map shown o.
(** What the view of sources (or patches) shows. *)
Definition read_sources {W : Type} (expand : list str -> bool -> W -> str -> result str * W) (patches dups implicit : bool) (digits : nat) : op (W:=W) sources :=
  view_sources expand patches dups implicit digits (fun s w => (s, w, Ok s)).
(** An insertion, as far as the whole file is concerned: one line is new, a source tag with location [loc]; below it, tags may have got new numbers.
    If the new line does not tear a macro definition apart, then the file is regular, defines the same macros, and has the same other tags, and what
    is read from it is [good]. *)
Definition file_inserted {W : Type} (expand : list str -> bool -> W -> str -> result str * W) (patches dups implicit : bool) (digits : nat)
    (lines : list str) (s : sources) (loc : str) (lines' : list str) (good : sources -> Prop) : Prop :=
  exists x y y' name ds sep, lines = x ++ y /\ lines' = x ++ (name ++ sep ++ loc) :: y' /\ source_name (source_word s) name ds /\ Forall2 (renumbered_line s) y y' /\
  (between_definitions lines (length x) -> regular_file lines' /\ same_macros (parse_plain lines) (parse_plain lines') /\
     forall w' l2 w2' s2, read_sources expand patches dups implicit digits lines' w' = (l2, w2', Ok s2) -> l2 = lines' /\ same_other_tags s s2 /\ good s2).
End Uni.
