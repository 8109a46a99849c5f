(** The spec files that views show without loss. *)
From Coq Require Import Ascii String.
From Coq Require Import NArith List Bool.
From Verif Require Import PyStr M_constants M_options M_macro_definitions Spec_macro_definitions M_sections Spec_sections M_tags Spec_tags
  M_prep Spec_prep M_context Spec_context M_views.
Import ListNotations.

Section Views.
Context {U : Unicode} (E : bool -> str -> result str) (ids : nat -> str).
(** The lines may be read as tags: no trailing white space, and see [C11_regular_lines]. *)
Definition tag_lines (l : list str) : Prop := Forall (fun x => ~ In LF x) l /\ Forall (fun x => rstrip x = x) l /\ Forall regular l.
(** The lines of %prep are kept to the letter, see [C33_round_trip]. *)
Definition prep_lines (l : list str) : Prop := exists infos, Forall2 kept infos l.
(** All that reading and writing the lines by section, by macro definition, by tag and by prep macro keeps. *)
Definition plain_spec (lines : list str) : Prop :=
  clean lines /\ Forall no_break lines /\ Forall (fun l => header_line l -> stable_header l) lines /\
  (forall secs, fst (M_sections.parse (oracle E) tt lines) = Ok secs ->
     Forall (fun s => s_nid s <> lit "package") (tl secs) /\
     Forall (fun s => (s_nid s = lit "prep" -> prep_lines (s_data s)) /\ (forall j, s_nid s = lower (ids j) -> tag_lines (s_data s))) secs).
End Views.

(** The outcome of a program that raises nothing and leaves the lines [r]: they are saved if autosave is set, and each view was loaded and
    written once, the containing ones around it. *)
Definition writes (autosave : bool) (r : list str) (k : path) : option exn * option value * option value * list event :=
  (None, Some (VLines r), if autosave then Some (VLines r) else None,
   match k with [n; m] => [Loaded []; Loaded [m]; Loaded k; Stored k; Stored [m]; Stored []] | _ => [Loaded []; Loaded k; Stored k; Stored []] end).

(** An edit of the tags that a view shows *)
Definition on_tags (f : tags -> tags) (v : value) : value := match v with VTags t => VTags (f t) | _ => v end.
(** The name of the section that the [n]-th view shows; from 4 on these are views of tags. *)
Definition view_id (ids : nat -> str) (n : nat) : str := match n with 2 => lit "changelog" | 3 => lit "prep" | _ => ids (n - 4) end.
(** Changes of a value, not of its kind. *)
Definition same_kind (v w : value) : Prop :=
  match v, w with VTags _, VTags _ => True | VChangelog a, VChangelog b => True | VPrep a, VPrep b => True | _, _ => False end.
