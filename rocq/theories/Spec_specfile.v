(** Independent specification for operations on a whole spec file. *)
From Coq Require Import Ascii String.
From Coq Require Import NArith List Bool.
From Verif Require Import PyStr M_value M_macro_definitions Spec_macro_definitions M_sections Spec_sections M_tags Spec_tags M_release M_update M_specfile.
Import ListNotations.
Open Scope N_scope.

(** [text.split("\n")] *)
Definition text_lines (s : str) : list str := split_on LF [] s.

Section Uni.
Context {U : Unicode}.
(** A header "%package" with nothing after it, or with one more word that is (the start of) content. *)
Definition bare_package (l : str) : Prop :=
  exists n rest, l = PCT :: n ++ rest /\ lower n = lit "package" /\ (rest = [] \/ exists sp t, rest = sp ++ PCT :: t /\ blank sp).
(** Lines for which reading tags is claimed to change nothing. *)
Definition tidy_line (l : str) : Prop :=
  no_break l /\ rstrip l = l /\ regular l /\ (header_line l -> stable_header l) /\ ~ bare_package l.

(** Tag [k] is the one that a name stands for: the first one with that name that counts, or the first one if none counts. *)
Definition named (name : str) (t : tag) : Prop := capitalize (t_name t) = capitalize name.
Definition designates (ts : tags) (name : str) (k : nat) (t : tag) : Prop :=
  nth_error (ts_data ts) k = Some t /\ named name t /\
  ((t_valid t = true /\ forall j u, (j < k)%nat -> nth_error (ts_data ts) j = Some u -> named name u -> t_valid u = false) \/
   ((forall u, In u (ts_data ts) -> named name u -> t_valid u = false) /\
    forall j u, (j < k)%nat -> nth_error (ts_data ts) j = Some u -> ~ named name u)).
(** A value that fits after a separator on one line: no line break, no white space at either end, all its brackets closed. *)
Definition line_value (v : str) : Prop :=
  ~ In LF v /\ (exists c r, v = c :: r /\ is_space c = false) /\ rstrip v = v /\ count_brackets v = (0, 0)%nat.
(** A tag that has a line for itself: nothing around it and no line break in it. *)
Definition one_line (t : tag) : Prop := t_prefix t = [] /\ t_suffix t = [] /\ ~ In LF (t_value t).
(** The number of the line of tag [k]. *)
Definition tag_line_number (ts : tags) (k : nat) (t : tag) : nat := length (flat_map tag_raw (firstn k (ts_data ts)) ++ comments_raw (t_comments t)).
(** Tag [k] of a file with the tags [ts] at its beginning gets a new value: what is written before the value and after it stays, and
    so do the lines above and below. *)
Definition value_replaced (ts : tags) (k : nat) (new : str) (lines lines' : list str) : Prop :=
  exists t after, nth_error (ts_data ts) k = Some t /\
    let before := flat_map tag_raw (firstn k (ts_data ts)) ++ comments_raw (t_comments t) in
    lines = before ++ text_lines (t_prefix t ++ t_name t ++ t_separator t ++ t_value t ++ t_suffix t) ++ after /\
    lines' = before ++ text_lines (t_prefix t ++ t_name t ++ t_separator t ++ new ++ t_suffix t) ++ after.
(** Definition [k] of a file with the definitions [m] gets a new body. *)
Definition body_replaced (m : mdefs) (k : nat) (new : str) (lines lines' : list str) : Prop :=
  exists d after, nth_error (md_data m) k = Some d /\
    let before := flat_map mdef_raw (firstn k (md_data m)) ++ d_preceding d in
    lines = before ++ M_macro_definitions.own_lines d ++ after /\ lines' = before ++ M_macro_definitions.own_lines (with_body new d) ++ after.
(** The definition that a name stands for, in the same sense. *)
Definition macro_designates (m : mdefs) (name : str) (k : nat) (d : mdef) : Prop :=
  nth_error (md_data m) k = Some d /\ d_name d = name /\
  ((d_valid d = true /\ forall j u, (j < k)%nat -> nth_error (md_data m) j = Some u -> d_name u = name -> d_valid u = false) \/
   ((forall u, In u (md_data m) -> d_name u = name -> d_valid u = false) /\
    forall j u, (j < k)%nat -> nth_error (md_data m) j = Some u -> d_name u <> name)).
(** The lines of definition [k] are replaced by those of [new]. *)
Definition def_replaced (m : mdefs) (k : nat) (new : mdef) (lines lines' : list str) : Prop :=
  exists d after, nth_error (md_data m) k = Some d /\
    let before := flat_map mdef_raw (firstn k (md_data m)) ++ d_preceding d in
    lines = before ++ M_macro_definitions.own_lines d ++ after /\ lines' = before ++ M_macro_definitions.own_lines new ++ after.
(** A macro for the pre-release part is commented out, in the given style, or commented in. *)
Definition set_out (s : comment_out_style) (d : mdef) : mdef := with_commented_out true (if d_commented_out d then d else with_style s d).
Definition set_in (s : comment_out_style) (d : mdef) : mdef := with_commented_out false (if d_commented_out d then d else with_style s d).
(** A tag without its validity flag. *)
Definition unflagged (t : tag) : tag := mk_tag (t_name t) (t_value t) (t_separator t) (t_comments t) true (t_prefix t) (t_suffix t).
(** Line [i] is one of the lines of a definition. *)
Definition in_definition (m : mdefs) (i : nat) : Prop :=
  exists a d b j, md_data m = a ++ d :: b /\ (j < length (M_macro_definitions.own_lines d))%nat /\ i = (length (flat_map mdef_raw a) + length (d_preceding d) + j)%nat.
(** No macro is defined twice with the same body. *)
Definition defined_apart (m : mdefs) : Prop := forall a d b x, md_data m = a ++ d :: b -> In x a -> d_name x = d_name d -> d_body x <> d_body d.
(** The definition [k] is the first one called "release" or "baserelease", in any case. *)
Definition release_name (d : mdef) : Prop := lower (d_name d) = lit "release" \/ lower (d_name d) = lit "baserelease".
Definition first_release_macro (m : mdefs) (k : nat) (d : mdef) : Prop :=
  nth_error (md_data m) k = Some d /\ release_name d /\ forall j u, (j < k)%nat -> nth_error (md_data m) j = Some u -> ~ release_name u.

(** What the view of tags, and of macro definitions, shows. *)
Section World.
Context {W : Type} (expand : list str -> bool -> W -> str -> result str * W).
Definition read_tags : op (W:=W) tags := view_tags expand (fun ts w => (ts, w, Ok ts)).
Definition read_macros : op (W:=W) mdefs := view_macros expand (fun _ m w => (m, w, Ok m)).

(** The changes a file may undergo, each starting from what a view shows: tags whose name is in [tags] get other values, definitions whose name is in
    [macros] get another body or are commented out or in.  Nothing else is different (apart from what reading and writing back does by itself). *)
Definition tag_change (tags : str -> Prop) (t t' : tag) : Prop := t' = t \/ (tags (t_name t) /\ exists v, t' = with_value v t).
Definition macro_change (macros : str -> Prop) (d d' : mdef) : Prop := d' = d \/ (macros (d_name d) /\ exists c v, d' = with_commented_out c (with_body v d)).
Inductive change (macros tags : str -> Prop) : list str -> list str -> Prop :=
| C_tags l w ts rest w' data : read_tags l w = (tags_raw ts ++ rest, w', Ok ts) -> Forall2 (tag_change tags) (ts_data ts) data ->
    change macros tags l (tags_raw (mk_tags data (ts_remainder ts)) ++ rest)
| C_no_tags l w l' w' e : read_tags l w = (l', w', Err e) -> change macros tags l l'
| C_macros l w m w' data : read_macros l w = (get_raw_data m, w', Ok m) -> Forall2 (macro_change macros) (md_data m) data ->
    change macros tags l (get_raw_data (mk_mdefs data (md_remainder m))).
Inductive changes (macros tags : str -> Prop) : list str -> list str -> Prop :=
| Cs_none l : changes macros tags l l
| Cs_more l l1 l2 : changes macros tags l l1 -> change macros tags l1 l2 -> changes macros tags l l2.
End World.
(** What [protected_entities] leaves to be changed: macros without parameters and tags that are not protected. *)
Definition free_macro (protected : str -> bool) (n : str) : Prop := protected n = false /\ ~ exists x, n = x ++ [RPAR].
Definition free_tag (protected : str -> bool) (n : str) : Prop := exists n', protected n' = false /\ capitalize n = capitalize (lower n').
End Uni.
