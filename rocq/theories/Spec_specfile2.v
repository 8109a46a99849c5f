(** Independent specification of what an update of a tag does to a whole spec file. *)
From Coq Require Import Ascii String.
From Coq Require Import NArith List Bool.
From Verif Require Import PyStr M_value M_macro_definitions Spec_macro_definitions M_sections Spec_sections M_tags Spec_tags M_update Spec_update M_specfile Spec_specfile.
Import ListNotations.
Open Scope N_scope.

Section Uni.
Context {U : Unicode}.
(** A value that can be written on one line, of a tag or of a macro definition: no line break of any kind, no white space at either end, all its
    brackets closed, no backslash at its end. *)
Definition file_value (v : str) : Prop :=
  no_break v /\ (exists c r, v = c :: r /\ is_space c = false) /\ rstrip v = v /\ count_brackets v = (0, 0)%nat /\ ~ exists x, v = x ++ [BSLASH].
(** A tag on one line, with all its brackets closed. *)
Definition simple_tag (t : tag) : Prop := ~ In LF (t_value t) /\ count_brackets (t_value t) = (0, 0)%nat.
(** No line of a macro definition reads like a tag. *)
Definition tags_outside (lines : list str) : Prop :=
  forall j l n s v, nth_error lines j = Some l -> in_definition (parse_plain lines) j -> ~ tag_line l n s v.
(** [new] is the value of something called [name] that had the value [old]: the value of the macro (or tag) of that name in [es], if that was changed. *)
Definition updated_to (es : list entity) (is_tag : bool) (name old new : str) : Prop :=
  (exists e, In e es /\ e_tag e = is_tag /\ e_updated e = true /\ e_name e = name /\ new = e_value e) \/
  (forall e, In e es -> e_tag e = is_tag -> e_name e = name -> e_updated e = false) /\ new = old.

(** A file without peculiarities: lines that are read and written as they are, macros defined once (or with different bodies), tags outside
    macro definitions. *)
Definition regular_file (lines : list str) : Prop :=
  Forall tidy_line lines /\ Forall clean_line lines /\ defined_apart (parse_plain lines) /\ tags_outside lines.
(** Tag [k] is the only one that [name] can stand for. *)
Definition only_tag (ts : tags) (name : str) (k : nat) (t : tag) : Prop :=
  nth_error (ts_data ts) k = Some t /\ named name t /\ forall j u, nth_error (ts_data ts) j = Some u -> named name u -> j = k.
Definition only_macro (m : mdefs) (name : str) (k : nat) (d : mdef) : Prop :=
  nth_error (md_data m) k = Some d /\ d_name d = name /\ forall j u, nth_error (md_data m) j = Some u -> d_name u = name -> j = k.
(** A macro or tag that is the only one of its name and has a line for itself. *)
Definition on_own_line (m : mdefs) (ts : tags) (e : entity) : Prop :=
  if e_tag e then exists k t, only_tag ts (e_name e) k t /\ one_line t
  else exists k d, only_macro m (e_name e) k d /\ ordinary d /\ blank (d_prefix d).
Section Pure.
Context (expand : list str -> bool -> unit -> str -> result str * unit).
(** The macros and tags that an update may change. *)
Definition collected (protected : str -> bool) (lines : list str) (m : mdefs) (ts : tags) (es : list entity) : Prop :=
  exists es1 es2, macro_entities expand protected lines m false (md_data m) tt = (tt, Ok es1) /\ tag_entities protected ts (ts_data ts) = Ok es2 /\ es = sort_entities (es1 ++ es2).
End Pure.
(** [with spec.macro_definitions() as m: m[k].body = v] *)
Definition set_body {W : Type} (expand : list str -> bool -> W -> str -> result str * W) (k : nat) (v : str) : op (W:=W) unit :=
  view_macros expand (fun _ m w => (mk_mdefs (update_at k (with_body v) (md_data m)) (md_remainder m), w, Ok tt)).
(** The same definitions, but for the body of number [k], and the same tags. *)
Definition same_macros_but (k : nat) (v : str) (m m' : mdefs) : Prop :=
  length (md_data m') = length (md_data m) /\ forall i d d', nth_error (md_data m) i = Some d -> nth_error (md_data m') i = Some d' ->
    d_name d' = d_name d /\ d_is_global d' = d_is_global d /\ d_commented_out d' = d_commented_out d /\ d_body d' = if Nat.eqb i k then v else d_body d.
Definition same_macros (m m' : mdefs) : Prop :=
  length (md_data m') = length (md_data m) /\ forall i d d', nth_error (md_data m) i = Some d -> nth_error (md_data m') i = Some d' ->
    d_name d' = d_name d /\ d_is_global d' = d_is_global d /\ d_commented_out d' = d_commented_out d /\ d_body d' = d_body d.
Definition same_tags (ts ts' : tags) : Prop :=
  length (ts_data ts') = length (ts_data ts) /\ forall i t t', nth_error (ts_data ts) i = Some t -> nth_error (ts_data ts') i = Some t' ->
    t_name t' = t_name t /\ t_separator t' = t_separator t /\ t_value t' = t_value t /\ t_prefix t' = t_prefix t /\ t_suffix t' = t_suffix t.
(** What became of the definitions and of the tags of a file. *)
Definition macros_updated (es : list entity) (m m' : mdefs) : Prop :=
  length (md_data m') = length (md_data m) /\ forall i d d', nth_error (md_data m) i = Some d -> nth_error (md_data m') i = Some d' ->
    d_name d' = d_name d /\ d_is_global d' = d_is_global d /\ updated_to es false (d_name d) (d_body d) (d_body d').
Definition tags_updated (es : list entity) (k : nat) (r : str) (ts ts' : tags) : Prop :=
  length (ts_data ts') = length (ts_data ts) /\ forall i t t', nth_error (ts_data ts) i = Some t -> nth_error (ts_data ts') i = Some t' ->
    t_name t' = t_name t /\ t_separator t' = t_separator t /\ t_prefix t' = t_prefix t /\ t_suffix t' = t_suffix t /\
    (i = k -> t_value t' = r) /\ (i <> k -> updated_to es true (lower (t_name t)) (t_value t) (t_value t')).
End Uni.
