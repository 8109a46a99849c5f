(** Property theorems: methods that lists of specfile inherit from [UserList] (M_inherited.v). *)
From Coq Require Import Ascii String.
From Coq Require Import NArith ZArith List Bool.
From Verif Require Import PyStr M_tags M_macro_definitions Spec_macro_definitions M_sections M_changelog M_prep M_file Spec_file M_inherited Spec_inherited P_inherited.
Import ListNotations.
Open Scope nat_scope.

(** * C204 (refuted): "[sections.remove(section)] removes that section". *)
(** Sections are compared by their lines alone.  If a section above has the same lines, for example none, then that one
    is removed (and found by [index()]), whatever its name, and the section that was to be removed stays. *)
Theorem C204_refuted : forall l a t m s b, l = a ++ t :: m ++ s :: b -> s_data t = s_data s -> (forall u, In u a -> s_data u <> s_data s) ->
  sections_remove l s = Ok (a ++ m ++ s :: b) /\ sections_index l s = Ok (length a).
Proof. exact removed_other. Qed.
Print Assumptions C204_refuted.
(** In general the first section with the same lines is removed and found. *)
Theorem C204_first : forall l s, In s l ->
  exists a t b, l = a ++ t :: b /\ s_data t = s_data s /\ (forall u, In u a -> s_data u <> s_data s) /\ sections_index l s = Ok (length a) /\ sections_remove l s = Ok (a ++ b).
Proof. exact sections_removed. Qed.
Print Assumptions C204_first.
(** The claim holds if no section above has the same lines. *)
Theorem C204_no_equal_section_above : forall l a s b, l = a ++ s :: b -> (forall u, In u a -> s_data u <> s_data s) -> sections_remove l s = Ok (a ++ b).
Proof. exact removed_first. Qed.
Print Assumptions C204_no_equal_section_above.
Definition named (n : string) (d : list string) : section := mk_section (lit n) (M_options.mk_opts [] [] []) [] [LF] (map lit d).
Example C204_witness : let l := [named "package" ["Name: x"]; named "build" []; named "install" []; named "changelog" ["* x"]]%string in
  match sections_remove l (named "install" []) with Ok l' => map s_name l' = map lit ["package"; "install"; "changelog"]%string | Err _ => False end /\
  match sections_remove l (named "changelog" ["* x"]%string) with Ok l' => map s_name l' = map lit ["package"; "build"; "install"]%string | Err _ => False end.
Proof. vm_compute. split; reflexivity. Qed.

(** * C205 (refuted): "[pop()] and [remove()] remove an item as [del] does, and leave the lines above it in place". *)
(** [del] keeps the lines above the item (C05, C13, C34); [pop()] removes them along with the item. *)
Theorem C205_tags_pop_refuted : forall ts i k, py_index (ts_data ts) i = Some k -> exists a t b, ts_data ts = a ++ t :: b /\ length a = k /\
  tags_pop ts i = Ok (t, mk_tags (a ++ b) (ts_remainder ts)) /\
  tags_raw ts = flat_map tag_raw a ++ t_preceding t ++ (map comment_str (cs_data (t_comments t)) ++ split_on LF [] (tag_text t)) ++ flat_map tag_raw b ++ ts_remainder ts /\
  tags_raw (mk_tags (a ++ b) (ts_remainder ts)) = flat_map tag_raw a ++ flat_map tag_raw b ++ ts_remainder ts.
Proof. exact tags_popped. Qed.
Print Assumptions C205_tags_pop_refuted.
(** [remove()] moreover takes the first tag that says the same, which need not be the one given. *)
Theorem C205_tags_remove_refuted : forall ts t, In t (ts_data ts) -> exists a u b, ts_data ts = a ++ u :: b /\ same_tag u t /\ (forall v, In v a -> ~ same_tag v t) /\
  tags_remove ts t = Ok (mk_tags (a ++ b) (ts_remainder ts)).
Proof. exact tags_removed. Qed.
Print Assumptions C205_tags_remove_refuted.
Theorem C205_macro_definitions_refuted : forall m i k, py_index (md_data m) i = Some k -> exists a d b, md_data m = a ++ d :: b /\ length a = k /\
  mdefs_pop m i = Ok (d, mk_mdefs (a ++ b) (md_remainder m)) /\
  get_raw_data m = flat_map mdef_raw a ++ d_preceding d ++ own_lines d ++ flat_map mdef_raw b ++ md_remainder m /\
  get_raw_data (mk_mdefs (a ++ b) (md_remainder m)) = flat_map mdef_raw a ++ flat_map mdef_raw b ++ md_remainder m.
Proof. exact mdefs_popped. Qed.
Print Assumptions C205_macro_definitions_refuted.
Theorem C205_macro_definitions_remove_refuted : forall m d, In d (md_data m) -> exists a u b, md_data m = a ++ u :: b /\ mdef_raw u = mdef_raw d /\ ~ In d a /\
  mdefs_remove m d = Ok (mk_mdefs (a ++ b) (md_remainder m)).
Proof. exact mdefs_removed. Qed.
Print Assumptions C205_macro_definitions_remove_refuted.
(** [clear()] of tags loses all lines above tags, and keeps those below the last one. *)
Theorem C205_tags_clear_refuted : forall ts, tags_raw (tags_clear ts) = ts_remainder ts.
Proof. exact cleared_tags. Qed.
Print Assumptions C205_tags_clear_refuted.
Theorem C205_prep_refuted : forall p i k, py_index (p_macros p) i = Some k -> exists a m b, p_macros p = a ++ m :: b /\ length a = k /\
  prep_pop p i = Ok (m, mk_prep (a ++ b) (p_remainder p)) /\
  prep_raw p = flat_map macro_raw a ++ m_preceding m ++ [macro_line m] ++ flat_map macro_raw b ++ p_remainder p /\
  prep_raw (mk_prep (a ++ b) (p_remainder p)) = flat_map macro_raw a ++ flat_map macro_raw b ++ p_remainder p.
Proof. exact prep_popped. Qed.
Print Assumptions C205_prep_refuted.
(** Entries of a changelog: [pop()] removes the entry with all blank lines below it, and nothing else. *)
Theorem C205_changelog : forall c i k, py_index (entries c) i = Some k -> exists a e b, entries c = a ++ e :: b /\ length a = k /\
  log_pop c i = Ok (e, mk_changelog (a ++ b) (predecessor c)) /\
  get_raw_section_data c = predecessor c ++ flat_map entry_lines (rev b) ++ (header e :: content e) ++ following e ++ flat_map entry_lines (rev a) /\
  get_raw_section_data (mk_changelog (a ++ b) (predecessor c)) = predecessor c ++ flat_map entry_lines (rev b) ++ flat_map entry_lines (rev a).
Proof. exact log_popped. Qed.
Print Assumptions C205_changelog.
Example C205_witness : let m := parse_plain (U:=unicode_none) (map lit ["%if 1"; "%global y 2"; "%endif"]%string) in
  py_index (md_data m) (-1) = Some 0 /\
  match mdefs_pop m (-1) with Ok (_, m') => get_raw_data m' = map lit ["%endif"]%string | Err _ => False end /\
  match M_macro_definitions.delete m 0 with Ok m' => get_raw_data m' = map lit ["%if 1"; "%endif"]%string | Err _ => False end.
Proof. vm_compute. repeat split; reflexivity. Qed.

(** * C206 (refuted): "the sum of a list of macro definitions, or a changelog, and a list has the lines of both". *)
(** Everything below the last macro definition, usually most of the file, is not in the sum. *)
Theorem C206_macro_definitions_refuted : forall (U : Unicode) lines other, clean lines ->
  exists x, lines = x ++ md_remainder (parse_plain lines) /\ get_raw_data (mdefs_add (parse_plain lines) other) = x ++ flat_map mdef_raw other.
Proof. exact sum_of_mdefs. Qed.
Print Assumptions C206_macro_definitions_refuted.
Theorem C206_tags_refuted : forall ts other,
  tags_raw ts = flat_map tag_raw (ts_data ts) ++ ts_remainder ts /\ tags_raw (tags_add ts other) = flat_map tag_raw (ts_data ts) ++ flat_map tag_raw other.
Proof. exact sum_of_tags. Qed.
Print Assumptions C206_tags_refuted.
(** The lines above the first entry of a changelog are not in the sum. *)
Theorem C206_changelog_refuted : forall lines other,
  exists x, lines = predecessor (M_changelog.parse lines) ++ x /\ get_raw_section_data (log_add (M_changelog.parse lines) other) = flat_map entry_lines (rev other) ++ x.
Proof. exact sum_of_logs. Qed.
Print Assumptions C206_changelog_refuted.
Example C206_witness : get_raw_data (mdefs_add (parse_plain (U:=unicode_none) (map lit ["%global y 2"; "Name: x"; "%prep"]%string)) []) = map lit ["%global y 2"]%string /\
  get_raw_section_data (log_add (M_changelog.parse (map lit ["# comment"; "* x"; "- y"]%string)) []) = map lit ["* x"; "- y"]%string.
Proof. vm_compute. split; reflexivity. Qed.

(** * C207 (refuted): "objects that compare equal are written the same". *)
(** Spec files: a file and the file with a line feed at its end compare equal. *)
Theorem C207_spec_files_refuted : forall b, bytes b -> b <> [] -> plain_breaks (decode b) -> last (decode b) 0%N <> LF ->
  exists s s', read_lines b = Ok s /\ read_lines (b ++ [10%N]) = Ok s' /\ spec_eqb s s' = true /\ save s = (b, Ok tt) /\ save s' = (b ++ [10%N], Ok tt).
Proof. exact equal_files. Qed.
Print Assumptions C207_spec_files_refuted.
(** What can be said of equal lists of macro definitions: the lines of the definitions are the same, not those below. *)
Theorem C207_lists_of_macro_definitions : forall a b, mdefs_eqb a b = true -> exists x, get_raw_data a = x ++ md_remainder a /\ get_raw_data b = x ++ md_remainder b.
Proof. exact equal_lists_of_mdefs. Qed.
Print Assumptions C207_lists_of_macro_definitions.
Theorem C207_macro_definitions : forall a b, mdef_eqb a b = true -> mdef_raw a = mdef_raw b /\ mdef_str a = mdef_str b.
Proof. exact equal_mdefs. Qed.
Print Assumptions C207_macro_definitions.
(** Equal tags are written with the same comments and text, not with the same lines above. *)
Theorem C207_tags : forall a b, tag_eqb a b = true -> tag_text a = tag_text b /\ exists x, tag_raw a = t_preceding a ++ x /\ tag_raw b = t_preceding b ++ x.
Proof. exact equal_tags. Qed.
Print Assumptions C207_tags.
Theorem C207_lists_of_tags : forall a b, tags_eqb a b = true <-> Forall2 same_tag (ts_data a) (ts_data b).
Proof. exact equal_lists_of_tags. Qed.
Print Assumptions C207_lists_of_tags.
Theorem C207_changelog_entries : forall a b, entry_eqb a b = true <-> a = b.
Proof. exact equal_entries. Qed.
Print Assumptions C207_changelog_entries.
Example C207_witness : let b := lit "Name: x" in bytes b /\ b <> [] /\ plain_breaks (decode b) /\ last (decode b) 0%N <> LF.
Proof. vm_compute. repeat split; repeat constructor; discriminate. Qed.
Example C207_remainder_witness : let p := fun l => parse_plain (U:=unicode_none) (map lit l) in
  mdefs_eqb (p ["%global y 2"; "Name: x"]%string) (p ["%global y 2"]%string) = true.
Proof. vm_compute. reflexivity. Qed.
