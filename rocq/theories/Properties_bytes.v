(** Property theorems: the bytes of a file that is opened, changed and saved (M_bytes.v).  Specification: Spec_bytes.v, Spec_specfile.v. *)
From Coq Require Import Ascii String.
From Coq Require Import NArith ZArith List Bool Arith Lia.
From Verif Require Import PyStr PyStrFacts M_value M_macro_definitions Spec_macro_definitions M_sections M_tags Spec_tags M_release M_update
  M_specfile Spec_specfile P_specfile P_specfile2 P_specfile9 M_file Spec_file M_bytes Spec_bytes P_bytes P_bytes2.
Import ListNotations.
Open Scope N_scope.

(** * C208 *)
(** Anything that leaves the lines alone leaves the bytes alone, whether it succeeds or not. *)
Theorem C208_unchanged : forall (W A : Type) (o : list str -> W -> list str * W * result A) b s w w' r, plain_file b -> read_lines b = Ok s ->
  o (sp_lines s) w = (sp_lines s, w', r) -> with_file o b w = (b, w', r).
Proof. exact @same_lines_bytes. Qed.
Print Assumptions C208_unchanged.
(** Lines replaced, added or removed above the last line: all other bytes stay, also those that are not valid UTF-8. *)
Theorem C208_lines : forall (W A : Type) (o : list str -> W -> list str * W * result A) b s w w' r u old new v nb, plain_file b -> read_lines b = Ok s ->
  sp_lines s = u ++ old ++ v -> o (sp_lines s) w = (u ++ new ++ v, w', r) -> encode (text_of_lines new) = Some nb -> v <> [] ->
  exists b', with_file o b w = (b', w', r) /\ bytes_replaced (text_of_lines u) (text_of_lines old) (text_of_lines new) b b'.
Proof. exact @block_bytes. Qed.
Print Assumptions C208_lines.
(** Setting a tag replaces the bytes of the value of the tag. *)
Theorem C208_set_tag : forall (U : Unicode) (W : Type) (expand : list str -> bool -> W -> str -> result str * W) name v b s w w' ts k t nb,
  plain_file b -> read_lines b = Ok s -> read_tags expand (sp_lines s) w = (sp_lines s, w', Ok ts) -> designates ts name k t -> lower (t_name t) = lower name -> encode v = Some nb ->
  exists b', with_file (set_tag expand name v) b w = (b', w', Ok tt) /\ bytes_replaced (before_value ts k t) (t_value t) v b b'.
Proof. exact @set_tag_bytes. Qed.
Print Assumptions C208_set_tag.
Theorem C208_set_release : forall (U : Unicode) (expand : list str -> bool -> unit -> str -> result str * unit) v b s ts k t nb,
  plain_file b -> read_lines b = Ok s -> read_tags expand (sp_lines s) tt = (sp_lines s, tt, Ok ts) -> designates ts (lit "release") k t -> lower (t_name t) = lit "release" ->
  encode (get_updated_release (t_value t) v) = Some nb ->
  exists b', with_file (set_release expand v) b tt = (b', tt, Ok tt) /\ bytes_replaced (before_value ts k t) (t_value t) (get_updated_release (t_value t) v) b b'.
Proof. exact @set_release_bytes. Qed.
Print Assumptions C208_set_release.
(** Bumping the release replaces the bytes of the body of a macro, or of the value of the tag. *)
Theorem C208_bump_release_macro : forall (U : Unicode) (expand : list str -> bool -> unit -> str -> result str * unit) b s ts k t m j d nb,
  plain_file b -> read_lines b = Ok s -> read_tags expand (sp_lines s) tt = (sp_lines s, tt, Ok ts) -> designates ts (lit "release") k t -> lower (t_name t) = lit "release" ->
  has_autorelease (t_value t) = Ok false -> read_macros expand (sp_lines s) tt = (sp_lines s, tt, Ok m) -> first_release_macro m j d -> encode (bump_release_string (d_body d)) = Some nb ->
  exists b', with_file (bump_release expand) b tt = (b', tt, Ok tt) /\ bytes_replaced (before_body m j d) (d_body d) (bump_release_string (d_body d)) b b'.
Proof. exact @bump_macro_bytes. Qed.
Print Assumptions C208_bump_release_macro.
Theorem C208_bump_release_tag : forall (U : Unicode) (expand : list str -> bool -> unit -> str -> result str * unit) b s ts k t m nb,
  plain_file b -> read_lines b = Ok s -> read_tags expand (sp_lines s) tt = (sp_lines s, tt, Ok ts) -> designates ts (lit "release") k t -> lower (t_name t) = lit "release" ->
  has_autorelease (t_value t) = Ok false -> read_macros expand (sp_lines s) tt = (sp_lines s, tt, Ok m) -> (forall d, In d (md_data m) -> ~ release_name d) ->
  encode (bump_release_string (t_value t)) = Some nb ->
  exists b', with_file (bump_release expand) b tt = (b', tt, Ok tt) /\ bytes_replaced (before_value ts k t) (t_value t) (bump_release_string (t_value t)) b b'.
Proof. exact @bump_tag_bytes. Qed.
Print Assumptions C208_bump_release_tag.
(** A file that is not valid UTF-8: byte 233 in a comment stays. *)
Definition latin1 : list N := lit "# caf" ++ [233; 10] ++ lit "Version: 1" ++ [10] ++ lit "Release: 1".
Definition latin1_tags : tags := match read_lines latin1 with Ok s => match read_tags (U:=unicode_none) ex_expand (sp_lines s) tt with (_, _, Ok ts) => ts | _ => mk_tags [] [] end | _ => mk_tags [] [] end.
Example C208_witness : plain_file latin1 /\
  (exists s, read_lines latin1 = Ok s /\ read_tags (U:=unicode_none) ex_expand (sp_lines s) tt = (sp_lines s, tt, Ok latin1_tags)) /\
  map t_name (ts_data latin1_tags) = [lit "Version"; lit "Release"] /\
  with_file (set_tag (U:=unicode_none) ex_expand (lit "version") (lit "2")) latin1 tt =
    (lit "# caf" ++ [233; 10] ++ lit "Version: 2" ++ [10] ++ lit "Release: 1", tt, Ok tt) /\
  with_file (bump_release (U:=unicode_none) ex_expand) latin1 tt =
    (lit "# caf" ++ [233; 10] ++ lit "Version: 1" ++ [10] ++ lit "Release: 2", tt, Ok tt).
Proof.
  split. { split; [repeat constructor|]. split; [discriminate|]. vm_compute. repeat constructor; discriminate. }
  split. { eexists. split; [reflexivity|]. vm_compute. reflexivity. }
  repeat split; vm_compute; reflexivity.
Qed.

(** * C209 (refuted): "if an exception is raised between opening and closing a spec file, the file stays as it was". *)
(** The file is saved in any case, with whatever was changed before the exception.  Here the new version is written and the release is not. *)
Theorem C209_refuted : forall (U : Unicode) (W : Type) (expand : list str -> bool -> W -> str -> result str * W) version release b s w w' ts k t nb,
  plain_file b -> read_lines b = Ok s -> read_tags expand (sp_lines s) w = (sp_lines s, w', Ok ts) ->
  designates ts (lit "version") k t -> lower (t_name t) = lit "version" -> (forall u, In u (ts_data ts) -> lower (t_name u) <> lit "release") -> encode version = Some nb ->
  exists b', with_file (set_version_and_release expand version release) b w = (b', w', Err AttributeError) /\ bytes_replaced (before_value ts k t) (t_value t) version b b'.
Proof. exact @half_bytes. Qed.
Print Assumptions C209_refuted.
(** And what cannot be encoded empties the file (see C93). *)
Theorem C209_unencodable_refuted : forall (U : Unicode) (W : Type) (expand : list str -> bool -> W -> str -> result str * W) name v b s w w' ts k t,
  plain_file b -> read_lines b = Ok s -> read_tags expand (sp_lines s) w = (sp_lines s, w', Ok ts) -> designates ts name k t -> lower (t_name t) = lower name -> encode v = None ->
  with_file (set_tag expand name v) b w = ([], w', Err ValueError).
Proof. exact @unencodable_bytes. Qed.
Print Assumptions C209_unencodable_refuted.
Example C209_witness : with_file (set_version_and_release (U:=unicode_none) ex_expand (lit "2") (lit "3")) (lit "Version: 1") tt = (lit "Version: 2", tt, Err AttributeError) /\
  encode [55296] = None /\ with_file (set_tag (U:=unicode_none) ex_expand (lit "version") [55296]) latin1 tt = ([], tt, Err ValueError).
Proof. repeat split; vm_compute; reflexivity. Qed.
