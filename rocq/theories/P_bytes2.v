(** Operations on a whole spec file in terms of bytes: proofs. *)
From Coq Require Import Ascii String.
From Coq Require Import NArith ZArith List Bool Arith Lia.
From Verif Require Import PyStr PyStrFacts M_value M_macro_definitions Spec_macro_definitions M_sections M_tags Spec_tags M_release M_update
  M_specfile Spec_specfile P_specfile P_specfile2 M_file Spec_file P_file M_bytes Spec_bytes P_bytes.
Import ListNotations.
Open Scope N_scope.

Section Uni.
Context {U : Unicode}.
Theorem set_tag_bytes (W : Type) (expand : list str -> bool -> W -> str -> result str * W) name v b s w w' ts k t nb :
  plain_file b -> read_lines b = Ok s -> read_tags expand (sp_lines s) w = (sp_lines s, w', Ok ts) -> designates ts name k t -> lower (t_name t) = lower name -> encode v = Some nb ->
  exists b', with_file (set_tag expand name v) b w = (b', w', Ok tt) /\ bytes_replaced (before_value ts k t) (t_value t) v b b'.
Proof.
  intros P R T D L En. destruct (set_tag_value expand name v (sp_lines s) w w' ts k t T D L) as (lines' & O & V).
  exact (value_bytes _ b s w lines' w' _ ts k t v nb P R O V (proj1 D) En).
Qed.
Theorem set_release_bytes (expand : list str -> bool -> unit -> str -> result str * unit) v b s ts k t nb :
  plain_file b -> read_lines b = Ok s -> read_tags expand (sp_lines s) tt = (sp_lines s, tt, Ok ts) -> designates ts (lit "release") k t -> lower (t_name t) = lit "release" ->
  encode (get_updated_release (t_value t) v) = Some nb ->
  exists b', with_file (set_release expand v) b tt = (b', tt, Ok tt) /\ bytes_replaced (before_value ts k t) (t_value t) (get_updated_release (t_value t) v) b b'.
Proof.
  intros P R T D L En. destruct (set_release_value expand v (sp_lines s) ts k t T D L) as (lines' & O & V).
  exact (value_bytes _ b s tt lines' tt _ ts k t _ nb P R O V (proj1 D) En).
Qed.
Theorem bump_macro_bytes (expand : list str -> bool -> unit -> str -> result str * unit) b s ts k t m j d nb :
  plain_file b -> read_lines b = Ok s -> read_tags expand (sp_lines s) tt = (sp_lines s, tt, Ok ts) -> designates ts (lit "release") k t -> lower (t_name t) = lit "release" ->
  has_autorelease (t_value t) = Ok false -> read_macros expand (sp_lines s) tt = (sp_lines s, tt, Ok m) -> first_release_macro m j d -> encode (bump_release_string (d_body d)) = Some nb ->
  exists b', with_file (bump_release expand) b tt = (b', tt, Ok tt) /\ bytes_replaced (before_body m j d) (d_body d) (bump_release_string (d_body d)) b b'.
Proof.
  intros P R T D L H M F En. destruct (bump_macro expand (sp_lines s) ts k t m j d T D L H M F) as (lines' & O & V).
  exact (body_bytes _ b s tt lines' tt _ m j d _ nb P R O V (proj1 F) En).
Qed.
Theorem bump_tag_bytes (expand : list str -> bool -> unit -> str -> result str * unit) b s ts k t m nb :
  plain_file b -> read_lines b = Ok s -> read_tags expand (sp_lines s) tt = (sp_lines s, tt, Ok ts) -> designates ts (lit "release") k t -> lower (t_name t) = lit "release" ->
  has_autorelease (t_value t) = Ok false -> read_macros expand (sp_lines s) tt = (sp_lines s, tt, Ok m) -> (forall d, In d (md_data m) -> ~ release_name d) ->
  encode (bump_release_string (t_value t)) = Some nb ->
  exists b', with_file (bump_release expand) b tt = (b', tt, Ok tt) /\ bytes_replaced (before_value ts k t) (t_value t) (bump_release_string (t_value t)) b b'.
Proof.
  intros P R T D L H M F En. destruct (bump_tag expand (sp_lines s) ts k t m T D L H M F) as (lines' & O & V).
  exact (value_bytes _ b s tt lines' tt _ ts k t _ nb P R O V (proj1 D) En).
Qed.
Theorem half_bytes (W : Type) (expand : list str -> bool -> W -> str -> result str * W) version release b s w w' ts k t nb :
  plain_file b -> read_lines b = Ok s -> read_tags expand (sp_lines s) w = (sp_lines s, w', Ok ts) ->
  designates ts (lit "version") k t -> lower (t_name t) = lit "version" -> (forall u, In u (ts_data ts) -> lower (t_name u) <> lit "release") -> encode version = Some nb ->
  exists b', with_file (set_version_and_release expand version release) b w = (b', w', Err AttributeError) /\ bytes_replaced (before_value ts k t) (t_value t) version b b'.
Proof.
  intros P R T D L H En. destruct (set_both_without_release expand version release (sp_lines s) w w' ts k t T D L H) as (lines' & O & V).
  exact (value_bytes _ b s w lines' w' _ ts k t _ nb P R O V (proj1 D) En).
Qed.
Theorem unencodable_bytes (W : Type) (expand : list str -> bool -> W -> str -> result str * W) name v b s w w' ts k t :
  plain_file b -> read_lines b = Ok s -> read_tags expand (sp_lines s) w = (sp_lines s, w', Ok ts) -> designates ts name k t -> lower (t_name t) = lower name -> encode v = None ->
  with_file (set_tag expand name v) b w = ([], w', Err ValueError).
Proof.
  intros P R T D L En. destruct (set_tag_value expand name v (sp_lines s) w w' ts k t T D L) as (lines' & O & V).
  destruct (value_text ts k v _ _ t V (proj1 D)) as (Y & E & E'). cbv zeta in E'.
  unfold with_file. rewrite R, O. unfold save.
  assert (N : encode (spec_str (mkSpec lines' (sp_newline s))) = None).
  { assert (L' : lines' <> []) by (apply text_nonempty; rewrite E', !app_assoc, <- app_assoc; apply tail_nonempty).
    pose proof (spec_text (mkSpec lines' (sp_newline s)) L') as Q. cbn [sp_lines sp_newline] in Q. rewrite E' in Q.
    apply (f_equal encode) in Q. rewrite !encode_app, En in Q. destruct (encode (spec_str _)); [|reflexivity]. exfalso.
    assert (exists z, encode (if sp_newline s then [] else [LF]) = Some z) as [z Hz] by (destruct (sp_newline s); eexists; reflexivity).
    rewrite Hz in Q. repeat destruct (encode _); discriminate. }
  now rewrite N.
Qed.
End Uni.
