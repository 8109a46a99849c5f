(** Property C236: the bytes that adding and deleting sources and patches changes.  Specification: Spec_bytes2.v, Spec_bytes.v, Spec_specfile3.v, Spec_specfile4.v. *)
From Coq Require Import Ascii String.
From Coq Require Import NArith ZArith List Bool Arith Lia.
From Verif Require Import PyStr M_value M_macro_definitions Spec_macro_definitions M_sections Spec_sections M_tags Spec_tags M_sourcelist M_sources Spec_sources
  M_specfile M_specfile2 Spec_specfile Spec_specfile2 Spec_specfile3 Spec_specfile4 P_specfile9 P_specfile23 P_specfile26 M_file Spec_file M_bytes Spec_bytes Spec_bytes2 P_bytes4.
Import ListNotations.
Open Scope N_scope.

(** * C236 *)
(** Deleting a source that is given by a tag: its line, the comments right above it and the empty lines around them go, and one line feed stays if there were empty lines; all other
    bytes stay. *)
Theorem C236_delete : forall (U : Unicode) (W : Type) (expand : list str -> bool -> W -> str -> result str * W) patches dups implicit digits b sp w w1 s k j lines' w2,
  plain_file b -> read_lines b = Ok sp ->
  regular_file (sp_lines sp) -> plain_lists patches (sp_lines sp) -> read_sources expand patches dups implicit digits (sp_lines sp) w = (sp_lines sp, w1, Ok s) ->
  Forall simple_tag (ts_data (s_tags s)) -> Forall neat (ts_data (s_tags s)) -> caseless_digits -> (exists n, nth_error (get_items s) k = Some (mk_item n (InTags j))) ->
  edit_sources expand patches dups implicit digits (fun s => delete_item s (Z.of_nat k)) (sp_lines sp) w = (lines', w2, Ok tt) ->
  exists v, nth_error (locations s) k = Some v /\ source_cut (edit_sources expand patches dups implicit digits (fun s => delete_item s (Z.of_nat k))) s v b (sp_lines sp) w w2.
Proof. exact @delete_bytes. Qed.
Print Assumptions C236_delete.
(** Inserting a location in front of a source that is given by a tag *)
Theorem C236_insert : forall (U : Unicode) (W : Type) (expand : list str -> bool -> W -> str -> result str * W) patches dups implicit digits b sp w w1 s i loc lines' w2,
  plain_file b -> read_lines b = Ok sp ->
  regular_file (sp_lines sp) -> plain_lists patches (sp_lines sp) -> read_sources expand patches dups implicit digits (sp_lines sp) w = (sp_lines sp, w1, Ok s) ->
  Forall simple_tag (ts_data (s_tags s)) -> Forall neat (ts_data (s_tags s)) -> caseless_digits -> file_value loc -> into_tags s i ->
  edit_sources expand patches dups implicit digits (fun s => insert s (Z.of_nat i) loc) (sp_lines sp) w = (lines', w2, Ok tt) ->
  source_put (edit_sources expand patches dups implicit digits (fun s => insert s (Z.of_nat i) loc)) s [] loc b (sp_lines sp) w w2.
Proof. exact @insert_bytes. Qed.
Print Assumptions C236_insert.
(** [Specfile.add_patch], with a comment *)
Theorem C236_add_patch : forall (U : Unicode) (W : Type) (expand : list str -> bool -> W -> str -> result str * W) b sp w w1 s loc number comment initial digits lines' w2,
  plain_file b -> read_lines b = Ok sp ->
  regular_file (sp_lines sp) -> plain_lists true (sp_lines sp) -> read_sources expand true false false digits (sp_lines sp) w = (sp_lines sp, w1, Ok s) ->
  Forall simple_tag (ts_data (s_tags s)) -> Forall neat (ts_data (s_tags s)) -> caseless_digits -> file_value loc -> no_list_entries s -> NoDup (numbers s) ->
  (forall n, number = Some n -> 0 <= n)%Z -> spec_add_patch expand loc number comment initial digits (sp_lines sp) w = (lines', w2, Ok tt) ->
  source_put (spec_add_patch expand loc number comment initial digits) s (map (fun c => lit "# " ++ c) (splitlines comment)) loc b (sp_lines sp) w w2.
Proof. exact @add_patch_bytes. Qed.
Print Assumptions C236_add_patch.
(** The files of [C175_witness] and [C180_witness], which show that the other hypotheses are met, as bytes *)
Definition text (l : list str) : list N := flat_map (fun l => l ++ [LF]) l.
Example C236_example :
  plain_file (text src_file) /\ read_lines (text src_file) = Ok (mkSpec src_file true) /\ regular_file (U:=unicode_none) src_file /\
  plain_file (text del_file) /\ read_lines (text del_file) = Ok (mkSpec del_file true) /\ regular_file (U:=unicode_none) del_file /\
  with_file (edit_sources (U:=unicode_none) ex_expand false false false 0 (fun s => delete_item (U:=unicode_none) s 1)) (text del_file) tt =
    (text (file ["%global v 1"; "Name: x"; "Source0: a"; ""; "License: MIT"; "%description"; "x"]%string), tt, Ok tt) /\
  with_file (spec_add_patch (U:=unicode_none) ex_expand (lit "new.tar.gz") None (lit "note") 0 0) (text src_file) tt =
    (text (file ["%global v 1"; "Name: x"; "Source0: a"; "%if 1"; "Source5: b"; "%endif"; ""; "Patch1: p"; "# note"; "Patch2: new.tar.gz"; "%description"; "x"; "%sourcelist"; "z"]%string), tt, Ok tt).
Proof.
  split; [split; [repeat constructor|]; split; [discriminate|]; vm_compute; repeat constructor; discriminate|]. split; [vm_compute; reflexivity|]. split; [exact src_regular|]. split; [split; [repeat constructor|]; split; [discriminate|]; vm_compute; repeat constructor; discriminate|]. split; [vm_compute; reflexivity|]. split; [exact del_regular|].
  split; vm_compute; reflexivity.
Qed.
