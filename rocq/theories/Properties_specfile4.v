(** Properties C180-C183: sources deleted from a whole spec file, patches with comments.  Specification: Spec_specfile4.v, Spec_specfile3.v, Spec_sources.v.
    [expand lines skip w s] is the expansion of [s] by RPM when the file has these lines; any function will do. *)
From Coq Require Import Ascii String.
From Coq Require Import NArith ZArith List Bool Arith Lia.
From Verif Require P_sources8.
From Verif Require Import PyStr PyStrFacts Regex M_value M_macro_definitions Spec_macro_definitions M_sections Spec_sections M_tags Spec_tags M_sourcelist M_sources Spec_sources
  M_specfile M_specfile2 Spec_specfile Spec_specfile2 Spec_specfile3 Spec_specfile4 P_specfile9 P_specfile23 P_specfile24 P_specfile25 P_specfile26.
Import ListNotations.
Open Scope N_scope.

(** * C180 *)
(** The source (or patch) at index [k], a tag, is deleted.  Its line and its comments go away, empty lines around them become one, nothing else in the file
    changes; and if no macro definition is among these lines, reading the file again shows the locations without this one, the same other tags and the same macros. *)
Theorem C180_delete : forall (U : Unicode) (W : Type) (expand : list str -> bool -> W -> str -> result str * W) patches dups implicit digits lines w w1 s k j lines' w2,
  regular_file lines -> plain_lists patches lines -> read_sources expand patches dups implicit digits lines w = (lines, w1, Ok s) ->
  Forall simple_tag (ts_data (s_tags s)) -> Forall neat (ts_data (s_tags s)) -> caseless_digits ->
  (exists n, nth_error (get_items s) k = Some (mk_item n (InTags j))) ->
  edit_sources expand patches dups implicit digits (fun s => delete_item s (Z.of_nat k)) lines w = (lines', w2, Ok tt) ->
  exists v, nth_error (locations s) k = Some v /\ file_deleted expand patches dups implicit digits lines s v lines'
    (fun s2 => locations s2 = removed k (locations s) /\ (increasing (numbers s) -> increasing (numbers s2)) /\
       (all_numbered s -> no_list_entries s -> numbers s2 = removed k (numbers s))).
Proof. exact @delete_file. Qed.
Print Assumptions C180_delete.
(** The same for [remove_numbered]; without a source of this number the file stays as it is. *)
Theorem C180_remove_numbered : forall (U : Unicode) (W : Type) (expand : list str -> bool -> W -> str -> result str * W) patches dups implicit digits lines w w1 s number lines' w2,
  regular_file lines -> plain_lists patches lines -> read_sources expand patches dups implicit digits lines w = (lines, w1, Ok s) ->
  Forall simple_tag (ts_data (s_tags s)) -> Forall neat (ts_data (s_tags s)) -> caseless_digits ->
  (forall x, In x (get_items s) -> i_number x = number -> exists j, i_place x = InTags j) ->
  edit_sources expand patches dups implicit digits (fun s => remove_numbered s number) lines w = (lines', w2, Ok tt) ->
  ~ In number (numbers s) /\ lines' = lines \/
  exists k v, nth_error (numbers s) k = Some number /\ nth_error (locations s) k = Some v /\ file_deleted expand patches dups implicit digits lines s v lines'
    (fun s2 => locations s2 = removed k (locations s) /\ (increasing (numbers s) -> increasing (numbers s2)) /\
       (all_numbered s -> no_list_entries s -> numbers s2 = removed k (numbers s))).
Proof. exact @remove_numbered_file. Qed.
Print Assumptions C180_remove_numbered.
Example C180_witness : regular_file (U:=unicode_none) del_file /\ plain_lists false del_file /\
  read_sources (U:=unicode_none) ex_expand false false false 0 del_file tt = (del_file, tt, Ok del_read) /\
  Forall simple_tag (ts_data (s_tags del_read)) /\ Forall (neat (U:=unicode_none)) (ts_data (s_tags del_read)) /\ caseless_digits (U:=unicode_none) /\
  nth_error (get_items (U:=unicode_none) del_read) 1 = Some (mk_item 5 (InTags 2)) /\
  (forall x, In x (get_items (U:=unicode_none) del_read) -> i_number x = 5%Z -> exists j, i_place x = InTags j) /\
  (forall i, (3 <= i < 8)%nat -> ~ in_definition (parse_plain (U:=unicode_none) del_file) i) /\
  edit_sources (U:=unicode_none) ex_expand false false false 0 (fun s => delete_item (U:=unicode_none) s 1) del_file tt =
    (file ["%global v 1"; "Name: x"; "Source0: a"; ""; "License: MIT"; "%description"; "x"]%string, tt, Ok tt) /\
  edit_sources (U:=unicode_none) ex_expand false false false 0 (fun s => remove_numbered (U:=unicode_none) s 5) del_file tt =
    (file ["%global v 1"; "Name: x"; "Source0: a"; ""; "License: MIT"; "%description"; "x"]%string, tt, Ok tt).
Proof.
  split; [exact del_regular|]. split; [apply del_plain|]. split; [exact del_reads|]. split; [apply del_tags|]. split; [apply del_tags|]. split; [exact P_sources8.ascii_caseless|].
  rewrite del_items. split; [reflexivity|]. split; [intros x [<-|[<-|[]]]; cbn; eauto|]. split; [exact del_outside|]. split; vm_compute; reflexivity.
Qed.

(** * C181 *)
(** [Specfile.add_patch] with a comment: as [C175_add_patch], and the lines of the comment are right above the new line. *)
Theorem C181_add_patch : forall (U : Unicode) (W : Type) (expand : list str -> bool -> W -> str -> result str * W) lines w w1 s loc number comment initial digits lines' w2,
  regular_file lines -> plain_lists true lines -> read_sources expand true false false digits lines w = (lines, w1, Ok s) ->
  Forall simple_tag (ts_data (s_tags s)) -> Forall neat (ts_data (s_tags s)) -> caseless_digits -> file_value loc -> no_list_entries s -> NoDup (numbers s) ->
  (forall n, number = Some n -> 0 <= n)%Z -> spec_add_patch expand loc number comment initial digits lines w = (lines', w2, Ok tt) ->
  file_inserted_below expand true false false digits lines s (splitlines comment) loc lines' (fun s2 => exists k m h,
    locations s2 = inserted k loc (locations s) /\ numbers s2 = inserted k m (numbers s) /\
    (forall x, In x (numbers s) -> x <= h)%Z /\ (locations s <> [] -> In h (numbers s)) /\ (locations s = [] -> h = -1)%Z /\
    let n := match number with Some n => n | None => Z.max (h + 1) initial end in
    (all_numbered s -> locations s <> [] -> m = n) /\ (locations s = [] -> digits <> 0%nat -> m = n) /\ (n = (h + 1)%Z -> m = n)).
Proof. exact @add_commented_patch_file. Qed.
Print Assumptions C181_add_patch.
(** The hypotheses are met as in [C175_witness]. *)
Example C181_witness : Forall quiet_comment (splitlines (lit "note")) /\
  spec_add_patch (U:=unicode_none) ex_expand (lit "new.tar.gz") None (lit "note") 0 0 src_file tt =
    (file ["%global v 1"; "Name: x"; "Source0: a"; "%if 1"; "Source5: b"; "%endif"; ""; "Patch1: p"; "# note"; "Patch2: new.tar.gz"; "%description"; "x"; "%sourcelist"; "z"]%string, tt, Ok tt).
Proof. split; [|vm_compute; reflexivity]. assert (splitlines (lit "note") = [lit "note"]) as -> by reflexivity. constructor; [exact note_quiet|constructor]. Qed.

(** * C182 *)
(** Not so: a definition that is commented out right above a source is a comment of that source, and goes away with it. *)
Theorem C182_deletion_keeps_macros_refuted : ~ (forall (U : Unicode) (expand : list str -> bool -> unit -> str -> result str * unit) lines i lines',
  Forall tidy_line lines -> edit_sources expand false false false 0 (fun s => delete_item s i) lines tt = (lines', tt, Ok tt) ->
  map d_body (md_data (parse_plain lines')) = map d_body (md_data (parse_plain lines))).
Proof.
  intros H. destruct out_gone as (E & A & B). apply (H unicode_none) in E; [|exact out_tidy]. apply (f_equal (@length _)) in E. rewrite !map_length in E. congruence.
Qed.
Print Assumptions C182_deletion_keeps_macros_refuted.

(** * C183 *)
(** Not so: a comment that mentions "%global" can be read as a definition that is commented out. *)
Theorem C183_comment_defines_nothing_refuted : ~ (forall (U : Unicode) (expand : list str -> bool -> unit -> str -> result str * unit) lines loc comment lines',
  Forall tidy_line lines -> spec_add_patch expand loc None comment 0 0 lines tt = (lines', tt, Ok tt) ->
  map d_body (md_data (parse_plain lines')) = map d_body (md_data (parse_plain lines))).
Proof.
  intros H. destruct say_more as (E & A & B). apply (H unicode_none) in E; [|exact say_tidy]. apply (f_equal (@length _)) in E. rewrite !map_length in E. congruence.
Qed.
Print Assumptions C183_comment_defines_nothing_refuted.
