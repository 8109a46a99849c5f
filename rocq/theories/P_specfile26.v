(** Concrete spec files: sources that are deleted, a patch with a comment. *)
From Coq Require Import Ascii String.
From Coq Require Import NArith ZArith List Bool Arith Lia.
From Verif Require Import PyStr PyStrFacts Regex M_constants M_options M_value M_macro_definitions Spec_macro_definitions P_macro_definitions
  M_conditions M_sections Spec_sections P_sections M_tags Spec_tags P_tags3 M_sourcelist M_sources Spec_sources M_specfile M_specfile2 Spec_specfile Spec_specfile2 Spec_specfile3 Spec_specfile4
  P_specfile P_specfile2 P_specfile7 P_specfile9 P_specfile11 P_specfile16 P_specfile23 P_specfile25.
Import ListNotations.
Open Scope N_scope.
Open Scope nat_scope.

#[local] Existing Instance unicode_none.
Definition del_file : list str := file ["%global v 1"; "Name: x"; "Source0: a"; ""; "# note"; "Source5: b"; ""; ""; "License: MIT"; "%description"; "x"]%string.
Definition del_read : sources := match read_sources ex_expand false false false 0 del_file tt with (_, _, Ok s) => s | _ => mk_sources (mk_tags [] []) [] false false 0 false end.
Lemma del_reads : read_sources ex_expand false false false 0 del_file tt = (del_file, tt, Ok del_read).
Proof. vm_compute; reflexivity. Qed.
Lemma note_quiet : quiet_comment (lit "note").
Proof.
  split; [discriminate|]. split; [reflexivity|]. intros (a & k & b & H & E). apply (f_equal (@length _)) in E. rewrite !app_length in E. change (length (lit "note")) with 4 in E. destruct H as [->| ->]; cbn [length lit] in E; [change (length (lit "global")) with 6 in E|change (length (lit "define")) with 6 in E]; lia.
Qed.
Lemma del_sane : Forall sane del_file.
Proof.
  assert (E : del_file = file ["%global v 1"; "Name: x"; "Source0: a"; ""]%string ++ (lit "# " ++ lit "note") :: file ["Source5: b"; ""; ""; "License: MIT"; "%description"; "x"]%string) by reflexivity. rewrite E.
  assert (K : forall l, forallb plain_lineb l = true -> Forall sane l).
  { intros l H. destruct (plain_file_ok l H) as (T & (C & _)). apply Forall_forall. intros x Hx. rewrite Forall_forall in T, C. split; auto. }
  apply Forall_app. split; [apply K; vm_compute; reflexivity|]. constructor; [|apply K; vm_compute; reflexivity]. apply (comment_facts (lit "note")); [exact note_quiet|repeat constructor].
Qed.
Lemma del_regular : regular_file del_file.
Proof.
  pose proof del_sane as S. split; [now apply sane_tidy|]. pose proof (sane_clean _ S) as C. split; [apply C|]. split; [|apply outside_by; [exact C|vm_compute; reflexivity]].
  apply apart_by. assert (map d_name (md_data (parse_plain del_file)) = [lit "v"]) as -> by (vm_compute; reflexivity). repeat constructor; vm_compute; intuition discriminate.
Qed.
Lemma del_tags : Forall simple_tag (ts_data (s_tags del_read)) /\ Forall neat (ts_data (s_tags del_read)).
Proof. apply tags_by. vm_compute. reflexivity. Qed.
Lemma del_plain pt : plain_lists pt del_file.
Proof. apply lists_by. destruct pt; vm_compute; reflexivity. Qed.
Lemma del_items : get_items del_read = [mk_item 0 (InTags 1); mk_item 5 (InTags 2)].
Proof. vm_compute. reflexivity. Qed.
Lemma del_outside i : 3 <= i < 8 -> ~ in_definition (parse_plain del_file) i.
Proof.
  intros Hi (a & d & b & j & E & Hj & Ei).
  assert (F : map (fun d => (length (d_preceding d), length (M_macro_definitions.own_lines d))) (md_data (parse_plain del_file)) = [(0, 1)]) by (vm_compute; reflexivity).
  rewrite E, map_app in F. destruct a as [|d0 a]; [|destruct a; discriminate]. cbn [map app] in F. injection F as F1 F2 _. cbn [flat_map length] in Ei. lia.
Qed.
(** A definition that is commented out above a source. *)
Definition out_file : list str := file ["Name: x"; "#%global v 1"; "Source0: a"]%string.
Lemma out_gone : edit_sources ex_expand false false false 0 (fun s => delete_item s 0) out_file tt = (file ["Name: x"]%string, tt, Ok tt) /\
  length (md_data (parse_plain out_file)) = 1 /\ length (md_data (parse_plain (file ["Name: x"]%string))) = 0.
Proof. repeat split; vm_compute; reflexivity. Qed.
(** A comment that reads like a definition. *)
Definition say_file : list str := file ["Name: x"; "Patch0: a"]%string.
Lemma say_more : spec_add_patch ex_expand (lit "b") None (lit "without %global use now") 0 0 say_file tt = (file ["Name: x"; "Patch0: a"; "# without %global use now"; "Patch1: b"]%string, tt, Ok tt) /\
  length (md_data (parse_plain say_file)) = 0 /\ length (md_data (parse_plain (file ["Name: x"; "Patch0: a"; "# without %global use now"; "Patch1: b"]%string))) = 1.
Proof. repeat split; vm_compute; reflexivity. Qed.
Lemma out_tidy : Forall tidy_line out_file.
Proof.
  assert (K : forall l, forallb plain_lineb l = true -> Forall tidy_line l) by (intros l H; apply (plain_file_ok l H)).
  change out_file with ([lit "Name: x"] ++ lit "#%global v 1" :: [lit "Source0: a"]). apply Forall_app. split; [apply K; vm_compute; reflexivity|]. constructor; [|apply K; vm_compute; reflexivity].
  split; [repeat constructor|]. split; [reflexivity|]. split; [apply regular_not_braced; discriminate|]. split; [|intros (x & r & E & _); discriminate].
  intros H. apply header_spec in H; [|vm_compute; intuition discriminate]. discriminate.
Qed.
Lemma say_tidy : Forall tidy_line say_file.
Proof. apply plain_file_ok. vm_compute. reflexivity. Qed.
