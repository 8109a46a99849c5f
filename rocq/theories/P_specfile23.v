(** A concrete spec file with sources and patches. *)
From Coq Require Import Ascii String.
From Coq Require Import NArith ZArith List Bool Arith Lia.
From Verif Require Import PyStr PyStrFacts Regex M_constants M_options M_value M_macro_definitions Spec_macro_definitions P_macro_definitions
  M_conditions M_sections Spec_sections P_sections M_tags Spec_tags P_tags3 M_sourcelist M_sources Spec_sources M_specfile M_specfile2 Spec_specfile Spec_specfile2 Spec_specfile3 P_specfile P_specfile2 P_specfile7 P_specfile9 P_specfile16.
Import ListNotations.
Open Scope N_scope.
Open Scope nat_scope.

#[local] Existing Instance unicode_none.
Definition src_file : list str := file ["%global v 1"; "Name: x"; "Source0: a"; "%if 1"; "Source5: b"; "%endif"; ""; "Patch1: p"; "%description"; "x"; "%sourcelist"; "z"]%string.
Definition src_read : sources := match read_sources ex_expand false false false 0 src_file tt with (_, _, Ok s) => s | _ => mk_sources (mk_tags [] []) [] false false 0 false end.
Definition pat_read : sources := match read_sources ex_expand true false false 0 src_file tt with (_, _, Ok s) => s | _ => mk_sources (mk_tags [] []) [] false false 0 false end.
Lemma src_reads : read_sources ex_expand false false false 0 src_file tt = (src_file, tt, Ok src_read) /\ read_sources ex_expand true false false 0 src_file tt = (src_file, tt, Ok pat_read).
Proof. split; vm_compute; reflexivity. Qed.
Lemma src_clean : Forall tidy_line src_file /\ clean src_file.
Proof. apply plain_file_ok. vm_compute. reflexivity. Qed.
Lemma src_regular : regular_file src_file.
Proof.
  destruct src_clean as (T & C). split; [exact T|]. split; [apply C|]. split; [|apply outside_by; [exact C|vm_compute; reflexivity]].
  apply apart_by. assert (map d_name (md_data (parse_plain src_file)) = [lit "v"]) as -> by (vm_compute; reflexivity). repeat constructor; vm_compute; intuition discriminate.
Qed.
Lemma tags_by (d : list tag) : forallb (fun u => (match t_prefix u, t_suffix u, t_separator u with [], [], c :: _ => N.eqb c COLON | _, _, _ => false end) && forallb (fun c => negb (N.eqb c LF)) (t_value u) && (let (a, b) := count_brackets (t_value u) in Nat.eqb a 0 && Nat.eqb b 0)) d = true ->
  Forall simple_tag d /\ Forall neat d.
Proof.
  intros F. rewrite forallb_forall in F. split; apply Forall_forall; intros u Hu; apply F in Hu; apply andb_true_iff in Hu as [Hu H3]; apply andb_true_iff in Hu as [H1 H2];
    assert (L : ~ In LF (t_value u)) by (rewrite forallb_forall in H2; intros Q; apply H2 in Q; discriminate).
  - split; [exact L|]. destruct (count_brackets (t_value u)) as [a b]. apply andb_true_iff in H3 as [A B]. apply Nat.eqb_eq in A, B. now subst.
  - intros _. unfold one_line, colon_sep. destruct (t_prefix u), (t_suffix u), (t_separator u) as [|c r]; try discriminate. apply N.eqb_eq in H1. subst c. split; [auto|now exists r].
Qed.
Lemma src_tags : Forall simple_tag (ts_data (s_tags src_read)) /\ Forall neat (ts_data (s_tags src_read)).
Proof. apply tags_by. vm_compute. reflexivity. Qed.
Lemma pat_tags : Forall simple_tag (ts_data (s_tags pat_read)) /\ Forall neat (ts_data (s_tags pat_read)).
Proof. apply tags_by. vm_compute. reflexivity. Qed.
Lemma lists_by (pt : bool) lines : forallb (fun l => match l with c :: r => negb (startswith r (if pt then lit "patchlist" else lit "sourcelist")) || str_eqb r (if pt then lit "patchlist" else lit "sourcelist") | [] => true end) lines = true -> plain_lists pt lines.
Proof.
  intros F l sp t Hl _ ->. rewrite forallb_forall in F. apply F in Hl. cbv beta iota in Hl. rewrite (proj2 (startswith_iff _ _)) in Hl by (eexists; reflexivity). cbn [negb orb] in Hl. apply str_eqb_eq in Hl. apply (f_equal (@length _)) in Hl. rewrite !app_length in Hl. cbn [length] in Hl. lia.
Qed.
Lemma src_plain pt : plain_lists pt src_file.
Proof. apply lists_by. destruct pt; vm_compute; reflexivity. Qed.
Lemma src_into i : i < 2 -> into_tags src_read i.
Proof.
  intros Hi. assert (E : get_items src_read = [mk_item 0 (InTags 1); mk_item 5 (InTags 2); mk_item 6 (InList 0 0)]) by (vm_compute; reflexivity). split; rewrite E; [|discriminate]. intros x Hx. cbn [length] in Hx. destruct i as [|[|i]]; [| |lia]; cbn in Hx; injection Hx as <-; cbn; eauto.
Qed.
Lemma src_between p : p < 12 -> between_definitions src_file p.
Proof.
  intros Hp. split; [|intros E; exfalso; change (length src_file) with 12 in E; lia]. intros (a & d & b & j & E & Hj & _).
  assert (F : forallb (fun d => Nat.eqb (length (M_macro_definitions.own_lines d)) 1) (md_data (parse_plain src_file)) = true) by (vm_compute; reflexivity).
  rewrite E, forallb_app in F. cbn [forallb] in F. apply andb_true_iff in F as [_ F]. apply andb_true_iff in F as [F _]. apply Nat.eqb_eq in F. lia.
Qed.
Lemma src_value : file_value (lit "new.tar.gz").
Proof.
  split; [repeat constructor|]. split; [eexists _, _; split; reflexivity|]. split; [reflexivity|]. split; [vm_compute; reflexivity|]. intros (x & Q). apply (f_equal (fun l => last l 0%N)) in Q. rewrite last_last in Q. discriminate.
Qed.
Lemma src_patches : no_list_entries pat_read /\ NoDup (numbers pat_read).
Proof.
  split; [assert (s_lists pat_read = []) by (vm_compute; reflexivity); unfold no_list_entries; rewrite H; constructor|].
  assert (numbers pat_read = [1%Z]) as -> by (vm_compute; reflexivity). repeat constructor; auto.
Qed.

(** A definition with a line "%endif" in it is torn apart. *)
Definition tear_file : list str := file ["Name: x"; "Source0: a"; "%global m %{expand: \"; "%if 1 \"; "b \"; "%endif \"; "c}"; "License: MIT"]%string.
Definition torn_file : list str := file ["Name: x"; "Source0: a"; "%global m %{expand: \"; "%if 1 \"; "b \"; "%endif \"; "Source1: n"; "c}"; "License: MIT"]%string.
Definition tear_read : sources := match read_sources ex_expand false false false 0 tear_file tt with (_, _, Ok s) => s | _ => mk_sources (mk_tags [] []) [] false false 0 false end.
Lemma tear_clean : Forall tidy_line tear_file /\ Forall clean_line tear_file.
Proof. destruct (plain_file_ok tear_file) as (T & C); [vm_compute; reflexivity|]. split; [exact T|apply C]. Qed.
Lemma tear_torn : edit_sources ex_expand false false false 0 (fun s => insert s 1 (lit "n")) tear_file tt = (torn_file, tt, Ok tt) /\
  map d_body (md_data (parse_plain tear_file)) <> map d_body (md_data (parse_plain torn_file)).
Proof. split; vm_compute; [reflexivity|discriminate]. Qed.
(** A list section with a capital letter in its name. *)
Definition list_file : list str := file ["Name: x"; "%Sourcelist"; "a"]%string.
Lemma list_missed : exists s, read_sources ex_expand false false false 0 list_file tt = (list_file, tt, Ok s) /\ locations s = [].
Proof. eexists. split; vm_compute; reflexivity. Qed.
