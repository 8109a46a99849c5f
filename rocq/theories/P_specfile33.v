(** Concrete spec files: sections that are edited, removed and added, patch macros. *)
From Coq Require Import Ascii String.
From Coq Require Import NArith ZArith List Bool Arith Lia.
From Verif Require P_specfile27 P_sections3 P_tags3 P_prep2.
From Verif Require Import PyStr PyStrFacts Regex M_constants M_options M_value M_macro_definitions Spec_macro_definitions P_macro_definitions
  M_conditions M_sections Spec_sections P_sections M_tags Spec_tags Spec_specfile Spec_specfile2
  P_specfile P_specfile9 P_specfile11 P_specfile16 P_sections4 M_changelog Spec_changelog M_prep Spec_prep Spec_value Spec_options Spec_specfile5 Spec_specfile6 P_specfile29.
Import ListNotations.
Open Scope N_scope.
Open Scope nat_scope.

#[local] Existing Instance unicode_none.
(** Lines that may begin with "%p". *)
Definition tidy_lineb (l : str) : bool :=
  forallb (fun c => negb (is_linebreak c) && negb (N.eqb c LF) && negb (N.eqb c HASH)) l && str_eqb (rstrip l) l &&
  negb (startswith l [PCT; LBRACE]) && negb (startswith (lower (tl l)) (lit "package")) &&
  (negb (is_header l) || forallb (fun c => negb (is_quote c) && negb (N.eqb c BSLASH) && negb (N.eqb c PCT)) (tl l)).
Lemma tidy_line_ok l : tidy_lineb l = true -> tidy_line l /\ clean_line l /\ ~ trailing_ws l.
Proof.
  unfold tidy_lineb. rewrite !andb_true_iff. intros ((((F & R) & P) & Q) & H). rewrite forallb_forall in F. apply str_eqb_eq in R. apply negb_true_iff in P, Q.
  assert (NL : ~ In LF l) by (intros Hi; apply F in Hi; discriminate).
  assert (NH : ~ In HASH l) by (intros Hi; apply F in Hi; discriminate).
  assert (NT : ~ trailing_ws l) by now apply no_trailing.
  split; [|split; [|exact NT]].
  - split; [|split; [exact R|split; [|split]]].
    + apply Forall_forall. intros c Hc. apply F in Hc. destruct (is_linebreak c); [discriminate|reflexivity].
    + apply P_tags3.regular_not_braced. intros x ->. cbn in P. discriminate.
    + intros Hh. apply header_spec in Hh; auto. rewrite Hh in H. cbn in H. apply P_sections3.plain_header. rewrite forallb_forall in H. apply Forall_forall. intros c Hc.
      apply H in Hc. rewrite !andb_true_iff, !negb_true_iff, !N.eqb_neq in Hc. tauto.
    + intros (n & rest & -> & Ln & _). cbn [tl] in Q. rewrite P_sections3.lower_app, Ln in Q. cbn in Q. discriminate.
  - split; [exact NL|]. split; [|contradiction]. intros (w & x & k & y & _ & _ & Hx & ->). apply NH. rewrite !in_app_iff. tauto.
Qed.
Lemma tidy_file_ok ls : forallb tidy_lineb ls = true -> Forall tidy_line ls /\ clean ls.
Proof.
  intros F. rewrite forallb_forall in F. split; [apply Forall_forall; intros l Hl; apply F, tidy_line_ok in Hl; tauto|]. split.
  - apply Forall_forall. intros l Hl. apply F, tidy_line_ok in Hl. tauto.
  - intros (a & l & -> & T). assert (Hl : In l (a ++ [l; []])) by (rewrite in_app_iff; cbn; tauto). apply F, tidy_line_ok in Hl. tauto.
Qed.
Lemma no_keyword_by l : existsb (N.eqb 98) l = false -> existsb (N.eqb 102) l = false -> ~ mentions_keyword l.
Proof.
  intros C D (x & k & y & [->| ->] & ->).
  - assert (K : existsb (N.eqb 98) (x ++ lit "global" ++ y) = true); [|congruence]. apply existsb_exists. exists 98%N. split; [|reflexivity]. apply in_or_app. right. apply in_or_app. left. vm_compute. tauto.
  - assert (K : existsb (N.eqb 102) (x ++ lit "define" ++ y) = true); [|congruence]. apply existsb_exists. exists 102%N. split; [|reflexivity]. apply in_or_app. right. apply in_or_app. left. vm_compute. tauto.
Qed.
Lemma text_tidy l : tidy_lineb l = true -> existsb (N.eqb 98) l = false -> existsb (N.eqb 102) l = false -> is_header l = false -> text_line l.
Proof.
  intros T C D H. destruct (tidy_line_ok l T) as (T1 & (NL & _) & _). split; [exact T1|]. split; [now apply no_keyword_by|]. intros Q. apply header_spec in Q; auto. congruence.
Qed.
Definition prep_file : list str := file ["%global v 1"; "Name: x"; "%prep"; "%setup"; "%patch 1"; "%build"; "make"; "%changelog"; "* Fri Jan  3 2025 A - 1-1"; "- first"]%string.
Lemma prep_regular : regular_file prep_file /\ plain_headers prep_file.
Proof.
  destruct (tidy_file_ok prep_file) as (T & C); [vm_compute; reflexivity|]. split.
  - split; [exact T|]. split; [apply C|]. split; [|apply outside_by; [exact C|vm_compute; reflexivity]].
    apply apart_by. assert (map d_name (md_data (parse_plain prep_file)) = [lit "v"]) as -> by (vm_compute; reflexivity). repeat constructor; vm_compute; intuition discriminate.
  - apply headers_by; [vm_compute; reflexivity|]. eapply Forall_impl; [|exact T]. intros l (Nb & _). now apply no_break_LF.
Qed.
Lemma prep_outside i : 1 <= i -> ~ in_definition (parse_plain prep_file) i.
Proof.
  intros Hi (a & d & b & j & E & Hj & Ei).
  assert (F : map (fun d => (length (d_preceding d), length (M_macro_definitions.own_lines d))) (md_data (parse_plain prep_file)) = [(0, 1)]) by (vm_compute; reflexivity).
  rewrite E, map_app in F. destruct a as [|d0 a]; [|destruct a; discriminate]. cbn [map app] in F. injection F as F1 F2 _. cbn [flat_map length] in Ei. lia.
Qed.
Definition prep_secs : list section := Eval vm_compute in match M_sections.parse (fun _ (_ : unit) s => (Ok s, tt)) tt prep_file with (Ok l, _) => l | _ => [] end.
Lemma prep_reads : reads_sections prep_file prep_secs.
Proof. intros W e w. vm_compute. reflexivity. Qed.
Definition no_section : section := mk_section [] (mk_opts [] [] []) [] [] [].
Definition p_top : section := Eval vm_compute in nth 0 prep_secs no_section.
Definition p_prep : section := Eval vm_compute in nth 1 prep_secs no_section.
Definition p_build : section := Eval vm_compute in nth 2 prep_secs no_section.
Definition p_log : section := Eval vm_compute in nth 3 prep_secs no_section.
(** A new section. *)
Definition check_file : list str := file ["%check"; "make check"]%string.
Definition p_check : section := Eval vm_compute in match M_sections.parse (fun _ (_ : unit) s => (Ok s, tt)) tt check_file with (Ok l, _) => nth 1 l no_section | _ => no_section end.
Definition p_above : section := Eval vm_compute in match M_sections.parse (fun _ (_ : unit) s => (Ok s, tt)) tt check_file with (Ok l, _) => nth 0 l no_section | _ => no_section end.
Lemma check_fresh : fresh_section p_check.
Proof.
  exists (lit "%check"). split; [vm_compute; reflexivity|]. destruct (tidy_line_ok (lit "%check")) as (T & (NL & _) & _); [vm_compute; reflexivity|]. split; [exact T|]. split; [now apply no_keyword_by|].
  split; [apply header_spec; [exact NL|vm_compute; reflexivity]|]. split; [apply headers_by; [vm_compute; reflexivity|constructor; [exact NL|constructor]]|].
  split; [constructor; [|constructor]; apply text_tidy; vm_compute; reflexivity|]. exists p_above. split; [split; vm_compute; reflexivity|]. intros W e w. vm_compute. reflexivity.
Qed.
(** A patch more in %prep and one less, %check instead of %build. *)
Definition edited_secs : list section := Eval vm_compute in [with_data [lit "%setup"; lit "%patch 2"] p_prep; p_check; p_log].
Lemma prep_edited : sections_edited (in_definition (parse_plain prep_file)) (length (section_raw p_top)) [p_prep; p_build; p_log] edited_secs.
Proof.
  assert (L : length (section_raw p_top) = 2) by (vm_compute; reflexivity). rewrite L.
  apply (SE_edit _ 2 p_prep [lit "%setup"; lit "%patch 2"]).
  - intros i Hi. apply prep_outside. lia.
  - apply LE_keep, LE_drop, LE_add; [apply text_tidy; vm_compute; reflexivity|apply LE_nil].
  - apply SE_drop; [intros i Hi; apply prep_outside; lia|]. apply SE_add; [intros i Hi; apply prep_outside; lia|exact check_fresh|]. apply SE_keep, SE_nil.
Qed.
Lemma edited_text : sections_raw (p_top :: edited_secs) = file ["%global v 1"; "Name: x"; "%prep"; "%setup"; "%patch 2"; "%check"; "make check"; "%changelog"; "* Fri Jan  3 2025 A - 1-1"; "- first"]%string.
Proof. vm_compute. reflexivity. Qed.
Lemma prep_free a s : a <> [] -> hd_error a = Some p_top -> free_section prep_file a s.
Proof.
  intros N Hd i Hi. apply prep_outside. destruct a as [|x a]; [contradiction|]. injection Hd as ->. cbn [sections_raw flat_map] in Hi. rewrite app_length in Hi. assert (L : length (section_raw p_top) = 2) by (vm_compute; reflexivity). rewrite L in Hi. lia.
Qed.
(** The macros of %prep. *)
Definition prep_infos : list (option (str * str)) := [Some (lit "%setup", []); Some (lit "%patch", lit "1")].
Ltac canon := repeat (first [apply C_space; [vm_compute; reflexivity|]
   | apply C_plain; [discriminate|discriminate|repeat (constructor; [vm_compute; auto|]); constructor|]]); apply C_nil.
Ltac canon_text l := exists l; split; [vm_compute; reflexivity|]; split; [vm_compute; reflexivity|]; unfold atoms; cbn [flat_map map app lit list_ascii_of_string]; canon.
Ltac no := vm_compute; intuition discriminate.
Ltac macro_here := split; [reflexivity|]; split; [first [left; cbn; tauto|right; eexists; split; [reflexivity|repeat constructor]]|];
  split; [intros; apply Nat.le_0_l|]; split; [repeat constructor|];
  split; [intros ? ? Q; first [discriminate Q|injection Q as <- <-; reflexivity]|].
Lemma prep_kept : Forall2 kept prep_infos (s_data p_prep).
Proof.
  unfold prep_infos. change (s_data p_prep) with [lit "%setup"; lit "%patch 1"]. constructor; [|constructor; [|constructor]].
  - apply (K_macro _ [] (lit "%setup") [] []); [no|apply P_prep2.no_brace_unwrapped; no| |congruence|canon_text (@nil node)]. macro_here. discriminate.
  - apply (K_macro _ [] _ [SPC]); [no|apply P_prep2.no_brace_unwrapped; no| |discriminate|canon_text [StringLiteral (lit "1")]]. macro_here. intros ds c o _ Q. injection Q as <- <-. reflexivity.
Qed.
Definition prep_parsed : prep := Eval vm_compute in match M_prep.parse (s_data p_prep) with Ok p => p | Err _ => mk_prep [] [] end.
Definition setup_macro : macro := Eval vm_compute in nth 0 (p_macros prep_parsed) (mk_macro Setup [] (mk_opts [] [] []) [] [] [] []).
Definition patch_macro_1 : macro := Eval vm_compute in nth 1 (p_macros prep_parsed) (mk_macro Setup [] (mk_opts [] [] []) [] [] [] []).
Definition new_macro : macro := Eval vm_compute in match new_patch (Some 2%Z) false [] with Ok m => m | Err _ => setup_macro end.
Lemma prep_numbers p : M_prep.parse (s_data p_prep) = Ok p -> exists ns, patch_numbers (p_macros p) ns.
Proof. intros E. assert (Q : M_prep.parse (s_data p_prep) = Ok prep_parsed) by (vm_compute; reflexivity). rewrite Q in E. injection E as <-. exists [1%Z]. constructor; [vm_compute; reflexivity|constructor]. Qed.
Lemma new_text : text_line (macro_line new_macro).
Proof. apply text_tidy; vm_compute; reflexivity. Qed.
(** The last line of the file continues. *)
Definition cont_file : list str := file ["Name: x"; "%build"; "make"; "%global x a\"]%string.
Lemma cont_regular : regular_file cont_file /\ plain_headers cont_file.
Proof.
  destruct (tidy_file_ok cont_file) as (T & C); [vm_compute; reflexivity|]. split.
  - split; [exact T|]. split; [apply C|]. split; [|apply outside_by; [exact C|vm_compute; reflexivity]].
    apply apart_by. assert (map d_name (md_data (parse_plain cont_file)) = [lit "x"]) as -> by (vm_compute; reflexivity). repeat constructor; vm_compute; intuition discriminate.
  - apply headers_by; [vm_compute; reflexivity|]. eapply Forall_impl; [|exact T]. intros l (Nb & _). now apply no_break_LF.
Qed.
Definition cont_secs : list section := Eval vm_compute in match M_sections.parse (fun _ (_ : unit) s => (Ok s, tt)) tt cont_file with (Ok l, _) => l | _ => [] end.
Lemma cont_reads : reads_sections cont_file cont_secs.
Proof. intros W e w. vm_compute. reflexivity. Qed.
Lemma cont_lost : option_map (map s_nid) (match M_sections.parse (fun _ (_ : unit) s => (Ok s, tt)) tt (sections_raw (cont_secs ++ [p_check])) with (Ok l, _) => Some l | _ => None end) = Some (map s_nid cont_secs).
Proof. vm_compute. reflexivity. Qed.
