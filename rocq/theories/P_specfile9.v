(** Concrete spec files: the conditions of the theorems about whole files can be met, and what goes wrong. *)
From Coq Require Import Ascii String.
From Coq Require Import NArith ZArith List Bool Lia.
From Verif Require Import PyStr PyStrFacts Regex M_constants M_options M_value M_macro_definitions Spec_macro_definitions P_macro_definitions
  M_conditions M_sections Spec_sections P_sections P_sections3 M_tags Spec_tags P_tags3
  M_release M_update M_specfile Spec_specfile P_specfile P_specfile2.
From Verif Require Export Spec_specfile_demo.
Import ListNotations.
Open Scope N_scope.

#[local] Existing Instance unicode_none.

(** A sufficient condition for lines without peculiarities *)
Definition plain_lineb (l : str) : bool :=
  forallb (fun c => negb (is_linebreak c) && negb (N.eqb c LF) && negb (N.eqb c HASH)) l && str_eqb (rstrip l) l &&
  match l with
  | c :: d :: _ => negb (N.eqb c PCT) || (negb (N.eqb d LBRACE) && match lower_c d with x :: _ => negb (N.eqb x 112) | [] => false end)
  | _ => negb (match l with [c] => N.eqb c PCT | _ => false end)
  end &&
  (negb (is_header l) || forallb (fun c => negb (is_quote c) && negb (N.eqb c BSLASH) && negb (N.eqb c PCT)) (tl l)).
Lemma plain_line_ok l : plain_lineb l = true -> tidy_line l /\ clean_line l /\ ~ trailing_ws l.
Proof.
  unfold plain_lineb. rewrite !andb_true_iff. intros (((F & R) & P) & H). rewrite forallb_forall in F. apply str_eqb_eq in R.
  assert (NL : ~ In LF l) by (intros Hi; apply F in Hi; discriminate).
  assert (NH : ~ In HASH l) by (intros Hi; apply F in Hi; discriminate).
  assert (NT : ~ trailing_ws l).
  { intros (a & c & -> & Sc). unfold rstrip in R. apply (f_equal (@rev N)) in R. rewrite rev_involutive, rev_app_distr in R. cbn [rev app] in R.
    cbn [lstrip dropwhile] in R. unfold lstrip in R. cbn in R. rewrite Sc in R. apply (f_equal (@length N)) in R.
    assert (L : forall s, (length (dropwhile is_space s) <= length s)%nat) by (induction s as [|x s IH]; cbn; [lia|]; destruct (is_space x); cbn; lia).
    specialize (L (rev a)). cbn in R. lia. }
  split; [|split; [|exact NT]].
  - split; [|split; [exact R|split; [|split]]].
    + apply Forall_forall. intros c Hc. apply F in Hc. destruct (is_linebreak c); [discriminate|reflexivity].
    + apply regular_not_braced. intros x ->. cbn in P. discriminate.
    + intros Hh. apply header_spec in Hh; auto. rewrite Hh in H. cbn in H. apply plain_header. rewrite forallb_forall in H. apply Forall_forall. intros c Hc.
      apply H in Hc. rewrite !andb_true_iff, !negb_true_iff, !N.eqb_neq in Hc. tauto.
    + intros (n & rest & -> & Ln & _). destruct n as [|c n]; [discriminate|]. cbn [app] in P. change (N.eqb PCT PCT) with true in P. cbn [negb orb] in P.
      apply andb_true_iff in P as [_ P]. cbn [lower flat_map] in Ln. destruct (lower_c c) as [|x y]; [discriminate|]. apply (f_equal (hd 0)) in Ln. cbn in Ln. subst x. discriminate.
  - split; [exact NL|]. split; [|contradiction]. intros (w & x & k & y & _ & _ & Hx & ->). apply NH. rewrite !in_app_iff. tauto.
Qed.
Lemma plain_file_ok ls : forallb plain_lineb ls = true -> Forall tidy_line ls /\ clean ls.
Proof.
  intros F. rewrite forallb_forall in F. split; [apply Forall_forall; intros l Hl; apply F, plain_line_ok in Hl; tauto|]. split.
  - apply Forall_forall. intros l Hl. apply F, plain_line_ok in Hl. tauto.
  - intros (a & l & -> & T). assert (Hl : In l (a ++ [l; []])) by (rewrite in_app_iff; cbn; tauto). apply F, plain_line_ok in Hl. tauto.
Qed.

(** The example *)
Definition ex_file : list str :=
  file ["%global ver 1.0"; "%if 0"; "Version: 9"; "%endif"; "Name: x"; "Version: %{ver}"; "Release: 1%{?dist}"; "Source0: x-%{version}.tar"; "%description"; "Version: no"]%string.
Definition ex_tags : tags := match read_tags ex_expand ex_file tt with (_, _, Ok ts) => ts | _ => mk_tags [] [] end.
Definition ex_macros : mdefs := match read_macros ex_expand ex_file tt with (_, _, Ok m) => m | _ => mk_mdefs [] [] end.
Definition ex_version : tag := nth 2 (ts_data ex_tags) (mk_tag [] [] [] (mk_comments [] []) false [] []).
Definition ex_release : tag := nth 3 (ts_data ex_tags) (mk_tag [] [] [] (mk_comments [] []) false [] []).
Lemma ex_tidy : Forall tidy_line ex_file /\ clean ex_file.
Proof. apply plain_file_ok. vm_compute. reflexivity. Qed.
Lemma ex_read : read_tags ex_expand ex_file tt = (ex_file, tt, Ok ex_tags).
Proof. vm_compute. reflexivity. Qed.
Lemma ex_read_macros : read_macros ex_expand ex_file tt = (ex_file, tt, Ok ex_macros).
Proof. vm_compute. reflexivity. Qed.
(** [designates], to be computed *)
Definition namedb (name : str) (t : tag) : bool := str_eqb (capitalize (t_name t)) (capitalize name).
Lemma designated ts name k t : nth_error (ts_data ts) k = Some t -> namedb name t = true -> t_valid t = true ->
  forallb (fun u => negb (namedb name u) || negb (t_valid u)) (firstn k (ts_data ts)) = true -> designates ts name k t.
Proof.
  intros Hk Hn Hv F. split; [exact Hk|]. split; [now apply str_eqb_eq|]. left. split; [exact Hv|]. intros j u Hj Hu Nu. rewrite forallb_forall in F.
  assert (Hi : In u (firstn k (ts_data ts))).
  { apply nth_error_split in Hu as (a & b & -> & <-). replace k with (length a + S (k - length a - 1))%nat by lia. rewrite firstn_app_2. cbn. rewrite in_app_iff. cbn. tauto. }
  apply F in Hi. unfold namedb in Hi. rewrite (proj2 (str_eqb_eq _ _) Nu) in Hi. cbn in Hi. now apply negb_true_iff in Hi.
Qed.
Lemma ex_designates : designates ex_tags (lit "version") 2 ex_version /\ lower (t_name ex_version) = lit "version" /\ t_value ex_version = lit "%{ver}".
Proof. split; [apply designated; vm_compute; reflexivity|]. split; vm_compute; reflexivity. Qed.
Lemma ex_designates_release : designates ex_tags (lit "release") 3 ex_release /\ lower (t_name ex_release) = lit "release".
Proof. split; [apply designated; vm_compute; reflexivity|]. vm_compute; reflexivity. Qed.
Lemma ex_apart : defined_apart (parse_plain ex_file).
Proof.
  intros a d b x E Hx. assert (Q : length (md_data (parse_plain ex_file)) = 1%nat) by (vm_compute; reflexivity). rewrite E, app_length in Q. cbn in Q.
  destruct a; [destruct Hx|cbn in Q; lia].
Qed.
Lemma ex_outside : ~ in_definition (parse_plain ex_file) (tag_line_number ex_tags 2 ex_version).
Proof.
  intros (a & d & b & j & E & Hj & Q). assert (L : length (md_data (parse_plain ex_file)) = 1%nat) by (vm_compute; reflexivity).
  assert (F : forallb (fun d => Nat.eqb (length (M_macro_definitions.own_lines d)) 1 && Nat.eqb (length (d_preceding d)) 0) (md_data (parse_plain ex_file)) = true) by (vm_compute; reflexivity).
  rewrite E in L, F. rewrite app_length in L. destruct a as [|x a]; [|exfalso; cbn [length] in L; lia]. cbn [app forallb] in F. apply andb_true_iff in F as [F _].
  apply andb_true_iff in F as [F1 F2]. apply Nat.eqb_eq in F1, F2. rewrite F1 in Hj. rewrite F2 in Q. cbn [flat_map length] in Q.
  assert (T : tag_line_number ex_tags 2 ex_version = 5%nat) by (vm_compute; reflexivity). rewrite T in Q. lia.
Qed.
Lemma ex_ascii : forall u, In u (ts_data ex_tags) -> Forall (fun c => c < 128) (t_name u).
Proof.
  assert (F : forallb (fun u => forallb (fun c => N.ltb c 128) (t_name u)) (ts_data ex_tags) = true) by (vm_compute; reflexivity).
  rewrite forallb_forall in F. intros u Hu. apply F in Hu. rewrite forallb_forall in Hu. apply Forall_forall. intros c Hc. now apply N.ltb_lt, Hu.
Qed.

(** * What goes wrong *)
(** Without a Release tag both are asked for, one is set. *)
Lemma both_half : exists lines lines', read_tags ex_expand lines tt = (lines, tt, match read_tags ex_expand lines tt with (_, _, r) => r end) /\
  set_version_and_release ex_expand (lit "2") (lit "3") lines tt = (lines', tt, Err AttributeError) /\ lines = file ["Version: 1"]%string /\ lines' = file ["Version: 2"]%string.
Proof. eexists _, _. split; [|split; [|split; reflexivity]]; vm_compute; reflexivity. Qed.
(** A macro that is commented out, or in a branch that is not taken, is bumped in place of the release. *)
Lemma bump_comment : bump_release ex_expand (file ["#%global baserelease 3"; "Release: 1%{?dist}"]%string) tt =
  (file ["#%global baserelease 4"; "Release: 1%{?dist}"]%string, tt, Ok tt).
Proof. vm_compute. reflexivity. Qed.
Lemma bump_false_branch : bump_release ex_expand (file ["%if 0"; "%global baserelease 3"; "%endif"; "Release: 1%{?dist}"]%string) tt =
  (file ["%if 0"; "%global baserelease 4"; "%endif"; "Release: 1%{?dist}"]%string, tt, Ok tt).
Proof. vm_compute. reflexivity. Qed.
(** A failing update leaves a changed file. *)
Lemma update_half : update_tag ex_expand ex_id protected_default (lit "version") (lit "2.0") (file ["%global ver 1.\"; "2"; "Version: %{ver}"]%string) tt =
  (file ["%global ver 2.0"; "Version: %{ver}"]%string, tt, Err ValueError).
Proof. vm_compute. reflexivity. Qed.
Lemma update_half_twice : update_tag ex_expand ex_id protected_default (lit "version") (lit "3") (file ["%global a 0"; "%global v 2"; "%global u %{v}"; "%global v 3"; "Version: %{u}"]%string) tt =
  (file ["%global a 0"; "%global v 3"; "%global u %{v}"; "%global v 3"; "Version: %{u}"]%string, tt, Err ValueError).
Proof. vm_compute. reflexivity. Qed.
(** The branch that is not taken is changed. *)
Lemma update_wrong_tag : update_tag ex_expand ex_id protected_default (lit "source0") (lit "foo-2.tar")
    (file ["%if 0"; "Version: 1"; "%else"; "Version: 1"; "%endif"; "Source0: foo-%{version}.tar"]%string) tt =
  (file ["%if 0"; "Version: 2"; "%else"; "Version: 1"; "%endif"; "Source0: foo-%{version}.tar"]%string, tt, Ok tt).
Proof. vm_compute. reflexivity. Qed.
Lemma update_wrong_macro : update_tag ex_expand ex_id protected_default (lit "version") (lit "2.0")
    (file ["%if 1"; "%global a 1"; "%else"; "%global v 1"; "%endif"; "%if 0"; "%global b 1"; "%else"; "%global v 1"; "%endif"; "Version: %{v}"]%string) tt =
  (file ["%if 1"; "%global a 1"; "%else"; "%global v 2.0"; "%endif"; "%if 0"; "%global b 1"; "%else"; "%global v 1"; "%endif"; "Version: %{v}"]%string, tt, Ok tt).
Proof. vm_compute. reflexivity. Qed.
(** A group that takes no part in the match *)
Lemma tilde_misplaced : update_version ex_expand ex_id (lit "2.0rc4") (Some (fun _ => NotParticipating)) None DNL (file ["Version: 1.0"]%string) tt =
  (file ["Version: 2.0rc~4"]%string, tt, Ok tt).
Proof. vm_compute. reflexivity. Qed.
(** A line in the body of a macro is taken for a tag. *)
Lemma tag_in_macro : let lines := file ["%global common %{expand:"; "Version: 1"; "}"; "Name: x"; "Version: 2"]%string in
  get_tag ex_expand (lit "version") lines tt = (lines, tt, Ok (Some (lit "1"))) /\
  update_tag ex_expand ex_id protected_default (lit "version") (lit "3") lines tt = (file ["%global common %{expand:"; "Version: 3"; "}"; "Name: x"; "Version: 2"]%string, tt, Ok tt).
Proof. split; vm_compute; reflexivity. Qed.
(** A tag of several lines in front of a macro: the macro is not updated. *)
Lemma multiline_hides : update_tag ex_expand ex_id protected_default (lit "version") (lit "3") (file ["Summary: %{expand:"; "a"; "b"; "c}"; "%global v 1"; "Version: %{v}"]%string) tt =
  (file ["Summary: %{expand:"; "a"; "b"; "c}"; "%global v 1"; "Version: 3"]%string, tt, Ok tt) /\
  update_tag ex_expand ex_id protected_default (lit "version") (lit "3") (file ["Summary: a"; "%global v 1"; "Version: %{v}"]%string) tt =
  (file ["Summary: a"; "%global v 3"; "Version: %{v}"]%string, tt, Ok tt).
Proof. split; vm_compute; reflexivity. Qed.
