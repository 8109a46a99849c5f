(** Comments of tags as a list (C198 to C201), headers of new sections (C202). *)
From Coq Require Import Ascii String.
From Coq Require Import NArith ZArith List Bool.
From Verif Require Import PyStr PyStrFacts M_tags Spec_tags M_comments Spec_comments P_comments M_options Spec_options P_options2 P_options6 M_sections P_sections4 P_sections5.
Import ListNotations.
Open Scope N_scope.

(** * C198 *)
(** Comments that are read have this form, and comments of this form are read back from what is written. *)
Theorem C198_read : forall lines, Forall (fun l => ~ In LF l) lines -> comments_ok (comments_parse lines).
Proof. exact parse_ok. Qed.
Print Assumptions C198_read.
Theorem C198_read_back : forall c, comments_ok c -> comments_parse (comments_raw c) = c.
Proof. exact read_back. Qed.
Print Assumptions C198_read_back.
(** The operations act on the texts as on a list, leave the lines above alone and survive writing and reading. *)
Theorem C198_append : forall c s, comments_ok c -> comment_text s -> edit_ok c (cm_append c (AText s)) (cm_texts c ++ [s]).
Proof. exact append_spec. Qed.
Print Assumptions C198_append.
Theorem C198_extend : forall c ss, comments_ok c -> Forall comment_text ss -> edit_ok c (cm_extend c (map AText ss)) (cm_texts c ++ ss).
Proof. exact extend_spec. Qed.
Print Assumptions C198_extend.
Theorem C198_insert : forall c i s, comments_ok c -> comment_text s -> edit_ok c (cm_insert c i (AText s)) (py_insert (cm_texts c) i s).
Proof. exact insert_spec. Qed.
Print Assumptions C198_insert.
Theorem C198_set : forall c i s, comments_ok c -> comment_text s ->
  match py_index (cm_texts c) i with
  | None => cm_set c i (AText s) = Err IndexError
  | Some k => exists c', cm_set c i (AText s) = Ok c' /\ edit_ok c c' (update_at k (fun _ => s) (cm_texts c))
  end.
Proof. exact set_spec. Qed.
Print Assumptions C198_set.
Theorem C198_contains : forall c s, cm_contains c s = true <-> In s (cm_texts c).
Proof. exact contains_spec. Qed.
Print Assumptions C198_contains.
Theorem C198_index : forall c s, match cm_index c s with
  | Ok k => exists a b, cm_texts c = a ++ s :: b /\ length a = k /\ ~ In s a
  | Err e => e = ValueError /\ ~ In s (cm_texts c) end.
Proof. exact index_spec. Qed.
Print Assumptions C198_index.
Definition ex_comments : comments := comments_parse (map lit ["x"; "#one"; " #  two"]%string).
Example C198_example : comments_ok ex_comments /\ comment_text (lit "new") /\
  comments_raw (cm_insert ex_comments (-1) (AText (lit "new"))) = map lit ["x"; "#one"; "# new"; " #  two"]%string /\
  match cm_set ex_comments 1 (AText (lit "new")) with Ok c => comments_raw c | Err _ => [] end = map lit ["x"; "#one"; " #  new"]%string.
Proof.
  split; [apply parse_ok; repeat (constructor; [vm_compute; intuition discriminate|]); constructor|].
  split; [split; [vm_compute; intuition discriminate|]; now intros x t [= <- _]|]. vm_compute. auto.
Qed.

(** * C199: slices *)
(** An assignment to a slice never changes the number of comments. Items too many are dropped;
    if there are too few, IndexError is raised after the first ones were assigned. *)
Theorem C199_slice_assignment_refuted : forall idx data items, let (d, e) := set_positions data idx items in
  length d = length data /\ (e = None <-> (length idx <= length items)%nat) /\ (e = None \/ e = Some IndexError).
Proof. exact slice_spec. Qed.
Print Assumptions C199_slice_assignment_refuted.
Example C199_example :
  set_positions (cs_data ex_comments) [0%nat; 1%nat] [AText (lit "a")] = ([mk_comment (lit "a") (lit "#"); mk_comment (lit "two") (lit " #  ")], Some IndexError) /\
  set_positions (cs_data ex_comments) [0%nat] [AText (lit "a"); AText (lit "b")] = ([mk_comment (lit "a") (lit "#"); mk_comment (lit "two") (lit " #  ")], None).
Proof. vm_compute. auto. Qed.

(** * C200: [comments += [text]] *)
(** The text is written without a hash, and no comment is left for the tag when the lines are read again. *)
Theorem C200_comments_iadd_refuted : forall c s, comments_ok c -> ~ In LF s -> ~ comment_line s ->
  iadd_lines c [AText s] = comments_raw c ++ [s] /\ comments_parse (iadd_lines c [AText s]) = mk_comments [] (comments_raw c ++ [s]).
Proof. exact iadd_lost. Qed.
Print Assumptions C200_comments_iadd_refuted.
Example C200_example : ~ comment_line (lit "License: MIT") /\ iadd_lines ex_comments [AText (lit "License: MIT")] = map lit ["x"; "#one"; " #  two"; "License: MIT"]%string.
Proof.
  split; [|vm_compute; reflexivity]. intros (a & b & E & _). assert (I : In HASH (lit "License: MIT")) by (rewrite E; apply in_app_iff; right; now left).
  vm_compute in I. intuition discriminate.
Qed.

(** * C201: extending comments by themselves *)
(** After any number of rounds the loop still runs, with as many more comments. *)
Theorem C201_extend_by_itself_refuted : forall data, data <> [] ->
  forall n, exists more, extend_self n (0%nat, data) = Some (n, data ++ more) /\ length more = n.
Proof. exact extend_self_endless. Qed.
Print Assumptions C201_extend_by_itself_refuted.
Example C201_example : cs_data ex_comments <> [].
Proof. vm_compute. discriminate. Qed.

(** * C202: headers of new sections *)
Definition has_option (o : opts) : Prop :=
  exists t c v, In t (o_tokens o) /\ t_type t <> WHITESPACE /\ M_options.t_value t = DASH :: c :: v /\ known (o_optstring o) c.
Lemma options_true_iff o : options_true o = true <-> has_option o.
Proof.
  unfold options_true, has_option. rewrite existsb_exists. split.
  - intros (t & I & E). apply andb_true_iff in E as [W E]. apply negb_true_iff, is_ws_false in W.
    destruct (M_options.t_value t) as [|d [|c v]] eqn:V; try discriminate. apply andb_true_iff in E as [E1 E2]. apply N.eqb_eq in E1. subst d.
    exists t, c, v. repeat split; auto; destruct o as [l os ds]; apply (known_valid l os ds), E2.
  - intros (t & c & v & I & W & V & K). exists t. split; auto. apply is_ws_false in W. rewrite W, V, N.eqb_refl. destruct o as [l os ds].
    apply (known_valid l os ds) in K. exact K.
Qed.
(** A new section with an option that its name knows is written as name, blank, options. *)
Theorem C202_with_an_option : forall (U : Unicode) name o data s, make_section name (Some o) [] [LF] data = Ok s -> has_option o ->
  s_id s = name ++ [SPC] ++ tokens_str (o_tokens o).
Proof.
  intros U name o data s E H. unfold make_section in E. destruct (str_in _ _); [|discriminate]. injection E as <-.
  apply options_true_iff in H. unfold s_id, s_delim. cbn. now rewrite H.
Qed.
Print Assumptions C202_with_an_option.
(** Otherwise nothing is put between them. *)
Theorem C202_positional_arguments_refuted : forall (U : Unicode) name o data s, make_section name (Some o) [] [LF] data = Ok s -> ~ has_option o ->
  s_id s = name ++ tokens_str (o_tokens o).
Proof.
  intros U name o data s E H. unfold make_section in E. destruct (str_in _ _); [|discriminate]. injection E as <-.
  assert (Q : options_true o = false) by (destruct (options_true o) eqn:Q; auto; destruct (H (proj1 (options_true_iff o) Q))).
  unfold s_id, s_delim. cbn. now rewrite Q.
Qed.
Print Assumptions C202_positional_arguments_refuted.
Definition ex_doc : opts := mk_opts [mk_token DEFAULT (lit "doc")] (lit "n:") [].
Example C202_example : ~ has_option ex_doc /\
  match make_section (U:=unicode_none) (lit "package") (Some ex_doc) [] [LF] [lit "Summary: x"] with
  | Ok s => (section_raw (U:=unicode_none) s, match fst (parse_demo (section_raw (U:=unicode_none) s)) with Ok l => map (s_nid (U:=unicode_none)) l | Err _ => [] end)
  | Err _ => ([], []) end = ([lit "%packagedoc"; lit "Summary: x"], [lit "package"]).
Proof.
  split; [|vm_compute; reflexivity]. intros (t & c & v & [<-|[]] & _ & V & _). discriminate.
Qed.
