(** The text of changelogs: proofs. *)
From Coq Require Import NArith List Bool.
From Verif Require Import PyStr PyStrFacts M_changelog Spec_changelog P_changelog Spec_sections M_sections P_sections2 M_changelog_text Spec_changelog_text P_file Spec_bytes.
Import ListNotations.
Open Scope N_scope.

Lemma join_text ls : ls <> [] -> join [LF] ls ++ [LF] = text_of_lines ls.
Proof.
  unfold text_of_lines. induction ls as [|x [|y ls] IH]; intros H; [congruence|cbn; now rewrite app_nil_r|].
  change (join [LF] (x :: y :: ls)) with (x ++ [LF] ++ join [LF] (y :: ls)). change (flat_map (fun x0 => x0 ++ [LF]) (x :: y :: ls)) with ((x ++ [LF]) ++ flat_map (fun x0 => x0 ++ [LF]) (y :: ls)).
  rewrite <- IH by discriminate. now rewrite <- !app_assoc.
Qed.
Lemma text_app a b : text_of_lines (a ++ b) = text_of_lines a ++ text_of_lines b.
Proof. apply flat_map_app. Qed.
(** The entry with one empty line below it, or without *)
Definition spaced (e : entry) : entry := mk_entry (header e) (content e) [[]].
Definition bare (e : entry) : entry := mk_entry (header e) (content e) (match content e with [] => [[]] | _ => [] end).
Lemma entry_text e : entry_str e = text_of_lines (entry_lines (bare e)).
Proof.
  unfold entry_str, entry_lines, bare. cbn [header content following]. change (text_of_lines (header e :: ?l)) with ((header e ++ [LF]) ++ text_of_lines l). rewrite <- app_assoc. f_equal. f_equal.
  destruct (content e) as [|x l]; [reflexivity|]. rewrite app_nil_r. apply join_text. discriminate.
Qed.
Lemma entry_text_spaced e : content e <> [] -> entry_str e ++ [LF] = text_of_lines (entry_lines (spaced e)).
Proof.
  intros H. rewrite entry_text. unfold entry_lines, bare, spaced. cbn [header content following]. destruct (content e) as [|x l]; [congruence|]. rewrite app_nil_r.
  change (header e :: (x :: l) ++ [[]]) with ((header e :: x :: l) ++ [[]]). rewrite text_app. reflexivity.
Qed.
Definition even (c : changelog) : changelog := mk_changelog (match entries c with [] => [] | e :: es => bare e :: map spaced es end) [].
Lemma text_entries es : forall e, Forall (fun e => content e <> []) es -> join [LF] (map entry_str (es ++ [e])) = text_of_lines (flat_map entry_lines (map spaced es ++ [bare e])).
Proof.
  induction es as [|x es IH]; intros e H; [cbn [app map join flat_map]; rewrite app_nil_r; apply entry_text|]. inversion H as [|? ? Hx He]; subst. cbn [app map flat_map]. rewrite text_app, <- IH by auto.
  rewrite <- entry_text_spaced by auto. destruct (es ++ [e]) as [|y r] eqn:E; [now destruct es|]. cbn [map]. change (join [LF] (?a :: ?b :: ?l)) with (a ++ [LF] ++ join [LF] (b :: l)). now rewrite <- app_assoc.
Qed.
Lemma text_even c : Forall (fun e => content e <> []) (tl (entries c)) -> changelog_str c = text_of_lines (get_raw_section_data (even c)).
Proof.
  intros H. unfold changelog_str, get_raw_section_data, even. cbn [predecessor entries app]. destruct (entries c) as [|e es]; [reflexivity|]. cbn [rev tl] in *. rewrite <- map_rev. apply text_entries.
  apply Forall_forall. intros x Hx. apply in_rev in Hx. rewrite Forall_forall in H. auto.
Qed.
Lemma even_wf c : wf_changelog c -> wf_changelog (even c).
Proof.
  intros (_ & E & T). unfold even. split; [constructor|]. cbn [entries]. destruct (entries c) as [|e es]; [split; constructor|]. cbn [tl] in *. inversion E as [|? ? He Hs]; subst.
  assert (B : Forall blank_line [[]]) by (constructor; constructor).
  assert (K : forall e f, wf_entry e -> Forall blank_line f -> wf_entry (mk_entry (header e) (content e) f)). { intros x f (A & _ & C & D) F. repeat split; auto. }
  split.
  - constructor; [apply K; auto; destruct (content e); auto; constructor|]. apply Forall_forall. intros x Hx. apply in_map_iff in Hx as (y & <- & Hy). apply K; auto. rewrite Forall_forall in Hs. auto.
  - apply Forall_forall. intros x Hx. apply in_map_iff in Hx as (y & <- & Hy). rewrite Forall_forall in T. exact (T y Hy).
Qed.
Lemma even_single c : single_lines c -> Forall no_break (get_raw_section_data (even c)).
Proof.
  unfold single_lines, get_raw_section_data, even. cbn [predecessor entries app]. intros H.
  assert (B : Forall no_break [[]]) by (constructor; constructor).
  assert (K : forall e f, Forall no_break (header e :: content e) -> Forall no_break f -> Forall no_break (entry_lines (mk_entry (header e) (content e) f))).
  { intros e f A F. unfold entry_lines. cbn [header content following]. inversion A; subst. constructor; auto. apply Forall_app; auto. }
  destruct (entries c) as [|e es]; [constructor|]. inversion H as [|? ? He Hs]; subst. apply Forall_forall. intros l Hl. apply in_flat_map in Hl as (x & Hx & Hl). apply in_rev in Hx.
  revert l Hl. apply Forall_forall. destruct Hx as [<-|Hx]; [apply K; auto; destruct (content e); auto; constructor|]. apply in_map_iff in Hx as (y & <- & Hy). apply K; auto. rewrite Forall_forall in Hs. auto.
Qed.
Lemma text_same l : text_of_lines l = lines_text l.
Proof. reflexivity. Qed.
Theorem text_read c : wf_changelog c -> single_lines c -> M_changelog.parse (splitlines (changelog_str c)) = even c.
Proof. intros W S. rewrite text_even by apply W. rewrite text_same, splitlines_lines by now apply even_single. apply raw_parse, even_wf, W. Qed.
Theorem text_roundtrip c : wf_changelog c -> single_lines c -> let d := M_changelog.parse (splitlines (changelog_str c)) in same_entries d c /\ predecessor d = [].
Proof.
  intros W S. cbv zeta. rewrite text_read by auto. unfold same_entries, even. cbn [entries predecessor]. split; [|reflexivity]. destruct (entries c) as [|e es]; [auto|]. cbn [map bare header content]. now rewrite !map_map.
Qed.
Lemma parse_single lines : Forall no_break lines -> single_lines (M_changelog.parse lines).
Proof.
  intros H. rewrite <- (parse_raw lines) in H. unfold get_raw_section_data in H. apply Forall_app in H as (_ & H). rewrite Forall_forall in H. apply Forall_forall. intros e He.
  apply Forall_forall. intros l Hl. apply H, in_flat_map. exists e. split; [now apply in_rev in He|]. unfold entry_lines. destruct Hl as [<-|Hl]; [now left|right]. apply in_app_iff. auto.
Qed.
Theorem section_text lines : Forall no_break lines -> let c := M_changelog.parse lines in let d := M_changelog.parse (splitlines (changelog_str c)) in same_entries d c /\ predecessor d = [].
Proof. intros H. apply text_roundtrip; [apply parse_wf|now apply parse_single]. Qed.
Theorem even_text c : evenly_spaced c -> changelog_str c = text_of_lines (get_raw_section_data c).
Proof.
  intros (P & C & F). rewrite text_even by (destruct (entries c); [constructor|now inversion C]). f_equal. unfold get_raw_section_data, even. cbn [predecessor entries]. rewrite P. cbn [app].
  destruct (entries c) as [|e es] eqn:E; [reflexivity|]. destruct (F e es eq_refl) as (F1 & F2). inversion C as [|? ? Ce Cs]; subst. f_equal. f_equal. f_equal.
  - unfold bare. destruct e as [h b f]. cbn in *. subst f. destruct b; [congruence|reflexivity].
  - clear - F2. induction F2 as [|x l Hx _ IH]; [reflexivity|]. cbn [map]. rewrite IH. f_equal. destruct x as [h b f]. cbn in *. now subst f.
Qed.
