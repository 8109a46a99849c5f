(** %prep macros and lists of sources that compare equal. *)
From Coq Require Import Ascii String.
From Coq Require Import NArith ZArith List Bool Lia.
From Verif Require Import PyStr PyStrFacts M_value M_tags M_sourcelist M_sources M_macro_definitions M_prep M_options M_options2 Spec_options Spec_options2 P_options2 P_options3 P_options4 P_options6 Spec_prep P_prep2 M_equality Spec_equality P_equality.
From Verif Require M_changelog M_inherited Spec_inherited P_inherited.
Import ListNotations.
Open Scope N_scope.

Lemma strs_eqb_iff a b : strs_eqb a b = true <-> a = b.
Proof.
  revert b. induction a as [|x a IH]; intros [|y b]; cbn; try (split; congruence). rewrite andb_true_iff, str_eqb_eq, IH. split; [intros [-> ->]; auto|intros [= -> ->]; auto].
Qed.
Section Uni.
Context {U : Unicode}.
Theorem macro_eq_spec a b its its' : cmdline (o_optstring (m_opts a)) (o_tokens (m_opts a)) its -> cmdline (o_optstring (m_opts b)) (o_tokens (m_opts b)) its' ->
  o_optstring (m_opts a) = o_optstring (m_opts b) -> arguments_ok its -> arguments_ok its' ->
  exists r, macro_eq a b = Ok r /\
    (r = true <-> m_name a = m_name b /\ m_delim a = m_delim b /\ m_prefix a = m_prefix b /\ m_suffix a = m_suffix b /\ m_preceding a = m_preceding b /\ same_options (o_optstring (m_opts a)) its its').
Proof.
  intros C C' E A A'. unfold macro_eq. destruct (str_eqb (m_name a) (m_name b)) eqn:N; cbn [negb].
  - apply str_eqb_eq in N. destruct (m_opts a) as [l os ds], (m_opts b) as [l' os' ds']. cbn [o_optstring o_tokens] in *. subst os'.
    destruct (options_eq_spec os ds ds' l l' its its' C C' A A') as (e & -> & B). cbn [bind]. eexists. split; [reflexivity|].
    rewrite !andb_true_iff, !str_eqb_eq, strs_eqb_iff, B. tauto.
  - eexists. split; [reflexivity|]. split; [discriminate|]. intros (Q & _). apply str_eqb_eq in Q. congruence.
Qed.
Lemma index_first a x b z : forall i k, (i + length x < k)%nat -> Forall (fun u => macro_eq u b = Ok false) x -> macro_eq a b = Ok true -> index_from b k i (x ++ a :: z) = Ok (i + length x)%nat.
Proof.
  induction x as [|u x IH]; intros i k L F E; cbn [app index_from length] in *.
  - destruct (Nat.eqb_spec i k); [lia|]. rewrite E. cbn [bind]. f_equal. lia.
  - destruct (Nat.eqb_spec i k); [lia|]. rewrite (Forall_inv F). cbn [bind]. rewrite IH; auto; [f_equal; lia|lia|now apply Forall_inv_tail in F].
Qed.
(** [remove] takes the first macro that compares equal. *)
Theorem removed_other x a y b z rem : Forall (fun u => macro_eq u b = Ok false) x -> macro_eq a b = Ok true ->
  macros_remove (mk_prep (x ++ a :: y ++ b :: z) rem) (S (length x + length y)) = Ok (mk_prep (x ++ y ++ b :: z) rem).
Proof.
  intros F E. unfold macros_remove. cbn [p_macros p_remainder].
  assert (N : nth_error (x ++ a :: y ++ b :: z) (S (length x + length y)) = Some b).
  { replace (x ++ a :: y ++ b :: z) with ((x ++ a :: y) ++ b :: z) by (rewrite <- app_assoc; reflexivity).
    replace (S (length x + length y)) with (length (x ++ a :: y)) by (rewrite app_length; cbn; lia). apply P_inherited.nth_mid. }
  rewrite N, (index_first a x b (y ++ b :: z) 0); [|lia|exact F|exact E]. cbn [bind plus]. now rewrite P_inherited.remove_mid.
Qed.
(** When no other macro compares equal, it is the right one. *)
Theorem removed_itself x b z rem : Forall (fun u => macro_eq u b = Ok false) x -> macros_remove (mk_prep (x ++ b :: z) rem) (length x) = Ok (mk_prep (x ++ z) rem).
Proof.
  intros F. unfold macros_remove. cbn [p_macros p_remainder]. rewrite P_inherited.nth_mid.
  assert (I : forall i, index_from b (i + length x) i (x ++ b :: z) = Ok (i + length x)%nat).
  { induction x as [|u x IH]; intros i; cbn [app index_from length].
    - rewrite Nat.add_0_r, Nat.eqb_refl. reflexivity.
    - destruct (Nat.eqb_spec i (i + S (length x))); [lia|]. rewrite (Forall_inv F). cbn [bind].
      replace (i + S (length x))%nat with (S i + length x)%nat by lia. apply IH. now apply Forall_inv_tail in F. }
  rewrite (I 0%nat : index_from b (length x) 0 (x ++ b :: z) = Ok (length x)). cbn [bind]. now rewrite P_inherited.remove_mid.
Qed.
Definition patch_items (n : N) : list Spec_options.item := [IPos (dec n); IOpt 112 (Some (lit "1"))].
Lemma not_dash n : ~ dashed (dec n).
Proof. intros [v E]. pose proof (dec_is_digits n) as D. rewrite E in D. cbn [forallb] in D. apply andb_true_iff in D as [D _]. now vm_compute in D. Qed.
Lemma patch_line n : cmdline (optstring Patch) (o_tokens (m_opts (numbered_patch n))) (patch_items n).
Proof.
  unfold numbered_patch, patch_items. cbn [m_opts o_tokens]. apply (L_positional _ (mk_token DEFAULT (dec n))); [discriminate|apply not_dash|].
  apply L_space; [reflexivity|reflexivity|]. apply (L_attached _ _ 112 (lit "1") [] []); [discriminate|reflexivity|discriminate|constructor].
Qed.
Lemma patch_arguments n : arguments_ok (patch_items n).
Proof. intros c v [Q|[Q|[]]]; [discriminate|]. injection Q as <- <-. exists (VInt 1). reflexivity. Qed.
Theorem patches_equal n m : macro_eq (numbered_patch n) (numbered_patch m) = Ok true.
Proof.
  unfold macro_eq, numbered_patch. cbn [m_name m_opts m_delim m_prefix m_suffix m_preceding]. rewrite str_eqb_refl. cbn [negb].
  rewrite (positionals_ignored _ _ _ _ _ _ _ (patch_line n) (patch_line m) (patch_arguments n) eq_refl). reflexivity.
Qed.
Theorem patches_numbers n : number (numbered_patch n) = Ok (Z.of_N n).
Proof.
  apply (number_spec (numbered_patch n) [] (patch_items n)).
  - split; [reflexivity|]. split; [reflexivity|]. split; [constructor|]. split; [reflexivity|]. split; [reflexivity|]. exact (patch_line n).
  - right. right. left. split; [reflexivity|]. split; [reflexivity|]. exists n, []. split; reflexivity.
Qed.
Theorem wrong_patch_removed n m rem : macros_remove (mk_prep [numbered_patch n; numbered_patch m] rem) 1 = Ok (mk_prep [numbered_patch m] rem).
Proof. apply (removed_other [] (numbered_patch n) [] (numbered_patch m) [] rem); [constructor|apply patches_equal]. Qed.
(** Lists of macros *)
Theorem preps_equal a b : prep_eq a b = Ok true <-> Forall2 (fun x y => macro_eq x y = Ok true) (p_macros a) (p_macros b).
Proof.
  unfold prep_eq. generalize (p_macros a) (p_macros b). induction l as [|x l IH]; intros [|y l']; cbn [length Nat.eqb all_equal].
  - split; constructor.
  - split; [discriminate|]. intros F. inversion F.
  - split; [discriminate|]. intros F. inversion F.
  - specialize (IH l'). destruct (macro_eq x y) as [[|]|e] eqn:E; cbn [bind].
    + rewrite IH. split; [intros F; now constructor|intros F; now inversion F].
    + destruct (length l =? length l')%nat; split; try discriminate; intros F; inversion F; congruence.
    + destruct (length l =? length l')%nat; split; try discriminate; intros F; inversion F; congruence.
Qed.
(** Sources *)
Lemma list_eqb_forall {A} (eqb : A -> A -> bool) : forall a b, M_changelog.list_eqb eqb a b = true <-> Forall2 (fun x y => eqb x y = true) a b.
Proof.
  induction a as [|x a IH]; intros [|y b]; cbn; try (split; [discriminate|intros F; inversion F]); [split; constructor|].
  rewrite andb_true_iff, IH. split; [intros [? ?]; now constructor|intros F; now inversion F].
Qed.
Lemma map_equal {A B} (f : A -> B) (R : A -> A -> Prop) : (forall x y, R x y -> f x = f y) -> forall a b, Forall2 R a b -> map f a = map f b.
Proof. intros H a b F. induction F; cbn; auto. now rewrite (H _ _ H0), IHF. Qed.
Lemma lists_items_equal last : forall a b k, map (fun s => map e_location (sl_data s)) a = map (fun s => map e_location (sl_data s)) b -> lists_items last k a = lists_items last k b.
Proof.
  induction a as [|x a IH]; intros [|y b] k E; try discriminate; auto. cbn [map] in E. injection E as E1 E2. cbn [lists_items]. rewrite (IH b (S k) E2). f_equal.
  unfold list_items. now rewrite <- (map_length e_location (sl_data x)), E1, map_length.
Qed.
Theorem equal_sources a b : sources_eqb a b = true -> s_patches a = s_patches b -> seen a = seen b.
Proof.
  intros E P. unfold sources_eqb in E. rewrite !andb_true_iff in E. destruct E as ((((T & L) & _) & _) & _).
  apply P_inherited.equal_lists_of_tags in T. apply list_eqb_forall in L.
  assert (N : map t_name (ts_data (s_tags a)) = map t_name (ts_data (s_tags b))) by (apply (map_equal _ _ (fun x y H => proj1 H) _ _ T)).
  assert (V : map M_tags.t_value (ts_data (s_tags a)) = map M_tags.t_value (ts_data (s_tags b))) by (apply (map_equal _ _ (fun x y H => proj1 (proj2 H)) _ _ T)).
  assert (Lo : map (fun s => map e_location (sl_data s)) (s_lists a) = map (fun s => map e_location (sl_data s)) (s_lists b)).
  { apply (map_equal _ (fun x y => slist_eqb x y = true)); auto. intros x y S. apply list_eqb_forall in S. apply (map_equal _ (fun u v => entry_eqb u v = true)); auto.
    intros u v Q. apply andb_true_iff in Q as [Q _]. now apply str_eqb_eq in Q. }
  assert (I : M_sources.get_items a = M_sources.get_items b).
  { unfold M_sources.get_items, get_tags, s_prefix. rewrite P, N. cbv zeta. now rewrite (lists_items_equal _ _ _ 0%nat Lo). }
  assert (At : forall p, location_at a p = location_at b p).
  { intros [i|l i]; cbn [location_at].
    - assert (Q := f_equal (fun l => nth_error l i) V). cbn in Q. rewrite !nth_error_map in Q. destruct (nth_error (ts_data (s_tags a)) i), (nth_error (ts_data (s_tags b)) i); cbn in Q; congruence.
    - assert (Q := f_equal (fun x => nth_error x l) Lo). cbn in Q. rewrite !nth_error_map in Q. destruct (nth_error (s_lists a) l), (nth_error (s_lists b) l); cbn in Q; try congruence.
      injection Q as Q. assert (R := f_equal (fun x => nth_error x i) Q). cbn in R. rewrite !nth_error_map in R. destruct (nth_error (sl_data s) i), (nth_error (sl_data s0) i); cbn in R; congruence. }
  unfold seen, numbers, locations. rewrite I. f_equal. apply map_ext. intros x. apply At.
Qed.
Lemma list_eqb_same {A} (eqb : A -> A -> bool) : (forall x, eqb x x = true) -> forall l, M_changelog.list_eqb eqb l l = true.
Proof. intros H l. apply list_eqb_forall. induction l; constructor; auto. Qed.
Theorem patches_are_sources s b : sources_eqb s (as_patches b s) = true.
Proof.
  unfold sources_eqb, as_patches. cbn. rewrite !andb_true_iff. repeat split; try apply eqb_reflx; try apply Nat.eqb_refl.
  - apply list_eqb_same. intros t. apply P_inherited.tag_eqb_same. unfold Spec_inherited.same_tag. tauto.
  - apply list_eqb_same. intros l. apply list_eqb_same. intros e. unfold entry_eqb. rewrite str_eqb_refl. cbn. now apply P_inherited.comments_eqb_eq.
Qed.
Theorem one_source t d i n : t_name t = lit "Source0" ->
  let s := mk_sources (mk_tags [t] []) [] d i n false in seen s = [(0%Z, M_tags.t_value t)] /\ seen (as_patches true s) = [].
Proof. intros N s. unfold seen, numbers, locations, M_sources.get_items, get_tags, s, as_patches. cbn [s_tags s_lists s_patches ts_data s_prefix map]. rewrite N. split; reflexivity. Qed.
End Uni.
