(** Proofs about names and slices of the macros of the %prep section. *)
From Coq Require Import Ascii String.
From Coq Require Import NArith ZArith List Bool Lia.
From Verif Require Import PyStr PyStrFacts M_value M_options M_prep Spec_prep P_prep P_prep2.
Import ListNotations.
Open Scope N_scope.

Lemma attribute_valid name : valid_prep_macro name = true <-> prep_attribute name.
Proof.
  unfold valid_prep_macro, prep_attribute. rewrite orb_true_iff. unfold str_in. rewrite existsb_exists. split.
  - intros [[x [I E]]|S]; [left|right].
    + apply str_eqb_eq in E. subst x. exact I.
    + apply startswith_iff in S. exact S.
  - intros [I|S]; [left|right].
    + exists name. split; [exact I|apply str_eqb_refl].
    + apply startswith_iff. exact S.
Qed.
Lemma contains_iff p name : contains p name = true <->
  exists m, In m (p_macros p) /\ (m_name m = name \/ name = lit "%patch" /\ exists x, m_name m = name ++ x).
Proof.
  unfold contains. rewrite existsb_exists. destruct (str_eqb name (lit "%patch")) eqn:E.
  - apply str_eqb_eq in E. split.
    + intros [m [I S]]. apply startswith_iff in S. exists m. auto.
    + intros [m [I [S|[_ S]]]]; exists m; (split; [exact I|]); apply startswith_iff; [exists []; rewrite app_nil_r; exact S|exact S].
  - split.
    + intros [m [I S]]. apply str_eqb_eq in S. exists m. auto.
    + intros [m [I [S|[S _]]]]; exists m; (split; [exact I|]); [apply str_eqb_eq; exact S|]. subst name. rewrite str_eqb_refl in E. discriminate.
Qed.
Lemma getattr_first p a m b name : p_macros p = a ++ m :: b -> m_name m = PCT :: name -> prep_attribute name ->
  Forall (fun x => m_name x <> PCT :: name) a -> getattr p name = Some (Ok m).
Proof.
  intros Ep En V F. apply attribute_valid in V. unfold getattr. rewrite V. cbn [negb]. unfold find.
  assert (find_index (fun x => str_eqb (m_name x) (PCT :: name)) (p_macros p) = Some (length a)) as ->.
  { rewrite Ep. clear -En F. induction a as [|x a IH]; cbn [app find_index length].
    - now rewrite En, str_eqb_refl.
    - inversion F; subst. rewrite (proj2 (str_eqb_neq _ _) H1). now rewrite IH. }
  rewrite Ep, nth_error_mid. reflexivity.
Qed.
Lemma getattr_absent p name : prep_attribute name -> Forall (fun x => m_name x <> PCT :: name) (p_macros p) ->
  getattr p name = Some (Err AttributeError) /\ delattr p name = Some (Err AttributeError).
Proof.
  intros V F. apply attribute_valid in V. unfold getattr, delattr. rewrite V. cbn [negb]. unfold find.
  assert (find_index (fun x => str_eqb (m_name x) (PCT :: name)) (p_macros p) = None) as ->.
  { clear -F. induction F as [|x l N F IH]; [reflexivity|]. cbn [find_index]. rewrite (proj2 (str_eqb_neq _ _) N), IH. reflexivity. }
  split; reflexivity.
Qed.
Lemma delattr_named p a m b name : p_macros p = a ++ m :: b -> m_name m = PCT :: name -> prep_attribute name ->
  Forall (fun x => m_name x <> PCT :: name) a ->
  exists p' before after, delattr p name = Some (Ok p') /\ map macro_line (p_macros p') = map macro_line (a ++ b) /\
    prep_raw p = before ++ [macro_line m] ++ after /\ prep_raw p' = before ++ after /\ before = flat_map macro_raw a ++ m_preceding m.
Proof. intros A B C. apply delattr_spec; [assumption|assumption|]. apply attribute_valid. exact C. Qed.

(** * Slices *)
Lemma without_none k ms : lines_without [] k ms = flat_map macro_raw ms.
Proof. revert k. induction ms as [|m ms IH]; intros k; cbn; [reflexivity|]. rewrite IH. unfold macro_raw. rewrite <- app_assoc. reflexivity. Qed.
Lemma without_app gone a b : forall k, lines_without gone k (a ++ b) = lines_without gone k a ++ lines_without gone (k + length a) b.
Proof.
  induction a as [|m a IH]; intros k; cbn; [f_equal; lia|]. rewrite IH, <- !app_assoc. do 4 f_equal. lia.
Qed.
Lemma without_above gone ms : forall k, Forall (fun y => (y < k)%nat) gone -> lines_without gone k ms = flat_map macro_raw ms.
Proof.
  induction ms as [|m ms IH]; intros k F; cbn; [reflexivity|].
  assert (existsb (Nat.eqb k) gone = false) as ->.
  { apply not_true_is_false. intros X. apply existsb_exists in X. destruct X as [x [I E]]. apply Nat.eqb_eq in E. rewrite Forall_forall in F. apply F in I. lia. }
  rewrite IH; [unfold macro_raw; rewrite <- app_assoc; reflexivity|]. eapply Forall_impl; [|exact F]. cbn; intros; lia.
Qed.
Lemma without_more gone i a : forall k, (k + length a <= i)%nat -> lines_without (i :: gone) k a = lines_without gone k a.
Proof.
  induction a as [|m a IH]; intros k L; cbn; [reflexivity|]. cbn in L. rewrite (proj2 (Nat.eqb_neq k i)) by lia. cbn [orb]. rewrite IH by lia. reflexivity.
Qed.
Lemma delete_step gone a m b r : Forall (fun y => (y < length a)%nat) gone ->
  exists p', delete (mk_prep (a ++ m :: b) r) (Z.of_nat (length a)) = Ok p' /\ length (p_macros p') = length (a ++ b) /\
    lines_without gone 0 (p_macros p') ++ p_remainder p' = lines_without (length a :: gone) 0 (a ++ m :: b) ++ r.
Proof.
  intros F. rewrite delete_mid. eexists. split; [reflexivity|]. rewrite without_app, without_more by lia. cbn [Nat.add lines_without existsb]. rewrite Nat.eqb_refl. cbn [orb app].
  assert (B : lines_without (length a :: gone) (S (length a)) b = flat_map macro_raw b).
  { apply without_above. constructor; [lia|]. eapply Forall_impl; [|exact F]. cbn; intros; lia. }
  rewrite B. destruct b as [|x b]; cbn [p_macros p_remainder].
  - rewrite app_nil_r. split; [reflexivity|]. cbn. rewrite app_nil_r, <- app_assoc. reflexivity.
  - split; [rewrite !app_length; reflexivity|]. rewrite without_app, <- !app_assoc. f_equal. rewrite without_above by (cbn; exact F).
    cbn [flat_map]. unfold macro_raw at 1 3. cbn [m_preceding with_preceding]. change (macro_line (with_preceding (m_preceding m ++ m_preceding x) x)) with (macro_line x).
    rewrite <- !app_assoc. reflexivity.
Qed.
Lemma delete_slice : forall gone p, falling gone -> Forall (fun i => (i < length (p_macros p))%nat) gone ->
  exists p', delete_all p gone = Ok p' /\ prep_raw p' = lines_without gone 0 (p_macros p) ++ p_remainder p /\
    length (p_macros p') = (length (p_macros p) - length gone)%nat.
Proof.
  induction gone as [|i gone IH]; intros p F B.
  - exists p. split; [reflexivity|]. split; [unfold prep_raw; rewrite without_none; reflexivity|cbn; lia].
  - destruct F as [F G]. inversion B as [|? ? Bi B']; subst. destruct p as [ms r]. cbn [p_macros p_remainder] in *.
    destruct (nth_split ms (mk_macro Setup [] (mk_opts [] [] []) [] [] [] []) Bi) as [a [b [E L]]]. set (m := nth i ms _) in E. clearbody m. subst ms i.
    destruct (delete_step gone a m b r F) as [p' [D [Lp W]]]. cbn [delete_all]. rewrite D. cbn [bind].
    destruct (IH p' G) as [p'' [D2 [R2 L2]]].
    { rewrite Lp. eapply Forall_impl; [|exact F]. cbn. intros y Y. rewrite app_length. lia. }
    exists p''. split; [exact D2|]. split; [rewrite R2; exact W|]. rewrite L2, Lp, !app_length. cbn. lia.
Qed.

(** * Negative indices *)
Lemma delete_negative a x m r : delete (mk_prep (a ++ [x; m]) r) (-1) =
  Ok (mk_prep (a ++ [with_preceding (m_preceding m ++ m_preceding x) x]) r).
Proof.
  unfold delete. cbn [p_macros p_remainder].
  assert (P : forall (l : list macro) y, py_index (l ++ [y]) (-1) = Some (length l)).
  { intros l y. unfold py_index. rewrite app_length. cbn [length]. destruct (0 <=? -1)%Z eqn:X; [discriminate|]. cbn [andb].
    change (-1 <? 0)%Z with true. rewrite (proj2 (Z.leb_le 0 (Z.of_nat (length l + 1) + -1))) by lia. cbn [andb]. f_equal. lia. }
  replace (a ++ [x; m]) with ((a ++ [x]) ++ [m]) by (rewrite <- app_assoc; reflexivity). rewrite P, nth_error_mid, remove_at_app, app_nil_r.
  rewrite (proj2 (Z.ltb_lt (-1) (Z.of_nat (length (a ++ [x]))))) by lia. rewrite P. rewrite update_at_app. reflexivity.
Qed.
