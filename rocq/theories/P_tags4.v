(** Proofs about tags: edits, positions and lookup. *)
From Coq Require Import Ascii String.
From Coq Require Import NArith ZArith List Bool Lia.
From Verif Require Import PyStr PyStrFacts Regex RegexFacts M_constants M_value Spec_value P_value M_macro_definitions Spec_macro_definitions P_macro_definitions P_macro_definitions2
  M_conditions M_tags Spec_tags.
Import ListNotations.
Open Scope N_scope.

Lemma tag_raw_own t : tag_raw t = t_preceding t ++ own_lines t.
Proof. unfold tag_raw, own_lines, comments_raw, t_preceding. now rewrite <- app_assoc. Qed.
Lemma raw_split ts a t b : ts_data ts = a ++ t :: b ->
  tags_raw ts = (flat_map tag_raw a ++ t_preceding t) ++ own_lines t ++ flat_map tag_raw b ++ ts_remainder ts.
Proof. intros E. unfold tags_raw. rewrite E, flat_map_app. cbn [flat_map]. rewrite (tag_raw_own t). now rewrite <- !app_assoc. Qed.

(** C12 *)
Theorem set_value_lines ts k t v : nth_error (ts_data ts) k = Some t ->
  let ts' := mk_tags (update_at k (with_value v) (ts_data ts)) (ts_remainder ts) in
  let x := flat_map tag_raw (firstn k (ts_data ts)) ++ comments_raw (t_comments t) in
  exists y, tags_raw ts = x ++ split_on LF [] (tag_text t) ++ y /\ tags_raw ts' = x ++ split_on LF [] (tag_text (with_value v t)) ++ y.
Proof.
  intros E ts' x. apply nth_error_split in E as (a & c & E & <-).
  exists (flat_map tag_raw c ++ ts_remainder ts). subst ts' x. rewrite E, firstn_app, firstn_all, Nat.sub_diag. cbn [firstn]. rewrite app_nil_r.
  unfold tags_raw. cbn [ts_data ts_remainder]. rewrite E, update_at_app, !flat_map_app. cbn [flat_map]. change (tag_raw t) with (comments_raw (t_comments t) ++ split_on LF [] (tag_text t)).
  change (tag_raw (with_value v t)) with (comments_raw (t_comments t) ++ split_on LF [] (tag_text (with_value v t))).
  now rewrite <- !app_assoc.
Qed.
Lemma own_single t v : ~ In LF (tag_text (with_value v t)) ->
  split_on LF [] (tag_text (with_value v t)) = [t_prefix t ++ t_name t ++ t_separator t ++ v ++ t_suffix t].
Proof.
  intros N. rewrite <- (app_nil_r (tag_text _)). rewrite split_on_app by auto. cbn [split_on]. rewrite !app_nil_r, rev_involutive. reflexivity.
Qed.

(** C13 *)
Lemma nonempty_app a b : nonempty_lines (a ++ b) = nonempty_lines a ++ nonempty_lines b.
Proof. apply filter_app. Qed.
Lemma drop_empty_nonempty l : nonempty_lines (drop_empty l) = nonempty_lines l.
Proof. induction l as [|[|c s] l IH]; auto. Qed.
Lemma nonempty_rev l : nonempty_lines (rev l) = rev (nonempty_lines l).
Proof.
  induction l as [|s l IH]; auto. cbn [rev]. rewrite nonempty_app, IH. destruct s; cbn; auto. now rewrite app_nil_r.
Qed.
Lemma merge_nonempty p l : nonempty_lines (merge_preceding p l) = nonempty_lines p ++ nonempty_lines l.
Proof.
  unfold merge_preceding. rewrite !nonempty_app, nonempty_rev, !drop_empty_nonempty, nonempty_rev, rev_involutive.
  destruct (_ || _); reflexivity.
Qed.
Lemma delete_spec ts a t b : ts_data ts = a ++ t :: b ->
  delete_at (Z.of_nat (length a)) ts =
  Ok (match b with
      | [] => mk_tags a (merge_preceding (t_preceding t) (ts_remainder ts))
      | x :: b' => mk_tags (a ++ with_preceding (merge_preceding (t_preceding t) (t_preceding x)) x :: b') (ts_remainder ts)
      end).
Proof.
  intros E. unfold delete_at. rewrite py_index_nonneg by (rewrite E, app_length; cbn; lia).
  rewrite E, nth_error_mid, remove_at_app.
  destruct b as [|x b'].
  - rewrite app_nil_r. rewrite (proj2 (Z.ltb_ge _ _)) by lia. reflexivity.
  - rewrite (proj2 (Z.ltb_lt _ _)) by (rewrite app_length; cbn; lia).
    rewrite py_index_nonneg by (rewrite app_length; cbn; lia). now rewrite update_at_app.
Qed.
Lemma own_with_preceding p t : own_lines (with_preceding p t) = own_lines t.
Proof. reflexivity. Qed.
Lemma raw_with_preceding p t : tag_raw (with_preceding p t) = p ++ own_lines t.
Proof. rewrite tag_raw_own. reflexivity. Qed.
Theorem delete_lines ts k t : nth_error (ts_data ts) k = Some t ->
  exists ts' x above below y, delete_at (Z.of_nat k) ts = Ok ts' /\
    tags_raw ts = x ++ above ++ own_lines t ++ below ++ y /\
    x = flat_map tag_raw (firstn k (ts_data ts)) /\ above = t_preceding t /\
    below = match nth_error (ts_data ts) (S k) with Some u => t_preceding u | None => ts_remainder ts end /\
    tags_raw ts' = x ++ merge_preceding above below ++ y /\
    map own_lines (ts_data ts') = map own_lines (remove_at k (ts_data ts)).
Proof.
  intros E. apply nth_error_split in E as (a & b & E & <-).
  rewrite (delete_spec _ _ _ _ E). eexists. exists (flat_map tag_raw a), (t_preceding t), (match b with u :: _ => t_preceding u | [] => ts_remainder ts end),
    (match b with u :: b' => own_lines u ++ flat_map tag_raw b' ++ ts_remainder ts | [] => [] end).
  split; [reflexivity|]. split; [|split; [|split; [|split; [|split]]]].
  - rewrite (raw_split ts a t b E). destruct b as [|u b']; cbn [flat_map app]; [now rewrite app_nil_r, <- app_assoc|].
    rewrite (tag_raw_own u). now rewrite <- !app_assoc.
  - now rewrite E, firstn_app, firstn_all, Nat.sub_diag, app_nil_r.
  - reflexivity.
  - rewrite E. rewrite nth_error_app2 by lia. replace (S (length a) - length a)%nat with 1%nat by lia. cbn [nth_error]. now destruct b.
  - destruct b as [|x b']; unfold tags_raw; cbn [ts_data ts_remainder flat_map].
    + now rewrite app_nil_r.
    + rewrite flat_map_app. cbn [flat_map]. rewrite raw_with_preceding. now rewrite <- !app_assoc.
  - rewrite E, remove_at_app. destruct b as [|x b']; cbn [ts_data]; [now rewrite app_nil_r|]. rewrite !map_app. reflexivity.
Qed.
(** The lines between: nothing but empty lines is lost, and one empty line is left where there was one at the seam. *)
Lemma drop_empty_spec l : exists k, l = repeat [] k ++ drop_empty l /\ (forall r, drop_empty l <> [] :: r).
Proof.
  induction l as [|[|c s] l (k & E & N)].
  - exists 0%nat. split; auto. discriminate.
  - exists (S k). cbn [drop_empty repeat app]. split; [now f_equal|auto].
  - exists 0%nat. cbn [drop_empty repeat app]. split; auto. discriminate.
Qed.
Lemma repeat_rev {A} (x : A) k : rev (repeat x k) = repeat x k.
Proof.
  induction k as [|k IH]; auto. cbn [repeat rev]. rewrite IH. clear. induction k; cbn; [reflexivity|]. now f_equal.
Qed.
Theorem merge_spec p l : exists p' i j l',
  p = p' ++ repeat [] i /\ l = repeat [] j ++ l' /\ (forall q, p' <> q ++ [[]]) /\ (forall q, l' <> [] :: q) /\
  merge_preceding p l = p' ++ repeat [] (if Nat.eqb (i + j) 0 then 0 else 1) ++ l'.
Proof.
  destruct (drop_empty_spec (rev p)) as (i & Ei & Ni). destruct (drop_empty_spec l) as (j & Ej & Nj).
  exists (rev (drop_empty (rev p))), i, j, (drop_empty l).
  assert (Ep : p = rev (drop_empty (rev p)) ++ repeat [] i).
  { apply (f_equal (@rev str)) in Ei. rewrite rev_involutive, rev_app_distr, repeat_rev in Ei. exact Ei. }
  split; auto. split; auto. split; [|split; auto].
  - intros q Q. apply (f_equal (@rev str)) in Q. rewrite rev_involutive, rev_app_distr in Q. cbn in Q. eapply Ni. exact Q.
  - unfold merge_preceding. do 2 f_equal.
    assert (A : (match rev p with l :: _ => str_eqb l [] | [] => false end) = negb (Nat.eqb i 0)).
    { rewrite Ei. destruct i; cbn [repeat app]; [|reflexivity]. destruct (drop_empty (rev p)) as [|[|c s] r] eqn:D; auto. exfalso; exact (Ni r eq_refl). }
    assert (B : (match l with l :: _ => str_eqb l [] | [] => false end) = negb (Nat.eqb j 0)).
    { rewrite Ej. destruct j; cbn [repeat app]; [|reflexivity]. destruct (drop_empty l) as [|[|c s] r] eqn:D; auto. exfalso; exact (Nj r eq_refl). }
    rewrite A, B. destruct i, j; reflexivity.
Qed.

(** Deleting several tags. *)
Lemma keeping_app keep a : forall s b, lines_keeping keep s (a ++ b) = lines_keeping keep s a ++ lines_keeping keep (s + length a) b.
Proof.
  induction a as [|x a IH]; intros s b; cbn [lines_keeping app length].
  - now rewrite Nat.add_0_r.
  - rewrite IH, <- !app_assoc. do 3 f_equal. f_equal. lia.
Qed.
Lemma keeping_ext k1 k2 a : forall s, (forall i, (s <= i < s + length a)%nat -> k1 i = k2 i) -> lines_keeping k1 s a = lines_keeping k2 s a.
Proof.
  induction a as [|x a IH]; intros s E; cbn [lines_keeping]; auto.
  rewrite (E s) by (cbn; lia). rewrite (IH (S s)); auto. intros i Hi. apply E. cbn. lia.
Qed.
Lemma keeping_all k a : forall s, (forall i, (s <= i < s + length a)%nat -> k i = true) -> lines_keeping k s a = flat_map tag_raw a.
Proof.
  induction a as [|x a IH]; intros s E; cbn [lines_keeping flat_map]; auto.
  rewrite (E s) by (cbn; lia). rewrite (tag_raw_own x). rewrite (IH (S s)), <- app_assoc; auto. intros i Hi. apply E. cbn. lia.
Qed.
Theorem delete_all_lines : forall is ts, decreasing is -> Forall (fun i => (i < length (ts_data ts))%nat) is ->
  exists ts', delete_all ts is = Ok ts' /\
    nonempty_lines (tags_raw ts') = nonempty_lines (lines_keeping (fun i => negb (existsb (Nat.eqb i) is)) 0 (ts_data ts) ++ ts_remainder ts) /\
    length (ts_data ts') = (length (ts_data ts) - length is)%nat.
Proof.
  induction is as [|i is IH]; intros m D F; cbn [delete_all].
  - exists m. split; [reflexivity|]. split; [|cbn [length]; lia]. unfold tags_raw. now rewrite keeping_all.
  - destruct D as [D1 D2]. inversion F as [|? ? Fi F']; subst.
    destruct (nth_error (ts_data m) i) as [d|] eqn:E; [|apply nth_error_None in E; lia].
    apply nth_error_split in E as (a & b & E & <-). rewrite (delete_spec _ _ _ _ E). cbn [bind].
    assert (KF : forall i0 s (l : list tag), (forall j, (s <= j)%nat -> (i0 < j)%nat) -> Forall (fun y => (y <= i0)%nat) is ->
               forall j, (s <= j < s + length l)%nat -> existsb (Nat.eqb j) is = false).
    { intros i0 s l Hs Hf j Hj. destruct (existsb _ is) eqn:Q; auto. apply existsb_exists in Q as (y & Hy & Q). apply Nat.eqb_eq in Q. subst y.
      rewrite Forall_forall in Hf. specialize (Hf _ Hy). specialize (Hs j ltac:(lia)). lia. }
    assert (Hkeep : lines_keeping (fun i => negb (existsb (Nat.eqb i) (length a :: is))) 0 (ts_data m) =
       lines_keeping (fun i => negb (existsb (Nat.eqb i) is)) 0 a ++ t_preceding d ++ flat_map tag_raw b).
    { rewrite E, keeping_app. cbn [lines_keeping existsb]. rewrite Nat.add_0_l, Nat.eqb_refl. cbn [orb negb app].
      f_equal; [|f_equal].
      - apply keeping_ext. intros j Hj. cbn [existsb]. replace (j =? length a)%nat with false; auto. symmetry. apply Nat.eqb_neq. lia.
      - apply keeping_all. intros j Hj. cbn [existsb]. replace (j =? length a)%nat with false by (symmetry; apply Nat.eqb_neq; lia).
        cbn [orb]. rewrite (KF (length a) (S (length a)) b); auto; try lia.
        apply Forall_forall. intros y Hy. rewrite Forall_forall in D1. specialize (D1 y Hy). lia. }
    rewrite Hkeep.
    assert (Hla : (length is <= length a)%nat).
    { clear -D1 D2. revert D1 D2. generalize (length a). induction is as [|x is IHl]; intros n D1 D2; cbn; [lia|].
      inversion D1; subst. destruct D2 as [D3 D4]. specialize (IHl x D3 D4). lia. }
    destruct b as [|x b'].
    + destruct (IH (mk_tags a (merge_preceding (t_preceding d) (ts_remainder m)))) as (m' & E1 & E2 & E3); auto.
      exists m'. split; auto. split.
      * rewrite E2. cbn [ts_data ts_remainder flat_map]. rewrite app_nil_r, !nonempty_app, merge_nonempty, <- app_assoc. reflexivity.
      * rewrite E3. cbn [ts_data]. rewrite E, app_length. cbn. lia.
    + destruct (IH (mk_tags (a ++ with_preceding (merge_preceding (t_preceding d) (t_preceding x)) x :: b') (ts_remainder m))) as (m' & E1 & E2 & E3); auto.
      { apply Forall_forall. intros y Hy. rewrite Forall_forall in D1. specialize (D1 y Hy). cbn [ts_data]. rewrite app_length. cbn. lia. }
      exists m'. split; auto. split.
      * rewrite E2. cbn [ts_data ts_remainder]. rewrite keeping_app. cbn [lines_keeping]. rewrite Nat.add_0_l.
        assert (Q : existsb (Nat.eqb (length a)) is = false).
        { destruct (existsb _ is) eqn:Q; auto. apply existsb_exists in Q as (y & Hy & Q). apply Nat.eqb_eq in Q. subst y.
          rewrite Forall_forall in D1. specialize (D1 _ Hy). lia. }
        rewrite Q. cbn [negb]. rewrite (keeping_all _ b').
        -- rewrite own_with_preceding. cbn [flat_map]. rewrite (tag_raw_own x).
           change (t_preceding (with_preceding ?p x)) with p. unfold t_preceding at 1. cbn [with_preceding t_comments cs_preceding]. rewrite !nonempty_app, merge_nonempty, <- !app_assoc. reflexivity.
        -- intros j Hj. rewrite (KF (length a) (S (length a)) b'); auto; try lia.
           apply Forall_forall. intros y Hy. rewrite Forall_forall in D1. specialize (D1 y Hy). lia.
      * rewrite E3. cbn [ts_data]. rewrite E, !app_length. cbn. lia.
Qed.

(** C14 *)
Lemma split_endif_app l : let (m, k) := split_endif l in m ++ k = l.
Proof. unfold split_endif. destruct (find_index _ l); cbn [app]; auto. now rewrite firstn_skipn. Qed.
Lemma split_endif_spec l : let (m, k) := split_endif l in
  l = m ++ k /\
  ((m = [] /\ Forall (fun s => startswith s (lit "%endif") = false) k) \/
   (exists a e, m = a ++ [e] /\ startswith e (lit "%endif") = true /\ Forall (fun s => startswith s (lit "%endif") = false) a)).
Proof.
  unfold split_endif. destruct (find_index _ l) as [k|] eqn:E.
  - split; [now rewrite firstn_skipn|]. right. apply find_index_Some in E as (a & x & b & -> & <- & Hx & Ha).
    exists a, x. rewrite firstn_app. rewrite firstn_all2 by lia. replace (S (length a) - length a)%nat with 1%nat by lia. cbn [firstn].
    repeat split; auto. apply Forall_forall. intros y Hy. rewrite forallb_forall in Ha. specialize (Ha y Hy). now apply negb_true_iff in Ha.
  - split; auto. left. split; auto. apply find_index_None in E. apply Forall_forall. intros x Hx. rewrite forallb_forall in E. specialize (E x Hx). now apply negb_true_iff in E.
Qed.

Lemma py_index_clamp {A} (l : list A) i : (- Z.of_nat (length l) <= i < Z.of_nat (length l))%Z -> py_index l i = Some (clamp_index l i).
Proof.
  intros Hi. unfold py_index, clamp_index. destruct (Z.ltb_spec i 0).
  - rewrite (proj2 (Z.leb_gt 0 i)) by lia. cbn [andb]. rewrite (proj2 (Z.leb_le _ _)) by lia. try rewrite (proj2 (Z.ltb_lt _ _)) by lia. cbn [andb]. f_equal. lia.
  - rewrite (proj2 (Z.leb_le 0 i)) by lia. rewrite (proj2 (Z.ltb_lt _ _)) by lia. cbn [andb]. f_equal. lia.
Qed.
Theorem insert_lines ts i item : (- Z.of_nat (length (ts_data ts)) <= i)%Z ->
  let k := clamp_index (ts_data ts) i in
  exists ts' x m y, tag_insert i item ts = Ok ts' /\
    tags_raw ts = x ++ m ++ y /\ tags_raw ts' = x ++ m ++ tag_raw item ++ y /\
    x = flat_map tag_raw (firstn k (ts_data ts)) /\ m = fst (split_endif (between k ts)) /\
    map own_lines (ts_data ts') = firstn k (map own_lines (ts_data ts)) ++ own_lines item :: skipn k (map own_lines (ts_data ts)).
Proof.
  intros Hi k. destruct (Z_lt_le_dec i (Z.of_nat (length (ts_data ts)))) as [L|L].
  - pose proof (py_index_clamp (ts_data ts) i (conj Hi L)) as Ek. fold k in Ek.
    assert (Hk : (k < length (ts_data ts))%nat).
    { subst k. unfold clamp_index. destruct (i <? 0)%Z eqn:Q; [apply Z.ltb_lt in Q|apply Z.ltb_ge in Q]; lia. }
    unfold tag_insert. rewrite (proj2 (Z.ltb_ge (Z.of_nat (length (ts_data ts))) i)) by lia. rewrite (proj2 (Z.ltb_lt i _)) by lia. rewrite Ek.
    destruct (nth_error (ts_data ts) k) as [u|] eqn:Eu; [|apply nth_error_None in Eu; lia].
    unfold between. rewrite Eu. apply nth_error_split in Eu as (a & b & E & Ha).
    destruct (split_endif (t_preceding u)) as [moved kept] eqn:Em. pose proof (split_endif_app (t_preceding u)) as Q. rewrite Em in Q.
    cbn [fst]. unfold py_insert.
    assert (Ec : clamp_index (update_at k (with_preceding kept) (ts_data ts)) i = k).
    { assert (El : length (update_at k (with_preceding kept) (ts_data ts)) = length (ts_data ts)) by (rewrite E, <- Ha, update_at_app, !app_length; reflexivity).
      unfold clamp_index at 1. rewrite El. reflexivity. }
    clearbody k.
    rewrite Ec, E, <- Ha, update_at_app, !firstn_app, !skipn_app, !Nat.sub_diag, !firstn_all, !skipn_all. cbn [firstn skipn app]. rewrite !app_nil_r.
    eexists. exists (flat_map tag_raw a), moved, (kept ++ own_lines u ++ flat_map tag_raw b ++ ts_remainder ts).
    split; [reflexivity|]. split; [|split; [|split; [reflexivity|split; [reflexivity|]]]].
    + rewrite (raw_split ts a u b E), <- Q. now rewrite <- !app_assoc.
    + unfold tags_raw. cbn [ts_data ts_remainder]. rewrite flat_map_app. cbn [flat_map]. rewrite !raw_with_preceding, (tag_raw_own item). now rewrite <- !app_assoc.
    + cbn [ts_data]. rewrite !map_app. cbn [map]. rewrite !own_with_preceding.
      replace (length a) with (length (map own_lines a)) by apply map_length.
      rewrite firstn_app, skipn_app, Nat.sub_diag, firstn_all, skipn_all. cbn [firstn skipn app]. now rewrite app_nil_r.
  - assert (Hk : k = length (ts_data ts)). { subst k. unfold clamp_index. rewrite (proj2 (Z.ltb_ge _ _)) by lia. lia. }
    set (i' := if (Z.of_nat (length (ts_data ts)) <? i)%Z then Z.of_nat (length (ts_data ts)) else i).
    assert (Ei : i' = Z.of_nat (length (ts_data ts))). { unfold i'. destruct (Z.ltb_spec (Z.of_nat (length (ts_data ts))) i); lia. }
    unfold tag_insert. fold i'. rewrite Ei. rewrite Z.ltb_irrefl.
    unfold between. rewrite (proj2 (nth_error_None _ _)) by lia.
    destruct (split_endif (ts_remainder ts)) as [moved kept] eqn:Em. pose proof (split_endif_app (ts_remainder ts)) as Q. rewrite Em in Q.
    cbn [fst]. unfold py_insert.
    clearbody k. assert (Ec : clamp_index (ts_data ts) (Z.of_nat (length (ts_data ts))) = k). { unfold clamp_index. rewrite (proj2 (Z.ltb_ge _ _)) by lia. lia. }
    rewrite Ec, Hk, !firstn_all, !skipn_all.
    eexists. exists (flat_map tag_raw (ts_data ts)), moved, kept.
    split; [reflexivity|]. split; [|split; [|split; [reflexivity|split; [reflexivity|]]]].
    + unfold tags_raw. now rewrite Q.
    + unfold tags_raw. cbn [ts_data ts_remainder]. rewrite flat_map_app. cbn [flat_map]. rewrite !raw_with_preceding, (tag_raw_own item), app_nil_r. now rewrite <- !app_assoc.
    + cbn [ts_data]. rewrite !map_app. cbn [map]. rewrite own_with_preceding.
      replace (length (ts_data ts)) with (length (map own_lines (ts_data ts))) by apply map_length.
      now rewrite firstn_all, skipn_all.
Qed.
Theorem append_lines ts item :
  tags_raw (tag_append item ts) = flat_map tag_raw (ts_data ts) ++ tag_raw item ++ ts_remainder ts.
Proof. unfold tags_raw, tag_append. cbn [ts_data ts_remainder]. rewrite flat_map_app. cbn [flat_map]. now rewrite app_nil_r, <- app_assoc. Qed.

(** C16 *)
Lemma comments_eqb_eq : forall a b, comments_eqb a b = true <-> a = b.
Proof.
  induction a as [|[x1 x2] a IH]; intros [|[y1 y2] b]; cbn; try (split; congruence).
  unfold comment_eqb. cbn. rewrite !andb_true_iff, !str_eqb_eq, IH. split; [intros [[-> ->] ->]; auto|intros Q; injection Q; auto].
Qed.
Lemma tag_eqb_eq a b : tag_eqb a b = true <-> same_tag a b.
Proof. unfold tag_eqb, same_tag. rewrite !andb_true_iff, !str_eqb_eq, comments_eqb_eq. tauto. Qed.
Theorem position_exact ts a t b : ts_data ts = a ++ t :: b -> (forall x, In x a -> ~ same_tag x t) ->
  Forall (fun x => ~ In LF (tag_text x)) a ->
  exists p, tag_position t ts = Ok p /\ firstn p (tags_raw ts) = flat_map tag_raw a ++ comments_raw (t_comments t) /\
    skipn p (tags_raw ts) = split_on LF [] (tag_text t) ++ flat_map tag_raw b ++ ts_remainder ts.
Proof.
  intros E N F. unfold tag_position. rewrite E, find_index_first.
  - eexists. split; [reflexivity|]. rewrite firstn_app, Nat.sub_diag, firstn_all. cbn [firstn]. rewrite app_nil_r.
    assert (Es : list_sum (map (fun x => length (comments_raw (t_comments x)) + 1)%nat a) = length (flat_map tag_raw a)).
    { clear -F. induction F as [|x a Nx F IH]; auto. cbn [map list_sum fold_right flat_map]. rewrite app_length. fold (list_sum (map (fun x => length (comments_raw (t_comments x)) + 1)%nat a)).
      rewrite IH. f_equal. unfold tag_raw. rewrite app_length. f_equal. rewrite <- (app_nil_r (tag_text x)), split_on_app by auto. reflexivity. }
    rewrite Es, <- app_length.
    assert (Er : tags_raw ts = (flat_map tag_raw a ++ comments_raw (t_comments t)) ++ split_on LF [] (tag_text t) ++ flat_map tag_raw b ++ ts_remainder ts).
    { unfold tags_raw. rewrite E, flat_map_app. cbn [flat_map]. unfold tag_raw at 2. now rewrite <- !app_assoc. }
    rewrite Er, firstn_app, skipn_app, Nat.sub_diag, firstn_all, skipn_all. cbn [firstn skipn app]. now rewrite app_nil_r.
  - intros y Hy. destruct (tag_eqb y t) eqn:Q; auto. apply tag_eqb_eq in Q. destruct (N y Hy Q).
  - apply tag_eqb_eq. unfold same_tag. repeat split.
Qed.
Lemma position_total ts t : In t (ts_data ts) -> exists p, tag_position t ts = Ok p.
Proof.
  intros Hi. unfold tag_position. destruct (find_index _ (ts_data ts)) eqn:Q; eauto.
  exfalso. apply find_index_None in Q. rewrite forallb_forall in Q. specialize (Q t Hi). cbv beta in Q.
  assert (E : tag_eqb t t = true) by (apply tag_eqb_eq; unfold same_tag; repeat split). rewrite E in Q. discriminate.
Qed.

(** C17 *)
Section Uni.
Context {U : Unicode}.
Lemma find_from_spec name : forall l i fm,
  match find_from i name fm l with
  | Ok k => (exists j d, k = (i + j)%nat /\ nth_error l j = Some d /\ capitalize (t_name d) = capitalize name /\ t_valid d = true /\
               forall j' d', (j' < j)%nat -> nth_error l j' = Some d' -> ~ (capitalize (t_name d') = capitalize name /\ t_valid d' = true)) \/
            ((forall j d, nth_error l j = Some d -> ~ (capitalize (t_name d) = capitalize name /\ t_valid d = true)) /\
             (fm = Some k \/ (fm = None /\ exists j d, k = (i + j)%nat /\ nth_error l j = Some d /\ capitalize (t_name d) = capitalize name /\
               forall j' d', (j' < j)%nat -> nth_error l j' = Some d' -> capitalize (t_name d') <> capitalize name)))
  | Err e => e = ValueError /\ fm = None /\ forall j d, nth_error l j = Some d -> capitalize (t_name d) <> capitalize name
  end.
Proof.
  induction l as [|d l IH]; intros i fm; cbn [find_from].
  - assert (K : forall j (d : tag), nth_error [] j = Some d -> False) by (intros [|j] d Q; discriminate).
    destruct fm as [k|].
    + right. split; auto. intros j d Q. destruct (K _ _ Q).
    + repeat split. intros j d Q. destruct (K _ _ Q).
  - destruct (str_eqb (capitalize (t_name d)) (capitalize name)) eqn:En.
    + apply str_eqb_eq in En. destruct (t_valid d) eqn:Ev.
      * left. exists 0%nat, d. rewrite Nat.add_0_r. repeat split; auto. intros j' d' L. lia.
      * specialize (IH (S i) (match fm with None => Some i | Some k => Some k end)).
        destruct (find_from (S i) name _ l) as [k|e].
        -- destruct IH as [(j & x & -> & Hx & Hn & Hv & Hf)|[Hno [Hk|[Hk _]]]].
           ++ left. exists (S j), x. repeat split; auto; [lia|]. intros [|j'] d' L Q; [injection Q as <-; intros [_ ?]; congruence|].
              apply (Hf j' d'); auto. lia.
           ++ right. split.
              ** intros [|j] x Q; [injection Q as <-; intros [_ ?]; congruence|]. apply (Hno j x Q).
              ** destruct fm as [k0|]; [left; auto|]. injection Hk as <-. right. split; auto. exists 0%nat, d. rewrite Nat.add_0_r. repeat split; auto. intros j' d' L. lia.
           ++ destruct fm; discriminate.
        -- destruct IH as (_ & Q & _). destruct fm; discriminate.
    + assert (Nn : capitalize (t_name d) <> capitalize name) by (intros Q; apply str_eqb_eq in Q; congruence).
      specialize (IH (S i) fm). destruct (find_from (S i) name fm l) as [k|e].
      * destruct IH as [(j & x & -> & Hx & Hn & Hv & Hf)|[Hno [Hk|[Hk (j & x & -> & Hx & Hn & Hf)]]]].
        -- left. exists (S j), x. repeat split; auto; [lia|]. intros [|j'] d' L Q; [injection Q as <-; intros [? _]; congruence|].
           apply (Hf j' d'); auto. lia.
        -- right. split; auto. intros [|j] x Q; [injection Q as <-; intros [? _]; congruence|]. apply (Hno j x Q).
        -- right. split.
           ++ intros [|j'] y Q; [injection Q as <-; intros [? _]; congruence|]. apply (Hno j' y Q).
           ++ right. split; auto. exists (S j), x. repeat split; auto; [lia|]. intros [|j'] d' L Q; [injection Q as <-; auto|].
              apply (Hf j' d'); auto. lia.
      * destruct IH as (-> & -> & Hf). repeat split; auto. intros [|j] x Q; [injection Q as <-; auto|]. apply (Hf j x Q).
Qed.

Theorem find_spec m name :
  match tag_find m name with
  | Ok k => exists d, nth_error (ts_data m) k = Some d /\ capitalize (t_name d) = capitalize name /\
      ((t_valid d = true /\ forall j d', (j < k)%nat -> nth_error (ts_data m) j = Some d' -> capitalize (t_name d') = capitalize name -> t_valid d' = false) \/
       ((forall d', In d' (ts_data m) -> capitalize (t_name d') = capitalize name -> t_valid d' = false) /\
        forall j d', (j < k)%nat -> nth_error (ts_data m) j = Some d' -> capitalize (t_name d') <> capitalize name))
  | Err e => e = ValueError /\ forall d, In d (ts_data m) -> capitalize (t_name d) <> capitalize name
  end.
Proof.
  unfold tag_find. pose proof (find_from_spec name (ts_data m) 0 None) as S. destruct (find_from 0 name None (ts_data m)) as [k|e].
  - destruct S as [(j & d & -> & Hd & Hn & Hv & Hf)|[Hno [Q|[_ (j & d & -> & Hd & Hn & Hf)]]]]; [| discriminate|]; cbn [Nat.add].
    + exists d. repeat split; auto. left. split; auto. intros j' d' L Q E. destruct (t_valid d') eqn:V; auto. destruct (Hf j' d' L Q). auto.
    + exists d. repeat split; auto. right. split; auto. intros d' Hi E. destruct (t_valid d') eqn:V; auto.
      apply In_nth_error in Hi as (i & Hi). destruct (Hno i d' Hi). auto.
  - destruct S as (-> & _ & S). split; auto. intros d Hi. apply In_nth_error in Hi as (i & Hi). eauto.
Qed.

Lemma find_at_from_spec m name position : forall l i, (forall d, In d l -> In d (ts_data m)) ->
  match find_at_from m i name position l with
  | Ok k => exists j d, k = (i + j)%nat /\ nth_error l j = Some d /\ capitalize (t_name d) = capitalize name /\ tag_position d m = Ok position /\
      forall j' d', (j' < j)%nat -> nth_error l j' = Some d' -> capitalize (t_name d') = capitalize name -> tag_position d' m <> Ok position
  | Err e => e = ValueError /\ forall d, In d l -> capitalize (t_name d) = capitalize name -> tag_position d m <> Ok position
  end.
Proof.
  induction l as [|d l IH]; intros i Hl; cbn [find_at_from].
  - split; auto.
  - specialize (IH (S i) (fun x Hx => Hl x (or_intror Hx))).
    assert (K : (capitalize (t_name d) = capitalize name -> tag_position d m <> Ok position) ->
      match find_at_from m (S i) name position l with
      | Ok k => exists j d0, k = (i + j)%nat /\ nth_error (d :: l) j = Some d0 /\ capitalize (t_name d0) = capitalize name /\ tag_position d0 m = Ok position /\
          forall j' d', (j' < j)%nat -> nth_error (d :: l) j' = Some d' -> capitalize (t_name d') = capitalize name -> tag_position d' m <> Ok position
      | Err e => e = ValueError /\ forall d0, In d0 (d :: l) -> capitalize (t_name d0) = capitalize name -> tag_position d0 m <> Ok position
      end).
    { intros Hd. destruct (find_at_from m (S i) name position l) as [k|e].
      - destruct IH as (j & x & -> & Hx & Hn & Hp & Hf). exists (S j), x. repeat split; auto; [lia|].
        intros [|j'] d' L Q; [injection Q as <-; auto|]. apply (Hf j' d'); auto. lia.
      - destruct IH as (-> & Hf). split; auto. intros x [<-|Hx]; auto. }
    destruct (str_eqb (capitalize (t_name d)) (capitalize name)) eqn:En.
    + apply str_eqb_eq in En. destruct (position_total m d) as (p & Ep); [apply Hl; now left|]. rewrite Ep. cbn [bind].
      destruct (Nat.eqb_spec p position) as [->|Np].
      * exists 0%nat, d. rewrite Nat.add_0_r. repeat split; auto. intros j' d' L. lia.
      * apply K. intros _ Q. congruence.
    + apply K. intros Q. apply str_eqb_eq in Q. congruence.
Qed.
Theorem find_at_spec m name position :
  match tag_find_at m name position with
  | Ok k => exists d, nth_error (ts_data m) k = Some d /\ capitalize (t_name d) = capitalize name /\ tag_position d m = Ok position
  | Err e => e = ValueError /\ forall d, In d (ts_data m) -> capitalize (t_name d) = capitalize name -> tag_position d m <> Ok position
  end.
Proof.
  unfold tag_find_at. pose proof (find_at_from_spec m name position (ts_data m) 0 (fun d H => H)) as S.
  destruct (find_at_from m 0 name position (ts_data m)) as [k|e]; auto.
  destruct S as (j & d & -> & Hd & Hn & Hp & _). exists d. auto.
Qed.


End Uni.
