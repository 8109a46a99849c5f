(** Copies of lists of tags and macro definitions: proofs. *)
From Coq Require Import NArith ZArith List Bool Lia.
From Verif Require Import PyStr PyStrFacts M_tags M_macro_definitions M_shared P_options6.
Import ListNotations.
Open Scope nat_scope.

Lemma put_same {A} (h : nat -> A) i x : put h i x i = x.
Proof. unfold put. now rewrite Nat.eqb_refl. Qed.
Lemma put_other {A} (h : nat -> A) i x j : j <> i -> put h i x j = h j.
Proof. unfold put. intros N. apply Nat.eqb_neq in N. now rewrite N. Qed.
Lemma map_put {A} (h : nat -> A) i x l : ~ In i l -> map (put h i x) l = map h l.
Proof. intros N. apply map_ext_in. intros j I. apply put_other. intros ->. auto. Qed.
Lemma nth_error_mid {A} (a : list A) x b : nth_error (a ++ x :: b) (length a) = Some x.
Proof. rewrite nth_error_app2, Nat.sub_diag by lia. reflexivity. Qed.
Lemma py_index_nat {A} (l : list A) k : k < length l -> py_index l (Z.of_nat k) = Some k.
Proof.
  intros H. unfold py_index. assert ((0 <=? Z.of_nat k)%Z = true) as -> by (apply Z.leb_le; lia).
  assert ((Z.of_nat k <? Z.of_nat (length l))%Z = true) as -> by (apply Z.ltb_lt; lia). cbn. now rewrite Nat2Z.id.
Qed.
Lemma update_mid {A} (f : A -> A) a x b : update_at (length a) f (a ++ x :: b) = a ++ f x :: b.
Proof. induction a as [|y a IH]; cbn; auto. now rewrite IH. Qed.
Lemma nodup_mid (a : list nat) d n b : NoDup (a ++ d :: n :: b) -> ~ In n a /\ ~ In n b /\ n <> d /\ ~ In d a /\ ~ In d b.
Proof.
  intros ND. pose proof (NoDup_remove_2 _ _ _ ND) as N1. pose proof (NoDup_remove_1 _ _ _ ND) as ND1. pose proof (NoDup_remove_2 _ _ _ ND1) as N2.
  rewrite in_app_iff in *. cbn [In] in N1. intuition.
Qed.

Theorem tags_copied s c a d n b : tl_ids c = a ++ d :: n :: b -> NoDup (tl_ids c) ->
  exists s' c', delete_ref s (copy_tags c) (length a) = Ok (s', c') /\
    delete_at (Z.of_nat (length a)) (tags_of s c) = Ok (tags_of s' c') /\
    tags_of s' c = mk_tags (map (s_tags s) a ++ s_tags s d ::
      M_tags.with_preceding (merge_preceding (t_preceding (s_tags s d)) (t_preceding (s_tags s n))) (s_tags s n) :: map (s_tags s) b) (s_rems s (tl_rem c)).
Proof.
  intros E ND. rewrite E in ND. destruct (nodup_mid a d n b ND) as (N1 & N2 & N3 & N4 & N5).
  unfold delete_ref, copy_tags. cbn [tl_ids tl_rem]. rewrite E, nth_error_mid, remove_at_mid, nth_error_mid.
  do 2 eexists. split; [reflexivity|]. split.
  - unfold delete_at, tags_of. cbn [ts_data ts_remainder tl_ids tl_rem s_tags s_rems]. rewrite E, map_app. cbn [map].
    rewrite py_index_nat by (rewrite app_length, map_length; cbn; lia).
    rewrite <- (map_length (s_tags s) a). rewrite nth_error_mid, remove_at_mid.
    assert ((Z.of_nat (length (map (s_tags s) a)) <? Z.of_nat (length (map (s_tags s) a ++ s_tags s n :: map (s_tags s) b)))%Z = true) as ->
      by (apply Z.ltb_lt; rewrite app_length; cbn [length]; lia).
    rewrite py_index_nat by (rewrite app_length; cbn [length]; lia). rewrite update_mid. rewrite map_app. cbn [map].
    rewrite !map_put by auto. now rewrite put_same.
  - unfold tags_of. cbn [s_tags s_rems]. rewrite E, map_app. cbn [map]. rewrite !map_put by auto. rewrite put_same, put_other by auto. reflexivity.
Qed.
Theorem tags_copied_last s c a d : tl_ids c = a ++ [d] ->
  exists s' c', delete_ref s (copy_tags c) (length a) = Ok (s', c') /\
    delete_at (Z.of_nat (length a)) (tags_of s c) = Ok (tags_of s' c') /\
    tags_of s' c = mk_tags (ts_data (tags_of s c)) (merge_preceding (t_preceding (s_tags s d)) (s_rems s (tl_rem c))).
Proof.
  intros E. unfold delete_ref, copy_tags. cbn [tl_ids tl_rem]. rewrite E, nth_error_mid, remove_at_mid, app_nil_r.
  assert (nth_error a (length a) = None) as -> by (apply nth_error_None; lia).
  do 2 eexists. split; [reflexivity|]. split.
  - unfold delete_at, tags_of. cbn [ts_data ts_remainder tl_ids tl_rem s_tags s_rems]. rewrite E, map_app. cbn [map].
    rewrite py_index_nat by (rewrite app_length, map_length; cbn; lia).
    rewrite <- (map_length (s_tags s) a). rewrite nth_error_mid, remove_at_mid, app_nil_r.
    rewrite Z.ltb_irrefl. now rewrite put_same.
  - unfold tags_of. cbn [s_tags s_rems ts_data]. now rewrite put_same.
Qed.
Theorem defs_copied h c a d n b : dl_ids c = a ++ d :: n :: b -> NoDup (dl_ids c) ->
  exists h' c', delete_def h c (length a) = Ok (h', c') /\
    M_macro_definitions.delete (defs_of h c) (Z.of_nat (length a)) = Ok (defs_of h' c') /\
    get_raw_data (defs_of h' c) = flat_map mdef_raw (map h a) ++ mdef_raw (h d) ++ d_preceding (h d) ++ mdef_raw (h n) ++ flat_map mdef_raw (map h b) ++ dl_rem c.
Proof.
  intros E ND. rewrite E in ND. destruct (nodup_mid a d n b ND) as (N1 & N2 & N3 & N4 & N5).
  unfold delete_def. rewrite E, nth_error_mid, remove_at_mid, nth_error_mid.
  do 2 eexists. split; [reflexivity|]. split.
  - unfold M_macro_definitions.delete, defs_of. cbn [md_data md_remainder dl_ids dl_rem]. rewrite E, map_app. cbn [map].
    rewrite py_index_nat by (rewrite app_length, map_length; cbn; lia).
    rewrite <- (map_length h a). rewrite nth_error_mid, remove_at_mid.
    assert ((Z.of_nat (length (map h a)) <? Z.of_nat (length (map h a ++ h n :: map h b)))%Z = true) as ->
      by (apply Z.ltb_lt; rewrite app_length; cbn [length]; lia).
    rewrite py_index_nat by (rewrite app_length; cbn [length]; lia). rewrite update_mid. rewrite map_app. cbn [map].
    rewrite !map_put by auto. now rewrite put_same.
  - unfold get_raw_data, defs_of. cbn [md_data md_remainder]. rewrite E, map_app, flat_map_app. cbn [map flat_map].
    rewrite !map_put by auto. rewrite put_same, put_other by auto.
    assert (mdef_raw (M_macro_definitions.with_preceding (d_preceding (h d) ++ d_preceding (h n)) (h n)) = d_preceding (h d) ++ mdef_raw (h n)) as ->
      by (unfold mdef_raw; cbn [M_macro_definitions.with_preceding d_preceding]; rewrite <- app_assoc; reflexivity).
    rewrite <- !app_assoc. reflexivity.
Qed.
Theorem defs_copied_last h c a d : dl_ids c = a ++ [d] ->
  exists c', delete_def h c (length a) = Ok (h, c') /\
    M_macro_definitions.delete (defs_of h c) (Z.of_nat (length a)) = Ok (defs_of h c').
Proof.
  intros E. unfold delete_def. rewrite E, nth_error_mid, remove_at_mid, app_nil_r.
  assert (nth_error a (length a) = None) as -> by (apply nth_error_None; lia). eexists. split; [reflexivity|].
  unfold M_macro_definitions.delete, defs_of. cbn [md_data md_remainder dl_ids dl_rem]. rewrite E, map_app. cbn [map].
  rewrite py_index_nat by (rewrite app_length, map_length; cbn; lia).
  rewrite <- (map_length h a). rewrite nth_error_mid, remove_at_mid, app_nil_r. now rewrite Z.ltb_irrefl.
Qed.
