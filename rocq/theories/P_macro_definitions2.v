From Coq Require Import Ascii String.
From Coq Require Import NArith ZArith List Bool Lia.
From Verif Require Import PyStr PyStrFacts Regex RegexFacts M_value P_value M_macro_definitions Spec_macro_definitions P_macro_definitions.
Import ListNotations.
Open Scope N_scope.

(** Positions *)
Lemma strs_eqb_eq : forall a b, strs_eqb a b = true <-> a = b.
Proof.
  induction a as [|x a IH]; intros [|y b]; cbn; try (split; congruence).
  rewrite andb_true_iff, str_eqb_eq, IH. split; [intros [-> ->]; auto|intros Q; injection Q; auto].
Qed.
Lemma mdef_eqb_eq a b : mdef_eqb a b = true <-> same_def a b.
Proof.
  unfold mdef_eqb, same_def. rewrite !andb_true_iff, !str_eqb_eq, !Bool.eqb_true_iff, strs_eqb_eq.
  destruct a as [n1 b1 g1 c1 s1 [[[p1 q1] r1] t1] x1 v1 l1], b as [n2 b2 g2 c2 s2 [[[p2 q2] r2] t2] x2 v2 l2]. cbn.
  rewrite !andb_true_iff, !str_eqb_eq.
  assert (style_eqb s1 s2 = true <-> s1 = s2) as -> by (destruct s1, s2; cbn; split; congruence).
  split.
  - intros H. decompose [and] H. congruence.
  - intros Q; injection Q. intros; subst. tauto.
Qed.
Lemma find_index_first {A} (p : A -> bool) a x b : (forall y, In y a -> p y = false) -> p x = true ->
  find_index p (a ++ x :: b) = Some (length a).
Proof.
  induction a as [|y a IH]; intros Ha Hx; cbn [app find_index length].
  - now rewrite Hx.
  - rewrite (Ha y) by now left. rewrite IH; auto. intros z Hz. apply Ha. now right.
Qed.
Lemma raw_split m a d b : md_data m = a ++ d :: b ->
  get_raw_data m = (flat_map mdef_raw a ++ d_preceding d) ++ own_lines d ++ flat_map mdef_raw b ++ md_remainder m.
Proof. intros E. unfold get_raw_data. rewrite E, flat_map_app. cbn [flat_map]. unfold mdef_raw at 2. now rewrite <- !app_assoc. Qed.
Theorem position_exact m a d b : md_data m = a ++ d :: b -> (forall x, In x a -> ~ same_def x d) ->
  exists p, get_position d m = Ok p /\ firstn p (get_raw_data m) = flat_map mdef_raw a ++ d_preceding d /\
    skipn p (get_raw_data m) = own_lines d ++ flat_map mdef_raw b ++ md_remainder m.
Proof.
  intros E N. unfold get_position. rewrite E, find_index_first.
  - eexists. split; [reflexivity|]. rewrite firstn_app, Nat.sub_diag, firstn_all. cbn [firstn]. rewrite app_nil_r.
    rewrite (raw_split m a d b E), <- app_length.
    rewrite firstn_app, skipn_app, Nat.sub_diag, firstn_all, skipn_all. cbn [firstn skipn app]. now rewrite app_nil_r.
  - intros y Hy. destruct (mdef_eqb y d) eqn:Q; auto. apply mdef_eqb_eq in Q. destruct (N y Hy Q).
  - now apply mdef_eqb_eq.
Qed.
Lemma own_lines_first d : exists b, own_lines d = (d_head d ++ b) :: tl (own_lines d).
Proof.
  unfold own_lines. destruct (split_on LF [] (d_body d ++ d_ws3 d)) as [|b0 bs].
  - exists []. now rewrite app_nil_r.
  - now exists b0.
Qed.

(** Deleting *)
Lemma raw_with_preceding p d : mdef_raw (with_preceding p d) = p ++ own_lines d.
Proof. reflexivity. Qed.
Lemma delete_spec m a d b : md_data m = a ++ d :: b ->
  delete m (Z.of_nat (length a)) =
  Ok (match b with
      | [] => mk_mdefs a (d_preceding d ++ md_remainder m)
      | x :: b' => mk_mdefs (a ++ with_preceding (d_preceding d ++ d_preceding x) x :: b') (md_remainder m)
      end).
Proof.
  intros E. unfold delete. rewrite py_index_nonneg by (rewrite E, app_length; cbn; lia).
  rewrite E, nth_error_mid, remove_at_app.
  destruct b as [|x b'].
  - rewrite app_nil_r. rewrite (proj2 (Z.ltb_ge _ _)) by lia. reflexivity.
  - rewrite (proj2 (Z.ltb_lt _ _)) by (rewrite app_length; cbn; lia).
    rewrite py_index_nonneg by (rewrite app_length; cbn; lia). now rewrite update_at_app.
Qed.
Theorem delete_lines m k d : nth_error (md_data m) k = Some d ->
  exists m' x y, delete m (Z.of_nat k) = Ok m' /\
    x = flat_map mdef_raw (firstn k (md_data m)) ++ d_preceding d /\
    get_raw_data m = x ++ own_lines d ++ y /\ get_raw_data m' = x ++ y /\
    map (fun e => (own_lines e)) (md_data m') = map (fun e => own_lines e) (remove_at k (md_data m)).
Proof.
  intros E. apply nth_error_split in E as (a & b & E & <-).
  rewrite (delete_spec _ _ _ _ E). eexists. exists (flat_map mdef_raw a ++ d_preceding d), (flat_map mdef_raw b ++ md_remainder m).
  split; [reflexivity|]. split; [now rewrite E, firstn_app, firstn_all, Nat.sub_diag, app_nil_r|].
  split; [|split].
  - apply raw_split; auto.
  - destruct b as [|x b']; unfold get_raw_data; cbn [md_data md_remainder flat_map].
    + now rewrite <- !app_assoc.
    + rewrite flat_map_app. cbn [flat_map]. rewrite raw_with_preceding. unfold mdef_raw at 4. now rewrite <- !app_assoc.
  - rewrite E, remove_at_app. destruct b as [|x b']; cbn [md_data]; [now rewrite app_nil_r|]. rewrite !map_app. reflexivity.
Qed.

(** Deleting a slice *)
Lemma keeping_app keep a : forall s b, lines_keeping keep s (a ++ b) = lines_keeping keep s a ++ lines_keeping keep (s + length a) b.
Proof.
  induction a as [|x a IH]; intros s b; cbn [lines_keeping app length].
  - now rewrite Nat.add_0_r.
  - rewrite IH, <- !app_assoc. do 3 f_equal. f_equal. lia.
Qed.
Lemma keeping_ext k1 k2 a : forall s, (forall i, (s <= i < s + length a)%nat -> k1 i = k2 i) -> lines_keeping k1 s a = lines_keeping k2 s a.
Proof.
  induction a as [|x a IH]; intros s E; cbn [lines_keeping]; auto.
  rewrite (E s) by (cbn; lia). rewrite (IH (S s)); auto. intros i Hi. apply E. cbn. lia.
Qed.
Lemma keeping_all k a : forall s, (forall i, (s <= i < s + length a)%nat -> k i = true) -> lines_keeping k s a = flat_map mdef_raw a.
Proof.
  induction a as [|x a IH]; intros s E; cbn [lines_keeping flat_map]; auto.
  rewrite (E s) by (cbn; lia). unfold mdef_raw at 1. rewrite (IH (S s)), <- app_assoc; auto. intros i Hi. apply E. cbn. lia.
Qed.
Theorem delete_all_lines : forall is m, decreasing is -> Forall (fun i => (i < length (md_data m))%nat) is ->
  exists m', delete_all m is = Ok m' /\
    get_raw_data m' = lines_keeping (fun i => negb (existsb (Nat.eqb i) is)) 0 (md_data m) ++ md_remainder m /\
    length (md_data m') = (length (md_data m) - length is)%nat.
Proof.
  induction is as [|i is IH]; intros m D F; cbn [delete_all].
  - exists m. split; [reflexivity|]. split; [|cbn [length]; lia]. unfold get_raw_data. now rewrite keeping_all.
  - destruct D as [D1 D2]. inversion F as [|? ? Fi F']; subst.
    destruct (nth_error (md_data m) i) as [d|] eqn:E; [|apply nth_error_None in E; lia].
    apply nth_error_split in E as (a & b & E & <-). rewrite (delete_spec _ _ _ _ E). cbn [bind].
    assert (KF : forall i0 s (l : list mdef), (forall j, (s <= j)%nat -> (i0 < j)%nat) -> Forall (fun y => (y <= i0)%nat) is ->
               forall j, (s <= j < s + length l)%nat -> existsb (Nat.eqb j) is = false).
    { intros i0 s l Hs Hf j Hj. destruct (existsb _ is) eqn:Q; auto. apply existsb_exists in Q as (y & Hy & Q). apply Nat.eqb_eq in Q. subst y.
      rewrite Forall_forall in Hf. specialize (Hf _ Hy). specialize (Hs j ltac:(lia)). lia. }
    assert (Hlen : length (length a :: is) = S (length is)) by reflexivity.
    assert (Hkeep : lines_keeping (fun i => negb (existsb (Nat.eqb i) (length a :: is))) 0 (md_data m) =
       lines_keeping (fun i => negb (existsb (Nat.eqb i) is)) 0 a ++ d_preceding d ++ flat_map mdef_raw b).
    { rewrite E, keeping_app. cbn [lines_keeping existsb]. rewrite Nat.add_0_l, Nat.eqb_refl. cbn [orb negb app].
      f_equal; [|f_equal].
      - apply keeping_ext. intros j Hj. cbn [existsb]. replace (j =? length a)%nat with false; auto. symmetry. apply Nat.eqb_neq. lia.
      - apply keeping_all. intros j Hj. cbn [existsb]. replace (j =? length a)%nat with false by (symmetry; apply Nat.eqb_neq; lia).
        cbn [orb]. rewrite (KF (length a) (S (length a)) b); auto; try lia.
        apply Forall_forall. intros y Hy. rewrite Forall_forall in D1. specialize (D1 y Hy). lia. }
    rewrite Hkeep.
    assert (Hla : (length is <= length a)%nat).
    { clear -D1 D2. revert D1 D2. generalize (length a). induction is as [|x is IHl]; intros n D1 D2; cbn; [lia|].
      inversion D1; subst. destruct D2 as [D3 D4]. specialize (IHl x D3 D4). lia. }
    destruct b as [|x b'].
    + destruct (IH (mk_mdefs a (d_preceding d ++ md_remainder m))) as (m' & E1 & E2 & E3); auto.
      exists m'. split; auto. split.
      * rewrite E2. cbn [md_data md_remainder flat_map]. rewrite app_nil_r, <- app_assoc. reflexivity.
      * rewrite E3. cbn [md_data]. rewrite E, app_length. cbn. lia.
    + destruct (IH (mk_mdefs (a ++ with_preceding (d_preceding d ++ d_preceding x) x :: b') (md_remainder m))) as (m' & E1 & E2 & E3); auto.
      { apply Forall_forall. intros y Hy. rewrite Forall_forall in D1. specialize (D1 y Hy). cbn [md_data]. rewrite app_length. cbn. lia. }
      exists m'. split; auto. split.
      * rewrite E2. cbn [md_data md_remainder]. rewrite keeping_app. cbn [lines_keeping]. rewrite Nat.add_0_l.
        assert (Q : existsb (Nat.eqb (length a)) is = false).
        { destruct (existsb _ is) eqn:Q; auto. apply existsb_exists in Q as (y & Hy & Q). apply Nat.eqb_eq in Q. subst y.
          rewrite Forall_forall in D1. specialize (D1 _ Hy). lia. }
        rewrite Q. cbn [negb]. rewrite (keeping_all _ b').
        -- change (own_lines (with_preceding (d_preceding d ++ d_preceding x) x)) with (own_lines x). cbn [with_preceding d_preceding flat_map]. change (mdef_raw x) with (d_preceding x ++ own_lines x). rewrite <- !app_assoc. reflexivity.
        -- intros j Hj. rewrite (KF (length a) (S (length a)) b'); auto; try lia.
           apply Forall_forall. intros y Hy. rewrite Forall_forall in D1. specialize (D1 y Hy). lia.
      * rewrite E3. cbn [md_data]. rewrite E, !app_length. cbn. lia.
Qed.

(** Changing a body *)
Theorem set_body_lines m k d b : nth_error (md_data m) k = Some d ->
  let m' := mk_mdefs (update_at k (with_body b) (md_data m)) (md_remainder m) in
  let x := flat_map mdef_raw (firstn k (md_data m)) ++ d_preceding d in
  exists y, get_raw_data m = x ++ own_lines d ++ y /\ get_raw_data m' = x ++ own_lines (with_body b d) ++ y.
Proof.
  intros E m' x. apply nth_error_split in E as (a & c & E & <-).
  exists (flat_map mdef_raw c ++ md_remainder m). subst m' x. rewrite E, firstn_app, firstn_all, Nat.sub_diag, app_nil_r.
  split; [apply raw_split; auto|]. rewrite (raw_split _ a (with_body b d) c); [reflexivity|]. cbn [md_data]. apply update_at_app.
Qed.

(** Lookup *)
Lemma find_from_spec name : forall l i fm,
  match find_from i name fm l with
  | Ok k => (exists j d, k = (i + j)%nat /\ nth_error l j = Some d /\ d_name d = name /\ d_valid d = true /\
               forall j' d', (j' < j)%nat -> nth_error l j' = Some d' -> ~ (d_name d' = name /\ d_valid d' = true)) \/
            ((forall j d, nth_error l j = Some d -> ~ (d_name d = name /\ d_valid d = true)) /\
             (fm = Some k \/ (fm = None /\ exists j d, k = (i + j)%nat /\ nth_error l j = Some d /\ d_name d = name /\
               forall j' d', (j' < j)%nat -> nth_error l j' = Some d' -> d_name d' <> name)))
  | Err e => e = ValueError /\ fm = None /\ forall j d, nth_error l j = Some d -> d_name d <> name
  end.
Proof.
  induction l as [|d l IH]; intros i fm; cbn [find_from].
  - assert (K : forall j (d : mdef), nth_error [] j = Some d -> False) by (intros [|j] d Q; discriminate).
    destruct fm as [k|].
    + right. split; auto. intros j d Q. destruct (K _ _ Q).
    + repeat split. intros j d Q. destruct (K _ _ Q).
  - destruct (str_eqb (d_name d) name) eqn:En.
    + apply str_eqb_eq in En. destruct (d_valid d) eqn:Ev.
      * left. exists 0%nat, d. rewrite Nat.add_0_r. repeat split; auto. intros j' d' L. lia.
      * specialize (IH (S i) (match fm with None => Some i | Some k => Some k end)).
        destruct (find_from (S i) name _ l) as [k|e].
        -- destruct IH as [(j & x & -> & Hx & Hn & Hv & Hf)|[Hno [Hk|[Hk _]]]].
           ++ left. exists (S j), x. repeat split; auto; [lia|]. intros [|j'] d' L Q; [injection Q as <-; intros [_ ?]; congruence|].
              apply (Hf j' d'); auto. lia.
           ++ right. split.
              ** intros [|j] x Q; [injection Q as <-; intros [_ ?]; congruence|]. apply (Hno j x Q).
              ** destruct fm as [k0|]; [left; auto|]. injection Hk as <-. right. split; auto. exists 0%nat, d. rewrite Nat.add_0_r. repeat split; auto. intros j' d' L. lia.
           ++ destruct fm; discriminate.
        -- destruct IH as (_ & Q & _). destruct fm; discriminate.
    + assert (Nn : d_name d <> name) by (intros Q; apply str_eqb_eq in Q; congruence).
      specialize (IH (S i) fm). destruct (find_from (S i) name fm l) as [k|e].
      * destruct IH as [(j & x & -> & Hx & Hn & Hv & Hf)|[Hno [Hk|[Hk (j & x & -> & Hx & Hn & Hf)]]]].
        -- left. exists (S j), x. repeat split; auto; [lia|]. intros [|j'] d' L Q; [injection Q as <-; intros [? _]; congruence|].
           apply (Hf j' d'); auto. lia.
        -- right. split; auto. intros [|j] x Q; [injection Q as <-; intros [? _]; congruence|]. apply (Hno j x Q).
        -- right. split.
           ++ intros [|j'] y Q; [injection Q as <-; intros [? _]; congruence|]. apply (Hno j' y Q).
           ++ right. split; auto. exists (S j), x. repeat split; auto; [lia|]. intros [|j'] d' L Q; [injection Q as <-; auto|].
              apply (Hf j' d'); auto. lia.
      * destruct IH as (-> & -> & Hf). repeat split; auto. intros [|j] x Q; [injection Q as <-; auto|]. apply (Hf j x Q).
Qed.

Theorem find_spec m name :
  match find m name with
  | Ok k => exists d, nth_error (md_data m) k = Some d /\ d_name d = name /\
      ((d_valid d = true /\ forall j d', (j < k)%nat -> nth_error (md_data m) j = Some d' -> d_name d' = name -> d_valid d' = false) \/
       ((forall d', In d' (md_data m) -> d_name d' = name -> d_valid d' = false) /\
        forall j d', (j < k)%nat -> nth_error (md_data m) j = Some d' -> d_name d' <> name))
  | Err e => e = ValueError /\ forall d, In d (md_data m) -> d_name d <> name
  end.
Proof.
  unfold find. pose proof (find_from_spec name (md_data m) 0 None) as S. destruct (find_from 0 name None (md_data m)) as [k|e].
  - destruct S as [(j & d & -> & Hd & Hn & Hv & Hf)|[Hno [Q|[_ (j & d & -> & Hd & Hn & Hf)]]]]; [| discriminate|]; cbn [Nat.add].
    + exists d. repeat split; auto. left. split; auto. intros j' d' L Q E. destruct (d_valid d') eqn:V; auto. destruct (Hf j' d' L Q). auto.
    + exists d. repeat split; auto. right. split; auto. intros d' Hi E. destruct (d_valid d') eqn:V; auto.
      apply In_nth_error in Hi as (i & Hi). destruct (Hno i d' Hi). auto.
  - destruct S as (-> & _ & S). split; auto. intros d Hi. apply In_nth_error in Hi as (i & Hi). eauto.
Qed.

Lemma get_position_total m d : In d (md_data m) -> exists p, get_position d m = Ok p.
Proof.
  intros Hi. unfold get_position. destruct (find_index _ (md_data m)) eqn:Q; eauto.
  exfalso. apply find_index_None in Q. rewrite forallb_forall in Q. specialize (Q d Hi). cbv beta in Q.
  assert (E : mdef_eqb d d = true) by now apply mdef_eqb_eq. rewrite E in Q. discriminate.
Qed.
Lemma find_at_from_spec m name position : forall l i, (forall d, In d l -> In d (md_data m)) ->
  match find_at_from m i name position l with
  | Ok k => exists j d, k = (i + j)%nat /\ nth_error l j = Some d /\ d_name d = name /\ get_position d m = Ok position /\
      forall j' d', (j' < j)%nat -> nth_error l j' = Some d' -> d_name d' = name -> get_position d' m <> Ok position
  | Err e => e = ValueError /\ forall d, In d l -> d_name d = name -> get_position d m <> Ok position
  end.
Proof.
  induction l as [|d l IH]; intros i Hl; cbn [find_at_from].
  - split; auto.
  - specialize (IH (S i) (fun x Hx => Hl x (or_intror Hx))).
    assert (K : (d_name d = name -> get_position d m <> Ok position) ->
      match find_at_from m (S i) name position l with
      | Ok k => exists j d0, k = (i + j)%nat /\ nth_error (d :: l) j = Some d0 /\ d_name d0 = name /\ get_position d0 m = Ok position /\
          forall j' d', (j' < j)%nat -> nth_error (d :: l) j' = Some d' -> d_name d' = name -> get_position d' m <> Ok position
      | Err e => e = ValueError /\ forall d0, In d0 (d :: l) -> d_name d0 = name -> get_position d0 m <> Ok position
      end).
    { intros Hd. destruct (find_at_from m (S i) name position l) as [k|e].
      - destruct IH as (j & x & -> & Hx & Hn & Hp & Hf). exists (S j), x. repeat split; auto; [lia|].
        intros [|j'] d' L Q; [injection Q as <-; auto|]. apply (Hf j' d'); auto. lia.
      - destruct IH as (-> & Hf). split; auto. intros x [<-|Hx]; auto. }
    destruct (str_eqb (d_name d) name) eqn:En.
    + apply str_eqb_eq in En. destruct (get_position_total m d) as (p & Ep); [apply Hl; now left|]. rewrite Ep. cbn [bind].
      destruct (Nat.eqb_spec p position) as [->|Np].
      * exists 0%nat, d. rewrite Nat.add_0_r. repeat split; auto. intros j' d' L. lia.
      * apply K. intros _ Q. congruence.
    + apply K. intros Q. apply str_eqb_eq in Q. congruence.
Qed.
Theorem find_at_spec m name position :
  match find_at m name position with
  | Ok k => exists d, nth_error (md_data m) k = Some d /\ d_name d = name /\ get_position d m = Ok position
  | Err e => e = ValueError /\ forall d, In d (md_data m) -> d_name d = name -> get_position d m <> Ok position
  end.
Proof.
  unfold find_at. pose proof (find_at_from_spec m name position (md_data m) 0 (fun d H => H)) as S.
  destruct (find_at_from m 0 name position (md_data m)) as [k|e]; auto.
  destruct S as (j & d & -> & Hd & Hn & Hp & _). exists d. auto.
Qed.

Theorem setattr_lines m name b m' : setattr m name b = Some m' ->
  exists k d x y, find m name = Ok k /\ nth_error (md_data m) k = Some d /\ d_name d = name /\
    get_raw_data m = x ++ own_lines d ++ y /\ get_raw_data m' = x ++ own_lines (with_body b d) ++ y.
Proof.
  unfold setattr. destruct (contains m name); [|discriminate]. pose proof (find_spec m name) as S.
  destruct (find m name) as [k|]; [|discriminate]. destruct S as (d & Hd & Hn & _). intros Q; injection Q as <-.
  destruct (set_body_lines m k d b Hd) as (y & E1 & E2). eauto 10.
Qed.
Lemma own_single d b : ~ In LF (b ++ d_ws3 d) -> own_lines (with_body b d) = [d_head d ++ b ++ d_ws3 d].
Proof.
  intros N. unfold own_lines. cbn [with_body d_body]. change (d_ws3 (with_body b d)) with (d_ws3 d).
  change (d_head (with_body b d)) with (d_head d).
  rewrite <- (app_nil_r (b ++ d_ws3 d)). rewrite split_on_app by auto. cbn [split_on]. rewrite !app_nil_r, rev_involutive. reflexivity.
Qed.
