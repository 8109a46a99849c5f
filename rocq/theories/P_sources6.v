(** Deleting sources and changing their locations. *)
From Coq Require Import Ascii String.
From Coq Require Import NArith ZArith List Bool Lia Sorting.Sorted.
From Verif Require Import PyStr PyStrFacts Regex RegexFacts M_constants M_value M_macro_definitions M_conditions M_tags M_sourcelist M_sources Spec_sections Spec_tags Spec_sources
  P_evr P_value P_tags P_tags4 P_sources P_sources2 P_sources3 P_sources4 P_sources5.
Import ListNotations.
Open Scope N_scope.

Lemma removed_mid (A : Type) (a : list A) x b : removed (length a) (a ++ x :: b) = a ++ b.
Proof. unfold removed. rewrite firstn_app, firstn_all, Nat.sub_diag. cbn [firstn]. rewrite app_nil_r, skipn_app, skipn_all2 by lia. replace (S (length a) - length a)%nat with 1%nat by lia. reflexivity. Qed.
Lemma removed_app1 (A : Type) k (a b : list A) : (k < length a)%nat -> removed k (a ++ b) = removed k a ++ b.
Proof. intros L. unfold removed. rewrite firstn_app, skipn_app. replace (k - length a)%nat with 0%nat by lia. replace (S k - length a)%nat with 0%nat by lia. cbn [firstn skipn]. rewrite app_nil_r. now rewrite app_assoc. Qed.
Lemma removed_app2 (A : Type) k (a b : list A) : removed (length a + k) (a ++ b) = a ++ removed k b.
Proof. unfold removed. rewrite firstn_app, skipn_app. rewrite firstn_all2, skipn_all2 by lia. replace (length a + k - length a)%nat with k by lia. replace (S (length a + k) - length a)%nat with (S k) by lia. cbn [app]. now rewrite app_assoc. Qed.
Lemma removed_map (A B : Type) (f : A -> B) k l : map f (removed k l) = removed k (map f l).
Proof. unfold removed. now rewrite map_app, firstn_map, skipn_map. Qed.
Lemma inc_weaken : forall l last last', (last' <= last)%Z -> inc last l -> inc last' l.
Proof. induction l as [|[n|] l IH]; intros last last' L; cbn [inc]; auto; [intros [H1 H2]; split; [lia|auto]|]. apply IH. lia. Qed.

Section Uni.
Context {U : Unicode}.
Definition places (s : sources) := map i_place (get_items s).
Definition result_of_delete (s : sources) (k : nat) (s' : sources) : Prop :=
  wf s' /\ s_patches s' = s_patches s /\ locations s' = removed k (locations s) /\
  map key (others (s_prefix s) (ts_data (s_tags s'))) = map key (others (s_prefix s) (ts_data (s_tags s))) /\
  firstn k (places s') = firstn k (places s) /\
  (list_locs (s_lists s) = [] -> list_locs (s_lists s') = [] /\ ks s' = removed k (ks s)) /\
  (increasing (numbers s) -> increasing (numbers s')).

Lemma tag_place_list p : forall names i last, map (fun ts => InTags (ts_index ts)) (get_tags_from p i last names) =
  flat_map (fun x => match kind p (snd x) with Some _ => [InTags (fst x)] | None => [] end) (combine (seq i (length names)) names).
Proof.
  induction names as [|n names IH]; intros i last; rewrite get_tags_kind; auto. cbn [length seq combine flat_map fst snd]. destruct (kind p n) as [[v|]|]; cbn [map app ts_index]; now rewrite IH.
Qed.
Definition tag_places (p : str) (i : nat) (names : list str) := flat_map (fun x => match kind p (snd x) with Some _ => [InTags (fst x)] | None => [] end) (combine (seq i (length names)) names).
Lemma tag_places_app p a : forall i b, tag_places p i (a ++ b) = tag_places p i a ++ tag_places p (i + length a) b.
Proof.
  induction a as [|n a IH]; intros i b; unfold tag_places in *; cbn [app length seq combine flat_map fst snd]; [now rewrite Nat.add_0_r|]. rewrite IH. rewrite Nat.add_succ_r. now rewrite app_assoc.
Qed.
Lemma tag_places_length p : forall names i, length (tag_places p i names) = length (kinds p names).
Proof. unfold tag_places, kinds. induction names as [|n names IH]; intros i; auto. cbn [length seq combine flat_map fst snd]. rewrite !app_length, IH. destruct (kind p n); reflexivity. Qed.
Definition list_places (k : nat) (l : list sourcelist) := flat_map (fun x => map (InList (fst x)) (seq 0 (length (sl_data (snd x))))) (combine (seq k (length l)) l).
Lemma list_places_app a : forall k b, list_places k (a ++ b) = list_places k a ++ list_places (k + length a) b.
Proof.
  induction a as [|n a IH]; intros k b; unfold list_places in *; cbn [app length seq combine flat_map fst snd]; [now rewrite Nat.add_0_r|]. rewrite IH, Nat.add_succ_r. now rewrite app_assoc.
Qed.
Lemma list_places_length : forall l k, length (list_places k l) = length (list_locs l).
Proof. unfold list_places, list_locs. induction l as [|x l IH]; intros k; auto. cbn [length seq combine flat_map fst snd]. rewrite !app_length, IH, !map_length, seq_length. reflexivity. Qed.
Lemma lists_items_places last : forall l k, map i_place (lists_items last k l) = list_places k l.
Proof. unfold list_places. induction l as [|x l IH]; intros k; auto. cbn [lists_items length seq combine flat_map fst snd]. rewrite map_app, IH. unfold list_items. now rewrite map_map. Qed.
Lemma places_view s : places s = tag_places (s_prefix s) 0 (names s) ++ list_places 0 (s_lists s).
Proof. unfold places, get_items. rewrite map_app, map_map, lists_items_places. cbn [i_place]. f_equal. unfold get_tags. fold (names s). now rewrite tag_place_list. Qed.

Lemma delete_place_spec s k x : wf s -> nth_error (get_items s) k = Some x -> exists s', delete_place s (i_place x) = Ok s' /\ result_of_delete s k s'.
Proof.
  intros W Hx. destruct (items_nth s _ _ Hx) as [(a & t & b & kd & E & K & La & ->)|(l1 & sl & l2 & j & E & Hj & -> & Ek)]; cbn [i_place delete_place] in *.
  - destruct (delete_keys (s_tags s) (length a)) as ([d r] & -> & Ed); [rewrite E, app_length; cbn; lia|]. cbn [bind ts_data] in *. eexists. split; [reflexivity|].
    rewrite E, map_app in Ed. cbn [map] in Ed. rewrite <- (map_length key a), removed_mid in Ed. apply map_eq_app in Ed as (a' & b' & -> & Ea & Eb).
    assert (Eks : ks s = kinds (s_prefix s) (map t_name a) ++ kd :: kinds (s_prefix s) (map t_name b)).
    { unfold ks, names. rewrite E, map_app, kinds_app. cbn [map]. now rewrite (kinds_cons _ _ _ _ K). }
    set (s' := with_tags _ s). assert (En : names s' = map t_name a ++ map t_name b). { unfold names, s'. cbn [with_tags s_tags ts_data]. now rewrite map_app, (keys_names a' a Ea), (keys_names b' b Eb). }
    assert (Eks' : ks s' = kinds (s_prefix s) (map t_name a) ++ kinds (s_prefix s) (map t_name b)) by (unfold ks; rewrite En, kinds_app; reflexivity).
    assert (W' : wf s'). { split; [apply W|]. rewrite En. destruct W as [_ W]. unfold names in W. rewrite E, map_app in W. apply Forall_app in W as [W1 W2]. cbn [map] in W2. inversion W2. apply Forall_app. auto. }
    split; auto. split; [reflexivity|]. split; [|split; [|split; [|split]]].
    + rewrite !locations_view. unfold s'. cbn [with_tags s_tags ts_data s_lists]. change (s_prefix (with_tags _ s)) with (s_prefix s). rewrite E, !tag_locs_app, (locs_cons _ t kd b K), (keys_locs _ a' a Ea), (keys_locs _ b' b Eb).
      rewrite <- La, <- tag_locs_length, <- !app_assoc. cbn [app]. now rewrite removed_mid.
    + unfold s'. cbn [with_tags s_tags ts_data]. rewrite E, !others_app, (others_cons _ t kd b K), !map_app. now rewrite (keys_others _ a' a Ea), (keys_others _ b' b Eb).
    + rewrite !places_view, En. unfold names. rewrite E, map_app. change (s_prefix s') with (s_prefix s). rewrite !tag_places_app, <- !app_assoc.
      rewrite <- La, <- (tag_places_length _ _ 0), !firstn_app, Nat.sub_diag. reflexivity.
    + intros L. split; [exact L|]. rewrite Eks, Eks', <- La. now rewrite removed_mid.
    + rewrite !sorted_view by auto. intros [I L]. split; [|exact L]. rewrite Eks' , inc_app. rewrite Eks, inc_app in I. destruct I as [I1 I2]. split; auto.
      destruct kd as [v|]; cbn [inc] in I2; [eapply inc_weaken; [|apply I2]; lia|eapply inc_weaken; [|apply I2]; lia].
  - eexists. split; [reflexivity|]. rewrite E, update_at_app. apply nth_error_Some in Hj. destruct (nth_error (sl_data sl) j) as [e|] eqn:Ej; [|congruence]. apply nth_error_split in Ej as (c & d & Ec & <-).
    rewrite Ec, remove_at_app. set (s' := with_lists _ s).
    split; [exact W|]. split; [reflexivity|]. split; [|split; [reflexivity|split; [|split]]].
    + rewrite !locations_view. unfold s'. cbn [with_lists s_tags s_lists]. change (s_prefix (with_lists _ s)) with (s_prefix s).
      assert (Lt : length (ks s) = length (tag_locs (s_prefix s) (ts_data (s_tags s)))) by (symmetry; apply tag_locs_length).
      rewrite Ek, Lt, E. rewrite <- Nat.add_assoc, removed_app2. f_equal. unfold list_locs. rewrite !flat_map_app. cbn [flat_map sl_data]. rewrite Ec, !map_app. cbn [map]. fold (list_locs l1). rewrite removed_app2. f_equal.
      rewrite <- !app_assoc. cbn [app]. rewrite <- (map_length e_location c). now rewrite removed_mid.
    + rewrite !places_view. unfold s'. cbn [with_lists s_lists]. change (s_prefix (with_lists _ s)) with (s_prefix s). change (names (with_lists _ s)) with (names s).
      rewrite E, !list_places_app. unfold list_places at 2 4. cbn [length seq combine flat_map fst snd sl_data]. rewrite Ec, !app_length, !seq_app, !map_app, <- !app_assoc.
      assert (Lk : k = length (tag_places (s_prefix s) 0 (names s) ++ list_places 0 l1 ++ map (InList (0 + length l1)) (seq 0 (length c)))).
      { rewrite !app_length, map_length, seq_length, tag_places_length, list_places_length. fold (ks s). lia. }
      rewrite Lk. rewrite !(app_assoc (list_places 0 l1)), !(app_assoc (tag_places _ _ _)). rewrite !firstn_app, !Nat.sub_diag. cbn [firstn]. now rewrite !app_nil_r.
    + intros L. rewrite E in L. unfold list_locs in L. rewrite flat_map_app in L. apply app_eq_nil in L as [_ L]. cbn [flat_map] in L. rewrite Ec, map_app in L. apply app_eq_nil in L as [L _]. apply app_eq_nil in L as [_ L]. discriminate.
    + rewrite !sorted_view by exact W. intros [I L]. split; [exact I|]. unfold s'. cbn [with_lists s_lists]. rewrite E in L. unfold used in *. rewrite filter_app, app_length in *. cbn [filter sl_data] in *. rewrite Ec in L.
      destruct (c ++ e :: d) as [|? ?] eqn:Q; [destruct c; discriminate|]. cbn [length] in L. destruct (c ++ d); cbn [length]; lia.
Qed.

(** Several deletions, given by which items go. *)
Fixpoint select {A} (m : list bool) (l : list A) : list A := match m, l with b :: m', x :: l' => if b then x :: select m' l' else select m' l' | _, _ => [] end.
Notation dropped := without.
Lemma select_app (A : Type) : forall m (a : list A) b, length m = length a -> select m (a ++ b) = select m a.
Proof. induction m as [|x m IH]; intros [|y a] b L; try discriminate; [now destruct b|]. cbn in *. rewrite IH by lia. reflexivity. Qed.
Lemma select_snoc (A : Type) : forall m (a : list A) x y b, length m = length a -> select (m ++ [x]) (a ++ y :: b) = select m a ++ if x then [y] else [].
Proof. induction m as [|z m IH]; intros [|w a] x y b L; try discriminate; [cbn; now destruct x, b|]. cbn [app select] in *. rewrite IH by (cbn in L; lia). now destruct z. Qed.
Lemma dropped_app (A : Type) : forall m (a : list A) b, length m = length a -> dropped m (a ++ b) = dropped m a ++ b.
Proof. induction m as [|x m IH]; intros [|y a] b L; try discriminate; auto. cbn in *. rewrite IH by lia. now destruct x. Qed.
Lemma dropped_snoc (A : Type) : forall m (a : list A) x y b, length m = length a -> dropped (m ++ [x]) (a ++ y :: b) = dropped m a ++ (if x then [] else [y]) ++ b.
Proof. induction m as [|z m IH]; intros [|w a] x y b L; try discriminate; [cbn; now destruct x|]. cbn [app dropped] in *. rewrite IH by (cbn in L; lia). now destruct z. Qed.
Lemma split_at (A : Type) k (l : list A) : (k < length l)%nat -> exists a x b, l = a ++ x :: b /\ length a = k.
Proof. intros L. destruct (nth_error l k) as [x|] eqn:E; [|apply nth_error_None in E; lia]. apply nth_error_split in E as (a & b & -> & <-). eauto. Qed.

Theorem delete_places_spec : forall m s, wf s -> (length m <= length (locations s))%nat ->
  exists s', delete_places s (rev (select m (places s))) = Ok s' /\ wf s' /\ s_patches s' = s_patches s /\ locations s' = dropped m (locations s) /\
    map key (others (s_prefix s) (ts_data (s_tags s'))) = map key (others (s_prefix s) (ts_data (s_tags s))) /\
    (list_locs (s_lists s) = [] -> list_locs (s_lists s') = [] /\ ks s' = dropped m (ks s)) /\
    (increasing (numbers s) -> increasing (numbers s')).
Proof.
  induction m as [|b m IH] using rev_ind; intros s W L.
  - assert (forall A (l : list A), select [] l = []) as -> by (now destruct l). exists s. cbn. repeat split; auto; apply W.
  - rewrite app_length in L. cbn [length] in L. assert (Lp : length (places s) = length (locations s)) by (unfold places, locations; now rewrite !map_length).
    destruct (split_at _ (length m) (places s)) as (p1 & p & p2 & Ep & L1); [lia|].
    destruct (split_at _ (length m) (locations s)) as (c1 & c & c2 & Ec & L2); [lia|].
    rewrite Ep, select_snoc, rev_app_distr by auto. rewrite Ec, dropped_snoc by auto. destruct b; cbn [rev app delete_places].
    + assert (Hx : exists x, nth_error (get_items s) (length m) = Some x /\ i_place x = p).
      { unfold places in Ep. assert (Q : nth_error (map i_place (get_items s)) (length m) = Some p) by (rewrite Ep, <- L1; apply nth_error_mid). rewrite nth_error_map in Q. destruct (nth_error (get_items s) (length m)) as [x|]; [|discriminate]. exists x. split; auto. cbn in Q. congruence. }
      destruct Hx as (x & Hx & <-). destruct (delete_place_spec s _ x W Hx) as (s1 & E1 & W1 & P1 & R1 & R2 & R3 & R4 & R5). rewrite E1. cbn [bind].
      assert (E1' : locations s1 = c1 ++ c2) by (rewrite R1, Ec, <- L2; apply removed_mid).
      destruct (IH s1 W1) as (s' & E' & W' & P' & Q1 & Q2 & Q3 & Q4); [rewrite E1', app_length; lia|].
      assert (Es : select m (places s1) = select m p1).
      { rewrite <- (firstn_skipn (length m) (places s1)), R3, Ep. replace (firstn (length m) (p1 ++ i_place x :: p2)) with p1 by (now rewrite <- L1, firstn_app, firstn_all, Nat.sub_diag, app_nil_r). now rewrite select_app. }
      rewrite Es in E'. exists s'. split; auto. split; auto. split; [congruence|]. assert (Px : s_prefix s1 = s_prefix s) by (unfold s_prefix; now rewrite P1). rewrite Px in Q2. split; [rewrite Q1, E1'; now apply dropped_app|]. split; [congruence|]. split; [|auto].
      intros N. destruct (R4 N) as [N1 N2]. destruct (Q3 N1) as [N3 N4]. split; auto. rewrite N4, N2.
      assert (Lks : length (ks s) = length (locations s)) by (rewrite locations_view, N, app_nil_r, tag_locs_length; reflexivity).
      destruct (split_at _ (length m) (ks s)) as (k1 & kx & k2 & Ekk & L3); [lia|]. rewrite Ekk, dropped_snoc by auto. rewrite <- L3, removed_mid. now apply dropped_app.
    + destruct (IH s W) as (s' & E' & W' & P' & Q1 & Q2 & Q3 & Q4); [lia|]. rewrite Ep, select_app in E' by auto. exists s'. split; auto. split; auto. split; auto. split; [now rewrite Q1, Ec, dropped_app|]. split; auto. split; auto.
      intros N. destruct (Q3 N) as [N1 N2]. split; auto. rewrite N2. assert (Lks : length (ks s) = length (locations s)) by (rewrite locations_view, N, app_nil_r, tag_locs_length; reflexivity).
      destruct (split_at _ (length m) (ks s)) as (k1 & kx & k2 & Ekk & L3); [lia|]. rewrite Ekk, dropped_snoc, dropped_app by auto. reflexivity.
Qed.
Lemma select_filter (A B : Type) (f : A -> bool) (g : A -> B) : forall l, select (map f l) (map g l) = map g (filter f l).
Proof. induction l as [|x l IH]; auto. cbn. destruct (f x); cbn; now rewrite IH. Qed.
Lemma dropped_filter (A : Type) (f : A -> bool) : forall l, dropped (map f l) l = filter (fun x => negb (f x)) l.
Proof. induction l as [|x l IH]; auto. cbn. destruct (f x); cbn; now rewrite IH. Qed.
Theorem delete_item_spec s k : wf s -> (k < length (locations s))%nat -> exists s', delete_item s (Z.of_nat k) = Ok s' /\ result_of_delete s k s'.
Proof.
  intros W Hk. rewrite <- items_length in Hk. unfold delete_item. rewrite py_index_nonneg by auto. destruct (nth_error (get_items s) k) as [x|] eqn:E; [|apply nth_error_None in E; lia]. now apply delete_place_spec.
Qed.
Lemma nums_some : forall l last, Forall (fun k => k <> None) l -> map Some (nums last l) = l.
Proof. induction l as [|[n|] l IH]; intros last F; auto; inversion F; subst; [cbn; now rewrite IH|congruence]. Qed.
Lemma removed_forall (A : Type) (P : A -> Prop) k l : Forall P l -> Forall P (removed k l).
Proof.
  intros F. destruct (lt_dec k (length l)) as [L|L].
  - destruct (split_at _ k l L) as (a & x & b & -> & <-). rewrite removed_mid. apply Forall_app in F as [F1 F2]. inversion F2. apply Forall_app. auto.
  - unfold removed. rewrite firstn_all2, skipn_all2 by lia. now rewrite app_nil_r.
Qed.
Lemma delete_numbers s k s' : result_of_delete s k s' -> list_locs (s_lists s) = [] -> Forall (fun k => k <> None) (ks s) -> numbers s' = removed k (numbers s).
Proof.
  intros (_ & _ & _ & _ & _ & R & _) L F. destruct (R L) as [L' Ek].
  assert (Ln : forall l last, list_locs l = [] -> list_nums last l = []).
  { unfold list_locs, list_nums. induction l as [|sl l IH]; intros last Q; auto. cbn [flat_map] in *. apply app_eq_nil in Q as [L1 L2]. apply map_eq_nil in L1. rewrite L1. cbn. auto. }
  rewrite !numbers_view, !Ln, !app_nil_r by auto. fold (ks s) (ks s').
  assert (I : forall a b : list Z, map Some a = map Some b -> a = b). { induction a as [|x a IH]; intros [|y b] Q; try discriminate; auto. cbn in Q. injection Q as -> Q. f_equal. auto. }
  apply I. rewrite removed_map, !nums_some; auto. rewrite Ek. now apply removed_forall.
Qed.
Theorem remove_numbered_spec s number : wf s ->
  (~ In number (numbers s) -> remove_numbered s number = Ok s) /\
  (In number (numbers s) -> exists k s', nth_error (numbers s) k = Some number /\ remove_numbered s number = Ok s' /\ result_of_delete s k s').
Proof.
  intros W. unfold remove_numbered, numbers. split.
  - intros N. destruct (List.find _ (get_items s)) as [x|] eqn:F; auto. apply find_some in F as [F1 F2]. apply Z.eqb_eq in F2. elim N. apply in_map_iff. eauto.
  - intros Hin. destruct (List.find _ (get_items s)) as [x|] eqn:F.
    + apply find_some in F as [F1 F2]. apply Z.eqb_eq in F2. apply In_nth_error in F1 as (k & Hk). destruct (delete_place_spec s k x W Hk) as (s' & E & R). exists k, s'. split; [|auto]. rewrite nth_error_map, Hk. cbn. congruence.
    + apply in_map_iff in Hin as (y & Ey & Hy). apply (find_none _ _ F) in Hy. apply Z.eqb_neq in Hy. congruence.
Qed.
(** The location of one source. *)
Theorem set_location_spec s k loc : wf s -> (k < length (locations s))%nat -> exists s', set_location s (Z.of_nat k) loc = Ok s' /\
  locations s' = update_at k (fun _ => loc) (locations s) /\ numbers s' = numbers s /\
  map key (others (s_prefix s) (ts_data (s_tags s'))) = map key (others (s_prefix s) (ts_data (s_tags s))).
Proof.
  intros W Hk. rewrite <- items_length in Hk. unfold set_location. rewrite py_index_nonneg by auto. destruct (nth_error (get_items s) k) as [x|] eqn:Hx; [|apply nth_error_None in Hx; lia]. eexists. split; [reflexivity|].
  destruct (items_nth s _ _ Hx) as [(a & t & b & kd & E & K & La & ->)|(l1 & sl & l2 & j & E & Hj & -> & Ek)]; cbn [i_place] in *.
  - rewrite E, update_at_app. rewrite !locations_view, !numbers_view. cbn [with_tags s_tags ts_data s_lists]. unfold names. cbn [with_tags s_tags ts_data]. change (s_prefix (with_tags _ s)) with (s_prefix s). rewrite E, !map_app. cbn [map].
    change (t_name (with_value loc t)) with (t_name t). split; [|split; [reflexivity|]].
    + rewrite !tag_locs_app, (locs_cons _ t kd b K), (locs_cons _ (with_value loc t) kd b K). rewrite <- La, <- tag_locs_length, <- !app_assoc. cbn [app]. now rewrite update_at_app.
    + rewrite !others_app, (others_cons _ t kd b K), (others_cons _ (with_value loc t) kd b K). reflexivity.
  - rewrite E, update_at_app. apply nth_error_Some in Hj. destruct (nth_error (sl_data sl) j) as [e|] eqn:Ej; [|congruence]. apply nth_error_split in Ej as (c & d & Ec & <-). rewrite Ec, update_at_app.
    rewrite !locations_view, !numbers_view. cbn [with_lists s_tags s_lists]. change (s_prefix (with_lists _ s)) with (s_prefix s). change (names (with_lists _ s)) with (names s). split; [|split; [|reflexivity]].
    + rewrite Ek, E. unfold list_locs. rewrite !flat_map_app. cbn [flat_map sl_data]. rewrite Ec, !map_app. cbn [map e_location]. fold (list_locs l1).
      replace (length (ks s) + length (list_locs l1) + length c)%nat with (length (tag_locs (s_prefix s) (ts_data (s_tags s)) ++ list_locs l1 ++ map e_location c)) by (rewrite !app_length, tag_locs_length, map_length; unfold ks, names; lia).
      rewrite <- !app_assoc. cbn [app]. rewrite !(app_assoc (list_locs l1)), !(app_assoc (tag_locs _ _)). now rewrite update_at_app.
    + f_equal. rewrite E. unfold list_nums. rewrite !flat_map_app. f_equal. cbn [flat_map sl_data]. f_equal. rewrite Ec, !app_length. reflexivity.
Qed.
End Uni.
