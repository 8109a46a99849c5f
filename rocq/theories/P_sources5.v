(** [Sources.insert], [insert_numbered] and [add_patch], continued. *)
From Coq Require Import Ascii String.
From Coq Require Import NArith ZArith List Bool Lia Sorting.Sorted.
From Verif Require Import PyStr PyStrFacts Regex RegexFacts M_constants M_value M_macro_definitions M_conditions M_tags M_sourcelist M_sources Spec_sections Spec_tags Spec_sources
  P_evr P_value P_tags P_tags4 P_sources P_sources2 P_sources3 P_sources4.
Import ListNotations.
Open Scope N_scope.

Section Uni.
Context {U : Unicode}.
Lemma insert_tag_ok s a b name ds loc sep v : wf s -> ts_data (s_tags s) = a ++ b -> name = s_prefix s ++ ds -> Forall (fun c => is_digit c = true) ds ->
  exists a' t' b' r, insert_tag s (length a) name loc sep v = Ok (with_tags (mk_tags (a' ++ t' :: b') r) s) /\
    map key a' = map key a /\ map key b' = map key b /\ t_name t' = name /\ t_value t' = loc.
Proof.
  intros W E En Hd. assert (V : valid_tag_name name = true) by (rewrite En, prefix_eq; now apply valid_new). unfold insert_tag, new_tag. rewrite V. cbn [bind].
  set (item := mk_tag name loc sep no_comments v [] []).
  destruct (insert_keys (s_tags s) (length a) item) as ([d r] & Ei & Ek); [rewrite E, app_length; lia|]. rewrite Ei. cbn [bind ts_data] in *.
  rewrite E in Ek. unfold inserted in Ek. rewrite map_app, firstn_app, skipn_app, map_length, Nat.sub_diag, firstn_all2, skipn_all2 in Ek by (rewrite map_length; lia). cbn [firstn skipn app] in Ek. rewrite app_nil_r in Ek.
  apply map_eq_app in Ek as (a' & q & -> & Ea & Er). apply map_eq_cons in Er as (t' & b' & -> & Et & Eb).
  exists a', t', b', r. split; auto. split; auto. split; auto. split; [exact (f_equal t_name Et)|exact (f_equal t_value Et)].
Qed.
Lemma initial_spec s number loc v : wf s -> ks s = [] -> (0 <= number)%Z ->
  let '(index, name, sep) := initial_setup s number in
  exists s1, insert_tag s index name loc sep v = Ok s1 /\ dedup 0 s1 = Ok s1 /\ result_of_insert s 0 loc s1 /\
    ks s1 = [if s_implicit s || Nat.eqb (s_digits s) 0 then None else Some number] /\ s_lists s1 = s_lists s.
Proof.
  intros W K Hn.
  set (suffix := if s_implicit s || Nat.eqb (s_digits s) 0 then [] else format_number number (s_digits s)).
  assert (Hd : Forall (fun c => is_digit c = true) suffix). { subst suffix. destruct (_ || _); [constructor|apply int_pad]. }
  assert (I : exists index sep, initial_setup s number = (index, s_prefix s ++ suffix, sep) /\ (index <= length (ts_data (s_tags s)))%nat).
  { unfold initial_setup. assert (B : exists index sep, initial_setup_base s number = (index, s_prefix s ++ suffix, sep) /\ (index <= length (ts_data (s_tags s)))%nat).
    { unfold initial_setup_base. do 2 eexists. split; [reflexivity|lia]. }
    destruct (s_patches s); auto. destruct (last_source _) as [i|]; auto. destruct (nth_error (ts_data (s_tags s)) i) as [t|] eqn:Et; auto.
    assert (Df : detect_implicit s = s_implicit s). { unfold detect_implicit. assert (get_tags s = []) as ->; auto. apply length_zero_iff_nil. rewrite tags_items, K. reflexivity. }
    unfold tag_format. rewrite Df. fold suffix. assert (i < length (ts_data (s_tags s)))%nat by (apply nth_error_Some; congruence).
    destruct (0 <=? _)%Z; do 2 eexists; (split; [reflexivity|lia]). }
  destruct I as (index & sep & -> & Hi).
  rewrite <- (firstn_length_le (ts_data (s_tags s)) Hi). set (a := firstn index (ts_data (s_tags s))). set (b := skipn index (ts_data (s_tags s))).
  assert (E : ts_data (s_tags s) = a ++ b) by (symmetry; apply firstn_skipn).
  assert (Kn : kind (s_prefix s) (s_prefix s ++ suffix) = Some (if s_implicit s || Nat.eqb (s_digits s) 0 then None else Some number)).
  { subst suffix. rewrite prefix_eq. destruct (_ || _); [now apply new_kind_nil, W|]. now apply (proj1 (new_kind _ _ _ (proj1 W) Hn)). }
  destruct (insert_tag_ok s a b (s_prefix s ++ suffix) suffix loc sep v W E eq_refl Hd) as (a' & t' & b' & r & Ei & Ea & Eb & Nt & Vt).
  set (s1 := with_tags _ s) in *. exists s1. split; [exact Ei|].
  assert (K0 : kinds (s_prefix s) (map t_name a') = [] /\ kinds (s_prefix s) (map t_name b') = []).
  { rewrite (keys_names a' a Ea), (keys_names b' b Eb). unfold ks, names in K. rewrite E, map_app, kinds_app in K. now apply app_eq_nil in K. }
  assert (K1 : ks s1 = [if s_implicit s || Nat.eqb (s_digits s) 0 then None else Some number]).
  { unfold ks, names, s1. cbn [with_tags s_tags ts_data]. change (s_prefix (with_tags _ s)) with (s_prefix s). rewrite map_app, kinds_app. cbn [map]. rewrite Nt, (kinds_cons _ _ _ _ Kn). destruct K0 as [-> ->]. reflexivity. }
  split; [|split; [|split; [exact K1|reflexivity]]].
  - unfold dedup. pose proof (tags_items s1) as L. rewrite K1 in L. cbn [length] in L. destruct (get_tags s1) as [|x [|? ?]] eqn:G; [discriminate| |discriminate]. reflexivity.
  - assert (W1 : wf s1). { split; [apply W|]. unfold names, s1. cbn [with_tags s_tags ts_data]. rewrite map_app. cbn [map]. rewrite (keys_names a' a Ea), (keys_names b' b Eb), Nt. destruct W as [_ W]. unfold names in W. rewrite E, map_app in W. apply Forall_app in W as [W2 W3].
      apply Forall_app. split; auto. constructor; auto. rewrite prefix_eq. now apply source_tag_name. }
    split; [exact W1|]. split; [reflexivity|].
    assert (L0 : forall l, kinds (s_prefix s) (map t_name l) = [] -> tag_locs (s_prefix s) l = []). { intros l Q. apply length_zero_iff_nil. now rewrite tag_locs_length, Q. }
    split; [|split].
    + rewrite !locations_view. unfold s1. cbn [with_tags s_tags ts_data s_lists]. change (s_prefix (with_tags _ s)) with (s_prefix s). rewrite tag_locs_app, (locs_cons _ t' _ _ (eq_ind_r (fun x => kind _ x = _) Kn Nt)), Vt.
      rewrite (L0 a'), (L0 b') by tauto. rewrite (L0 (ts_data (s_tags s))) by exact K. reflexivity.
    + unfold s1. cbn [with_tags s_tags ts_data]. rewrite others_app, (others_cons _ t' _ _ (eq_ind_r (fun x => kind _ x = _) Kn Nt)), E, others_app, !map_app. now rewrite (keys_others _ a' a Ea), (keys_others _ b' b Eb).
    + rewrite !sorted_view by auto. intros [_ Lu]. split; [|exact Lu]. rewrite K1. destruct (_ || _); cbn [inc]; auto. split; [lia|auto].
Qed.

Lemma dup_ok s loc : (s_dups s = true \/ ~ In loc (locations s)) -> negb (s_dups s) && contains s loc = false.
Proof.
  intros [->|N]; auto. apply andb_false_iff. right. unfold contains. destruct (str_in loc (locations s)) eqn:E; auto. apply str_in_iff in E. contradiction.
Qed.
(** C29 *)
Theorem insert_spec s (i : nat) loc : wf s -> (s_dups s = true \/ ~ In loc (locations s)) ->
  exists s', insert s (Z.of_nat i) loc = Ok s' /\ result_of_insert s (Nat.min i (length (locations s))) loc s'.
Proof.
  intros W D. unfold insert. rewrite (dup_ok s loc D). set (n := Z.of_nat (length (get_items s))).
  set (i' := if (n <? Z.of_nat i)%Z then n else Z.of_nat i).
  assert (Ei : i' = Z.of_nat (Nat.min i (length (get_items s)))). { subst i'. destruct (Z.ltb_spec n (Z.of_nat i)); lia. }
  rewrite <- items_length. set (k := Nat.min i (length (get_items s))) in *. cbn zeta. rewrite Ei. clear Ei i'.
  assert (En : n = Z.of_nat (length (get_items s))) by reflexivity. assert (Ekk : k = Nat.min i (length (get_items s))) by reflexivity. clearbody n k.
  destruct (get_items s) as [|x0 items] eqn:Eit.
  - assert (K : ks s = []). { apply length_zero_iff_nil. pose proof (f_equal (@length item) Eit) as L. rewrite items_length, locations_view, app_length, tag_locs_length in L. unfold ks, names. cbn in L. lia. }
    assert (Lo : list_locs (s_lists s) = []). { apply length_zero_iff_nil. pose proof (f_equal (@length item) Eit) as L. rewrite items_length, locations_view, app_length in L. cbn in L. lia. }
    assert (Ek : k = 0%nat) by (cbn in Ekk; lia). rewrite Ek. clear Ek.
    destruct (rev (s_lists s)) as [|sl r] eqn:Er.
    + pose proof (initial_spec s 0 loc (last_valid s) W K ltac:(lia)) as I. destruct (initial_setup s 0) as [[index name] sep]. destruct I as (s1 & I1 & _ & I2 & _). eauto.
    + eexists. split; [reflexivity|]. assert (El : s_lists s = rev r ++ [sl]) by (rewrite <- (rev_involutive (s_lists s)), Er; reflexivity).
      rewrite El in Lo. unfold list_locs in Lo. rewrite flat_map_app in Lo. fold (list_locs (rev r)) in Lo. apply app_eq_nil in Lo as [Lo1 Lo2]. cbn in Lo2. rewrite app_nil_r in Lo2. apply map_eq_nil in Lo2.
      cbn [rev]. split; [exact W|]. split; [reflexivity|]. split; [|split; [reflexivity|]].
      * rewrite !locations_view. cbn [with_lists s_lists s_tags]. change (s_prefix (with_lists _ s)) with (s_prefix s). rewrite El. unfold list_locs. rewrite !flat_map_app. fold (list_locs (rev r)). rewrite Lo1. cbn [flat_map sl_data map app]. rewrite Lo2. cbn [map app].
        replace (tag_locs (s_prefix s) (ts_data (s_tags s))) with (@nil str); auto. symmetry. apply length_zero_iff_nil. rewrite tag_locs_length. unfold ks, names in K. now rewrite K.
      * rewrite !sorted_view by exact W. intros [I _]. split; [exact I|]. cbn [with_lists s_lists]. unfold used. rewrite filter_app, app_length. fold (used (rev r)).
        assert (used (rev r) = []) as ->; [|cbn; destruct (sl_data sl ++ _); cbn; lia].
        clear -Lo1. induction (rev r) as [|y l IH]; auto. cbn [list_locs flat_map] in Lo1. apply app_eq_nil in Lo1 as [L1 L2]. apply map_eq_nil in L1. cbn [used filter]. rewrite L1. now apply IH.
  - rewrite <- Eit in *. assert (Ne : (0 < length (get_items s))%nat) by (rewrite Eit; cbn; lia).
    assert (R : exists x plus number, (if (Z.of_nat k =? n)%Z then match nth_error (get_items s) (length (get_items s) - 1) with Some x => Ok (x, 1%nat, (i_number x + 1)%Z) | None => Err IndexError end
       else match py_index (get_items s) (Z.of_nat k) with None => Err IndexError | Some k => match nth_error (get_items s) k with Some x => Ok (x, 0%nat, i_number x) | None => Err IndexError end end) = Ok (x, plus, number) /\
       nth_error (get_items s) (k - plus) = Some x /\ ((plus = 0%nat /\ number = i_number x) \/ (plus = 1%nat /\ k = length (get_items s) /\ number = (i_number x + 1)%Z))).
    { destruct (Z.eqb_spec (Z.of_nat k) n) as [Q|Q].
      - assert (k = length (get_items s)) by lia. destruct (nth_error (get_items s) (length (get_items s) - 1)) as [x|] eqn:Ex; [|apply nth_error_None in Ex; lia].
        exists x, 1%nat, (i_number x + 1)%Z. split; auto. split; [now replace k with (length (get_items s)) by auto|]. right. auto.
      - assert (Hk : (k < length (get_items s))%nat) by lia. rewrite py_index_nonneg by auto. destruct (nth_error (get_items s) k) as [x|] eqn:Ex; [|apply nth_error_None in Ex; lia].
        exists x, 0%nat, (i_number x). rewrite Nat.sub_0_r. auto. }
    destruct R as (x & plus & number & -> & Hx & Hp). cbn [bind].
    assert (Hk : (k - plus + plus = k)%nat) by (destruct Hp as [[-> _]|[-> [-> _]]]; lia).
    destruct (items_nth s _ _ Hx) as [(a & t & b & kd & E & K & La & ->)|(l1 & sl & l2 & j & E & Hj & -> & Ek)]; cbn [i_place i_number] in *.
    + rewrite E, nth_error_mid. unfold get_tags. rewrite E, map_app. cbn [map].
      pose proof (find_index_tag (s_prefix s) (map t_name a) (t_name t) (map t_name b) kd 0 (-1) K) as Fi. rewrite map_length in Fi. cbn [Nat.add] in Fi. rewrite Fi. cbn [ts_implicit].
      set (last := last_num (-1) (kinds (s_prefix s) (map t_name a))) in *.
      assert (Hnn : (0 <= number_of last kd)%Z).
      { assert (N : nonneg (kinds (s_prefix s) (map t_name a) ++ kd :: kinds (s_prefix s) (map t_name b))).
        { pose proof (wf_nonneg s W) as N. unfold ks, names in N. rewrite E, map_app, kinds_app in N. cbn [map] in N. now rewrite (kinds_cons _ _ _ _ K) in N. }
        apply nonneg_app in N as [N1 N2]. destruct kd as [m|]; cbn [number_of]; [apply N2; now left|]. pose proof (number_nonneg _ (-1) N1). unfold last. lia. }
      destruct (place_next s a t b kd plus number loc W E K) as (s' & P1 & P2 & _).
      * destruct Hp as [[-> _]|[-> _]]; auto.
      * destruct Hp as [[_ ->]|[_ [_ ->]]]; lia.
      * intros S. apply sorted_view in S as [I _]; auto. unfold ks, names in I. rewrite E, map_app, kinds_app in I. cbn [map] in I. rewrite (kinds_cons _ _ _ _ K), inc_app in I. fold last in I. destruct I as [_ I].
        destruct Hp as [[-> ->]|[-> [Ek ->]]]; cbn [Nat.eqb].
        -- destruct kd as [m|]; cbn [inc number_of] in *; lia.
        -- split; [fold last; lia|]. assert (kinds (s_prefix s) (map t_name b) = []) as ->; auto.
           apply length_zero_iff_nil. rewrite items_length, locations_view, app_length, tag_locs_length, E, map_app, kinds_app, app_length in Ek. cbn [map] in Ek. rewrite (kinds_cons _ _ _ _ K) in Ek. cbn [length] in Ek. lia.
      * rewrite La, Hk in *. fold last in P1. exists s'. split; auto.
    + eexists. split; [reflexivity|]. apply (insert_entry_spec s l1 sl l2 k (j + plus) loc W E).
      * destruct Hp as [[-> _]|[-> _]]; lia.
      * intros Q. rewrite Q in Hj. cbn in Hj. lia.
      * lia.
Qed.
Theorem insert_duplicate s i loc : s_dups s = false -> In loc (locations s) -> insert s i loc = Err DuplicateSourceException.
Proof. intros D Hin. unfold insert. rewrite D. cbn [negb andb]. unfold contains. now rewrite (proj2 (str_in_iff _ _) Hin). Qed.

(** The nearest source. *)
Lemma nearest_spec number : forall l i best all, (forall j t, nth_error all j = Some t -> (j < i)%nat -> (Z.abs (ts_number (snd best) - number) <= Z.abs (ts_number t - number))%Z) ->
  (forall j t, nth_error all j = Some t -> (j < fst best)%nat -> (Z.abs (ts_number (snd best) - number) < Z.abs (ts_number t - number))%Z) ->
  nth_error all (fst best) = Some (snd best) -> (fst best < i)%nat -> l = skipn i all ->
  let r := nearest number best i l in
  nth_error all (fst r) = Some (snd r) /\
  (forall j t, nth_error all j = Some t -> (Z.abs (ts_number (snd r) - number) <= Z.abs (ts_number t - number))%Z) /\
  (forall j t, nth_error all j = Some t -> (j < fst r)%nat -> (Z.abs (ts_number (snd r) - number) < Z.abs (ts_number t - number))%Z).
Proof.
  induction l as [|t l IH]; intros i best all H1 H2 H3 H4 El; cbn [nearest].
  - cbn zeta. split; auto. split; auto. intros j t Ht. apply (H1 j t Ht).
    assert (length all <= i)%nat. { destruct (le_lt_dec (length all) i); auto. apply (f_equal (@length tag_source)) in El. rewrite skipn_length in El. cbn in El. lia. }
    assert (j < length all)%nat by (apply nth_error_Some; congruence). lia.
  - assert (Et : nth_error all i = Some t /\ l = skipn (S i) all).
    { assert (Li : length (firstn i all) = i). { apply firstn_length_le. destruct (le_lt_dec i (length all)); auto. rewrite skipn_all2 in El by lia. discriminate. }
      pose proof (firstn_skipn i all) as Q. rewrite <- El in Q. revert Li Q. generalize (firstn i all). intros p <- <-. split; [apply nth_error_mid|].
      clear. induction p as [|y p IH]; auto. }
    destruct Et as [Et El']. destruct (Z.ltb_spec (Z.abs (ts_number t - number)) (Z.abs (ts_number (snd best) - number))) as [L|L].
    + apply IH; cbn [fst snd]; auto.
      * intros j t' Ht' Hj. destruct (Nat.eq_dec j i) as [->|Nj]; [replace t' with t by congruence; lia|]. specialize (H1 j t' Ht'). lia.
      * intros j t' Ht' Hj. specialize (H1 j t' Ht' Hj). lia.
    + apply IH; cbn [fst snd]; auto. intros j t' Ht' Hj. destruct (Nat.eq_dec j i) as [->|Nj]; [replace t' with t by congruence; lia|]. specialize (H1 j t' Ht'). lia.
Qed.
Lemma nearest_first number t0 l : let r := nearest number (0%nat, t0) 1 l in
  nth_error (t0 :: l) (fst r) = Some (snd r) /\
  (forall j t, nth_error (t0 :: l) j = Some t -> (Z.abs (ts_number (snd r) - number) <= Z.abs (ts_number t - number))%Z) /\
  (forall j t, nth_error (t0 :: l) j = Some t -> (j < fst r)%nat -> (Z.abs (ts_number (snd r) - number) < Z.abs (ts_number t - number))%Z).
Proof.
  apply (nearest_spec number l 1 (0%nat, t0) (t0 :: l)); cbn [fst snd]; auto.
  - intros [|j] t Ht Hj; [cbn in Ht; injection Ht as ->; lia|lia].
  - intros j t _ Hj. lia.
Qed.
(** [insert_numbered]: what the new numbers are. *)
Theorem insert_numbered_spec s number loc : wf s -> (s_dups s = true \/ ~ In loc (locations s)) -> (0 <= number)%Z ->
  exists s' k, insert_numbered s number loc = Ok (s', k) /\ result_of_insert s k loc s' /\ (k <= length (ks s))%nat /\ s_lists s' = s_lists s /\
    ((ks s = [] /\ k = 0%nat /\ ks s' = [if s_implicit s || Nat.eqb (s_digits s) 0 then None else Some number]) \/
     (exists a kd b plus, ks s = a ++ kd :: b /\ (plus = 0 \/ plus = 1)%nat /\ k = (length a + plus)%nat /\
        (forall x, In x (nums (-1) (ks s)) -> (Z.abs (number_of (last_num (-1) a) kd - number) <= Z.abs (x - number))%Z) /\
        (forall x, In x (nums (-1) a) -> (Z.abs (number_of (last_num (-1) a) kd - number) < Z.abs (x - number))%Z) /\
        (plus = 1%nat <-> (number_of (last_num (-1) a) kd < number)%Z) /\
        exists a' b', ks s = a' ++ b' /\ length a' = k /\ let knew := match kd with None => None | Some _ => Some number end in
        ks s' = a' ++ knew :: dd false (number_of (last_num (-1) a') knew) b')).
Proof.
  intros W D Hn. unfold insert_numbered. rewrite (dup_ok s loc D). destruct (get_tags s) as [|t0 l] eqn:G.
  - assert (K : ks s = []). { apply length_zero_iff_nil. rewrite <- tags_items, G. reflexivity. }
    pose proof (initial_spec s number loc (last_valid s) W K Hn) as I. destruct (initial_setup s number) as [[index name] sep]. destruct I as (s1 & I1 & I2 & I3 & I4 & I5).
    rewrite I1. cbn [bind]. rewrite I2. cbn [bind]. exists s1, 0%nat. split; auto. split; auto. split; [lia|]. split; auto.
  - pose proof (nearest_first number t0 l) as (N1 & N2 & N3). destruct (nearest number (0%nat, t0) 1 l) as [i src]. cbn [fst snd] in *. rewrite <- G in *.
    assert (Nn : nums (-1) (ks s) = map ts_number (get_tags s)) by (unfold get_tags; now rewrite get_tags_nums).
    unfold get_tags in N1. apply get_tags_nth in N1 as (an & n & bn & kd & En & K & Hk & Es). apply map_eq_app in En as (a & r & Ed & Ea & Er). apply map_eq_cons in Er as (t & b & -> & Et & Eb).
    assert (Ln : ts_number src = number_of (last_num (-1) (kinds (s_prefix s) an)) kd).
    { rewrite Es. unfold ts_number. cbn [ts_implicit ts_name]. destruct kd; cbn [implicit_of number_of]; auto. now apply kind_explicit_number in K. }
    set (plus := if (ts_number src <? number)%Z then 1%nat else 0%nat).
    assert (Hp : (plus = 0 \/ plus = 1)%nat) by (subst plus; destruct (_ <? _)%Z; auto).
    assert (Hp' : plus = 1%nat <-> (ts_number src < number)%Z) by (subst plus; destruct (Z.ltb_spec (ts_number src) number); split; (lia || congruence)).
    rewrite Es. cbn [ts_index ts_implicit Nat.add]. rewrite <- Ea, map_length, Ed, nth_error_mid, <- Et in *.
    assert (Eks : ks s = kinds (s_prefix s) (map t_name a) ++ kd :: kinds (s_prefix s) (map t_name b)).
    { unfold ks, names. rewrite Ed, map_app, kinds_app. cbn [map]. now rewrite (kinds_cons _ _ _ _ K). }
    assert (M2 : forall x, In x (nums (-1) (ks s)) -> (Z.abs (ts_number src - number) <= Z.abs (x - number))%Z).
    { intros x Hx. rewrite Nn in Hx. apply in_map_iff in Hx as (y & <- & Hy). apply In_nth_error in Hy as (j & Hj). eapply N2; eauto. }
    assert (M3 : forall x, In x (nums (-1) (kinds (s_prefix s) (map t_name a))) -> (Z.abs (ts_number src - number) < Z.abs (x - number))%Z).
    { intros x Hx. apply In_nth_error in Hx as (j & Hj). assert (Hj' : (j < i)%nat). { rewrite <- Hk, <- (nums_length _ (-1)). apply nth_error_Some. congruence. }
      assert (Q : nth_error (nums (-1) (ks s)) j = Some x). { rewrite Eks, nums_app, nth_error_app1; auto. apply nth_error_Some. congruence. }
      rewrite Nn, nth_error_map in Q. destruct (nth_error (get_tags s) j) as [y|] eqn:Ey; [|discriminate]. cbn in Q. injection Q as <-. eapply N3; eauto. }
    destruct (place_next s a t b kd plus number loc W Ed K Hp) as (s' & P1 & P2 & P3 & P4); auto.
    { intros S. apply sorted_view in S as [I _]; auto. assert (I0 := I). rewrite Eks, inc_app in I. destruct I as [Ia I].
      set (last := last_num (-1) (kinds (s_prefix s) (map t_name a))) in *.
      destruct Hp as [Q|Q]; rewrite Q; cbn [Nat.eqb].
      - assert (number <= ts_number src)%Z by (destruct (Z_lt_le_dec (ts_number src) number) as [L|L]; auto; apply Hp' in L; lia). split; [|destruct kd; auto; cbn [number_of] in Ln; lia].
        unfold last. rewrite last_num_last. destruct (rev (nums (-1) (kinds (s_prefix s) (map t_name a)))) as [|z r0] eqn:Ez; [lia|].
        assert (Hz : In z (nums (-1) (kinds (s_prefix s) (map t_name a)))) by (apply in_rev; rewrite Ez; now left).
        assert (El : last = z) by (unfold last; rewrite last_num_last, Ez; auto).
        specialize (M3 z Hz). assert (last < ts_number src)%Z by (rewrite Ln; destruct kd; cbn [inc number_of] in *; lia). lia.
      - assert (ts_number src < number)%Z by (apply Hp'; auto). split; [lia|]. destruct (kinds (s_prefix s) (map t_name b)) as [|k2 r2] eqn:Eb2; auto.
        assert (Hy : In (number_of (number_of last kd) k2) (nums (-1) (ks s))).
        { rewrite Eks, nums_app. apply in_or_app. right. fold last. destruct kd as [m|]; cbn [nums number_of In]; right; destruct k2; cbn [nums number_of In]; auto. }
        specialize (M2 _ Hy). assert (number_of last kd < number_of (number_of last kd) k2)%Z by (destruct kd, k2; cbn [inc number_of] in *; lia). lia. }
    destruct (tag_format s (t_name t) (t_separator t) _ number None) as [name sep] eqn:F. 
    destruct (insert_tag s (length a + plus) name loc sep (t_valid t)) as [s1|] eqn:Ei; [|discriminate]. cbn [bind] in *.
    rewrite Hk in P1. rewrite P1. cbn [bind]. exists s', (i + plus)%nat. split; auto. rewrite Hk in P2, P3. split; auto.
    split; [rewrite <- Hk, Eks, app_length; cbn; lia|]. split; auto. right. exists (kinds (s_prefix s) (map t_name a)), kd, (kinds (s_prefix s) (map t_name b)), plus.
    split; auto. split; auto. split; [lia|]. rewrite <- Ln. split; auto.
Qed.
(** New sources get the number asked for where numbers are written, and all others keep their order. *)
Theorem insert_numbered_explicit s number loc : wf s -> (s_dups s = true \/ ~ In loc (locations s)) -> (0 <= number)%Z -> increasing (numbers s) -> list_locs (s_lists s) = [] ->
  ks s <> [] -> Forall (fun k => k <> None) (ks s) ->
  exists s' k, insert_numbered s number loc = Ok (s', k) /\ locations s' = inserted k loc (locations s) /\ increasing (numbers s') /\ nth_error (numbers s') k = Some number.
Proof.
  intros W D Hn S L Ne F. destruct (insert_numbered_spec s number loc W D Hn) as (s' & k & E & (W' & Ep & R1 & R2 & R3) & Hk & El & [(Q & _)|(a & kd & b & plus & Ek & Hp & Hk' & _ & _ & _ & a' & b' & Ek' & La & Ks)]); [contradiction|].
  exists s', k. split; auto. split; auto. split; [auto|].
  assert (exists v, kd = Some v) as [v ->]. { rewrite Ek in F. apply Forall_app in F as [_ F]. inversion F; subst. destruct kd; [eauto|congruence]. }
  cbn zeta in Ks. cbn [number_of] in Ks. rewrite numbers_view. fold (ks s'). rewrite Ks, nums_app, <- app_assoc. rewrite nth_error_app2; rewrite nums_length; [|lia]. rewrite La, Nat.sub_diag. reflexivity.
Qed.

(** C30 *)
Lemma fold_max : forall l (m : Z), (forall x, In x l -> (x <= fold_left Z.max l m)%Z) /\ (m <= fold_left Z.max l m)%Z /\ (fold_left Z.max l m = m \/ In (fold_left Z.max l m) l).
Proof.
  induction l as [|x l IH]; intros m; cbn [fold_left]; [split; [intros ? []|split; [lia|auto]]|]. destruct (IH (Z.max m x)) as (I1 & I2 & I3). split; [|split].
  - intros y [<-|Hy]; [lia|auto].
  - lia.
  - destruct I3 as [I3|I3]; [|right; now right]. rewrite I3 at 1. destruct (Z.max_spec m x) as [[_ Q]|[_ Q]]; rewrite I3, Q; [right; now left|now left].
Qed.
Lemma nodup_apart : forall l prev, NoDup (nums prev l) -> apart prev l \/ exists n r, l = Some n :: r /\ n = prev.
Proof.
  assert (K : forall l prev, NoDup (prev :: nums prev l) -> apart prev l).
  { induction l as [|[n|] l IH]; intros prev N; cbn [apart nums] in *; auto.
    - inversion N as [|? ? N1 N2]; subst. split; [intros ->; apply N1; now left|]. now apply IH.
    - inversion N as [|? ? N1 N2]; subst. now apply IH. }
  intros [|[n|] l] prev N; cbn [nums] in N.
  - left. exact I.
  - destruct (Z.eq_dec n prev); [right; eauto|left]. split; auto.
  - left. cbn [apart]. auto.
Qed.
Lemma nodup_app_r (A : Type) (l r : list A) : NoDup (l ++ r) -> NoDup r.
Proof. induction l as [|x l IH]; auto. cbn. intros N. inversion N. auto. Qed.
Theorem add_patch_spec s loc number initial : wf s -> (s_dups s = true \/ ~ In loc (locations s)) -> list_locs (s_lists s) = [] -> NoDup (numbers s) ->
  (forall n, number = Some n -> (max_number s < n)%Z) ->
  let n := match number with Some n => n | None => Z.max (max_number s + 1) initial end in
  exists s' k m, add_patch s loc number initial = Ok (s', k) /\
    locations s' = inserted k loc (locations s) /\ numbers s' = inserted k m (numbers s) /\
    map key (others (s_prefix s) (ts_data (s_tags s'))) = map key (others (s_prefix s) (ts_data (s_tags s))) /\
    (m = n \/ (m = max_number s + 1 /\ (In None (ks s)))%Z \/ (m = 0%Z /\ ks s = [] /\ s_implicit s || Nat.eqb (s_digits s) 0 = true)).
Proof.
  intros W D L N Hn n. unfold add_patch.
  assert (Hm := fold_max (numbers s) (-1)). fold (max_number s) in Hm. destruct Hm as (M1 & M2 & M3).
  assert (En : match number with Some n => if (n <=? max_number s)%Z then Err SourceNumberException else Ok n | None => Ok (Z.max (max_number s + 1) initial) end = Ok n).
  { subst n. destruct number as [v|]; auto. rewrite (proj2 (Z.leb_gt v (max_number s))); auto. }
  rewrite En. cbn [bind]. assert (Hgt : (max_number s < n)%Z) by (subst n; destruct number as [v|]; [auto|lia]).
  assert (Ln : forall last, list_nums last (s_lists s) = []).
  { clear -L. unfold list_locs, list_nums in *. intros last. induction (s_lists s) as [|sl l IH]; auto. cbn [flat_map] in *. apply app_eq_nil in L as [L1 L2]. apply map_eq_nil in L1. rewrite L1. cbn. auto. }
  assert (Nu : numbers s = nums (-1) (ks s)) by (rewrite numbers_view, Ln, app_nil_r; reflexivity).
  destruct (insert_numbered_spec s n loc W D) as (s' & k & E & (W' & Ep & R1 & R2 & R3) & Hk & El & C); [lia|]. rewrite E. exists s', k.
  assert (Nu' : numbers s' = nums (-1) (ks s')) by (rewrite numbers_view, El, Ln, app_nil_r; reflexivity). rewrite Nu, Nu'.
  destruct C as [(Q & -> & Ks)|(a & kd & b & plus & Ek & Hp & Hk' & A1 & A2 & A3 & a' & b' & Ek' & La & Ks)].
  - rewrite Q, Ks in *. destruct (s_implicit s || Nat.eqb (s_digits s) 0) eqn:B.
    + exists 0%Z. split; auto. split; auto. split; [reflexivity|]. split; auto.
    + exists n. split; auto.
  - set (src := number_of (last_num (-1) a) kd) in *.
    assert (Hsrc : In src (nums (-1) (ks s))). { rewrite Ek, nums_app. apply in_or_app. right. unfold src. destruct kd; cbn [nums number_of]; now left. }
    assert (src = max_number s) as Esrc.
    { destruct M3 as [M3|M3]; [rewrite <- Nu in Hsrc; specialize (M1 _ Hsrc); specialize (A1 _ (eq_ind _ (In src) Hsrc _ Nu))|];
      [|rewrite Nu in M3; specialize (A1 _ M3); rewrite <- Nu in Hsrc; specialize (M1 _ Hsrc); lia].
      assert (0 <= src)%Z; [|lia]. pose proof (wf_nonneg s W) as Nn. rewrite Ek in Nn. apply nonneg_app in Nn as [N1 N2]. unfold src. destruct kd as [v|]; cbn [number_of]; [apply N2; now left|]. pose proof (number_nonneg a (-1) N1). lia. }
    assert (plus = 1%nat) as -> by (apply A3; lia).
    assert (Eab : a' = a ++ [kd] /\ b' = b). { rewrite Ek in Ek'. replace (a ++ kd :: b) with ((a ++ [kd]) ++ b) in Ek' by (now rewrite <- app_assoc).
      assert (length a' = length (a ++ [kd])) by (rewrite app_length; cbn; lia). clear -Ek' H. revert Ek' H. generalize (a ++ [kd]). intros x E L. revert a' E L. induction x as [|y x IH]; intros [|z a'] E L; try discriminate; cbn in *; auto. injection E as -> E. destruct (IH a' E) as [-> ->]; auto. }
    destruct Eab as [-> ->]. cbn zeta in Ks.
    assert (Lst : last_num (-1) (a ++ [kd]) = src) by (rewrite last_num_app; unfold src; destruct kd; reflexivity). rewrite Lst in Ks.
    set (knew := match kd with None => None | Some _ => Some n end) in *. set (m := number_of src knew) in *.
    assert (Hmg : (max_number s < m)%Z) by (unfold m, knew; destruct kd; cbn [number_of]; lia).
    assert (Nb : NoDup (nums src b) /\ forall x, In x (nums src b) -> (x < m)%Z).
    { rewrite Nu, Ek, nums_app in N. assert (Ensrc : nums (last_num (-1) a) (kd :: b) = src :: nums src b) by (unfold src; destruct kd; reflexivity). rewrite Ensrc in N. split.
      - apply nodup_app_r in N. now inversion N.
      - intros x Hx. assert (In x (numbers s)) as Hx'. { rewrite Nu, Ek, nums_app, Ensrc. apply in_or_app. right. now right. } apply M1 in Hx'. lia. }
    destruct Nb as [Nb1 Nb2].
    assert (Hb : nums m b = nums src b /\ apart m b).
    { destruct b as [|[v|] b]; [split; [reflexivity|exact I]| |].
      - split; [reflexivity|]. cbn [nums] in *. split; [specialize (Nb2 v (or_introl eq_refl)); lia|]. inversion Nb1 as [|? ? Q1 Q2]; subst.
        destruct (nodup_apart b v Q2) as [A|(x & r & -> & ->)]; auto. exfalso. apply Q1. cbn. now left.
      - exfalso. assert (In (src + 1)%Z (numbers s)) as Hx. { rewrite Nu, Ek, nums_app. apply in_or_app. right. assert (nums (last_num (-1) a) (kd :: None :: b) = src :: nums src (None :: b)) as -> by (unfold src; destruct kd; reflexivity). cbn. auto. }
        apply M1 in Hx. lia. }
    destruct Hb as [Hb1 Hb2]. rewrite (dd_apart _ _ Hb2) in Ks.
    exists m. split; auto. split; auto. split; [|split; auto].
    + rewrite Ks, Ek. replace (a ++ kd :: b) with ((a ++ [kd]) ++ b) by (now rewrite <- app_assoc). rewrite !nums_app, Lst.
      assert (nums src (knew :: b) = m :: nums m b) as -> by (unfold m; destruct knew; reflexivity). rewrite Hb1.
      replace k with (length (nums (-1) a ++ nums (last_num (-1) a) [kd])) by (rewrite <- nums_app, nums_length; auto). rewrite <- nums_app. now rewrite inserted_mid.
    + unfold m, knew. destruct kd; cbn [number_of]; auto. right. left. split; [lia|]. rewrite Ek. apply in_or_app. right. now left.
Qed.
Theorem add_patch_taken s loc n initial : (n <= max_number s)%Z -> add_patch s loc (Some n) initial = Err SourceNumberException.
Proof. intros L. unfold add_patch. now rewrite (proj2 (Z.leb_le _ _) L). Qed.
End Uni.
