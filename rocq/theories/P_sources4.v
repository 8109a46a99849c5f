(** [Sources.insert], [insert_numbered] and [add_patch]. *)
From Coq Require Import Ascii String.
From Coq Require Import NArith ZArith List Bool Lia Sorting.Sorted.
From Verif Require Import PyStr PyStrFacts Regex RegexFacts M_constants M_value M_macro_definitions M_conditions M_tags M_sourcelist M_sources Spec_sections Spec_tags Spec_sources
  P_evr P_value P_tags P_tags4 P_sources P_sources2 P_sources3.
Import ListNotations.
Open Scope N_scope.

Lemma sorted_app (a : list Z) : forall b, StronglySorted Z.lt (a ++ b) <-> StronglySorted Z.lt a /\ StronglySorted Z.lt b /\ (forall x y, In x a -> In y b -> (x < y)%Z).
Proof.
  induction a as [|x a IH]; intros b; cbn [app].
  - split; [intros S; repeat split; auto; [constructor|intros ? ? []]|tauto].
  - split.
    + intros S. inversion S as [|? ? S' F]; subst. apply IH in S' as (S1 & S2 & S3). apply Forall_app in F as [F1 F2]. split; [constructor; auto|]. split; auto.
      intros y z [<-|Hy] Hz; auto. rewrite Forall_forall in F2. auto.
    + intros (S1 & S2 & S3). inversion S1 as [|? ? S' F]; subst. constructor; [apply IH; repeat split; auto; intros; apply S3; cbn; auto|].
      apply Forall_app. split; auto. apply Forall_forall. intros y Hy. apply S3; cbn; auto.
Qed.
Lemma nums_bound : forall ks last x, inc last ks -> In x (nums last ks) -> (last < x <= last_num last ks)%Z.
Proof.
  assert (K : forall ks last, inc last ks -> (last <= last_num last ks)%Z).
  { induction ks as [|[n|] ks IH]; intros last; cbn; [lia| |]; [intros [L I]|intros I]; apply IH in I; lia. }
  induction ks as [|[n|] ks IH]; intros last x; cbn [inc nums last_num In]; [tauto| |].
  - intros [L I] [<-|Q]; [specialize (K _ _ I); lia|]. apply (IH n x I) in Q. lia.
  - intros I [<-|Q]; [specialize (K _ _ I); lia|]. apply (IH _ x I) in Q. lia.
Qed.
Definition used (l : list sourcelist) : list sourcelist := filter (fun sl => match sl_data sl with [] => false | _ => true end) l.
Lemma list_nums_in last l x : In x (list_nums last l) -> (last < x)%Z.
Proof. unfold list_nums. rewrite in_flat_map. intros (sl & _ & Q). apply in_map_iff in Q as (i & <- & _). lia. Qed.
Lemma seq_sorted c : forall n k, StronglySorted Z.lt (map (fun i => (c + Z.of_nat i)%Z) (seq k n)).
Proof.
  induction n as [|n IH]; intros k; cbn; constructor; auto. apply Forall_forall. intros y Hy. apply in_map_iff in Hy as (i & <- & Hi). apply in_seq in Hi. lia.
Qed.
Lemma list_nums_sorted last : forall l, StronglySorted Z.lt (list_nums last l) <-> (length (used l) <= 1)%nat.
Proof.
  induction l as [|sl l IH]; [split; [cbn; lia|constructor]|]. cbn [list_nums flat_map used filter]. fold (list_nums last l). fold (used l). rewrite sorted_app, IH.
  destruct (sl_data sl) as [|e d] eqn:E.
  - cbn. split; [tauto|]. intros Hu. repeat split; auto; [constructor|intros ? ? []].
  - cbn [length]. split.
    + intros (_ & H1 & H2). destruct (used l) as [|u r] eqn:Eu; [cbn; lia|exfalso].
      assert (In u (used l)) as Hu by (rewrite Eu; now left). apply filter_In in Hu as [Hu Hn]. destruct (sl_data u) eqn:Ed; [discriminate|].
      assert (In (last + 1 + Z.of_nat 0)%Z (list_nums last l)). { apply in_flat_map. exists u. split; auto. rewrite Ed. cbn. now left. }
      specialize (H2 (last + 1 + Z.of_nat 0)%Z (last + 1 + Z.of_nat 0)%Z). cbn [seq map In] in H2. assert (last + 1 + Z.of_nat 0 < last + 1 + Z.of_nat 0)%Z by (apply H2; auto). lia.
    + intros Hu. assert (used l = []) as Eu by (destruct (used l); auto; cbn in Hu; lia). rewrite Eu. split; [apply seq_sorted|]. split; [cbn; lia|].
      intros x y _ Hy. exfalso. unfold list_nums in Hy. apply in_flat_map in Hy as (u & Hu' & Hy).
      assert (~ In u (used l)) as Nu by (rewrite Eu; auto). apply Nu. apply filter_In. split; auto. destruct (sl_data u); [destruct Hy|reflexivity].
Qed.
Lemma used_length f pre sl post : (sl_data sl <> [] -> True) -> (sl_data (f sl) = [] <-> sl_data sl = []) -> length (used (pre ++ f sl :: post)) = length (used (pre ++ sl :: post)).
Proof.
  intros _ E. unfold used. rewrite !filter_app, !app_length. f_equal. cbn [filter]. destruct (sl_data (f sl)), (sl_data sl); auto; exfalso; intuition congruence.
Qed.

Section Uni.
Context {U : Unicode}.
Definition ks (s : sources) : list (option Z) := kinds (s_prefix s) (names s).
Definition nonneg (l : list (option Z)) : Prop := forall n, In (Some n) l -> (0 <= n)%Z.
Lemma wf_nonneg s : wf s -> nonneg (ks s).
Proof.
  intros [C F] n Hin. unfold ks, kinds in Hin. apply in_flat_map in Hin as (x & Hx & Q). destruct (kind (s_prefix s) x) as [k|] eqn:K; [|destruct Q]. destruct Q as [->|[]].
  rewrite Forall_forall in F. eapply (explicit_digits (s_patches s)); eauto.
Qed.
Lemma sorted_nonneg l : nonneg l -> (inc (-1) l <-> StronglySorted Z.lt (nums (-1) l)).
Proof.
  intros N. rewrite inc_sorted. split; [intros S; now inversion S|]. intros S. constructor; auto. apply Forall_forall.
  assert (K : forall l last, nonneg l -> (-1 <= last)%Z -> forall x, In x (nums last l) -> (-1 < x)%Z).
  { clear. induction l as [|[n|] l IH]; intros last N L x; cbn [nums In]; [tauto| |]; intros [<-|Q].
    - specialize (N n (or_introl eq_refl)). lia.
    - specialize (N n (or_introl eq_refl)) as Hn. eapply IH in Q; eauto; [intros m Hm; apply N; now right|lia].
    - lia.
    - eapply IH in Q; eauto; [intros m Hm; apply N; now right|lia]. }
  intros x Hx. eapply K; eauto. lia.
Qed.
Theorem sorted_view s : wf s -> (increasing (numbers s) <-> inc (-1) (ks s) /\ (length (used (s_lists s)) <= 1)%nat).
Proof.
  intros W. unfold increasing. rewrite numbers_view. fold (ks s). rewrite sorted_app, <- (sorted_nonneg _ (wf_nonneg s W)), list_nums_sorted.
  split; [tauto|]. intros [I L]. split; auto. split; auto. intros x y Hx Hy. apply nums_bound in Hx; auto. apply list_nums_in in Hy. lia.
Qed.

(** Where a source is. *)
Lemma tags_items s : length (get_tags s) = length (ks s).
Proof. unfold get_tags, ks, names. apply get_tags_length. Qed.
Lemma lists_nth last : forall l (pre : list sourcelist) k x, nth_error (lists_items last (length pre) l) k = Some x ->
  exists l1 sl l2 i, l = l1 ++ sl :: l2 /\ (i < length (sl_data sl))%nat /\ x = mk_item (last + 1 + Z.of_nat i) (InList (length pre + length l1) i) /\ k = (length (list_locs l1) + i)%nat.
Proof.
  induction l as [|sl l IH]; intros pre k x; cbn [lists_items]; [destruct k; discriminate|]. intros Q.
  destruct (lt_dec k (length (list_items last (length pre) sl))) as [L|L].
  - rewrite nth_error_app1 in Q by auto. unfold list_items in *. rewrite map_length, seq_length in L. rewrite nth_error_map in Q.
    destruct (nth_error (seq 0 (length (sl_data sl))) k) as [i|] eqn:Ei; [|discriminate]. cbn in Q. injection Q as <-.
    assert (i = k). { pose proof (nth_error_nth _ _ 0%nat Ei) as Q. rewrite seq_nth in Q by auto. cbn in Q. auto. } subst i.
    exists [], sl, l, k. cbn [app length]. rewrite Nat.add_0_r. auto.
  - rewrite nth_error_app2 in Q by lia. specialize (IH (pre ++ [sl])). rewrite app_length in IH. cbn [length] in IH. rewrite Nat.add_1_r in IH. apply IH in Q as (l1 & sl' & l2 & i & -> & Hi & -> & Hk).
    exists (sl :: l1), sl', l2, i. split; auto. split; auto. cbn [length]. split; [do 2 f_equal; lia|].
    cbn [list_locs flat_map]. fold (list_locs l1). rewrite app_length, map_length. unfold list_items in *. rewrite map_length, seq_length in *. lia.
Qed.
Lemma items_nth s k x : nth_error (get_items s) k = Some x ->
  (exists a t b kd, ts_data (s_tags s) = a ++ t :: b /\ kind (s_prefix s) (t_name t) = Some kd /\ length (kinds (s_prefix s) (map t_name a)) = k /\
     x = mk_item (number_of (last_num (-1) (kinds (s_prefix s) (map t_name a))) kd) (InTags (length a))) \/
  (exists l1 sl l2 i, s_lists s = l1 ++ sl :: l2 /\ (i < length (sl_data sl))%nat /\ x = mk_item (last_num (-1) (ks s) + 1 + Z.of_nat i) (InList (length l1) i) /\
     k = (length (ks s) + length (list_locs l1) + i)%nat).
Proof.
  unfold get_items. rewrite items_last. fold (ks s). intros Q.
  destruct (lt_dec k (length (get_tags s))) as [L|L].
  - left. rewrite nth_error_app1 in Q by (now rewrite map_length). rewrite nth_error_map in Q. destruct (nth_error (get_tags s) k) as [ts|] eqn:E; [|discriminate]. cbn in Q. injection Q as <-.
    unfold get_tags in E. apply get_tags_nth in E as (a & n & b & kd & En & K & Hk & ->). apply map_eq_app in En as (a' & r & Ed & Ea & Er). apply map_eq_cons in Er as (t & b' & -> & Et & Eb).
    exists a', t, b', kd. rewrite Ea, Et. split; auto. split; auto. split; auto. cbn [ts_index ts_number]. rewrite <- Ea, map_length. f_equal.
    unfold ts_number. cbn [ts_implicit ts_name]. destruct kd; cbn [implicit_of number_of]; auto. now apply kind_explicit_number in K.
  - right. rewrite nth_error_app2 in Q by (rewrite map_length; lia). rewrite map_length, tags_items in Q.
    apply (lists_nth _ (s_lists s) []) in Q as (l1 & sl & l2 & i & E & Hi & -> & Hk). exists l1, sl, l2, i. cbn [length Nat.add]. repeat split; auto. rewrite tags_items in L. lia.
Qed.

Lemma inserted_app1 {A} i (x : A) a b : (i <= length a)%nat -> inserted i x (a ++ b) = inserted i x a ++ b.
Proof. intros L. unfold inserted. rewrite firstn_app, skipn_app. replace (i - length a)%nat with 0%nat by lia. cbn [firstn skipn]. now rewrite app_nil_r, <- app_assoc. Qed.
Lemma inserted_app2 {A} i (x : A) a b : inserted (length a + i) x (a ++ b) = a ++ inserted i x b.
Proof. unfold inserted. rewrite firstn_app, skipn_app, firstn_all2, skipn_all2 by lia. replace (length a + i - length a)%nat with i by lia. cbn [app]. now rewrite <- app_assoc. Qed.
Lemma inserted_mid {A} (x : A) a b : inserted (length a) x (a ++ b) = a ++ x :: b.
Proof. rewrite <- (Nat.add_0_r (length a)), inserted_app2. reflexivity. Qed.
Lemma inserted_end {A} (x : A) a : inserted (length a) x a = a ++ [x].
Proof. rewrite <- (app_nil_r a) at 2. apply inserted_mid. Qed.

(** The result of inserting [loc] as number [k] of the list of sources. *)
Definition result_of_insert (s : sources) (k : nat) (loc : str) (s' : sources) : Prop :=
  wf s' /\ s_patches s' = s_patches s /\ locations s' = inserted k loc (locations s) /\
  map key (others (s_prefix s) (ts_data (s_tags s'))) = map key (others (s_prefix s) (ts_data (s_tags s))) /\
  (increasing (numbers s) -> increasing (numbers s')).

Lemma insert_entry_spec s l1 sl l2 i j loc : wf s -> s_lists s = l1 ++ sl :: l2 -> (j <= length (sl_data sl))%nat -> sl_data sl <> [] ->
  i = (length (ks s) + length (list_locs l1) + j)%nat -> result_of_insert s i loc (insert_entry s (length l1) j loc).
Proof.
  intros W E Hj Ne ->. unfold insert_entry. rewrite E, update_at_app.
  set (v := match py_index _ _ with Some k => _ | None => _ end). set (e := mk_entry loc no_comments v).
  assert (Ei : py_insert (sl_data sl) (Z.of_nat j) e = inserted j e (sl_data sl)).
  { unfold py_insert, inserted, clamp_index. rewrite (proj2 (Z.ltb_ge _ 0)) by lia. replace (Z.to_nat (Z.min _ _)) with j by lia. reflexivity. }
  rewrite Ei. split; [exact W|]. split; [reflexivity|]. split; [|split; [reflexivity|]].
  - rewrite !locations_view. cbn [with_lists s_tags s_lists s_prefix s_patches]. change (s_prefix (with_lists _ s)) with (s_prefix s).
    assert (Lt : length (ks s) = length (tag_locs (s_prefix s) (ts_data (s_tags s)))) by (symmetry; apply tag_locs_length).
    rewrite Lt, <- Nat.add_assoc, inserted_app2, E. f_equal. unfold list_locs. rewrite !flat_map_app. cbn [flat_map sl_data]. fold (list_locs l1). rewrite inserted_app2. f_equal.
    rewrite inserted_app1 by (now rewrite map_length). f_equal. unfold inserted. rewrite map_app. cbn [map]. rewrite firstn_map, skipn_map. reflexivity.
  - rewrite !sorted_view by exact W. cbn [with_lists s_lists]. rewrite E. intros [I L]. split; [exact I|].
    rewrite (used_length (fun _ => mk_slist (inserted j e (sl_data sl)) (sl_remainder sl)) l1 sl l2); auto. cbn [sl_data]. split; [|congruence].
    intros Q. exfalso. unfold inserted in Q. destruct (firstn j (sl_data sl)); discriminate.
Qed.
Lemma nonneg_app a b : nonneg (a ++ b) <-> nonneg a /\ nonneg b.
Proof. unfold nonneg. split; [intros Hn; split; intros n Hi; apply Hn, in_or_app; auto|intros [Ha Hb] n Hi; apply in_app_or in Hi as []; auto]. Qed.
Lemma number_nonneg l last : nonneg l -> (-1 <= last)%Z -> (-1 <= last_num last l)%Z.
Proof.
  revert last. induction l as [|[n|] l IH]; intros last N L; cbn [last_num]; auto.
  - apply IH; [intros m Hm; apply N; now right|]. specialize (N n (or_introl eq_refl)). lia.
  - apply IH; [intros m Hm; apply N; now right|lia].
Qed.
(** Placing a tag next to a reference. *)
Lemma place_next s a t b kd plus number loc : wf s -> ts_data (s_tags s) = a ++ t :: b -> kind (s_prefix s) (t_name t) = Some kd -> (plus = 0 \/ plus = 1)%nat ->
  let last := last_num (-1) (kinds (s_prefix s) (map t_name a)) in
  (0 <= number)%Z ->
  (increasing (numbers s) -> if Nat.eqb plus 0 then (last < number /\ match kd with Some n => number <= n | None => True end)%Z
                             else (number_of last kd < number)%Z /\ match kinds (s_prefix s) (map t_name b) with k2 :: _ => (number <= number_of (number_of last kd) k2)%Z | [] => True end) ->
  let k := (length (kinds (s_prefix s) (map t_name a)) + plus)%nat in
  exists s', (let (name, sep) := tag_format s (t_name t) (t_separator t) (implicit_of last kd) number None in
              let! s1 := insert_tag s (length a + plus) name loc sep (t_valid t) in dedup (Z.of_nat k) s1) = Ok s' /\ result_of_insert s k loc s' /\
    (exists a' b' : list (option Z), ks s = a' ++ b' /\ length a' = k /\
       let knew := match kd with None => None | Some _ => Some number end in
       ks s' = a' ++ knew :: dd false (number_of (last_num (-1) a') knew) b') /\
    s_lists s' = s_lists s.
Proof.
  intros W E K Hp last Hn Hinc k.
  assert (Wt : tag_name (t_name t)). { destruct W as [_ W]. unfold names in W. rewrite E, map_app in W. apply Forall_app in W as [_ W]. now inversion W. }
  assert (Hin : In kd (kinds (s_prefix s) (names s))). { unfold names. rewrite E, map_app. cbn [map]. now apply kinds_in. }
  destruct (tag_format s (t_name t) (t_separator t) (implicit_of last kd) number None) as [name sep] eqn:F.
  pose proof (format_kind s (t_name t) (t_separator t) last kd number (proj1 W) Wt K Hin Hn) as FK. rewrite F in FK. cbn [fst] in FK. destruct FK as ((ds & Ed & Hd) & Kn & _).
  set (knew := match kd with None => None | Some _ => Some number end) in *.
  assert (Pl : exists a1 b1, ts_data (s_tags s) = a1 ++ b1 /\ length a1 = (length a + plus)%nat /\ kinds (s_prefix s) (map t_name a1) = kinds (s_prefix s) (map t_name a) ++ (if Nat.eqb plus 0 then [] else [kd]) /\
     kinds (s_prefix s) (map t_name b1) = (if Nat.eqb plus 0 then [kd] else []) ++ kinds (s_prefix s) (map t_name b)).
  { destruct Hp as [->| ->]; cbn [Nat.eqb].
    - exists a, (t :: b). rewrite Nat.add_0_r, app_nil_r. cbn [map app]. rewrite (kinds_cons _ _ _ _ K). auto.
    - exists (a ++ [t]), b. rewrite <- app_assoc, app_length, map_app, kinds_app. cbn [map]. rewrite (kinds_cons _ _ _ _ K). auto. }
  destruct Pl as (a1 & b1 & E1 & L1 & Ka1 & Kb1).
  destruct (place_tag s a1 b1 name ds knew loc sep (t_valid t) (Z.of_nat k) W E1 Ed Hd Kn) as (s' & R & R1 & R2 & R3 & R4 & R5 & R6).
  { subst k. rewrite Ka1, app_length. destruct Hp as [->| ->]; cbn; lia. }
  rewrite L1 in R. exists s'. split; [exact R|].
  assert (Ek : ks s = kinds (s_prefix s) (map t_name a1) ++ kinds (s_prefix s) (map t_name b1)). { unfold ks, names. now rewrite E1, map_app, kinds_app. }
  assert (Lk : length (kinds (s_prefix s) (map t_name a1)) = k). { subst k. rewrite Ka1, app_length. destruct Hp as [->| ->]; cbn; lia. }
  assert (Ep : s_prefix s' = s_prefix s) by (rewrite !prefix_eq; now rewrite R6).
  assert (Ek' : ks s' = kinds (s_prefix s) (map t_name a1) ++ knew :: dd false (number_of (last_num (-1) (kinds (s_prefix s) (map t_name a1))) knew) (kinds (s_prefix s) (map t_name b1))).
  { unfold ks. rewrite Ep. exact R1. }
  split; [|split; [exists (kinds (s_prefix s) (map t_name a1)), (kinds (s_prefix s) (map t_name b1)); auto|auto]].
  split; [auto|]. split; [auto|]. split; [|split; [auto|]].
  - rewrite !locations_view, Ep, R2, R5, E1, tag_locs_app. rewrite <- !app_assoc. cbn [app].
    rewrite <- Lk, <- tag_locs_length. now rewrite inserted_mid.
  - intros S. specialize (Hinc S). rewrite !sorted_view in * by auto. rewrite R5. destruct S as [I L]. split; auto. rewrite Ek, inc_app in I. destruct I as [I1 I2].
    rewrite Ek', inc_app. split; auto. set (la := last_num (-1) (kinds (s_prefix s) (map t_name a1))) in *.
    destruct Hp as [->| ->]; cbn [Nat.eqb] in *.
    + rewrite app_nil_r in Ka1. assert (la = last) as El by (unfold la, last; now rewrite Ka1). rewrite El in *. clear El. rewrite Kb1 in *. cbn [app] in *.
      destruct kd as [n|]; cbn [inc] in I2; cbn [knew number_of inc].
      * split; [lia|]. pose proof (dd_chain (Some n :: kinds (s_prefix s) (map t_name b)) false number) as Q. cbn [bz] in Q. rewrite Z.add_0_r in Q. apply Q. cbn [chain bz]. split; [lia|tauto].
      * pose proof (dd_chain (None :: kinds (s_prefix s) (map t_name b)) false (last + 1)) as Q. cbn [bz] in Q. rewrite Z.add_0_r in Q. apply Q. cbn [chain]. now apply inc_chain.
    + assert (la = number_of last kd) as El by (unfold la, last; rewrite Ka1, last_num_app; destruct kd; reflexivity). rewrite El in *. clear El. rewrite Kb1 in *. cbn [app] in *.
      destruct kd as [n|]; cbn [knew number_of inc] in *.
      * split; [lia|]. pose proof (dd_chain (kinds (s_prefix s) (map t_name b)) false number) as Q. cbn [bz] in Q. rewrite Z.add_0_r in Q. apply Q.
        destruct (kinds (s_prefix s) (map t_name b)) as [|[m|] r]; cbn [chain inc bz number_of] in *; auto; [split; [lia|tauto]|].
        replace number with (n + 1)%Z by lia. now apply inc_chain.
      * pose proof (dd_chain (kinds (s_prefix s) (map t_name b)) false (last + 1 + 1)) as Q. cbn [bz] in Q. rewrite Z.add_0_r in Q. apply Q. now apply inc_chain.
Qed.
End Uni.
