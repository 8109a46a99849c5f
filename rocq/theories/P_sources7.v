(** Sources: the connection to the specification, and concrete containers. *)
From Coq Require Import Ascii String.
From Coq Require Import NArith ZArith List Bool Lia Sorting.Sorted.
From Verif Require Import PyStr PyStrFacts Regex RegexFacts M_constants M_value M_macro_definitions M_conditions M_tags M_sourcelist M_sources Spec_sections Spec_tags Spec_sources
  P_evr P_value P_tags P_tags4 P_tags5 P_sources P_sources2 P_sources3 P_sources4 P_sources5 P_sources6.
Import ListNotations.
Open Scope N_scope.

Section Uni.
Context {U : Unicode}.
Lemma readable_wf s : readable s -> wf s.
Proof. exact (fun H => H). Qed.
Lemma word_prefix s : source_word s = lower_prefix (s_patches s).
Proof. reflexivity. Qed.
Lemma kind_source b name k : caseless_digits -> tag_name name -> kind (upper_prefix b) name = Some k -> exists ds, source_name (lower_prefix b) name ds /\ (k = None <-> ds = []).
Proof.
  intros C T K. destruct (tag_name_dec b name C T) as [(ds & Hs)|[_ Q]]; [|congruence]. exists ds. split; auto. destruct (str_eq_dec ds []) as [->|Nd].
  - rewrite (kind_implicit b name C Hs) in K. injection K as <-. tauto.
  - destruct (int_digits ds) as (n & Hi); auto; [destruct Hs as (? & _ & _ & Hd); apply forallb_forall; now apply Forall_forall|].
    destruct (kind_explicit b name ds n C Hs Hi) as [K' _]. rewrite K' in K. injection K as <-. split; [discriminate|contradiction].
Qed.
Lemma kind_other b name : caseless_digits -> tag_name name -> kind (upper_prefix b) name = None -> forall ds, ~ source_name (lower_prefix b) name ds.
Proof.
  intros C T K ds Hs. destruct (tag_name_dec b name C T) as [(ds' & Hs')|[Q _]]; [|now apply (Q ds)]. destruct (str_eq_dec ds' []) as [->|Nd].
  - rewrite (kind_implicit b name C Hs') in K. discriminate.
  - destruct (int_digits ds') as (n & Hi); auto; [destruct Hs' as (? & _ & _ & Hd); apply forallb_forall; now apply Forall_forall|]. destruct (kind_explicit b name ds' n C Hs' Hi) as [K' _]. congruence.
Qed.
Lemma other_tags_is b : forall l o, caseless_digits -> Forall tag_name (map t_name l) -> (other_tags (lower_prefix b) l o <-> o = map key (others (upper_prefix b) l)).
Proof.
  induction l as [|t l IH]; intros o C F; cbn [map] in *.
  - split; [now inversion 1|intros ->; constructor].
  - inversion F as [|? ? T F']; subst. cbn [others filter]. fold (others (upper_prefix b) l). destruct (kind (upper_prefix b) (t_name t)) as [k|] eqn:K.
    + destruct (kind_source b _ k C T K) as (ds & Hs & _). split.
      * inversion 1 as [|? ? ? ? ? R|? ? ? R]; subst; [now apply IH|]. now elim (R ds).
      * intros ->. eapply O_source; eauto. now apply IH.
    + pose proof (kind_other b _ C T K) as No. cbn [map]. split.
      * inversion 1 as [|? ? ? ? R|? ? ? R1 R2]; subst; [now elim (No _ R)|]. f_equal. now apply IH.
      * intros ->. apply O_other; auto. now apply IH.
Qed.
Lemma keeps s s' : wf s -> wf s' -> map key (others (s_prefix s) (ts_data (s_tags s'))) = map key (others (s_prefix s) (ts_data (s_tags s))) -> keeps_other_tags s s'.
Proof.
  intros W W' E o. rewrite word_prefix. rewrite (other_tags_is _ _ _ (proj1 W) (proj2 W)), (other_tags_is _ _ _ (proj1 W') (proj2 W')). rewrite prefix_eq in E. now rewrite E.
Qed.
Lemma explicit_ks s : wf s -> all_numbered s -> Forall (fun k => k <> None) (ks s).
Proof.
  intros W A. unfold ks, names, all_numbered in *. destruct W as [C W]. unfold names in W. induction (ts_data (s_tags s)) as [|t l IH]; [constructor|]. cbn [map kinds flat_map] in *. inversion W as [|? ? T W']; subst.
  apply Forall_app. split; [|apply IH; auto; intros t' Ht'; apply A; now right].
  destruct (kind (s_prefix s) (t_name t)) as [k|] eqn:K; [|constructor]. constructor; [|constructor]. intros ->. rewrite prefix_eq in K. destruct (kind_source _ _ _ C T K) as (ds & Hs & Q). destruct Q as [Q _]. rewrite (Q eq_refl) in Hs. apply (A t); [now left|exact Hs].
Qed.
Lemma implicit_ks s : wf s -> none_numbered s -> Forall (fun k => k = None) (ks s).
Proof.
  intros W A. unfold ks, names, none_numbered in *. destruct W as [C W]. unfold names in W. induction (ts_data (s_tags s)) as [|t l IH]; [constructor|]. cbn [map kinds flat_map] in *. inversion W as [|? ? T W']; subst.
  apply Forall_app. split; [|apply IH; auto; intros t' ds Ht'; apply A; now right].
  destruct (kind (s_prefix s) (t_name t)) as [k|] eqn:K; [|constructor]. constructor; [|constructor]. rewrite prefix_eq in K. destruct (kind_source _ _ _ C T K) as (ds & Hs & Q). apply Q. apply (A t); [now left|exact Hs].
Qed.
Lemma no_entries s : no_list_entries s <-> list_locs (s_lists s) = [].
Proof.
  unfold no_list_entries, list_locs. induction (s_lists s) as [|sl l IH]; [split; auto|]. cbn [flat_map]. split.
  - inversion 1; subst. rewrite H2. cbn. now apply IH.
  - intros E. apply app_eq_nil in E as [E1 E2]. apply map_eq_nil in E1. constructor; auto. now apply IH.
Qed.

(** C28 *)
Theorem numbers_spec s : readable s -> exists l, numbered (source_word s) 0 (-1) (map t_name (ts_data (s_tags s))) l /\
  map (fun x => (i_place x, i_number x)) (get_items s) = map (fun x => (InTags (fst x), snd x)) l ++ list_numbers (last (map snd l) (-1)%Z) (s_lists s).
Proof.
  intros W. exists (map (fun t => (ts_index t, ts_number t)) (get_tags s)). split.
  - rewrite word_prefix. unfold get_tags. rewrite prefix_eq. apply tags_numbered; apply W.
  - unfold get_items. rewrite map_app. f_equal; [now rewrite !map_map|].
    assert (La : match rev (map (fun ts => mk_item (ts_number ts) (InTags (ts_index ts))) (get_tags s)) with x :: _ => i_number x | [] => (-1)%Z end = last (map snd (map (fun t => (ts_index t, ts_number t)) (get_tags s))) (-1)%Z).
    { rewrite map_map. cbn [snd]. rewrite <- (rev_involutive (get_tags s)) at 2. rewrite <- map_rev. destruct (rev (get_tags s)) as [|x l]; cbn [rev map i_number]; auto. rewrite map_app. cbn [map]. now rewrite last_last. }
    rewrite La. generalize (last (map snd (map (fun t => (ts_index t, ts_number t)) (get_tags s))) (-1)%Z). intros z. unfold list_numbers. generalize 0%nat at 1 3.
    induction (s_lists s) as [|sl l IH]; intros k; auto. cbn [lists_items length seq combine flat_map fst snd]. rewrite map_app, IH. f_equal. unfold list_items. rewrite map_map. reflexivity.
Qed.
Lemma inc_none : forall l z, Forall (fun k => k = None) l -> inc z l.
Proof. induction l as [|k l IH]; intros z F; cbn; auto. inversion F; subst. cbn. auto. Qed.
Theorem implicit_increasing s : readable s -> none_numbered s -> (length (filter (fun sl => negb (Nat.eqb (length (sl_data sl)) 0)) (s_lists s)) <= 1)%nat -> increasing (numbers s).
Proof.
  intros W N L. apply sorted_view; auto. split; [now apply inc_none, implicit_ks|]. unfold used. etransitivity; [|exact L]. clear. induction (s_lists s) as [|sl l IH]; auto. cbn [filter]. destruct (sl_data sl); cbn [length Nat.eqb negb] in *; lia.
Qed.
Theorem explicit_increasing s : readable s -> all_numbered s -> (length (filter (fun sl => negb (Nat.eqb (length (sl_data sl)) 0)) (s_lists s)) <= 1)%nat ->
  forall l, numbered (source_word s) 0 (-1) (map t_name (ts_data (s_tags s))) l -> increasing (map snd l) -> increasing (numbers s).
Proof.
  intros W A L l Hl Hs. assert (El : map snd l = nums (-1) (ks s)).
  { assert (G : forall names i z l, Forall tag_name names -> numbered (lower_prefix (s_patches s)) i z names l -> map snd l = nums z (kinds (s_prefix s) names)).
    { clear -W. rewrite prefix_eq. induction names as [|n names IH]; intros i z l F Hn; inversion Hn as [|? ? ? ? ? No Hr|? ? ? ? ? Hs Hr|? ? ? ds n0 ? ? Hs Hi Hr]; subst; auto; inversion F as [|? ? T F']; subst; cbn [kinds flat_map].
      - destruct (tag_name_dec (s_patches s) n (proj1 W) T) as [(ds & Hd)|[_ ->]]; [now elim (No ds)|]. cbn [app]. eapply IH; eauto.
      - rewrite (kind_implicit _ n (proj1 W) Hs). cbn [app nums map snd]. f_equal. eapply IH; eauto.
      - destruct (kind_explicit _ n ds n0 (proj1 W) Hs Hi) as [-> _]. cbn [app nums map snd]. f_equal. eapply IH; eauto. }
    rewrite word_prefix in Hl. apply G in Hl; auto. apply W. }
  apply sorted_view; auto. split.
  - rewrite El in Hs. pose proof (explicit_ks s W A) as F. pose proof (wf_nonneg s W) as N. clear -Hs F N.
    assert (G : forall l z, (forall n, In (Some n) l -> (z < n)%Z) -> Forall (fun k => k <> None) l -> increasing (nums z l) -> inc z l).
    { induction l as [|[n|] l IH]; intros z Hz Fl S; cbn [inc nums] in *; auto; inversion Fl; subst; [|congruence]. inversion S as [|? ? S1 S2]; subst. split; [apply Hz; now left|]. apply IH; auto.
      intros m Hm. rewrite Forall_forall in S2. apply S2. clear -Hm H2. revert n. induction l as [|[k|] l IH]; intros n; [destruct Hm| |inversion H2; congruence]. inversion H2; subst. cbn [nums]. destruct Hm as [Q|Hm]; [left; congruence|right; auto]. }
    apply G; auto. intros n Hn. assert (0 <= n)%Z; [|lia]. apply N. exact Hn.
  - unfold used. etransitivity; [|exact L]. clear. induction (s_lists s) as [|sl l IH]; auto. cbn [filter]. destruct (sl_data sl); cbn [length Nat.eqb negb] in *; lia.
Qed.

(** C29 *)
Theorem insert_semantics s i loc : readable s -> s_dups s = true \/ ~ In loc (locations s) ->
  exists s', insert s (Z.of_nat i) loc = Ok s' /\ readable s' /\ locations s' = inserted (Nat.min i (length (locations s))) loc (locations s) /\
    keeps_other_tags s s' /\ (increasing (numbers s) -> increasing (numbers s')).
Proof.
  intros W D. destruct (insert_spec s i loc W D) as (s' & E & R1 & R2 & R3 & R4 & R5). exists s'. split; auto. split; auto. split; auto. split; auto. now apply keeps.
Qed.
Theorem insert_numbered_semantics s number loc : readable s -> s_dups s = true \/ ~ In loc (locations s) -> (0 <= number)%Z ->
  exists s' k, insert_numbered s number loc = Ok (s', k) /\ readable s' /\ locations s' = inserted k loc (locations s) /\ keeps_other_tags s s' /\
    (increasing (numbers s) -> increasing (numbers s') /\
       (all_numbered s -> no_list_entries s -> locations s <> [] -> nth_error (numbers s') k = Some number)).
Proof.
  intros W D Hn. destruct (insert_numbered_spec s number loc W D Hn) as (s' & k & E & (R1 & R2 & R3 & R4 & R5) & _). exists s', k. split; auto. split; auto. split; auto. split; [now apply keeps|]. intros S. split; auto.
  intros A L Ne. apply no_entries in L. destruct (insert_numbered_explicit s number loc W D Hn S L) as (s2 & k2 & E2 & _ & _ & R); auto; [|now apply explicit_ks|].
  - intros Q. apply Ne. apply length_zero_iff_nil. rewrite locations_view, L, app_nil_r, tag_locs_length. unfold ks, names in Q. now rewrite Q.
  - rewrite E in E2. injection E2 as <- <-. exact R.
Qed.
(** C30 *)
Theorem add_patch_semantics s loc number initial : readable s -> s_dups s = true \/ ~ In loc (locations s) -> no_list_entries s -> NoDup (numbers s) ->
  (forall n, number = Some n -> forall x, In x (numbers s) -> (x < n)%Z) -> (forall n, number = Some n -> 0 <= n)%Z ->
  exists s' k m h, add_patch s loc number initial = Ok (s', k) /\
    locations s' = inserted k loc (locations s) /\ numbers s' = inserted k m (numbers s) /\ keeps_other_tags s s' /\
    (forall x, In x (numbers s) -> x <= h)%Z /\ (locations s <> [] -> In h (numbers s)) /\ (locations s = [] -> h = -1)%Z /\
    let n := match number with Some n => n | None => Z.max (h + 1) initial end in
    (all_numbered s -> locations s <> [] -> m = n) /\
    (locations s = [] -> s_implicit s = false -> s_digits s <> 0%nat -> m = n) /\
    (n = (h + 1)%Z -> m = n).
Proof.
  intros W D L N Hn Hp. apply no_entries in L. assert (Hm := fold_max (numbers s) (-1)). fold (max_number s) in Hm. destruct Hm as (M1 & M2 & M3).
  assert (Lk : length (ks s) = length (locations s)) by (rewrite locations_view, L, app_nil_r, tag_locs_length; reflexivity).
  assert (Ln : length (numbers s) = length (locations s)) by (unfold numbers, locations; now rewrite !map_length).
  assert (Ge : (0 <= max_number s)%Z \/ max_number s = (-1)%Z).
  { destruct M3 as [M3|M3]; [auto|left]. rewrite numbers_view in M3. apply in_app_or in M3 as [M3|M3].
    - fold (ks s) in M3. pose proof (wf_nonneg s W) as Nn. clear -M3 Nn. assert (forall l z, (-1 <= z)%Z -> nonneg l -> forall x, In x (nums z l) -> (0 <= x)%Z).
      { induction l as [|[v|] l IH]; intros z Hz Nl x Hx; cbn [nums] in Hx; [destruct Hx| |].
        - destruct Hx as [<-|Hx]; [apply Nl; now left|]. apply (IH v); auto; [specialize (Nl v (or_introl eq_refl)); lia|]. intros y Hy. apply Nl. now right.
        - destruct Hx as [<-|Hx]; [lia|]. apply (IH (z + 1)%Z); auto; [lia|]. intros y Hy. apply Nl. now right. }
      apply (H (ks s) (-1)%Z); auto; lia.
    - clear -L M3. exfalso. unfold list_nums, list_locs in *. induction (s_lists s) as [|sl l IH]; [destruct M3|]. cbn [flat_map] in *. apply app_eq_nil in L as [L1 L2]. apply map_eq_nil in L1. rewrite L1 in M3. cbn in M3. auto. }
  destruct (add_patch_spec s loc number initial W D L N) as (s' & k & m & E & R1 & R2 & R3 & R4).
  { intros n En. destruct M3 as [M3|M3]; [|now apply (Hn n)]. rewrite M3. specialize (Hp n En). lia. }
  exists s', k, m, (max_number s). split; auto. split; auto. split; auto.
  assert (Ws : wf s').
  { unfold add_patch in E. destruct (match number with Some n => _ | None => _ end) as [n|] eqn:Q; [|discriminate]. cbn [bind] in E.
    destruct (insert_numbered_spec s n loc W D) as (s2 & k2 & E2 & (W2 & _) & _); [|congruence]. destruct number as [v|]; [destruct (_ <=? _)%Z; [discriminate|]; injection Q as <-; now apply Hp|injection Q as <-; lia]. }
  split; [now apply keeps|]. split; auto.
  assert (P1 : locations s <> [] -> In (max_number s) (numbers s)).
  { intros Ne. destruct M3 as [M3|M3]; auto. destruct (numbers s) as [|x q] eqn:Q.
    - cbn in Ln. symmetry in Ln. apply length_zero_iff_nil in Ln. contradiction.
    - exfalso. assert (Hx := M1 x (or_introl eq_refl)). rewrite M3 in Hx. 
      assert (Hx0 : (0 <= x)%Z); [|lia]. assert (In x (numbers s)) as Hin by (rewrite Q; now left). rewrite numbers_view in Hin. apply in_app_or in Hin as [Hin|Hin].
      + fold (ks s) in Hin. pose proof (wf_nonneg s W) as Nn. clear -Hin Nn. assert (forall l z, (-1 <= z)%Z -> nonneg l -> forall x, In x (nums z l) -> (0 <= x)%Z).
        { induction l as [|[v|] l IH]; intros z Hz Nl y Hy; cbn [nums] in Hy; [destruct Hy| |].
          - destruct Hy as [<-|Hy]; [apply Nl; now left|]. apply (IH v); auto; [specialize (Nl v (or_introl eq_refl)); lia|]. intros w Hw. apply Nl. now right.
          - destruct Hy as [<-|Hy]; [lia|]. apply (IH (z + 1)%Z); auto; [lia|]. intros w Hw. apply Nl. now right. }
        apply (H (ks s) (-1)%Z); auto; lia.
      + clear -L Hin. exfalso. unfold list_nums, list_locs in *. induction (s_lists s) as [|sl l IH]; [destruct Hin|]. cbn [flat_map] in *. apply app_eq_nil in L as [L1 L2]. apply map_eq_nil in L1. rewrite L1 in Hin. cbn in Hin. auto. }
  split; auto. split.
  { intros E0. rewrite E0 in Ln. apply length_zero_iff_nil in Ln. unfold max_number. now rewrite Ln. }
  cbn zeta. split; [|split].
  - intros A Ne. destruct R4 as [R4|[[_ R4]|(_ & R4 & _)]]; auto.
    + pose proof (explicit_ks s W A) as F. rewrite Forall_forall in F. now apply F in R4.
    + exfalso. rewrite R4 in Lk. cbn in Lk. symmetry in Lk. apply length_zero_iff_nil in Lk. contradiction.
  - intros E0 Hi Hd. destruct R4 as [R4|[[_ R4]|(_ & _ & R4)]]; auto.
    + exfalso. rewrite E0 in Lk. apply length_zero_iff_nil in Lk. rewrite Lk in R4. destruct R4.
    + rewrite Hi in R4. cbn in R4. apply Nat.eqb_eq in R4. contradiction.
  - intros En. destruct R4 as [R4|[[R4 _]|(R4 & Q & _)]]; auto; [now rewrite En|]. rewrite Q in Lk. cbn in Lk. rewrite <- Lk in Ln. apply length_zero_iff_nil in Ln. rewrite En, R4. unfold max_number. now rewrite Ln.
Qed.
(** C31 *)
Theorem delete_semantics s k : readable s -> (k < length (locations s))%nat ->
  exists s', delete_item s (Z.of_nat k) = Ok s' /\ readable s' /\ locations s' = removed k (locations s) /\ keeps_other_tags s s' /\
    (increasing (numbers s) -> increasing (numbers s')) /\ (all_numbered s -> no_list_entries s -> numbers s' = removed k (numbers s)).
Proof.
  intros W Hk. destruct (delete_item_spec s k W Hk) as (s' & E & R). pose proof R as (R1 & R2 & R3 & R4 & R5 & R6 & R7). exists s'. split; auto. split; auto. split; auto. split; [now apply keeps|]. split; auto.
  intros A L. apply no_entries in L. eapply delete_numbers; eauto. now apply explicit_ks.
Qed.
Theorem remove_numbered_semantics s number : readable s ->
  (~ In number (numbers s) -> remove_numbered s number = Ok s) /\
  (In number (numbers s) -> exists k s', nth_error (numbers s) k = Some number /\ remove_numbered s number = Ok s' /\ locations s' = removed k (locations s) /\ keeps_other_tags s s' /\
     (increasing (numbers s) -> increasing (numbers s')) /\ (all_numbered s -> no_list_entries s -> numbers s' = removed k (numbers s))).
Proof.
  intros W. destruct (remove_numbered_spec s number W) as [N1 N2]. split; auto. intros H. destruct (N2 H) as (k & s' & Hk & E & R). exists k, s'. pose proof R as (R1 & R2 & R3 & R4 & R5 & R6 & R7).
  split; auto. split; auto. split; auto. split; [now apply keeps|]. split; auto. intros A L. apply no_entries in L. eapply delete_numbers; eauto. now apply explicit_ks.
Qed.
Theorem remove_semantics s loc : readable s -> exists s', remove s loc = Ok s' /\ locations s' = filter (fun x => negb (str_eqb x loc)) (locations s) /\ keeps_other_tags s s' /\
    (increasing (numbers s) -> increasing (numbers s')).
Proof.
  intros W. destruct (delete_places_spec (map (fun x => str_eqb x loc) (locations s)) s W) as (s' & E & W' & _ & R1 & R2 & _ & R3); [rewrite map_length; lia|].
  exists s'. split; [|split; [now rewrite R1, dropped_filter|split; [now apply keeps|auto]]]. rewrite <- E. unfold remove. f_equal. f_equal. unfold locations, places. rewrite map_map. symmetry. apply (select_filter _ _ (fun x => str_eqb (location_at s (i_place x)) loc) i_place).
Qed.
Lemma select_sorted (A : Type) : forall (l : list A) off is, StronglySorted lt is -> Forall (fun i => (off <= i < off + length l)%nat) is ->
  select (map (fun i => existsb (Nat.eqb i) is) (seq off (length l))) l = flat_map (fun k => match nth_error l (k - off) with Some x => [x] | None => [] end) is.
Proof.
  induction l as [|x l IH]; intros off is S F.
  - destruct is as [|i is]; auto. inversion F; subst. cbn in *. lia.
  - cbn [length seq map select] in *. destruct is as [|i is].
    + cbn [existsb]. specialize (IH (Datatypes.S off) [] (SSorted_nil _) (Forall_nil _)). cbn in IH. exact IH.
    + inversion S as [|? ? S1 S2]; subst. inversion F as [|? ? F1 F2]; subst. destruct (Nat.eq_dec i off) as [->|Ni].
      * cbn [existsb flat_map]. rewrite Nat.eqb_refl, Nat.sub_diag. cbn [orb nth_error app]. f_equal.
        assert (Fi : Forall (fun i => (Datatypes.S off <= i < Datatypes.S off + length l)%nat) is). { apply Forall_forall. intros j Hj. rewrite Forall_forall in S2, F2. specialize (S2 j Hj). specialize (F2 j Hj). lia. }
        etransitivity; [|etransitivity; [apply (IH (Datatypes.S off) is S1 Fi)|]].
        -- f_equal. apply map_ext_in. intros j Hj. apply in_seq in Hj. cbn. rewrite (proj2 (Nat.eqb_neq j off)) by lia. reflexivity.
        -- clear -Fi. induction Fi as [|j is Hj F IHF]; auto. cbn [flat_map]. rewrite IHF. f_equal. replace (j - off)%nat with (Datatypes.S (j - Datatypes.S off)) by lia. reflexivity.
      * assert (Fi : Forall (fun i => (Datatypes.S off <= i < Datatypes.S off + length l)%nat) (i :: is)). { constructor; [lia|]. apply Forall_forall. intros j Hj. rewrite Forall_forall in S2, F2. specialize (S2 j Hj). specialize (F2 j Hj). lia. }
        replace (existsb (Nat.eqb off) (i :: is)) with false; [|symmetry; destruct (existsb _ _) eqn:Q; auto; apply existsb_exists in Q as (j & Hj & Q); apply Nat.eqb_eq in Q; subst j; rewrite Forall_forall in Fi; specialize (Fi off Hj); lia].
        rewrite (IH (Datatypes.S off) (i :: is) S Fi). clear -Fi. induction Fi as [|j is' Hj F IHF]; auto. cbn [flat_map]. rewrite IHF. f_equal. replace (j - off)%nat with (Datatypes.S (j - Datatypes.S off)) by lia. reflexivity.
Qed.
Theorem delete_slice_semantics s is : readable s -> StronglySorted lt is -> Forall (fun i => (i < length (locations s))%nat) is ->
  exists s', delete_slice s is = Ok s' /\ locations s' = without (map (fun i => existsb (Nat.eqb i) is) (seq 0 (length (locations s)))) (locations s) /\ keeps_other_tags s s' /\
    (increasing (numbers s) -> increasing (numbers s')).
Proof.
  intros W S F. destruct (delete_places_spec (map (fun i => existsb (Nat.eqb i) is) (seq 0 (length (locations s)))) s W) as (s' & E & W' & _ & R1 & R2 & _ & R3); [rewrite map_length, seq_length; lia|].
  exists s'. split; [|split; [auto|split; [now apply keeps|auto]]]. rewrite <- E. unfold delete_slice. f_equal. f_equal.
  assert (Lp : length (locations s) = length (places s)) by (unfold places, locations; now rewrite !map_length). rewrite Lp in *. rewrite select_sorted; auto; [|eapply Forall_impl; [|exact F]; cbn; lia].
  clear. induction is as [|i is IH]; auto. cbn [flat_map]. rewrite IH, Nat.sub_0_r. f_equal. unfold places. rewrite nth_error_map. destruct (nth_error (get_items s) i); reflexivity.
Qed.
Theorem set_location_semantics s k loc : readable s -> (k < length (locations s))%nat -> exists s', set_location s (Z.of_nat k) loc = Ok s' /\
  locations s' = update_at k (fun _ => loc) (locations s) /\ numbers s' = numbers s /\ keeps_other_tags s s'.
Proof.
  intros W Hk. destruct (set_location_spec s k loc W Hk) as (s' & E & R1 & R2 & R3). exists s'. split; auto. split; auto. split; auto. apply keeps; auto.
  split; [apply W|]. rewrite <- items_length in Hk. unfold set_location in E. rewrite py_index_nonneg in E by auto. destruct (nth_error (get_items s) k) as [x|] eqn:Hx; [|discriminate]. injection E as <-.
  destruct W as [_ W]. unfold names in *. destruct (i_place x) as [j|j i]; [|exact W]. cbn [with_tags s_tags ts_data].
  assert (forall d j, map t_name (update_at j (with_value loc) d) = map t_name d) as ->; [|exact W]. induction d as [|t d IH]; intros [|i]; cbn; auto. now rewrite IH.
Qed.
End Uni.
