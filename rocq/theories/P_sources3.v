(** Inserting sources. *)
From Coq Require Import Ascii String.
From Coq Require Import NArith ZArith List Bool Lia Sorting.Sorted.
From Verif Require Import PyStr PyStrFacts Regex RegexFacts M_constants M_value M_macro_definitions M_conditions M_tags M_sourcelist M_sources Spec_sections Spec_tags Spec_sources
  P_evr P_value P_tags P_tags4 P_sources P_sources2.
Import ListNotations.
Open Scope N_scope.

(** Renumbering after an insertion: [b] tells whether the source above got a new number. *)
Definition bz (b : bool) : Z := if b then 1%Z else 0%Z.
Fixpoint dd (b : bool) (prev : Z) (ks : list (option Z)) : list (option Z) :=
  match ks with
  | [] => []
  | None :: r => None :: dd b (prev + 1)%Z r
  | Some n :: r => if (n =? prev + bz b)%Z then Some (n + 1)%Z :: dd true n r else Some n :: dd false n r
  end.
Fixpoint inc (prev : Z) (ks : list (option Z)) : Prop :=
  match ks with [] => True | None :: r => inc (prev + 1)%Z r | Some n :: r => (prev < n)%Z /\ inc n r end.
Fixpoint chain (b : bool) (prev : Z) (ks : list (option Z)) : Prop :=
  match ks with [] => True | None :: r => chain b (prev + 1)%Z r | Some n :: r => (prev + bz b <= n)%Z /\ inc n r end.
Lemma inc_chain : forall r prev b, inc prev r -> chain b prev r /\ (b = false -> chain b (prev + 1)%Z r).
Proof.
  induction r as [|[n|] r IH]; intros prev b; cbn [inc chain]; auto.
  intros [L I]. split; [|intros ->]; (split; [|assumption]); unfold bz; try destruct b; lia.
Qed.
Lemma dd_chain : forall ks b prev, chain b prev ks -> inc (prev + bz b) (dd b prev ks).
Proof.
  induction ks as [|[n|] ks IH]; intros b prev; cbn [chain dd]; auto.
  - intros [L I]. destruct (Z.eqb_spec n (prev + bz b)); cbn [inc].
    + split; [lia|]. apply (IH true n). now apply inc_chain.
    + split; [lia|]. specialize (IH false n). cbn [bz] in IH. rewrite Z.add_0_r in IH. apply IH. now apply inc_chain.
  - intros I. cbn [inc]. replace (prev + bz b + 1)%Z with (prev + 1 + bz b)%Z by lia. now apply IH.
Qed.
Lemma inc_app : forall a prev b, inc prev (a ++ b) <-> inc prev a /\ inc (last_num prev a) b.
Proof. induction a as [|[n|] a IH]; intros prev b; cbn; [tauto| |apply IH]. rewrite IH. tauto. Qed.
Lemma inc_sorted : forall ks prev, inc prev ks <-> StronglySorted Z.lt (prev :: nums prev ks).
Proof.
  assert (K : forall l (a b : Z), StronglySorted Z.lt (a :: b :: l) <-> (a < b)%Z /\ StronglySorted Z.lt (b :: l)).
  { intros l a b. split.
    - intros S. inversion S as [|? ? S' F]; subst. inversion F; subst. auto.
    - intros [L S]. constructor; auto. constructor; auto. inversion S as [|? ? _ F]; subst. eapply Forall_impl; [|exact F]. cbn. intros; lia. }
  induction ks as [|[n|] ks IH]; intros prev; cbn [inc nums].
  - split; auto. intros _. repeat constructor.
  - rewrite K, IH. tauto.
  - rewrite K, IH. intuition lia.
Qed.
Lemma dd_length : forall ks b prev, length (dd b prev ks) = length ks.
Proof. induction ks as [|[n|] ks IH]; intros b prev; cbn; auto. destruct (_ =? _)%Z; cbn; now rewrite IH. Qed.
(** Distinct neighbours are not renumbered. *)
Fixpoint apart (prev : Z) (ks : list (option Z)) : Prop :=
  match ks with [] => True | None :: r => apart (prev + 1)%Z r | Some n :: r => n <> prev /\ apart n r end.
Lemma dd_apart : forall ks prev, apart prev ks -> dd false prev ks = ks.
Proof.
  induction ks as [|[n|] ks IH]; intros prev; cbn [apart dd]; auto.
  - intros [N A]. unfold bz. rewrite Z.add_0_r, (proj2 (Z.eqb_neq n prev) N), IH; auto.
  - intros A. now rewrite IH.
Qed.

Section Uni.
Context {U : Unicode}.
Lemma kinds_in p a n b k : kind p n = Some k -> In k (kinds p (a ++ n :: b)).
Proof. intros K. rewrite kinds_app. apply in_or_app. right. cbn [kinds flat_map]. rewrite K. now left. Qed.
Lemma kinds_cons p n k l : kind p n = Some k -> kinds p (n :: l) = k :: kinds p l.
Proof. intros K. cbn [kinds flat_map]. now rewrite K. Qed.
Lemma kinds_skip p n l : kind p n = None -> kinds p (n :: l) = kinds p l.
Proof. intros K. cbn [kinds flat_map]. now rewrite K. Qed.
Lemma locs_cons p t k l : kind p (t_name t) = Some k -> tag_locs p (t :: l) = t_value t :: tag_locs p l.
Proof. intros K. cbn [tag_locs flat_map]. now rewrite K. Qed.
Lemma others_cons p t k l : kind p (t_name t) = Some k -> others p (t :: l) = others p l.
Proof. intros K. cbn [others filter]. now rewrite K. Qed.
Lemma others_app p a b : others p (a ++ b) = others p a ++ others p b.
Proof. apply filter_app. Qed.

Lemma dedup_from_spec : forall suf pre s b prev, ts_data (s_tags s) = pre ++ suf -> wf s ->
  exists suf', dedup_from s (prev + bz b) (get_tags_from (s_prefix s) (length pre) prev (map t_name suf)) = with_tags (mk_tags (pre ++ suf') (ts_remainder (s_tags s))) s /\
    kinds (s_prefix s) (map t_name suf') = dd b prev (kinds (s_prefix s) (map t_name suf)) /\ tag_locs (s_prefix s) suf' = tag_locs (s_prefix s) suf /\
    others (s_prefix s) suf' = others (s_prefix s) suf /\ Forall tag_name (map t_name suf').
Proof.
  induction suf as [|t suf IH]; intros pre s b prev E W.
  - exists []. split; [cbn [map get_tags_from dedup_from]; rewrite <- E; now destruct s as [[d r] ? ? ? ? ?]|]. split; [reflexivity|]. split; [reflexivity|]. split; [reflexivity|constructor].
  - assert (Wt : tag_name (t_name t) /\ Forall tag_name (map t_name suf)).
    { destruct W as [_ W]. unfold names in W. rewrite E, map_app in W. apply Forall_app in W as [_ W]. now inversion W. }
    destruct Wt as [Wt Ws]. cbn [map].
    assert (E' : ts_data (s_tags s) = (pre ++ [t]) ++ suf) by (now rewrite E, <- app_assoc).
    assert (El : length (pre ++ [t]) = S (length pre)) by (rewrite app_length; cbn; lia).
    destruct (kind (s_prefix s) (t_name t)) as [k|] eqn:K.
    + rewrite (get_tags_cons _ _ k) by auto. rewrite (kinds_cons _ _ k) by auto. cbn [dedup_from]. unfold ts_number at 1 2. cbn [ts_implicit ts_name ts_index].
      destruct k as [n|]; cbn [implicit_of number_of dd].
      * rewrite (kind_explicit_number _ _ _ K). destruct (Z.eqb_spec n (prev + bz b)) as [Q|Q].
        -- rewrite E, nth_error_mid. destruct (tag_format s (t_name t) (t_separator t) None (prev + bz b + 1) None) as [name sep'] eqn:F.
           destruct (explicit_digits (s_patches s) (t_name t) n (proj1 W) Wt K) as [Hn _].
           pose proof (format_kind s (t_name t) (t_separator t) 0 (Some n) (prev + bz b + 1) (proj1 W) Wt K) as FK. cbn [implicit_of] in FK. rewrite F in FK. cbn [fst] in FK.
           destruct FK as ((ds & Ed & Hd) & K' & Ex); [unfold names; rewrite E, map_app; cbn [map]; now apply kinds_in|lia|]. specialize (Ex n eq_refl).
           assert (Er : rename_at (length pre) name sep' s = with_tags (mk_tags ((pre ++ [rename name sep' t]) ++ suf) (ts_remainder (s_tags s))) s).
           { unfold rename_at. rewrite E, update_at_app, <- app_assoc. reflexivity. }
           set (s1 := rename_at (length pre) name sep' s) in *.
           assert (Tn : tag_name name). { rewrite Ed, prefix_eq. now apply source_tag_name. }
           assert (W1 : wf s1). { split; [apply W|]. rewrite Er. unfold names. cbn [s_tags with_tags ts_data]. destruct W as [_ W]. unfold names in W. rewrite E, map_app in W. apply Forall_app in W as [Wp _].
             rewrite !map_app. apply Forall_app. split; auto. apply Forall_app. split; auto. cbn [map rename t_name]. repeat constructor; auto. }
           rewrite Ex. specialize (IH (pre ++ [rename name sep' t]) s1 true n). rewrite app_length in IH. cbn [length] in IH. rewrite Nat.add_1_r in IH.
           assert (Ep : s_prefix s1 = s_prefix s) by (rewrite Er; reflexivity). rewrite Ep in IH.
           destruct IH as (suf' & I1 & I2 & I3 & I4 & I5); [rewrite Er; reflexivity|auto|]. unfold bz in I1 at 1. replace (n + 1)%Z with (prev + bz b + 1)%Z in I1 by lia. rewrite I1.
           exists (rename name sep' t :: suf'). rewrite Er. cbn [s_tags with_tags ts_remainder]. split; [rewrite <- app_assoc; reflexivity|]. cbn [map rename t_name]. rewrite (kinds_cons _ _ _ _ K'), I2.
           split; [do 2 f_equal; lia|]. rewrite (locs_cons _ (rename name sep' t) _ _ K'), (locs_cons _ t _ _ K), I3. split; [reflexivity|].
           rewrite (others_cons _ (rename name sep' t) _ _ K'), (others_cons _ t _ _ K), I4. split; [reflexivity|]. constructor; auto.
        -- destruct (IH (pre ++ [t]) s false n E' W) as (suf' & I1 & I2 & I3 & I4 & I5). rewrite El in I1. unfold bz in I1. rewrite Z.add_0_r in I1. rewrite I1.
           exists (t :: suf'). split; [now rewrite <- app_assoc|]. cbn [map]. rewrite (kinds_cons _ _ _ _ K), I2. split; [reflexivity|]. rewrite !(locs_cons _ t _ _ K), I3. split; [reflexivity|].
           rewrite !(others_cons _ t _ _ K), I4. split; [reflexivity|]. constructor; auto.
      * destruct (IH (pre ++ [t]) s b (prev + 1)%Z E' W) as (suf' & I1 & I2 & I3 & I4 & I5). rewrite El in I1.
        assert (En : (if (prev + 1 =? prev + bz b)%Z then dedup_from s (prev + bz b + 1) (get_tags_from (s_prefix s) (S (length pre)) (prev + 1) (map t_name suf))
                      else dedup_from s (prev + 1) (get_tags_from (s_prefix s) (S (length pre)) (prev + 1) (map t_name suf))) =
                     dedup_from s (prev + 1 + bz b) (get_tags_from (s_prefix s) (S (length pre)) (prev + 1) (map t_name suf))).
        { destruct (Z.eqb_spec (prev + 1) (prev + bz b)) as [Q|Q]; f_equal; destruct b; cbn [bz] in *; lia. }
        rewrite En, I1. exists (t :: suf'). split; [now rewrite <- app_assoc|]. cbn [map]. rewrite (kinds_cons _ _ _ _ K), I2. split; [reflexivity|]. rewrite !(locs_cons _ t _ _ K), I3. split; [reflexivity|].
        rewrite !(others_cons _ t _ _ K), I4. split; [reflexivity|]. constructor; auto.
    + rewrite get_tags_kind, K, (kinds_skip _ _ _ K). destruct (IH (pre ++ [t]) s b prev E' W) as (suf' & I1 & I2 & I3 & I4 & I5). rewrite El in I1. rewrite I1.
      exists (t :: suf'). split; [now rewrite <- app_assoc|]. cbn [map]. rewrite (kinds_skip _ _ _ K), I2. split; [reflexivity|].
      cbn [tag_locs flat_map others filter]. rewrite K. fold (tag_locs (s_prefix s) suf'). fold (tag_locs (s_prefix s) suf). fold (others (s_prefix s) suf'). fold (others (s_prefix s) suf). rewrite I3, I4. repeat split; auto; constructor; auto.
Qed.

(** A new source tag between [a] and [b]. *)
Lemma place_tag s a b name ds knew loc sep v start : wf s -> ts_data (s_tags s) = a ++ b -> name = s_prefix s ++ ds -> Forall (fun c => is_digit c = true) ds ->
  kind (s_prefix s) name = Some knew -> start = Z.of_nat (length (kinds (s_prefix s) (map t_name a))) ->
  exists s', (let! s1 := insert_tag s (length a) name loc sep v in dedup start s1) = Ok s' /\
    kinds (s_prefix s) (names s') = kinds (s_prefix s) (map t_name a) ++ knew :: dd false (number_of (last_num (-1) (kinds (s_prefix s) (map t_name a))) knew) (kinds (s_prefix s) (map t_name b)) /\
    tag_locs (s_prefix s) (ts_data (s_tags s')) = tag_locs (s_prefix s) a ++ loc :: tag_locs (s_prefix s) b /\
    map key (others (s_prefix s) (ts_data (s_tags s'))) = map key (others (s_prefix s) (ts_data (s_tags s))) /\
    wf s' /\ s_lists s' = s_lists s /\ s_patches s' = s_patches s.
Proof.
  intros W E En Hd K ->. assert (V : valid_tag_name name = true) by (rewrite En, prefix_eq; now apply valid_new). unfold insert_tag, new_tag. rewrite V. cbn [bind].
  set (item := mk_tag name loc sep no_comments v [] []).
  destruct (insert_keys (s_tags s) (length a) item) as (ts & Ei & Ek); [rewrite E, app_length; lia|]. rewrite Ei. cbn [bind].
  rewrite E in Ek. unfold inserted in Ek. rewrite map_app, firstn_app, skipn_app, map_length, Nat.sub_diag, firstn_all2, skipn_all2 in Ek by (rewrite map_length; lia). cbn [firstn skipn app] in Ek. rewrite app_nil_r in Ek.
  apply map_eq_app in Ek as (a' & r & Ed & Ea & Er). apply map_eq_cons in Er as (t' & b' & -> & Et & Eb).
  set (s1 := with_tags ts s).
  assert (Na : map t_name a' = map t_name a) by (now apply keys_names). assert (Nb : map t_name b' = map t_name b) by (now apply keys_names).
  assert (Nt : t_name t' = name) by exact (f_equal t_name Et). assert (Vt : t_value t' = loc) by exact (f_equal t_value Et).
  assert (La : length a' = length a) by (rewrite <- (map_length t_name a'), Na; apply map_length).
  assert (Tn : tag_name name). { rewrite En, prefix_eq. now apply source_tag_name. }
  assert (W1 : wf s1). { split; [apply W|]. unfold names, s1. cbn [with_tags s_tags]. rewrite Ed, map_app. cbn [map]. rewrite Na, Nb, Nt. destruct W as [_ W]. unfold names in W. rewrite E, map_app in W. apply Forall_app in W as [W2 W3]. apply Forall_app. split; auto. }
  unfold dedup. assert (G : get_tags s1 = get_tags_from (s_prefix s) 0 (-1) (map t_name a) ++
      mk_ts name (implicit_of (last_num (-1) (kinds (s_prefix s) (map t_name a))) knew) (length a) ::
      get_tags_from (s_prefix s) (S (length a)) (number_of (last_num (-1) (kinds (s_prefix s) (map t_name a))) knew) (map t_name b)).
  { unfold get_tags, s1. cbn [with_tags s_tags s_prefix s_patches]. fold (s_prefix s). change (s_prefix (with_tags ts s)) with (s_prefix s). rewrite Ed, map_app. cbn [map]. rewrite Na, Nb, Nt, get_tags_app, (get_tags_cons _ _ _ _ _ _ K), map_length. reflexivity. }
  rewrite G. set (g1 := get_tags_from (s_prefix s) 0 (-1) (map t_name a)). set (t0 := mk_ts _ _ _). set (g2 := get_tags_from _ _ _ _).
  assert (Lg : length g1 = length (kinds (s_prefix s) (map t_name a))) by apply get_tags_length.
  assert (Cl : clamp_index (g1 ++ t0 :: g2) (Z.of_nat (length (kinds (s_prefix s) (map t_name a)))) = length g1).
  { unfold clamp_index. rewrite (proj2 (Z.ltb_ge _ 0)) by lia. rewrite app_length. cbn [length]. lia. }
  rewrite Cl, skipn_app, skipn_all, Nat.sub_diag. cbn [skipn app].
  assert (M : match g1 ++ t0 :: g2 with [] => Ok s1 | _ :: _ => Ok (dedup_from s1 (ts_number t0) g2) end = Ok (dedup_from s1 (ts_number t0) g2)) by (destruct g1; reflexivity).
  rewrite M. clear M.
  assert (Tnum : ts_number t0 = (number_of (last_num (-1) (kinds (s_prefix s) (map t_name a))) knew + bz false)%Z).
  { unfold ts_number, t0. cbn [ts_implicit ts_name]. destruct knew as [n|]; cbn [implicit_of number_of bz]; [|lia]. rewrite (kind_explicit_number _ _ _ K). lia. }
  rewrite Tnum. destruct (dedup_from_spec b' (a' ++ [t']) s1 false (number_of (last_num (-1) (kinds (s_prefix s) (map t_name a))) knew)) as (suf & D1 & D2 & D3 & D4 & D5); auto.
  { unfold s1. cbn [with_tags s_tags]. now rewrite Ed, <- app_assoc. }
  change (s_prefix s1) with (s_prefix s) in *. rewrite app_length, La, Nb in D1. cbn [length] in D1. rewrite Nat.add_1_r in D1. fold g2 in D1. rewrite D1.
  eexists. split; [reflexivity|]. unfold names. cbn [with_tags s_tags ts_data s_lists s_patches]. rewrite <- app_assoc. cbn [app]. rewrite !map_app. cbn [map].
  rewrite kinds_app, Na, Nt, (kinds_cons _ _ _ _ K), D2, Nb. split; [reflexivity|].
  rewrite tag_locs_app, (locs_cons _ t' knew) by (now rewrite Nt). rewrite D3, Vt. rewrite (keys_locs _ a' a) by auto. rewrite (keys_locs _ b' b) by auto. split; [reflexivity|].
  rewrite others_app, (others_cons _ t' knew) by (now rewrite Nt). rewrite D4, E, others_app, !map_app, (keys_others _ a' a), (keys_others _ b' b) by auto. split; [reflexivity|].
  split; [|auto]. split; [apply W|]. unfold names. cbn [with_tags s_tags ts_data]. rewrite <- ?app_assoc. cbn [app]. rewrite map_app. cbn [map]. rewrite Na, Nt. destruct W as [_ W]. unfold names in W. rewrite E, map_app in W. apply Forall_app in W as [W2 W3].
  apply Forall_app. split; auto.
Qed.
End Uni.
