(** Sources: what insertion, deletion and changes of a location leave alone. *)
From Coq Require Import Ascii String.
From Coq Require Import NArith ZArith List Bool Lia Sorting.Sorted.
From Verif Require Import PyStr PyStrFacts Regex RegexFacts M_constants M_value M_macro_definitions M_conditions M_tags M_sourcelist M_sources Spec_sections Spec_tags Spec_sources
  P_evr P_value P_tags P_tags4 P_tags5 P_sources P_sources2 P_sources3 P_sources4 P_sources5 P_sources6 P_sources7.
Import ListNotations.
Open Scope N_scope.

Section Uni.
Context {U : Unicode}.
(** Names of new tags. *)
Lemma digits_after s name ds : source_name (source_word s) name ds -> ds <> [] -> number_digits name None = match ds with c :: _ => if c =? ZERO then length ds else 1%nat | [] => 0%nat end.
Proof.
  intros Hs Nd. rewrite word_prefix in Hs. unfold number_digits. rewrite (source_extract _ _ _ Hs Nd). destruct ds; auto.
Qed.
Definition name_after (s : sources) (name : str) (number : Z) (ds : str) : str :=
  s_prefix s ++ match ds with [] => [] | c :: _ => dec_pad (if c =? ZERO then length ds else 1) (Z.to_N number) end.
Lemma sep_aligned s rname rsep name r new sep : sep = (let diff := (Z.of_nat (length rname) - Z.of_nat (length name))%Z in
     if (0 <=? diff)%Z then rsep ++ repeat SPC (Z.to_nat diff) else match slice_to rsep diff with [] => [COLON] | x => x end) ->
  t_name r = rname -> t_separator r = rsep -> t_name new = name -> t_separator new = sep -> s_prefix s = s_prefix s -> aligned r new.
Proof.
  intros E Er1 Er2 En1 En2 _. unfold aligned. rewrite Er1, Er2, En1, En2. cbn zeta in *. destruct (Z.leb_spec 0 (Z.of_nat (length rname) - Z.of_nat (length name))) as [L|L].
  - left. rewrite E, app_length, repeat_length. split; [lia|eauto].
  - right. unfold slice_to in E. rewrite (proj2 (Z.ltb_lt _ 0)) in E by lia.
    set (n := (length rsep - Z.to_nat (- (Z.of_nat (length rname) - Z.of_nat (length name))))%nat) in *.
    destruct (firstn n rsep) as [|c x] eqn:F.
    + right. split; auto. destruct rsep as [|y q]; [cbn; lia|]. destruct n eqn:En; [|discriminate]. cbn [length] in *. lia.
    + left. rewrite <- F in E. assert (Hl : length sep = n). { rewrite E, firstn_length. lia. } split.
      * rewrite Hl. assert (0 < n)%nat by (destruct n; [discriminate|lia]). lia.
      * split; [rewrite E, F; discriminate|]. exists (skipn n rsep). rewrite E. symmetry. apply firstn_skipn.
Qed.
Lemma format_after s t last kd number : caseless_digits -> tag_name (t_name t) -> kind (s_prefix s) (t_name t) = Some kd -> In kd (kinds (s_prefix s) (names s)) ->
  forall name sep, tag_format s (t_name t) (t_separator t) (implicit_of last kd) number None = (name, sep) ->
  forall loc v cs, let new := mk_tag name loc sep cs v [] [] in
  aligned t new /\ exists ds, source_name (source_word s) (t_name t) ds /\ (kd = None <-> ds = []) /\ name = name_after s (t_name t) number ds.
Proof.
  intros C T K Hin name sep F loc v cs new. rewrite prefix_eq in K. destruct (kind_source _ _ _ C T K) as (ds & Hs & Hk). rewrite <- prefix_eq in K.
  unfold tag_format in F. set (suffix := if _ || _ then _ else _) in F.
  assert (S : s_prefix s ++ suffix = name_after s (t_name t) number ds).
  { subst suffix. unfold name_after. f_equal. destruct kd as [k|]; cbn [implicit_of].
    - rewrite (detect_explicit s k Hin). cbn [orb]. assert (Nd : ds <> []) by (intros Q; apply Hk in Q; discriminate).
      rewrite (digits_after s _ ds) by auto. destruct ds as [|c ds]; [congruence|]. destruct (c =? ZERO); reflexivity.
    - rewrite (proj1 Hk eq_refl). cbn [number_digits Nat.eqb]. now rewrite orb_true_r. }
  rewrite S in F. split; [|exists ds; split; auto; split; auto].
  - apply (sep_aligned s (t_name t) (t_separator t) (name_after s (t_name t) number ds) t new sep); auto.
    + cbn zeta. destruct (0 <=? _)%Z; injection F as <- <-; reflexivity.
    + destruct (0 <=? _)%Z; injection F as <- <-; reflexivity.
  - destruct (0 <=? _)%Z; injection F as <- <-; reflexivity.
Qed.
Lemma tag_names_app s a b : wf s -> ts_data (s_tags s) = a ++ b -> Forall tag_name (map t_name a) /\ Forall tag_name (map t_name b).
Proof. intros [_ W] E. unfold names in W. rewrite E, map_app in W. now apply Forall_app in W. Qed.
(** Renumbering. *)
Lemma dedup_from_keeps : forall suf pre s n0 last, ts_data (s_tags s) = pre ++ suf -> wf s ->
  exists suf', dedup_from s n0 (get_tags_from (s_prefix s) (length pre) last (map t_name suf)) = with_tags (mk_tags (pre ++ suf') (ts_remainder (s_tags s))) s /\
    Forall2 (renumbered s) suf suf'.
Proof.
  induction suf as [|t suf IH]; intros pre s n0 last E W.
  - exists []. split; [cbn [map get_tags_from dedup_from]; rewrite <- E; now destruct s as [[d r] ? ? ? ? ?]|constructor].
  - destruct (tag_names_app s pre (t :: suf) W E) as [Wp Wt]. inversion Wt as [|? ? Wt' Ws]; subst. cbn [map].
    assert (E' : ts_data (s_tags s) = (pre ++ [t]) ++ suf) by (now rewrite E, <- app_assoc).
    assert (El : length (pre ++ [t]) = S (length pre)) by (rewrite app_length; cbn; lia).
    assert (Skip : forall n1 last1, exists suf', dedup_from s n1 (get_tags_from (s_prefix s) (S (length pre)) last1 (map t_name suf)) = with_tags (mk_tags (pre ++ suf') (ts_remainder (s_tags s))) s /\ Forall2 (renumbered s) (t :: suf) suf').
    { intros n1 last1. destruct (IH (pre ++ [t]) s n1 last1 E' W) as (suf' & I1 & I2). rewrite El in I1. exists (t :: suf'). split; [rewrite I1, <- app_assoc; reflexivity|]. constructor; auto. now left. }
    destruct (kind (s_prefix s) (t_name t)) as [k|] eqn:K.
    + rewrite (get_tags_cons _ _ k) by auto. cbn [dedup_from]. destruct (_ =? n0)%Z; [|apply Skip].
      destruct k as [n|]; cbn [implicit_of number_of ts_implicit ts_index ts_name]; [|apply Skip].
      rewrite E, nth_error_mid. destruct (tag_format s (t_name t) (t_separator t) None (n0 + 1) None) as [name sep] eqn:F.
      assert (Hin : In (Some n) (kinds (s_prefix s) (names s))). { unfold names. rewrite E, map_app. cbn [map]. now apply kinds_in. }
      destruct (format_after s t 0 (Some n) (n0 + 1) (proj1 W) Wt' K Hin name sep F (t_value t) true no_comments) as (Al & ds & Hs & Hk & En).
      assert (Nd : ds <> []) by (intros Q; apply Hk in Q; discriminate).
      assert (Sf : exists ds', name = s_prefix s ++ ds' /\ ds' <> [] /\ Forall (fun c => is_digit c = true) ds').
      { rewrite En. unfold name_after. eexists. split; [reflexivity|]. destruct ds as [|c ds]; [congruence|]. split; apply int_pad. }
      destruct Sf as (ds' & En' & Nd' & Hd').
      assert (Er : rename_at (length pre) name sep s = with_tags (mk_tags ((pre ++ [rename name sep t]) ++ suf) (ts_remainder (s_tags s))) s).
      { unfold rename_at. rewrite E, update_at_app, <- app_assoc. reflexivity. }
      rewrite Er. set (s1 := with_tags _ s).
      assert (Tn : tag_name name) by (rewrite En', prefix_eq; now apply source_tag_name).
      assert (W1 : wf s1). { split; [apply W|]. unfold names, s1. cbn [s_tags with_tags ts_data]. rewrite !map_app. apply Forall_app. split; auto. apply Forall_app. split; auto. cbn [map rename t_name]. repeat constructor; auto. }
      destruct (IH (pre ++ [rename name sep t]) s1 (explicit_number name) n eq_refl W1) as (suf' & I1 & I2). rewrite app_length in I1. cbn [length] in I1. rewrite Nat.add_1_r in I1.
      change (s_prefix s1) with (s_prefix s) in I1. rewrite I1. exists (rename name sep t :: suf'). split; [unfold s1; cbn [s_tags with_tags ts_remainder]; rewrite <- app_assoc; reflexivity|].
      constructor; auto. right. exists ds, ds', sep. split; auto. split; auto. split; auto. split; auto. unfold rename. rewrite En' in Al |- *. split; [reflexivity|exact Al].
    + rewrite get_tags_kind, K. apply Skip.
Qed.
(** A new tag. *)
Lemma split_endif_up l : exists m k, split_endif l = (m, k) /\ l = m ++ k /\ up_to_endif m k.
Proof.
  pose proof (P_tags4.split_endif_spec l) as H. destruct (split_endif l) as [m k]. exists m, k. split; [reflexivity|]. destruct H as (E & H). split; [exact E|].
  assert (N : forall x, startswith x (lit "%endif") = false -> ~ endif_line x) by (intros x Hx Q; apply startswith_iff in Q; congruence).
  destruct H as [(-> & H)|(a & e & -> & He & H)]; [left; split; auto|right; exists a, e; split; auto; split; [now apply startswith_iff|]]; eapply Forall_impl; try exact H; auto.
Qed.
Lemma insert_tag_exact s a b name loc sep v s1 : ts_data (s_tags s) = a ++ b -> insert_tag s (length a) name loc sep v = Ok s1 ->
  exists b' r p, s1 = with_tags (mk_tags (a ++ mk_tag name loc sep (mk_comments [] p) v [] [] :: b') r) s /\ map key b' = map key b /\
    gives_lines b (ts_remainder (s_tags s)) p b' r.
Proof.
  intros E. unfold insert_tag, new_tag. destruct (valid_tag_name name); [|discriminate]. cbn [bind]. unfold tag_insert. rewrite E.
  rewrite (proj2 (Z.ltb_ge (Z.of_nat (length (a ++ b))) (Z.of_nat (length a)))) by (rewrite app_length; lia).
  destruct (Z.ltb_spec (Z.of_nat (length a)) (Z.of_nat (length (a ++ b)))) as [L|L].
  - rewrite py_index_nonneg by lia. destruct b as [|u b]; [rewrite app_nil_r in L; lia|]. rewrite nth_error_mid. destruct (split_endif_up (t_preceding u)) as (moved & kept & -> & Sp & Up).
    cbn [bind]. intros Q. injection Q as <-. exists (with_preceding kept u :: b), (ts_remainder (s_tags s)), moved. split; [|split; [reflexivity|]].
    + rewrite update_at_app. unfold py_insert, clamp_index. rewrite (proj2 (Z.ltb_ge (Z.of_nat (length a)) 0)) by lia.
      replace (Z.to_nat (Z.min (Z.of_nat (length (a ++ with_preceding kept u :: b))) (Z.of_nat (length a)))) with (length a) by (rewrite app_length; cbn; lia).
      rewrite firstn_app, skipn_app, Nat.sub_diag, firstn_all, skipn_all. cbn [firstn skipn app]. rewrite app_nil_r. unfold with_preceding, t_preceding, no_comments. cbn. now rewrite app_nil_r.
    + split; [reflexivity|]. exists kept. auto.
  - destruct b; [|rewrite app_length in L; cbn in L; lia]. destruct (split_endif_up (ts_remainder (s_tags s))) as (moved & kept & -> & Sp & Up).
    cbn [bind]. intros Q. injection Q as <-. exists [], kept, moved. split; [|split; [reflexivity|split; auto]].
    unfold py_insert, clamp_index. rewrite (proj2 (Z.ltb_ge _ 0)) by lia. rewrite !app_nil_r in *. replace (Z.to_nat (Z.min _ _)) with (length a) by lia.
    rewrite firstn_all, skipn_all. unfold with_preceding, t_preceding, no_comments. reflexivity.
Qed.
Lemma added_one s a b name ds knew loc sep v k s1 s' : wf s -> ts_data (s_tags s) = a ++ b -> name = s_prefix s ++ ds -> Forall (fun c => is_digit c = true) ds ->
  kind (s_prefix s) name = Some knew -> k = length (kinds (s_prefix s) (map t_name a)) ->
  insert_tag s (length a) name loc sep v = Ok s1 -> dedup (Z.of_nat k) s1 = Ok s' ->
  exists p, tag_added s a b loc (mk_tag name loc sep (mk_comments [] p) v [] []) s'.
Proof.
  intros W E En Hd K -> I D. destruct (insert_tag_exact s a b name loc sep v s1 E I) as (b1 & r & p & -> & Kb & Ab). exists p.
  assert (Nb : map t_name b1 = map t_name b) by (now apply keys_names).
  set (new := mk_tag name loc sep (mk_comments [] p) v [] []) in *. set (s1 := with_tags _ s) in *.
  destruct (tag_names_app s a b W E) as [Wa Wb].
  assert (Tn : tag_name name) by (rewrite En, prefix_eq; now apply source_tag_name).
  assert (W1 : wf s1). { split; [apply W|]. unfold names, s1. cbn [with_tags s_tags ts_data]. rewrite map_app. cbn [map]. rewrite Nb. apply Forall_app. split; auto. }
  unfold dedup in D. cbn zeta in D.
  assert (G : get_tags s1 = get_tags_from (s_prefix s) 0 (-1) (map t_name a) ++ mk_ts name (implicit_of (last_num (-1) (kinds (s_prefix s) (map t_name a))) knew) (length a) ::
      get_tags_from (s_prefix s) (S (length a)) (number_of (last_num (-1) (kinds (s_prefix s) (map t_name a))) knew) (map t_name b1)).
  { unfold get_tags, s1. cbn [with_tags s_tags ts_data]. change (s_prefix (with_tags _ s)) with (s_prefix s). rewrite map_app. cbn [map t_name new]. rewrite get_tags_app, (get_tags_cons _ _ _ _ _ _ K), map_length. reflexivity. }
  rewrite G in D. set (g1 := get_tags_from (s_prefix s) 0 (-1) (map t_name a)) in *. set (t0 := mk_ts _ _ _) in *. set (g2 := get_tags_from _ (S _) _ _) in *.
  assert (Lg : length g1 = length (kinds (s_prefix s) (map t_name a))) by apply get_tags_length.
  assert (Cl : clamp_index (g1 ++ t0 :: g2) (Z.of_nat (length (kinds (s_prefix s) (map t_name a)))) = length g1).
  { unfold clamp_index. rewrite (proj2 (Z.ltb_ge _ 0)) by lia. rewrite app_length. cbn [length]. lia. }
  rewrite Cl, skipn_app, skipn_all, Nat.sub_diag in D. cbn [skipn app] in D.
  assert (M : match g1 ++ t0 :: g2 with [] => Ok s1 | _ :: _ => Ok (dedup_from s1 (ts_number t0) g2) end = Ok (dedup_from s1 (ts_number t0) g2)) by (destruct g1; reflexivity).
  rewrite M in D. injection D as D.
  destruct (dedup_from_keeps b1 (a ++ [new]) s1 (ts_number t0) (number_of (last_num (-1) (kinds (s_prefix s) (map t_name a))) knew)) as (suf & D1 & D2); auto.
  { unfold s1. cbn [with_tags s_tags ts_data]. now rewrite <- app_assoc. }
  rewrite app_length in D1. cbn [length] in D1. rewrite Nat.add_1_r in D1. change (s_prefix s1) with (s_prefix s) in D1. fold g2 in D1. rewrite D1 in D. rewrite <- D.
  split; auto. split; [reflexivity|]. split; [repeat split; reflexivity|].
  exists b1, suf. split; [exact Ab|]. split; [exact D2|]. cbn [with_tags s_tags ts_data]. now rewrite <- app_assoc.
Qed.
(** C90: next to a source. *)
Lemma beside s a r b kd plus number loc k s1 s' : wf s -> ts_data (s_tags s) = a ++ r :: b -> kind (s_prefix s) (t_name r) = Some kd -> (plus = 0 \/ plus = 1)%nat -> (0 <= number)%Z ->
  k = (length (kinds (s_prefix s) (map t_name a)) + plus)%nat -> forall last name sep,
  tag_format s (t_name r) (t_separator r) (implicit_of last kd) number None = (name, sep) ->
  insert_tag s (length a + plus) name loc sep (t_valid r) = Ok s1 -> dedup (Z.of_nat k) s1 = Ok s' ->
  exists new, tag_added s (if Nat.eqb plus 0 then a else a ++ [r]) (if Nat.eqb plus 0 then r :: b else b) loc new s' /\ named_after s r new number.
Proof.
  intros W E K Hp Hn -> last name sep F I D. destruct (tag_names_app s a (r :: b) W E) as [_ Wt]. inversion Wt as [|? ? Tr _]; subst.
  assert (Hin : In kd (kinds (s_prefix s) (names s))). { unfold names. rewrite E, map_app. cbn [map]. now apply kinds_in. }
  pose proof (format_kind s (t_name r) (t_separator r) last kd number (proj1 W) Tr K Hin Hn) as FK. rewrite F in FK. cbn [fst] in FK. destruct FK as ((ds & Ed & Hd) & Kn & _).
  assert (A : exists p, tag_added s (if Nat.eqb plus 0 then a else a ++ [r]) (if Nat.eqb plus 0 then r :: b else b) loc (mk_tag name loc sep (mk_comments [] p) (t_valid r) [] []) s').
  { refine (added_one s _ _ name ds _ loc sep (t_valid r) _ s1 s' W _ Ed Hd Kn _ _ D).
    - destruct Hp as [->| ->]; cbn [Nat.eqb]; rewrite E; auto. now rewrite <- app_assoc.
    - destruct Hp as [->| ->]; cbn [Nat.eqb]; [rewrite Nat.add_0_r; reflexivity|]. rewrite map_app, kinds_app, app_length. cbn [map]. now rewrite (kinds_cons _ _ _ _ K).
    - destruct Hp as [->| ->]; cbn [Nat.eqb]; [now rewrite Nat.add_0_r in I|]. rewrite app_length. exact I. }
  destruct A as (p & A). eexists. split; [exact A|].
  destruct (format_after s r last kd number (proj1 W) Tr K Hin name sep F loc (t_valid r) (mk_comments [] p)) as (Al & dr & Hs & _ & En).
  exists dr. repeat (split; auto).
Qed.
(** The entry above. *)
Lemma entry_exact s l1 sl l2 j loc : s_lists s = l1 ++ sl :: l2 -> (j <= length (sl_data sl))%nat -> entry_added s (length l1) j loc valid_above (insert_entry s (length l1) j loc).
Proof.
  intros E Hj. split; [reflexivity|]. unfold insert_entry. rewrite E, update_at_app.
  exists l1, sl, l2, (firstn j (sl_data sl)), (skipn j (sl_data sl)). eexists. split; auto. split; auto. split; [symmetry; apply firstn_skipn|]. split; [rewrite firstn_length; lia|]. split; [reflexivity|].
  cbn [with_lists s_lists]. do 2 f_equal. f_equal. unfold py_insert, clamp_index. rewrite (proj2 (Z.ltb_ge _ 0)) by lia. replace (Z.to_nat (Z.min _ _)) with j by lia. do 2 f_equal.
  unfold no_comments. f_equal. unfold valid_above. pose proof (firstn_skipn j (sl_data sl)) as Ej. assert (Lj : length (firstn j (sl_data sl)) = j) by (rewrite firstn_length; lia).
  set (c := firstn j (sl_data sl)) in *. set (d := skipn j (sl_data sl)) in *. rewrite <- Ej, <- Lj. clear. destruct c as [|e0 c _] using rev_ind.
  - cbn [rev app length]. destruct d as [|e d _] using rev_ind; [reflexivity|]. rewrite rev_app_distr. cbn [rev app]. unfold py_index. rewrite app_length. cbn [length].
    change (Z.of_nat 0 - 1)%Z with (-1)%Z. cbn [Z.leb Z.compare andb]. change (-1 <? 0)%Z with true. cbn [andb]. rewrite (proj2 (Z.leb_le 0 _)) by lia.
    replace (Z.to_nat _) with (length d) by lia. now rewrite nth_error_mid.
  - rewrite rev_app_distr. cbn [rev app]. replace (Z.of_nat (length (c ++ [e0])) - 1)%Z with (Z.of_nat (length c)) by (rewrite app_length; cbn; lia). rewrite py_index_nonneg by (rewrite !app_length; cbn; lia).
    rewrite <- app_assoc. cbn [app]. now rewrite nth_error_mid.
Qed.
Lemma items_tags_last s a r b : ts_data (s_tags s) = a ++ r :: b -> (length (get_items s) = length (kinds (s_prefix s) (map t_name a)) + 1 -> kind (s_prefix s) (t_name r) <> None -> length (kinds (s_prefix s) (map t_name a)) + 1 = length (ks s))%nat.
Proof.
  intros E L K. unfold ks, names. rewrite E, map_app, kinds_app, app_length. cbn [map]. destruct (kind (s_prefix s) (t_name r)) as [kd|] eqn:Q; [|congruence]. rewrite (kinds_cons _ _ _ _ Q). cbn [length].
  rewrite items_length, locations_view, app_length, tag_locs_length, E, map_app, kinds_app, app_length in L. cbn [map] in L. rewrite (kinds_cons _ _ _ _ Q) in L. cbn [length] in L. lia.
Qed.
Lemma item_number_nonneg s a r b kd : wf s -> ts_data (s_tags s) = a ++ r :: b -> kind (s_prefix s) (t_name r) = Some kd -> (0 <= number_of (last_num (-1) (kinds (s_prefix s) (map t_name a))) kd)%Z.
Proof.
  intros W E K. assert (N : nonneg (kinds (s_prefix s) (map t_name a) ++ kd :: kinds (s_prefix s) (map t_name b))).
  { pose proof (wf_nonneg s W) as N. unfold ks, names in N. rewrite E, map_app, kinds_app in N. cbn [map] in N. now rewrite (kinds_cons _ _ _ _ K) in N. }
  apply nonneg_app in N as [N1 N2]. destruct kd as [m|]; cbn [number_of]; [apply N2; now left|]. pose proof (number_nonneg _ (-1) N1). lia.
Qed.
Theorem insert_below s i loc s' x : readable s -> insert s (Z.of_nat i) loc = Ok s' -> nth_error (get_items s) i = Some x ->
  match i_place x with
  | InTags j => exists a r b new, length a = j /\ tag_added s a (r :: b) loc new s' /\ named_after s r new (i_number x)
  | InList l j => entry_added s l j loc valid_above s'
  end.
Proof.
  intros W I Hx. assert (Hi : (i < length (get_items s))%nat) by (apply nth_error_Some; congruence). unfold insert in I. destruct (_ && _); [discriminate|]. cbn zeta in I.
  rewrite (proj2 (Z.ltb_ge (Z.of_nat (length (get_items s))) (Z.of_nat i))) in I by lia. rewrite (proj2 (Z.eqb_neq (Z.of_nat i) (Z.of_nat (length (get_items s))))) in I by lia.
  rewrite py_index_nonneg, Hx in I by auto. cbn [bind] in I. assert (Ne : get_items s <> []) by (intros Q; rewrite Q in Hi; cbn in Hi; lia).
  destruct (get_items s) as [|x0 items] eqn:Eit; [congruence|]. rewrite <- Eit in *.
  destruct (items_nth s _ _ Hx) as [(a & r & b & kd & E & K & La & ->)|(l1 & sl & l2 & j & E & Hj & -> & Ek)]; cbn [i_place i_number] in *.
  - rewrite E, nth_error_mid in I. unfold get_tags in I. rewrite E, map_app in I. cbn [map] in I.
    pose proof (find_index_tag (s_prefix s) (map t_name a) (t_name r) (map t_name b) kd 0 (-1) K) as Fi. rewrite map_length in Fi. cbn [Nat.add] in Fi. rewrite Fi in I. cbn [ts_implicit] in I.
    pose proof (item_number_nonneg s a r b kd W E K) as Hn. set (last := last_num (-1) (kinds (s_prefix s) (map t_name a))) in *.
    destruct (tag_format _ _ _ _ _ _) as [name sep] eqn:F. destruct (insert_tag _ _ _ _ _ _) as [s1|] eqn:It; [|discriminate]. cbn [bind] in I.
    destruct (beside s a r b kd 0 (number_of last kd) loc i s1 s' W E K (or_introl eq_refl) Hn ltac:(lia) last name sep F It I) as (new & B1 & B2). cbn [Nat.eqb] in B1. exists a, r, b, new. auto.
  - injection I as <-. rewrite Nat.add_0_r. apply (entry_exact s l1 sl l2); auto. lia.
Qed.
Theorem insert_last s i loc s' x : readable s -> insert s (Z.of_nat i) loc = Ok s' -> (length (get_items s) <= i)%nat -> nth_error (get_items s) (length (get_items s) - 1) = Some x ->
  match i_place x with
  | InTags j => exists a r b new, length a = j /\ tag_added s (a ++ [r]) b loc new s' /\ named_after s r new (i_number x + 1)
  | InList l j => entry_added s l (S j) loc valid_above s'
  end.
Proof.
  intros W I Hi Hx. unfold insert in I. destruct (_ && _); [discriminate|]. cbn zeta in I.
  assert (Ez : (if (Z.of_nat (length (get_items s)) <? Z.of_nat i)%Z then Z.of_nat (length (get_items s)) else Z.of_nat i) = Z.of_nat (length (get_items s))) by (destruct (Z.ltb_spec (Z.of_nat (length (get_items s))) (Z.of_nat i)); lia).
  rewrite Ez, Z.eqb_refl, Hx in I. cbn [bind] in I. assert (Ne : get_items s <> []) by (intros Q; rewrite Q in Hx; discriminate).
  assert (Lp : (0 < length (get_items s))%nat) by (destruct (get_items s); [congruence|cbn; lia]).
  destruct (get_items s) as [|x0 items] eqn:Eit; [congruence|]. rewrite <- Eit in *.
  destruct (items_nth s _ _ Hx) as [(a & r & b & kd & E & K & La & ->)|(l1 & sl & l2 & j & E & Hj & -> & Ek)]; cbn [i_place i_number] in *.
  - rewrite E, nth_error_mid in I. unfold get_tags in I. rewrite E, map_app in I. cbn [map] in I.
    pose proof (find_index_tag (s_prefix s) (map t_name a) (t_name r) (map t_name b) kd 0 (-1) K) as Fi. rewrite map_length in Fi. cbn [Nat.add] in Fi. rewrite Fi in I. cbn [ts_implicit] in I.
    pose proof (item_number_nonneg s a r b kd W E K) as Hn. set (last := last_num (-1) (kinds (s_prefix s) (map t_name a))) in *.
    destruct (tag_format _ _ _ _ _ _) as [name sep] eqn:F. destruct (insert_tag _ _ _ _ _ _) as [s1|] eqn:It; [|discriminate]. cbn [bind] in I.
    destruct (beside s a r b kd 1 (number_of last kd + 1) loc (length (get_items s)) s1 s' W E K (or_intror eq_refl) ltac:(lia) ltac:(lia) last name sep F It I) as (new & B1 & B2). cbn [Nat.eqb] in B1. exists a, r, b, new. auto.
  - injection I as <-. rewrite Nat.add_1_r. apply (entry_exact s l1 sl l2); auto.
Qed.
(** The first source or patch. *)
Lemma cap_letters letters x : Forall2 same_letter (lit "source") letters -> capitalize (letters ++ x) = lit "Source" ++ lower x.
Proof.
  intros Hl. change (lit "source") with [115; 111; 117; 114; 99; 101] in Hl. inversion Hl as [|a0 c q l Hc Hq E1 E2]; subst. cbn [app capitalize]. rewrite lower_app.
  assert (K : forall q l, Forall2 same_letter q l -> Forall (fun a => 97 <= a <= 122 /\ a <> 105 /\ a <> 115) q -> lower l = q).
  { clear. induction 1 as [|a c q l Hac F IH]; intros A; auto. inversion A as [|? ? (A1 & A2 & A3) A']; subst. unfold lower in *. cbn [flat_map].
    rewrite (lower_letter a c A1 A2 A3 Hac), IH; auto. }
  apply K in Hq; [|repeat constructor; (lia || discriminate)]. rewrite Hq.
  assert (title_c c = [83]) as ->. { destruct Hc as [-> | [[_ ->]| [[? _]| [[_ ->]|[? _]]]]]; try discriminate; reflexivity. } reflexivity.
Qed.
Lemma source_regex_iff n : caseless_digits -> tag_name n -> (re_match source_regex (capitalize n) <> None <-> named_source n).
Proof.
  intros C (w & letters & arg & Hw & Hl & Ha & ->). split.
  - destruct (re_match source_regex _) as [m|] eqn:E; [intros _|congruence]. apply re_match_sound in E. unfold source_regex in E. apply Match_Seq in E as (s1 & M & _). apply Match_word in M as (M & _). cbn [rest] in M.
    pose proof (tag_names_lower w) as An. destruct w as [|a w]; [exfalso; revert Hw; clear; cbn; intuition discriminate|]. inversion Hl as [|? c ? l Hc Hl']; subst. cbn [app capitalize] in M.
    destruct (title_head a c (An a Hw (or_introl eq_refl)) Hc) as (h & t & Eh & D). rewrite Eh in M. change (lit "Source") with [83; 111; 117; 114; 99; 101] in M. cbn [app] in M. injection M as -> M.
    destruct D as [[D ->]|D]; [|lia]. cbn [app] in M. pose proof (An a Hw (or_introl eq_refl)) as Ha'.
    destruct (walk w arg (a :: w) C Ha [111; 117; 114; 99; 101] l (rest s1) Hl' (fun z Hz => An z Hw (or_intror Hz))) as (n' & l' & -> & F & Q); [repeat constructor; (lia || discriminate)|exact M|].
    apply Forall2_app_inv_l in Hl' as (x & y & F1 & F2 & ->). exists (c :: x), (y ++ arg). split; [cbn [app]; now rewrite <- app_assoc|]. change (lit "source") with (115 :: [111; 117; 114; 99; 101]). constructor; auto. now replace 115 with a by lia.
  - intros (l' & x & E & Hl'). rewrite E, (cap_letters l' x Hl'). intros N. rewrite re_match_None in N. eapply N. unfold source_regex. eapply MSeq; [apply (L_word (lit "Source") [])|]. apply (L_star true is_digit [] []). reflexivity.
Qed.
Lemma last_source_spec l : caseless_digits -> Forall tag_name (map t_name l) ->
  match last_source (map t_name l) with
  | None => Forall (fun t => ~ named_source (t_name t)) l
  | Some i => exists a r b, l = a ++ r :: b /\ length a = i /\ named_source (t_name r) /\ Forall (fun t => ~ named_source (t_name t)) b
  end.
Proof.
  intros C F. unfold last_source. rewrite map_length. set (f := fun i => match nth_error (map t_name l) i with Some _ => _ | None => _ end).
  assert (P : forall i t, nth_error l i = Some t -> (f i = true <-> named_source (t_name t))).
  { intros i t Q. unfold f. rewrite nth_error_map, Q. cbn [option_map]. assert (T : tag_name (t_name t)). { rewrite Forall_forall in F. apply F, in_map, (nth_error_In _ _ Q). }
    rewrite <- (source_regex_iff _ C T). destruct (re_match source_regex (capitalize (t_name t))); split; congruence. }
  destruct (rev (filter f (seq 0 (length l)))) as [|i r] eqn:E.
  - assert (E' : filter f (seq 0 (length l)) = []) by (rewrite <- (rev_involutive (filter _ _)), E; reflexivity). apply Forall_forall. intros t Ht Q. apply In_nth_error in Ht as (i & Ht).
    assert (In i (filter f (seq 0 (length l)))) as Hf; [|rewrite E' in Hf; destruct Hf]. apply filter_In. split; [apply in_seq; split; [lia|]; cbn; apply nth_error_Some; congruence|]. now apply (P i t).
  - assert (E' : filter f (seq 0 (length l)) = rev r ++ [i]) by (rewrite <- (rev_involutive (filter _ _)), E; reflexivity).
    assert (Hi : In i (filter f (seq 0 (length l)))) by (rewrite E'; apply in_or_app; right; now left). apply filter_In in Hi as [Hs Hf]. apply in_seq in Hs. cbn in Hs.
    destruct (nth_error l i) as [t|] eqn:Et; [|apply nth_error_None in Et; lia]. pose proof (proj1 (P i t Et) Hf) as Nt. apply nth_error_split in Et as (a & b & El & La). exists a, t, b. split; auto. split; auto. split; auto.
    apply Forall_forall. intros u Hu Q. apply In_nth_error in Hu as (j & Hj). assert (Hj' : nth_error l (S i + j) = Some u). { rewrite El, <- La. rewrite nth_error_app2 by lia. replace (S (length a) + j - length a)%nat with (S j) by lia. exact Hj. }
    pose proof (proj2 (P _ _ Hj') Q) as Fj. assert (Ls : (S i + j < length l)%nat) by (apply nth_error_Some; congruence).
    assert (Sp : seq 0 (length l) = seq 0 (S i) ++ seq (S i) (length l - S i)). { rewrite <- seq_app. f_equal. lia. }
    rewrite Sp, filter_app in E'. assert (Hin : In (S i + j)%nat (filter f (seq (S i) (length l - S i)))) by (apply filter_In; split; auto; apply in_seq; lia).
    destruct (filter f (seq (S i) (length l - S i))) as [|z y _] eqn:Ef using rev_ind; [destruct Hin|]. rewrite app_assoc in E'. apply app_inj_tail in E' as [_ E']. subst z.
    assert (In i (filter f (seq (S i) (length l - S i)))) as Hb by (rewrite Ef; apply in_or_app; right; now left). apply filter_In in Hb as [Hb _]. apply in_seq in Hb. lia.
Qed.
Lemma first_one s number loc s1 : wf s -> ks s = [] ->
  (let '(index, name, sep) := initial_setup s number in insert_tag s index name loc sep (last_valid s)) = Ok s1 -> first_added s loc number s1.
Proof.
  intros W K I.
  assert (Df : detect_implicit s = s_implicit s). { unfold detect_implicit. assert (get_tags s = []) as ->; auto. apply length_zero_iff_nil. rewrite tags_items, K. reflexivity. }
  assert (Base : forall a b name sep, ts_data (s_tags s) = a ++ b -> insert_tag s (length a) name loc sep (last_valid s) = Ok s1 -> exists p, tag_added s a b loc (mk_tag name loc sep (mk_comments [] p) (last_valid s) [] []) s1).
  { intros a b name sep E It. destruct (insert_tag_exact s a b name loc sep _ s1 E It) as (b1 & r & p & -> & Kb & Ab). exists p. split; auto. split; auto. split; [repeat split; reflexivity|].
    exists b1, b1. split; [exact Ab|]. split; [|reflexivity]. clear. induction b1; constructor; auto. now left. }
  assert (V : forall a b, ts_data (s_tags s) = a ++ b -> last_valid s = match rev (a ++ b) with t :: _ => t_valid t | [] => true end) by (intros a b E; unfold last_valid; now rewrite E).
  assert (End : (s_patches s = true -> Forall (fun t => ~ named_source (t_name t)) (ts_data (s_tags s))) -> (let '(index, name, sep) := initial_setup_base s number in insert_tag s index name loc sep (last_valid s)) = Ok s1 -> first_added s loc number s1).
  { intros No It. unfold initial_setup_base in It. assert (E : ts_data (s_tags s) = ts_data (s_tags s) ++ []) by (now rewrite app_nil_r).
    destruct (Base _ [] _ _ E It) as (p & A). exists (ts_data (s_tags s)), []. eexists. split; [exact A|]. split; [reflexivity|]. split; [now apply V|]. left. auto. }
  unfold initial_setup in I. destruct (s_patches s) eqn:Pa; [|apply End; auto; discriminate].
  pose proof (last_source_spec (ts_data (s_tags s)) (proj1 W) (proj2 W)) as L. destruct (last_source _) as [i|]; [|now apply End]. destruct L as (a & r & b & E & <- & Nr & Nb).
  rewrite E, nth_error_mid in I. destruct (tag_format _ _ _ _ _ _) as [name sep] eqn:F.
  assert (E' : ts_data (s_tags s) = (a ++ [r]) ++ b) by (now rewrite <- app_assoc). assert (La : length (a ++ [r]) = S (length a)) by (rewrite app_length; cbn; lia). rewrite <- La in I.
  destruct (Base _ _ _ _ E' I) as (p & A). exists (a ++ [r]), b. eexists. split; [exact A|]. unfold tag_format in F. rewrite Df in F. fold (first_name s number) in F.
  change (s_prefix s ++ (if s_implicit s || Nat.eqb (s_digits s) 0 then [] else format_number number (s_digits s))) with (first_name s number) in F.
  split; [destruct (0 <=? _)%Z; injection F as <- <-; reflexivity|]. split; [now apply V|]. right. split; auto. split; auto. exists a, r. split; auto. split; auto.
  set (z := (0 <=? Z.of_nat (length (t_name r)) - Z.of_nat (length (first_name s number)))%Z) in F.
  apply (sep_aligned s (t_name r) (t_separator r) (first_name s number) r _ sep); auto; cbn zeta; fold z; destruct z; injection F as <- <-; reflexivity.
Qed.
Theorem insert_first s i loc s' : readable s -> locations s = [] -> insert s (Z.of_nat i) loc = Ok s' ->
  (s_lists s = [] -> first_added s loc 0 s') /\ (s_lists s <> [] -> entry_added s (length (s_lists s) - 1) 0 loc (fun _ _ => true) s').
Proof.
  intros W L I. unfold insert in I. destruct (_ && _); [discriminate|]. cbn zeta in I. assert (Eit : get_items s = []) by (apply length_zero_iff_nil; now rewrite items_length, L).
  rewrite Eit in I. rewrite locations_view in L. apply app_eq_nil in L as [L1 L2].
  assert (K : ks s = []). { apply length_zero_iff_nil. unfold ks, names. now rewrite <- tag_locs_length, L1. }
  destruct (rev (s_lists s)) as [|sl r] eqn:Er.
  - assert (El : s_lists s = []) by (rewrite <- (rev_involutive (s_lists s)), Er; reflexivity). split; [intros _|congruence]. now apply first_one.
  - assert (El : s_lists s = rev r ++ [sl]) by (rewrite <- (rev_involutive (s_lists s)), Er; reflexivity). injection I as <-. split; [intros Q; rewrite Q in El; destruct (rev r); discriminate|]. intros _.
    split; [reflexivity|]. rewrite El in L2. unfold list_locs in L2. rewrite flat_map_app in L2. apply app_eq_nil in L2 as [_ L2]. cbn in L2. rewrite app_nil_r in L2. apply map_eq_nil in L2.
    exists (rev r), sl, [], [], []. eexists. split; auto. split; [rewrite El, app_length; cbn; lia|]. split; auto. split; auto. split; [reflexivity|]. cbn [with_lists s_lists rev]. now rewrite L2.
Qed.
Theorem insert_numbered_keeps s number loc s' k : readable s -> (0 <= number)%Z -> insert_numbered s number loc = Ok (s', k) ->
  first_added s loc number s' /\ k = 0%nat \/
  exists a r b new, (tag_added s a (r :: b) loc new s' \/ tag_added s (a ++ [r]) b loc new s') /\ named_after s r new number.
Proof.
  intros W Hn I. unfold insert_numbered in I. destruct (_ && _); [discriminate|]. destruct (get_tags s) as [|t0 l] eqn:G.
  - assert (K : ks s = []). { apply length_zero_iff_nil. rewrite <- tags_items, G. reflexivity. }
    pose proof (initial_spec s number loc (last_valid s) W K Hn) as Is. pose proof (first_one s number loc) as Fo.
    destruct (initial_setup s number) as [[index name] sep]. destruct Is as (s1 & I1 & I2 & _). rewrite I1 in I. cbn [bind] in I. rewrite I2 in I. cbn [bind] in I. injection I as <- <-. left. split; auto.
  - right. pose proof (nearest_first number t0 l) as (N1 & _). destruct (nearest number (0%nat, t0) 1 l) as [i src]. cbn [fst snd] in *. rewrite <- G in N1.
    unfold get_tags in N1. apply get_tags_nth in N1 as (an & n & bn & kd & En & K & Hk & Es). apply map_eq_app in En as (a & q & Ed & Ea & Er). apply map_eq_cons in Er as (t & b & -> & Et & Eb).
    set (plus := if (ts_number src <? number)%Z then 1%nat else 0%nat) in I.
    assert (Hp : (plus = 0 \/ plus = 1)%nat) by (subst plus; destruct (_ <? _)%Z; auto). clearbody plus.
    rewrite Es in I. cbn [ts_index ts_implicit Nat.add] in I. rewrite <- Ea, map_length, Ed, nth_error_mid in I. destruct (tag_format _ _ _ _ _ _) as [name sep] eqn:F.
    destruct (insert_tag _ _ _ _ _ _) as [s1|] eqn:It; [|discriminate]. cbn [bind] in I. destruct (dedup _ s1) as [s2|] eqn:D; [|discriminate]. cbn [bind] in I. injection I as <- <-.
    rewrite <- Et in *. destruct (beside s a t b kd plus number loc (i + plus) s1 s2 W Ed K Hp Hn ltac:(rewrite Ea; lia) _ name sep F It D) as (new & B1 & B2). exists a, t, b, new. split; auto.
    destruct Hp as [->| ->]; cbn [Nat.eqb] in B1; auto.
Qed.
(** Deleting and changing. *)
Theorem delete_keeps s k s' x : readable s -> delete_item s (Z.of_nat k) = Ok s' -> nth_error (get_items s) k = Some x ->
  match i_place x with
  | InTags j => s_lists s' = s_lists s /\ exists a t b, length a = j /\ ts_data (s_tags s) = a ++ t :: b /\ map (with_preceding []) (ts_data (s_tags s')) = map (with_preceding []) (a ++ b)
  | InList l j => s_tags s' = s_tags s /\ exists l1 sl l2 c e d, length l1 = l /\ length c = j /\ s_lists s = l1 ++ sl :: l2 /\ sl_data sl = c ++ e :: d /\
      s_lists s' = l1 ++ mk_slist (c ++ d) (sl_remainder sl) :: l2
  end.
Proof.
  intros W D Hx. assert (Hk : (k < length (get_items s))%nat) by (apply nth_error_Some; congruence). unfold delete_item in D. rewrite py_index_nonneg, Hx in D by auto.
  destruct (items_nth s _ _ Hx) as [(a & t & b & kd & E & K & La & ->)|(l1 & sl & l2 & j & E & Hj & -> & Ek)]; cbn [i_place delete_place] in *.
  - destruct (delete_keys (s_tags s) (length a)) as (ts & Ed & Em); [rewrite E, app_length; cbn; lia|]. rewrite Ed in D. cbn [bind] in D. injection D as <-. split; [reflexivity|].
    exists a, t, b. split; auto. split; auto. cbn [with_tags s_tags]. fold key. change (map (with_preceding [])) with (map key). rewrite Em, E, !map_app. cbn [map]. rewrite <- (map_length key a). apply removed_mid.
  - injection D as <-. split; [reflexivity|]. cbn [with_lists s_lists]. rewrite E, update_at_app. apply nth_error_Some in Hj. destruct (nth_error (sl_data sl) j) as [e|] eqn:Ej; [|congruence]. apply nth_error_split in Ej as (c & d & Ec & <-).
    exists l1, sl, l2, c, e, d. rewrite Ec, remove_at_app. repeat (split; auto).
Qed.
Theorem set_location_keeps s k loc s' x : readable s -> set_location s (Z.of_nat k) loc = Ok s' -> nth_error (get_items s) k = Some x ->
  match i_place x with
  | InTags j => s_lists s' = s_lists s /\ ts_remainder (s_tags s') = ts_remainder (s_tags s) /\ exists a t b, length a = j /\ ts_data (s_tags s) = a ++ t :: b /\
      ts_data (s_tags s') = a ++ mk_tag (t_name t) loc (t_separator t) (t_comments t) (t_valid t) (t_prefix t) (t_suffix t) :: b
  | InList l j => s_tags s' = s_tags s /\ exists l1 sl l2 c e d, length l1 = l /\ length c = j /\ s_lists s = l1 ++ sl :: l2 /\ sl_data sl = c ++ e :: d /\
      s_lists s' = l1 ++ mk_slist (c ++ mk_entry loc (e_comments e) (e_valid e) :: d) (sl_remainder sl) :: l2
  end.
Proof.
  intros W D Hx. assert (Hk : (k < length (get_items s))%nat) by (apply nth_error_Some; congruence). unfold set_location in D. rewrite py_index_nonneg, Hx in D by auto. injection D as <-.
  destruct (items_nth s _ _ Hx) as [(a & t & b & kd & E & K & La & ->)|(l1 & sl & l2 & j & E & Hj & -> & Ek)]; cbn [i_place] in *.
  - split; [reflexivity|]. split; [reflexivity|]. exists a, t, b. split; auto. split; auto. cbn [with_tags s_tags ts_data]. rewrite E, update_at_app. reflexivity.
  - split; [reflexivity|]. cbn [with_lists s_lists]. rewrite E, update_at_app. apply nth_error_Some in Hj. destruct (nth_error (sl_data sl) j) as [e|] eqn:Ej; [|congruence]. apply nth_error_split in Ej as (c & d & Ec & <-).
    exists l1, sl, l2, c, e, d. rewrite Ec, update_at_app. repeat (split; auto).
Qed.
End Uni.
