(** The list of sources as a list of locations and numbers; tag names given to new and renumbered sources. *)
From Coq Require Import Ascii String.
From Coq Require Import NArith ZArith List Bool Lia Sorting.Sorted.
From Verif Require Import PyStr PyStrFacts Regex RegexFacts M_constants M_value M_macro_definitions M_conditions M_tags M_sourcelist M_sources Spec_sections Spec_tags Spec_sources
  P_evr P_value P_tags P_tags4 P_sources.
Import ListNotations.
Open Scope N_scope.

(** Numbers of sources given as written ([Some]) or not ([None]). *)
Fixpoint nums (last : Z) (ks : list (option Z)) : list Z :=
  match ks with
  | [] => []
  | None :: r => (last + 1)%Z :: nums (last + 1)%Z r
  | Some n :: r => n :: nums n r
  end.
Fixpoint last_num (last : Z) (ks : list (option Z)) : Z :=
  match ks with [] => last | None :: r => last_num (last + 1)%Z r | Some n :: r => last_num n r end.
Lemma nums_app : forall a last b, nums last (a ++ b) = nums last a ++ nums (last_num last a) b.
Proof. induction a as [|[n|] a IH]; intros last b; cbn; auto; now rewrite IH. Qed.
Lemma last_num_app : forall a last b, last_num last (a ++ b) = last_num (last_num last a) b.
Proof. induction a as [|[n|] a IH]; intros last b; cbn; auto. Qed.
Lemma nums_length : forall a last, length (nums last a) = length a.
Proof. induction a as [|[n|] a IH]; intros last; cbn; auto. Qed.
Lemma last_num_last : forall a last, last_num last a = match rev (nums last a) with x :: _ => x | [] => last end.
Proof.
  intros a last. destruct (exists_last (l := None :: a)) as (x & y & _); [discriminate|]. clear x y.
  rewrite <- (rev_involutive a) at 1. rewrite <- (rev_involutive a) at 2. destruct (rev a) as [|[n|] r]; cbn [rev]; auto.
  - rewrite last_num_app, nums_app, rev_app_distr. reflexivity.
  - rewrite last_num_app, nums_app, rev_app_distr. reflexivity.
Qed.

Section Uni.
Context {U : Unicode}.
Definition kinds (p : str) (names : list str) : list (option Z) := flat_map (fun n => match kind p n with Some k => [k] | None => [] end) names.
Lemma kinds_app p a b : kinds p (a ++ b) = kinds p a ++ kinds p b.
Proof. apply flat_map_app. Qed.
Lemma kind_explicit_number p n k : kind p n = Some (Some k) -> explicit_number n = k.
Proof. unfold kind. destruct (str_eqb _ _); [discriminate|]. destruct (is_numbered _ _); congruence. Qed.
Lemma get_tags_nums p : forall names i last, map ts_number (get_tags_from p i last names) = nums last (kinds p names).
Proof.
  induction names as [|n names IH]; intros i last; rewrite get_tags_kind; auto. cbn [kinds flat_map]. destruct (kind p n) as [[k|]|] eqn:K; cbn [map app nums].
  - unfold ts_number at 1. cbn [ts_implicit ts_name]. rewrite (kind_explicit_number _ _ _ K). now rewrite IH.
  - now rewrite IH.
  - apply IH.
Qed.
Lemma get_tags_app p : forall a i last b, get_tags_from p i last (a ++ b) =
  get_tags_from p i last a ++ get_tags_from p (i + length a) (last_num last (kinds p a)) b.
Proof.
  induction a as [|n a IH]; intros i last b; [cbn [app]; now rewrite Nat.add_0_r|]. cbn [app]. rewrite get_tags_kind, (get_tags_kind p (n :: a)).
  cbn [kinds flat_map length]. rewrite Nat.add_succ_r. destruct (kind p n) as [[k|]|]; cbn [app last_num]; rewrite IH; reflexivity.
Qed.
Lemma get_tags_length p names i last : length (get_tags_from p i last names) = length (kinds p names).
Proof. rewrite <- (map_length ts_number), get_tags_nums. apply nums_length. Qed.
Definition implicit_of (last : Z) (k : option Z) : option Z := match k with None => Some (last + 1)%Z | Some _ => None end.
Definition number_of (last : Z) (k : option Z) : Z := match k with None => (last + 1)%Z | Some n => n end.
Lemma get_tags_cons p n k names i last : kind p n = Some k ->
  get_tags_from p i last (n :: names) = mk_ts n (implicit_of last k) i :: get_tags_from p (S i) (number_of last k) names.
Proof. intros K. rewrite get_tags_kind, K. destruct k; reflexivity. Qed.
Lemma get_tags_nth p : forall names i last m ts, nth_error (get_tags_from p i last names) m = Some ts ->
  exists a n b k, names = a ++ n :: b /\ kind p n = Some k /\ length (kinds p a) = m /\
    ts = mk_ts n (implicit_of (last_num last (kinds p a)) k) (i + length a).
Proof.
  induction names as [|x names IH]; intros i last m ts; rewrite get_tags_kind; [destruct m; discriminate|].
  destruct (kind p x) as [k|] eqn:K.
  - assert (E : (match k with None => mk_ts x (Some (last + 1)%Z) i :: get_tags_from p (S i) (last + 1)%Z names | Some v => mk_ts x None i :: get_tags_from p (S i) v names end) =
        mk_ts x (implicit_of last k) i :: get_tags_from p (S i) (number_of last k) names) by (destruct k; reflexivity).
    replace (match k with Some k0 => _ | None => _ end) with (mk_ts x (implicit_of last k) i :: get_tags_from p (S i) (number_of last k) names) by (destruct k; reflexivity). clear E.
    destruct m as [|m]; cbn [nth_error].
    + intros Q; injection Q as <-. exists [], x, names, k. rewrite Nat.add_0_r. auto.
    + intros Q. destruct (IH _ _ _ _ Q) as (a & n & b & k' & -> & K' & <- & ->). exists (x :: a), n, b, k'.
      cbn [app kinds flat_map length]. rewrite K. cbn [app length last_num]. rewrite Nat.add_succ_r. split; auto. split; auto. split; auto.
      destruct k; reflexivity.
  - intros Q. destruct (IH _ _ _ _ Q) as (a & n & b & k' & -> & K' & <- & ->). exists (x :: a), n, b, k'.
    cbn [app kinds flat_map length]. rewrite K. cbn [app]. rewrite Nat.add_succ_r. auto.
Qed.
Lemma get_tags_index p : forall names i last ts, In ts (get_tags_from p i last names) -> (i <= ts_index ts < i + length names)%nat.
Proof.
  induction names as [|x names IH]; intros i last ts; rewrite get_tags_kind; [intros []|].
  destruct (kind p x) as [[k|]|]; cbn [In length]; [intros [<-|Q]|intros [<-|Q]|intros Q]; cbn [ts_index]; try apply IH in Q; lia.
Qed.
Lemma find_index_tag p a n b k i last : kind p n = Some k ->
  List.find (fun t => Nat.eqb (ts_index t) (i + length a)) (get_tags_from p i last (a ++ n :: b)) =
  Some (mk_ts n (implicit_of (last_num last (kinds p a)) k) (i + length a)).
Proof.
  intros K. rewrite get_tags_app, (get_tags_cons p n k b _ _ K).
  assert (G : forall l x r, (forall t, In t l -> (ts_index t < i + length a)%nat) -> ts_index x = (i + length a)%nat ->
     List.find (fun t => Nat.eqb (ts_index t) (i + length a)) (l ++ x :: r) = Some x).
  { induction l as [|y l IHl]; intros x r Hl Hx; cbn; [now rewrite Hx, Nat.eqb_refl|].
    rewrite (proj2 (Nat.eqb_neq _ _)); [apply IHl; auto; intros; apply Hl; now right|]. specialize (Hl y (or_introl eq_refl)). lia. }
  apply G; auto. intros t Ht. apply get_tags_index in Ht. lia.
Qed.

(** Locations and numbers. *)
Definition tag_locs (p : str) (l : list tag) : list str := flat_map (fun t => match kind p (t_name t) with Some _ => [t_value t] | None => [] end) l.
Definition list_locs (l : list sourcelist) : list str := flat_map (fun sl => map e_location (sl_data sl)) l.
Definition list_nums (last : Z) (l : list sourcelist) : list Z := flat_map (fun sl => map (fun i => (last + 1 + Z.of_nat i)%Z) (seq 0 (length (sl_data sl)))) l.
Definition names (s : sources) : list str := map t_name (ts_data (s_tags s)).
Lemma tag_locs_app p a b : tag_locs p (a ++ b) = tag_locs p a ++ tag_locs p b.
Proof. apply flat_map_app. Qed.
Lemma tag_locs_length p l : length (tag_locs p l) = length (kinds p (map t_name l)).
Proof. induction l as [|t l IH]; auto. cbn [tag_locs kinds flat_map map]. fold (tag_locs p l). fold (kinds p (map t_name l)). rewrite !app_length, IH. destruct (kind p (t_name t)); reflexivity. Qed.
Lemma list_items_number last k l : map i_number (lists_items last k l) = list_nums last l.
Proof.
  revert k. induction l as [|sl l IH]; intros k; auto. cbn [lists_items list_nums flat_map]. fold (list_nums last l). rewrite map_app, IH. f_equal. unfold list_items. rewrite map_map. reflexivity.
Qed.
Lemma items_last s : (match rev (map (fun ts => mk_item (ts_number ts) (InTags (ts_index ts))) (get_tags s)) with x :: _ => i_number x | [] => (-1)%Z end) =
  last_num (-1) (kinds (s_prefix s) (names s)).
Proof.
  rewrite last_num_last, <- (get_tags_nums (s_prefix s) (names s) 0 (-1)). fold (names s). change (get_tags_from (s_prefix s) 0 (-1) (names s)) with (get_tags s).
  rewrite <- !map_rev. now destruct (rev (get_tags s)).
Qed.
Theorem numbers_view s : numbers s = nums (-1) (kinds (s_prefix s) (names s)) ++ list_nums (last_num (-1) (kinds (s_prefix s) (names s))) (s_lists s).
Proof.
  unfold numbers, get_items. rewrite items_last, map_app, map_map. cbn [i_number]. rewrite list_items_number. f_equal.
  unfold get_tags. now rewrite get_tags_nums.
Qed.
Theorem locations_view s : locations s = tag_locs (s_prefix s) (ts_data (s_tags s)) ++ list_locs (s_lists s).
Proof.
  unfold locations, get_items. rewrite items_last, map_app, map_map. cbn [i_place]. f_equal.
  - unfold get_tags.
    assert (K : forall l pre last, ts_data (s_tags s) = pre ++ l ->
      map (fun x => location_at s (InTags (ts_index x))) (get_tags_from (s_prefix s) (length pre) last (map t_name l)) = tag_locs (s_prefix s) l).
    { induction l as [|t l IH]; intros pre last E; auto. cbn [map]. rewrite get_tags_kind. cbn [tag_locs flat_map]. fold (tag_locs (s_prefix s) l).
      assert (E' : ts_data (s_tags s) = (pre ++ [t]) ++ l) by (now rewrite E, <- app_assoc).
      assert (El : S (length pre) = length (pre ++ [t])) by (rewrite app_length; cbn; lia). rewrite El.
      destruct (kind (s_prefix s) (t_name t)) as [[k|]|]; cbn [map app]; rewrite ?(IH _ _ E'); auto; cbn [ts_index]; unfold location_at; rewrite E, nth_error_mid; reflexivity. }
    apply (K (ts_data (s_tags s)) [] (-1)%Z eq_refl).
  - generalize (last_num (-1) (kinds (s_prefix s) (names s))). intros last.
    assert (K : forall l pre, s_lists s = pre ++ l -> map (fun x => location_at s (i_place x)) (lists_items last (length pre) l) = list_locs l).
    { induction l as [|sl l IH]; intros pre E; auto. cbn [lists_items list_locs flat_map]. fold (list_locs l). rewrite map_app.
      assert (E' : s_lists s = (pre ++ [sl]) ++ l) by (now rewrite E, <- app_assoc).
      assert (El : S (length pre) = length (pre ++ [sl])) by (rewrite app_length; cbn; lia). rewrite El, (IH _ E'). f_equal.
      unfold list_items. rewrite map_map. cbn [i_place location_at]. rewrite E, nth_error_mid.
      assert (Q : forall d e, sl_data sl = d ++ e -> map (fun i => match nth_error (sl_data sl) i with Some x => e_location x | None => [] end) (seq (length d) (length e)) = map e_location e).
      { intros d e. revert d. induction e as [|y e IHe]; intros d Ed; auto. cbn [length seq map].
        rewrite Ed, nth_error_mid at 1. f_equal. specialize (IHe (d ++ [y])). rewrite app_length in IHe. cbn in IHe. rewrite Nat.add_1_r in IHe. apply IHe. now rewrite <- app_assoc. }
      apply (Q [] (sl_data sl) eq_refl). }
    apply (K (s_lists s) [] eq_refl).
Qed.
Lemma items_length s : length (get_items s) = length (locations s).
Proof. unfold locations. now rewrite map_length. Qed.

(** Well-formed names. *)
Definition wf (s : sources) : Prop := caseless_digits /\ Forall tag_name (names s).
Lemma prefix_eq s : s_prefix s = upper_prefix (s_patches s).
Proof. reflexivity. Qed.
Lemma int_pad w n : int_of_str (dec_pad w n) = Some n /\ Forall (fun c => is_digit c = true) (dec_pad w n) /\ dec_pad w n <> [].
Proof.
  unfold dec_pad. generalize (w - length (dec n))%nat. intros k.
  assert (A : Forall (fun c => is_digit c = true) (repeat ZERO k ++ dec n)).
  { apply Forall_app. split; [apply Forall_forall; intros c Hc; apply repeat_spec in Hc; now subst|]. apply Forall_forall. apply forallb_forall, dec_is_digits. }
  assert (B : repeat ZERO k ++ dec n <> []). { intros Q. apply app_eq_nil in Q as [_ Q]. now apply dec_nonempty in Q. }
  split; auto. pose proof (int_of_dec n) as I. unfold int_of_str in *. destruct (repeat ZERO k ++ dec n) eqn:E; [congruence|]. rewrite <- E. clear E A B.
  destruct (dec n) eqn:D; [now apply dec_nonempty in D|]. rewrite <- D in *. clear D.
  induction k as [|k IH]; auto.
Qed.
Lemma new_kind b w n : caseless_digits -> (0 <= n)%Z -> kind (upper_prefix b) (upper_prefix b ++ format_number n w) = Some (Some n) /\ explicit_number (upper_prefix b ++ format_number n w) = n.
Proof.
  intros C Hn. unfold format_number. destruct (int_pad w (Z.to_N n)) as (I & D & _).
  destruct (kind_explicit b _ _ (Z.to_N n) C (source_name_new b _ D) I) as [K E]. rewrite K, E, Z2N.id by auto. auto.
Qed.
Lemma new_kind_nil b : caseless_digits -> kind (upper_prefix b) (upper_prefix b ++ []) = Some None.
Proof. intros C. apply kind_implicit; auto. apply source_name_new. constructor. Qed.
Lemma explicit_digits b name k : caseless_digits -> tag_name name -> kind (upper_prefix b) name = Some (Some k) ->
  (0 <= k)%Z /\ (0 < number_digits name None)%nat.
Proof.
  intros C T K. destruct (tag_name_dec b name C T) as [(ds & Hs)|[_ Q]]; [|congruence].
  destruct (str_eq_dec ds []) as [->|Nd]; [rewrite (kind_implicit b name C Hs) in K; discriminate|].
  destruct (int_digits ds) as (n & Hi); auto; [destruct Hs as (? & _ & _ & Hd); apply forallb_forall; now apply Forall_forall|].
  destruct (kind_explicit b name ds n C Hs Hi) as [K' _]. rewrite K' in K. injection K as <-. split; [lia|].
  unfold number_digits. rewrite (source_extract b name ds Hs Nd). destruct ds as [|c ds]; [congruence|]. destruct (c =? ZERO); cbn; lia.
Qed.
(** The numbering is explicit as soon as one number is written. *)
Lemma detect_explicit s k : In (Some k) (kinds (s_prefix s) (names s)) -> detect_implicit s = false.
Proof.
  intros Hin. unfold detect_implicit. replace (existsb _ (get_tags s)) with true; auto. symmetry. unfold get_tags. fold (names s).
  revert Hin. generalize 0%nat, (-1)%Z. induction (names s) as [|n l IH]; intros i last Hin; [destruct Hin|]. rewrite get_tags_kind. cbn [kinds flat_map] in Hin.
  destruct (kind (s_prefix s) n) as [[v|]|]; cbn [existsb ts_implicit]; auto; apply IH; destruct Hin as [Q|Q]; auto; discriminate.
Qed.
Lemma detect_all_implicit s k : detect_implicit s = true -> In k (kinds (s_prefix s) (names s)) -> k = None.
Proof. intros D Hin. destruct k as [v|]; auto. rewrite (detect_explicit s v Hin) in D. discriminate. Qed.
(** A new name follows its reference. *)
Lemma format_kind s rname rsep last k number : caseless_digits -> tag_name rname -> kind (s_prefix s) rname = Some k -> In k (kinds (s_prefix s) (names s)) -> (0 <= number)%Z ->
  let name := fst (tag_format s rname rsep (implicit_of last k) number None) in
  (exists ds, name = s_prefix s ++ ds /\ Forall (fun c => is_digit c = true) ds) /\
  kind (s_prefix s) name = Some (match k with None => None | Some _ => Some number end) /\ (forall v, k = Some v -> explicit_number name = number).
Proof.
  intros C T K Hin Hn. unfold tag_format.
  set (suffix := if _ || _ then _ else _).
  assert (S : suffix = match k with None => [] | Some _ => format_number number (number_digits rname None) end).
  { subst suffix. destruct k as [v|]; cbn [implicit_of].
    - rewrite (detect_explicit s v Hin). cbn [orb]. rewrite prefix_eq in K. destruct (explicit_digits _ rname v C T K) as [_ P]. destruct (number_digits rname None); [lia|reflexivity].
    - unfold number_digits. now rewrite orb_true_r. }
  clearbody suffix. subst suffix. cbn zeta. assert (F : fst (if (0 <=? Z.of_nat (length rname) - Z.of_nat (length (s_prefix s ++ match k with None => [] | Some _ => format_number number (number_digits rname None) end)))%Z
     then (s_prefix s ++ match k with None => [] | Some _ => format_number number (number_digits rname None) end, rsep ++ repeat SPC (Z.to_nat (Z.of_nat (length rname) - Z.of_nat (length (s_prefix s ++ match k with None => [] | Some _ => format_number number (number_digits rname None) end)))))
     else (s_prefix s ++ match k with None => [] | Some _ => format_number number (number_digits rname None) end, match slice_to rsep (Z.of_nat (length rname) - Z.of_nat (length (s_prefix s ++ match k with None => [] | Some _ => format_number number (number_digits rname None) end))) with [] => [COLON] | x => x end)) =
     s_prefix s ++ match k with None => [] | Some _ => format_number number (number_digits rname None) end) by (destruct (0 <=? _)%Z; reflexivity).
  rewrite F. clear F. rewrite prefix_eq. destruct k as [v|].
  - destruct (new_kind (s_patches s) (number_digits rname None) number C Hn) as [K1 K2]. split; [|split; auto].
    eexists. split; [reflexivity|]. unfold format_number. apply int_pad.
  - rewrite (new_kind_nil (s_patches s) C). split; [|split; [auto|discriminate]]. exists []. auto.
Qed.
Lemma valid_new b ds : Forall (fun c => is_digit c = true) ds -> valid_tag_name (upper_prefix b ++ ds) = true.
Proof.
  intros Hd. unfold valid_tag_name. apply andb_true_iff. split; [destruct b; reflexivity|]. apply existsb_exists. exists (lower_prefix b). split; [apply lower_prefix_in|].
  destruct (re_match_exists (tag_name_regex (lower_prefix b)) (upper_prefix b ++ ds) (mkst (rev (upper_prefix b ++ ds) ++ []) [] [])) as (m & -> & _); auto.
  rewrite <- (app_nil_r (upper_prefix b ++ ds)) at 1. apply (name_build (lower_prefix b)); [apply lower_prefix_in|apply upper_letters|].
  right. right. split; [destruct b; auto|auto].
Qed.
(** A tag without the lines above its comments. *)
Definition key (t : tag) : tag := with_preceding [] t.
Definition others (p : str) (l : list tag) : list tag := filter (fun t => match kind p (t_name t) with None => true | Some _ => false end) l.
Lemma key_keys {B} (f : tag -> B) : (forall t, f (key t) = f t) -> forall l l', map key l = map key l' -> map f l = map f l'.
Proof. intros K. induction l as [|t l IH]; intros [|t' l'] E; try discriminate; auto. cbn [map] in *. pose proof (f_equal (hd t) E : key t = key t') as E1. pose proof (f_equal (@tl tag) E : map key l = map key l') as E2. f_equal; auto. rewrite <- (K t), <- (K t'). now rewrite E1. Qed.
Lemma keys_names l l' : map key l = map key l' -> map t_name l = map t_name l'.
Proof. apply key_keys. reflexivity. Qed.
Lemma keys_locs p l l' : map key l = map key l' -> tag_locs p l = tag_locs p l'.
Proof.
  revert l'. induction l as [|t l IH]; intros [|t' l'] E; try discriminate; auto. cbn [map] in E. pose proof (f_equal (hd t) E : key t = key t') as E1. pose proof (f_equal (@tl tag) E : map key l = map key l') as E2. cbn [tag_locs flat_map]. fold (tag_locs p l). fold (tag_locs p l'). rewrite (IH _ E2).
  pose proof (f_equal t_name E1 : t_name t = t_name t') as En. rewrite <- En.
  pose proof (f_equal t_value E1 : t_value t = t_value t') as Ev. rewrite <- Ev. reflexivity.
Qed.
Lemma keys_others p l l' : map key l = map key l' -> map key (others p l) = map key (others p l').
Proof.
  revert l'. induction l as [|t l IH]; intros [|t' l'] E; try discriminate; auto. cbn [map] in E. pose proof (f_equal (hd t) E : key t = key t') as E1. pose proof (f_equal (@tl tag) E : map key l = map key l') as E2. cbn [others filter]. fold (others p l). fold (others p l').
  pose proof (f_equal t_name E1 : t_name t = t_name t') as En. rewrite <- En. destruct (kind p (t_name t)); cbn [map]; rewrite ?E1, ?(IH _ E2); auto.
Qed.
Lemma key_preceding x t : key (with_preceding x t) = key t.
Proof. reflexivity. Qed.
(** Inserting and deleting a tag. *)
Lemma insert_keys ts j item : (j <= length (ts_data ts))%nat -> exists ts', tag_insert (Z.of_nat j) item ts = Ok ts' /\
  map key (ts_data ts') = inserted j (key item) (map key (ts_data ts)).
Proof.
  intros Hj. unfold tag_insert, inserted. rewrite (proj2 (Z.ltb_ge (Z.of_nat (length (ts_data ts))) (Z.of_nat j))) by lia.
  destruct (Z.ltb_spec (Z.of_nat j) (Z.of_nat (length (ts_data ts)))) as [L|L].
  - rewrite py_index_nonneg by lia. destruct (nth_error (ts_data ts) j) as [u|] eqn:E; [|apply nth_error_None in E; lia].
    apply nth_error_split in E as (a & b & E & <-). destruct (split_endif (t_preceding u)) as [moved kept]. eexists. split; [reflexivity|].
    cbn [ts_data]. rewrite E, update_at_app. unfold py_insert, clamp_index. rewrite (proj2 (Z.ltb_ge (Z.of_nat (length a)) 0)) by lia.
    replace (Z.to_nat (Z.min (Z.of_nat (length (a ++ with_preceding kept u :: b))) (Z.of_nat (length a)))) with (length a) by (rewrite app_length; cbn; lia).
    rewrite !map_app. cbn [map]. rewrite !firstn_app, !skipn_app, !map_length, !Nat.sub_diag. cbn [firstn skipn].
    rewrite !firstn_all2, !skipn_all2 by (rewrite ?map_length; lia). cbn [app]. rewrite !app_nil_r. reflexivity.
  - assert (j = length (ts_data ts)) as -> by lia. destruct (split_endif (ts_remainder ts)) as [moved kept]. eexists. split; [reflexivity|].
    cbn [ts_data]. unfold py_insert, clamp_index. rewrite (proj2 (Z.ltb_ge _ 0)) by lia. replace (Z.to_nat (Z.min _ _)) with (length (ts_data ts)) by lia.
    rewrite !map_app. cbn [map]. rewrite !firstn_all2, !skipn_all2 by (rewrite ?map_length; lia). reflexivity.
Qed.
Lemma delete_keys ts j : (j < length (ts_data ts))%nat -> exists ts', delete_at (Z.of_nat j) ts = Ok ts' /\
  map key (ts_data ts') = removed j (map key (ts_data ts)).
Proof.
  intros Hj. unfold delete_at, removed. rewrite py_index_nonneg by lia. destruct (nth_error (ts_data ts) j) as [u|] eqn:E; [|apply nth_error_None in E; lia].
  apply nth_error_split in E as (a & b & E & <-). rewrite E, remove_at_app.
  assert (R : firstn (length a) (map key (a ++ u :: b)) ++ skipn (S (length a)) (map key (a ++ u :: b)) = map key a ++ map key b).
  { rewrite map_app. cbn [map]. rewrite firstn_app, skipn_app, !map_length, Nat.sub_diag, firstn_all2, skipn_all2 by (rewrite map_length; lia).
    replace (S (length a) - length a)%nat with 1%nat by lia. cbn [firstn skipn app]. now rewrite app_nil_r. }
  rewrite R. destruct (Z.ltb_spec (Z.of_nat (length a)) (Z.of_nat (length (a ++ b)))) as [L|L]; rewrite app_length in L.
  - destruct b as [|x b]; [cbn in L; lia|]. rewrite py_index_nonneg by (rewrite app_length; cbn; lia). eexists. split; [reflexivity|]. cbn [ts_data].
    rewrite update_at_app, map_app. reflexivity.
  - destruct b; [|cbn in L; lia]. eexists. split; [reflexivity|]. cbn [ts_data]. now rewrite map_app.
Qed.
End Uni.
