(** Options as a mapping, positional arguments as a whole: proofs. *)
From Coq Require Import Ascii String.
From Coq Require Import NArith ZArith List Bool Lia Permutation.
From Verif Require Import PyStr PyStrFacts M_value M_options M_options2 Spec_options Spec_options2 P_options2 P_options3 P_options4.
Import ListNotations.
Open Scope N_scope.

Definition found (o : opts) (c : char) : bool := match find_option o c with Some _ => true | None => false end.
Lemma find_last_found {A} (p : A -> bool) l : match find_last p l with Some _ => true | None => false end = existsb p l.
Proof.
  induction l as [|x l IH]; auto. cbn [find_last existsb]. rewrite <- IH. destruct (find_last p l); [now rewrite orb_true_r|].
  destruct (p x); reflexivity.
Qed.
Lemma found_has o c : found o c = existsb (has c) (o_tokens o).
Proof.
  unfold found, find_option, has. rewrite <- (find_last_found (fun t => startswith (t_value t) [DASH; c])).
  destruct (find_last _ (o_tokens o)) as [i|]; auto.
  destruct (negb (str_eqb _ _)); auto. destruct (negb (requires_argument o c)); auto.
  destruct (Nat.eqb (S i) (length (o_tokens o))); auto. destruct (is_ws _); destruct (Nat.eqb _ _); auto; destruct (startswith _ _); auto.
Qed.
Lemma optchars_letters l os ds : optchars (mk_opts l os ds) = letters os. Proof. reflexivity. Qed.
Lemma char_in_iff c s : char_in c s = true <-> In c s.
Proof. unfold char_in. rewrite existsb_exists. split; [intros (x & I & E); apply N.eqb_eq in E; now subst|intros I; exists c; split; auto; apply N.eqb_refl]. Qed.
Lemma known_letters os c : known os c <-> In c (letters os).
Proof. unfold known, letters. rewrite filter_In, negb_true_iff, N.eqb_neq. tauto. Qed.

Theorem iter_spec os ds l its : cmdline os l its -> opt_iter (mk_opts l os ds) = filter (mentioned its) (letters os).
Proof.
  intros C. unfold opt_iter. rewrite optchars_letters. apply filter_ext. intros c. unfold mentioned.
  destruct (lookup_opt c its) as [a|] eqn:L.
  - destruct (locate os l its c a C L) as (pre & m & post & i1 & i2 & -> & Sh & C1 & C2 & -> & N).
    now rewrite (find_present os ds pre m post c a i2 Sh C2 N).
  - now rewrite (find_absent os ds l its c C L).
Qed.

Definition spaces_undashed (l : list token) : Prop := forall t, In t l -> t_type t = WHITESPACE -> ~ dashed (t_value t).
Lemma cmdline_spaces os l its : cmdline os l its -> spaces_undashed l.
Proof.
  intros C. induction C; intros u I Tu; cbn in I; [destruct I|..].
  all: repeat (destruct I as [<-|I]; [first [now apply space_not_dashed | congruence]|]); auto.
Qed.
Lemma dash_letters_in l os ds c : spaces_undashed l ->
  (In c (dash_letters (mk_opts l os ds)) <-> In c (letters os) /\ existsb (has c) l = true).
Proof.
  intros Sp. unfold dash_letters. rewrite in_flat_map, existsb_exists. cbn [o_tokens]. rewrite optchars_letters. split.
  - intros (t & I & J). destruct (is_ws t); [destruct J|]. destruct (t_value t) as [|d [|e v]] eqn:V; try destruct J.
    destruct ((d =? DASH) && char_in e (letters os)) eqn:E; [|destruct J]. apply andb_true_iff in E as [E1 E2].
    apply N.eqb_eq in E1. subst d. destruct J as [->|[]]. split; [now apply char_in_iff|]. exists t. split; auto.
    rewrite (has_dash c c v t V). apply N.eqb_refl.
  - intros (Lc & t & I & H). exists t. split; auto. destruct (has_shape c t H) as [v V].
    destruct (is_ws t) eqn:W; [apply is_ws_true in W; exfalso; apply (Sp t I W); rewrite V; eexists; reflexivity|].
    rewrite V, N.eqb_refl. apply char_in_iff in Lc. rewrite Lc. now left.
Qed.
Theorem len_spec os ds l : spaces_undashed l -> NoDup (letters os) ->
  opt_len (mk_opts l os ds) = length (opt_iter (mk_opts l os ds)).
Proof.
  intros Sp ND. unfold opt_len. apply Permutation_length, NoDup_Permutation.
  - apply NoDup_nodup.
  - unfold opt_iter. now apply NoDup_filter.
  - intros c. rewrite nodup_In, dash_letters_in by auto. unfold opt_iter. rewrite filter_In, optchars_letters.
    change (match find_option (mk_opts l os ds) c with Some _ => true | None => false end) with (found (mk_opts l os ds) c).
    now rewrite found_has.
Qed.

(** * Lookup by name *)
Lemma requires_name_char l os ds c : In c os -> requires_name (mk_opts l os ds) [c] = Ok (requires_in os c).
Proof.
  unfold requires_name. cbn [o_optstring]. induction os as [|d os IH]; intros I; [destruct I|].
  cbn [after_index requires_in].
  assert (E : startswith (d :: os) [c] = (d =? c)).
  { destruct (N.eqb_spec d c) as [->|N]; [apply startswith_iff; now exists os|].
    destruct (startswith (d :: os) [c]) eqn:E; auto. apply startswith_iff in E as [t E]. cbn in E. congruence. }
  rewrite E. destruct (N.eqb_spec d c) as [->|N]; cbn [tl]; [destruct os; reflexivity|].
  apply IH. destruct I as [->|I]; [congruence|auto].
Qed.
Lemma find_name_char l os ds c : In c os -> find_name (mk_opts l os ds) [c] = Ok (find_option (mk_opts l os ds) c).
Proof.
  intros I. unfold find_name, find_option. rewrite (requires_name_char l os ds c I). cbn [o_tokens].
  destruct (find_last _ l) as [i|]; auto. destruct (negb (str_eqb _ _)); auto. cbn [bind]. unfold requires_argument. cbn [o_optstring].
  destruct (negb (requires_in os c)); auto. destruct (Nat.eqb (S i) (length l)); auto.
  destruct (is_ws _); destruct (Nat.eqb _ _); auto; destruct (startswith _ _); auto.
Qed.
Lemma substring_char c s : In c s -> is_substring [c] s = true.
Proof.
  induction s as [|d s IH]; intros I; [destruct I|]. cbn [is_substring]. destruct I as [->|I]; [|rewrite IH by auto; apply orb_true_r].
  apply orb_true_iff. left. apply startswith_iff. now exists s.
Qed.
Section Uni.
Context {U : Unicode}.
Theorem getitem_char attribute l os ds c : attribute [c] = false -> known os c ->
  getitem attribute (mk_opts l os ds) [c] = let! v := opt_get (mk_opts l os ds) c in Ok (Some v).
Proof.
  intros A K. unfold getitem. rewrite A, optchars_letters. apply known_letters in K as L. rewrite substring_char by auto.
  unfold get_name, opt_get. destruct K as [I _]. rewrite find_name_char by auto. cbn [bind].
  destruct (find_option _ c) as [[i j]|]; auto. rewrite requires_name_char by auto. cbn [bind]. reflexivity.
Qed.
Lemma opt_get_errors o c e : opt_get o c = Err e -> e = ValueError.
Proof.
  unfold opt_get. destruct (find_option o c) as [[i j]|]; [|destruct (requires_argument o c); discriminate].
  destruct (match j with Some _ => _ | None => _ end); [discriminate|]. unfold number_or_text.
  destruct (str_isnumeric _); [|discriminate]. destruct (int_of_str _); [discriminate|]. now intros [= <-].
Qed.
(** [c in options] is true for every known option whose value can be read at all. *)
Theorem contains_always attribute l os ds c v : attribute [c] = false -> known os c ->
  opt_get (mk_opts l os ds) c = Ok v -> contains_key attribute (mk_opts l os ds) [c] = Ok true /\
  forall d, get_or attribute (mk_opts l os ds) [c] d = Ok (Some v).
Proof.
  intros A K G. unfold contains_key, get_or. rewrite getitem_char by auto. rewrite G. cbn [bind]. auto.
Qed.

(** * Missing arguments *)
Lemma tok_at_end (a : list token) x : tok_at (a ++ [x]) (length a) = x. Proof. apply tok_at_mid. Qed.
Theorem missing_argument os ds x t y c : t_value t = [DASH; c] -> takes_argument os c -> no_argument y ->
  (forall u, In u y -> forall v, t_value u <> DASH :: c :: v) ->
  opt_get (mk_opts (x ++ t :: y) os ds) c = Ok (VBool true).
Proof.
  intros V T N O.
  assert (F : find_option (mk_opts (x ++ t :: y) os ds) c = Some (length x, None)).
  { unfold find_option. cbn [o_tokens]. rewrite find_last_mid.
    2: { change (has c t = true). rewrite (has_dash c c [] t V). apply N.eqb_refl. }
    2: { apply forallb_forall. intros u I. apply negb_true_iff. destruct (startswith (t_value u) [DASH; c]) eqn:E; auto.
         destruct (has_shape c u E) as [v W]. destruct (O u I v W). }
    rewrite tok_at_mid, V, str_eqb_refl. cbn [negb]. unfold requires_argument. cbn [o_optstring]. apply takes_req in T. rewrite T. cbn [negb].
    rewrite app_length. cbn [length]. destruct N as [|w Tw|u r Tu [v Du]|w u r Tw [v Du]]; cbn [length].
    - now rewrite Nat.add_1_r, Nat.eqb_refl.
    - rewrite tok_at_mid1. apply is_ws_true in Tw. rewrite Tw. destruct (Nat.eqb _ _) eqn:E; auto.
      assert (Nat.eqb (S (S (length x))) (length x + 2) = true) as -> by (apply Nat.eqb_eq; lia). reflexivity.
    - rewrite tok_at_mid1. apply is_ws_false in Tu. rewrite Tu, tok_at_mid1, Du.
      destruct (Nat.eqb _ _); auto.
    - rewrite tok_at_mid1. apply is_ws_true in Tw. rewrite Tw, tok_at_mid2, Du.
      destruct (Nat.eqb (S (length x)) _); auto. destruct (Nat.eqb _ _); auto. }
  unfold opt_get. rewrite F. cbn [o_tokens]. now rewrite tok_at_mid, V.
Qed.
(** A text that starts with a dash is not read back. *)
Theorem dashed_value os ds l its c s : cmdline os l its -> takes_argument os c -> lookup_opt c its = None -> dashed s ->
  exists o', opt_set (mk_opts l os ds) c (VStr s) = Ok o' /\ opt_get o' c <> Ok (VStr s).
Proof.
  intros C T L [v ->]. unfold opt_set. unfold requires_argument. cbn [o_optstring o_tokens]. pose proof T as T'. apply takes_req in T'. rewrite T'. cbn [negb andb].
  rewrite (find_absent os ds l its c C L).
  eexists. split; [reflexivity|]. unfold with_tokens. cbn [o_optstring o_defaults].
  set (l1 := match l with [] => [] | _ => _ end). set (last := mk_token _ (DASH :: v)).
  destruct (has c last) eqn:H.
  - destruct (has_shape c last H) as [u E]. cbn in E. injection E as E. subst v.
    unfold opt_get, find_option. cbn [o_tokens]. rewrite (app_assoc l1 [_; _] [last] : l1 ++ [_; _; last] = _).
    rewrite find_last_mid; auto. rewrite tok_at_mid. set (n := length _).
    assert (K : forall w, match w with [] => Ok (VBool true) | _ => number_or_text w end <> Ok (VStr (DASH :: c :: w))).
    { intros w. unfold number_or_text. destruct w as [|a w]; [discriminate|]. destruct (str_isnumeric _); [destruct (int_of_str _); discriminate|].
      intros [= Q1 Q2]. apply (f_equal (@length _)) in Q2. cbn in Q2. lia. }
    destruct (negb (str_eqb _ _)).
    + rewrite Nat.ltb_irrefl. rewrite !tok_at_mid. exact (K u).
    + assert (En : Nat.eqb (S n) (length ((l1 ++ [mk_token DEFAULT [DASH; c]; space_token]) ++ [last])) = true).
      { apply Nat.eqb_eq. rewrite app_length. cbn [length]. unfold n. lia. }
      rewrite En. destruct (negb _); rewrite !tok_at_mid; exact (K u).
  - rewrite (missing_argument os ds l1 (mk_token DEFAULT [DASH; c]) [space_token; last] c eq_refl T); [discriminate|apply N_space_option; [reflexivity|eexists; reflexivity]|].
    intros w [<-|[<-|[]]] x; [discriminate|]. intros E. unfold has in H. rewrite E in H. cbn in H.
    assert (startswith (DASH :: c :: x) [DASH; c] = true) by (apply startswith_iff; now exists x). congruence.
Qed.

(** * clear() *)
Lemma mentioned_in its c a : In (IOpt c a) its -> lookup_opt c its <> None.
Proof.
  induction its as [|i its IH]; intros I; [destruct I|]. cbn [lookup_opt]. destruct (lookup_opt c its) eqn:E; [discriminate|].
  destruct I as [->|I]; [rewrite N.eqb_refl; discriminate|destruct (IH I eq_refl)].
Qed.
Lemma lookup_in its c a : lookup_opt c its = Some a -> In (IOpt c a) its.
Proof.
  induction its as [|i its IH]; [discriminate|]. cbn [lookup_opt]. destruct (lookup_opt c its) as [b|] eqn:E.
  - intros [= ->]. right. auto.
  - destruct i as [d b|]; [|discriminate]. destruct (N.eqb_spec d c) as [->|]; [|discriminate]. intros [= ->]. now left.
Qed.
Lemma without_app os a b : without_known os (a ++ b) = without_known os a ++ without_known os b.
Proof. apply filter_app. Qed.
Lemma without_one os i1 c a i2 : In c (letters os) -> without_known os (i1 ++ IOpt c a :: i2) = without_known os (i1 ++ i2).
Proof. intros I. rewrite !without_app. cbn [without_known filter]. apply char_in_iff in I. rewrite I. reflexivity. Qed.
Lemma remove_at_mid {A} (a : list A) x b : remove_at (length a) (a ++ x :: b) = a ++ b.
Proof. induction a as [|y a IH]; cbn; auto. now rewrite IH. Qed.
Lemma remove_at_before {A} (a : list A) w x b : remove_at (length a) ((a ++ [w]) ++ x :: b) = a ++ x :: b.
Proof. rewrite <- app_assoc. apply (remove_at_mid a w (x :: b)). Qed.
(** Deleting a flag removes the flag or, wrongly, the white space in front of it (C52). *)
Lemma flag_del os ds l its c : cmdline os l its -> lookup_opt c its = Some None ->
  exists l' its', opt_del (mk_opts l os ds) c = mk_opts l' os ds /\ cmdline os l' its' /\ S (length l') = length l /\
    (its' = its \/ exists i1 i2, its = i1 ++ IOpt c None :: i2 /\ its' = i1 ++ i2).
Proof.
  intros C L. destruct (locate os l its c None C L) as (pre & m & post & i1 & i2 & -> & Sh & C1 & C2 & -> & N).
  unfold opt_del. rewrite (find_present os ds pre m post c None i2 Sh C2 N). cbn [o_tokens].
  inversion Sh as [t Tt Vt Nt| | |]; subst. cbn [app].
  destruct (unsnoc pre) as [->|(pre' & w & ->)].
  - cbn [length app remove_at]. exists post, i2. unfold with_tokens. cbn. repeat split; auto.
    right. exists [], i2. inversion C1; subst. split; auto.
  - rewrite app_length, Nat.add_1_r. cbn [length]. rewrite <- !app_assoc. cbn [app]. rewrite tok_at_mid.
    destruct (is_ws w) eqn:W.
    + rewrite remove_at_mid. exists (pre' ++ t :: post), (i1 ++ IOpt c None :: i2). unfold with_tokens. cbn [o_optstring o_defaults]. repeat split; auto.
      * apply is_ws_true in W. apply cmdline_app; [now apply (cmdline_unsnoc os w (pre' ++ [w]))|]. now apply L_flag.
      * rewrite !app_length. cbn [length]. lia.
    + exists ((pre' ++ [w]) ++ post), (i1 ++ i2). unfold with_tokens. cbn [o_optstring o_defaults]. repeat split; auto.
      * f_equal. replace (S (length pre')) with (length (pre' ++ [w])) by (rewrite app_length; cbn [length]; lia).
        replace (pre' ++ w :: t :: post) with ((pre' ++ [w]) ++ t :: post) by (now rewrite <- app_assoc). apply remove_at_mid.
      * now apply cmdline_app.
      * rewrite !app_length. cbn [length]. lia.
      * right. eauto.
Qed.
Lemma clear_rounds_spec os ds n : forall l its, (length l <= n)%nat -> cmdline os l its -> arguments_ok its ->
  exists l', clear_rounds n (mk_opts l os ds) = Ok (mk_opts l' os ds) /\ cmdline os l' (without_known os its).
Proof.
  induction n as [|n IH]; intros l its Hn C A.
  - destruct l as [|t l]; [|cbn in Hn; lia]. inversion C; subst. exists []. split; [|constructor].
    cbn [clear_rounds]. rewrite (iter_spec os ds [] [] C). replace (filter (mentioned []) (letters os)) with (@nil char); auto.
    induction (letters os); auto.
  - cbn [clear_rounds]. rewrite (iter_spec os ds l its C). destruct (filter (mentioned its) (letters os)) as [|c r] eqn:F.
    + exists l. split; auto. replace (without_known os its) with its; auto.
      assert (G : forall c, In c (letters os) -> lookup_opt c its = None).
      { intros c I. destruct (lookup_opt c its) eqn:E; auto. exfalso. assert (J : In c (filter (mentioned its) (letters os))) by (apply filter_In; unfold mentioned; now rewrite E).
        rewrite F in J. destruct J. }
      assert (K : forall i, In i its -> match i with IOpt c _ => negb (char_in c (letters os)) | IPos _ => true end = true).
      { intros [c a|v] I; auto. apply negb_true_iff. destruct (char_in c (letters os)) eqn:E; auto. apply char_in_iff in E. destruct (mentioned_in _ _ _ I (G c E)). }
      clear -K. unfold without_known. induction its as [|i its IH]; auto. cbn [filter]. rewrite (K i) by (now left). f_equal. apply IH. intros j J. apply K. now right.
    + assert (Ic : In c (letters os) /\ mentioned its c = true) by (apply filter_In; rewrite F; now left). destruct Ic as [Ic M].
      unfold mentioned in M. destruct (lookup_opt c its) as [a|] eqn:L; [|discriminate].
      assert (G : exists v, opt_get (mk_opts l os ds) c = Ok v).
      { rewrite (opt_get_spec os ds l its c C). unfold get_meaning. rewrite L. destruct a as [v|]; [|eauto].
        apply lookup_in in L. destruct (A c v L) as [w Q]. eauto. }
      destruct G as [v G]. rewrite G. cbn [bind]. destruct a as [a|].
      * destruct (opt_del_spec os ds l its c a C L) as (x0 & x & b & i1 & i2 & w & -> & D & -> & _ & C' & (m & Sm & X) & _). rewrite D.
        assert (0 < length m)%nat by (destruct Sm; cbn; lia).
        assert (0 < length x)%nat by (destruct X as [->|[->|[_ ->]]]; rewrite ?app_length; cbn; lia).
        rewrite without_one by auto. apply IH; [rewrite !app_length in *; lia|auto|].
        intros d u I. apply (A d u). rewrite in_app_iff in *. cbn. tauto.
      * destruct (flag_del os ds l its c C L) as (l' & its' & D & C' & Hl & [->|(i1 & i2 & -> & ->)]); rewrite D.
        -- apply IH; auto. lia.
        -- rewrite without_one by auto. apply IH; [lia|auto|]. intros d u I. apply (A d u). rewrite in_app_iff in *. cbn. tauto.
Qed.
Theorem clear_spec os ds l its : cmdline os l its -> arguments_ok its ->
  exists l', opt_clear (mk_opts l os ds) = Ok (mk_opts l' os ds) /\ cmdline os l' (without_known os its).
Proof. intros C A. now apply clear_rounds_spec. Qed.

(** * The positional arguments as a whole *)
Lemma only_app a b : only_options (a ++ b) = only_options a ++ only_options b. Proof. apply filter_app. Qed.
Lemma only_none its : positionals its = [] -> only_options its = its.
Proof. induction its as [|[c a|v] its IH]; cbn; intros E; auto; [|discriminate]. f_equal. auto. Qed.
Lemma index_last {A} (l : list A) : l <> [] -> py_index l (-1) = Some (pred (length l)).
Proof.
  intros N. unfold py_index. destruct l as [|x l]; [congruence|]. cbn [length pred].
  assert ((0 <=? -1)%Z = false) as -> by reflexivity. cbn [andb]. assert ((-1 <? 0)%Z = true) as -> by reflexivity. cbn [andb].
  assert ((0 <=? Z.of_nat (S (length l)) + -1)%Z = true) as -> by (apply Z.leb_le; lia). f_equal. lia.
Qed.
Lemma pos_clear_rounds_spec os ds n : forall l its, (length l <= n)%nat -> cmdline os l its -> positionals_ok its ->
  exists l', pos_clear_rounds n (mk_opts l os ds) = Ok (mk_opts l' os ds) /\ cmdline os l' (only_options its).
Proof.
  induction n as [|n IH]; intros l its Hn C A.
  - destruct l as [|t l]; [|cbn in Hn; lia]. inversion C; subst. exists []. split; [|constructor].
    cbn [pos_clear_rounds]. rewrite (pos_get_spec os ds [] [] _ C). reflexivity.
  - cbn [pos_clear_rounds]. rewrite (pos_get_spec os ds l its _ C). destruct (positionals its) as [|p ps] eqn:P.
    + cbn. exists l. split; auto. now rewrite only_none.
    + assert (Ix : py_index (positionals its) (-1) = Some (length ps)) by (rewrite index_last; rewrite P; [reflexivity|discriminate]).
      pose proof Ix as Ix'. rewrite P in Ix'. rewrite Ix'.
      destruct (A (nth (length ps) (p :: ps) [])) as [v V]; [rewrite P; apply nth_In; cbn; lia|]. rewrite V. cbn [bind].
      destruct (pos_del_spec os ds l its _ _ C Ix) as (a & x & b & i1 & old & i2 & D & -> & -> & _ & C' & t & w & _ & _ & X). rewrite D. cbn [bind].
      assert (0 < length x)%nat by (destruct X as [->|[->|[_ ->]]]; cbn; lia).
      replace (only_options (i1 ++ IPos old :: i2)) with (only_options (i1 ++ i2)) by (rewrite !only_app; reflexivity).
      apply IH; [rewrite !app_length in *; lia|auto|]. intros u I. apply A. rewrite positionals_app in *. cbn [positionals]. rewrite in_app_iff in *. cbn. tauto.
Qed.
Theorem pos_clear_spec os ds l its : cmdline os l its -> positionals_ok its ->
  exists l', pos_clear (mk_opts l os ds) = Ok (mk_opts l' os ds) /\ cmdline os l' (only_options its).
Proof. intros C A. now apply pos_clear_rounds_spec. Qed.
Lemma only_positionals its : positionals (only_options its) = [].
Proof. induction its as [|[c a|v] its IH]; auto. Qed.
Lemma only_lookup c its : lookup_opt c (only_options its) = lookup_opt c its.
Proof.
  induction its as [|[d a|v] its IH]; auto; cbn [only_options filter lookup_opt].
  - fold (only_options its). now rewrite IH.
  - fold (only_options its). rewrite IH. now destruct (lookup_opt c its).
Qed.
Lemma pos_extend_spec os ds vs : forall l its, cmdline os l its -> Forall (fun v => ~ dashed (oval_str v)) vs ->
  exists l' its', pos_extend (mk_opts l os ds) vs = Ok (mk_opts l' os ds) /\ cmdline os l' its' /\
    positionals its' = positionals its ++ map oval_str vs /\ forall c, lookup_opt c its' = lookup_opt c its.
Proof.
  induction vs as [|v vs IH]; intros l its C F.
  - exists l, its. cbn. rewrite app_nil_r. auto.
  - inversion F as [|? ? Nd F']; subst. cbn [pos_extend].
    assert (El : length (get_items (mk_opts l os ds)) = length (positionals its)) by (apply (items_length os ds l l its C)).
    rewrite El.
    destruct (pos_insert_spec os ds l its (Z.of_nat (length (positionals its))) v (length (positionals its)) C Nd) as (l1 & i1 & i2 & -> & -> & Hk & C1); [right; split; [lia|reflexivity]|].
    cbn [bind]. destruct (IH l1 _ C1 F') as (l' & its' & -> & C' & P & Lk). exists l', its'. split; [auto|]. split; [auto|].
    rewrite positionals_app, app_length in Hk. assert (P2 : positionals i2 = []) by (destruct (positionals i2); auto; cbn in Hk; lia).
    split.
    + rewrite P, !positionals_app. cbn [positionals map]. rewrite P2, app_nil_r, <- app_assoc. reflexivity.
    + intros c. rewrite Lk, !lookup_app. cbn [lookup_opt]. now destruct (lookup_opt c i2).
Qed.
Theorem set_positional_spec os ds l its vs : cmdline os l its -> positionals_ok its -> Forall (fun v => ~ dashed (oval_str v)) vs ->
  exists l' its', set_positional (mk_opts l os ds) vs = Ok (mk_opts l' os ds) /\ cmdline os l' its' /\
    positionals its' = map oval_str vs /\ (forall c, lookup_opt c its' = lookup_opt c its).
Proof.
  intros C A F. unfold set_positional. destruct (pos_clear_spec os ds l its C A) as (l1 & -> & C1). cbn [bind].
  destruct (pos_extend_spec os ds vs l1 _ C1 F) as (l' & its' & -> & C' & P & Lk). exists l', its'. repeat split; auto.
  - rewrite P, only_positionals. reflexivity.
  - intros c. rewrite Lk. apply only_lookup.
Qed.
Theorem set_positional_reads os ds l its vs : cmdline os l its -> positionals_ok its -> Forall (fun v => ~ dashed (oval_str v)) vs ->
  exists o', set_positional (mk_opts l os ds) vs = Ok o' /\ pos_list o' = map oval_str vs /\
    forall c, opt_get o' c = opt_get (mk_opts l os ds) c.
Proof.
  intros C A F. destruct (set_positional_spec os ds l its vs C A F) as (l' & its' & -> & C' & P & Lk). eexists. split; [reflexivity|]. split.
  - rewrite (positionals_spec os ds l' its' C'). auto.
  - intros c. rewrite (opt_get_spec os ds l' its' c C'), (opt_get_spec os ds l its c C). unfold get_meaning. now rewrite Lk.
Qed.
(** [options.positional += values] leaves no positional argument at all. *)
Theorem iadd_clears n os ds l its vs : cmdline os l its -> positionals_ok its ->
  Forall (fun v => ~ dashed (oval_str v) /\ value_ok (oval_str v)) vs ->
  exists o', positional_iadd n (mk_opts l os ds) vs = Ok o' /\ pos_list o' = [] /\ forall c, opt_get o' c = opt_get (mk_opts l os ds) c.
Proof.
  intros C A F. unfold positional_iadd.
  destruct (pos_extend_spec os ds vs l its C) as (l1 & its1 & -> & C1 & P1 & L1); [eapply Forall_impl; [|exact F]; cbn; tauto|]. cbn [bind].
  unfold set_positional_self. destruct (pos_clear_spec os ds l1 its1 C1) as (l2 & -> & C2).
  { intros v I. rewrite P1, in_app_iff in I. destruct I as [I|I]; [now apply A|]. apply in_map_iff in I as (w & <- & I).
    rewrite Forall_forall in F. now apply F. }
  cbn [bind]. assert (E : pos_extend_self n 0 (mk_opts l2 os ds) = Ok (mk_opts l2 os ds)).
  { destruct n; cbn [pos_extend_self]; rewrite (pos_get_spec os ds l2 _ _ C2), only_positionals; reflexivity. }
  rewrite E. eexists. split; [reflexivity|]. split.
  - rewrite (positionals_spec os ds l2 _ C2). apply only_positionals.
  - intros c. rewrite (opt_get_spec os ds l2 _ c C2), (opt_get_spec os ds l its c C). unfold get_meaning. rewrite only_lookup. now rewrite L1.
Qed.
End Uni.
