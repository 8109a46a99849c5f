(** Proofs about macro dumps and the macro context. *)
From Coq Require Import Ascii String.
From Coq Require Import NArith ZArith List Bool Lia.
From Verif Require Import PyStr PyStrFacts Regex RegexFacts M_macros Spec_macros.
Import ListNotations.
Open Scope nat_scope.

Lemma unescape_unescaped : forall s, unescaped s (unescape s).
Proof.
  assert (H : forall k s, length s <= k -> unescaped s (unescape s)); [|intros s; apply (H (length s)); lia].
  induction k as [|k IH]; intros s L; [destruct s; [constructor|cbn in L; lia]|]. destruct s as [|c [|d s]]; cbn in L; [constructor| |].
  - cbn. destruct (N.eqb_spec c PCT) as [->|X]; constructor; try constructor; [intros s'; discriminate|exact X].
  - change (unescape (c :: d :: s)) with (if (c =? PCT)%N && (d =? PCT)%N then PCT :: unescape s else c :: unescape (d :: s)).
    destruct (N.eqb_spec c PCT) as [->|X]; cbn [andb].
    + destruct (N.eqb_spec d PCT) as [->|Y]; [constructor; apply IH; lia|]. apply unescaped_single; [intros s' E; congruence|apply IH; cbn; lia].
    + constructor; [exact X|apply IH; cbn; lia].
Qed.
Lemma unescaped_unique s t : unescaped s t -> forall t', unescaped s t' -> t = t'.
Proof.
  induction 1; intros t' H'; inversion H'; subst; try congruence; try (f_equal; auto).
Qed.

Section Rpm.
Context {W D : Type} (defs : W -> str -> list D) (of_body : str -> D).
Context (del : str -> W -> W) (add : str -> str -> W -> W) (expand : str -> W -> W * result str).
Notation rpm := (rpm defs of_body del add expand).
Notation remove := (remove del expand).
Notation remove_loop := (remove_loop del expand).
Notation same_defs := (same_defs defs).
Notation self_literal := (self_literal expand).

Lemma r_undefined' (names : str -> Prop) : rpm names -> forall n w, names n -> defs w n = [] -> snd (expand (braced n) w) = Ok (braced (unescape n)).
Proof. intros R n w Nn E. apply (r_undefined _ _ _ _ _ _ R); [exact Nn|exact E|apply unescape_unescaped]. Qed.
Lemma self_literal_iff n w : self_literal n w <-> snd (expand (braced n) w) = Ok (braced (unescape n)).
Proof.
  split.
  - intros (t & T & E). rewrite (unescaped_unique _ _ (unescape_unescaped n) _ T). exact E.
  - intros E. exists (unescape n). split; [apply unescape_unescaped|exact E].
Qed.

Lemma loop_spec (names : str -> Prop) n : rpm names -> names n -> forall k w retry, length (defs w n) <= k -> retry <= MAX_REMOVAL_RETRIES ->
  exists w' r, (forall rounds, k < rounds -> remove_loop rounds retry n w = Some (w', r)) /\
    (forall m, m <> n -> defs w' m = defs w m) /\ (exists j, defs w' n = skipn j (defs w n)) /\
    match r with
    | Ok _ => self_literal n w'
    | Err e => e = MacroRemovalException /\ (MAX_REMOVAL_RETRIES - retry <= length (defs w n) - length (defs w' n)) /\ (retry < MAX_REMOVAL_RETRIES -> defs w' n <> [])
    end.
Proof.
  intros R Nn. induction k as [|k IH]; intros w retry L B.
  - destruct (retry <? MAX_REMOVAL_RETRIES) eqn:T.
    + destruct (expand (braced n) (del n w)) as [w1 x] eqn:X.
      assert (E : defs (del n w) n = []) by (rewrite (r_del _ _ _ _ _ _ R); destruct (defs w n); [reflexivity|cbn in L; lia]).
      pose proof (r_undefined' _ R n _ Nn E) as X1. rewrite X in X1. cbn in X1. subst x.
      pose proof (r_expand _ _ _ _ _ _ R (braced n) (del n w)) as SD. rewrite X in SD. cbn in SD.
      exists w1, (Ok tt). split; [|split; [|split]].
      * intros rounds G. destruct rounds as [|rounds]; [lia|]. cbn [M_macros.remove_loop]. rewrite T, X, str_eqb_refl. reflexivity.
      * intros m G. rewrite SD. apply (r_del_other _ _ _ _ _ _ R). exact G.
      * exists 0. rewrite SD, E. destruct (defs w n); [reflexivity|cbn in L; lia].
      * apply self_literal_iff. rewrite <- (r_undefined' _ R n _ Nn E). apply (r_depends _ _ _ _ _ _ R). exact SD.
    + apply Nat.ltb_ge in T. exists w, (Err MacroRemovalException). split; [|split; [|split]].
      * intros rounds G. destruct rounds as [|rounds]; [lia|]. cbn [M_macros.remove_loop]. rewrite (proj2 (Nat.ltb_ge _ _) T). reflexivity.
      * reflexivity.
      * exists 0. reflexivity.
      * split; [reflexivity|]. split; [lia|]. intros; lia.
  - destruct (retry <? MAX_REMOVAL_RETRIES) eqn:T.
    + pose proof T as T'. apply Nat.ltb_lt in T'.
      destruct (expand (braced n) (del n w)) as [w1 x] eqn:X.
      pose proof (r_expand _ _ _ _ _ _ R (braced n) (del n w)) as SD. rewrite X in SD. cbn in SD.
      assert (XS : snd (expand (braced n) (del n w)) = x) by (rewrite X; reflexivity).
      assert (E : defs w1 n = tl (defs w n)) by (rewrite SD; apply (r_del _ _ _ _ _ _ R)).
      assert (O : forall m, m <> n -> defs w1 m = defs w m) by (intros m G; rewrite SD; apply (r_del_other _ _ _ _ _ _ R); exact G).
      assert (L1 : length (defs w1 n) <= k) by (rewrite E; destruct (defs w n); cbn in *; lia).
      assert (SK : forall j, skipn j (defs w1 n) = skipn (S j) (defs w n)) by (intros j; rewrite E; destruct (defs w n); [destruct j; reflexivity|reflexivity]).
      assert (NE : x <> Ok (braced (unescape n)) -> defs w1 n <> []).
      { intros Q Z. apply Q. rewrite <- (r_undefined' _ R n w1 Nn Z). rewrite <- XS.
        apply (r_depends _ _ _ _ _ _ R). intros m. symmetry. apply SD. }
      destruct x as [s|e].
      * destruct (str_eqb s (braced (unescape n))) eqn:Q.
        -- exists w1, (Ok tt). split; [|split; [exact O|split]].
           ++ intros rounds G. destruct rounds as [|rounds]; [lia|]. cbn [M_macros.remove_loop]. rewrite T, X, Q. reflexivity.
           ++ exists 1. rewrite E. destruct (defs w n); reflexivity.
           ++ apply str_eqb_eq in Q. subst s. apply self_literal_iff. rewrite <- XS.
              apply (r_depends _ _ _ _ _ _ R). exact SD.
        -- destruct (IH w1 retry L1 B) as [w' [r [H1 [H2 [[j H3] H4]]]]]. exists w', r. split; [|split; [|split]].
           ++ intros rounds G. destruct rounds as [|rounds]; [lia|]. cbn [M_macros.remove_loop]. rewrite T, X, Q. apply H1. lia.
           ++ intros m G. rewrite H2, O by exact G. reflexivity.
           ++ exists (S j). rewrite H3. apply SK.
           ++ destruct r as [u|e]; [exact H4|]. destruct H4 as [H4 [H5 H6]]. split; [exact H4|]. split; [|exact H6].
              assert (length (defs w1 n) <= length (defs w n)) by (rewrite E; destruct (defs w n); cbn; lia). lia.
      * pose proof (r_error _ _ _ _ _ _ R (braced n) (del n w) e) as X1. rewrite X in X1. rewrite (X1 eq_refl) in *. clear X1.
        destruct (IH w1 (S retry) L1) as [w' [r [H1 [H2 [[j H3] H4]]]]]; [lia|]. exists w', r. split; [|split; [|split]].
        -- intros rounds G. destruct rounds as [|rounds]; [lia|]. cbn [M_macros.remove_loop]. rewrite T, X. apply H1. lia.
        -- intros m G. rewrite H2, O by exact G. reflexivity.
        -- exists (S j). rewrite H3. apply SK.
        -- destruct r as [u|x]; [exact H4|]. destruct H4 as [H4 [H5 H6]]. split; [exact H4|].
           assert (N1 : defs w1 n <> []) by (apply NE; discriminate).
           assert (L2 : S (length (defs w1 n)) = length (defs w n)) by (rewrite E in *; destruct (defs w n); [contradiction|reflexivity]).
           assert (L3 : length (defs w' n) <= length (defs w1 n)) by (rewrite H3, skipn_length; lia).
           split; [lia|]. intros _. destruct (Nat.eq_dec (S retry) MAX_REMOVAL_RETRIES) as [Z|Z]; [|apply H6; lia].
           specialize (H1 (S (S k)) ltac:(lia)). cbn [M_macros.remove_loop] in H1. rewrite (proj2 (Nat.ltb_ge _ _)) in H1 by lia. injection H1 as <- _. exact N1.
    + apply Nat.ltb_ge in T. exists w, (Err MacroRemovalException). split; [|split; [|split]].
      * intros rounds G. destruct rounds as [|rounds]; [lia|]. cbn [M_macros.remove_loop]. rewrite (proj2 (Nat.ltb_ge _ _) T). reflexivity.
      * reflexivity.
      * exists 0. reflexivity.
      * split; [reflexivity|]. split; [lia|]. intros; lia.
Qed.

Lemma remove_spec (names : str -> Prop) n w : rpm names -> names n ->
  exists w' r, (forall rounds, length (defs w n) < rounds -> remove rounds n w = Some (w', r)) /\
    (forall m, m <> n -> defs w' m = defs w m) /\ (exists j, defs w' n = skipn j (defs w n)) /\
    match r with Ok _ => self_literal n w' | Err e => e = MacroRemovalException /\ MAX_REMOVAL_RETRIES < length (defs w n) end.
Proof.
  intros R Nn. destruct (loop_spec names n R Nn (length (defs w n)) w 0) as [w' [r [H1 [H2 [H3 H4]]]]]; [lia|lia|].
  exists w', r. split; [exact H1|]. split; [exact H2|]. split; [exact H3|]. destruct r as [u|e]; [exact H4|]. destruct H4 as [-> [H5 H6]]. split; [reflexivity|].
  assert (0 < length (defs w' n)) by (destruct (defs w' n); [exfalso; apply H6; [cbv; lia|reflexivity]|cbn; lia]). unfold MAX_REMOVAL_RETRIES in *. lia.
Qed.
(** The outcome does not depend on the limit. *)
Lemma loop_more n : forall rounds retry w x, remove_loop rounds retry n w = Some x -> forall more, rounds <= more -> remove_loop more retry n w = Some x.
Proof.
  induction rounds as [|rounds IH]; intros retry w x H more L; [discriminate|]. destruct more as [|more]; [lia|]. cbn [M_macros.remove_loop] in *.
  destruct (retry <? MAX_REMOVAL_RETRIES); [|exact H]. destruct (expand (braced n) (del n w)) as [w1 [s|[]]]; try exact H.
  - destruct (str_eqb s (braced (unescape n))); [exact H|]. apply (IH _ _ _ H). lia.
  - apply (IH _ _ _ H). lia.
Qed.
Lemma remove_inv (names : str -> Prop) n w rounds w' r : rpm names -> names n -> remove rounds n w = Some (w', r) ->
    (forall m, m <> n -> defs w' m = defs w m) /\ (exists j, defs w' n = skipn j (defs w n)) /\
    match r with Ok _ => self_literal n w' | Err e => e = MacroRemovalException /\ MAX_REMOVAL_RETRIES < length (defs w n) end.
Proof.
  intros R Nn H. destruct (remove_spec names n w R Nn) as [w1 [r1 [H1 H2]]].
  specialize (H1 (S (length (defs w n)) + rounds) ltac:(lia)). unfold M_macros.remove in *.
  rewrite (loop_more _ _ _ _ _ H) in H1 by lia. injection H1 as <- <-. exact H2.
Qed.

Lemma remove_undefined (names : str -> Prop) n w rounds w' : rpm names -> no_self_literals defs expand names -> names n ->
  remove rounds n w = Some (w', Ok tt) -> defs w' n = [].
Proof. intros R NS Nn H. apply NS; [exact Nn|]. apply (remove_inv names n w rounds w' (Ok tt) R Nn H). Qed.
Lemma remove_stops_early (names : str -> Prop) n w d d' ds rounds : rpm names -> defs w n = d :: d' :: ds -> self_literal n (del n w) -> 0 < rounds ->
  exists w', remove rounds n w = Some (w', Ok tt) /\ defs w' n = d' :: ds.
Proof.
  intros R E S G. destruct rounds as [|rounds]; [lia|]. unfold M_macros.remove. cbn [M_macros.remove_loop].
  change (0 <? MAX_REMOVAL_RETRIES) with true. cbn iota. destruct (expand (braced n) (del n w)) as [w1 x] eqn:X.
  pose proof (r_expand _ _ _ _ _ _ R (braced n) (del n w)) as SD. rewrite X in SD. cbn in SD.
  apply self_literal_iff in S. rewrite X in S. cbn in S. subst x. rewrite str_eqb_refl. exists w1. split; [reflexivity|].
  rewrite SD, (r_del _ _ _ _ _ _ R), E. reflexivity.
Qed.
Lemma remove_hangs n : (forall w, ~ self_literal n w /\ exists s, snd (expand (braced n) w) = Ok s) -> forall rounds w, remove rounds n w = None.
Proof.
  intros A. unfold M_macros.remove. induction rounds as [|rounds IH]; intros w; [reflexivity|]. cbn [M_macros.remove_loop].
  change (0 <? MAX_REMOVAL_RETRIES) with true. cbn iota. destruct (A (del n w)) as [Ns [s Es]]. rewrite self_literal_iff in Ns. destruct (expand (braced n) (del n w)) as [w1 x]. cbn in Es, Ns. subst x.
  destruct (str_eqb s (braced (unescape n))) eqn:Q; [apply str_eqb_eq in Q; subst s; contradiction|apply IH].
Qed.

(** * Definitions *)
Notation define := (define del add expand).
Notation set_macros := (set_macros del add expand).
Lemma define_spec (names : str -> Prop) n b w : rpm names -> names n ->
  exists w' r, (forall rounds, length (defs w n) < rounds -> define rounds n b w = Some (w', r)) /\ (forall m, m <> n -> defs w' m = defs w m) /\
    match r with Ok _ => exists ds, defs w' n = of_body b :: ds /\ (no_self_literals defs expand names -> ds = []) | Err e => e = MacroRemovalException /\ MAX_REMOVAL_RETRIES < length (defs w n) end.
Proof.
  intros R Nn. destruct (remove_spec names n w R Nn) as [w1 [r [H1 [H2 [_ H4]]]]]. destruct r as [[]|e].
  - exists (add n b w1), (Ok tt). split; [|split].
    + intros rounds G. unfold M_macros.define. rewrite (H1 rounds G). reflexivity.
    + intros m G. rewrite (r_add_other _ _ _ _ _ _ R) by exact G. apply H2. exact G.
    + exists (defs w1 n). split; [apply (r_add _ _ _ _ _ _ R)|]. intros NS. apply NS; assumption.
  - exists w1, (Err e). split; [|split].
    + intros rounds G. unfold M_macros.define. rewrite (H1 rounds G). reflexivity.
    + exact H2.
    + exact H4.
Qed.
Lemma define_inv (names : str -> Prop) n b w rounds w' r : rpm names -> names n -> define rounds n b w = Some (w', r) ->
  (forall m, m <> n -> defs w' m = defs w m) /\
    match r with Ok _ => exists ds, defs w' n = of_body b :: ds /\ (no_self_literals defs expand names -> ds = []) | Err e => e = MacroRemovalException /\ MAX_REMOVAL_RETRIES < length (defs w n) end.
Proof.
  intros R Nn H. destruct (define_spec names n b w R Nn) as [w1 [r1 [H1 H2]]]. unfold M_macros.define, and_then in *.
  destruct (remove rounds n w) as [[w2 r2]|] eqn:Q; [|discriminate].
  specialize (H1 (S (length (defs w n)) + rounds) ltac:(lia)). unfold M_macros.remove in *. rewrite (loop_more _ _ _ _ _ Q) in H1 by lia.
  destruct r2; cbn in H, H1; rewrite H in H1; injection H1 as <- <-; exact H2.
Qed.
(** What is left of the definitions of [n] after the extra macros. *)
Definition outcome (macros : list (str * option str)) (w w' : W) (n : str) : Prop :=
  defs w' n = match last_entry n macros with None => defs w n | Some None => [] | Some (Some v) => [of_body v] end.
Lemma set_macros_inv (names : str -> Prop) : rpm names -> no_self_literals defs expand names -> forall macros rounds w w', Forall (fun x => names (fst x)) macros ->
  set_macros rounds macros w = Some (w', Ok tt) -> forall n, outcome macros w w' n.
Proof.
  intros R NS. induction macros as [|[m v] macros IH]; intros rounds w w' F H n.
  - cbn in H. injection H as <-. reflexivity.
  - inversion F as [|? ? Fm F']; subst. cbn [fst] in Fm. cbn [M_macros.set_macros] in H.
    destruct (match v with None => remove rounds m w | Some v0 => define rounds m v0 w end) as [[w1 [[]|e]]|] eqn:Q; try discriminate. cbn [and_then] in H.
    specialize (IH rounds w1 w' F' H n). unfold outcome in *. cbn [last_entry]. rewrite IH. destruct (last_entry n macros) as [x|]; [reflexivity|].
    destruct (str_eqb m n) eqn:K.
    + apply str_eqb_eq in K. subst m. destruct v as [v|].
      * destruct (define_inv names _ _ _ _ _ _ R Fm Q) as [_ [ds [-> Z]]]. rewrite (Z NS). reflexivity.
      * apply (remove_undefined names _ _ _ _ R NS Fm Q).
    + assert (K' : n <> m) by (intros ->; rewrite str_eqb_refl in K; discriminate). destruct v as [v|].
      * apply (define_inv names _ _ _ _ _ _ R Fm Q). exact K'.
      * apply (remove_inv names _ _ _ _ _ R Fm Q). exact K'.
Qed.
(** Up to 20 definitions, nothing is raised. *)
Lemma remove_total (names : str -> Prop) n w : rpm names -> names n -> length (defs w n) <= 20 -> exists w', forall rounds, length (defs w n) < rounds -> remove rounds n w = Some (w', Ok tt).
Proof.
  intros R Nn L. destruct (remove_spec names n w R Nn) as [w' [r [H1 [_ [_ H4]]]]]. exists w'. destruct r as [[]|e]; [exact H1|]. destruct H4 as [_ H4]. unfold MAX_REMOVAL_RETRIES in H4. lia.
Qed.

(** * Reinitialisation *)
Context {U : Unicode} (reload : W -> W) (dump : W -> list str) (level : D -> Z).
Notation remove_all := (remove_all del expand).
Lemma remove_all_inv (names : str -> Prop) threshold : rpm names -> no_self_literals defs expand names -> forall ms rounds w w', Forall (fun m => names (m_name m)) ms ->
  remove_all rounds threshold ms w = Some (w', Ok tt) ->
  forall n, ((exists m, In m ms /\ m_name m = n /\ (threshold < m_level m)%Z) -> defs w' n = []) /\
            ((forall m, In m ms -> m_name m = n -> (m_level m <= threshold)%Z) -> defs w' n = defs w n).
Proof.
  intros R NS. induction ms as [|m ms IH]; intros rounds w w' F H n.
  - cbn in H. injection H as <-. split; [intros [m [[] _]]|reflexivity].
  - inversion F as [|? ? Fm F']; subst. cbn [M_macros.remove_all] in H. destruct (threshold <? m_level m)%Z eqn:T.
    + apply Z.ltb_lt in T. destruct (remove rounds (m_name m) w) as [[w1 [[]|e]]|] eqn:Q; try discriminate. cbn [and_then] in H.
      destruct (IH rounds w1 w' F' H n) as [I1 I2]. destruct (remove_inv names _ _ _ _ _ R Fm Q) as [O _]. pose proof (remove_undefined names _ _ _ _ R NS Fm Q) as Z0.
      split.
      * intros [m' [[->|I] [E G]]]; [|apply I1; eauto]. subst n.
        destruct (existsb (fun x => str_eqb (m_name x) (m_name m') && (threshold <? m_level x)%Z) ms) eqn:X.
        -- apply existsb_exists in X. destruct X as [x [Ix Ex]]. apply andb_true_iff in Ex. destruct Ex as [E1 E2]. apply str_eqb_eq in E1. apply Z.ltb_lt in E2. apply I1. eauto.
        -- rewrite I2; [exact Z0|]. intros x Ix Ex. destruct (Z.leb_spec (m_level x) threshold) as [C|C]; [exact C|]. exfalso.
           enough (Y : existsb (fun x => str_eqb (m_name x) (m_name m') && (threshold <? m_level x)%Z) ms = true) by congruence.
           apply existsb_exists. exists x. split; [exact Ix|]. rewrite Ex, str_eqb_refl. apply Z.ltb_lt in C. rewrite C. reflexivity.
      * intros A. assert (K : n <> m_name m) by (intros ->; specialize (A m (or_introl eq_refl) eq_refl); lia).
        rewrite I2 by (intros x Ix Ex; apply A; [right; exact Ix|exact Ex]). apply O. exact K.
    + apply Z.ltb_ge in T. destruct (IH rounds w w' F' H n) as [I1 I2]. split.
      * intros [m' [[->|I] [E G]]]; [lia|]. apply I1. eauto.
      * intros A. apply I2. intros x Ix Ex. apply A; [right; exact Ix|exact Ex].
Qed.
Lemma reinit_inv (names : str -> Prop) threshold rounds w w' : rpm names -> no_self_literals defs expand names ->
  (forall n d ds, defs (reload w) n = d :: ds -> names n) -> faithful defs level (reload w) (dump (reload w)) ->
  reinit del expand reload dump rounds threshold w = Some (w', Ok tt) ->
  forall n, defs w' n = match defs (reload w) n with d :: ds => if (level d <=? threshold)%Z then d :: ds else [] | [] => [] end.
Proof.
  intros R NS NM [ms [P [F1 F2]]] H n. unfold reinit in H. rewrite P in H.
  assert (F : Forall (fun m => names (m_name m)) ms).
  { apply Forall_forall. intros m I. destruct (F1 m I) as [d [ds [E _]]]. apply (NM _ _ _ E). }
  destruct (remove_all_inv names threshold R NS ms rounds _ _ F H n) as [I1 I2].
  assert (LV : forall m, In m ms -> m_name m = n -> forall d ds, defs (reload w) n = d :: ds -> m_level m = level d).
  { intros m I <- d ds E. destruct (F1 m I) as [d' [ds' [E' L]]]. congruence. }
  destruct (defs (reload w) n) as [|d ds] eqn:E.
  - apply I2. intros m I Em. destruct (F1 m I) as [d [ds [E' _]]]. rewrite Em in E'. congruence.
  - destruct (Z.leb_spec (level d) threshold) as [C|C].
    + apply I2. intros m I Em. rewrite (LV m I Em d ds eq_refl). exact C.
    + destruct (F2 n d ds E) as [m [I Em]]. apply I1. exists m. split; [exact I|]. split; [exact Em|]. rewrite (LV m I Em d ds eq_refl). exact C.
Qed.
(** The context in which a spec file is parsed. *)
Lemma context_inv (names : str -> Prop) rounds macros extra sourcedir w w' : rpm names -> no_self_literals defs expand names ->
  (forall n d ds, defs (reload w) n = d :: ds -> names n) -> faithful defs level (reload w) (dump (reload w)) ->
  Forall (fun x => names (fst x)) (macros ++ extra) -> names (lit "_sourcedir") ->
  context del add expand reload dump rounds macros extra sourcedir w = Some (w', Ok tt) ->
  forall n, defs w' n = if str_eqb n (lit "_sourcedir") then [of_body sourcedir]
    else match last_entry n (macros ++ extra) with
         | Some (Some v) => [of_body v]
         | Some None => []
         | None => match defs (reload w) n with d :: ds => if (level d <=? RPMRC)%Z then d :: ds else [] | [] => [] end
         end.
Proof.
  intros R NS NM FD F NSD H n. unfold context in H.
  destruct (reinit del expand reload dump rounds RPMRC w) as [[w1 [[]|e]]|] eqn:Q1; try discriminate. cbn [and_then] in H.
  destruct (set_macros rounds (macros ++ extra) w1) as [[w2 [[]|e]]|] eqn:Q2; try discriminate. cbn [and_then] in H.
  destruct (define_inv names _ _ _ _ _ _ R NSD H) as [O [ds [E Z0]]]. rewrite (Z0 NS) in E.
  destruct (str_eqb n (lit "_sourcedir")) eqn:K.
  - apply str_eqb_eq in K. subst n. exact E.
  - assert (K' : n <> lit "_sourcedir") by (intros ->; rewrite str_eqb_refl in K; discriminate). rewrite (O n K').
    pose proof (set_macros_inv names R NS _ _ _ _ F Q2 n) as O2. unfold outcome in O2. rewrite O2.
    destruct (last_entry n (macros ++ extra)) as [[v|]|]; [reflexivity|reflexivity|]. apply (reinit_inv names _ _ _ _ R NS NM FD Q1).
Qed.
End Rpm.
Lemma define_total {W D : Type} (defs : W -> str -> list D) of_body del add expand (names : str -> Prop) n b w : rpm defs of_body del add expand names -> no_self_literals defs expand names -> names n -> length (defs w n) <= 20 ->
  exists w', (forall rounds, length (defs w n) < rounds -> define del add expand rounds n b w = Some (w', Ok tt)) /\
    defs w' n = [of_body b] /\ forall m, m <> n -> defs w' m = defs w m.
Proof.
  intros R NS Nn L. destruct (define_spec defs of_body del add expand names n b w R Nn) as (w' & r & H1 & H2 & H3). exists w'.
  destruct r as [[]|e]; [|destruct H3 as [_ H3]; unfold MAX_REMOVAL_RETRIES in H3; lia]. destruct H3 as (ds & H3 & H4). rewrite (H4 NS) in H3. auto.
Qed.
