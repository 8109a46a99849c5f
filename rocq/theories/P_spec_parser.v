(** Proofs about the parse cache. *)
From Coq Require Import Ascii String.
From Coq Require Import NArith ZArith List Bool Lia.
From Verif Require Import PyStr PyStrFacts M_spec_parser Spec_spec_parser.
Import ListNotations.
Open Scope nat_scope.

Lemma value_eqb_eq a b : value_eqb a b = true <-> a = b.
Proof.
  destruct a as [a|], b as [b|]; cbn; try (split; [discriminate|congruence]); [|split; auto].
  rewrite str_eqb_eq. split; congruence.
Qed.
Lemma macros_eqb_eq a : forall b, macros_eqb a b = true <-> a = b.
Proof.
  induction a as [|[n v] a IH]; intros [|[m u] b]; cbn [macros_eqb]; try (split; [discriminate|discriminate]); [split; auto|].
  rewrite !andb_true_iff, str_eqb_eq, value_eqb_eq, IH. split; [intros [[-> ->] ->]; reflexivity|]. intros E. injection E as -> -> ->. auto.
Qed.
Lemma key_eqb_eq a b : key_eqb a b = true <-> a = b.
Proof.
  destruct a as [i d m f c e], b as [i' d' m' f' c' e']. unfold key_eqb. cbn. rewrite !andb_true_iff, Nat.eqb_eq, !str_eqb_eq, macros_eqb_eq, Bool.eqb_true_iff.
  assert (E : (match e with Some x => match e' with Some y => macros_eqb x y | None => false end | None => match e' with Some _ => false | None => true end end = true) <-> e = e').
  { destruct e as [e|], e' as [e'|]; try (split; [discriminate|congruence]); [|split; auto]. rewrite macros_eqb_eq. split; congruence. }
  rewrite E. split; [intros [[[[[-> ->] ->] ->] ->] ->]; reflexivity|]. intros X. injection X as -> -> -> -> -> ->. auto 10.
Qed.

Section Cache.
Context {G A : Type} (run : key -> G -> G * option (result (A * bool))).
Notation process := (process G A).
Notation parse := (@parse G A run).
Notation step := (@step G A run).
Notation steps := (@steps G A run).

Lemma get_set i j (p : parser A) l : get_parser j (set_parser i p l) = if Nat.eqb i j then match get_parser i l with Some _ => Some p | None => None end else get_parser j l.
Proof.
  induction l as [|[k q] l IH]; [cbn; destruct (i =? j); reflexivity|]. cbn [set_parser map fst get_parser]. unfold set_parser in IH. destruct (Nat.eqb_spec i k) as [->|N]; cbn [get_parser].
  - destruct (Nat.eqb_spec j k) as [->|M]; [rewrite Nat.eqb_refl; reflexivity|]. rewrite IH. destruct (Nat.eqb_spec k j); [congruence|reflexivity].
  - destruct (Nat.eqb_spec j k) as [->|M]; [destruct (Nat.eqb_spec i k); [congruence|reflexivity]|]. exact IH.
Qed.
Lemma ids_set i (p : parser A) l : map fst (set_parser i p l) = map fst l.
Proof. unfold set_parser. rewrite map_map. apply map_ext. intros [k q]. cbn. destruct (i =? k); reflexivity. Qed.
Lemma get_none i (l : list (nat * parser A)) : ~ In i (map fst l) -> get_parser i l = None.
Proof. induction l as [|[k q] l IH]; intros N; [reflexivity|]. cbn in *. destruct (Nat.eqb_spec i k) as [->|M]; [exfalso; auto|]. apply IH. tauto. Qed.
Lemma get_filter i j (l : list (nat * parser A)) : get_parser j (filter (fun x => negb (i =? fst x)) l) = if i =? j then None else get_parser j l.
Proof.
  induction l as [|[k q] l IH]; [cbn; destruct (i =? j); reflexivity|]. cbn [filter fst get_parser]. destruct (Nat.eqb_spec i k) as [->|N]; cbn [negb].
  - rewrite IH. destruct (Nat.eqb_spec k j) as [->|M]; [reflexivity|]. destruct (Nat.eqb_spec j k); [congruence|reflexivity].
  - cbn [get_parser]. rewrite IH. destruct (Nat.eqb_spec j k) as [->|M]; [destruct (Nat.eqb_spec i k); [congruence|reflexivity]|reflexivity].
Qed.
Lemma ids_filter i (l : list (nat * parser A)) : map fst (filter (fun x => negb (i =? fst x)) l) = filter (fun x => negb (i =? x)) (map fst l).
Proof. induction l as [|[k q] l IH]; [reflexivity|]. cbn [filter fst map]. destruct (negb (i =? k)); [cbn; f_equal|]; exact IH. Qed.

(** * The invariant *)
Section Invariant.
Context (same input : G -> G -> Prop) (R : repeatable run input) (ES : equivalence same) (SI : forall a b, same a b -> input a b).
Definition ok (used alive : list nat) (s : process) : Prop :=
  map fst (p_parsers s) = alive /\ incl alive used /\
  match p_last s with
  | None => True
  | Some k =>
      In (k_id k) used /\
      exists g g' spec tainted, run k g = (g', Some (Ok (spec, tainted))) /\ input g (p_world s) /\ same g' (p_world s) /\
        forall p, get_parser (k_id k) (p_parsers s) = Some p -> p_spec p = Some (Some spec) /\ p_tainted p = tainted
  end.

Lemma parse_ok used alive i content extra s : ok used alive s -> ok used alive (fst (parse i content extra s)).
Proof.
  intros (E & I & L). unfold M_spec_parser.parse. destruct (get_parser i (p_parsers s)) as [p|] eqn:Gp; [|split; auto].
  destruct (match p_last s with Some k' => key_eqb (key_of i p content extra) k' | None => false end); [split; auto|].
  destruct (p_spec p) as [old|]; [|split; auto].
  set (p1 := with_spec _ _ p). set (k := key_of i p content extra).
  pose proof (r_kept _ _ R k (p_world s)) as K. pose proof (r_ends _ _ R k (p_world s)) as F.
  destruct (run k (p_world s)) as [g o] eqn:Er. cbn [fst snd] in K, F. destruct o as [[[spec tainted]|e]|]; [| |congruence].
  - split; [cbn; rewrite ids_set; exact E|]. split; [exact I|]. cbn [fst p_last p_world p_parsers]. cbn [k_id key_of k].
    assert (Ii : In i alive). { rewrite <- E. destruct (in_dec Nat.eq_dec i (map fst (p_parsers s))) as [Y|N]; [exact Y|]. rewrite (get_none _ _ N) in Gp. discriminate. }
    split; [apply I; exact Ii|]. exists (p_world s), g, spec, tainted. split; [exact Er|]. split; [apply (proj1 (proj2 (r_equiv _ _ R))); exact K|]. split; [apply (proj1 ES)|].
    intros q Q. rewrite get_set, Nat.eqb_refl, Gp in Q. injection Q as <-. auto.
  - assert (X : forall q, ok used alive (mk_process g None (set_parser i q (p_parsers s)))).
    { intros q. split; [cbn; rewrite ids_set; exact E|]. split; [exact I|exact Logic.I]. }
    destruct e; apply X.
Qed.

Lemma step_ok e es used alive s : allocated used alive (e :: es) -> harmless same (e :: es) -> ok used alive s ->
  exists used' alive', ok used' alive' (step e s) /\ allocated used' alive' es.
Proof.
  intros Al H (E & I & L). destruct e as [i d m f|i j|i|i d m f|i c x|f]; cbn [allocated] in Al; cbn [M_spec_parser.step].
  - destruct Al as [Ni Al]. exists (i :: used), (i :: alive). split; [|exact Al]. split; [cbn; rewrite E; reflexivity|]. split; [|exact Logic.I].
    intros y [->|Y]; [left; reflexivity|right; apply I; exact Y].
  - destruct Al as [Ii [Nj Al]]. destruct (get_parser i (p_parsers s)) as [p|] eqn:Gp.
    2: { exfalso. rewrite <- E in Ii. clear - Ii Gp. induction (p_parsers s) as [|[k q] l IH]; [exact Ii|]. cbn in *. destruct (Nat.eqb_spec i k); [discriminate|]. destruct Ii as [->|Ii]; [congruence|auto]. }
    exists (j :: used), (j :: alive). split; [|exact Al]. split; [cbn; rewrite E; reflexivity|]. split.
    + intros y [->|Y]; [left; reflexivity|right; apply I; exact Y].
    + cbn [p_last p_world p_parsers]. destruct (p_last s) as [k|]; [|exact Logic.I]. destruct L as [Lk (g & g' & spec & t & L1 & L2 & L3 & L4)].
      split; [right; exact Lk|]. exists g, g', spec, t. split; [exact L1|]. split; [exact L2|]. split; [exact L3|]. intros q Q. apply L4. cbn [get_parser] in Q.
      destruct (Nat.eqb_spec (k_id k) j) as [Z|]; [congruence|exact Q].
  - exists used, (filter (fun x => negb (i =? x)) alive). split; [|exact Al]. split; [cbn; rewrite ids_filter, E; reflexivity|]. split.
    + intros y Y. apply filter_In in Y. apply I. apply Y.
    + cbn [p_last p_world p_parsers]. destruct (p_last s) as [k|]; [|exact Logic.I]. destruct L as [Lk (g & g' & spec & t & L1 & L2 & L3 & L4)].
      split; [exact Lk|]. exists g, g', spec, t. split; [exact L1|]. split; [exact L2|]. split; [exact L3|]. intros q Q. apply L4. rewrite get_filter in Q. destruct (i =? k_id k); [discriminate|exact Q].
  - exists used, alive. split; [|exact Al]. destruct (get_parser i (p_parsers s)) as [p|] eqn:Gp; [|split; auto].
    split; [cbn; rewrite ids_set; exact E|]. split; [exact I|]. cbn [p_last p_world p_parsers]. destruct (p_last s) as [k|]; [|exact Logic.I].
    destruct L as [Lk (g & g' & spec & t & L1 & L2 & L3 & L4)]. split; [exact Lk|]. exists g, g', spec, t. split; [exact L1|]. split; [exact L2|]. split; [exact L3|].
    intros q Q. rewrite get_set in Q. destruct (Nat.eqb_spec i (k_id k)) as [->|N]; [|apply L4; exact Q]. rewrite Gp in Q. injection Q as <-. apply (L4 p Gp).
  - exists used, alive. split; [|exact Al]. apply parse_ok. split; auto.
  - exists used, alive. split; [|exact Al]. split; [exact E|]. split; [exact I|]. cbn [p_last p_world p_parsers]. destruct (p_last s) as [k|]; [|exact Logic.I].
    destruct L as [Lk (g & g' & spec & t & L1 & L2 & L3 & L4)]. split; [exact Lk|]. exists g, g', spec, t. split; [exact L1|].
    assert (S1 : same (p_world s) (f (p_world s))) by (apply (proj1 (proj2 ES)); apply (H f); left; reflexivity).
    split; [|split; [|exact L4]]; [destruct (r_equiv _ _ R) as (_ & _ & T); apply (T _ _ _ L2), SI, S1|destruct ES as (_ & _ & T); apply (T _ _ _ L3), S1].
Qed.
Lemma steps_ok es : forall used alive s, allocated used alive es -> harmless same es -> ok used alive s -> exists used' alive', ok used' alive' (steps es s).
Proof.
  induction es as [|e es IH]; intros used alive s Al H O; [exists used, alive; exact O|].
  destruct (step_ok e es used alive s Al H O) as (u & a & O' & Al'). change (steps (e :: es) s) with (steps es (step e s)). apply (IH u a); auto.
  intros f F. apply H. right. exact F.
Qed.
Lemma transparent es g0 i content extra : allocated [] [] es -> harmless same es ->
  let s := steps es (mk_process g0 None []) in
  snd (parse i content extra s) = snd (parse i content extra (forget s)) /\
  same (p_world (fst (parse i content extra s))) (p_world (fst (parse i content extra (forget s)))) /\
  forall j, get_parser j (p_parsers (fst (parse i content extra s))) = get_parser j (p_parsers (fst (parse i content extra (forget s)))).
Proof.
  intros Al H s. destruct (steps_ok es [] [] (mk_process g0 None []) Al H) as (used & alive & E & I & L).
  { split; [reflexivity|]. split; [intros x []|exact Logic.I]. }
  fold s in E, I, L. unfold M_spec_parser.parse, forget. cbn [p_parsers p_last p_world].
  destruct (get_parser i (p_parsers s)) as [p|] eqn:Gp; [|split; [reflexivity|]; split; [apply (proj1 ES)|reflexivity]].
  destruct (p_last s) as [k'|] eqn:Lk.
  - destruct (key_eqb (key_of i p content extra) k') eqn:K.
    + apply key_eqb_eq in K. subst k'. destruct L as [_ (g & g' & spec & t & L1 & L2 & L3 & L4)]. cbn [key_of k_id] in L4. destruct (L4 p Gp) as [P1 P2]. rewrite P1.
      rewrite <- (r_run _ _ R _ _ _ L2), L1. cbn [fst snd p_world p_parsers]. split; [reflexivity|]. split; [apply (proj1 (proj2 ES)); exact L3|].
      intros j. rewrite get_set. destruct (Nat.eqb_spec i j) as [<-|N]; [|reflexivity]. rewrite Gp. f_equal. destruct p as [d m f sp ta]. cbn in *. subst. reflexivity.
    + destruct (p_spec p) as [old|]; [|split; [reflexivity|]; split; [apply (proj1 ES)|reflexivity]].
      pose proof (r_ends _ _ R (key_of i p content extra) (p_world s)) as F. destruct (run (key_of i p content extra) (p_world s)) as [g [[[spec t]|e]|]]; [| |contradiction F; reflexivity].
      * split; [reflexivity|]; split; [apply (proj1 ES)|reflexivity].
      * destruct e; (split; [reflexivity|]; split; [apply (proj1 ES)|reflexivity]).
  - split; [|split; [|intros j]].
    + destruct (p_spec p); [|reflexivity]. destruct (run (key_of i p content extra) (p_world s)) as [g [[[spec t]|e]|]]; [reflexivity| |reflexivity]. destruct e; reflexivity.
    + destruct (p_spec p); [|apply (proj1 ES)]. destruct (run (key_of i p content extra) (p_world s)) as [g [[[spec t]|e]|]]; [apply (proj1 ES)| |apply (proj1 ES)]. destruct e; apply (proj1 ES).
    + destruct (p_spec p); [|reflexivity]. destruct (run (key_of i p content extra) (p_world s)) as [g [[[spec t]|e]|]]; [reflexivity| |reflexivity]. destruct e; reflexivity.
Qed.
End Invariant.

(** * What goes wrong *)
Lemma key_refl k : key_eqb k k = true.
Proof. apply key_eqb_eq. reflexivity. Qed.
Lemma after_success i content extra s : snd (parse i content extra s) = Some (Ok tt) ->
  exists p, get_parser i (p_parsers (fst (parse i content extra s))) = Some p /\ p_last (fst (parse i content extra s)) = Some (key_of i p content extra).
Proof.
  unfold M_spec_parser.parse. destruct (get_parser i (p_parsers s)) as [p|] eqn:Gp; [|discriminate].
  destruct (p_last s) as [k|] eqn:Lk.
  - destruct (key_eqb (key_of i p content extra) k) eqn:K.
    + intros _. cbn [fst]. exists p. split; [exact Gp|]. apply key_eqb_eq in K. rewrite K. exact Lk.
    + destruct (p_spec p); [|discriminate]. destruct (run (key_of i p content extra) (p_world s)) as [g [[[spec t]|e]|]]; [|destruct e; discriminate|discriminate].
      intros _. cbn [fst p_parsers p_last]. eexists. rewrite get_set, Nat.eqb_refl, Gp. split; reflexivity.
  - destruct (p_spec p); [|discriminate]. destruct (run (key_of i p content extra) (p_world s)) as [g [[[spec t]|e]|]]; [|destruct e; discriminate|discriminate].
    intros _. cbn [fst p_parsers p_last]. eexists. rewrite get_set, Nat.eqb_refl, Gp. split; reflexivity.
Qed.
Lemma skipped i content extra s p : get_parser i (p_parsers s) = Some p -> p_last s = Some (key_of i p content extra) -> parse i content extra s = (s, Some (Ok tt)).
Proof. intros Gp L. unfold M_spec_parser.parse. rewrite Gp, L, key_refl. reflexivity. Qed.
Lemma changes_unnoticed f i content extra s : snd (parse i content extra s) = Some (Ok tt) ->
  let s1 := step (Other f) (fst (parse i content extra s)) in
  p_world s1 = f (p_world (fst (parse i content extra s))) /\ parse i content extra s1 = (s1, Some (Ok tt)).
Proof.
  intros H s1. split; [reflexivity|]. destruct (after_success _ _ _ _ H) as (p & Gp & L). apply (skipped _ _ _ _ p); [exact Gp|exact L].
Qed.
Lemma copy_unparsed d m f content extra g g' spec t : run (mk_key 0 d m f content extra) g = (g', Some (Ok (spec, t))) ->
  let s := steps [New 0 d m f; Parse 0 content extra; Copy 0 1; Drop 0; Copy 1 0] (mk_process g None []) in
  parse 0 content extra s = (s, Some (Ok tt)) /\ exists p, get_parser 0 (p_parsers s) = Some p /\ p_spec p = Some None.
Proof.
  intros H s.
  assert (E : s = mk_process g' (Some (mk_key 0 d m f content extra)) [(0, mk_parser d m f (Some None) false); (1, mk_parser d m f (Some None) false)]).
  { unfold s, M_spec_parser.steps. cbn -[key_eqb]. unfold key_of. cbn -[key_eqb]. rewrite H. reflexivity. }
  rewrite E. split; [|eexists; split; reflexivity]. apply (skipped _ _ _ _ (mk_parser d m f (Some None) false)); reflexivity.
Qed.
Lemma interrupted i content extra content' extra' s s2 : snd (parse i content extra s) = Some (Ok tt) ->
  let s1 := fst (parse i content extra s) in
  parse i content' extra' s1 = (s2, None) ->
  (exists p, get_parser i (p_parsers s1) = Some p /\ run (key_of i p content' extra') (p_world s1) = (p_world s2, None)) /\
  parse i content extra s2 = (s2, Some (Ok tt)) /\ exists p, get_parser i (p_parsers s2) = Some p /\ (p_spec p = None \/ p_spec p = Some None).
Proof.
  intros H s1 N. destruct (after_success _ _ _ _ H) as (p & Gp & L). fold s1 in Gp, L.
  revert N. unfold M_spec_parser.parse at 1. rewrite Gp, L.
  destruct (key_eqb (key_of i p content' extra') (key_of i p content extra)); [discriminate|]. destruct (p_spec p) as [old|] eqn:Sp; [|discriminate].
  destruct (run (key_of i p content' extra') (p_world s1)) as [g [[[spec t]|e]|]] eqn:Er; [discriminate|destruct e; discriminate|]. intros N. injection N as <-.
  cbn [p_world p_parsers]. split; [eauto|]. split.
  - eapply skipped; [cbn [p_parsers]; rewrite get_set, Nat.eqb_refl, Gp; reflexivity|]. cbn [p_last]. reflexivity.
  - rewrite get_set, Nat.eqb_refl, Gp. eexists. split; [reflexivity|]. cbn. destruct old; auto.
Qed.
(** A parser without the attribute *)
Definition stuck (i : nat) (s : process) : Prop :=
  (exists p, get_parser i (p_parsers s) = Some p /\ p_spec p = None) /\ forall k, p_last s = Some k -> k_id k <> i.
Lemma stuck_parse i content extra s : stuck i s -> parse i content extra s = (s, Some (Err AttributeError)).
Proof.
  intros [(p & Gp & Sp) L]. unfold M_spec_parser.parse. rewrite Gp, Sp. destruct (p_last s) as [k|]; [|reflexivity].
  destruct (key_eqb (key_of i p content extra) k) eqn:K; [|reflexivity]. apply key_eqb_eq in K. subst k. exfalso. apply (L _ eq_refl). reflexivity.
Qed.
Lemma stuck_step i e s : leaves i e -> stuck i s -> stuck i (step e s).
Proof.
  intros Le St. pose proof St as [(p & Gp & Sp) L]. destruct e as [j d m f|j j'|j|j d m f|j c x|f]; cbn [leaves] in Le; cbn [M_spec_parser.step].
  - split; [|discriminate]. exists p. cbn [p_parsers get_parser]. destruct (Nat.eqb_spec i j); [congruence|auto].
  - destruct (get_parser j (p_parsers s)) as [q|]; [|exact St]. split; [|exact L]. exists p. cbn [p_parsers get_parser]. destruct (Nat.eqb_spec i j'); [congruence|auto].
  - split; [|exact L]. exists p. cbn [p_parsers]. rewrite get_filter. destruct (Nat.eqb_spec j i); [congruence|auto].
  - destruct (get_parser j (p_parsers s)) as [q|] eqn:Gq; [|exact St]. split; [|exact L]. cbn [p_parsers]. rewrite get_set.
    destruct (Nat.eqb_spec j i) as [->|]; [|eauto]. rewrite Gq. eexists. split; [reflexivity|]. cbn. congruence.
  - destruct (Nat.eq_dec j i) as [->|Nj]; [rewrite stuck_parse; exact St|]. unfold M_spec_parser.parse. destruct (get_parser j (p_parsers s)) as [q|] eqn:Gq; [|exact St].
    destruct (match p_last s with Some k' => key_eqb (key_of j q c x) k' | None => false end); [exact St|]. destruct (p_spec q) as [old|]; [|exact St].
    assert (X : forall g l q', (forall k, l = Some k -> k_id k <> i) -> stuck i (mk_process g l (set_parser j q' (p_parsers s)))).
    { intros g l q' H. split; [|exact H]. exists p. cbn [p_parsers]. rewrite get_set. destruct (Nat.eqb_spec j i); [congruence|auto]. }
    destruct (run (key_of j q c x) (p_world s)) as [g [[[spec t]|e]|]]; [|destruct e; apply X; discriminate|apply X; exact L].
    apply X. intros k E. injection E as <-. exact Nj.
  - split; [eauto|exact L].
Qed.
Lemma stuck_for_good i content extra s e es content' extra' p spec : get_parser i (p_parsers s) = Some p -> p_spec p = Some (Some spec) ->
  snd (parse i content extra s) = Some (Err e) -> e <> RPMException -> Forall (leaves i) es ->
  let s' := steps es (fst (parse i content extra s)) in parse i content' extra' s' = (s', Some (Err AttributeError)).
Proof.
  intros Gp Sp H Ne F. cbn zeta. apply stuck_parse.
  assert (St : stuck i (fst (parse i content extra s))).
  { revert H. unfold M_spec_parser.parse. rewrite Gp, Sp. destruct (match p_last s with Some k' => key_eqb (key_of i p content extra) k' | None => false end); [discriminate|].
    destruct (run (key_of i p content extra) (p_world s)) as [g [[[sp t]|x]|]]; [discriminate| |discriminate]. intros H.
    assert (x = e) as -> by (destruct x; cbn in H; congruence).
    assert (X : stuck i (mk_process g None (set_parser i (with_spec None (p_tainted p) p) (p_parsers s)))).
    { split; [|discriminate]. eexists. cbn [p_parsers]. rewrite get_set, Nat.eqb_refl, Gp. split; reflexivity. }
    destruct e; try exact X. contradiction. }
  revert St. generalize (fst (parse i content extra s)). induction F as [|x es Lx F IH]; intros s' St; [exact St|]. apply IH, stuck_step; auto.
Qed.
End Cache.
