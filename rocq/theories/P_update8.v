(** Proofs about updating values: what is kept. *)
From Coq Require Import Ascii String.
From Coq Require Import NArith ZArith List Bool Lia Arith.
From Verif Require Import PyStr PyStrFacts Regex RegexFacts M_value Spec_value Spec_value2 P_value P_value3 P_release2 P_context M_update Spec_update P_update P_update2 P_update3 P_update4 P_update5.
Import ListNotations.
Open Scope nat_scope.

Section Uni.
Context {U : Unicode}.
Lemma dot_no_lf s : ~ In LF s -> forallb dot s = true.
Proof. induction s as [|c s IH]; intros H; [reflexivity|]. cbn [forallb]. rewrite IH by (intros Q; apply H; right; exact Q). unfold dot. destruct (N.eqb_spec c LF) as [->|]; [exfalso; apply H; left; reflexivity|reflexivity]. Qed.
(** * Everything the tokens can give is matched *)
Inductive tfull (val : str -> str) : list token -> str -> Prop :=
| tf_nil : tfull val [] []
| tf_const v t l y : tfull val l y -> tfull val (TConst v t :: l) (v ++ y)
| tf_group g t l y : val g <> [] -> ~ In LF (val g) -> startswith g (lit "sub_") = false -> tfull val l y -> tfull val (TGroup g t :: l) (val g ++ y)
| tf_var s l y : ~ In LF s -> tfull val l y -> tfull val (TVar s :: l) (s ++ y).
Lemma squash_full val l : forall r, squash l = Some r -> forall y, tfull val l y -> tfull val r y.
Proof.
  induction l as [|t l IH]; cbn [squash]; intros r E y T; [injection E as <-; exact T|].
  destruct (squash l) as [r'|] eqn:Sq; [|discriminate]. specialize (IH r' eq_refl).
  assert (Keep : r = t :: r' -> tfull val r y) by (intros ->; inversion T; subst; constructor; auto).
  destruct t as [v u|v|g u]; destruct r' as [|[v' u'|v'|g' u'] r']; try (injection E as <-; exact (Keep eq_refl)).
  - injection E as <-. inversion T as [|? ? ? y0 T0| |]; subst. specialize (IH _ T0). inversion IH as [|? ? ? y1 T1| |]; subst. rewrite app_assoc. constructor. exact T1.
  - injection E as <-. inversion T as [| | |? ? y0 H0 T0]; subst. specialize (IH _ T0). inversion IH as [| | |? ? y1 H1 T1]; subst. rewrite app_assoc. constructor; [|exact T1]. rewrite in_app_iff. tauto.
  - discriminate.
Qed.
Lemma squash_none l : squash l = None -> exists pre a b c d post, l = pre ++ TGroup a b :: TGroup c d :: post.
Proof.
  induction l as [|t l IH]; cbn [squash]; [discriminate|]. destruct (squash l) as [r|] eqn:Sq.
  - intros E. destruct t as [v u|v|g u]; destruct r as [|[v' u'|v'|g' u'] r]; try discriminate. clear IH.
    assert (X : exists l', l = TGroup g' u' :: l').
    { destruct l as [|t l]; [discriminate|]. cbn [squash] in Sq. destruct (squash l) as [r'|]; [|discriminate]. destruct t as [a b|a|a b]; destruct r' as [|[] r']; try discriminate; injection Sq as <- <- <-; eauto. }
    destruct X as (l' & ->). exists [], g, u, g', u', l'. reflexivity.
  - intros _. destruct (IH eq_refl) as (pre & a & b & c & d & post & ->). exists (t :: pre), a, b, c, d, post. reflexivity.
Qed.
Definition holds_val (val : str -> str) (names : list str) (cs : list (nat * str)) : Prop :=
  forall k g, nth_error names k = Some g -> startswith g (lit "sub_") = false -> cap_get k cs = Some (val g).
Lemma holds_grp val names g w cs : holds_val val names cs -> (startswith g (lit "sub_") = false -> w = val g) -> holds_val val (names ++ [g]) ((length names, w) :: cs).
Proof.
  intros H Hw k g' Hk S. cbn. destruct (Nat.eqb_spec k (length names)) as [->|N].
  - rewrite nth_mid in Hk. injection Hk as ->. rewrite Hw by exact S. reflexivity.
  - apply H; [|exact S]. rewrite nth_error_app1 in Hk; [exact Hk|]. assert (L : k < length (names ++ [g])) by (apply nth_error_Some; congruence). rewrite app_length in L. cbn in L. lia.
Qed.
Lemma build_full val : forall tokens before names sub rs ts names', build before tokens names sub = (rs, ts, names') ->
  forall y pr cs, tfull val tokens y -> holds_val val names cs -> exists cs', Match (fold_right Seq Dollar rs) (mkst pr y cs) (mkst (rev y ++ pr) [] cs').
Proof.
  induction tokens as [|tok l IH]; intros before names sub rs ts names' B y pr cs T H; cbn [build] in B.
  - injection B as <- <- <-. inversion T; subst. exists cs. cbn [fold_right rev app]. apply Match_Dollar. auto.
  - assert (Seq1 : forall r rs0 w y0 cs1, L r cs w cs1 -> (forall pr, exists cs', Match (fold_right Seq Dollar rs0) (mkst pr y0 cs1) (mkst (rev y0 ++ pr) [] cs')) ->
      exists cs', Match (fold_right Seq Dollar (r :: rs0)) (mkst pr (w ++ y0) cs) (mkst (rev (w ++ y0) ++ pr) [] cs')).
    { intros r rs0 w y0 cs1 HL HM. destruct (HM (rev w ++ pr)) as (cs' & M). exists cs'. cbn [fold_right]. apply Match_Seq. exists (mkst (rev w ++ pr) y0 cs1). split; [apply HL|]. rewrite rev_app_distr, <- app_assoc. exact M. }
    inversion T as [|v t ? y0 T0|g t ? y0 N0 Lf0 S0 T0|s ? y0 Lf0 T0]; subst.
    + destruct (build _ l names sub) as [[rs0 ts0] n0] eqn:B0. injection B as <- <- <-. apply (Seq1 _ _ _ _ cs); [apply L_word|]. intros pr'. apply (IH _ _ _ _ _ _ B0); assumption.
    + destruct (find_index (str_eqb g) names) as [k|] eqn:F.
      * destruct (build _ l names sub) as [[rs0 ts0] n0] eqn:B0. injection B as <- <- <-. apply (Seq1 _ _ _ _ cs); [|intros pr'; apply (IH _ _ _ _ _ _ B0); assumption].
        destruct (find_index_nth _ _ _ F) as (x & Hx & Q). apply str_eqb_eq in Q. subst x. intros p' rs'. apply MBackRef. apply H; assumption.
      * destruct (build _ l (names ++ [g]) sub) as [[rs0 ts0] n0] eqn:B0. injection B as <- <- <-. apply (Seq1 _ _ _ _ ((length names, val g) :: cs)).
        -- apply L_grp, L_plus; [apply dot_no_lf; exact Lf0|exact N0].
        -- intros pr'. apply (IH _ _ _ _ _ _ B0); [exact T0|]. apply holds_grp; auto.
    + destruct (re_match (var_regex (group_nearby before) (group_nearby l)) s) as [m|] eqn:Rm.
      2: { destruct (build _ l names sub) as [[rs0 ts0] n0] eqn:B0. injection B as <- <- <-. apply (Seq1 _ _ _ _ cs); [apply L_word|]. intros pr'. apply (IH _ _ _ _ _ _ B0); assumption. }
      destruct (var_parts _ _ _ _ Rm) as (lf & Es & Hlf & _). assert (lf = []) as ->. { destruct Hlf as [->| ->]; [reflexivity|]. exfalso. apply Lf0. rewrite Es, !in_app_iff. right. right. right. left. reflexivity. }
      rewrite app_nil_r in Es. destruct (group_str 2 m) as [|c2 g2] eqn:G2.
      * destruct (build _ l names sub) as [[rs0 ts0] n0] eqn:B0. injection B as <- <- <-. rewrite Es. cbn [app]. rewrite <- app_assoc. apply (Seq1 _ _ _ _ cs); [apply L_word|]. intros pr'.
        destruct (IH _ _ _ _ _ _ B0 y0 (rev (group_str 3 m) ++ pr') cs T0 H) as (cs' & M). exists cs'. cbn [fold_right]. apply Match_Seq. exists (mkst (rev (group_str 3 m) ++ pr') y0 cs). split; [apply L_word|]. rewrite rev_app_distr, <- app_assoc. exact M.
      * destruct (build _ l (names ++ [sub_name sub]) (S sub)) as [[rs0 ts0] n0] eqn:B0. injection B as <- <- <-. rewrite Es, <- !app_assoc. apply (Seq1 _ _ _ _ cs); [apply L_word|]. intros pr'.
        assert (H' : holds_val val (names ++ [sub_name sub]) ((length names, c2 :: g2) :: cs)) by (apply holds_grp; [exact H|rewrite sub_starts; discriminate]).
        destruct (IH _ _ _ _ _ _ B0 y0 (rev (group_str 3 m) ++ rev (c2 :: g2) ++ pr') _ T0 H') as (cs' & M). exists cs'. cbn [fold_right]. apply Match_Seq. eexists. split.
        -- apply (L_grp (length names) (Plus false dot) cs (c2 :: g2) cs). apply L_plus; [|discriminate]. apply dot_no_lf. intros Q. apply Lf0. rewrite Es, !in_app_iff. auto.
        -- apply Match_Seq. eexists. split; [apply L_word|]. rewrite !rev_app_distr, <- !app_assoc. exact M.
Qed.

(** * From values to tokens *)
Section World.
Context {W : Type} (expand : str -> W -> W * result str).
Context (ex : str -> result str) (I : W -> Prop) (pure : forall s w, I w -> exists w', expand s w = (w', ex s) /\ I w') (isid : str -> bool).
Lemma const_pure n w w' t : I w -> constant expand n w = (w', Ok t) -> exists c, ex (node_str n) = Ok c /\ t = TConst c (node_str n) /\ I w'.
Proof. intros Iw E. unfold constant in E. destruct (pure (node_str n) w Iw) as (w1 & Ew & Iw1). rewrite Ew in E. destruct (ex (node_str n)) as [c|]; [|discriminate]. injection E as <- <-. eauto. Qed.
Lemma reference_token modi n name w : reference n name -> In name modi -> token_of expand modi (item_of n) w = (w, Ok (TGroup name (node_str n))).
Proof.
  intros (p & Ev & [->| ->]) M; apply negated_even in Ev; apply str_in_iff in M; cbn [item_of token_of]; rewrite Ev, M; reflexivity.
Qed.
Lemma constant_token modi n w : ~ literal n -> ~ conditional n -> (forall name, reference n name -> ~ In name modi) -> token_of expand modi (item_of n) w = constant expand n w.
Proof.
  intros L C R. destruct n as [v|b|b|p x|p x a|p x b|x b]; cbn [item_of token_of]; try reflexivity.
  - exfalso. apply L. exists v. reflexivity.
  - destruct (negb (negated p) && str_in x modi) eqn:Q; [|reflexivity]. exfalso. apply andb_true_iff in Q as [Q1 Q2]. apply negb_true_iff, negated_even in Q1. apply str_in_iff in Q2. apply (R x); [exists p; auto|exact Q2].
  - destruct (negb (negated p) && match a with [] => true | _ => false end && str_in x modi) eqn:Q; [|reflexivity]. exfalso. apply andb_true_iff in Q as [Q Q2]. apply andb_true_iff in Q as [Q1 Q3]. apply negb_true_iff, negated_even in Q1. apply str_in_iff in Q2.
    destruct a; [|discriminate]. apply (R x); [exists p; auto|exact Q2].
  - exfalso. apply C. exists p, x, b. reflexivity.
Qed.
Lemma gives_tokens modi val nodes y : gives ex modi val nodes y -> ~ In LF y -> (forall n name, In n nodes -> reference n name -> In name modi -> startswith name (lit "sub_") = false) ->
  forall w w' ts, I w -> tokens_of expand modi (map item_of nodes) w = (w', Ok ts) -> tfull val ts y.
Proof.
  induction 1 as [|s ns y G IH|n name ns y R M N G IH|n c ns y L C R X G IH|p name body ns y M G IH]; intros Lf Sub w w' ts Iw E; cbn [map tokens_of] in E.
  - injection E as _ <-. constructor.
  - cbn [item_of token_of] in E. destruct (tokens_of expand modi (map item_of ns) w) as [w2 [l|]] eqn:E2; [|discriminate]. injection E as _ <-. rewrite in_app_iff in Lf. constructor; [tauto|].
    apply (IH ltac:(tauto) ltac:(intros n' x Hn; apply Sub; right; exact Hn) _ _ _ Iw E2).
  - rewrite (reference_token _ _ _ _ R M) in E. destruct (tokens_of expand modi (map item_of ns) w) as [w2 [l|]] eqn:E2; [|discriminate]. injection E as _ <-. rewrite in_app_iff in Lf. constructor; [exact N|tauto| |].
    + apply (Sub n); [left; reflexivity|exact R|exact M].
    + apply (IH ltac:(tauto) ltac:(intros n' x Hn; apply Sub; right; exact Hn) _ _ _ Iw E2).
  - rewrite (constant_token _ _ _ L C R) in E. destruct (constant expand n w) as [w1 [t|]] eqn:E1; [|discriminate]. destruct (const_pure _ _ _ _ Iw E1) as (c' & X' & -> & Iw1). rewrite X in X'. injection X' as <-.
    destruct (tokens_of expand modi (map item_of ns) w1) as [w2 [l|]] eqn:E2; [|discriminate]. injection E as _ <-. rewrite in_app_iff in Lf. constructor.
    apply (IH ltac:(tauto) ltac:(intros n' x Hn; apply Sub; right; exact Hn) _ _ _ Iw1 E2).
  - cbn [item_of token_of] in E. destruct (tokens_of expand modi (map item_of ns) w) as [w2 [l|]] eqn:E2; [|discriminate]. injection E as _ <-. change y with ([] ++ y). constructor.
    apply (IH Lf ltac:(intros n' x Hn; apply Sub; right; exact Hn) _ _ _ Iw E2).
Qed.
Lemma gives_conditions modi val nodes y : gives ex modi val nodes y -> forall p x b, In (ConditionalMacroExpansion p x b) nodes -> ~ In x modi.
Proof.
  induction 1 as [|s ns y G IH|n name ns y R M N G IH|n c ns y L C R X G IH|p name body ns y M G IH]; intros q x b Hb; [destruct Hb| | | |]; (destruct Hb as [Hb|Hb]; [|apply (IH _ _ _ Hb)]).
  - discriminate.
  - subst n. destruct R as (z & _ & [Q|Q]); discriminate.
  - exfalso. apply C. exists q, x, b. exact Hb.
  - injection Hb as <- <- <-. exact M.
Qed.
Lemma group_token modi n w w' g u : token_of expand modi (item_of n) w = (w', Ok (TGroup g u)) -> reference n g /\ In g modi.
Proof.
  intros E. destruct n as [v|b|b|p x|p x a|p x b|x b]; cbn [item_of token_of] in E; try discriminate;
    try (unfold constant in E; destruct (expand _ w) as [w1 [c|]]; discriminate).
  - destruct (negb (negated p) && str_in x modi) eqn:Q.
    + injection E as _ <- _. apply andb_true_iff in Q as [Q1 Q2]. apply negb_true_iff, negated_even in Q1. apply str_in_iff in Q2. split; [exists p; auto|exact Q2].
    + unfold constant in E. destruct (expand _ w) as [w1 [c|]]; discriminate.
  - destruct (negb (negated p) && match a with [] => true | _ => false end && str_in x modi) eqn:Q.
    + injection E as _ <- _. apply andb_true_iff in Q as [Q Q2]. apply andb_true_iff in Q as [Q1 Q3]. apply negb_true_iff, negated_even in Q1. apply str_in_iff in Q2. destruct a; [|discriminate]. split; [exists p; auto|exact Q2].
    + unfold constant in E. destruct (expand _ w) as [w1 [c|]]; discriminate.
Qed.
Lemma tokens_neighbours modi : forall nodes w w' ts, tokens_of expand modi (map item_of nodes) w = (w', Ok ts) -> squash ts = None -> neighbours modi nodes.
Proof.
  intros nodes w w' ts E Sq. destruct (squash_none _ Sq) as (pre & a & b & c & d & post & ->). clear Sq. revert nodes w E. induction pre as [|t pre IH]; intros nodes w E; cbn [app] in E.
  - destruct nodes as [|n1 nodes]; cbn [map tokens_of] in E; [discriminate|]. destruct (token_of expand modi (item_of n1) w) as [w1 [t1|]] eqn:E1; [|discriminate].
    destruct nodes as [|n2 nodes]; cbn [map tokens_of] in E; [discriminate|]. destruct (token_of expand modi (item_of n2) w1) as [w2 [t2|]] eqn:E2; [|discriminate].
    destruct (tokens_of expand modi (map item_of nodes) w2) as [w3 [l|]]; [|discriminate]. injection E as _ -> -> _. apply group_token in E1 as [R1 M1]. apply group_token in E2 as [R2 M2]. exists [], n1, n2, nodes, a, c. auto.
  - destruct nodes as [|n nodes]; cbn [map tokens_of] in E; [discriminate|]. destruct (token_of expand modi (item_of n) w) as [w1 [t1|]] eqn:E1; [|discriminate].
    destruct (tokens_of expand modi (map item_of nodes) w1) as [w3 [l|]] eqn:E2; [|discriminate]. injection E as -> _ ->. destruct (IH _ _ E2) as (pre' & n1 & n2 & post' & x & y & -> & H). exists (n :: pre'), n1, n2, post', x, y. split; [reflexivity|exact H].
Qed.
Theorem pattern_complete value nodes val modi fl w w' p requested : I w -> construct_regex expand isid value modi fl w = (w', Ok p) -> M_value.parse value = Ok nodes ->
  gives ex modi val nodes requested -> ~ In LF requested -> ~ neighbours modi nodes -> (forall n name, In n nodes -> reference n name -> In name modi -> startswith name (lit "sub_") = false) ->
  exists m, re_match (p_regex p) requested = Some m.
Proof.
  intros Iw E Ep G Lf Nb Sub. unfold construct_regex in E. rewrite Ep, (flatten_plain expand modi fl nodes) in E by (apply (gives_conditions _ _ _ _ G)).
  destruct (tokens_of expand modi (map item_of nodes) w) as [w2 [tokens|]] eqn:Et; [|discriminate]. pose proof (gives_tokens _ _ _ _ G Lf Sub _ _ _ Iw Et) as T.
  destruct (squash tokens) as [sq|] eqn:Sq; [|exfalso; apply Nb; apply (tokens_neighbours _ _ _ _ _ Et Sq)]. apply (squash_full _ _ _ Sq) in T.
  destruct (build [] sq [] 0) as [[rs ts] names] eqn:B. destruct (distinct_names names && forallb isid names); [|discriminate]. injection E as <- <-. cbn [p_regex].
  destruct (build_full val _ _ _ _ _ _ _ B requested [] [] T) as (cs' & M); [intros k g Q; destruct k; discriminate|].
  destruct (re_match_exists (Seq Caret (fold_right Seq Dollar rs)) requested (mkst (rev requested ++ []) [] cs')) as (m & Hm & _); [|exists m; exact Hm].
  apply Match_Seq. exists (mkst [] requested []). split; [apply Match_Caret; auto|exact M].
Qed.

(** * The whole update *)
Lemma unlocked_assign k v' es es1 pos : (forall e, In e es -> e_locked e = false) -> Forall2 (chg pos) (update_at k lock es) es1 -> forall e, In e (update_at k (assign v') es1) -> e_locked e = false.
Proof.
  intros H C e He. apply In_nth_error in He as (j & Hj). destruct (Nat.eq_dec k j) as [<-|N].
  - rewrite update_nth_same in Hj. destruct (nth_error es1 k) as [e1|]; [|discriminate]. injection Hj as <-. reflexivity.
  - rewrite update_nth_other in Hj by exact N.
    assert (X : forall (l l' : list entity) j e', Forall2 (chg pos) l l' -> nth_error l' j = Some e' -> exists e0, nth_error l j = Some e0 /\ e_locked e' = e_locked e0).
    { clear. intros l l' j e' C. revert j. induction C as [|a b l l' Q _ IH]; intros [|j] E; cbn [nth_error] in *; try discriminate; [|apply IH; exact E]. injection E as <-. exists a. split; [reflexivity|]. apply Q. }
    destruct (X _ _ _ _ C Hj) as (e0 & E0 & ->). rewrite update_nth_other in E0 by exact N. apply nth_error_In in E0. apply H. exact E0.
Qed.
Lemma groups_true upd pos : (forall value requested p es w w' es' r, upd value requested p es w = (w', Ok (es', r)) -> Forall2 (chg p) es es') ->
  forall d es w w' es' b, (forall e, In e es -> e_locked e = false) -> (forall g v, In (g, v) d -> startswith g (lit "sub_") = true \/ v <> [] /\ ~ In PCT v) ->
  run_groups (W:=W) upd pos d es w = (w', Ok (es', b)) -> b = true.
Proof.
  intros H. induction d as [|[g v] d IH]; intros es w w' es' b Un Hd E; cbn [run_groups] in E; [injection E as _ _ <-; reflexivity|].
  assert (Hd' : forall g v, In (g, v) d -> startswith g (lit "sub_") = true \/ v <> [] /\ ~ In PCT v) by (intros g' v' Q; apply Hd; right; exact Q).
  destruct (startswith g (lit "sub_")) eqn:Sg; [apply (IH _ _ _ _ _ Un Hd' E)|]. destruct (Hd g v (or_introl eq_refl)) as [Q|[V1 V2]]; [congruence|].
  destruct (find_last (concerns pos g) es) as [k|]; [|discriminate]. destruct (nth_error es k) as [e|] eqn:Ek; [|discriminate]. rewrite (Un e) in E by (apply nth_error_In in Ek; exact Ek).
  assert (Fr : find_reference e v = Ok false) by (unfold find_reference; rewrite (parse_plain v V1 V2); reflexivity). rewrite Fr in E.
  destruct (upd (e_value e) v (e_position e) (update_at k lock es) w) as [w1 [[es1 v1]|]] eqn:Eu; [|discriminate]. apply H in Eu. refine (IH _ _ _ _ _ _ Hd' E). apply (unlocked_assign _ _ _ _ _ Un Eu).
Qed.
Lemma stands_names modi names val F : (forall n, In n modi <-> In n names) -> forall a nodes x y, stands ex modi val F a nodes x y -> stands ex names val F a nodes x y.
Proof.
  intros Eq a nodes x y H. induction H as [a|a s t ns x y H1 H2 S IH|a m name ns x y R' M' S IH|a m c ns x y H1 H2 H3 H4 S IH|a p name body bx bv ns x y M' H S1 IH1 S2 IH2|a p name body ns x y H S IH].
  - constructor.
  - constructor; auto.
  - constructor; auto. apply Eq. exact M'.
  - constructor; auto. intros name R Q. apply (H3 name R), Eq, Q.
  - constructor; auto. apply Eq. exact M'.
  - constructor; auto. destruct H as [H|H]; [left; rewrite <- Eq; exact H|right; exact H].
Qed.
Lemma gives_names modi names val : (forall n, In n names <-> In n modi) -> forall nodes y, gives ex names val nodes y -> gives ex modi val nodes y.
Proof.
  intros Eq nodes y H. induction H as [|s ns y G IH|n name ns y R M N G IH|n c ns y L C R X G IH|p name body ns y M G IH].
  - constructor.
  - constructor; auto.
  - constructor; auto. apply Eq. exact M.
  - constructor; auto. intros name Q Z. apply (R name Q), Eq, Z.
  - constructor; auto. rewrite <- Eq. exact M.
Qed.
Lemma gives_mention names val nodes y : gives ex names val nodes y -> forall n name, In n nodes -> reference n name -> In name names -> exists u v, y = u ++ val name ++ v.
Proof.
  induction 1 as [|s ns y G IH|m name ns y R M N G IH|m c ns y L C R X G IH|p name body ns y M G IH]; intros n x Hn Rn Mn; [destruct Hn| | | |].
  - destruct Hn as [<-|Hn]; [destruct Rn as (z & _ & [Q|Q]); discriminate|]. destruct (IH _ _ Hn Rn Mn) as (u & v & ->). exists (s ++ u), v. rewrite app_assoc. reflexivity.
  - destruct Hn as [->|Hn]; [|destruct (IH _ _ Hn Rn Mn) as (u & v & ->); exists (val name ++ u), v; rewrite app_assoc; reflexivity]. rewrite (reference_fun _ _ _ Rn R). exists [], y. reflexivity.
  - destruct Hn as [->|Hn]; [exfalso; apply (R x Rn Mn)|]. destruct (IH _ _ Hn Rn Mn) as (u & v & ->). exists (c ++ u), v. rewrite app_assoc. reflexivity.
  - destruct Hn as [<-|Hn]; [destruct Rn as (z & _ & [Q|Q]); discriminate|]. apply (IH _ _ Hn Rn Mn).
Qed.
Theorem update_kept fuel value requested pos es w w' es' r nodes names val : I w -> entities_ok es -> (forall e, In e es -> e_locked e = false) ->
  (forall n, In n names <-> known es pos n) -> M_value.parse value = Ok nodes -> gives ex names val nodes requested ->
  requested <> [] -> ~ In PCT requested -> ~ In LF requested -> ~ neighbours names nodes -> (forall name, refers_to value name -> In name names -> ~ exists t, name = lit "sub_" ++ t) ->
  update expand isid fuel value requested pos es w = (w', Ok (es', r)) -> exists val', stands ex names val' [] false nodes r requested.
Proof.
  intros Iw Oe Un Hn Ep G R1 R2 R3 Nb Sub E. destruct fuel as [|fuel]; [discriminate|]. rewrite update_S in E. destruct (str_eqb value requested) eqn:Q.
  - apply str_eqb_eq in Q. subst value. injection E as _ _ <-. rewrite (parse_plain _ R1 R2) in Ep. injection Ep as <-. exists val. rewrite <- (app_nil_r requested) at 2 3. constructor; [auto|eauto|constructor].
  - unfold run_attempt at 1 in E. destruct (construct_regex expand isid value (modifiable_entities pos es) (flippable_entities pos es) w) as [w1 [p|]] eqn:Ec; [|discriminate].
    assert (Eq : forall n, In n names <-> In n (modifiable_entities pos es)) by (intros n; rewrite modifiable_known by exact Oe; apply Hn).
    pose proof (gives_names _ _ _ Eq _ _ G) as G'.
    destruct (pattern_complete _ _ _ _ _ _ _ _ _ Iw Ec Ep G' R3) as (m & Em).
    { intros (pre & n1 & n2 & post & a & b & H1 & H2 & H3 & H4 & H5). apply Nb. exists pre, n1, n2, post, a, b. rewrite !Eq. auto. }
    { intros n name Hi Rn Mn. destruct (startswith name (lit "sub_")) eqn:S; [|reflexivity]. exfalso. apply startswith_iff in S. apply (Sub name); [exists nodes, n; auto|apply Eq; exact Mn|exact S]. }
    rewrite Em in E. cbv zeta in E. destruct (pattern_plain expand ex I pure isid _ _ _ _ _ _ _ _ _ Iw Ec Em R1 R3 Ep) as (_ & Pf & Nd & G1 & G2 & G3 & St); [apply (gives_conditions _ _ _ _ G')|].
    set (d := groupdict 0 (p_names p) m) in *. destruct (run_groups (update expand isid fuel) pos d es w1) as [w2 [[es2 b]|]] eqn:Eg; [|discriminate].
    assert (b = true) as ->. { refine (groups_true (update expand isid fuel) pos _ d es w1 w2 es2 b Un _ Eg).
      - intros. eapply update_frame. eassumption.
      - intros g v Hg. destruct (G3 g v Hg) as [V1 V2]. assert (Hg' : In g (map fst d)) by (apply in_map_iff; exists (g, v); auto). destruct (G1 g Hg') as [(n & Hi & Rn & Mn)|(n & ->)]; [|left; apply sub_starts]. right. split; [exact V1|].
        destruct (stands_part ex _ (fun n => field n d) [] g n Rn Mn ltac:(intros q x b' ->; destruct Rn as (z & _ & [Z|Z]); discriminate) _ _ _ _ St Hi) as (u & u' & Er). rewrite V2 in Er. intros Z. apply R2. rewrite Er, !in_app_iff. auto. }
    injection E as _ _ <-. exists (fun n => field n d). apply (stands_names (modifiable_entities pos es)); [intros n; symmetry; apply Eq|exact St].
Qed.
(** * Values that refer to what would be updated *)
Lemma mentions_refers e x : names_entity e x = true -> forall nodes, mentions x nodes -> existsb (node_refers e) nodes = true.
Proof.
  intros Nx nodes H. induction H as [p l|p a l|p b l|p y b l H IH|n l H IH]; cbn [existsb node_refers]; try (rewrite Nx; reflexivity); rewrite IH; [rewrite orb_true_r|apply orb_true_r]. reflexivity.
Qed.
Theorem update_self fuel value requested pos es w w' es' r n name k e nodes x : entities_ok es -> M_value.parse value = Ok [n] -> reference n name -> (~ exists t, name = lit "sub_" ++ t) ->
  closest es pos name k -> nth_error es k = Some e -> ~ In LF requested -> M_value.parse requested = Ok nodes -> mentions x nodes -> x = e_name e \/ e_tag e = true /\ lower x = e_name e -> value <> requested ->
  update expand isid fuel value requested pos es w = (w', Ok (es', r)) -> es' = es /\ r = requested.
Proof.
  intros Oe Ep Rn Sub Ck Ek Lf Er Mn Hx Nv E. destruct fuel as [|fuel]; [discriminate|]. rewrite update_S in E. destruct (str_eqb value requested) eqn:Q; [apply str_eqb_eq in Q; contradiction|]. clear Q.
  assert (Mk : In name (modifiable_entities pos es)) by (apply modifiable_known; [exact Oe|apply (closest_known _ _ _ _ Ck)]).
  assert (Nx : names_entity e x = true). { unfold names_entity. destruct Hx as [->|[T L]]; [rewrite str_eqb_refl; apply orb_true_r|]. rewrite T, L, str_eqb_refl. reflexivity. }
  assert (Sg : startswith name (lit "sub_") = false). { destruct (startswith name (lit "sub_")) eqn:S; [|reflexivity]. exfalso. apply Sub. apply startswith_iff in S. exact S. }
  assert (A : forall fl next, (forall w w' es' r, next w = (w', Ok (es', r)) -> es' = es /\ r = requested) -> forall w w' es' r, run_attempt expand isid (update expand isid fuel) value requested pos es fl next w = (w', Ok (es', r)) -> es' = es /\ r = requested).
  { clear E. intros fl next Hn w0 w0' es0 r0 E. unfold run_attempt in E. destruct (construct_regex expand isid value (modifiable_entities pos es) fl w0) as [w1 [p|]] eqn:Ec; [|discriminate]. destruct (re_match (p_regex p) requested) as [m|] eqn:Em; [|apply (Hn _ _ _ _ E)].
    unfold construct_regex in Ec. rewrite Ep, (flatten_plain expand _ fl [n]) in Ec by (intros q y b [->|[]]; destruct Rn as (z & _ & [Z|Z]); discriminate).
    cbn [map tokens_of] in Ec. rewrite (reference_token _ _ _ _ Rn Mk) in Ec. cbn [squash build find_index app length distinct_names str_in] in Ec. destruct (negb false && true && forallb isid [name]) eqn:Di; cbn [negb andb existsb] in Ec.
    2: { cbn [negb andb] in Di. rewrite Di in Ec. discriminate. }
    cbn [negb andb] in Di. rewrite Di in Ec. injection Ec as <- <-. cbn [p_regex p_names p_flip p_template fold_right groupdict] in *. cbv zeta in E.
    assert (Eg : group_str 0 m = requested).
    { apply re_match_sound in Em. apply Match_Seq in Em as (s0 & M0 & M). apply Match_Caret in M0 as [-> _]. apply Match_Seq in M as (s1 & M1 & M2). apply Match_Grp_Plus in M1 as (v & _ & R1 & _ & _ & C1). apply Match_Dollar in M2 as [-> D].
      cbn [rest] in R1. unfold group_str, group. rewrite C1. cbn. rewrite R1. destruct (rest s1) as [|c [|c' l]]; cbn [at_dollar] in D; [symmetry; apply app_nil_r| |discriminate]. apply N.eqb_eq in D. subst c. exfalso. apply Lf. rewrite R1. apply in_or_app. right. left. reflexivity. }
    rewrite Eg in E. cbn [run_groups] in E. rewrite Sg in E. destruct (find_last (concerns pos name) es) as [k'|] eqn:F; [|discriminate].
    assert (k' = k) as ->. { apply (closest_fun es pos name); [|exact Ck]. apply find_last_closest; auto. apply (closest_known _ _ _ _ Ck). }
    rewrite Ek in E. destruct (e_locked e); [injection E as _ <- <-; auto|]. unfold find_reference in E. rewrite Er in E. cbn [bind] in E. rewrite (mentions_refers e x Nx _ Mn) in E. injection E as _ <- <-. auto. }
  refine (A _ _ _ _ _ _ _ E). apply A. intros w1 w2 es1 r1 E1. injection E1 as _ <- <-. auto.
Qed.
End World.
End Uni.
