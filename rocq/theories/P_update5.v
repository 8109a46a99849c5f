(** Proofs about updating values: what holds of every update. *)
From Coq Require Import Ascii String.
From Coq Require Import NArith ZArith List Bool Lia Arith.
From Verif Require Import PyStr PyStrFacts Regex RegexFacts M_value Spec_value Spec_value2 P_value P_release2 P_context M_update Spec_update P_update P_update2 P_update3 P_update4.
Import ListNotations.
Open Scope nat_scope.

Section Uni.
Context {U : Unicode}.
(** * Values are unique *)
Lemma reference_fun n a b : reference n a -> reference n b -> a = b.
Proof. intros (p & _ & [Q|Q]) (q & _ & [Q'|Q']); congruence. Qed.
Lemma evaluates_fun ex es pos nodes v : evaluates ex es pos nodes v -> forall v', evaluates ex es pos nodes v' -> v = v'.
Proof.
  induction 1 as [pos|pos s ns y Hs H IH|pos n name k e body x ns y R C E L Pb H1 IH1 H2 IH2|pos n c ns y N1 N2 N3 X H IH]; intros v' Hv'.
  - inversion Hv'; reflexivity.
  - inversion Hv' as [|? ? ? y' Hs' H'|? n0 name0 k0 e0 body0 x0 ns0 y0 R0|? n0 c0 ns0 y0 N10]; subst.
    + f_equal. apply IH. exact H'.
    + destruct R0 as (p & _ & [Q|Q]); discriminate.
    + exfalso. apply N10. exists s. reflexivity.
  - inversion Hv' as [|? s0 ? y' Hs' H'|? n0 name0 k0 e0 body0 x0 ns0 y0 R0 C0 E0 L0 Pb0 H10 H20|? n0 c0 ns0 y0 N10 N20]; subst.
    + destruct R as (p & _ & [Q|Q]); discriminate.
    + assert (name0 = name) as -> by (apply (reference_fun n); assumption). assert (k0 = k) as -> by (apply (closest_fun es pos name); assumption). rewrite E in E0. injection E0 as <-. rewrite Pb in Pb0. injection Pb0 as <-.
      rewrite (IH1 _ H10), (IH2 _ H20). reflexivity.
    + exfalso. apply (N20 name R). apply (closest_known _ _ _ k). exact C.
  - inversion Hv' as [|? s0 ? y' Hs' H'|? n0 name0 k0 e0 body0 x0 ns0 y0 R0 C0 E0 L0 Pb0 H10 H20|? n0 c0 ns0 y0 N10 N20 N30 X0 H0]; subst.
    + exfalso. apply N1. exists s0. reflexivity.
    + exfalso. apply (N2 name0 R0). apply (closest_known _ _ _ k0). exact C0.
    + rewrite X in X0. injection X0 as <-. rewrite (IH _ H0). reflexivity.
Qed.
Lemma text_evaluates_fun ex es pos text v v' : text_evaluates ex es pos text v -> text_evaluates ex es pos text v' -> v = v'.
Proof. intros (ns & P & E) (ns' & P' & E'). rewrite P in P'. injection P' as <-. apply (evaluates_fun ex es pos ns); assumption. Qed.

Section World.
Context {W : Type} (expand : str -> W -> W * result str) (isid : str -> bool).
(** * Fuel *)
Lemma concerns_position pos g e : concerns pos g e = true -> e_position e < pos.
Proof. unfold concerns. rewrite andb_true_iff, Nat.ltb_lt. tauto. Qed.
Lemma run_groups_ext upd upd' pos : (forall value requested p es w, p < pos -> upd value requested p es w = upd' value requested p es w) ->
  forall d es w, run_groups (W:=W) upd pos d es w = run_groups upd' pos d es w.
Proof.
  intros H. induction d as [|[g v] d IH]; intros es w; cbn [run_groups]; [reflexivity|].
  destruct (startswith g (lit "sub_")); [apply IH|]. destruct (find_last (concerns pos g) es) as [k|] eqn:F; [|reflexivity]. destruct (find_last_spec _ _ _ F) as ((e & E & P) & _). rewrite E.
  destruct (e_locked e); [reflexivity|]. destruct (find_reference e v) as [[|]|]; [reflexivity| |reflexivity]. rewrite H by (apply (concerns_position pos g e P)).
  destruct (upd' (e_value e) v (e_position e) (update_at k lock es) w) as [w1 [[es1 v1]|]]; [|reflexivity]. apply IH.
Qed.
Theorem update_fuel : forall fuel fuel' value requested pos es w, pos < fuel -> pos < fuel' ->
  update expand isid fuel value requested pos es w = update expand isid fuel' value requested pos es w.
Proof.
  induction fuel as [|fuel IH]; intros [|fuel'] value requested pos es w L L'; [lia|lia|lia|]. rewrite !update_S. destruct (str_eqb value requested); [reflexivity|].
  assert (R : forall d es w, run_groups (update expand isid fuel) pos d es w = run_groups (update expand isid fuel') pos d es w) by (apply run_groups_ext; intros; apply IH; lia).
  assert (A : forall fl next next' w, (forall w, next w = next' w) -> run_attempt expand isid (update expand isid fuel) value requested pos es fl next w = run_attempt expand isid (update expand isid fuel') value requested pos es fl next' w).
  { intros fl next next' w0 Hn. unfold run_attempt. destruct (construct_regex expand isid value (modifiable_entities pos es) fl w0) as [w1 [p|]]; [|reflexivity]. destruct (re_match (p_regex p) requested) as [m|]; [|apply Hn]. cbv zeta. rewrite R. reflexivity. }
  apply A. intros w1. apply A. reflexivity.
Qed.
(** * Frame *)
Definition chg (pos : nat) (e e' : entity) : Prop :=
  e_name e' = e_name e /\ e_tag e' = e_tag e /\ e_position e' = e_position e /\ e_disabled e' = e_disabled e /\ e_locked e' = e_locked e /\
  (pos <= e_position e -> e' = e) /\ (e_updated e' = false -> e_value e' = e_value e /\ e_updated e = false) /\ (e_flip e = true -> e_flip e' = true).
Lemma chg_refl pos e : chg pos e e.
Proof. repeat split; auto. Qed.
Lemma chg_trans pos a b c : chg pos a b -> chg pos b c -> chg pos a c.
Proof.
  intros (A1 & A2 & A3 & A4 & A5 & A6 & A7 & A8) (B1 & B2 & B3 & B4 & B5 & B6 & B7 & B8). do 5 (split; [congruence|]). split; [|split].
  - intros L. rewrite <- (A6 L). apply B6. rewrite A3. exact L.
  - intros Q. destruct (B7 Q) as [V Q']. destruct (A7 Q') as [V' Q'']. split; [congruence|exact Q''].
  - auto.
Qed.
Lemma chg_weaken p q a b : p <= q -> chg p a b -> chg q a b.
Proof. intros L (A1 & A2 & A3 & A4 & A5 & A6 & A7 & A8). do 5 (split; [assumption|]). split; [intros H; apply A6; lia|auto]. Qed.
Notation chgs pos := (Forall2 (chg pos)).
Lemma chgs_refl pos es : chgs pos es es.
Proof. induction es; constructor; auto. apply chg_refl. Qed.
Lemma chgs_trans pos a b c : chgs pos a b -> chgs pos b c -> chgs pos a c.
Proof. intros H. revert c. induction H as [|x y l l' X _ IH]; intros c H'; inversion H' as [|? z ? m Y M]; subst; constructor; [apply (chg_trans pos x y); assumption|apply IH; exact M]. Qed.
Lemma chgs_assign pos v' : forall k es es2 e p, p <= pos -> nth_error es k = Some e -> e_position e < pos -> e_locked e = false -> chgs p (update_at k lock es) es2 -> chgs pos es (update_at k (assign v') es2).
Proof.
  induction k as [|k IH]; intros [|x es] es2 e p L E P Lk H; try discriminate; cbn [update_at nth_error] in *; inversion H as [|? y ? l2 X H']; subst; cbn [update_at].
  - injection E as ->. constructor.
    + destruct X as (A1 & A2 & A3 & A4 & A5 & A6 & A7 & A8). cbn [lock e_name e_tag e_position e_disabled e_locked e_flip] in *. unfold chg, assign. cbn [e_name e_tag e_position e_disabled e_locked e_updated e_value e_flip].
      do 5 (split; [auto|]). split; [intros; lia|]. split; [discriminate|auto].
    + clear - H' L. induction H'; constructor; eauto using chg_weaken.
  - constructor; [apply (chg_weaken p); assumption|]. apply (IH es l2 e p); assumption.
Qed.
Lemma groups_frame upd pos : (forall value requested p es w w' es' r, upd value requested p es w = (w', Ok (es', r)) -> chgs p es es') ->
  forall d es w w' es' b, run_groups (W:=W) upd pos d es w = (w', Ok (es', b)) -> chgs pos es es'.
Proof.
  intros H. induction d as [|[g v] d IH]; intros es w w' es' b E; cbn [run_groups] in E; [injection E as <- <- <-; apply chgs_refl|].
  destruct (startswith g (lit "sub_")); [apply (IH _ _ _ _ _ E)|]. destruct (find_last (concerns pos g) es) as [k|] eqn:F; [|discriminate]. destruct (find_last_spec _ _ _ F) as ((e & Ek & P) & _). rewrite Ek in E.
  destruct (e_locked e) eqn:Lk; [injection E as <- <- <-; apply chgs_refl|]. destruct (find_reference e v) as [[|]|]; [injection E as <- <- <-; apply chgs_refl| |discriminate].
  apply concerns_position in P. destruct (upd (e_value e) v (e_position e) (update_at k lock es) w) as [w1 [[es1 v1]|]] eqn:Eu; [|discriminate]. apply H in Eu.
  apply (chgs_trans pos es (update_at k (assign v1) es1)); [apply (chgs_assign pos v1 k es es1 e (e_position e)); auto; lia|]. apply (IH _ _ _ _ _ E).
Qed.
Lemma chgs_flip pos names es : chgs pos es (flip_all pos names es).
Proof.
  unfold flip_all. induction es as [|e es IH]; cbn [map]; constructor; [|exact IH]. destruct (Nat.ltb (e_position e) pos && str_in (e_name e) names) eqn:C; [|apply chg_refl].
  apply andb_true_iff in C as [C _]. apply Nat.ltb_lt in C. unfold chg, flip. cbn. do 5 (split; [reflexivity|]). split; [lia|auto].
Qed.
Theorem update_frame : forall fuel value requested pos es w w' es' r, update expand isid fuel value requested pos es w = (w', Ok (es', r)) -> chgs pos es es'.
Proof.
  induction fuel as [|fuel IH]; intros value requested pos es w w' es' r E; [discriminate|]. rewrite update_S in E. destruct (str_eqb value requested); [injection E as <- <- <-; apply chgs_refl|].
  assert (A : forall fl next, (forall w w' es' r, next w = (w', Ok (es', r)) -> chgs pos es es') -> forall w w' es' r, run_attempt expand isid (update expand isid fuel) value requested pos es fl next w = (w', Ok (es', r)) -> chgs pos es es').
  { clear E. intros fl next Hn w0 w0' es0' r0 E. unfold run_attempt in E. destruct (construct_regex expand isid value (modifiable_entities pos es) fl w0) as [w1 [p|]]; [|discriminate]. destruct (re_match (p_regex p) requested) as [m|]; [|apply (Hn _ _ _ _ E)].
    cbv zeta in E. destruct (run_groups (update expand isid fuel) pos (groupdict 0 (p_names p) m) es w1) as [w2 [[es2 [|]]|]] eqn:Eg; [| |discriminate]; injection E as <- <- <-; apply (groups_frame _ _ IH) in Eg; [|exact Eg].
    apply (chgs_trans pos es es2); [exact Eg|apply chgs_flip]. }
  refine (A _ _ _ _ _ _ _ E). apply A. intros w1 w1' es1 r1 E1. injection E1 as <- <- <-. apply chgs_refl.
Qed.
(** * No lookup fails *)
Lemma build_fields : forall tokens before names sub rs ts names', build before tokens names sub = (rs, ts, names') -> forall n, In (TField n) ts -> In n names'.
Proof.
  assert (Keep : forall l b names sub rs ts names', build b l names sub = (rs, ts, names') -> forall g, In g names -> In g names') by (intros l b names sub rs ts names' B g Hg; apply (build_names _ _ _ _ _ _ _ B); auto).
  induction tokens as [|tok l IH]; intros before names sub rs ts names' B n Hn.
  - cbn [build] in B. injection B as <- <- <-. destruct Hn.
  - cbn [build] in B. destruct tok as [v t|v|g t].
    + destruct (build _ l names sub) as [[rs0 ts0] n0] eqn:B0. injection B as <- <- <-. destruct Hn as [Q|Hn]; [discriminate|]. apply (IH _ _ _ _ _ _ B0 n Hn).
    + destruct (re_match (var_regex (group_nearby before) (group_nearby l)) v) as [m|] eqn:Rm.
      2: { destruct (build _ l names sub) as [[rs0 ts0] n0] eqn:B0. injection B as <- <- <-. destruct Hn as [Q|Hn]; [discriminate|]. apply (IH _ _ _ _ _ _ B0 n Hn). }
      destruct (group_str 2 m) as [|c2 g2] eqn:G2.
      * destruct (build _ l names sub) as [[rs0 ts0] n0] eqn:B0. injection B as <- <- <-. destruct Hn as [Q|[Q|Hn]]; [discriminate|discriminate|]. apply (IH _ _ _ _ _ _ B0 n Hn).
      * destruct (build _ l (names ++ [sub_name sub]) (S sub)) as [[rs0 ts0] n0] eqn:B0. injection B as <- <- <-. destruct Hn as [Q|[Q|[Q|Hn]]]; [discriminate| |discriminate|apply (IH _ _ _ _ _ _ B0 n Hn)].
        injection Q as <-. apply (Keep _ _ _ _ _ _ _ B0). apply in_or_app. right. left. reflexivity.
    + destruct (find_index (str_eqb g) names) as [k|] eqn:Fi.
      * destruct (build _ l names sub) as [[rs0 ts0] n0] eqn:B0. injection B as <- <- <-. destruct Hn as [Q|Hn]; [discriminate|]. apply (IH _ _ _ _ _ _ B0 n Hn).
      * destruct (build _ l (names ++ [g]) sub) as [[rs0 ts0] n0] eqn:B0. injection B as <- <- <-. destruct Hn as [Q|Hn]; [discriminate|]. apply (IH _ _ _ _ _ _ B0 n Hn).
Qed.
Lemma tokens_modi modi : forall l w w' ts, tokens_of expand modi l w = (w', Ok ts) -> forall g, In g (groups_of ts) -> In g modi.
Proof.
  induction l as [|i l IH]; intros w w' ts E g Hg; cbn [tokens_of] in E; [injection E as _ <-; destruct Hg|].
  destruct (token_of expand modi i w) as [w1 [t|]] eqn:T; [|discriminate]. destruct (tokens_of expand modi l w1) as [w2 [l'|]] eqn:E2; [|discriminate]. injection E as _ <-.
  change (groups_of (t :: l')) with ((match t with TGroup g _ => [g] | _ => [] end) ++ groups_of l') in Hg. apply in_app_or in Hg as [Hg|Hg]; [|apply (IH _ _ _ E2 g Hg)].
  assert (Const : forall n, constant expand n w = (w1, Ok t) -> In g modi).
  { intros n E. unfold constant in E. destruct (expand (node_str n) w) as [w0 [c|]]; [|discriminate]. injection E as _ <-. destruct Hg. }
  destruct i as [s|[v|b|b|p n|p n a|p n b|n b]]; cbn [token_of] in T; try (injection T as _ <-; destruct Hg; fail); try (apply (Const _ T)).
  - destruct (negb (negated p) && str_in n modi) eqn:C; [|apply (Const _ T)]. injection T as _ <-. destruct Hg as [<-|[]]. apply andb_true_iff in C as [_ C]. apply str_in_iff. exact C.
  - destruct (negb (negated p) && match a with [] => true | _ => false end && str_in n modi) eqn:C; [|apply (Const _ T)]. injection T as _ <-. destruct Hg as [<-|[]]. apply andb_true_iff in C as [_ C]. apply str_in_iff. exact C.
Qed.
(** The fields of the template and the names of the groups *)
Theorem pattern_fields value modi fl w w' p : construct_regex expand isid value modi fl w = (w', Ok p) ->
  (forall n, In (TField n) (p_template p) -> In n (p_names p)) /\ (forall n, In n (p_names p) -> In n modi \/ startswith n (lit "sub_") = true).
Proof.
  intros E. unfold construct_regex in E. destruct (M_value.parse value) as [nodes|]; [|discriminate]. destruct (flatten expand modi fl nodes ([], []) w) as [w1 [[items [P F]]|]] eqn:Ef; [|discriminate].
  destruct (tokens_of expand modi items w1) as [w2 [tokens|]] eqn:Et; [|discriminate].
  destruct (squash tokens) as [sq|] eqn:Sq; [|injection E as <- <-; cbn; split; [intros n [Q|[]]; discriminate|intros n []]].
  destruct (build [] sq [] 0) as [[rs ts] names] eqn:B. destruct (distinct_names names && forallb isid names); [|discriminate]. injection E as <- <-. cbn [p_template p_names]. split.
  - intros n Hn. apply (build_fields _ _ _ _ _ _ _ B n Hn).
  - intros n Hn. destruct (build_names _ _ _ _ _ _ _ B) as [B1 _]. destruct (B1 n Hn) as [[]|[H|(j & ->)]]; [left|right; apply sub_starts]. rewrite (squash_groups _ _ Sq) in H. apply (tokens_modi _ _ _ _ _ Et n H).
Qed.
Definition tags_ok (es : list entity) : Prop := forall t, In t es -> e_tag t = true -> lower (e_name t) = e_name t /\ lower (upper (e_name t)) = e_name t.
Lemma tags_chgs pos es es' : Forall2 (chg pos) es es' -> tags_ok es -> tags_ok es'.
Proof.
  intros H T t Ht Tg. assert (X : exists t0, In t0 es /\ chg pos t0 t). { clear - H Ht. induction H as [|x y l l' X _ IH]; [destruct Ht|]. destruct Ht as [<-|Ht]; [exists x; split; [left; reflexivity|exact X]|]. destruct (IH Ht) as (t0 & H1 & H2). exists t0. split; [right; exact H1|exact H2]. }
  destruct X as (t0 & H0 & (A1 & A2 & _)). rewrite A1. apply T; congruence.
Qed.
Lemma modi_found es pos g : tags_ok es -> In g (modifiable_entities pos es) -> find_last (concerns pos g) es <> None.
Proof.
  intros T H N.
  assert (Q : forall l, find_last (concerns pos g) l = None -> forall x, In x l -> concerns pos g x = false).
  { clear. induction l as [|y l IH]; cbn [find_last]; intros F x Hx; [destruct Hx|]. destruct (find_last (concerns pos g) l); [discriminate|]. destruct (concerns pos g y) eqn:Cy; [discriminate|]. destruct Hx as [<-|Hx]; auto. }
  specialize (Q es N). unfold modifiable_entities in H. rewrite in_app_iff, !in_map_iff in H. destruct H as [(e & <- & He)|(e & <- & He)]; apply filter_In in He as [He F]; apply andb_true_iff in F as [F F2].
  - specialize (Q e He). unfold concerns in Q. rewrite F, str_eqb_refl in Q. cbn [andb] in Q. destruct (e_tag e) eqn:Te; [|discriminate]. destruct (T e He Te) as [L _]. rewrite L, str_eqb_refl in Q. discriminate.
  - specialize (Q e He). unfold concerns in Q. rewrite F, F2 in Q. destruct (T e He F2) as [_ L]. rewrite L, str_eqb_refl in Q. cbn in Q. rewrite orb_true_r in Q. discriminate.
Qed.
Lemma found_chgs pos p g es es' : Forall2 (chg p) es es' -> find_last (concerns pos g) es <> None -> find_last (concerns pos g) es' <> None.
Proof.
  assert (Eq : Forall2 (chg p) es es' -> find_last (concerns pos g) es' = find_last (concerns pos g) es); [|intros H; rewrite (Eq H); auto].
  induction 1 as [|x y l l' (A1 & A2 & A3 & _) _ IH]; [reflexivity|]. cbn [find_last]. rewrite IH. unfold concerns at 2 4. rewrite A1, A2, A3. reflexivity.
Qed.
Definition expected (e : exn) : Prop := e = UnterminatedMacroException \/ e = ValueError \/ e = OtherError \/ exists s w w', expand s w = (w', Err e).
Lemma expand_expected s w w' e : expand s w = (w', Err e) -> expected e.
Proof. intros E. right. right. right. eauto. Qed.
Lemma parse_expected v e : M_value.parse v = Err e -> expected e.
Proof. intros E. destruct (parse_errors v e E) as [->|[-> _]]; unfold expected; auto. Qed.
Lemma tokens_expected modi : forall l w w' e, tokens_of expand modi l w = (w', Err e) -> expected e.
Proof.
  assert (Const : forall n w w' e, constant expand n w = (w', Err e) -> expected e).
  { intros n w w' e E. unfold constant in E. destruct (expand (node_str n) w) as [w0 [c|]] eqn:Ex; [discriminate|]. injection E as _ <-. apply (expand_expected _ _ _ _ Ex). }
  induction l as [|i l IH]; intros w w' e E; cbn [tokens_of] in E; [discriminate|].
  destruct (token_of expand modi i w) as [w1 [t|]] eqn:T.
  - destruct (tokens_of expand modi l w1) as [w2 [l'|]] eqn:E2; [discriminate|]. injection E as _ <-. apply (IH _ _ _ E2).
  - injection E as _ <-. destruct i as [s|[v|b|b|p n|p n a|p n b|n b]]; cbn [token_of] in T; try discriminate; try (apply (Const _ _ _ _ T)).
    + destruct (negb (negated p) && str_in n modi); [discriminate|apply (Const _ _ _ _ T)].
    + destruct (negb (negated p) && match a with [] => true | _ => false end && str_in n modi); [discriminate|apply (Const _ _ _ _ T)].
Qed.
Lemma flatten_expected modi fl : forall l sets w w' e, flatten expand modi fl l sets w = (w', Err e) -> expected e.
Proof.
  assert (Node : forall n sets w w' e, flatten_node expand modi fl n sets w = (w', Err e) -> expected e).
  { induction n as [v|b|b|p n|p n a|p n body IHb|n b] using node_ind2; intros sets w w' e E; try discriminate. rewrite flatten_node_cond in E.
    destruct (evaluate expand modi fl p n sets w) as [w1 [[[|] s1]|]] eqn:Ev; [|discriminate|].
    - assert (L : forall l sets w w' e, Forall (fun n => forall sets w w' e, flatten_node expand modi fl n sets w = (w', Err e) -> expected e) l -> flatten expand modi fl l sets w = (w', Err e) -> expected e).
      { clear. induction l as [|n l IH]; intros sets w w' e Fa E; [discriminate|]. inversion Fa as [|? ? H1 H2]; subst. cbn [flatten] in E. destruct (flatten_node expand modi fl n sets w) as [w1 [[a s1]|]] eqn:E1; [|injection E as _ <-; apply (H1 _ _ _ _ E1)].
        destruct (flatten expand modi fl l s1 w1) as [w2 [[b s2]|]] eqn:E2; [discriminate|]. injection E as _ <-. apply (IH _ _ _ _ H2 E2). }
      destruct (flatten expand modi fl body s1 w1) as [w2 [[b s2]|]] eqn:E2; [discriminate|]. injection E as _ <-. apply (L _ _ _ _ _ IHb E2).
    - injection E as _ <-. unfold evaluate in Ev. destruct sets as [P F]. destruct (negb (str_in n modi)); [discriminate|]. destruct (expand (lit "%{?" ++ n ++ lit ":1}") w) as [w2 [x|]] eqn:Ex.
      + repeat match type of Ev with (if ?c then _ else _) = _ => destruct c end; discriminate.
      + injection Ev as _ <-. apply (expand_expected _ _ _ _ Ex). }
  induction l as [|n l IH]; intros sets w w' e E; [discriminate|]. cbn [flatten] in E. destruct (flatten_node expand modi fl n sets w) as [w1 [[a s1]|]] eqn:E1; [|injection E as _ <-; apply (Node _ _ _ _ _ E1)].
  destruct (flatten expand modi fl l s1 w1) as [w2 [[b s2]|]] eqn:E2; [discriminate|]. injection E as _ <-. apply (IH _ _ _ _ E2).
Qed.
Lemma construct_expected value modi fl w w' e : construct_regex expand isid value modi fl w = (w', Err e) -> expected e.
Proof.
  intros E. unfold construct_regex in E. destruct (M_value.parse value) as [nodes|] eqn:Ep; [|injection E as _ <-; apply (parse_expected _ _ Ep)].
  destruct (flatten expand modi fl nodes ([], []) w) as [w1 [[items [P F]]|]] eqn:Ef; [|injection E as _ <-; apply (flatten_expected _ _ _ _ _ _ _ Ef)].
  destruct (tokens_of expand modi items w1) as [w2 [tokens|]] eqn:Et; [|injection E as _ <-; apply (tokens_expected _ _ _ _ _ Et)].
  destruct (squash tokens) as [sq|]; [|discriminate]. destruct (build [] sq [] 0) as [[rs ts] names]. destruct (distinct_names names && forallb isid names); [discriminate|]. injection E as _ <-. unfold expected. auto.
Qed.
Lemma groups_expected upd pos : (forall value requested p es w w' es' r, upd value requested p es w = (w', Ok (es', r)) -> Forall2 (chg p) es es') ->
  (forall value requested p es w w' e, p < pos -> tags_ok es -> upd value requested p es w = (w', Err e) -> expected e) ->
  forall d es w w' e, tags_ok es -> (forall g, In g (map fst d) -> startswith g (lit "sub_") = true \/ find_last (concerns pos g) es <> None) -> run_groups (W:=W) upd pos d es w = (w', Err e) -> expected e.
Proof.
  intros Hf H. induction d as [|[g v] d IH]; intros es w w' e T Hd E; cbn [run_groups] in E; [discriminate|].
  assert (Hd' : forall es', Forall2 (chg pos) es es' -> forall g, In g (map fst d) -> startswith g (lit "sub_") = true \/ find_last (concerns pos g) es' <> None).
  { intros es' C g' Hg. destruct (Hd g' (or_intror Hg)) as [Q|Q]; [auto|]. right. apply (found_chgs pos pos g' es es' C Q). }
  destruct (startswith g (lit "sub_")) eqn:Sg; [apply (IH es w w' e T (Hd' es (chgs_refl pos es)) E)|].
  destruct (Hd g (or_introl eq_refl)) as [Q|Fl]; [congruence|]. destruct (find_last (concerns pos g) es) as [k|] eqn:F; [|contradiction]. destruct (find_last_spec _ _ _ F) as ((e0 & Ek & P) & _). rewrite Ek in E.
  destruct (e_locked e0) eqn:Lk; [discriminate|]. destruct (find_reference e0 v) as [[|]|] eqn:Fr; [discriminate| |].
  2: { injection E as _ <-. unfold find_reference in Fr. destruct (M_value.parse v) as [ns|] eqn:Ep; [discriminate|]. injection Fr as <-. apply (parse_expected _ _ Ep). }
  apply concerns_position in P.
  assert (T1 : tags_ok (update_at k lock es)). { intros t Ht. apply In_nth_error in Ht as (j & Ht). destruct (Nat.eq_dec k j) as [<-|Nk]; [rewrite update_nth_same, Ek in Ht; injection Ht as <-; apply nth_error_In in Ek; apply (T e0 Ek)|rewrite update_nth_other in Ht by exact Nk; apply nth_error_In in Ht; apply (T t Ht)]. }
  destruct (upd (e_value e0) v (e_position e0) (update_at k lock es) w) as [w1 [[es1 v1]|]] eqn:Eu; [|injection E as _ <-; apply (H _ _ _ _ _ _ _ P T1 Eu)].
  apply Hf in Eu. assert (C : Forall2 (chg pos) es (update_at k (assign v1) es1)) by (apply (chgs_assign pos v1 k es es1 e0 (e_position e0)); auto; lia).
  apply (IH _ w1 w' e (tags_chgs _ _ _ C T) (Hd' _ C) E).
Qed.
(** What an update may raise *)
Theorem update_errors : forall fuel value requested pos es w w' e, pos < fuel -> tags_ok es -> update expand isid fuel value requested pos es w = (w', Err e) -> expected e.
Proof.
  induction fuel as [|fuel IH]; intros value requested pos es w w' e L T E; [lia|]. rewrite update_S in E. destruct (str_eqb value requested); [discriminate|].
  assert (A : forall fl next, (forall w w' e, next w = (w', Err e) -> expected e) -> forall w w' e, run_attempt expand isid (update expand isid fuel) value requested pos es fl next w = (w', Err e) -> expected e).
  { clear E. intros fl next Hn w0 w0' e0 E. unfold run_attempt in E. destruct (construct_regex expand isid value (modifiable_entities pos es) fl w0) as [w1 [p|]] eqn:Ec; [|injection E as _ <-; apply (construct_expected _ _ _ _ _ _ Ec)].
    destruct (re_match (p_regex p) requested) as [m|]; [|apply (Hn _ _ _ E)]. cbv zeta in E.
    destruct (run_groups (update expand isid fuel) pos (groupdict 0 (p_names p) m) es w1) as [w2 [[es2 [|]]|]] eqn:Eg; [discriminate|discriminate|]. injection E as _ <-.
    refine (groups_expected _ _ _ _ _ _ _ _ _ T _ Eg).
    - intros. eapply update_frame; eauto.
    - intros v0 r0 p0 es0 w3 w3' e3 L3 T3 E3. refine (IH _ _ _ _ _ _ _ _ T3 E3). lia.
    - intros g Hg. rewrite fst_groupdict in Hg. destruct (pattern_fields _ _ _ _ _ _ Ec) as [_ Pn]. destruct (Pn g Hg) as [Q|Q]; [right; apply modi_found; assumption|auto]. }
  refine (A _ _ _ _ _ _ E). apply A. intros w1 w1' e1 E1. discriminate.
Qed.
End World.
End Uni.
