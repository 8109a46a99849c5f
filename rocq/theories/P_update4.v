(** Proofs about updating values: the whole update. *)
From Coq Require Import Ascii String.
From Coq Require Import NArith ZArith List Bool Lia Arith.
From Verif Require Import PyStr PyStrFacts Regex RegexFacts M_value Spec_value Spec_value2 P_value P_value3 P_release2 P_context M_update Spec_update P_update P_update2 P_update3.
Import ListNotations.
Open Scope nat_scope.

Section Uni.
Context {U : Unicode}.
(** * The same macros and tags with other values *)
Definition alike (e e' : entity) : Prop := e_name e = e_name e' /\ e_tag e = e_tag e' /\ e_position e = e_position e' /\ e_disabled e = e_disabled e' /\ e_flip e = e_flip e'.
Lemma alike_refl e : alike e e.
Proof. repeat split. Qed.
Lemma skel_refl es : same_skeleton es es.
Proof. induction es; constructor; auto. Qed.
Lemma skel_sym es es' : same_skeleton es es' -> same_skeleton es' es.
Proof. induction 1 as [|e e' l l' (A & B & C & D & F) _ IH]; constructor; [repeat split; auto|exact IH]. Qed.
Lemma skel_trans es es' es'' : same_skeleton es es' -> same_skeleton es' es'' -> same_skeleton es es''.
Proof.
  intros H. revert es''. induction H as [|e e' l l' (A & B & C & D & F) _ IH]; intros es'' H'; inversion H' as [|? e'' ? l'' (A' & B' & C' & D' & F') H'']; subst; constructor; [repeat split; congruence|apply IH; exact H''].
Qed.
Lemma skel_update k f es : (forall e, alike e (f e)) -> same_skeleton es (update_at k f es).
Proof. intros H. revert k. induction es as [|e es IH]; intros [|k]; cbn [update_at]; constructor; [apply H|apply skel_refl|repeat split|apply IH]. Qed.
Lemma skel_nth es es' k e : same_skeleton es es' -> nth_error es k = Some e -> exists e', nth_error es' k = Some e' /\ alike e e'.
Proof. intros H. revert k. induction H as [|x x' l l' A _ IH]; intros [|k] E; cbn [nth_error] in *; try discriminate; [injection E as <-; eauto|apply IH; exact E]. Qed.
Lemma alike_denotes e e' name : alike e e' -> denotes e name -> denotes e' name.
Proof. intros (A & B & _) [->|[T ->]]; [left; exact A|right]. rewrite <- A, <- B. auto. Qed.
Lemma alike_sym e e' : alike e e' -> alike e' e.
Proof. intros (A & B & C & D & F). repeat split; auto. Qed.
Lemma closest_skel es es' pos name k : same_skeleton es es' -> closest es pos name k -> closest es' pos name k.
Proof.
  intros H ((e & E & P & D) & L). split.
  - destruct (skel_nth _ _ _ _ H E) as (e' & E' & A). exists e'. split; [exact E'|]. split; [destruct A as (_ & _ & <- & _); exact P|]. apply (alike_denotes e); assumption.
  - intros j e' Hj E' P' D'. destruct (skel_nth _ _ _ _ (skel_sym _ _ H) E') as (e0 & E0 & A). apply (L j e0 Hj E0); [destruct A as (_ & _ & <- & _); exact P'|]. apply (alike_denotes e'); assumption.
Qed.
Lemma known_skel es es' pos name : same_skeleton es es' -> known es pos name -> known es' pos name.
Proof.
  intros H (e & E & P & D). apply In_nth_error in E as (k & E). destruct (skel_nth _ _ _ _ H E) as (e' & E' & A). exists e'. split; [apply nth_error_In in E'; exact E'|].
  split; [destruct A as (_ & _ & <- & _); exact P|]. apply (alike_denotes e); assumption.
Qed.
Lemma ok_skel es es' : same_skeleton es es' -> entities_ok es -> entities_ok es'.
Proof.
  intros H (O1 & O2 & O3). apply skel_sym in H.
  assert (X : forall e', In e' es' -> exists e, In e es /\ alike e' e). { intros e' H'. apply In_nth_error in H' as (k & E). destruct (skel_nth _ _ _ _ H E) as (e & E' & A). apply nth_error_In in E'. eauto. }
  split; [|split].
  - intros e' H'. destruct (X e' H') as (e & Ie & (_ & _ & _ & _ & ->)). auto.
  - intros e' H' T. destruct (X e' H') as (e & Ie & (-> & B & _)). apply O2; [assumption|congruence].
  - intros m t Hm Ht Tm Tt L. destruct (X m Hm) as (m0 & Im & Am). destruct (X t Ht) as (t0 & It & At). destruct Am as (Em & Bm & _). rewrite Em. apply (alike_denotes t0); [apply alike_sym; exact At|]. destruct At as (A1 & B1 & _). apply O3; try assumption; congruence.
Qed.
Lemma closest_known es pos name k : closest es pos name k -> known es pos name.
Proof. intros ((e & E & P & D) & _). exists e. apply nth_error_In in E. auto. Qed.
Lemma closest_fun es pos name k k' : closest es pos name k -> closest es pos name k' -> k = k'.
Proof.
  intros ((e & E & P & D) & L) ((e' & E' & P' & D') & L'). destruct (Nat.lt_trichotomy k k') as [H|[H|H]]; [destruct (L _ _ H E' P' D')|exact H|destruct (L' _ _ H E P D)].
Qed.

(** * What is reached *)
Lemma reaches_position es pos text j : reaches es pos text j -> forall e, nth_error es j = Some e -> e_position e < pos.
Proof.
  induction 1 as [pos text name k R C|pos text name k e0 j R C E0 H IH]; intros e E.
  - destruct C as ((e' & E' & P & _) & _). rewrite E in E'. injection E' as <-. exact P.
  - specialize (IH e E). destruct C as ((e' & E' & P & _) & _). rewrite E0 in E'. injection E' as <-. lia.
Qed.
Definition agree (D : nat -> Prop) (es es' : list entity) : Prop :=
  same_skeleton es es' /\ forall k e e', D k -> nth_error es k = Some e -> nth_error es' k = Some e' -> e_value e = e_value e'.
Lemma agree_sub (D D' : nat -> Prop) es es' : (forall k, D' k -> D k) -> agree D es es' -> agree D' es es'.
Proof. intros H [S A]. split; [exact S|]. intros k e e' Dk. apply A, H, Dk. Qed.
Lemma agree_get D es es' k e : agree D es es' -> D k -> nth_error es k = Some e -> exists e', nth_error es' k = Some e' /\ alike e e' /\ e_value e' = e_value e.
Proof. intros [S A] Dk E. destruct (skel_nth _ _ _ _ S E) as (e' & E' & L). exists e'. split; [exact E'|]. split; [exact L|]. symmetry. apply (A k); assumption. Qed.
Lemma reaches_fwd es es' pos text j : reaches es pos text j -> agree (reaches es pos text) es es' -> reaches es' pos text j.
Proof.
  induction 1 as [pos text name k R C|pos text name k e j R C E H IH]; intros A.
  - apply (reach_one _ _ _ name); [exact R|]. apply (closest_skel es); [apply A|exact C].
  - destruct (agree_get _ _ _ k e A) as (e' & E' & L & V); [apply (reach_one _ _ _ name); assumption|exact E|].
    apply (reach_more _ _ _ name k e'); [exact R|apply (closest_skel es); [apply A|exact C]|exact E'|]. rewrite V. destruct L as (_ & _ & <- & _). apply IH.
    apply (agree_sub (reaches es pos text)); [|exact A]. intros j' H'. apply (reach_more _ _ _ name k e); assumption.
Qed.
Lemma reaches_bwd es es' pos text j : reaches es' pos text j -> agree (reaches es pos text) es es' -> reaches es pos text j.
Proof.
  induction 1 as [pos text name k R C|pos text name k e' j R C E' H IH]; intros A; assert (C0 : closest es pos name k) by (apply (closest_skel es'); [apply skel_sym, A|exact C]).
  - apply (reach_one _ _ _ name); assumption.
  - assert (Rk : reaches es pos text k) by (apply (reach_one _ _ _ name); assumption). destruct C0 as ((e & E & P & D) & L0).
    destruct (agree_get _ _ _ k e A Rk E) as (e0 & E0 & L & V). rewrite E' in E0. injection E0 as <-. assert (C0 : closest es pos name k) by (split; eauto).
    apply (reach_more _ _ _ name k e); auto. rewrite <- V. destruct L as (_ & _ & -> & _). apply IH. apply (agree_sub (reaches es pos text)); [|exact A].
    intros j' H'. apply (reach_more _ _ _ name k e); auto. rewrite <- V. destruct A as [S _]. destruct (skel_nth _ _ _ _ S E) as (e2 & E2 & L2). rewrite E' in E2. injection E2 as <-. destruct L2 as (_ & _ & -> & _). exact H'.
Qed.
Lemma below_reach es pos text name k j : refers_to text name -> closest es pos name k -> below es k j -> reaches es pos text j.
Proof. intros R C [->|(e & E & H)]; [apply (reach_one _ _ _ name); assumption|apply (reach_more _ _ _ name k e); assumption]. Qed.
Lemma below_bwd es es' pos text name k j : refers_to text name -> closest es pos name k -> agree (reaches es pos text) es es' -> below es' k j -> below es k j.
Proof.
  intros R C A [->|(e' & E' & H)]; [left; reflexivity|]. right. assert (Rk : reaches es pos text k) by (apply (reach_one _ _ _ name); assumption). pose proof C as ((e & E & P & D) & _).
  destruct (agree_get _ _ _ k e A Rk E) as (e0 & E0 & L & V). rewrite E' in E0. injection E0 as <-. exists e. split; [exact E|]. rewrite V in H. destruct L as (_ & _ & L & _). rewrite <- L in H.
  apply (reaches_bwd es es' _ _ _ H). apply (agree_sub (reaches es pos text)); [|exact A]. intros j' H'. apply (reach_more _ _ _ name k e); assumption.
Qed.
Lemma separate_agree ex es es' pos text : separate ex es pos text -> agree (reaches es pos text) es es' -> separate ex es' pos text.
Proof.
  induction 1 as [pos text nodes Hp Hcan Hl Hb Hc Hs Hch IH Hd]; intros A. pose proof (proj1 A) as Sk. pose proof (skel_sym _ _ Sk) as Sk'.
  apply (separate_intro _ _ _ _ nodes); auto.
  - intros pre p x s post E. destruct (Hb _ _ _ _ _ E) as [H1 H2]. split; [exact H1|]. apply (known_skel es); assumption.
  - intros p x b H. destruct (Hc _ _ _ H) as [H1 H2]. split; [|exact H2]. intros K. apply H1. apply (known_skel es'); assumption.
  - intros name R K. apply Hs; [exact R|]. apply (known_skel es'); assumption.
  - intros name k e' R C E'. assert (C0 : closest es pos name k) by (apply (closest_skel es'); assumption). pose proof C0 as ((e & E & _) & _).
    destruct (agree_get _ _ _ k e A) as (e0 & E0 & L & V); [apply (reach_one _ _ _ name); assumption|exact E|]. rewrite E' in E0. injection E0 as <-. rewrite V. destruct L as (_ & _ & <- & _).
    apply (IH name k e R C0 E). apply (agree_sub (reaches es pos text)); [|exact A]. intros j' H'. apply (reach_more _ _ _ name k e); assumption.
  - intros n1 n2 k1 k2 j R1 R2 N C1 C2 B1 B2. apply (closest_skel es' es) in C1; [|exact Sk']. apply (closest_skel es' es) in C2; [|exact Sk'].
    apply (Hd n1 n2 k1 k2 j); auto; [apply (below_bwd es es' pos text n1)|apply (below_bwd es es' pos text n2)]; assumption.
Qed.
Lemma separate_inv ex es pos text : separate ex es pos text -> exists nodes, M_value.parse text = Ok nodes /\ canonical At_start nodes /\ ~ In (StringLiteral [LF]) nodes /\
  (forall pre p x s post, nodes = pre ++ MacroSubstitution p x :: StringLiteral s :: post -> Nat.Even (bangs p) /\ known es pos x) /\
  (forall p x b, In (ConditionalMacroExpansion p x b) nodes -> ~ known es pos x /\ ex (node_str (ConditionalMacroExpansion p x b)) = Ok []) /\
  (forall name, refers_to text name -> known es pos name -> ~ exists t, name = lit "sub_" ++ t) /\
  (forall name k e, refers_to text name -> closest es pos name k -> nth_error es k = Some e -> separate ex es (e_position e) (e_value e)) /\
  (forall name1 name2 k1 k2 j, refers_to text name1 -> refers_to text name2 -> name1 <> name2 -> closest es pos name1 k1 -> closest es pos name2 k2 -> below es k1 j -> below es k2 j -> False).
Proof. intros [? ? nodes H1 H2 H3 H4 H5 H6 H7 H8]. exists nodes. auto 10. Qed.
Lemma evaluates_stable ex es es' pos nodes v : evaluates ex es pos nodes v -> same_skeleton es es' ->
  (forall n name k j, In n nodes -> reference n name -> closest es pos name k -> below es k j -> nth_error es' j = nth_error es j) -> evaluates ex es' pos nodes v.
Proof.
  intros H Sk. induction H as [pos|pos s ns y Hs H IH|pos n name k e body x ns y R C E L Pb H1 IH1 H2 IH2|pos n c ns y N1 N2 N3 X H IH]; intros St.
  - constructor.
  - constructor; [exact Hs|]. apply IH. intros n name k j Hn. apply St. right. exact Hn.
  - assert (E' : nth_error es' k = Some e). { rewrite (St n name k k); auto; [left; reflexivity|left; reflexivity]. }
    apply (ev_reference _ _ _ n name k e body); auto; [apply (closest_skel es); assumption| |].
    + apply IH1. intros n' name' k' j' Hn' R' C' B'. apply (St n name k j'); auto; [left; reflexivity|]. right. exists e. split; [exact E|]. apply (below_reach es (e_position e) (e_value e) name' k'); auto. exists body, n'. auto.
    + apply IH2. intros n' name' k' j' Hn'. apply St. right. exact Hn'.
  - apply ev_other; auto; [intros name R K; apply (N2 name R); apply (known_skel es'); [apply skel_sym; exact Sk|exact K]|intros p name b Q K; apply (N3 p name b Q); apply (known_skel es'); [apply skel_sym; exact Sk|exact K]|].
    apply IH. intros n' name' k' j' Hn'. apply St. right. exact Hn'.
Qed.

(** * Names *)
Lemma modifiable_known es pos name : entities_ok es -> (In name (modifiable_entities pos es) <-> known es pos name).
Proof.
  intros (O1 & _). unfold modifiable_entities. rewrite in_app_iff, !in_map_iff. split.
  - intros [(e & <- & He)|(e & <- & He)]; apply filter_In in He as [He F]; apply andb_true_iff in F as [F T]; apply Nat.ltb_lt in F; exists e; (split; [exact He|]); (split; [exact F|]); [left|right]; auto.
  - intros (e & He & P & [->|[T ->]]); apply Nat.ltb_lt in P; [left|right]; exists e; (split; [reflexivity|]); apply filter_In; (split; [exact He|]); rewrite P; [rewrite (O1 e He)|rewrite T]; reflexivity.
Qed.
Lemma concerns_denotes es pos name e : entities_ok es -> known es pos name -> In e es -> (concerns pos name e = true <-> e_position e < pos /\ denotes e name).
Proof.
  intros (O1 & O2 & O3) (e0 & I0 & P0 & D0) Ie. unfold concerns. rewrite andb_true_iff, orb_true_iff, !andb_true_iff, Nat.ltb_lt, !str_eqb_eq, negb_true_iff. split; intros [P H]; (split; [exact P|]).
  - destruct H as [[<- T]|[En T]]; [left; reflexivity|]. destruct (O2 e Ie T) as [L1 L2]. destruct D0 as [->|[T0 ->]].
    + destruct (e_tag e0) eqn:T0; [destruct (O2 e0 I0 T0) as [L3 _]; left; congruence|]. apply (O3 e0 e); auto.
    + destruct (O2 e0 I0 T0) as [_ L3]. right. split; [exact T|]. congruence.
  - destruct H as [->|[T ->]].
    + destruct (e_tag e) eqn:T; [right; destruct (O2 e Ie T); auto|left; auto].
    + right. destruct (O2 e Ie T); auto.
Qed.
Lemma find_last_spec {A} (p : A -> bool) l : forall k, find_last p l = Some k -> (exists x, nth_error l k = Some x /\ p x = true) /\ forall j x, k < j -> nth_error l j = Some x -> p x = false.
Proof.
  assert (N : forall l, find_last p l = None -> forall j x, nth_error l j = Some x -> p x = false).
  { induction l0 as [|x l0 IH]; cbn [find_last]; intros E j y H; [destruct j; discriminate|]. destruct (find_last p l0); [discriminate|]. destruct (p x) eqn:Px; [discriminate|]. destruct j; [injection H as <-; exact Px|apply (IH eq_refl j); exact H]. }
  induction l as [|x l IH]; cbn [find_last]; intros k E; [discriminate|]. destruct (find_last p l) as [k'|] eqn:F.
  - injection E as <-. destruct (IH k' eq_refl) as [H1 H2]. split; [exact H1|]. intros [|j] y Hj H; [lia|]. apply (H2 j); [lia|exact H].
  - destruct (p x) eqn:Px; [|discriminate]. injection E as <-. split; [exists x; auto|]. intros [|j] y Hj H; [lia|]. apply (N l F j y H).
Qed.
Lemma find_last_closest es pos name k : entities_ok es -> known es pos name -> find_last (concerns pos name) es = Some k -> closest es pos name k.
Proof.
  intros O K F. destruct (find_last_spec _ _ _ F) as ((e & E & P) & L). split.
  - exists e. split; [exact E|]. apply (concerns_denotes es) in P; auto. apply nth_error_In in E. exact E.
  - intros j e' Hj E' P' D'. specialize (L j e' Hj E'). assert (Q : concerns pos name e' = true); [|congruence]. apply (concerns_denotes es); auto. apply nth_error_In in E'. exact E'.
Qed.

(** * One level of the update *)
Definition good (s : str) : Prop := s <> [] /\ ~ In PCT s /\ ~ In LF s.
Lemma parse_plain s : s <> [] -> ~ In PCT s -> M_value.parse s = Ok [StringLiteral s].
Proof.
  intros N P. replace s with (nodes_str [StringLiteral s]) at 1 by (unfold nodes_str; cbn [flat_map node_str]; apply app_nil_r). apply parse_printed. constructor; [exact N|apply no_pct_escaped; exact P|constructor].
Qed.
Lemma plain_refers s : s <> [] -> ~ In PCT s -> forall name, ~ refers_to s name.
Proof. intros N P name (nodes & n & Ep & Hn & R). rewrite (parse_plain s N P) in Ep. injection Ep as <-. destruct Hn as [<-|[]]. destruct R as (p & _ & [Q|Q]); discriminate. Qed.
Lemma plain_reaches es pos s : s <> [] -> ~ In PCT s -> forall j, ~ reaches es pos s j.
Proof. intros N P j H. inversion H as [? ? name k R C|? ? name k e ? R C E H']; subst; exact (plain_refers s N P name R). Qed.

Section World.
Context {W : Type} (expand : str -> W -> W * result str) (isid : str -> bool).
Definition run_groups (upd : str -> str -> nat -> list entity -> W -> W * result (list entity * str)) (position : nat) :=
  fix groups (d : list (str * str)) (es : list entity) (w : W) : W * result (list entity * bool) :=
  match d with
  | [] => (w, Ok (es, true))
  | (g, v) :: d' =>
      if startswith g (lit "sub_") then groups d' es w
      else
        match find_last (concerns position g) es with
        | None => (w, Err IndexError)
        | Some k =>
            match nth_error es k with
            | None => (w, Err IndexError)
            | Some e =>
                if e_locked e then (w, Ok (es, false))
                else
                  match find_reference e v with
                  | Err x => (w, Err x)
                  | Ok true => (w, Ok (es, false))
                  | Ok false =>
                      match upd (e_value e) v (e_position e) (update_at k lock es) w with
                      | (w, Err x) => (w, Err x)
                      | (w, Ok (es, v')) => groups d' (update_at k (assign v') es) w
                      end
                  end
            end
        end
  end.
Definition run_attempt upd value requested position es flippable (next : W -> W * result (list entity * str)) w :=
  match construct_regex expand isid value (modifiable_entities position es) flippable w with
  | (w, Err x) => (w, Err x)
  | (w, Ok p) =>
      match re_match (p_regex p) requested with
      | None => next w
      | Some m =>
          let d := groupdict 0 (p_names p) m in
          match run_groups upd position d es w with
          | (w, Err x) => (w, Err x)
          | (w, Ok (es, false)) => (w, Ok (es, requested))
          | (w, Ok (es, true)) => (w, Ok (flip_all position (p_flip p) es, substitute (p_template p) d))
          end
      end
  end.
Lemma update_S fuel value requested position es w : update expand isid (S fuel) value requested position es w =
  if str_eqb value requested then (w, Ok (es, requested))
  else run_attempt (update expand isid fuel) value requested position es (flippable_entities position es)
         (run_attempt (update expand isid fuel) value requested position es [] (fun w => (w, Ok (es, requested)))) w.
Proof. reflexivity. Qed.

Context (ex : str -> result str) (I : W -> Prop) (pure : forall s w, I w -> exists w', expand s w = (w', ex s) /\ I w').
Lemma tokens_keep modi : forall l w w' r, I w -> tokens_of expand modi l w = (w', r) -> I w'.
Proof.
  assert (Const : forall n w w' r, I w -> constant expand n w = (w', r) -> I w').
  { intros n w w' r Iw E. unfold constant in E. destruct (pure (node_str n) w Iw) as (w1 & Ew & Iw1). rewrite Ew in E. destruct (ex (node_str n)); injection E as <- _; exact Iw1. }
  induction l as [|i l IH]; intros w w' r Iw E; cbn [tokens_of] in E; [injection E as <- _; exact Iw|].
  assert (T : forall w1 r1, token_of expand modi i w = (w1, r1) -> I w1).
  { intros w1 r1 T. destruct i as [s|[v|b|b|p n|p n a|p n b|n b]]; cbn [token_of] in T; try (injection T as <- _; exact Iw); try (apply (Const _ _ _ _ Iw T));
      match type of T with (if ?c then _ else _) = _ => destruct c end; try (injection T as <- _; exact Iw); apply (Const _ _ _ _ Iw T). }
  destruct (token_of expand modi i w) as [w1 [t|]]; [|injection E as <- _; apply (T _ _ eq_refl)]. specialize (T _ _ eq_refl).
  destruct (tokens_of expand modi l w1) as [w2 [ts|]] eqn:E2; injection E as <- _; apply (IH _ _ _ T E2).
Qed.
Lemma construct_keeps value modi fl w w' p : I w -> construct_regex expand isid value modi fl w = (w', Ok p) -> I w'.
Proof.
  intros Iw E. unfold construct_regex in E. destruct (M_value.parse value) as [nodes|]; [|discriminate]. destruct (flatten expand modi fl nodes ([], []) w) as [w1 [[items [P F]]|]] eqn:Ef; [|discriminate].
  destruct (flatten_links expand ex I pure modi fl (fun _ => []) _ _ _ _ _ _ Ef Iw) as [Iw1 _]. destruct (tokens_of expand modi items w1) as [w2 [tokens|]] eqn:Et; [|discriminate]. apply (tokens_keep _ _ _ _ _ Iw1) in Et.
  destruct (squash tokens) as [sq|]; [|injection E as <- _; exact Et]. destruct (build [] sq [] 0) as [[rs ts] names]. destruct (distinct_names names && forallb isid names); [|discriminate]. injection E as <- _. exact Et.
Qed.
Definition outcome (es : list entity) (pos : nat) (value requested : str) (es' : list entity) (r : str) : Prop :=
  same_skeleton es es' /\ (forall k, ~ reaches es pos value k -> nth_error es' k = nth_error es k) /\ text_evaluates ex es' pos r requested /\ (forall k, reaches es' pos r k -> reaches es pos value k).
Lemma outcome_requested es pos value requested es' : good requested -> same_skeleton es es' -> (forall k, ~ reaches es pos value k -> nth_error es' k = nth_error es k) ->
  outcome es pos value requested es' requested.
Proof.
  intros (G1 & G2 & G3) Sk F. split; [exact Sk|]. split; [exact F|]. split.
  - exists [StringLiteral requested]. split; [apply parse_plain; assumption|]. rewrite <- (app_nil_r requested) at 2. constructor; [exact G2|constructor].
  - intros k H. exfalso. exact (plain_reaches es' pos requested G1 G2 k H).
Qed.

Section Level.
Context (upd : str -> str -> nat -> list entity -> W -> W * result (list entity * str)).
Context (IHu : forall value requested pos es w w' es' r, I w -> entities_ok es -> separate ex es pos value -> good requested -> upd value requested pos es w = (w', Ok (es', r)) ->
  I w' /\ outcome es pos value requested es' r).
Context (es0 : list entity) (pos : nat) (value : str) (ok0 : entities_ok es0) (sep0 : separate ex es0 pos value).
Section Val.
Context (val : str -> str).
Definition inv (done : list str) (es : list entity) : Prop :=
  same_skeleton es0 es /\
  (forall j, (forall g k, In g done -> closest es0 pos g k -> ~ below es0 k j) -> nth_error es j = nth_error es0 j) /\
  (forall g k, In g done -> closest es0 pos g k -> exists e ns, nth_error es k = Some e /\ live e /\ M_value.parse (e_value e) = Ok ns /\ evaluates ex es (e_position e) ns (val g) /\
    forall j, reaches es (e_position e) (e_value e) j -> below es0 k j).
Lemma groups_ok : forall d done es w w' es' b, I w -> inv done es -> (forall g, In g done -> refers_to value g) ->
  (forall g v, In (g, v) d -> startswith g (lit "sub_") = true \/ good v /\ val g = v /\ refers_to value g /\ known es0 pos g) -> NoDup (map fst d) -> (forall g, In g (map fst d) -> ~ In g done) ->
  run_groups upd pos d es w = (w', Ok (es', b)) ->
  I w' /\ exists done', inv done' es' /\ (forall g, In g done' -> refers_to value g) /\ (b = true -> forall g, In g done \/ In g (map fst d) /\ startswith g (lit "sub_") = false -> In g done').
Proof.
  destruct (separate_inv _ _ _ _ sep0) as (nodes & Hp & Hcan & Hl & Hb & Hc & Hs & Hch & Hd).
  induction d as [|[g v] d IH]; intros done es w w' es' b Iw Iv Hr Hv Nd Dis E; cbn [run_groups] in E.
  - injection E as <- <- <-. split; [exact Iw|]. exists done. split; [exact Iv|]. split; [exact Hr|]. intros _ g [H|[[] _]]. exact H.
  - inversion Nd as [|? ? Ng Nd']; subst. assert (Hv' : forall g v, In (g, v) d -> startswith g (lit "sub_") = true \/ good v /\ val g = v /\ refers_to value g /\ known es0 pos g) by (intros g' v' H'; apply Hv; right; exact H').
    destruct (startswith g (lit "sub_")) eqn:Sg.
    + change ((fix groups (d : list (str * str)) (es : list entity) (w : W) : W * result (list entity * bool) := _) d es w) with (run_groups upd pos d es w) in E.
      destruct (IH done es w w' es' b Iw Iv Hr Hv' Nd' ltac:(intros g' H'; apply Dis; right; exact H') E) as (Iw' & done' & Iv' & Hr' & Hb').
      split; [exact Iw'|]. exists done'. split; [exact Iv'|]. split; [exact Hr'|]. intros Tb g' [H'|[[<-|H'] S']]; [apply Hb'; auto|cbn [fst] in S'; congruence|apply Hb'; auto].
    + destruct (Hv g v (or_introl eq_refl)) as [Q|(Gv & Ev & Rg & Kg)]; [congruence|].
      destruct Iv as (Sk & Fr & Ok'). destruct (find_last (concerns pos g) es) as [k|] eqn:Fl; [|discriminate].
      assert (Oes : entities_ok es) by (apply (ok_skel es0); assumption).
      assert (Ck : closest es0 pos g k). { apply (closest_skel es); [apply skel_sym; exact Sk|]. apply find_last_closest; auto. apply (known_skel es0); assumption. }
      destruct (nth_error es k) as [e|] eqn:Ek; [|discriminate].
      assert (Dj : forall j g' k', below es0 k j -> In g' done -> closest es0 pos g' k' -> ~ below es0 k' j).
      { intros j g' k' B Hg' C' B'. apply (Hd g g' k k' j); auto. intros <-. apply (Dis g); [left; reflexivity|exact Hg']. }
      assert (Same : forall j, below es0 k j -> nth_error es j = nth_error es0 j) by (intros j B; apply Fr; intros g' k' Hg' C'; apply (Dj j g' k' B Hg' C')).
      assert (E0 : nth_error es0 k = Some e) by (rewrite <- (Same k (or_introl eq_refl)); exact Ek).
      destruct (e_locked e).
      * injection E as <- <- <-. split; [exact Iw|]. exists done. split; [split; auto|]. split; [exact Hr|]. discriminate.
      * assert (Fr0 : find_reference e v = Ok false). { unfold find_reference. destruct Gv as (G1 & G2 & _). rewrite (parse_plain v G1 G2). reflexivity. }
        rewrite Fr0 in E. destruct (upd (e_value e) v (e_position e) (update_at k lock es) w) as [w1 [[es2 v']|]] eqn:Eu; [|discriminate].
        assert (Sk1 : same_skeleton es0 (update_at k lock es)) by (apply (skel_trans es0 es); [exact Sk|apply skel_update; repeat split]).
        assert (Ag1 : agree (reaches es0 (e_position e) (e_value e)) es0 (update_at k lock es)).
        { split; [exact Sk1|]. intros j a a' Rj Ea Ea'. assert (B : below es0 k j) by (right; exists e; auto). destruct (Nat.eq_dec k j) as [<-|Nk].
          - rewrite update_nth_same, Ek in Ea'. cbn [option_map] in Ea'. injection Ea' as <-. rewrite E0 in Ea. injection Ea as <-. reflexivity.
          - rewrite update_nth_other, (Same j B), Ea in Ea' by exact Nk. injection Ea' as <-. reflexivity. }
        assert (Sep1 : separate ex (update_at k lock es) (e_position e) (e_value e)) by (apply (separate_agree ex es0); [apply (Hch g k e); assumption|exact Ag1]).
        destruct (IHu _ _ _ _ _ _ _ _ Iw (ok_skel _ _ Sk1 ok0) Sep1 Gv Eu) as (Iw1 & Sk2 & Fr2 & (ns & Pv & Evv) & Rr).
        assert (Lk : same_skeleton es (update_at k lock es)) by (apply skel_update; repeat split).
        assert (Sk2' : same_skeleton es0 es2) by (apply (skel_trans _ _ _ Sk1 Sk2)).
        destruct (skel_nth _ _ _ _ Sk2' E0) as (e2 & E2 & Al2). set (es3 := update_at k (assign v') es2) in *.
        assert (Sk23 : same_skeleton es2 es3) by (apply skel_update; repeat split). assert (Sk3 : same_skeleton es0 es3) by (apply (skel_trans _ _ _ Sk2' Sk23)).
        assert (E3 : nth_error es3 k = Some (assign v' e2)) by (unfold es3; rewrite update_nth_same, E2; reflexivity).
        assert (P3 : e_position e2 = e_position e) by (destruct Al2 as (_ & _ & <- & _); reflexivity).
        assert (O3 : forall j, j <> k -> nth_error es3 j = nth_error es2 j) by (intros j Nj; unfold es3; apply update_nth_other; auto).
        assert (Out : forall j, ~ below es0 k j -> nth_error es3 j = nth_error es j).
        { intros j NB. assert (Nj : j <> k) by (intros ->; apply NB; left; reflexivity). rewrite (O3 j Nj), Fr2; [apply update_nth_other; auto|].
          intros Rj. apply NB. right. exists e. split; [exact E0|]. apply (reaches_bwd es0 (update_at k lock es)); assumption. }
        assert (Nk2 : forall j, reaches es2 (e_position e) v' j -> j <> k). { intros j Rj ->. pose proof (reaches_position _ _ _ _ Rj _ E2). lia. }
        change ((fix groups (d : list (str * str)) (es : list entity) (w : W) : W * result (list entity * bool) := _) d es3 w1) with (run_groups upd pos d es3 w1) in E.
        assert (Ag23 : agree (reaches es2 (e_position e) v') es2 es3).
        { split; [exact Sk23|]. intros j a a' Rj Ea Ea'. rewrite (O3 j (Nk2 j Rj)), Ea in Ea'. injection Ea' as <-. reflexivity. }
        assert (Iv3 : inv (g :: done) es3).
        { split; [exact Sk3|]. split.
          - intros j Hj. rewrite Out by (apply (Hj g k (or_introl eq_refl) Ck)). apply Fr. intros g' k' Hg' C'. apply (Hj g' k' (or_intror Hg') C').
          - intros g' k' [<-|Hg'] C'.
            + assert (k' = k) as -> by (apply (closest_fun es0 pos g); assumption). exists (assign v' e2), ns. split; [exact E3|]. split; [right; reflexivity|]. cbn [assign e_value e_position]. split; [exact Pv|]. rewrite P3, Ev. split.
              * apply (evaluates_stable ex es2); [exact Evv|exact Sk23|]. intros n name k0 j Hn Rn C0 B0. apply O3, Nk2. apply (below_reach es2 (e_position e) v' name k0); auto. exists ns, n. auto.
              * intros j Rj. right. exists e. split; [exact E0|]. apply (reaches_bwd es0 (update_at k lock es)); [|exact Ag1]. apply Rr. apply (reaches_bwd es2 es3); assumption.
            + destruct (Ok' g' k' Hg' C') as (e' & ns' & Ee' & Le' & Pe' & Eve' & Re').
              assert (NB : forall j, below es0 k' j -> ~ below es0 k j) by (intros j B' B; exact (Dj j g' k' B Hg' C' B')).
              assert (St : forall j, below es0 k' j -> nth_error es3 j = nth_error es j) by (intros j B'; apply Out, NB, B').
              exists e', ns'. split; [rewrite St by (left; reflexivity); exact Ee'|]. split; [exact Le'|]. split; [exact Pe'|].
              assert (Ske : same_skeleton es es3) by (apply (skel_trans es es0); [apply skel_sym; exact Sk|exact Sk3]). split.
              * apply (evaluates_stable ex es); [exact Eve'|exact Ske|]. intros n name k0 j Hn Rn C0 B0. apply St, Re'. apply (below_reach es (e_position e') (e_value e') name k0); auto. exists ns', n. auto.
              * intros j Rj. apply Re'. apply (reaches_bwd es es3); [exact Rj|]. split; [exact Ske|]. intros j' a a' Rj' Ea Ea'. rewrite (St j' (Re' j' Rj')), Ea in Ea'. injection Ea' as <-. reflexivity. }
        destruct (IH (g :: done) es3 w1 w' es' b Iw1 Iv3) as (Iw' & done' & Iv' & Hr' & Hb').
        -- intros g' [<-|H']; auto.
        -- exact Hv'.
        -- exact Nd'.
        -- intros g' H' [<-|Q]; [exact (Ng H')|]. apply (Dis g'); [right; exact H'|exact Q].
        -- exact E.
        -- split; [exact Iw'|]. exists done'. split; [exact Iv'|]. split; [exact Hr'|]. intros Tb g' [H'|[[<-|H'] S']]; apply (Hb' Tb); [left; right; exact H'|left; left; reflexivity|right; auto].
Qed.
End Val.
Lemma flip_none p es : flip_all p [] es = es.
Proof. unfold flip_all. rewrite <- (map_id es) at 2. apply map_ext. intros e. rewrite andb_false_r. reflexivity. Qed.
Lemma sub_starts n : startswith (sub_name n) (lit "sub_") = true.
Proof. apply startswith_iff. exists (dec (N.of_nat n)). reflexivity. Qed.
Lemma attempt_ok requested fl next w w' es' r : good requested -> I w ->
  (forall w w' es' r, I w -> next w = (w', Ok (es', r)) -> I w' /\ outcome es0 pos value requested es' r) ->
  run_attempt upd value requested pos es0 fl next w = (w', Ok (es', r)) -> I w' /\ outcome es0 pos value requested es' r.
Proof.
  intros Gr Iw Hn E. unfold run_attempt in E. destruct (construct_regex expand isid value (modifiable_entities pos es0) fl w) as [w1 [p|]] eqn:Ec; [|discriminate].
  assert (Iw1 : I w1) by (apply (construct_keeps _ _ _ _ _ _ Iw Ec)).
  destruct (re_match (p_regex p) requested) as [m|] eqn:Em; [|apply (Hn _ _ _ _ Iw1 E)]. cbv zeta in E.
  destruct (separate_inv _ _ _ _ sep0) as (nodes & Hp & Hcan & Hl & Hb & Hc & Hs & Hch & Hd).
  assert (Hcm : forall p x b, In (ConditionalMacroExpansion p x b) nodes -> ~ In x (modifiable_entities pos es0)).
  { intros q x b H. rewrite modifiable_known by exact ok0. apply (Hc q x b H). }
  destruct Gr as (Gr1 & Gr2 & Gr3). destruct (pattern_plain expand ex I pure isid _ _ _ _ _ _ _ _ _ Iw Ec Em Gr1 Gr3 Hp Hcm) as (_ & Pf & Nd & G1 & G2 & G3 & St).
  set (d := groupdict 0 (p_names p) m) in *. rewrite Pf in E.
  assert (Part : forall g, In g (map fst d) -> (exists n, In n nodes /\ reference n g /\ In g (modifiable_entities pos es0)) -> good (field g d)).
  { intros g Hg (n & Hn' & Rn & Mn). apply in_map_iff in Hg as ((g' & v) & Q & Hg). cbn [fst] in Q. subst g'. destruct (G3 g v Hg) as [V1 V2].
    destruct (stands_part ex _ (fun n => field n d) [] g n Rn Mn ltac:(intros q x b ->; destruct Rn as (z & _ & [Q|Q]); discriminate) _ _ _ _ St Hn') as (u & u' & Er).
    rewrite V2 in *. split; [exact V1|]. rewrite Er in Gr2, Gr3. split; intros Q; [apply Gr2|apply Gr3]; apply in_or_app; right; apply in_or_app; left; exact Q. }
  assert (Iv0 : inv (fun n => field n d) [] es0) by (split; [apply skel_refl|]; split; [reflexivity|intros g k []]).
  destruct (run_groups upd pos d es0 w1) as [w2 [[es2 b]|]] eqn:Eg; [|discriminate].
  destruct (groups_ok (fun n => field n d) d [] es0 w1 w2 es2 b Iw1 Iv0) as (Iw2 & done & (Sk & Fr & Ev) & Hr & Hall); [intros g []| |exact Nd|intros g _ []|exact Eg|].
  { intros g v Hg. destruct (G3 g v Hg) as [V1 V2]. assert (Hg' : In g (map fst d)) by (apply in_map_iff; exists (g, v); auto). destruct (startswith g (lit "sub_")) eqn:Sg.
    - left. reflexivity.
    - right. destruct (G1 g Hg') as [(n & Hn' & Rn & Mn)|(n & ->)]; [|rewrite sub_starts in Sg; discriminate].
      split; [rewrite <- V2; apply Part; eauto|]. split; [exact V2|]. split; [exists nodes, n; auto|apply modifiable_known; assumption]. }
  assert (Frame : forall j, ~ reaches es0 pos value j -> nth_error es2 j = nth_error es0 j). { intros j Hj. apply Fr. intros g k Hg Ck B. apply Hj. apply (below_reach es0 pos value g k); auto. }
  destruct b; injection E as <- <- <-; (split; [exact Iw2|]); [|apply outcome_requested; auto; split; auto].
  rewrite flip_none. specialize (Hall eq_refl).
  assert (Dn : forall n g, In n nodes -> reference n g -> known es0 pos g -> In g done).
  { intros n g Hn' Rn Kn. apply Hall. right. split; [apply (G2 n g); auto; apply modifiable_known; assumption|]. destruct (startswith g (lit "sub_")) eqn:Sg; [|reflexivity]. exfalso. apply (Hs g); [exists nodes, n; auto|exact Kn|].
    apply startswith_iff in Sg. exact Sg. }
  assert (Kc : forall g, known es0 pos g -> exists k, closest es0 pos g k).
  { intros g Kg. destruct (find_last (concerns pos g) es0) as [k|] eqn:Fl; [exists k; apply find_last_closest; auto|]. exfalso. destruct Kg as (e & Ie & Pe & De).
    assert (Q : forall l, find_last (concerns pos g) l = None -> forall x, In x l -> concerns pos g x = false).
    { clear. induction l as [|y l IH]; cbn [find_last]; intros F x Hx; [destruct Hx|]. destruct (find_last (concerns pos g) l); [discriminate|]. destruct (concerns pos g y) eqn:Cy; [discriminate|]. destruct Hx as [<-|Hx]; auto. }
    specialize (Q es0 Fl e Ie). assert (Z : concerns pos g e = true); [|congruence]. apply (concerns_denotes es0); auto. exists e. auto. }
  destruct (stands_text ex (modifiable_entities pos es0) (fun n => field n d) [] nodes (evaluates ex es2 pos)) with (a := false) (nodes := nodes) (x := substitute (p_template p) d) (y := requested) (k := At_start)
    as (nodes' & Tx & Sim & Can & _ & Evn); auto.
  - constructor.
  - intros t ns y Ht H. constructor; assumption.
  - intros n name ns y Hn' Rn Mn H. assert (Kn : known es0 pos name) by (apply modifiable_known; assumption). destruct (Kc name Kn) as (k & Ck). destruct (Ev name k (Dn n name Hn' Rn Kn) Ck) as (e & body & Ee & Le & Pe & Eve & _).
    apply (ev_reference _ _ _ n name k e body); auto. apply (closest_skel es0); assumption.
  - intros n c ns y Hn' Ln Cn Rn Xn H. apply ev_other; auto.
    + intros name R K. apply (Rn name R). apply modifiable_known; [exact ok0|]. apply (known_skel es2); [apply skel_sym; exact Sk|exact K].
    + intros q x b ->. exfalso. apply Cn. eexists _, _, _. reflexivity.
  - intros q x b ns y Hn' H. destruct (Hc q x b Hn') as [K X]. change y with ([] ++ y). apply ev_other; auto.
    + intros (v & Q). discriminate.
    + intros name (z & _ & [Q|Q]); discriminate.
    + intros q' x' b' Q K'. injection Q as <- <- <-. apply K. apply (known_skel es2); [apply skel_sym; exact Sk|exact K'].
  - apply incl_refl.
  - intros pre q x u post Q. destruct (Hb pre q x u post Q) as [B1 B2]. split; [exact B1|]. apply modifiable_known; assumption.
  - assert (Pr : M_value.parse (substitute (p_template p) d) = Ok nodes') by (rewrite <- Tx; apply parse_printed; exact Can).
    assert (Rv : forall name, refers_to (substitute (p_template p) d) name -> exists n, In n nodes /\ reference n name).
    { intros name (ns & n' & Ep' & Hn' & Rn). rewrite Pr in Ep'. injection Ep' as <-. clear - Sim Hn' Rn. induction Sim as [|n0 n1 l l' S _ IH]; [destruct Hn'|]. destruct Hn' as [->|Hn'].
      - destruct S as [[-> _]|[_ (t & -> & _)]]; [exists n'; split; [left; reflexivity|exact Rn]|]. destruct Rn as (z & _ & [Q|Q]); discriminate.
      - destruct (IH Hn') as (n & H1 & H2). exists n. split; [right; exact H1|exact H2]. }
    split; [exact Sk|]. split; [exact Frame|]. split; [exists nodes'; auto|].
    intros j Rj. inversion Rj as [? ? name k R C|? ? name k e ? R C Ek Rk]; subst.
    + destruct (Rv name R) as (n & Hn' & Rn). apply (reach_one _ _ _ name); [exists nodes, n; auto|]. apply (closest_skel es2); [apply skel_sym; exact Sk|exact C].
    + destruct (Rv name R) as (n & Hn' & Rn). assert (C0 : closest es0 pos name k) by (apply (closest_skel es2); [apply skel_sym; exact Sk|exact C]).
      destruct (Ev name k (Dn n name Hn' Rn (closest_known _ _ _ _ C0)) C0) as (e' & body & Ee & _ & _ & _ & Be). rewrite Ek in Ee. injection Ee as <-.
      apply (below_reach es0 pos value name k); [exists nodes, n; auto|exact C0|]. apply Be, Rk.
Qed.
End Level.
Theorem update_sound : forall fuel value requested pos es w w' es' r, I w -> entities_ok es -> separate ex es pos value -> good requested ->
  update expand isid fuel value requested pos es w = (w', Ok (es', r)) -> I w' /\ outcome es pos value requested es' r.
Proof.
  induction fuel as [|fuel IH]; intros value requested pos es w w' es' r Iw Oe Sp Gr E; [discriminate|]. rewrite update_S in E. destruct (str_eqb value requested).
  - injection E as <- <- <-. split; [exact Iw|]. apply outcome_requested; auto. apply skel_refl.
  - refine (attempt_ok _ IH es pos value Oe Sp requested _ _ w w' es' r Gr Iw _ E). intros w1 w2 es2 r2 Iw1 E1.
    refine (attempt_ok _ IH es pos value Oe Sp requested _ _ w1 w2 es2 r2 Gr Iw1 _ E1). intros w3 w4 es4 r4 Iw3 E3. injection E3 as <- <- <-. split; [exact Iw3|]. apply outcome_requested; auto. apply skel_refl.
Qed.
End World.
End Uni.
