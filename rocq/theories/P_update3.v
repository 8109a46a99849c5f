(** Proofs about updating values: the groups of a pattern and the text that results. *)
From Coq Require Import Ascii String.
From Coq Require Import NArith ZArith List Bool Lia Arith.
From Verif Require Import PyStr PyStrFacts Regex RegexFacts M_value Spec_value Spec_value2 P_value P_value3 P_release2 M_update Spec_update P_update P_update2.
Import ListNotations.
Open Scope nat_scope.

Section Uni.
Context {U : Unicode}.
(** * Groups *)
Definition groups_of (ts : list token) : list str := flat_map (fun t => match t with TGroup g _ => [g] | _ => [] end) ts.
Lemma squash_groups : forall l r, squash l = Some r -> groups_of r = groups_of l.
Proof.
  induction l as [|t l IH]; cbn [squash]; intros r E; [injection E as <-; reflexivity|]. destruct (squash l) as [r'|] eqn:Sq; [|discriminate]. specialize (IH _ eq_refl).
  destruct t as [v u|v|g u]; destruct r' as [|[v' u'|v'|g' u'] r']; try discriminate; injection E as <-; unfold groups_of in *; cbn [flat_map app] in *; rewrite <- IH; reflexivity.
Qed.
Lemma build_names : forall tokens before names sub rs ts names', build before tokens names sub = (rs, ts, names') ->
  (forall g, In g names' -> In g names \/ In g (groups_of tokens) \/ exists n, g = sub_name n) /\ (forall g, In g names \/ In g (groups_of tokens) -> In g names').
Proof.
  induction tokens as [|tok l IH]; intros before names sub rs ts names' B.
  - cbn [build] in B. injection B as <- <- <-. split; [auto|]. intros g [H|[]]. exact H.
  - cbn [build] in B. destruct tok as [v t|v|g t].
    + destruct (build _ l names sub) as [[rs0 ts0] n0] eqn:B0. injection B as <- <- <-. exact (IH _ _ _ _ _ _ B0).
    + destruct (re_match (var_regex (group_nearby before) (group_nearby l)) v) as [m|] eqn:Rm.
      2: { destruct (build _ l names sub) as [[rs0 ts0] n0] eqn:B0. injection B as <- <- <-. exact (IH _ _ _ _ _ _ B0). }
      destruct (group_str 2 m) as [|c2 g2] eqn:G2.
      * destruct (build _ l names sub) as [[rs0 ts0] n0] eqn:B0. injection B as <- <- <-. exact (IH _ _ _ _ _ _ B0).
      * destruct (build _ l (names ++ [sub_name sub]) (S sub)) as [[rs0 ts0] n0] eqn:B0. injection B as <- <- <-. destruct (IH _ _ _ _ _ _ B0) as [H1 H2]. split.
        -- intros g Hg. destruct (H1 g Hg) as [H|H]; [|auto]. apply in_app_or in H as [H|[H|[]]]; [auto|]. right. right. exists sub. auto.
        -- intros g [H|H]; apply H2; [left; apply in_or_app; auto|auto].
    + destruct (find_index (str_eqb g) names) as [k|] eqn:Fi.
      * destruct (build _ l names sub) as [[rs0 ts0] n0] eqn:B0. injection B as <- <- <-. destruct (IH _ _ _ _ _ _ B0) as [H1 H2]. destruct (find_index_nth _ _ _ Fi) as (g' & Ng & Eg). apply str_eqb_eq in Eg. subst g'. apply nth_error_In in Ng. split.
        -- intros g' Hg. destruct (H1 g' Hg) as [H|[H|H]]; auto. right. left. cbn [groups_of flat_map app]. right. exact H.
        -- intros g' [H|[<-|H]]; apply H2; auto.
      * destruct (build _ l (names ++ [g]) sub) as [[rs0 ts0] n0] eqn:B0. injection B as <- <- <-. destruct (IH _ _ _ _ _ _ B0) as [H1 H2]. split.
        -- intros g' Hg. destruct (H1 g' Hg) as [H|[H|H]]; [|right; left; right; exact H|auto]. apply in_app_or in H as [H|[H|[]]]; [auto|]. right. left. left. exact H.
        -- intros g' [H|[<-|H]]; apply H2; [left; apply in_or_app; auto|left; apply in_or_app; right; left; reflexivity|auto].
Qed.
Definition good_re (r : re) : Prop := (exists v, r = word v) \/ (exists k b, r = Grp k (Plus b dot)) \/ exists k, r = BackRef k.
Lemma build_good : forall tokens before names sub rs ts names', build before tokens names sub = (rs, ts, names') -> Forall good_re rs.
Proof.
  assert (Gw : forall v, good_re (word v)) by (intros v; left; eauto). assert (Gg : forall k b, good_re (Grp k (Plus b dot))) by (intros k b; right; left; eauto). assert (Gb : forall k, good_re (BackRef k)) by (intros k; right; right; eauto).
  induction tokens as [|tok l IH]; intros before names sub rs ts names' B.
  - cbn [build] in B. injection B as <- <- <-. constructor.
  - cbn [build] in B. destruct tok as [v t|v|g t].
    + destruct (build _ l names sub) as [[rs0 ts0] n0] eqn:B0. injection B as <- <- <-. constructor; eauto.
    + destruct (re_match (var_regex (group_nearby before) (group_nearby l)) v) as [m|] eqn:Rm.
      2: { destruct (build _ l names sub) as [[rs0 ts0] n0] eqn:B0. injection B as <- <- <-. constructor; eauto. }
      destruct (group_str 2 m) as [|c2 g2] eqn:G2.
      * destruct (build _ l names sub) as [[rs0 ts0] n0] eqn:B0. injection B as <- <- <-. repeat (constructor; eauto).
      * destruct (build _ l (names ++ [sub_name sub]) (S sub)) as [[rs0 ts0] n0] eqn:B0. injection B as <- <- <-. repeat (constructor; eauto).
    + destruct (find_index (str_eqb g) names) as [k|] eqn:Fi.
      * destruct (build _ l names sub) as [[rs0 ts0] n0] eqn:B0. injection B as <- <- <-. constructor; eauto.
      * destruct (build _ l (names ++ [g]) sub) as [[rs0 ts0] n0] eqn:B0. injection B as <- <- <-. constructor; eauto.
Qed.
Definition full (s : st) : Prop := forall k v, cap_get k (caps s) = Some v -> v <> [].
Lemma good_full r s s' : good_re r -> Match r s s' -> full s -> full s'.
Proof.
  intros [(v & ->)|[(k & b & ->)|(k & ->)]] M F.
  - apply Match_word in M as (_ & _ & C). unfold full. rewrite C. exact F.
  - apply Match_Grp_Plus in M as (w & Nw & _ & _ & _ & C). intros j v. rewrite C. cbn [cap_get]. destruct (Nat.eqb j k); [intros E; injection E as <-; exact Nw|apply F].
  - apply Match_BackRef in M as (w & _ & _ & C). unfold full. rewrite C. exact F.
Qed.
Lemma goods_full rs : Forall good_re rs -> forall s s', Match (fold_right Seq Dollar rs) s s' -> full s -> full s'.
Proof.
  induction 1 as [|r rs G _ IH]; intros s s' M F; cbn [fold_right] in M; [apply Match_Dollar in M as [-> _]; exact F|].
  apply Match_Seq in M as (s1 & M1 & M). apply (IH s1 s' M). apply (good_full r s s1 G M1 F).
Qed.

(** * Without conditions on known names *)
Definition item_of (n : node) : item := match n with ConditionalMacroExpansion _ _ _ => IText (node_str n) | _ => INode n end.
Section World.
Context {W : Type} (expand : str -> W -> W * result str).
Lemma flatten_plain modi fl : forall nodes sets w, (forall p x b, In (ConditionalMacroExpansion p x b) nodes -> ~ In x modi) ->
  flatten expand modi fl nodes sets w = (w, Ok (map item_of nodes, sets)).
Proof.
  induction nodes as [|n nodes IH]; intros sets w H; [reflexivity|]. cbn [flatten map].
  assert (E : flatten_node expand modi fl n sets w = (w, Ok ([item_of n], sets))).
  { destruct n; try reflexivity. rewrite flatten_node_cond. unfold evaluate. destruct sets as [P F]. assert (N : str_in name modi = false) by (apply str_in_false; eapply H; left; reflexivity). rewrite N. reflexivity. }
  rewrite E, IH by (intros p x b Hb; apply (H p x b); right; exact Hb). reflexivity.
Qed.
Lemma tokens_groups modi : forall nodes w w' ts, tokens_of expand modi (map item_of nodes) w = (w', Ok ts) ->
  forall g, In g (groups_of ts) <-> exists n, In n nodes /\ reference n g /\ In g modi.
Proof.
  assert (Const : forall n w w' t, constant expand n w = (w', Ok t) -> groups_of [t] = []).
  { intros n w w' t E. unfold constant in E. destruct (expand (node_str n) w) as [w1 [c|]]; [|discriminate]. injection E as _ <-. reflexivity. }
  assert (Tok : forall n w w' t, token_of expand modi (item_of n) w = (w', Ok t) -> forall g, In g (groups_of [t]) <-> reference n g /\ In g modi).
  { intros n w w' t E g.
    assert (Empty : groups_of [t] = [] -> (reference n g -> ~ In g modi) -> (In g (groups_of [t]) <-> reference n g /\ In g modi)).
    { intros -> H. split; [intros []|intros [H1 H2]; exact (H H1 H2)]. }
    destruct n as [v|b|b|p x|p x a|p x b|x b]; cbn [item_of token_of] in E.
    - injection E as _ <-. apply Empty; [reflexivity|]. intros (p & _ & [Q|Q]); discriminate.
    - apply Empty; [apply (Const _ _ _ _ E)|]. intros (p & _ & [Q|Q]); discriminate.
    - apply Empty; [apply (Const _ _ _ _ E)|]. intros (p & _ & [Q|Q]); discriminate.
    - destruct (negb (negated p) && str_in x modi) eqn:C.
      + injection E as _ <-. apply andb_true_iff in C as [C1 C2]. apply negb_true_iff, negated_even in C1. apply str_in_iff in C2. cbn [groups_of flat_map app In]. split.
        * intros [<-|[]]. split; [exists p; auto|exact C2].
        * intros [(q & _ & [Q|Q]) _]; [injection Q as _ ->; left; reflexivity|discriminate].
      + apply Empty; [apply (Const _ _ _ _ E)|]. intros (q & Ev & [Q|Q]); [|discriminate]. injection Q as -> ->. apply negated_even in Ev. rewrite Ev in C. apply str_in_false. exact C.
    - destruct (negb (negated p) && match a with [] => true | _ => false end && str_in x modi) eqn:C.
      + injection E as _ <-. apply andb_true_iff in C as [C C2]. apply andb_true_iff in C as [C1 C3]. apply negb_true_iff, negated_even in C1. apply str_in_iff in C2. destruct a; [|discriminate]. cbn [groups_of flat_map app In]. split.
        * intros [<-|[]]. split; [exists p; auto|exact C2].
        * intros [(q & _ & [Q|Q]) _]; [discriminate|injection Q as _ ->; left; reflexivity].
      + apply Empty; [apply (Const _ _ _ _ E)|]. intros (q & Ev & [Q|Q]); [discriminate|]. injection Q as -> -> ->. apply negated_even in Ev. rewrite Ev in C. apply str_in_false. exact C.
    - injection E as _ <-. apply Empty; [reflexivity|]. intros (q & _ & [Q|Q]); discriminate.
    - apply Empty; [apply (Const _ _ _ _ E)|]. intros (q & _ & [Q|Q]); discriminate. }
  induction nodes as [|n nodes IH]; intros w w' ts E g; cbn [map tokens_of] in E.
  - injection E as _ <-. split; [intros []|intros (n & [] & _)].
  - destruct (token_of expand modi (item_of n) w) as [w1 [t|]] eqn:E1; [|discriminate]. destruct (tokens_of expand modi (map item_of nodes) w1) as [w2 [l|]] eqn:E2; [|discriminate]. injection E as _ <-.
    specialize (Tok _ _ _ _ E1 g). specialize (IH _ _ _ E2 g). change (groups_of (t :: l)) with ((match t with TGroup g _ => [g] | _ => [] end) ++ groups_of l). cbn [groups_of flat_map] in Tok. rewrite app_nil_r in Tok. split.
    + intros H. apply in_app_or in H as [H|H]; [exists n; split; [left; reflexivity|apply Tok, H]|]. apply IH in H as (m & H1 & H2). exists m. split; [right; exact H1|exact H2].
    + intros (m & [<-|H1] & H2); apply in_or_app; [left; apply Tok, H2|right; apply IH; eauto].
Qed.
Context (ex : str -> result str) (I : W -> Prop) (pure : forall s w, I w -> exists w', expand s w = (w', ex s) /\ I w') (isid : str -> bool).
Lemma fst_groupdict m : forall names k, map fst (groupdict k names m) = names.
Proof. induction names as [|n names IH]; intros k; [reflexivity|]. cbn [groupdict map fst]. rewrite IH. reflexivity. Qed.
Lemma in_groupdict m : forall names k g v, In (g, v) (groupdict k names m) -> exists j, nth_error names j = Some g /\ v = group_str (k + j) m.
Proof.
  induction names as [|n names IH]; intros k g v H; [destruct H|]. destruct H as [H|H]; [injection H as <- <-; exists 0; rewrite Nat.add_0_r; auto|].
  destruct (IH _ _ _ H) as (j & H1 & H2). exists (S j). split; [exact H1|]. rewrite <- Nat.add_succ_comm. exact H2.
Qed.
Lemma stands_part modi val F g n : reference n g -> In g modi -> (forall p x b, n <> ConditionalMacroExpansion p x b) -> forall a nodes x y, stands ex modi val F a nodes x y -> In n nodes -> exists u v, y = u ++ val g ++ v.
Proof.
  intros R M Nc a nodes x y S. induction S as [a|a s t ns x y H1 H2 S IH|a m name ns x y R' M' S IH|a m c ns x y H1 H2 H3 H4 S IH|a p name body bx bv ns x y M' H S1 IH1 S2 IH2|a p name body ns x y H S IH]; intros Hn.
  - destruct Hn.
  - destruct Hn as [<-|Hn]; [destruct R as (q & _ & [Q|Q]); discriminate|]. destruct (IH Hn) as (u & v & ->). exists (t ++ u), v. rewrite app_assoc. reflexivity.
  - destruct Hn as [->|Hn].
    + assert (name = g) as ->. { destruct R as (q & _ & [Q|Q]), R' as (q' & _ & [Q'|Q']); congruence. } exists [], y. reflexivity.
    + destruct (IH Hn) as (u & v & ->). exists (val name ++ u), v. rewrite app_assoc. reflexivity.
  - destruct Hn as [->|Hn]; [exfalso; exact (H3 g R M)|]. destruct (IH Hn) as (u & v & ->). exists (c ++ u), v. rewrite app_assoc. reflexivity.
  - destruct Hn as [<-|Hn]; [destruct (Nc _ _ _ eq_refl)|]. destruct (IH2 Hn) as (u & v & ->). exists (bv ++ u), v. rewrite app_assoc. reflexivity.
  - destruct Hn as [<-|Hn]; [destruct (Nc _ _ _ eq_refl)|]. destruct (IH Hn) as (u & v & ->). exists u, v. reflexivity.
Qed.
(** Everything a match gives when no condition is on a known name *)
Lemma pattern_plain value nodes modi fl w w' p requested m : I w -> construct_regex expand isid value modi fl w = (w', Ok p) -> re_match (p_regex p) requested = Some m ->
  requested <> [] -> ~ In LF requested -> M_value.parse value = Ok nodes -> (forall p x b, In (ConditionalMacroExpansion p x b) nodes -> ~ In x modi) ->
  let d := groupdict 0 (p_names p) m in
  I w' /\ p_flip p = [] /\ NoDup (map fst d) /\ (forall g, In g (map fst d) -> (exists n, In n nodes /\ reference n g /\ In g modi) \/ exists n, g = sub_name n) /\
  (forall n g, In n nodes -> reference n g -> In g modi -> In g (map fst d)) /\ (forall g v, In (g, v) d -> v <> [] /\ field g d = v) /\
  stands ex modi (fun n => field n d) [] false nodes (substitute (p_template p) d) requested.
Proof.
  intros Iw E M Nr Nl Ep Hc d. assert (Nl' : requested <> [LF]) by (intros ->; apply Nl; left; reflexivity).
  destruct (pattern_sound expand ex I pure isid _ _ _ _ _ _ _ _ Iw E M Nr Nl') as (Iw' & _ & nodes' & v & Ep' & St & Hv).
  rewrite Ep in Ep'. injection Ep' as <-. assert (Ev : v = requested). { destruct Hv as [->| ->]; [reflexivity|]. exfalso. apply Nl. apply in_or_app. right. left. reflexivity. } subst v. clear Hv.
  split; [exact Iw'|]. clear Iw'. unfold construct_regex in E. rewrite Ep, flatten_plain in E by exact Hc.
  destruct (tokens_of expand modi (map item_of nodes) w) as [w2 [tokens|]] eqn:Et; [|discriminate].
  destruct (squash tokens) as [sq|] eqn:Sq.
  - destruct (build [] sq [] 0) as [[rs ts] names] eqn:B. destruct (distinct_names names && forallb isid names) eqn:Dn; [|discriminate]. injection E as <- <-. cbn [p_flip p_names p_template p_regex] in *.
    split; [reflexivity|]. apply andb_true_iff in Dn as [Dn _]. apply distinct_nodup in Dn. unfold d. rewrite fst_groupdict. split; [exact Dn|].
    destruct (build_names _ _ _ _ _ _ _ B) as [B1 B2]. rewrite (squash_groups _ _ Sq) in B1, B2. pose proof (tokens_groups _ _ _ _ _ Et) as Tg.
    split; [intros g Hg; destruct (B1 g Hg) as [[]|[H|H]]; [left; apply Tg, H|right; exact H]|].
    split; [intros n g Hn Rn Gn; apply B2; right; apply Tg; eauto|]. split; [|exact St].
    intros g v Hg. destruct (in_groupdict _ _ _ _ _ Hg) as (j & Hj & ->). cbn [Nat.add]. apply re_match_sound in M. apply Match_Seq in M as (s0 & M0 & M). apply Match_Caret in M0 as [-> _].
    destruct (build_sem _ _ _ _ _ _ _ B _ _ M) as (Cc & _); [intros k L; cbn in L; lia|]. assert (L : j < length names) by (apply nth_error_Some; congruence). destruct (Cc j L) as (x & Hx).
    assert (Gx : group_str j m = x) by (unfold group_str, group; rewrite Hx; reflexivity). rewrite Gx. split.
    + apply (goods_full rs (build_good _ _ _ _ _ _ _ B) _ _ M) in Hx; [exact Hx|]. intros k z Q. discriminate.
    + apply (field_groupdict m names 0 j g x Dn Hj Hx).
  - injection E as <- <-. exfalso. cbn [p_regex] in M. apply re_match_sound in M. apply Match_Seq in M as (s0 & M0 & M). apply Match_Caret in M0 as [-> _]. apply Match_Dollar in M as [-> D]. cbn [rest] in D.
    destruct requested as [|c [|c' r]]; cbn [at_dollar] in D; [apply Nr; reflexivity| |discriminate]. apply N.eqb_eq in D. subst. apply Nl'. reflexivity.
Qed.

(** * The new text *)
Definition bare_ok (modi : list str) (nodes : list node) : Prop :=
  forall pre p x s post, nodes = pre ++ MacroSubstitution p x :: StringLiteral s :: post -> Nat.Even (bangs p) /\ In x modi.
Lemma no_pct_escaped t : ~ In PCT t -> escaped t.
Proof. induction t as [|c t IH]; intros H; constructor; [intros ->; apply H; left; reflexivity|]. apply IH. intros Q. apply H. right. exact Q. Qed.
(** [similar n n']: the same node, or both are literals *)
Definition similar (n n' : node) : Prop := n = n' /\ ~ literal n \/ literal n /\ exists t, n' = StringLiteral t /\ ~ In PCT t.
Definition heads (a : bool) (ns ns' : list node) : Prop :=
  (ns = [] -> ns' = []) /\ (a = true -> forall c s', nodes_str ns = c :: s' -> is_word c = false -> exists t', nodes_str ns' = c :: t').
Lemma node_str_pct n : ~ literal n -> exists t, node_str n = PCT :: t.
Proof. intros H. destruct n; try (eexists; reflexivity). exfalso. apply H. eexists. reflexivity. Qed.
Lemma stands_text modi val F (all : list node) (E : list node -> str -> Prop) : E [] [] -> (forall t ns y, ~ In PCT t -> E ns y -> E (StringLiteral t :: ns) (t ++ y)) ->
  (forall n name ns y, In n all -> reference n name -> In name modi -> E ns y -> E (n :: ns) (val name ++ y)) ->
  (forall n c ns y, In n all -> ~ literal n -> ~ conditional n -> (forall name, reference n name -> ~ In name modi) -> ex (node_str n) = Ok c -> E ns y -> E (n :: ns) (c ++ y)) ->
  (forall p x b ns y, In (ConditionalMacroExpansion p x b) all -> E ns y -> E (ConditionalMacroExpansion p x b :: ns) y) ->
  forall a nodes x y, stands ex modi val F a nodes x y -> incl nodes all -> (forall p x b, In (ConditionalMacroExpansion p x b) nodes -> ~ In x modi) ->
  ~ In (StringLiteral [LF]) nodes -> ~ In PCT y -> bare_ok modi nodes -> forall k, canonical k nodes ->
  exists nodes', nodes_str nodes' = x /\ Forall2 similar nodes nodes' /\ canonical k nodes' /\ heads a nodes nodes' /\ E nodes' y.
Proof.
  intros K0 K1 K2 K3 K4 a nodes x y S. induction S as [a|a s t ns x y H1 H2 S IH|a m name ns x y R' M' S IH|a m c ns x y H1 H2 H3 H4 S IH|a p name body bx bv ns x y M' H S1 IH1 S2 IH2|a p name body ns x y H S IH]; intros Hi Hc Hl Hy Hb k C.
  - exists []. split; [reflexivity|]. split; [constructor|]. split; [constructor|]. split; [|exact K0]. split; [reflexivity|]. intros _ c s' Q. discriminate.
  - assert (Nt : ~ In PCT t) by (intros Q; apply Hy, in_or_app; left; exact Q). assert (Ny : ~ In PCT y) by (intros Q; apply Hy, in_or_app; right; exact Q).
    assert (Ns : s <> [] /\ canonical After_literal ns) by (inversion C; subst; auto). destruct Ns as [Ns Cn].
    destruct (IH ltac:(intros q Q; apply Hi; right; exact Q) ltac:(intros p z b Q; apply (Hc p z b); right; exact Q) ltac:(intros Q; apply Hl; right; exact Q) Ny ltac:(intros pre p z u post ->; apply (Hb (StringLiteral s :: pre) p z u post); reflexivity) _ Cn) as (ns' & <- & F2 & C' & _ & Ee).
    assert (Tn : t <> []). { apply H1; [exact Ns|]. intros ->. apply Hl. left. reflexivity. }
    exists (StringLiteral t :: ns'). split; [reflexivity|]. split; [constructor; [right; split; [exists s; reflexivity|eauto]|exact F2]|]. split; [inversion C; subst; constructor; auto using no_pct_escaped|].
    split; [|apply K1; assumption]. split; [discriminate|]. intros Ha c s' Q Wc. unfold nodes_str in *. cbn [flat_map node_str] in *. destruct s as [|c0 s0]; [contradiction|]. cbn [app] in Q. injection Q as -> _.
    destruct (H2 Ha _ _ eq_refl Wc) as (t' & ->). cbn [app]. eauto.
  - assert (Ny : ~ In PCT y) by (intros Q; apply Hy, in_or_app; right; exact Q).
    assert (Rest : forall k', canonical k' ns -> exists nodes', nodes_str nodes' = x /\ Forall2 similar ns nodes' /\ canonical k' nodes' /\ heads true ns nodes' /\ E nodes' y).
    { apply IH; auto; [intros q Q; apply Hi; right; exact Q|intros p z b Q; apply (Hc p z b); right; exact Q|intros Q; apply Hl; right; exact Q|intros pre p z u post ->; apply (Hb (m :: pre) p z u post); reflexivity]. }
    assert (Nm : ~ literal m) by (intros (v & ->); destruct R' as (p & _ & [Q|Q]); discriminate).
    assert (Hd : forall ns', heads a (m :: ns) (m :: ns')).
    { intros ns'. split; [discriminate|]. intros _ c s' Q _. destruct (node_str_pct m Nm) as (t & Et). unfold nodes_str in *. cbn [flat_map] in *. rewrite Et in *. injection Q as <- _. cbn [app]. eauto. }
    destruct R' as (p & Ep & [-> | ->]).
    + inversion C as [| | | | |? ? dash w star ? C1 C2 C3 C4 C5 C6| | |]; subst. destruct (Rest _ C6) as (ns' & <- & F2 & C' & (Hd1 & Hd2) & Ee). exists (MacroSubstitution p (dash ++ w ++ star) :: ns'). split; [reflexivity|].
      split; [constructor; [left; auto|exact F2]|]. split; [|split; [apply Hd|apply K2; auto; [apply Hi; left; reflexivity|exists p; auto]]]. constructor; auto. destruct C4 as [[-> C4]|C4]; [left; split; [reflexivity|]|auto].
      intros c t' Q. destruct (nodes_str ns) as [|c0 s0] eqn:Es.
      * exfalso. destruct ns as [|n ns]; [rewrite (Hd1 eq_refl) in Q; discriminate|]. unfold nodes_str in Es. cbn [flat_map] in Es. apply app_eq_nil in Es as [Es _]. destruct n; try discriminate. cbn [node_str] in Es. inversion C6; subst; contradiction.
      * destruct (C4 c0 s0 eq_refl) as (C4a & C4b & C4c). destruct (Hd2 eq_refl c0 s0 eq_refl C4a) as (t2 & E2). rewrite E2 in Q. injection Q as <- _. auto.
    + inversion C as [| | | | | |? ? ? ? ? C1 C2 C3 C4 C5 C6| |]; subst. destruct (Rest _ C6) as (ns' & <- & F2 & C' & _ & Ee). exists (EnclosedMacroSubstitution p name [] :: ns'). split; [reflexivity|].
      split; [constructor; [left; auto|exact F2]|]. split; [|split; [apply Hd|apply K2; auto; [apply Hi; left; reflexivity|exists p; auto]]]. constructor; auto.
  - assert (Ny : ~ In PCT y) by (intros Q; apply Hy, in_or_app; right; exact Q).
    assert (Rest : forall k', canonical k' ns -> exists nodes', nodes_str nodes' = x /\ Forall2 similar ns nodes' /\ canonical k' nodes' /\ heads false ns nodes' /\ E nodes' y).
    { apply IH; auto; [intros q Q; apply Hi; right; exact Q|intros p z b Q; apply (Hc p z b); right; exact Q|intros Q; apply Hl; right; exact Q|intros pre p z u post ->; apply (Hb (m :: pre) p z u post); reflexivity]. }
    assert (Hd : forall ns', heads a (m :: ns) (m :: ns')).
    { intros ns'. split; [discriminate|]. intros _ c0 s' Q _. destruct (node_str_pct m H1) as (t & Et). unfold nodes_str in *. cbn [flat_map] in *. rewrite Et in *. injection Q as <- _. cbn [app]. eauto. }
    assert (Cn : canonical After_macro ns). { inversion C; subst; auto; exfalso; apply H1; eexists; reflexivity. }
    destruct (Rest _ Cn) as (ns' & <- & F2 & C' & (Hd1 & _) & Ee). exists (m :: ns'). split; [reflexivity|]. split; [constructor; [left; auto|exact F2]|]. split; [|split; [apply Hd|apply K3; auto; apply Hi; left; reflexivity]].
    inversion C as [|? ? Q1 Q2 Q3|? ? Q1 Q2 Q3|? ? ? Q1 Q2|? ? ? Q1 Q2|? p dash w star ? C1 C2 C3 C4 C5 C6|? ? ? ? ? C1 C2 C3 C4 C5 C6|? ? ? ? ? C1 C2 C3 C4 C5 C6 C7|? ? ? ? ? C1 C2 C3 C4 C5]; subst;
      [exfalso; apply H1; eexists; reflexivity|exfalso; apply H1; eexists; reflexivity|constructor; auto|constructor; auto| |constructor; auto|exfalso; apply H2; eexists _, _, _; reflexivity|constructor; auto].
    constructor; auto. destruct C4 as [[-> C4]|C4]; [left; split; [reflexivity|]|auto]. destruct ns as [|n ns]; [rewrite (Hd1 eq_refl); exact C4|].
    inversion F2 as [|? n' ? ns2 Sim F2' E1 E2]; subst. destruct Sim as [[<- Nl]|[(v & ->) _]].
    + destruct (node_str_pct n Nl) as (t & Et). unfold nodes_str in *. cbn [flat_map] in *. rewrite Et in *. intros c1 t1 Q. injection Q as <- _. apply (C4 PCT (t ++ flat_map node_str ns)). reflexivity.
    + exfalso. destruct (Hb [] p (dash ++ w ++ []) v ns eq_refl) as [B1 B2]. apply (H3 (dash ++ w ++ [])); [exists p; auto|exact B2].
  - exfalso. apply (Hc p name body); [left; reflexivity|exact M'].
  - assert (Cn : canonical After_macro ns) by (inversion C; subst; auto).
    destruct (IH ltac:(intros q Q; apply Hi; right; exact Q) ltac:(intros q z b Q; apply (Hc q z b); right; exact Q) ltac:(intros Q; apply Hl; right; exact Q) Hy ltac:(intros pre q z u post ->; apply (Hb (ConditionalMacroExpansion p name body :: pre) q z u post); reflexivity) _ Cn) as (ns' & <- & F2 & C' & _ & Ee).
    exists (ConditionalMacroExpansion p name body :: ns'). split; [reflexivity|]. split; [constructor; [left; split; [reflexivity|intros (v & Q); discriminate]|exact F2]|]. split; [inversion C; subst; constructor; auto|].
    split; [|apply K4; [apply Hi; left; reflexivity|exact Ee]]. split; [discriminate|]. intros _ c s' Q _. unfold nodes_str in *. cbn [flat_map] in *. destruct (node_str_pct (ConditionalMacroExpansion p name body)) as (t & Et); [intros (v & Z); discriminate|]. rewrite Et in *. injection Q as <- _. cbn [app]. eauto.
Qed.
End World.
End Uni.
