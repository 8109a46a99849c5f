(** Proofs about updating values: from the nodes of a value to the pattern. *)
From Coq Require Import Ascii String.
From Coq Require Import NArith ZArith List Bool Lia Arith.
From Verif Require Import PyStr PyStrFacts Regex RegexFacts M_value Spec_value P_value P_release2 M_update Spec_update P_update.
Import ListNotations.
Open Scope nat_scope.

Section Uni.
Context {U : Unicode}.
(** * No two literals in a row *)
Inductive spaced : list node -> Prop :=
| sp_nil : spaced []
| sp_last s : spaced [StringLiteral s]
| sp_lit s n ns : ~ literal n -> spaced (n :: ns) -> spaced (StringLiteral s :: n :: ns)
| sp_cond p x b ns : spaced b -> spaced ns -> spaced (ConditionalMacroExpansion p x b :: ns)
| sp_other n ns : ~ literal n -> ~ conditional n -> spaced ns -> spaced (n :: ns).
Lemma loop_spaced : forall fuel v start off ns, parse_loop fuel v start off = Ok ns -> spaced ns.
Proof.
  induction fuel as [|fuel IH]; intros v start off ns; [discriminate|].
  destruct (loop_step fuel v start off) as [Hf| |e b He Eb|e before nr t He Hl Hp Hb HN Ht Et].
  - intros Q; injection Q as <-. destruct (skipn start v); constructor.
  - discriminate.
  - apply IH.
  - destruct nr as [nd|]; [|discriminate]. cbn [bind].
    destruct (parse_loop fuel v (e + length t) 0) as [rest|] eqn:Er; [|discriminate].
    cbn [bind]. intros Q; injection Q as <-. apply IH in Er.
    assert (X : ~ literal nd /\ spaced (nd :: rest)).
    { remember (Ok nd) as nr eqn:Enr in HN.
      inversion HN as [b E|b E|p n E|p n args x Hx E|p x Hx Hpp E|p n body Hq Hc E|n b Hc E]; subst t; rewrite <- E in Enr; clear E; rename Enr into E; try discriminate;
        try (injection E as <-; split; [intros (s & Q); discriminate|apply sp_other; [intros (s & Q); discriminate|intros (? & ? & ? & Q); discriminate|exact Er]]).
      destruct (parse_loop fuel body 0 0) as [bn|] eqn:Eb; [|discriminate]. injection E as <-. apply IH in Eb. split; [intros (s & Q); discriminate|]. constructor; assumption. }
    destruct X as [X1 X2]. subst before. destruct (start <? e); cbn [app]; [constructor; assumption|exact X2].
Qed.
Lemma parse_spaced v ns : M_value.parse v = Ok ns -> spaced ns.
Proof. unfold M_value.parse. apply loop_spaced. Qed.

Lemma apart_tail t l : apart (t :: l) -> apart l.
Proof. destruct t, l as [|[]]; cbn [apart]; tauto. Qed.
Lemma apart_mid a b l : forall k, apart k -> apart l -> apart (k ++ TConst a b :: l).
Proof.
  induction k as [|t k IH]; intros Hk Hl; [exact Hl|]. pose proof (apart_tail _ _ Hk) as Ht. specialize (IH Ht Hl).
  destruct t as [v u|v|g u]; cbn [app apart]; auto. destruct k as [|[v' u'|v'|g' u'] k]; cbn [app] in *; auto.
Qed.

Section World.
Context {W : Type} (expand : str -> W -> W * result str).
Lemma flatten_node_cond modi fl p name body sets w :
  flatten_node expand modi fl (ConditionalMacroExpansion p name body) sets w =
  match evaluate expand modi fl p name sets w with
  | (w, Err e) => (w, Err e)
  | (w, Ok (false, sets)) => (w, Ok ([IText (node_str (ConditionalMacroExpansion p name body))], sets))
  | (w, Ok (true, sets)) =>
      match flatten expand modi fl body sets w with
      | (w, Err e) => (w, Err e)
      | (w, Ok (l, sets)) => (w, Ok (IText (lit "%{" ++ p ++ name ++ [COLON]) :: l ++ [IText (lit "}")], sets))
      end
  end.
Proof.
  cbn [flatten_node]. destruct (evaluate expand modi fl p name sets w) as [w1 [[[|] s1]|e]]; try reflexivity.
  match goal with |- context [?g body s1 w1] => assert (G : forall l s w, g l s w = flatten expand modi fl l s w) end.
  - induction l as [|n l IH]; intros s w0; [reflexivity|]. cbn [flatten]. destruct (flatten_node expand modi fl n s w0) as [w2 [[a s2]|e]]; [|reflexivity]. rewrite IH. reflexivity.
  - rewrite G. reflexivity.
Qed.
Lemma tokens_of_app modi : forall l k w w2 ts, tokens_of expand modi (l ++ k) w = (w2, Ok ts) ->
  exists w1 t1 t2, tokens_of expand modi l w = (w1, Ok t1) /\ tokens_of expand modi k w1 = (w2, Ok t2) /\ ts = t1 ++ t2.
Proof.
  induction l as [|i l IH]; intros k w w2 ts E; cbn [app tokens_of] in *; [exists w, [], ts; auto|].
  destruct (token_of expand modi i w) as [w0 [t|]]; [|discriminate]. destruct (tokens_of expand modi (l ++ k) w0) as [w3 [t3|]] eqn:E3; [|discriminate]. injection E as -> <-.
  destruct (IH _ _ _ _ E3) as (w1 & t1 & t2 & E1 & E2 & ->). exists w1, (t :: t1), t2. rewrite E1. auto.
Qed.
Definition starts_var (ts : list token) : Prop := exists v l, ts = TVar v :: l.
Definition starts_literal (ns : list node) : Prop := exists v l, ns = StringLiteral v :: l.
Lemma apart_cons t l : apart l -> (starts_var [t] -> ~ starts_var l) -> apart (t :: l).
Proof. intros A H. destruct t; cbn [apart]; auto. destruct l as [|[]]; auto. apply H; [exists value, []; reflexivity|exists value0, l; reflexivity]. Qed.
Lemma token_var modi n w w' t : token_of expand modi (INode n) w = (w', Ok t) -> starts_var [t] -> literal n.
Proof.
  intros E (v & l & Q). injection Q as -> _. destruct n; cbn [token_of] in E; try (exists value; reflexivity); unfold constant in E;
    repeat match type of E with (let (_, _) := ?x in _) = _ => destruct x as [? [?|?]] | (if ?x then _ else _) = _ => destruct x end; discriminate.
Qed.
Lemma flatten_apart modi fl nodes : spaced nodes -> forall sets w w0 items sets', flatten expand modi fl nodes sets w = (w0, Ok (items, sets')) ->
  forall w1 w2 ts, tokens_of expand modi items w1 = (w2, Ok ts) -> apart ts /\ (starts_var ts -> starts_literal nodes).
Proof.
  induction 1 as [|s|s n ns Hn H IH|p x b ns Hb IHb H IH|n ns Hn Hc H IH]; intros sets w w0 items sets' E w1 w2 ts T.
  - injection E as <- <- <-. injection T as <- <-. split; [exact I|]. intros (v & l & Q). discriminate.
  - cbn in E. injection E as <- <- <-. cbn in T. injection T as <- <-. split; [exact I|]. intros _. exists s, []. reflexivity.
  - cbn [flatten flatten_node] in E. change (match flatten expand modi fl (n :: ns) sets w with (w, Ok (b, s0)) => (w, Ok ([INode (StringLiteral s)] ++ b, s0)) | (w, Err e) => (w, Err e) end = (w0, Ok (items, sets'))) in E.
    destruct (flatten expand modi fl (n :: ns) sets w) as [w3 [[b s0]|]] eqn:E3; [|discriminate]. injection E as -> <- <-. cbn [app tokens_of token_of] in T.
    destruct (tokens_of expand modi b w1) as [w4 [tb|]] eqn:Tb; [|discriminate]. injection T as -> <-. destruct (IH _ _ _ _ _ E3 _ _ _ Tb) as [A St].
    split; [apply apart_cons; [exact A|]|intros _; exists s, (n :: ns); reflexivity]. intros _ V. destruct (St V) as (v & l & Q). injection Q as -> _. apply Hn. exists v. reflexivity.
  - cbn [flatten] in E. rewrite flatten_node_cond in E. destruct (evaluate expand modi fl p x sets w) as [w3 [[[|] s1]|]]; [| |discriminate].
    + destruct (flatten expand modi fl b s1 w3) as [w4 [[l s2]|]] eqn:E4; [|discriminate]. destruct (flatten expand modi fl ns s2 w4) as [w5 [[k s3]|]] eqn:E5; [|discriminate]. injection E as -> <- <-.
      cbn [app tokens_of token_of] in T. rewrite <- app_assoc in T. destruct (tokens_of expand modi (l ++ [IText (lit "}")] ++ k) w1) as [w6 [tt|]] eqn:T6; [|discriminate]. injection T as -> <-.
      destruct (tokens_of_app _ _ _ _ _ _ T6) as (w7 & t1 & t2 & T1 & T2 & ->). cbn [app tokens_of token_of] in T2. destruct (tokens_of expand modi k w7) as [w8 [tk|]] eqn:T8; [|discriminate]. injection T2 as -> <-.
      destruct (IHb _ _ _ _ _ E4 _ _ _ T1) as [A1 _]. destruct (IH _ _ _ _ _ E5 _ _ _ T8) as [A2 _]. split; [|intros (v & l' & Q); discriminate]. cbn [apart]. apply apart_mid; assumption.
    + destruct (flatten expand modi fl ns s1 w3) as [w5 [[k s3]|]] eqn:E5; [|discriminate]. injection E as -> <- <-. cbn [app tokens_of token_of] in T.
      destruct (tokens_of expand modi k w1) as [w8 [tk|]] eqn:T8; [|discriminate]. injection T as -> <-. destruct (IH _ _ _ _ _ E5 _ _ _ T8) as [A2 _]. split; [exact A2|]. intros (v & l' & Q). discriminate.
  - cbn [flatten] in E. assert (En : flatten_node expand modi fl n sets w = (w, Ok ([INode n], sets))). { destruct n; try reflexivity. exfalso. apply Hc. eexists _, _, _. reflexivity. }
    rewrite En in E. destruct (flatten expand modi fl ns sets w) as [w3 [[b s0]|]] eqn:E3; [|discriminate]. injection E as -> <- <-. cbn [app tokens_of] in T.
    destruct (token_of expand modi (INode n) w1) as [w4 [t|]] eqn:Tn; [|discriminate]. destruct (tokens_of expand modi b w4) as [w5 [tb|]] eqn:Tb; [|discriminate]. injection T as -> <-.
    destruct (IH _ _ _ _ _ E3 _ _ _ Tb) as [A St].
    assert (Nt : ~ starts_var [t]) by (intros V; apply Hn; eapply token_var; eauto). split; [apply apart_cons; [exact A|intros V; contradiction]|]. intros (v & l & Q). injection Q as -> ->. exfalso. apply Nt. exists v, []. reflexivity.
Qed.

(** * Conditions *)
Context (ex : str -> result str) (I : W -> Prop) (pure : forall s w, I w -> exists w', expand s w = (w', ex s) /\ I w').
Definition leads (sets : list str * list str) (F : list str) : Prop := incl (snd sets) F /\ forall n, In n (fst sets) -> In n F -> In n (snd sets).
Lemma str_in_iff x l : str_in x l = true <-> In x l.
Proof. unfold str_in. rewrite existsb_exists. split; [intros (y & H & E); apply str_eqb_eq in E; subst; exact H|intros H; exists x; rewrite str_eqb_refl; auto]. Qed.
Lemma str_in_false x l : str_in x l = false <-> ~ In x l.
Proof. rewrite <- str_in_iff. destruct (str_in x l); split; congruence. Qed.
Lemma negated_even p : negated p = false <-> Nat.Even (bangs p).
Proof. unfold negated, bangs. rewrite <- Nat.even_spec, <- Nat.negb_odd. destruct (Nat.odd _); split; cbn; congruence. Qed.
Lemma negated_odd p : negated p = true <-> Nat.Odd (bangs p).
Proof. unfold negated, bangs. apply Nat.odd_spec. Qed.
Lemma not_both n : Nat.Even n -> ~ Nat.Odd n.
Proof. intros E O. apply (Nat.Even_Odd_False n); assumption. Qed.
Lemma evaluate_sem modi fl p name sets w w' b sets' : evaluate expand modi fl p name sets w = (w', Ok (b, sets')) -> I w ->
  I w' /\ incl (snd sets') (snd sets ++ fl) /\ forall F, leads sets' F -> incl F fl -> leads sets F /\
    if b then In name modi /\ holds_after ex F p name else ~ In name modi \/ ~ holds_after ex F p name.
Proof.
  destruct sets as [P Fl]. unfold evaluate. intros E Iw. destruct (str_in name modi) eqn:Mo; cbn [negb] in E.
  2: { injection E as <- <- <-. split; [exact Iw|]. split; [intros x Hx; apply in_or_app; left; exact Hx|]. intros F L _. split; [exact L|]. left. apply str_in_false. exact Mo. }
  apply str_in_iff in Mo. destruct (pure (lit "%{?" ++ name ++ lit ":1}") w Iw) as (w1 & Ew & Iw1). rewrite Ew in E.
  destruct (ex (lit "%{?" ++ name ++ lit ":1}")) as [x|] eqn:Ex; [|discriminate].
  set (d := match x with [] => false | _ => true end) in *.
  assert (D : defined ex name <-> d = true).
  { unfold defined, d. rewrite Ex. destruct x as [|c x]; split; try discriminate; [intros (c & y & Q); discriminate|reflexivity|eauto]. }
  clearbody d.
  assert (Hold : forall F, (negated p && d || negb (negated p || d)) = false -> ~ In name F -> holds_after ex F p name).
  { intros F C N. unfold holds_after, defined_after. destruct (negated p) eqn:Np; [apply negated_odd in Np|apply negated_even in Np]; destruct d; cbn in C; try discriminate.
    - right. split; [exact Np|]. rewrite D. intros [[Q _]|[_ Q]]; [discriminate|contradiction].
    - left. split; [exact Np|]. left. rewrite D. auto. }
  assert (Hflip : forall F, (negated p && d || negb (negated p || d)) = true -> In name F -> holds_after ex F p name).
  { intros F C N. unfold holds_after, defined_after. destruct (negated p) eqn:Np; [apply negated_odd in Np|apply negated_even in Np]; destruct d; cbn in C; try discriminate.
    - right. split; [exact Np|]. rewrite D. intros [[_ Q]|[Q _]]; [contradiction|congruence].
    - left. split; [exact Np|]. right. rewrite D. split; [discriminate|exact N]. }
  assert (Hno : forall F, (negated p && d || negb (negated p || d)) = true -> ~ In name F -> ~ holds_after ex F p name).
  { intros F C N. unfold holds_after, defined_after. destruct (negated p) eqn:Np; [apply negated_odd in Np|apply negated_even in Np]; destruct d; cbn in C; try discriminate; rewrite D.
    - intros [[Q _]|[_ Q]]; [exact (not_both _ Q Np)|]. apply Q. left. auto.
    - intros [[_ [[Q _]|[_ Q]]]|[Q _]]; [discriminate|contradiction|exact (not_both _ Np Q)]. }
  assert (Hno2 : forall F, (negated p && d || negb (negated p || d)) = false -> In name F -> ~ holds_after ex F p name).
  { intros F C N. unfold holds_after, defined_after. destruct (negated p) eqn:Np; [apply negated_odd in Np|apply negated_even in Np]; destruct d; cbn in C; try discriminate; rewrite D.
    - intros [[Q _]|[_ Q]]; [exact (not_both _ Q Np)|]. apply Q. right. split; [discriminate|exact N].
    - intros [[_ [[_ Q]|[Q _]]]|[Q _]]; [contradiction|congruence|exact (not_both _ Np Q)]. }
  assert (Sub : forall (l : list str), incl Fl (Fl ++ l)) by (intros l y Hy; apply in_or_app; left; exact Hy).
  destruct (negated p && d || negb (negated p || d)) eqn:C.
  - destruct (str_in name fl) eqn:Fi; cbn [negb] in E.
    + apply str_in_iff in Fi. destruct (str_in name P && negb (str_in name Fl)) eqn:Pr.
      * injection E as <- <- <-. split; [exact Iw1|]. split; [apply Sub|]. intros F L _. split; [exact L|]. right. apply andb_true_iff in Pr as [Pr Pf]. apply str_in_iff in Pr. apply negb_true_iff, str_in_false in Pf.
        apply Hno; [reflexivity|]. intros Q. apply Pf. apply (proj2 L); assumption.
      * injection E as <- <- <-. split; [exact Iw1|]. split; [intros y [<-|Hy]; apply in_or_app; auto|]. intros F [L1 L2] _. cbn [fst snd] in *. split.
        -- split; cbn [fst snd]; [intros y Hy; apply L1; right; exact Hy|]. intros n Hn Fn. destruct (L2 n (or_intror Hn) Fn) as [<-|Q]; [|exact Q].
           apply andb_false_iff in Pr as [Pr|Pr]; [apply str_in_false in Pr; contradiction|]. apply negb_false_iff, str_in_iff in Pr. exact Pr.
        -- split; [exact Mo|]. apply Hflip; [reflexivity|]. apply L1. left. reflexivity.
    + injection E as <- <- <-. split; [exact Iw1|]. split; [apply Sub|]. intros F L Fl'. split; [exact L|]. right. apply Hno; [reflexivity|]. intros Q. apply str_in_false in Fi. apply Fi, Fl', Q.
  - destruct (str_in name Fl) eqn:Fi.
    + injection E as <- <- <-. split; [exact Iw1|]. split; [apply Sub|]. intros F L _. split; [exact L|]. right. apply Hno2; [reflexivity|]. apply (proj1 L). apply str_in_iff. exact Fi.
    + injection E as <- <- <-. split; [exact Iw1|]. split; [apply Sub|]. intros F [L1 L2] _. cbn [fst snd] in *. split; [split; cbn [fst snd]; [exact L1|]; intros n Hn Fn; apply L2; [right; exact Hn|exact Fn]|].
      split; [exact Mo|]. apply Hold; [reflexivity|]. intros Q. apply str_in_false in Fi. apply Fi, L2; [left; reflexivity|exact Q].
Qed.

(** * From nodes to tokens *)
Definition links (modi fl : list str) (val : str -> str) (nodes : list node) (sets sets' : list str * list str) (items : list item) : Prop :=
  incl (snd sets') (snd sets ++ fl) /\ forall F, leads sets' F -> incl F fl -> leads sets F /\
  forall w1 w2 ts, I w1 -> tokens_of expand modi items w1 = (w2, Ok ts) -> I w2 /\ forall rt a x y, tsem val a (ts ++ rt) x y ->
    exists x1 y1 x2 y2 a', x = x1 ++ x2 /\ y = y1 ++ y2 /\ tsem val a' rt x2 y2 /\
      (forall tail x' y', stands ex modi val F a' tail x' y' -> stands ex modi val F a (nodes ++ tail) (x1 ++ x') (y1 ++ y')).
Lemma links_app modi fl val n1 n2 s1 s2 s3 i1 i2 : links modi fl val n1 s1 s2 i1 -> links modi fl val n2 s2 s3 i2 -> links modi fl val (n1 ++ n2) s1 s3 (i1 ++ i2).
Proof.
  intros [J1 H1] [J2 H2]. split.
  { intros z Hz. apply J2 in Hz. apply in_app_or in Hz as [Hz|Hz]; [apply J1; exact Hz|apply in_or_app; right; exact Hz]. }
  intros F L Hf. destruct (H2 F L Hf) as [L2 K2]. destruct (H1 F L2 Hf) as [L1 K1]. split; [exact L1|]. intros w1 w2 ts Iw T. destruct (tokens_of_app _ _ _ _ _ _ T) as (w3 & t1 & t2 & T1 & T2 & ->).
  destruct (K1 _ _ _ Iw T1) as [Iw3 G1]. destruct (K2 _ _ _ Iw3 T2) as [Iw2 G2]. split; [exact Iw2|]. intros rt a x y Ts. rewrite <- app_assoc in Ts.
  destruct (G1 _ _ _ _ Ts) as (x1 & y1 & x2 & y2 & a1 & -> & -> & Ts1 & S1). destruct (G2 _ _ _ _ Ts1) as (x3 & y3 & x4 & y4 & a2 & -> & -> & Ts2 & S2).
  exists (x1 ++ x3), (y1 ++ y3), x4, y4, a2. rewrite !app_assoc. repeat split; auto. intros tail x' y' S3. rewrite <- !app_assoc. apply S1, S2, S3.
Qed.
Lemma links_nil modi fl val s : links modi fl val [] s s [].
Proof.
  split; [intros z Hz; apply in_or_app; left; exact Hz|]. intros F L _. split; [exact L|]. intros w1 w2 ts Iw T. injection T as <- <-. split; [exact Iw|]. intros rt a x y Ts. exists [], [], x, y, a. repeat split; auto.
Qed.
Lemma const_sem modi val F n w1 w2 t : ~ literal n -> ~ conditional n -> (forall name, reference n name -> ~ In name modi) -> I w1 -> constant expand n w1 = (w2, Ok t) ->
  I w2 /\ forall rt a x y, tsem val a (t :: rt) x y -> exists x1 y1 x2 y2 a', x = x1 ++ x2 /\ y = y1 ++ y2 /\ tsem val a' rt x2 y2 /\
    (forall tail x' y', stands ex modi val F a' tail x' y' -> stands ex modi val F a (n :: tail) (x1 ++ x') (y1 ++ y')).
Proof.
  intros Hl Hc Hr Iw E. unfold constant in E. destruct (pure (node_str n) w1 Iw) as (w' & Ew & Iw'). rewrite Ew in E. destruct (ex (node_str n)) as [c|] eqn:Ec; [|discriminate]. injection E as <- <-.
  split; [exact Iw'|]. intros rt a x y Ts. inversion Ts as [|? ? ? ? x0 y0 T0| |]; subst. exists (node_str n), c, x0, y0, false. repeat split; auto. intros tail x' y' S'. apply stands_constant; auto.
Qed.
Lemma node_links modi fl val n : forall sets w w' items sets', flatten_node expand modi fl n sets w = (w', Ok (items, sets')) -> I w -> I w' /\ links modi fl val [n] sets sets' items.
Proof.
  assert (Plain : forall n sets w w' items sets', ~ conditional n -> flatten_node expand modi fl n sets w = (w', Ok (items, sets')) ->
    (forall F w1 w2 t, I w1 -> token_of expand modi (INode n) w1 = (w2, Ok t) -> I w2 /\ forall rt a x y, tsem val a (t :: rt) x y -> exists x1 y1 x2 y2 a', x = x1 ++ x2 /\ y = y1 ++ y2 /\ tsem val a' rt x2 y2 /\
    (forall tail x' y', stands ex modi val F a' tail x' y' -> stands ex modi val F a (n :: tail) (x1 ++ x') (y1 ++ y'))) -> I w -> I w' /\ links modi fl val [n] sets sets' items).
  { clear n. intros n sets w w' items sets' Hc E H Iw. assert (En : flatten_node expand modi fl n sets w = (w, Ok ([INode n], sets))). { destruct n; try reflexivity. exfalso. apply Hc. eexists _, _, _. reflexivity. }
    rewrite En in E. injection E as <- <- <-. split; [exact Iw|]. split; [intros z Hz; apply in_or_app; left; exact Hz|]. intros F L _. split; [exact L|]. intros w1 w2 ts Iw1 T. cbn [tokens_of] in T.
    destruct (token_of expand modi (INode n) w1) as [w3 [t|]] eqn:Et; [|discriminate]. injection T as <- <-. apply (H F _ _ _ Iw1 Et). }
  assert (Nr : forall n, (forall p x, n <> MacroSubstitution p x) -> (forall p x, n <> EnclosedMacroSubstitution p x []) -> forall name, reference n name -> ~ In name modi).
  { intros n0 H1 H2 name (p & _ & [Q|Q]); [destruct (H1 _ _ Q)|destruct (H2 _ _ Q)]. }
  assert (Nl : forall n, (forall s, n <> StringLiteral s) -> ~ literal n) by (intros n0 H (s & Q); exact (H s Q)).
  assert (Nc : forall n, (forall p x b, n <> ConditionalMacroExpansion p x b) -> ~ conditional n) by (intros n0 H (p & x & b & Q); exact (H p x b Q)).
  induction n as [v|b|b|p n|p n a|p n body IHb|n b] using node_ind2; intros sets w w' items sets' E Iw.
  - refine (Plain _ _ _ _ _ _ _ E _ Iw); [apply Nc; intros; discriminate|]. intros F w1 w2 t Iw1 T. cbn in T. injection T as <- <-. split; [exact Iw1|].
    intros rt a x y Ts. inversion Ts as [| | |? ? t0 ? x0 y0 H1 H2 T0]; subst. exists t0, t0, x0, y0, false. repeat split; auto. intros tail x' y' S'. apply stands_literal; auto.
  - refine (Plain _ _ _ _ _ _ _ E _ Iw); [apply Nc; intros; discriminate|]. intros F w1 w2 t Iw1 T. cbn [token_of] in T. refine (const_sem _ _ _ _ _ _ _ _ _ _ Iw1 T); [apply Nl|apply Nc|apply Nr]; intros; discriminate.
  - refine (Plain _ _ _ _ _ _ _ E _ Iw); [apply Nc; intros; discriminate|]. intros F w1 w2 t Iw1 T. cbn [token_of] in T. refine (const_sem _ _ _ _ _ _ _ _ _ _ Iw1 T); [apply Nl|apply Nc|apply Nr]; intros; discriminate.
  - refine (Plain _ _ _ _ _ _ _ E _ Iw); [apply Nc; intros; discriminate|]. intros F w1 w2 t Iw1 T. cbn [token_of] in T. destruct (negb (negated p) && str_in n modi) eqn:C.
    + injection T as <- <-. split; [exact Iw1|]. apply andb_true_iff in C as [C1 C2]. apply negb_true_iff, negated_even in C1. apply str_in_iff in C2.
      intros rt a x y Ts. inversion Ts as [| |? ? ? ? x0 y0 T0|]; subst. exists (node_str (MacroSubstitution p n)), (val n), x0, y0, true. repeat split; auto. intros tail x' y' S'. apply stands_reference; auto. exists p. auto.
    + refine (const_sem _ _ _ _ _ _ _ _ _ _ Iw1 T); [apply Nl; intros; discriminate|apply Nc; intros; discriminate|]. intros name (p' & Ev & [Q|Q]); [|discriminate]. injection Q as -> ->.
      apply negated_even in Ev. rewrite Ev in C. apply str_in_false. exact C.
  - refine (Plain _ _ _ _ _ _ _ E _ Iw); [apply Nc; intros; discriminate|]. intros F w1 w2 t Iw1 T. cbn [token_of] in T. destruct (negb (negated p) && match a with [] => true | _ => false end && str_in n modi) eqn:C.
    + injection T as <- <-. split; [exact Iw1|]. apply andb_true_iff in C as [C C2]. apply andb_true_iff in C as [C1 C3]. apply negb_true_iff, negated_even in C1. apply str_in_iff in C2. destruct a; [|discriminate].
      intros rt a x y Ts. inversion Ts as [| |? ? ? ? x0 y0 T0|]; subst. exists (node_str (EnclosedMacroSubstitution p n [])), (val n), x0, y0, true. repeat split; auto. intros tail x' y' S'. apply stands_reference; auto. exists p. auto.
    + refine (const_sem _ _ _ _ _ _ _ _ _ _ Iw1 T); [apply Nl; intros; discriminate|apply Nc; intros; discriminate|]. intros name (p' & Ev & [Q|Q]); [discriminate|]. injection Q as -> -> ->.
      apply negated_even in Ev. rewrite Ev in C. apply str_in_false. exact C.
  - assert (List_links : forall l sets w w' items sets', Forall (fun n => forall sets w w' items sets', flatten_node expand modi fl n sets w = (w', Ok (items, sets')) -> I w -> I w' /\ links modi fl val [n] sets sets' items) l ->
      flatten expand modi fl l sets w = (w', Ok (items, sets')) -> I w -> I w' /\ links modi fl val l sets sets' items).
    { clear. induction l as [|n l IH]; intros sets w w' items sets' Fa E Iw; cbn [flatten] in E; [injection E as <- <- <-; split; [exact Iw|apply links_nil]|].
      inversion Fa as [|? ? Hn Fl]; subst. destruct (flatten_node expand modi fl n sets w) as [w1 [[i1 s1]|]] eqn:E1; [|discriminate]. destruct (flatten expand modi fl l s1 w1) as [w2 [[i2 s2]|]] eqn:E2; [|discriminate]. injection E as <- <- <-.
      destruct (Hn _ _ _ _ _ E1 Iw) as [Iw1 L1]. destruct (IH _ _ _ _ _ Fl E2 Iw1) as [Iw2 L2]. split; [exact Iw2|]. apply (links_app modi fl val [n] l sets s1 s2 i1 i2 L1 L2). }
    rewrite flatten_node_cond in E. destruct (evaluate expand modi fl p n sets w) as [w1 [[b s1]|]] eqn:Ee; [|discriminate]. destruct (evaluate_sem _ _ _ _ _ _ _ _ _ Ee Iw) as (Iw1 & J1 & Hev). destruct b.
    + destruct (flatten expand modi fl body s1 w1) as [w2 [[l s2]|]] eqn:Ef; [|discriminate]. injection E as <- <- <-. destruct (List_links _ _ _ _ _ _ IHb Ef Iw1) as [Iw2 [J2 H2]]. split; [exact Iw2|]. split.
      { intros z Hz. apply J2 in Hz. apply in_app_or in Hz as [Hz|Hz]; [apply J1; exact Hz|apply in_or_app; right; exact Hz]. }
      intros F L Hf. destruct (H2 F L Hf) as [L2 K2]. destruct (Hev F L2 Hf) as (L1 & Mo & Ho). split; [exact L1|]. intros w3 w4 ts Iw3 T. cbn [tokens_of token_of] in T.
      destruct (tokens_of expand modi (l ++ [IText (lit "}")]) w3) as [w5 [tt|]] eqn:T5; [|discriminate]. injection T as -> <-. destruct (tokens_of_app _ _ _ _ _ _ T5) as (w6 & t1 & t2 & T1 & T2 & ->). cbn [tokens_of token_of] in T2. injection T2 as -> <-.
      destruct (K2 _ _ _ Iw3 T1) as [Iw6 G]. split; [exact Iw6|]. intros rt a x y Ts. cbn [app] in Ts. rewrite <- app_assoc in Ts. inversion Ts as [|? ? ? ? x0 y0 T0| |]; subst. cbn [app] in T0.
      destruct (G _ _ _ _ T0) as (x1 & y1 & x2 & y2 & a' & -> & -> & T3 & S3). inversion T3 as [|? ? ? ? x4 y4 T4| |]; subst. specialize (S3 [] [] [] (stands_nil _ _ _ _ _)). rewrite !app_nil_r in S3.
      exists ((lit "%{" ++ p ++ n ++ [COLON]) ++ x1 ++ lit "}"), y1, x4, y4, false. split; [change (lit "%{") with [37%N; 123%N]; cbn [app]; rewrite <- !app_assoc; reflexivity|]. split; [reflexivity|]. split; [exact T4|].
      intros tail x' y' S4. change ([ConditionalMacroExpansion p n body] ++ tail) with (ConditionalMacroExpansion p n body :: tail).
      replace ((lit "%{" ++ p ++ n ++ [COLON]) ++ x1 ++ lit "}") with (lit "%{" ++ p ++ n ++ [COLON] ++ x1 ++ lit "}") by (rewrite <- !app_assoc; reflexivity).
      apply stands_condition; assumption.
    + injection E as <- <- <-. split; [exact Iw1|]. split; [exact J1|]. intros F L Hf. destruct (Hev F L Hf) as [L1 Ho]. split; [exact L1|]. intros w3 w4 ts Iw3 T. cbn [tokens_of token_of] in T. injection T as <- <-. split; [exact Iw3|].
      intros rt a x y Ts. cbn [app] in Ts. inversion Ts as [|? ? ? ? x0 y0 T0| |]; subst. exists (node_str (ConditionalMacroExpansion p n body)), [], x0, y0, false. repeat split; auto. intros tail x' y' S4. apply stands_nothing; assumption.
  - refine (Plain _ _ _ _ _ _ _ E _ Iw); [apply Nc; intros; discriminate|]. intros F w1 w2 t Iw1 T. cbn [token_of] in T. refine (const_sem _ _ _ _ _ _ _ _ _ _ Iw1 T); [apply Nl|apply Nc|apply Nr]; intros; discriminate.
Qed.
Lemma flatten_links modi fl val : forall l sets w w' items sets', flatten expand modi fl l sets w = (w', Ok (items, sets')) -> I w -> I w' /\ links modi fl val l sets sets' items.
Proof.
  induction l as [|n l IH]; intros sets w w' items sets' E Iw; cbn [flatten] in E; [injection E as <- <- <-; split; [exact Iw|apply links_nil]|].
  destruct (flatten_node expand modi fl n sets w) as [w1 [[i1 s1]|]] eqn:E1; [|discriminate]. destruct (flatten expand modi fl l s1 w1) as [w2 [[i2 s2]|]] eqn:E2; [|discriminate]. injection E as <- <- <-.
  destruct (node_links _ _ val _ _ _ _ _ _ E1 Iw) as [Iw1 L1]. destruct (IH _ _ _ _ _ E2 Iw1) as [Iw2 L2]. split; [exact Iw2|]. apply (links_app modi fl val [n] l sets s1 s2 i1 i2 L1 L2).
Qed.

(** * What a match tells *)
Lemma distinct_nodup l : distinct_names l = true -> NoDup l.
Proof.
  induction l as [|n l IH]; cbn [distinct_names]; intros H; constructor; apply andb_true_iff in H as [H1 H2]; auto. apply negb_true_iff, str_in_false in H1. exact H1.
Qed.
Lemma field_groupdict m : forall names j k g v, NoDup names -> nth_error names k = Some g -> cap_get (j + k) (caps m) = Some v -> field g (groupdict j names m) = v.
Proof.
  induction names as [|n names IH]; intros j k g v Nd Hk Hc; [destruct k; discriminate|]. inversion Nd as [|? ? Hn Nd']; subst. cbn [groupdict field]. destruct k as [|k].
  - injection Hk as ->. rewrite str_eqb_refl. unfold group_str, group. rewrite Nat.add_0_r in Hc. rewrite Hc. reflexivity.
  - cbn [nth_error] in Hk. destruct (str_eqb g n) eqn:E; [apply str_eqb_eq in E; subst; exfalso; apply Hn; apply nth_error_In in Hk; exact Hk|]. apply (IH (S j) k); auto. rewrite <- Nat.add_succ_comm in Hc. exact Hc.
Qed.
Context (isid : str -> bool).
Theorem pattern_sound value modi fl w w' p requested m :
  I w -> construct_regex expand isid value modi fl w = (w', Ok p) -> re_match (p_regex p) requested = Some m -> requested <> [] -> requested <> [LF] ->
  let d := groupdict 0 (p_names p) m in
  I w' /\ incl (p_flip p) fl /\ exists nodes v, M_value.parse value = Ok nodes /\ stands ex modi (fun n => field n d) (p_flip p) false nodes (substitute (p_template p) d) v /\ (requested = v \/ requested = v ++ [LF]).
Proof.
  intros Iw E M Nr Nl d. unfold construct_regex in E. destruct (M_value.parse value) as [nodes|] eqn:Ep; [|discriminate].
  destruct (flatten expand modi fl nodes ([], []) w) as [w1 [[items [P F]]|]] eqn:Ef; [|discriminate].
  destruct (tokens_of expand modi items w1) as [w2 [tokens|]] eqn:Et; [|discriminate].
  pose proof (flatten_apart _ _ _ (parse_spaced _ _ Ep) _ _ _ _ _ Ef _ _ _ Et) as [Ap _].
  destruct (flatten_links modi fl (fun n => field n d) _ _ _ _ _ _ Ef Iw) as [Iw1 [J H]].
  destruct (H F) as [_ K]; [split; cbn [fst snd]; [apply incl_refl|auto]|exact J|]. destruct (K _ _ _ Iw1 Et) as [Iw2 G].
  destruct (squash tokens) as [sq|] eqn:Sq.
  - destruct (build [] sq [] 0) as [[rs ts] names] eqn:B. destruct (distinct_names names && forallb isid names) eqn:Dn; [|discriminate]. injection E as <- <-. split; [exact Iw2|]. cbn [p_flip p_names p_template p_regex] in *.
    split; [exact J|]. apply andb_true_iff in Dn as [Dn _]. apply distinct_nodup in Dn. apply re_match_sound in M. apply Match_Seq in M as (s0 & M0 & M). apply Match_Caret in M0 as [-> _].
    destruct (build_sem _ _ _ _ _ _ _ B _ _ M) as (Cc & _ & _ & D & y & Ry & Ts); [intros k L; cbn in L; lia|]. cbn [rest] in Ry.
    specialize (Ts (fun n => field n d)). cbn beta in Ts. specialize (Ts ltac:(intros k g v Hg Hv; apply (field_groupdict m names 0 k g v Dn Hg Hv))).
    apply (squash_sem _ _ _ Sq Ap) in Ts. rewrite <- (app_nil_r tokens) in Ts. destruct (G _ _ _ _ Ts) as (x1 & y1 & x2 & y2 & a' & Ex & Ey & T0 & S0). inversion T0; subst x2 y2. rewrite app_nil_r in Ex, Ey.
    exists nodes, y. split; [reflexivity|]. split.
    + specialize (S0 [] [] [] (stands_nil _ _ _ _ _)). rewrite !app_nil_r in S0. unfold substitute. rewrite Ex, Ey. exact S0.
    + rewrite Ry. destruct (rest m) as [|c [|c' r]]; cbn [at_dollar] in D; [left; rewrite app_nil_r; reflexivity| |discriminate]. right. apply N.eqb_eq in D. subst. reflexivity.
  - injection E as <- <-. exfalso. cbn [p_regex] in M. apply re_match_sound in M. apply Match_Seq in M as (s0 & M0 & M). apply Match_Caret in M0 as [-> _]. apply Match_Dollar in M as [-> D]. cbn [rest] in D.
    destruct requested as [|c [|c' r]]; cbn [at_dollar] in D; [apply Nr; reflexivity| |discriminate]. apply N.eqb_eq in D. subst. apply Nl. reflexivity.
Qed.
End World.
End Uni.
