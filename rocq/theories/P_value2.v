From Coq Require Import Ascii String.
From Coq Require Import NArith ZArith List Bool Lia.
From Verif Require Import PyStr PyStrFacts M_value Spec_value P_value.
Import ListNotations.
Open Scope N_scope.

Lemma no_double_sub a v b : no_double (a ++ v ++ b) -> no_double v.
Proof.
  intros Hn x y ->. apply (Hn (a ++ x) (y ++ b)). now rewrite <- !app_assoc.
Qed.
Lemma no_double_skip n v : no_double v -> no_double (skipn n v).
Proof.
  intros Hn. apply (no_double_sub (firstn n v) _ []). now rewrite app_nil_r, firstn_skipn.
Qed.

Section U.
Context {U : Unicode}.

Lemma skipn_add0 n (v : str) : skipn (n + 0) v = skipn n v.
Proof. now rewrite Nat.add_0_r. Qed.

Lemma loop_no_pct : forall fuel v start ns, no_double v ->
  parse_loop fuel v start 0 = Ok ns -> Forall no_pct_literal ns.
Proof.
  induction fuel as [|fuel IH]; intros v start ns Hd; [discriminate|].
  destruct (loop_step fuel v start 0) as [Hf| |e b He Eb|e before nr t He Hl Hp Hb HN Ht Et].
  - intros Q; injection Q as <-. rewrite skipn_add0 in Hf. destruct (skipn start v) as [|c t] eqn:E; [constructor|].
    constructor; [|constructor]. constructor. destruct Hf as [Hf|Hf]; auto.
    rewrite skipn_all2 in E by auto. discriminate.
  - discriminate.
  - exfalso. apply (Hd (firstn e v) b). rewrite <- Eb. now rewrite firstn_skipn.
  - destruct nr as [nd|]; [|discriminate]. cbn [bind].
    destruct (parse_loop fuel v (e + length t) 0) as [rest|] eqn:Er; [|discriminate].
    cbn [bind]. intros Q; injection Q as <-. apply IH in Er; auto.
    apply Forall_app. split.
    + subst before. rewrite skipn_add0, Nat.add_0_r in Hp. destruct (start <? e)%nat; constructor; [|constructor]. now constructor.
    + constructor; auto. remember (Ok nd) as nr eqn:Enr in HN.
      inversion HN as [b E|b E|p n E|p n args x Hx E|p x Hx Hpp E|p n body Hq Hc E|n b Hc E]; subst t; rewrite <- E in Enr; clear E; rename Enr into E; try discriminate; try (injection E as <-; now constructor).
      destruct (parse_loop fuel body 0 0) as [bn|] eqn:Eb; [|discriminate]. injection E as <-.
      constructor. apply IH in Eb; auto.
      apply (no_double_skip e) in Hd. rewrite Et in Hd.
      apply (no_double_sub (PCT :: LBRACE :: p ++ n ++ [COLON]) body
         (RBRACE :: skipn (e + length (PCT :: LBRACE :: p ++ n ++ COLON :: body ++ [RBRACE])) v)).
      cbn in Hd |- *. rewrite <- ?app_assoc in *. cbn in *. rewrite <- ?app_assoc in *. cbn in *. exact Hd.
Qed.
Theorem parse_no_pct v ns : no_double v -> parse v = Ok ns -> Forall no_pct_literal ns.
Proof. unfold parse. apply loop_no_pct. Qed.

(** The loop on suffixes, for texts without "%%". *)
Fixpoint split_pct (v : str) : option (str * str) :=
  match v with
  | [] => None
  | c :: v' => if PCT =? c then Some ([], v') else
      match split_pct v' with Some (b, r) => Some (c :: b, r) | None => None end
  end.
Definition lit_node (v : str) : list node := match v with [] => [] | _ => [StringLiteral v] end.
Definition node_of (f : nat) (d : N) (r : str) (n : nat) : result node :=
  let inner := firstn (n - 2) (tl r) in
  if d =? LPAR then Ok (ShellExpansion inner)
  else if d =? LBRACK then Ok (ExpressionExpansion inner)
  else if d =? LBRACE then
    if char_in COLON (PCT :: firstn n r) then
      let (condition, body) := split_colon inner in
      let (p, nm) := split_prefix condition in
      if char_in QUESTION p then
        let! b := parse_loop f body 0 0 in
        Ok (ConditionalMacroExpansion p nm b)
      else Ok (BuiltinMacro condition body)
    else make_enclosed inner
  else let (p, nm) := split_prefix (firstn n r) in
       Ok (MacroSubstitution p nm).
Definition P_step (f : nat) (v : str) : result (list node) :=
  match split_pct v with
  | None => Ok (lit_node v)
  | Some (b, r) =>
      match r with
      | [] => Err UnterminatedMacroException
      | d :: _ =>
          match macro_len r with
          | None => Err UnterminatedMacroException
          | Some n => let! nd := node_of f d r n in
                      let! rest := parse_loop f (skipn n r) 0 0 in
                      Ok (lit_node b ++ nd :: rest)
          end
      end
  end.

Lemma split_pct_find v : find_pct v = match split_pct v with Some (b, _) => Some (length b) | None => None end.
Proof.
  unfold find_pct. induction v as [|c v IH]; cbn [find_index split_pct]; auto.
  destruct (PCT =? c); auto. rewrite IH. destruct (split_pct v) as [[b r]|]; auto.
Qed.
Lemma split_pct_Some v b r : split_pct v = Some (b, r) -> v = b ++ PCT :: r /\ ~ In PCT b.
Proof.
  revert b. induction v as [|c v IH]; intros b; cbn [split_pct]; [discriminate|].
  destruct (N.eqb_spec PCT c) as [<-|N].
  - intros Q; injection Q as <- <-. split; auto.
  - destruct (split_pct v) as [[b' r']|]; [|discriminate]. intros Q; injection Q as <- ->.
    destruct (IH b' eq_refl) as [-> Hn]. split; auto. intros [Q|Q]; auto.
Qed.
Lemma split_pct_app b r : ~ In PCT b -> split_pct (b ++ PCT :: r) = Some (b, r).
Proof.
  induction b as [|c b IH]; intros Hn; cbn [split_pct app].
  - reflexivity.
  - destruct (N.eqb_spec PCT c) as [<-|N]; [exfalso; apply Hn; now left|].
    rewrite IH; auto. intros Q. apply Hn. now right.
Qed.
Lemma split_pct_none b : split_pct b = None -> ~ In PCT b.
Proof.
  induction b as [|c b IH]; cbn [split_pct]; auto. destruct (N.eqb_spec PCT c); [discriminate|].
  destruct (split_pct b) as [[x y]|]; [discriminate|]. intros _ [Q|Q]; [congruence|now apply IH].
Qed.

Lemma nth_error_skipn {A} n k (v : list A) : nth_error (skipn n v) k = nth_error v (n + k).
Proof. revert v. induction n as [|n IH]; intros [|x v]; cbn; auto. now rewrite ?nth_error_nil; destruct k. Qed.

Lemma loop_suffix : forall f v start, no_double v ->
  parse_loop f v start 0 = match f with O => Err OtherError | S f' => P_step f' (skipn start v) end.
Proof.
  induction f as [|f IH]; intros v start Hd; [reflexivity|].
  cbn [parse_loop]. rewrite skipn_add0. unfold P_step.
  destruct (length v <=? start)%nat eqn:El.
  { apply Nat.leb_le in El. rewrite skipn_all2 by auto. reflexivity. }
  rewrite split_pct_find. destruct (split_pct (skipn start v)) as [[b r]|] eqn:Es; [|now destruct (skipn start v)].
  apply split_pct_Some in Es as [Es Hb].
  replace (start + 0 + length b)%nat with (start + length b)%nat by lia.
  set (e := (start + length b)%nat).
  assert (Ee : skipn e v = PCT :: r).
  { unfold e. replace (start + length b)%nat with (length b + start)%nat by lia. rewrite <- skipn_skipn, Es.
    rewrite skipn_app, skipn_all, Nat.sub_diag. reflexivity. }
  assert (Ee1 : skipn (e + 1) v = r).
  { replace (e + 1)%nat with (1 + e)%nat by lia. rewrite <- skipn_skipn, Ee. reflexivity. }
  rewrite <- (Nat.add_0_r (e + 1)), <- nth_error_skipn, Nat.add_0_r, Ee1.
  destruct r as [|d r]; [reflexivity|]. cbn [nth_error].
  destruct (N.eqb_spec d PCT) as [->|Nd].
  { exfalso. apply (Hd (firstn e v) r). rewrite <- Ee. now rewrite firstn_skipn. }
  destruct (macro_len (d :: r)) as [n|]; [|reflexivity].
  assert (Ee2 : skipn (e + 2) v = r).
  { replace (e + 2)%nat with (1 + (e + 1))%nat by lia. rewrite <- skipn_skipn, Ee1. reflexivity. }
  rewrite Ee2, Ee. unfold node_of. cbn [tl].
  replace (e + 1 + n - e)%nat with (S n) by lia. cbn [firstn].
  assert (Hbef : (if (start <? e)%nat then [StringLiteral (firstn (e - start) (skipn start v))] else []) = lit_node b).
  { rewrite Es. unfold e. replace (start + length b - start)%nat with (length b) by lia.
    rewrite firstn_app, firstn_all, Nat.sub_diag, app_nil_r. destruct b as [|c b]; cbn [length lit_node].
    - rewrite Nat.add_0_r, Nat.ltb_irrefl. reflexivity.
    - destruct (start <? start + S (length b))%nat eqn:Q; auto. apply Nat.ltb_ge in Q. lia. }
  rewrite Hbef.
  assert (Hrec : parse_loop f v (e + 1 + n) 0 = parse_loop f (skipn n (d :: r)) 0 0).
  { rewrite (IH v), (IH (skipn n (d :: r))); auto.
    - cbn [skipn]. replace (e + 1 + n)%nat with (n + (e + 1))%nat by lia. now rewrite <- skipn_skipn, Ee1.
    - apply no_double_skip. rewrite <- Ee1. now apply no_double_skip. }
  rewrite Hrec. reflexivity.
Qed.

(** More fuel does not change the result. *)
Lemma fuel_mono : forall f v s o r, parse_loop f v s o = r -> r <> Err OtherError -> parse_loop (S f) v s o = r.
Proof.
  induction f as [|f IH]; intros v s o r E Nr; [cbn in E; congruence|].
  remember (S f) as g. cbn [parse_loop]. subst g. cbn [parse_loop] in E.
  destruct (length v <=? s)%nat; auto.
  destruct (find_pct (skipn (s + o) v)) as [k|]; auto.
  destruct (nth_error v (s + o + k + 1)) as [d|]; auto.
  destruct (d =? PCT); auto.
  destruct (macro_len (skipn (s + o + k + 1) v)) as [n|]; auto.
  set (before := if (s <? s + o + k)%nat then _ else _) in *.
  assert (Hrest : forall nd, (let! rest := parse_loop f v (s + o + k + 1 + n) 0 in Ok (before ++ nd :: rest)) = r ->
    (let! rest := parse_loop (S f) v (s + o + k + 1 + n) 0 in Ok (before ++ nd :: rest)) = r).
  { intros nd. destruct (parse_loop f v (s + o + k + 1 + n) 0) as [rest|x] eqn:Er.
    - rewrite (IH _ _ _ _ Er) by discriminate. auto.
    - cbn [bind]. intros Q. rewrite (IH _ _ _ _ Er) by congruence. auto. }
  destruct (d =? LPAR); [apply Hrest; exact E|].
  destruct (d =? LBRACK); [apply Hrest; exact E|].
  destruct (d =? LBRACE).
  - destruct (char_in COLON _).
    + destruct (split_colon _) as [cond body]. destruct (split_prefix cond) as [p nm]. destruct (char_in QUESTION p).
      * destruct (parse_loop f body 0 0) as [b|x] eqn:Eb.
        -- rewrite (IH _ _ _ _ Eb) by discriminate. apply Hrest. exact E.
        -- cbn [bind] in E. rewrite (IH _ _ _ _ Eb) by congruence. exact E.
      * apply Hrest. exact E.
    + destruct (make_enclosed _); cbn [bind] in *; auto.
  - destruct (split_prefix _). apply Hrest. exact E.
Qed.
Lemma fuel_mono_le f g v s o r : (f <= g)%nat -> parse_loop f v s o = r -> r <> Err OtherError -> parse_loop g v s o = r.
Proof. induction 1; auto. intros E Nr. apply fuel_mono; auto. Qed.

Lemma parse_fuel f v ns : parse_loop f v 0 0 = Ok ns -> parse v = Ok ns.
Proof.
  intros E. unfold parse. destruct (parse_loop (S (S (length v))) v 0 0) as [ns'|x] eqn:E2.
  - destruct (Nat.le_ge_cases f (S (S (length v)))) as [L|L].
    + rewrite (fuel_mono_le _ _ _ _ _ _ L E) in E2 by discriminate. congruence.
    + rewrite (fuel_mono_le _ _ _ _ _ _ L E2) in E by discriminate. congruence.
  - exfalso. assert (x <> OtherError).
    { apply loop_errors in E2; try lia. destruct E2 as [->|[-> _]]; discriminate. }
    destruct (Nat.le_ge_cases f (S (S (length v)))) as [L|L].
    + rewrite (fuel_mono_le _ _ _ _ _ _ L E) in E2 by discriminate. congruence.
    + rewrite (fuel_mono_le _ _ _ _ _ _ L E2) in E by congruence. congruence.
Qed.
Lemma parse_enough f v ns : parse v = Ok ns -> (length v + 2 <= f)%nat -> parse_loop f v 0 0 = Ok ns.
Proof. unfold parse. intros E L. refine (fuel_mono_le _ f v 0%nat 0%nat _ _ E _); [lia|discriminate]. Qed.

Lemma match_paren_app o c s t : forall l n, match_paren o c l s = Some n -> match_paren o c l (s ++ t) = Some n.
Proof.
  induction s as [|d s IH]; intros l n; cbn [match_paren app]; [discriminate|].
  assert (K : forall l', option_map S (match_paren o c l' s) = Some n -> option_map S (match_paren o c l' (s ++ t)) = Some n).
  { intros l'. destruct (match_paren o c l' s) eqn:E; [|discriminate]. rewrite (IH _ _ E). auto. }
  destruct (d =? BSLASH); auto. destruct (d =? c); [destruct (l - 1 <=? 0)%Z; auto|]. destruct (d =? o); auto.
Qed.
Lemma takewhile_app_stop p (s t : str) : (forall c t', t = c :: t' -> p c = false) ->
  takewhile p (s ++ t) = takewhile p s /\ dropwhile p (s ++ t) = dropwhile p s ++ t.
Proof.
  intros Ht. induction s as [|c s [IH1 IH2]]; cbn [app takewhile dropwhile].
  - destruct t as [|c t]; cbn; auto. rewrite (Ht c t); auto.
  - destruct (p c); auto. now rewrite IH1, IH2.
Qed.
Lemma pct_not_word : is_word PCT = false.
Proof. reflexivity. Qed.
Lemma macro_len_app r t0 n : macro_len r = Some n -> macro_len (r ++ PCT :: t0) = Some n.
Proof.
  destruct r as [|o r]; [discriminate|]. unfold macro_len. cbn [app]. destruct (closing o) as [c|].
  - apply (match_paren_app o c (o :: r)).
  - intros Q; injection Q as <-. f_equal. unfold name_len.
    change (o :: r ++ PCT :: t0) with ((o :: r) ++ PCT :: t0).
    destruct (takewhile_app_stop is_cond_char (o :: r) (PCT :: t0)) as [-> ->]; [intros ? ? Q; injection Q as <- _; reflexivity|].
    set (s1 := dropwhile is_cond_char (o :: r)).
    assert (K : forall s2 : str, takewhile is_word (s2 ++ PCT :: t0) = takewhile is_word s2 /\
       match dropwhile is_word (s2 ++ PCT :: t0) with c :: _ => if (c =? STAR) || (c =? HASH) then 1%nat else 0%nat | [] => 0%nat end =
       match dropwhile is_word s2 with c :: _ => if (c =? STAR) || (c =? HASH) then 1%nat else 0%nat | [] => 0%nat end).
    { intros s2. destruct (takewhile_app_stop is_word s2 (PCT :: t0)) as [-> ->]; [intros ? ? Q; injection Q as <- _; reflexivity|].
      split; auto. destruct (dropwhile is_word s2); reflexivity. }
    destruct s1 as [|c s1]; cbn [app].
    + change (PCT =? DASH) with false. cbn iota. destruct (K []) as [K1 K2]. cbn [app] in K1, K2. cbn [skipn]. rewrite K1, K2. reflexivity.
    + destruct (c =? DASH); cbn [skipn]; [destruct (K s1) as [-> ->]|destruct (K (c :: s1)) as [K1 K2]; cbn [app] in K1, K2; rewrite K1, K2]; reflexivity.
Qed.
Lemma macro_len_le r n : macro_len r = Some n -> (n <= length r)%nat.
Proof.
  destruct r as [|o r]; [discriminate|]. intros E. destruct (closing o) as [c|] eqn:Ec.
  - destruct (macro_len_bracket _ _ _ _ Ec E) as (inner & rest & -> & ->). cbn. rewrite app_length. cbn. lia.
  - eapply macro_len_name; eauto.
Qed.


Lemma node_of_app f d r n t : macro_len (d :: r) = Some n -> node_of f d (d :: r ++ t) n = node_of f d (d :: r) n.
Proof.
  intros E. pose proof (macro_len_le _ _ E) as L. cbn in L. unfold node_of. cbn [tl].
  assert (F1 : firstn (n - 2) (r ++ t) = firstn (n - 2) r).
  { rewrite firstn_app. replace (n - 2 - length r)%nat with 0%nat by lia. cbn. apply app_nil_r. }
  assert (F2 : firstn n (d :: r ++ t) = firstn n (d :: r)).
  { change (d :: r ++ t) with ((d :: r) ++ t). rewrite firstn_app. replace (n - length (d :: r))%nat with 0%nat by (cbn; lia). cbn. apply app_nil_r. }
  now rewrite F1, F2.
Qed.
Lemma node_of_mono f g d r n nd : (f <= g)%nat -> node_of f d r n = Ok nd -> node_of g d r n = Ok nd.
Proof.
  intros L. unfold node_of. destruct (d =? LPAR); auto. destruct (d =? LBRACK); auto. destruct (d =? LBRACE); auto.
  destruct (char_in COLON _); auto. destruct (split_colon _) as [cond body]. destruct (split_prefix cond) as [p nm].
  destruct (char_in QUESTION p); auto. destruct (parse_loop f body 0 0) as [b|x] eqn:Eb; [|discriminate].
  rewrite (fuel_mono_le _ _ _ _ _ _ L Eb) by discriminate. auto.
Qed.

Lemma compose : forall f a na t0 g nt, no_double (a ++ PCT :: t0) ->
  parse_loop f a 0 0 = Ok na -> parse_loop g (PCT :: t0) 0 0 = Ok nt ->
  exists h, parse_loop h (a ++ PCT :: t0) 0 0 = Ok (na ++ nt).
Proof.
  induction f as [|f IH]; intros a na t0 g nt Hd Ea Et; [discriminate|].
  assert (Hda : no_double a) by (apply (no_double_sub [] a (PCT :: t0)); exact Hd).
  assert (Hdt : no_double (PCT :: t0)) by (apply (no_double_sub a (PCT :: t0) []); rewrite app_nil_r; exact Hd).
  rewrite loop_suffix in Ea by auto. cbn [skipn] in Ea. unfold P_step in Ea.
  destruct (split_pct a) as [[b r]|] eqn:Es.
  - apply split_pct_Some in Es as [-> Hb]. destruct r as [|d r]; [discriminate|].
    destruct (macro_len (d :: r)) as [n|] eqn:En; [|discriminate].
    destruct (node_of f d (d :: r) n) as [nd|] eqn:End; [|discriminate]. cbn [bind] in Ea.
    destruct (parse_loop f (skipn n (d :: r)) 0 0) as [rest|] eqn:Er; [|discriminate]. cbn [bind] in Ea.
    injection Ea as <-.
    pose proof (macro_len_le _ _ En) as L.
    assert (Hsk : skipn n (d :: r) ++ PCT :: t0 = skipn n ((d :: r) ++ PCT :: t0)).
    { rewrite skipn_app. replace (n - length (d :: r))%nat with 0%nat by lia. reflexivity. }
    rewrite <- app_assoc in Hd.
    destruct (IH (skipn n (d :: r)) rest t0 g nt) as [h Hh]; auto.
    { rewrite Hsk. apply no_double_skip. apply (no_double_sub (b ++ [PCT]) _ []). rewrite app_nil_r, <- app_assoc. exact Hd. }
    exists (S (Nat.max f h)). rewrite loop_suffix by (rewrite <- app_assoc; exact Hd). cbn [skipn]. unfold P_step.
    rewrite <- app_assoc. cbn [app]. rewrite split_pct_app by auto.
    change (d :: r ++ PCT :: t0) with ((d :: r) ++ PCT :: t0).
    rewrite (macro_len_app _ _ _ En). cbn [app]. rewrite node_of_app by auto.
    rewrite (node_of_mono f _ _ _ _ _ (Nat.le_max_l f h) End). cbn [bind].
    change (d :: r ++ PCT :: t0) with ((d :: r) ++ PCT :: t0). rewrite <- Hsk.
    rewrite (fuel_mono_le _ _ _ _ _ _ (Nat.le_max_r f h) Hh) by discriminate. cbn [bind].
    rewrite <- app_assoc. reflexivity.
  - injection Ea as <-. apply split_pct_none in Es.
    destruct g as [|g]; [discriminate|]. rewrite loop_suffix in Et by auto. cbn [skipn] in Et. unfold P_step in Et.
    cbn [split_pct] in Et. change (PCT =? PCT) with true in Et. cbn iota in Et. cbn [lit_node app] in Et.
    exists (S g). rewrite loop_suffix by auto. cbn [skipn]. unfold P_step. rewrite split_pct_app by auto.
    destruct t0 as [|d r]; [discriminate|]. destruct (macro_len (d :: r)) as [n|]; [|discriminate].
    destruct (node_of g d (d :: r) n) as [nd|]; [|discriminate]. cbn [bind] in *.
    destruct (parse_loop g (skipn n (d :: r)) 0 0) as [rest|]; [|discriminate]. cbn [bind] in *.
    injection Et as <-. reflexivity.
Qed.
Theorem parse_compose a t0 na nt : no_double (a ++ PCT :: t0) -> parse a = Ok na -> parse (PCT :: t0) = Ok nt ->
  parse (a ++ PCT :: t0) = Ok (na ++ nt).
Proof.
  intros Hd Ea Et. destruct (compose _ _ _ _ _ _ Hd Ea Et) as [h Hh]. eapply parse_fuel; eauto.
Qed.

(** A plain reference followed by text that does not continue its name. *)
Lemma parse_reference nm b nb : nm <> [] -> forallb is_word nm = true ->
  (forall c b', b = c :: b' -> is_word c = false /\ c <> STAR /\ c <> HASH) ->
  no_double (PCT :: nm ++ b) -> parse b = Ok nb ->
  parse (PCT :: nm ++ b) = Ok (MacroSubstitution [] nm :: nb).
Proof.
  intros Nn Hw Hb Hd Eb. apply (parse_fuel (S (length b + 2))). rewrite loop_suffix by auto. cbn [skipn]. unfold P_step.
  cbn [split_pct]. change (PCT =? PCT) with true. cbn iota.
  destruct nm as [|c nm]; [congruence|]. cbn [app]. cbn [forallb] in Hw. apply andb_true_iff in Hw as [Hc Hw].
  assert (Hcc : forall x, is_word c = true -> is_word x = false -> (c =? x) = false).
  { intros x A B. destruct (N.eqb_spec c x); auto. congruence. }
  assert (Hcl : closing c = None).
  { unfold closing. now rewrite !(Hcc _ Hc) by reflexivity. }
  assert (Hcond : is_cond_char c = false).
  { unfold is_cond_char. now rewrite !(Hcc _ Hc) by reflexivity. }
  assert (Hlen : macro_len (c :: nm ++ b) = Some (length (c :: nm))).
  { unfold macro_len. rewrite Hcl. f_equal. unfold name_len.
    cbn [takewhile dropwhile]. rewrite Hcond. rewrite (Hcc DASH Hc eq_refl). cbn [skipn length].
    change (c :: nm ++ b) with ((c :: nm) ++ b).
    destruct (takewhile_app_stop is_word (c :: nm) b) as [-> ->]; [intros x b' ->; now apply (Hb x b')|].
    assert (Q : takewhile is_word (c :: nm) = c :: nm /\ dropwhile is_word (c :: nm) = []).
    { cbn [takewhile dropwhile]. rewrite Hc. clear -Hw. induction nm as [|x nm IH]; cbn; auto.
      cbn in Hw. apply andb_true_iff in Hw as [-> Hw]. destruct (IH Hw) as [E1 E2]. split; [f_equal; injection E1 as ->; auto|auto]. }
    destruct Q as [-> ->]. cbn [app]. destruct b as [|x b']; cbn [length]; [lia|].
    destruct (Hb x b' eq_refl) as (_ & N1 & N2). apply N.eqb_neq in N1, N2. rewrite N1, N2. cbn. lia. }
  rewrite Hlen. unfold node_of. rewrite !(Hcc _ Hc) by reflexivity.
  change (c :: nm ++ b) with ((c :: nm) ++ b). rewrite firstn_app, firstn_all, Nat.sub_diag. cbn [firstn]. rewrite app_nil_r.
  unfold split_prefix. cbn [takewhile dropwhile]. rewrite Hcond. cbn [bind].
  rewrite skipn_app, skipn_all, Nat.sub_diag. cbn [skipn app].
  rewrite (parse_enough (length b + 2) b nb Eb) by lia. reflexivity.
Qed.
Theorem parse_finds_reference a nm b na nb : nm <> [] -> forallb is_word nm = true ->
  (forall c b', b = c :: b' -> is_word c = false /\ c <> STAR /\ c <> HASH) ->
  no_double (a ++ PCT :: nm ++ b) -> parse a = Ok na -> parse b = Ok nb ->
  parse (a ++ PCT :: nm ++ b) = Ok (na ++ MacroSubstitution [] nm :: nb).
Proof.
  intros Nn Hw Hb Hd Ea Eb. apply parse_compose; auto. apply parse_reference; auto.
  apply (no_double_sub a (PCT :: nm ++ b) []). now rewrite app_nil_r.
Qed.

(** split_conditional_macro_expansion *)
Theorem split_cond_lossless v body p s : split_conditional_macro_expansion v = Ok (body, p, s) ->
  squeeze (p ++ body ++ s) = squeeze v.
Proof.
  unfold split_conditional_macro_expansion. destruct (parse v) as [ns|e] eqn:E.
  - assert (D : (body, p, s) = (v, [], []) -> squeeze (p ++ body ++ s) = squeeze v)
      by (intros Q; injection Q as -> -> ->; cbn; now rewrite app_nil_r).
    destruct ns as [|[] [|]]; intros Q; injection Q as Q1 Q2 Q3; subst; try (apply D; reflexivity).
    rewrite <- (parse_lossless _ _ E). cbn [nodes_str flat_map node_str]. rewrite app_nil_r. unfold braced, nodes_str.
    cbn [app]. repeat (rewrite <- ?app_assoc; cbn [app]). reflexivity.
  - destruct e; try discriminate. intros Q; injection Q as <- <- <-. cbn [app]. now rewrite app_nil_r.
Qed.
Theorem split_cond_wrapper v body p s : split_conditional_macro_expansion v = Ok (body, p, s) ->
  (p = [] /\ s = [] /\ body = v) \/
  (exists pre name x, p = PCT :: LBRACE :: pre ++ name ++ [COLON] /\ s = [RBRACE] /\
    In QUESTION pre /\ ~ In COLON name /\ v = p ++ x ++ s /\ squeeze body = squeeze x).
Proof.
  unfold split_conditional_macro_expansion. destruct (parse v) as [ns|e] eqn:E.
  - destruct ns as [|[] [|]]; intros Q; injection Q as Q1 Q2 Q3; subst; auto.
    right. apply parse_reads in E.
    inversion E as [|? ? ? Q1 Q2 Q3| | | | |? ? ? x ? t Hq Hc HB HR|]; subst. inversion HR; subst.
    exists prefix, name, x. repeat split; auto.
    + cbn [app]. repeat (rewrite <- ?app_assoc; cbn [app]). reflexivity.
    + now apply reads_squeeze.
  - destruct e; try discriminate. intros Q; injection Q as -> -> ->. auto.
Qed.
Theorem split_cond_total v : (exists r, split_conditional_macro_expansion v = Ok r) \/
  (split_conditional_macro_expansion v = Err ValueError /\ nameless v).
Proof.
  unfold split_conditional_macro_expansion. destruct (parse v) as [ns|e] eqn:E.
  - left. destruct ns as [|[] [|]]; eauto.
  - apply parse_errors in E as [->|[-> Hn]]; eauto.
Qed.
End U.
