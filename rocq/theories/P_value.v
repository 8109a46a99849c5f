From Coq Require Import Ascii String.
From Coq Require Import NArith ZArith List Bool Lia.
From Verif Require Import PyStr PyStrFacts M_value Spec_value.
Import ListNotations.
Open Scope N_scope.

(** count_brackets *)
Lemma count_cons bc pc c s :
  c <> BSLASH -> c <> PCT ->
  count_from bc pc (c :: s) =
    (if (c =? LBRACE) && negb (Nat.eqb bc 0) then count_from (S bc) pc s
     else if (c =? RBRACE) && negb (Nat.eqb bc 0) then count_from (pred bc) pc s
     else if (c =? LPAR) && negb (Nat.eqb pc 0) then count_from bc (S pc) s
     else if (c =? RPAR) && negb (Nat.eqb pc 0) then count_from bc (pred pc) s
     else count_from bc pc s).
Proof.
  intros N1 N2. apply N.eqb_neq in N1, N2. destruct s as [|d s]; cbn [count_from]; [reflexivity|].
  rewrite N1, N2. reflexivity.
Qed.
Lemma balanced_count ib ip x : balanced ib ip x -> forall bc pc t,
  (ib = true -> bc <> 0%nat) -> (ip = true -> pc <> 0%nat) ->
  (ib = false -> bc = 0%nat) -> (ip = false -> pc = 0%nat) ->
  (t <> [] \/ True) ->
  count_from bc pc (x ++ t) = count_from bc pc t.
Proof.
  induction 1 as [ib ip|ib ip c t Nb Np Hib Hip HB IH|ib ip c t HB IH|ib ip c t N1 N2 HB IH
    |ib ip x t HB1 IH1 HB2 IH2|ib ip x t HB1 IH1 HB2 IH2|ip x t HB1 IH1 HB2 IH2|ib x t HB1 IH1 HB2 IH2];
    intros bc pc t0 Hb Hp Hb' Hp' _; cbn [app].
  - reflexivity.
  - rewrite count_cons by auto. rewrite <- (IH bc pc t0) by auto.
    assert (E1 : (c =? LBRACE) && negb (Nat.eqb bc 0) = false).
    { destruct ib; [destruct (Hib eq_refl) as [A _]; apply N.eqb_neq in A; now rewrite A|].
      rewrite (Hb' eq_refl). cbn. apply andb_false_r. }
    assert (E2 : (c =? RBRACE) && negb (Nat.eqb bc 0) = false).
    { destruct ib; [destruct (Hib eq_refl) as [_ A]; apply N.eqb_neq in A; now rewrite A|].
      rewrite (Hb' eq_refl). cbn. apply andb_false_r. }
    assert (E3 : (c =? LPAR) && negb (Nat.eqb pc 0) = false).
    { destruct ip; [destruct (Hip eq_refl) as [A _]; apply N.eqb_neq in A; now rewrite A|].
      rewrite (Hp' eq_refl). cbn. apply andb_false_r. }
    assert (E4 : (c =? RPAR) && negb (Nat.eqb pc 0) = false).
    { destruct ip; [destruct (Hip eq_refl) as [_ A]; apply N.eqb_neq in A; now rewrite A|].
      rewrite (Hp' eq_refl). cbn. apply andb_false_r. }
    now rewrite E1, E2, E3, E4.
  - cbn [count_from]. cbn [N.eqb]. change (BSLASH =? BSLASH) with true. cbn iota. apply IH; auto.
  - cbn [count_from]. change (PCT =? BSLASH) with false. change (PCT =? PCT) with true. cbn iota.
    apply N.eqb_neq in N1, N2. rewrite N1, N2. apply IH; auto.
  - cbn [count_from]. change (PCT =? BSLASH) with false. change (PCT =? PCT) with true.
    change (LBRACE =? LBRACE) with true. cbn iota. rewrite <- app_assoc. cbn [app].
    rewrite IH1 by (auto; discriminate). rewrite count_cons by discriminate.
    change (RBRACE =? LBRACE) with false. change (RBRACE =? RBRACE) with true. cbn [andb negb Nat.eqb pred].
    apply IH2; auto.
  - cbn [count_from]. change (PCT =? BSLASH) with false. change (PCT =? PCT) with true.
    change (LPAR =? LBRACE) with false. change (LPAR =? LPAR) with true. cbn iota. rewrite <- app_assoc. cbn [app].
    rewrite IH1 by (auto; discriminate). rewrite count_cons by discriminate.
    change (RPAR =? LBRACE) with false. change (RPAR =? RBRACE) with false. change (RPAR =? LPAR) with false.
    change (RPAR =? RPAR) with true. cbn [andb negb Nat.eqb pred].
    apply IH2; auto.
  - specialize (Hb eq_refl). rewrite count_cons by discriminate. change (LBRACE =? LBRACE) with true.
    destruct bc as [|bc]; [congruence|]. cbn [andb negb Nat.eqb]. rewrite <- app_assoc. cbn [app].
    rewrite IH1 by (auto; discriminate). rewrite count_cons by discriminate.
    change (RBRACE =? LBRACE) with false. change (RBRACE =? RBRACE) with true. cbn [andb negb Nat.eqb pred].
    apply IH2; auto.
  - specialize (Hp eq_refl). rewrite count_cons by discriminate. change (LPAR =? LPAR) with true.
    change (LPAR =? LBRACE) with false. change (LPAR =? RBRACE) with false.
    destruct pc as [|pc]; [congruence|]. cbn [andb negb Nat.eqb]. rewrite <- app_assoc. cbn [app].
    rewrite IH1 by (auto; discriminate). rewrite count_cons by discriminate.
    change (RPAR =? LBRACE) with false. change (RPAR =? RBRACE) with false. change (RPAR =? LPAR) with false.
    change (RPAR =? RPAR) with true. cbn [andb negb Nat.eqb pred].
    apply IH2; auto.
Qed.
Theorem balanced_zero x : balanced false false x -> count_brackets x = (0%nat, 0%nat).
Proof.
  intros HB. unfold count_brackets. rewrite <- (app_nil_r x).
  rewrite (balanced_count _ _ _ HB); auto; discriminate.
Qed.
Theorem balanced_open x y z : balanced false false x -> balanced true false y -> balanced false true z ->
  count_brackets (x ++ PCT :: LBRACE :: y) = (1%nat, 0%nat) /\
  count_brackets (x ++ PCT :: LPAR :: z) = (0%nat, 1%nat).
Proof.
  intros Hx Hy Hz. unfold count_brackets. split; rewrite (balanced_count _ _ _ Hx); auto; try discriminate.
  - cbn [count_from]. change (PCT =? BSLASH) with false. change (PCT =? PCT) with true.
    change (LBRACE =? LBRACE) with true. cbn iota. rewrite <- (app_nil_r y).
    rewrite (balanced_count _ _ _ Hy); auto; discriminate.
  - cbn [count_from]. change (PCT =? BSLASH) with false. change (PCT =? PCT) with true.
    change (LPAR =? LBRACE) with false. change (LPAR =? LPAR) with true. cbn iota. rewrite <- (app_nil_r z).
    rewrite (balanced_count _ _ _ Hz); auto; discriminate.
Qed.

(** Parsing. *)
Lemma find_index_Some {A} (p : A -> bool) l k : find_index p l = Some k ->
  exists a x b, l = a ++ x :: b /\ length a = k /\ p x = true /\ forallb (fun y => negb (p y)) a = true.
Proof.
  revert k. induction l as [|y l IH]; intros k; cbn; [discriminate|].
  destruct (p y) eqn:E.
  - intros Q; injection Q as <-. exists [], y, l. auto.
  - destruct (find_index p l) as [j|]; [|discriminate]. cbn. intros Q; injection Q as <-.
    destruct (IH j eq_refl) as (a & x & b & -> & <- & Hx & Ha).
    exists (y :: a), x, b. cbn. rewrite E, Ha. auto.
Qed.
Lemma find_index_None {A} (p : A -> bool) l : find_index p l = None -> forallb (fun y => negb (p y)) l = true.
Proof.
  induction l as [|y l IH]; cbn; auto. destruct (p y); [discriminate|].
  destruct (find_index p l); [discriminate|]. auto.
Qed.
Lemma match_paren_Some o c s : forall l n, match_paren o c l s = Some n ->
  exists w rest, s = w ++ c :: rest /\ n = S (length w).
Proof.
  induction s as [|d s IH]; intros l n; cbn; [discriminate|].
  assert (K : forall l', option_map S (match_paren o c l' s) = Some n ->
     exists w rest, d :: s = w ++ c :: rest /\ n = S (length w)).
  { intros l'. destruct (match_paren o c l' s) as [m|] eqn:E; [|discriminate]. cbn. intros Q; injection Q as <-.
    destruct (IH _ _ E) as (w & rest & -> & ->). exists (d :: w), rest. auto. }
  destruct (d =? BSLASH); [apply K|]. destruct (N.eqb_spec d c) as [->|].
  - destruct (l - 1 <=? 0)%Z; [|apply K]. intros Q; injection Q as <-. exists [], s. auto.
  - destruct (d =? o); apply K.
Qed.
Lemma closing_neq o c : closing o = Some c -> o <> c /\ (o =? BSLASH) = false.
Proof.
  unfold closing. destruct (N.eqb_spec o LPAR); [subst; intros Q; injection Q as <-; split; [discriminate|reflexivity]|].
  destruct (N.eqb_spec o LBRACE); [subst; intros Q; injection Q as <-; split; [discriminate|reflexivity]|].
  destruct (N.eqb_spec o LBRACK); [subst; intros Q; injection Q as <-; split; [discriminate|reflexivity]|discriminate].
Qed.

Lemma takedrop_len p (s : str) : (length (takewhile p s) + length (dropwhile p s) = length s)%nat.
Proof. rewrite <- app_length. f_equal. apply takedrop. Qed.

Section U.
Context {U : Unicode}.

Lemma name_len_le s : (name_len s <= length s)%nat.
Proof.
  unfold name_len.
  pose proof (takedrop_len is_cond_char s) as E1.
  set (a := takewhile is_cond_char s) in *. set (s1 := dropwhile is_cond_char s) in *.
  set (d := match s1 with c :: _ => if c =? DASH then 1%nat else 0%nat | [] => 0%nat end).
  assert (Hd : (d <= length s1)%nat).
  { unfold d. destruct s1 as [|c s1']; cbn; [lia|]. destruct (c =? DASH); lia. }
  pose proof (skipn_length d s1) as E2. set (s2 := skipn d s1) in *.
  pose proof (takedrop_len is_word s2) as E3. destruct (dropwhile is_word s2) as [|c s3']; cbn [length] in *; [lia|].
  destruct ((c =? STAR) || (c =? HASH)); lia.
Qed.

Lemma macro_len_bracket o c s n : closing o = Some c -> macro_len (o :: s) = Some n ->
  exists inner rest, s = inner ++ c :: rest /\ n = S (S (length inner)).
Proof.
  intros Hc. unfold macro_len. rewrite Hc. intros E. destruct (closing_neq _ _ Hc) as [N1 N2].
  apply match_paren_Some in E as (w & rest & E & ->). destruct w as [|x w]; cbn in E.
  - injection E as E _. congruence.
  - injection E as -> E. exists w, rest. auto.
Qed.
Lemma macro_len_name o s n : closing o = None -> macro_len (o :: s) = Some n -> (n <= length (o :: s))%nat.
Proof. intros Hc. unfold macro_len. rewrite Hc. intros E. injection E as <-. apply name_len_le. Qed.

Lemma split_colon_spec s : char_in COLON s = true ->
  let (a, b) := split_colon s in s = a ++ COLON :: b /\ ~ In COLON a.
Proof.
  unfold char_in. induction s as [|c s IH]; cbn [existsb split_colon]; [discriminate|]. intros E.
  destruct (N.eqb_spec c COLON) as [->|Nc].
  - split; [reflexivity|intros []].
  - destruct (split_colon s) as [a b].
    destruct (COLON =? c) eqn:E0; [apply N.eqb_eq in E0; congruence|]. cbn [orb] in E. destruct (IH E) as [-> Hn].
    split; [reflexivity|]. intros [Q|Q]; auto.
Qed.
Lemma split_prefix_eq s : fst (split_prefix s) ++ snd (split_prefix s) = s.
Proof. apply takedrop. Qed.

(** One step of the loop, described on the text from [start]. *)
Lemma nth_split_at (v : str) e d : nth_error v e = Some d -> skipn e v = d :: skipn (S e) v.
Proof.
  revert v. induction e as [|e IH]; intros [|x v]; cbn; try discriminate.
  - intros Q; injection Q as ->. reflexivity.
  - intros Q. rewrite (IH v Q). reflexivity.
Qed.


(** The shape of the node read at position [e], with its text [t]. *)
Inductive node_result (fuel : nat) : result node -> str -> Prop :=
| NR_shell b : node_result fuel (Ok (ShellExpansion b)) (PCT :: LPAR :: b ++ [RPAR])
| NR_expr b : node_result fuel (Ok (ExpressionExpansion b)) (PCT :: LBRACK :: b ++ [RBRACK])
| NR_sub p n : node_result fuel (Ok (MacroSubstitution p n)) (PCT :: p ++ n)
| NR_enclosed p n args x : split_ws x = n :: args ->
    node_result fuel (Ok (EnclosedMacroSubstitution p n args)) (PCT :: LBRACE :: p ++ x ++ [RBRACE])
| NR_nameless p x : split_ws x = [] -> forallb is_cond_char p = true ->
    node_result fuel (Err ValueError) (PCT :: LBRACE :: p ++ x ++ [RBRACE])
| NR_cond p n body : In QUESTION p -> ~ In COLON n ->
    node_result fuel (let! b := parse_loop fuel body 0 0 in Ok (ConditionalMacroExpansion p n b))
      (PCT :: LBRACE :: p ++ n ++ COLON :: body ++ [RBRACE])
| NR_builtin n b : ~ In COLON n ->
    node_result fuel (Ok (BuiltinMacro n b)) (PCT :: LBRACE :: n ++ COLON :: b ++ [RBRACE]).

(** The possible outcomes of one iteration. *)
Inductive step (fuel : nat) (v : str) (start off : nat) : result (list node) -> Prop :=
| S_finish : ~ In PCT (skipn (start + off) v) \/ (length v <= start)%nat ->
    step fuel v start off (Ok (match skipn start v with [] => [] | t => [StringLiteral t] end))
| S_unterminated : step fuel v start off (Err UnterminatedMacroException)
| S_double e b : (start + off <= e < length v)%nat -> skipn e v = PCT :: PCT :: b ->
    step fuel v start off (parse_loop fuel v start (e + 2))
| S_node e before nr t : (start + off <= e)%nat -> (e + length t <= length v)%nat ->
    ~ In PCT (firstn (e - (start + off)) (skipn (start + off) v)) ->
    before = (if (start <? e)%nat then [StringLiteral (firstn (e - start) (skipn start v))] else []) ->
    node_result fuel nr t -> (forall t', t <> PCT :: PCT :: t') ->
    skipn e v = t ++ skipn (e + length t) v ->
    step fuel v start off
      (let! nd := nr in let! rest := parse_loop fuel v (e + length t) 0 in Ok (before ++ nd :: rest)).

Lemma notin_pct a : forallb (fun y => negb (PCT =? y)) a = true -> ~ In PCT a.
Proof. rewrite forallb_forall. intros F Hi. apply F in Hi. discriminate. Qed.
Lemma takewhile_all p (s : str) : forallb p (takewhile p s) = true.
Proof. induction s as [|c s IH]; cbn; auto. destruct (p c) eqn:E; cbn; auto. now rewrite E. Qed.

Lemma loop_step fuel v start off : step fuel v start off (parse_loop (S fuel) v start off).
Proof.
  cbn [parse_loop].
  destruct (length v <=? start)%nat eqn:El; [apply Nat.leb_le in El; apply S_finish; now right|].
  apply Nat.leb_gt in El.
  destruct (find_pct (skipn (start + off) v)) as [k|] eqn:Ek;
    [|apply S_finish; left; apply notin_pct; now apply find_index_None in Ek].
  apply find_index_Some in Ek as (a & x & b & Ea & Hk & Hx & Ha). apply N.eqb_eq in Hx. subst x.
  set (e := (start + off + k)%nat) in *.
  assert (Ee : skipn e v = PCT :: b).
  { unfold e. replace (start + off + k)%nat with (k + (start + off))%nat by lia. rewrite <- skipn_skipn, Ea, <- Hk.
    rewrite skipn_app, skipn_all, Nat.sub_diag. reflexivity. }
  assert (He : (start + off <= e)%nat) by (unfold e; lia).
  assert (Hp : ~ In PCT (firstn (e - (start + off)) (skipn (start + off) v))).
  { rewrite Ea. replace (e - (start + off))%nat with (length a) by (unfold e; lia).
    rewrite firstn_app, firstn_all, Nat.sub_diag, app_nil_r. now apply notin_pct. }
  assert (Hel : (e < length v)%nat).
  { destruct (Nat.lt_ge_cases e (length v)); auto. exfalso. rewrite skipn_all2 in Ee by auto. discriminate. }
  assert (Ee1 : skipn (e + 1) v = b).
  { replace (e + 1)%nat with (1 + e)%nat by lia. rewrite <- skipn_skipn, Ee. reflexivity. }
  clearbody e. clear k Hk a Ea Ha.
  destruct (nth_error v (e + 1)) as [d|] eqn:Ed; [|apply S_unterminated].
  assert (Eb : b = d :: skipn (e + 2) v).
  { rewrite <- Ee1, (nth_split_at _ _ _ Ed). f_equal. f_equal. lia. }
  destruct (N.eqb_spec d PCT) as [->|Nd]; [eapply S_double; [lia|rewrite Ee, Eb; reflexivity]|].
  destruct (macro_len (skipn (e + 1) v)) as [n|] eqn:En; [|apply S_unterminated].
  rewrite Ee1, Eb in En. set (b' := skipn (e + 2) v) in *.
  assert (Hlen : (e + 1 + length b = length v)%nat).
  { pose proof (f_equal (@length N) Ee) as Q. rewrite skipn_length in Q. cbn in Q. lia. }
  assert (Brk : forall c, closing d = Some c -> exists inner rest, n = S (S (length inner))
     /\ firstn (n - 2) b' = inner /\ skipn (e + 1 + n) v = rest /\ (e + 1 + n <= length v)%nat /\ skipn e v = PCT :: d :: inner ++ c :: rest).
  { intros c Hc. destruct (macro_len_bracket _ _ _ _ Hc En) as (inner & rest & E & Hn).
    exists inner, rest. split; auto. split; [|split; [|split]].
    - rewrite E, Hn. replace (S (S (length inner)) - 2)%nat with (length inner) by lia.
      rewrite firstn_app, firstn_all, Nat.sub_diag, app_nil_r. reflexivity.
    - replace (e + 1 + n)%nat with (S (length inner) + (e + 2))%nat by lia. rewrite <- skipn_skipn. fold b'. rewrite E.
      rewrite skipn_app, skipn_all2 by lia. replace (S (length inner) - length inner)%nat with 1%nat by lia. reflexivity.
    - rewrite Eb, E in Hlen. cbn in Hlen. rewrite app_length in Hlen. cbn in Hlen. lia.
    - rewrite Ee, Eb, E. reflexivity. }
  (* all bracketed cases have the text PCT :: d :: inner ++ [c] *)
  assert (Mk : forall nr c inner rest t, n = S (S (length inner)) -> (e + 1 + n <= length v)%nat ->
     skipn (e + 1 + n) v = rest -> skipn e v = PCT :: d :: inner ++ c :: rest -> t = PCT :: d :: inner ++ [c] ->
     node_result fuel nr t ->
     step fuel v start off
      (let! nd := nr in let! rest := parse_loop fuel v (e + 1 + n) 0 in
       Ok ((if (start <? e)%nat then [StringLiteral (firstn (e - start) (skipn start v))] else []) ++ nd :: rest))).
  { intros nr c inner rest t Hn Hle S1 S3 Ht HN.
    assert (Hlt : (e + length t = e + 1 + n)%nat) by (rewrite Ht; cbn; rewrite app_length; cbn; lia).
    rewrite <- Hlt. apply S_node; auto; try lia.
    - rewrite Ht. intros t' Q. injection Q as Q _. congruence.
    - rewrite Hlt, S1, S3, Ht. cbn. now rewrite <- app_assoc. }
  destruct (N.eqb_spec d LPAR) as [->|N1].
  { destruct (Brk RPAR eq_refl) as (inner & rest & Hn & F & S1 & S2 & S3). rewrite F.
    apply (Mk _ RPAR inner rest (PCT :: LPAR :: inner ++ [RPAR])); auto. constructor. }
  destruct (N.eqb_spec d LBRACK) as [->|N2].
  { destruct (Brk RBRACK eq_refl) as (inner & rest & Hn & F & S1 & S2 & S3). rewrite F.
    apply (Mk _ RBRACK inner rest (PCT :: LBRACK :: inner ++ [RBRACK])); auto. constructor. }
  destruct (N.eqb_spec d LBRACE) as [->|N3].
  { destruct (Brk RBRACE eq_refl) as (inner & rest & Hn & F & S1 & S2 & S3). rewrite F.
    assert (Q : firstn (e + 1 + n - e) (skipn e v) = PCT :: LBRACE :: inner ++ [RBRACE]).
    { rewrite S3, Hn. replace (e + 1 + S (S (length inner)) - e)%nat with (length (PCT :: LBRACE :: inner ++ [RBRACE]))
        by (cbn; rewrite app_length; cbn; lia).
      replace (PCT :: LBRACE :: inner ++ RBRACE :: rest) with ((PCT :: LBRACE :: inner ++ [RBRACE]) ++ rest)
        by (cbn; rewrite <- app_assoc; reflexivity).
      rewrite firstn_app, firstn_all, Nat.sub_diag, app_nil_r. reflexivity. }
    rewrite Q.
    assert (Qc : char_in COLON (PCT :: LBRACE :: inner ++ [RBRACE]) = char_in COLON inner).
    { unfold char_in. cbn [existsb]. change (COLON =? PCT) with false. change (COLON =? LBRACE) with false. cbn [orb].
      rewrite existsb_app. cbn. now rewrite orb_false_r. }
    rewrite Qc. destruct (char_in COLON inner) eqn:Ec.
    - pose proof (split_colon_spec _ Ec) as SC. destruct (split_colon inner) as [cond body]. destruct SC as [SC NC].
      pose proof (split_prefix_eq cond) as SP. destruct (split_prefix cond) as [p nm] eqn:Esp. cbn [fst snd] in SP.
      destruct (char_in QUESTION p) eqn:Eq.
      + apply char_in_iff in Eq. apply (Mk _ RBRACE inner rest (PCT :: LBRACE :: inner ++ [RBRACE])); auto.
        rewrite SC, <- SP. repeat (rewrite <- ?app_assoc; cbn [app]).
        apply NR_cond; auto. intros Hi. apply NC. rewrite <- SP. apply in_or_app. now right.
      + apply (Mk _ RBRACE inner rest (PCT :: LBRACE :: inner ++ [RBRACE])); auto. rewrite SC. repeat (rewrite <- ?app_assoc; cbn [app]). now constructor.
    - unfold make_enclosed. pose proof (split_prefix_eq inner) as SP. destruct (split_prefix inner) as [p nm] eqn:Esp. cbn [fst snd] in SP.
      assert (Hpc : forallb is_cond_char p = true) by (unfold split_prefix in Esp; injection Esp as <- _; apply takewhile_all).
      destruct (split_ws nm) as [|nn args] eqn:Ew; apply (Mk _ RBRACE inner rest (PCT :: LBRACE :: inner ++ [RBRACE])); auto; rewrite <- SP, <- !app_assoc; now constructor. }
  assert (Hc : closing d = None).
  { unfold closing. apply N.eqb_neq in N1, N2, N3. now rewrite N1, N3, N2. }
  pose proof (macro_len_name _ _ _ Hc En) as Hn. rewrite Ee1.
  pose proof (split_prefix_eq (firstn n b)) as SP. destruct (split_prefix (firstn n b)) as [p nm]. cbn [fst snd] in SP.
  rewrite <- Eb in Hn.
  assert (Hlt : (e + length (PCT :: p ++ nm) = e + 1 + n)%nat).
  { rewrite SP. cbn. rewrite firstn_length. lia. }
  rewrite <- Hlt. apply S_node; auto; try lia.
  - constructor.
  - intros t' Q. injection Q as Q. rewrite SP in Q. rewrite Eb in Q. destruct n; cbn in Q; [discriminate|]. injection Q as Q _. congruence.
  - rewrite Hlt, Ee, SP. cbn. f_equal. replace (e + 1 + n)%nat with (n + (e + 1))%nat by lia. rewrite <- skipn_skipn, Ee1.
    symmetry. apply firstn_skipn.
Qed.

Lemma step_before v start off e before nd ns t :
  (start + off <= e)%nat -> (e <= length v)%nat ->
  before = (if (start <? e)%nat then [StringLiteral (firstn (e - start) (skipn start v))] else []) ->
  t = skipn e v -> reads (nd :: ns) t -> reads (before ++ nd :: ns) (skipn start v).
Proof.
  intros He Hel -> -> HR.
  assert (Q : skipn start v = firstn (e - start) (skipn start v) ++ skipn e v).
  { rewrite <- (firstn_skipn (e - start) (skipn start v)) at 1. f_equal. rewrite skipn_skipn. f_equal. lia. }
  destruct (start <? e)%nat eqn:El2.
  - cbn [app]. rewrite Q at 2. constructor; auto. apply Nat.ltb_lt in El2. intros Z.
    apply (f_equal (@length N)) in Z. rewrite firstn_length, skipn_length in Z. cbn in Z. lia.
  - apply Nat.ltb_ge in El2. assert (e = start) by lia. cbn [app]. congruence.
Qed.

(** What the loop reads is the text. *)
Lemma loop_reads : forall fuel v start off ns, (start <= length v)%nat ->
  parse_loop fuel v start off = Ok ns -> reads ns (skipn start v).
Proof.
  induction fuel as [|fuel IH]; intros v start off ns Hs; [discriminate|].
  destruct (loop_step fuel v start off) as [Hf| |e b He Eb|e before nr t He Hl Hp Hb HN Ht Et].
  - intros Q; injection Q as <-. destruct (skipn start v) as [|c t]; [constructor|].
    rewrite <- (app_nil_r (c :: t)) at 2. constructor; [discriminate|constructor].
  - discriminate.
  - apply IH; auto.
  - destruct nr as [nd|]; [|discriminate]. cbn [bind].
    destruct (parse_loop fuel v (e + length t) 0) as [rest|] eqn:Er; [|discriminate].
    cbn [bind]. intros Q; injection Q as <-. apply IH in Er; auto.
    remember (Ok nd) as nr eqn:Enr in HN.
    apply (step_before v start off e before nd rest (t ++ skipn (e + length t) v)); auto; [lia|].
    inversion HN as [b E|b E|p n E|p n args x Hx E|p x Hx Hpp E|p n body Hq Hc E|n b Hc E]; subst t; rewrite <- E in Enr; clear E; rename Enr into E; try discriminate.
    + injection E as <-. cbn. rewrite <- app_assoc. now constructor.
    + injection E as <-. cbn. rewrite <- app_assoc. now constructor.
    + injection E as <-. cbn. rewrite <- app_assoc. now constructor.
    + injection E as <-. cbn. rewrite <- !app_assoc. now constructor.
    + destruct (parse_loop fuel body 0 0) as [bn|] eqn:Eb; [|discriminate]. injection E as <-.
      apply IH in Eb; [|lia]. cbn. rewrite <- !app_assoc. cbn. rewrite <- app_assoc. now constructor.
    + injection E as <-. cbn. rewrite <- app_assoc. cbn. rewrite <- app_assoc. now constructor.
Qed.

Theorem parse_reads v ns : parse v = Ok ns -> reads ns v.
Proof. unfold parse. intros E. apply loop_reads in E; [exact E|lia]. Qed.

(** Termination and errors. *)
Lemma split_ws_nil : forall s cur, split_ws_aux cur s = [] -> cur = [] /\ Forall (fun c => is_space c = true) s.
Proof.
  induction s as [|c s IH]; intros cur; cbn.
  - destruct cur; [auto|discriminate].
  - destruct (is_space c) eqn:E.
    + destruct cur; [|discriminate]. intros Q. destruct (IH [] Q). auto.
    + intros Q. destruct (IH _ Q). discriminate.
Qed.
Definition nameless_in (v : str) := nameless v.
Lemma nameless_app a v b : nameless v -> nameless (a ++ v ++ b).
Proof.
  intros (x & p & w & y & -> & Hp & Hw). exists (a ++ x), p, w, (y ++ b). split; auto.
  rewrite <- !app_assoc. cbn. rewrite <- !app_assoc. cbn. reflexivity.
Qed.
Lemma nameless_skip n v : nameless (skipn n v) -> nameless v.
Proof.
  intros Hn. rewrite <- (firstn_skipn n v). rewrite <- (app_nil_r (skipn n v)). now apply nameless_app.
Qed.

Lemma loop_errors : forall fuel v start off e, (start <= length v)%nat ->
  (length v - (start + off) < fuel)%nat -> parse_loop fuel v start off = Err e ->
  e = UnterminatedMacroException \/ (e = ValueError /\ nameless v).
Proof.
  induction fuel as [|fuel IH]; intros v start off err Hs Hf; [lia|].
  destruct (loop_step fuel v start off) as [Hfin| |e b He Eb|e before nr t He Hl Hp Hb HN Ht Et].
  - discriminate.
  - intros Q; injection Q as <-. now left.
  - intros Q. eapply IH; [| |exact Q]; lia.
  - assert (Lt : (1 <= length t)%nat).
    { inversion HN; subst; cbn; lia. }
    destruct nr as [nd|e0]; cbn [bind].
    + destruct (parse_loop fuel v (e + length t) 0) as [rest|e1] eqn:Er; [discriminate|].
      cbn [bind]. intros Q; injection Q as <-. eapply IH; [| |exact Er]; lia.
    + intros Q; injection Q as <-. remember (Err e0) as nr eqn:Enr in HN.
      inversion HN as [b E|b E|p n E|p n args x Hx E|p x Hx Hpp E|p n body Hq Hc E|n b Hc E]; subst t; rewrite <- E in Enr; clear E; rename Enr into E; try discriminate.
      * injection E as <-. right. split; auto. exists (firstn e v), p, x, (skipn (e + length (PCT :: LBRACE :: p ++ x ++ [RBRACE])) v).
        split; [|split].
        -- rewrite <- (firstn_skipn e v) at 1. f_equal. rewrite Et at 1. cbn. rewrite <- !app_assoc. reflexivity.
        -- rewrite forallb_forall in Hpp. apply Forall_forall. intros c Hc. apply Hpp in Hc. unfold is_cond_char in Hc.
           apply orb_true_iff in Hc as [Q|Q]; apply N.eqb_eq in Q; auto.
        -- now apply (split_ws_nil x []).
      * destruct (parse_loop fuel body 0 0) as [bn|e1] eqn:Eb; [discriminate|]. injection E as <-.
        cbn [length] in Hl. rewrite !app_length in Hl. cbn [length] in Hl. rewrite app_length in Hl. cbn [length] in Hl.
        destruct (IH body 0%nat 0%nat e1 ltac:(lia) ltac:(lia) Eb) as [Q|[Q1 Q2]]; [now left|right; split; auto].
        apply (nameless_skip e). rewrite Et.
        apply (nameless_app (PCT :: LBRACE :: p ++ n ++ [COLON]) body
                 (RBRACE :: skipn (e + length (PCT :: LBRACE :: p ++ n ++ COLON :: body ++ [RBRACE])) v)) in Q2.
        cbn in Q2 |- *. rewrite <- ?app_assoc in *. cbn in *. rewrite <- ?app_assoc in *. cbn in *. exact Q2.
Qed.
Theorem parse_errors v e : parse v = Err e -> e = UnterminatedMacroException \/ (e = ValueError /\ nameless v).
Proof. unfold parse. apply loop_errors; lia. Qed.

(** White space is the only thing that may differ. *)
Lemma squeeze_app a b : squeeze (a ++ b) = squeeze a ++ squeeze b.
Proof. apply filter_app. Qed.
Lemma squeeze_cons c s : is_space c = false -> squeeze (c :: s) = c :: squeeze s.
Proof. unfold squeeze. cbn. now intros ->. Qed.
Lemma split_ws_squeeze : forall s cur, forallb (fun c => negb (is_space c)) cur = true ->
  concat (split_ws_aux cur s) = rev cur ++ squeeze s.
Proof.
  induction s as [|c s IH]; intros cur Hc; cbn.
  - destruct cur; cbn; rewrite ?app_nil_r; auto.
  - destruct (is_space c) eqn:E; cbn.
    + destruct cur as [|d cur]; [apply IH; auto|]. cbn [concat]. rewrite IH by auto. reflexivity.
    + rewrite IH; [cbn; now rewrite <- app_assoc|]. cbn. now rewrite E.
Qed.
Lemma split_ws_solid : forall s cur, forallb (fun c => negb (is_space c)) cur = true ->
  Forall (fun w => squeeze w = w) (split_ws_aux cur s).
Proof.
  assert (K : forall l, forallb (fun c => negb (is_space c)) l = true -> squeeze l = l).
  { induction l as [|c l IH]; cbn; auto. destruct (is_space c); cbn; [discriminate|]. intros F. f_equal. auto. }
  assert (K2 : forall l, forallb (fun c => negb (is_space c)) l = true -> squeeze (rev l) = rev l).
  { intros l F. apply K. rewrite forallb_forall in *. intros x Hx. apply F. now apply in_rev. }
  induction s as [|c s IH]; intros cur Hc; cbn.
  - destruct cur; constructor; [|constructor]. now apply K2.
  - destruct (is_space c) eqn:E.
    + destruct cur as [|d cur]; [apply IH; auto|]. constructor; [now apply K2|apply IH; auto].
    + apply IH. cbn. now rewrite E.
Qed.
Lemma squeeze_join l : Forall (fun w => squeeze w = w) l -> squeeze (join [SPC] l) = concat l.
Proof.
  induction 1 as [|w l Hw Hl IH]; auto. destruct l as [|w2 l]; [cbn; now rewrite app_nil_r|].
  change (join [SPC] (w :: w2 :: l)) with (w ++ [SPC] ++ join [SPC] (w2 :: l)).
  rewrite !squeeze_app, IH, Hw. reflexivity.
Qed.
Ltac sq := repeat (cbn [app]; first [rewrite squeeze_app | rewrite squeeze_cons by reflexivity]); cbn [app].
Lemma reads_squeeze ns t : reads ns t -> squeeze (nodes_str ns) = squeeze t.
Proof.
  induction 1 as [|v ns t Nv HR IH|b ns t HR IH|b ns t HR IH|p n ns t HR IH|p n args x ns t Hx HR IH
    |p n body x ns t Hq Hc HB IHB HR IH|n b ns t Hc HR IH]; cbn [nodes_str flat_map node_str]; unfold braced;
    rewrite ?squeeze_app; try (fold (nodes_str ns)); rewrite ?IH; sq; repeat (rewrite <- ?app_assoc; cbn [app]); auto.
  - do 3 f_equal.
    assert (Q : squeeze n ++ squeeze (match args with [] => [] | _ => SPC :: join [SPC] args end) = squeeze x).
    { pose proof (split_ws_squeeze x [] eq_refl) as A. fold (split_ws x) in A. rewrite Hx in A. cbn in A.
      pose proof (split_ws_solid x [] eq_refl) as B. fold (split_ws x) in B. rewrite Hx in B.
      inversion B as [|? ? B1 B2]; subst. rewrite <- A, B1. f_equal.
      destruct args as [|a args]; [reflexivity|]. rewrite <- squeeze_join by auto. reflexivity. }
    rewrite app_assoc, Q. reflexivity.
  - fold (nodes_str body). rewrite IHB. reflexivity.
Qed.
Theorem parse_lossless v ns : parse v = Ok ns -> squeeze (nodes_str ns) = squeeze v.
Proof. intros E. apply reads_squeeze, parse_reads, E. Qed.

Lemma split_ws_none : forall s cur, forallb (fun c => negb (is_space c)) s = true -> cur ++ s <> [] ->
  split_ws_aux cur s = [rev cur ++ s].
Proof.
  induction s as [|c s IH]; intros cur F Nn; cbn.
  - destruct cur; [now destruct Nn|]. now rewrite app_nil_r.
  - cbn in F. apply andb_true_iff in F as [F1 F2]. apply negb_true_iff in F1. rewrite F1.
    rewrite IH by (auto; discriminate). cbn. now rewrite <- app_assoc.
Qed.
Lemma reads_exact ns t : reads ns t -> forallb (fun c => negb (is_space c)) t = true -> nodes_str ns = t.
Proof.
  induction 1 as [|v ns t Nv HR IH|b ns t HR IH|b ns t HR IH|p n ns t HR IH|p n args x ns t Hx HR IH
    |p n body x ns t Hq Hc HB IHB HR IH|n b ns t Hc HR IH]; cbn [nodes_str flat_map node_str]; try (fold (nodes_str ns)); intros F;
    repeat (rewrite ?forallb_app in F; cbn [forallb] in F); rewrite ?andb_true_iff in F;
    repeat match goal with Hq : _ /\ _ |- _ => destruct Hq end.
  - reflexivity.
  - now rewrite IH.
  - rewrite IH by auto. cbn. now rewrite <- app_assoc.
  - rewrite IH by auto. cbn. now rewrite <- app_assoc.
  - rewrite IH by auto. cbn. now rewrite <- app_assoc.
  - rewrite IH by auto. unfold split_ws in Hx. destruct x as [|c x]; [discriminate|].
    rewrite split_ws_none in Hx by (auto; discriminate). injection Hx as <- <-. unfold braced. cbn. rewrite <- !app_assoc. cbn.
    rewrite <- !app_assoc. reflexivity.
  - rewrite IH by auto. fold (nodes_str body). rewrite IHB by auto. unfold braced. cbn. repeat (rewrite <- ?app_assoc; cbn [app]). reflexivity.
  - rewrite IH by auto. unfold braced. cbn. repeat (rewrite <- ?app_assoc; cbn [app]). reflexivity.
Qed.
Theorem parse_exact v ns : parse v = Ok ns -> forallb (fun c => negb (is_space c)) v = true -> nodes_str ns = v.
Proof. intros E. apply reads_exact, parse_reads, E. Qed.
End U.
