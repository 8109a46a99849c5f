(** Proofs about tokenising. *)
From Coq Require Import Ascii String.
From Coq Require Import NArith ZArith List Bool Lia.
From Verif Require Import PyStr PyStrFacts M_value Spec_value P_value P_value2 M_options Spec_options.
Import ListNotations.
Open Scope N_scope.

Lemma tokens_str_app a b : tokens_str (a ++ b) = tokens_str a ++ tokens_str b.
Proof. apply flat_map_app. Qed.
Lemma escape_q_app q a b : escape_q q (a ++ b) = escape_q q a ++ escape_q q b.
Proof. apply flat_map_app. Qed.
Lemma escape_default_app a b : escape_default (a ++ b) = escape_default a ++ escape_default b.
Proof. apply flat_map_app. Qed.
Lemma escape_q_none q a : ~ In q a -> escape_q q a = a.
Proof.
  induction a as [|c a IH]; cbn; auto. intros N. destruct (N.eqb_spec c q) as [->|Hc]; [exfalso; auto|].
  cbn. f_equal. auto.
Qed.
Lemma escape_default_none a : Forall (fun c => is_quote c = false /\ is_space c = false) a -> escape_default a = a.
Proof.
  induction 1 as [|c a [Q S] F IH]; auto. change (escape_default (c :: a)) with ((if is_quote c || is_space c then [BSLASH; c] else [c]) ++ escape_default a). now rewrite Q, S, IH.
Qed.
Lemma flush_default v : tokens_str (flush DEFAULT v) = escape_default v.
Proof. destruct v; cbn; auto. now rewrite app_nil_r. Qed.
Lemma flush_quoted q v : is_quote q = true -> v <> [] -> tokens_str (flush (quoted_type q) v) = q :: escape_q q v ++ [q].
Proof.
  intros Q N. destruct v as [|c v]; [congruence|]. cbn [flush tokens_str flat_map]. rewrite app_nil_r.
  unfold is_quote in Q. apply orb_true_iff in Q as [Q|Q]; apply N.eqb_eq in Q; subst; reflexivity.
Qed.
Lemma quote_not_space q : is_quote q = true -> is_space q = false.
Proof. unfold is_quote. intros Q. apply orb_true_iff in Q as [Q|Q]; apply N.eqb_eq in Q; subst; reflexivity. Qed.
Lemma quote_not_bs q : is_quote q = true -> q <> BSLASH.
Proof. intros Q ->. discriminate. Qed.
Lemma prepend_Ok x r y : r = Ok y -> prepend x r = Ok (x ++ y).
Proof. intros ->. reflexivity. Qed.
Lemma all_space_plain a : Forall (fun c => is_quote c = false /\ is_space c = false) a -> all_space a = false.
Proof. intros F. destruct F as [|c a [Q S] F]; cbn; auto. now rewrite S. Qed.
Lemma str_eqb_single c d : str_eqb [c] [d] = (c =? d).
Proof. cbn. now rewrite andb_true_r. Qed.

Lemma quoted_run q body : quoted_body q body -> is_quote q = true -> forall t v,
  exists v', tok (body ++ [q] :: t) (Quote q v) = prepend (flush (quoted_type q) (v ++ v')) (tok t (Dflt [])) /\
    escape_q q v' = concat body /\ (body <> [] -> v' <> []).
Proof.
  intros B Q. assert (Hqb : q <> BSLASH) by now apply quote_not_bs.
  induction B as [|a b Na Hq Hb B IH|a b Ha B IH]; intros t v.
  - exists []. cbn [app tok]. rewrite str_eqb_refl, app_nil_r. auto.
  - destruct (IH t (v ++ a)) as (v' & E & Es & Ne). exists (a ++ v'). cbn [app tok].
    assert (str_eqb a [q] = false) as -> by (apply str_eqb_neq; intros ->; apply Hq; now left).
    assert (str_eqb a [BSLASH] = false) as -> by now apply str_eqb_neq.
    rewrite E, <- app_assoc. split; [reflexivity|]. split.
    + rewrite escape_q_app, Es, escape_q_none; auto.
    + intros _. destruct a; [congruence|discriminate].
  - cbn [app tok]. assert (str_eqb [BSLASH] [q] = false) as -> by (apply str_eqb_neq; intros E; injection E as E; congruence).
    change (str_eqb [BSLASH] [BSLASH]) with true. cbv iota.
    destruct Ha as [->|[Na Hq]].
    + rewrite str_eqb_refl. destruct (IH t (v ++ [q])) as (v' & E & Es & Ne). exists (q :: v').
      rewrite E, <- app_assoc. split; [reflexivity|]. split; [|discriminate].
      change (escape_q q (q :: v')) with ((if q =? q then [BSLASH; q] else [q]) ++ escape_q q v'). rewrite N.eqb_refl, Es. reflexivity.
    + assert (str_eqb a [q] = false) as -> by (apply str_eqb_neq; intros ->; apply Hq; now left).
      destruct (IH t (v ++ BSLASH :: a)) as (v' & E & Es & Ne). exists (BSLASH :: a ++ v').
      rewrite E, <- app_assoc. split; [reflexivity|]. split; [|discriminate].
      change (BSLASH :: a ++ v') with (([BSLASH] ++ a) ++ v'). rewrite !escape_q_app, Es, (escape_q_none q a) by auto.
      rewrite escape_q_none by (intros [E'|[]]; congruence). reflexivity.
Qed.

Definition mode_text (m : mode) : str :=
  match m with Dflt v => escape_default v | Space ws => ws | Quote _ _ => [] end.
Definition not_quote (m : mode) : Prop := match m with Quote _ _ => False | _ => True end.

Lemma canonical_run inp : canonical inp -> forall m, not_quote m ->
  exists l, tok inp m = Ok l /\ tokens_str l = mode_text m ++ concat inp.
Proof.
  assert (Lift : forall c inp', all_space c = false ->
     (forall v, exists l, tok (c :: inp') (Dflt v) = Ok l /\ tokens_str l = escape_default v ++ concat (c :: inp')) ->
     forall m, not_quote m -> exists l, tok (c :: inp') m = Ok l /\ tokens_str l = mode_text m ++ concat (c :: inp')).
  { intros c inp' Sc Hd [v|q v|ws] Hm; [apply Hd|destruct Hm|].
    destruct (Hd []) as (l & E & Es). exists (mk_token WHITESPACE ws :: l). split.
    - cbn [tok] in *. rewrite Sc in *. now apply (prepend_Ok [mk_token WHITESPACE ws]).
    - cbn [tokens_str flat_map]. change (flat_map token_str l) with (tokens_str l). rewrite Es. reflexivity. }
  induction 1 as [|c t Sc C IH|a t Na Nb F C IH|c t Hc C IH|q body t Q Nb B C IH].
  - intros [v|q v|ws] Hm; [|destruct Hm|]; cbn [tok].
    + exists (flush DEFAULT v). split; auto. rewrite flush_default. cbn. now rewrite app_nil_r.
    + eexists. split; [reflexivity|]. cbn. reflexivity.
  - intros m Hm. assert (Sa : all_space [c] = true) by (cbn; now rewrite Sc).
    destruct m as [v|q v|ws]; [|destruct Hm|]; cbn [tok]; rewrite Sa.
    + destruct (IH (Space [c]) I) as (l & E & Es). exists (flush DEFAULT v ++ l). split; [now apply prepend_Ok|].
      rewrite tokens_str_app, flush_default, Es. reflexivity.
    + destruct (IH (Space (ws ++ [c])) I) as (l & E & Es). exists l. split; auto. rewrite Es. cbn. now rewrite <- app_assoc.
  - apply Lift; [now apply all_space_plain|]. intros v. cbn [tok]. rewrite all_space_plain by auto.
    assert (K : forall d, is_quote d = true -> str_eqb a [d] = false).
    { intros d Hd. apply str_eqb_neq. intros ->. inversion F as [|? ? [Hd' _] _]; congruence. }
    rewrite !K by reflexivity. assert (str_eqb a [BSLASH] = false) as -> by now apply str_eqb_neq.
    destruct (IH (Dflt (v ++ a)) I) as (l & E & Es). exists l. split; auto. rewrite Es. cbn [mode_text concat].
    rewrite escape_default_app, (escape_default_none a F), <- app_assoc. reflexivity.
  - apply Lift; [reflexivity|]. intros v. cbn [tok]. change (all_space [BSLASH]) with false. cbv iota.
    change (str_eqb [BSLASH] [DQUOTE]) with false. change (str_eqb [BSLASH] [SQUOTE]) with false. change (str_eqb [BSLASH] [BSLASH]) with true. cbv iota.
    destruct (IH (Dflt (v ++ [c])) I) as (l & E & Es). exists l. split; auto. rewrite Es. cbn [mode_text concat].
    rewrite escape_default_app, <- app_assoc. f_equal. cbn. assert (is_quote c || is_space c = true) as -> by (apply orb_true_iff; tauto). reflexivity.
  - apply Lift; [cbn; now rewrite quote_not_space|]. intros v. cbn [tok]. 
    assert (all_space [q] = false) as -> by (cbn; now rewrite quote_not_space).
    destruct (quoted_run q body B Q t []) as (v' & E & Es & Ne). specialize (Ne Nb). cbn [app] in E.
    destruct (IH (Dflt []) I) as (l & El & Els). rewrite El in E. cbn [prepend bind] in E.
    exists (flush DEFAULT v ++ flush (quoted_type q) v' ++ l). split.
    + rewrite !str_eqb_single. pose proof Q as Q'. unfold is_quote in Q'. apply orb_true_iff in Q' as [Q'|Q']; apply N.eqb_eq in Q'; subst q.
      * change (SQUOTE =? DQUOTE) with false. change (SQUOTE =? SQUOTE) with true. cbv iota. rewrite E. reflexivity.
      * change (DQUOTE =? DQUOTE) with true. cbv iota. rewrite E. reflexivity.
    + rewrite !tokens_str_app, flush_default, flush_quoted, Els, Es by auto. cbn [mode_text concat escape_default flat_map app].
      rewrite concat_app. cbn [concat app]. repeat (rewrite <- ?app_assoc; cbn [app]). reflexivity.
Qed.

Section Uni.
Context {U : Unicode}.
Lemma concat_atoms ns : concat (atoms ns) = nodes_str ns.
Proof.
  induction ns as [|n ns IH]; cbn; auto. rewrite concat_app. unfold atoms in IH. rewrite IH. f_equal.
  assert (K : forall v : str, concat (map (fun c => [c]) v) = v) by (induction v; cbn; congruence).
  destruct n; cbn; rewrite ?app_nil_r; auto.
Qed.
Theorem canonical_round_trip s : canonical_text s -> exists l, tokenize s = Ok l /\ tokens_str l = s.
Proof.
  intros (ns & P & E & C). unfold tokenize. rewrite P. cbn [bind].
  destruct (canonical_run _ C (Dflt []) I) as (l & T & Es). exists l. split; auto. rewrite Es. cbn. now rewrite concat_atoms.
Qed.

(** Failures. *)
Lemma tok_errors : forall n inp m e, (length inp <= n)%nat -> tok inp m = Err e -> e = OptionsException.
Proof.
  induction n as [|n IH]; intros inp m e L; destruct inp as [|c inp]; cbn [tok]; try (cbn in L; lia).
  1,2: destruct m; intros Q; inversion Q; auto.
  cbn in L.
  assert (P : forall x t m', (length t <= n)%nat -> prepend x (tok t m') = Err e -> e = OptionsException).
  { intros x t m' Lt. destruct (tok t m') as [y|e1] eqn:Q; cbn; [discriminate|]. intros R; injection R as <-. eapply IH; eauto. }
  assert (D : forall v, (if all_space c then prepend (flush DEFAULT v) (tok inp (Space c))
        else if str_eqb c [DQUOTE] then prepend (flush DEFAULT v) (tok inp (Quote DQUOTE []))
        else if str_eqb c [SQUOTE] then prepend (flush DEFAULT v) (tok inp (Quote SQUOTE []))
        else if str_eqb c [BSLASH] then
          match inp with
          | [] => Err OptionsException
          | d :: inp'' => tok inp'' (Dflt (v ++ d))
          end
        else tok inp (Dflt (v ++ c))) = Err e -> e = OptionsException).
  { intros v. destruct (all_space c); [apply P; lia|]. destruct (str_eqb c [DQUOTE]); [apply P; lia|]. destruct (str_eqb c [SQUOTE]); [apply P; lia|].
    destruct (str_eqb c [BSLASH]).
    - destruct inp as [|d inp]; [congruence|]. apply IH. cbn in L; lia.
    - apply IH. lia. }
  destruct m as [v|q v|ws].
  - apply D.
  - destruct (str_eqb c [q]); [apply P; lia|]. destruct (str_eqb c [BSLASH]).
    + destruct inp as [|d inp]; [congruence|]. apply IH. cbn in L; lia.
    + apply IH. lia.
  - destruct (all_space c) eqn:Sc; [apply IH; lia|]. unfold prepend. 
    match goal with |- bind ?r _ = _ -> _ => destruct r as [y|e1] eqn:Q end; cbn [bind]; [discriminate|].
    intros R; injection R as <-. apply (D []). exact Q.
Qed.
Theorem tokenize_errors s e : tokenize s = Err e -> e = OptionsException \/ parse s = Err e.
Proof.
  unfold tokenize. destruct (parse s) as [ns|e1]; cbn [bind]; [|intros Q; right; congruence]. intros Q. left. eapply tok_errors; eauto.
Qed.

(** Writing tokens down and reading them back. *)
Definition chars (s : str) : list str := map (fun c => [c]) s.
Lemma chars_app a b : chars (a ++ b) = chars a ++ chars b.
Proof. apply map_app. Qed.
Lemma read_quoted q v : is_quote q = true -> quotable q v -> forall t acc,
  tok (chars (escape_q q v) ++ [q] :: t) (Quote q acc) = prepend (flush (quoted_type q) (acc ++ v)) (tok t (Dflt [])).
Proof.
  intros Q K. assert (Hqb : (BSLASH =? q) = false) by (apply N.eqb_neq; intros <-; discriminate).
  induction K as [|c v Nc K IH|c v Nc K IH]; intros t acc.
  - cbn [escape_q flat_map chars map app tok]. now rewrite str_eqb_refl, app_nil_r.
  - change (escape_q q (c :: v)) with ((if c =? q then [BSLASH; c] else [c]) ++ escape_q q v). rewrite chars_app, <- app_assoc.
    destruct (N.eqb_spec c q) as [->|Hc].
    + cbn [chars map app tok]. rewrite !str_eqb_single, Hqb, !N.eqb_refl. cbv iota. rewrite IH, <- app_assoc. reflexivity.
    + cbn [chars map app tok]. rewrite !str_eqb_single. apply N.eqb_neq in Hc. rewrite Hc. apply N.eqb_neq in Nc. rewrite Nc, IH, <- app_assoc. reflexivity.
  - change (escape_q q (BSLASH :: c :: v)) with ((if BSLASH =? q then [BSLASH; BSLASH] else [BSLASH]) ++ (if c =? q then [BSLASH; c] else [c]) ++ escape_q q v).
    rewrite Hqb. apply N.eqb_neq in Nc. rewrite Nc. rewrite !chars_app, <- !app_assoc. cbn [chars map app tok].
    rewrite str_eqb_single, Hqb. change (str_eqb [BSLASH] [BSLASH]) with true. cbv iota. rewrite str_eqb_single, Nc, IH, <- app_assoc. reflexivity.
Qed.
Lemma read_default v : ~ In BSLASH v -> forall t acc, tok (chars (escape_default v) ++ t) (Dflt acc) = tok t (Dflt (acc ++ v)).
Proof.
  induction v as [|c v IH]; intros N t acc; [cbn; now rewrite app_nil_r|].
  assert (N' : ~ In BSLASH v) by (intros Hi; apply N; now right).
  change (escape_default (c :: v)) with ((if is_quote c || is_space c then [BSLASH; c] else [c]) ++ escape_default v).
  rewrite chars_app, <- app_assoc. destruct (is_quote c || is_space c) eqn:E.
  - cbn [chars map app]. transitivity (tok (chars (escape_default v) ++ t) (Dflt (acc ++ [c]))); [reflexivity|]. rewrite IH, <- app_assoc; auto.
  - apply orb_false_iff in E as [E1 E2]. cbn [chars map app tok]. cbn [all_space forallb]. rewrite E2. cbn [andb]. rewrite !str_eqb_single.
    unfold is_quote in E1. apply orb_false_iff in E1 as [E1 E3]. rewrite E3, E1.
    destruct (N.eqb_spec c BSLASH) as [->|_]; [exfalso; apply N; now left|]. change (map (fun c0 => [c0]) (escape_default v)) with (chars (escape_default v)).
    rewrite IH, <- app_assoc; auto.
Qed.
Lemma read_space w : forallb is_space w = true -> forall t acc, tok (chars w ++ t) (Space acc) = tok t (Space (acc ++ w)).
Proof.
  induction w as [|c w IH]; intros B t acc; [cbn; now rewrite app_nil_r|]. cbn [forallb] in B. apply andb_true_iff in B as [B1 B2].
  cbn [chars map app tok all_space forallb]. rewrite B1. cbn [andb]. change (map (fun c0 => [c0]) w) with (chars w). rewrite IH, <- app_assoc; auto.
Qed.

Definition starts_default (l : list token) : Prop := match l with t :: _ => t_type t = DEFAULT | [] => False end.
Definition starts_space (l : list token) : Prop := match l with t :: _ => t_type t = WHITESPACE | [] => False end.
Lemma in_space_mode s ws : (match s with [] => True | c :: _ => is_space c = false end) ->
  tok (chars s) (Space ws) = prepend [mk_token WHITESPACE ws] (tok (chars s) (Dflt [])).
Proof.
  destruct s as [|c s]; [reflexivity|]. intros S. cbn [chars map tok all_space forallb]. rewrite S. cbn [andb]. reflexivity.
Qed.
Lemma in_default_mode q s v : is_quote q = true ->
  tok (chars (q :: s)) (Dflt v) = prepend (flush DEFAULT v) (tok (chars s) (Quote q [])).
Proof.
  intros Q. unfold is_quote in Q. apply orb_true_iff in Q as [Q|Q]; apply N.eqb_eq in Q; subst q; reflexivity.
Qed.

Lemma tokens_read l : tokens_ok l ->
  (tok (chars (tokens_str l)) (Dflt []) = Ok l) /\
  (forall v, v <> [] -> ~ starts_default l -> tok (chars (tokens_str l)) (Dflt v) = Ok (mk_token DEFAULT v :: l)) /\
  (forall w, ~ starts_space l -> tok (chars (tokens_str l)) (Space w) = Ok (mk_token WHITESPACE w :: l)).
Proof.
  induction l as [|t l IH]; intros O.
  - cbn. repeat split; auto. intros v N _. destruct v; [congruence|reflexivity].
  - cbn [tokens_ok] in O. destruct O as ((Ne & Ht) & Tch & O). specialize (IH O) as (IH1 & IH2 & IH3).
    destruct t as [ty v]. cbn [t_type t_value] in *.
    change (tokens_str (mk_token ty v :: l)) with (token_str (mk_token ty v) ++ tokens_str l).
    assert (Nd : ty = DEFAULT -> ~ starts_default l).
    { intros ->. destruct l as [|u l]; cbn; auto. unfold may_touch in Tch. cbn in Tch. destruct (t_type u); auto; discriminate. }
    assert (Nsp : ty = WHITESPACE -> ~ starts_space l).
    { intros ->. destruct l as [|u l]; cbn; auto. unfold may_touch in Tch. cbn in Tch. destruct (t_type u); auto; discriminate. }
    assert (Quo : forall q, quoted_type q = ty -> is_quote q = true -> quotable q v -> forall pre acc,
        (pre = flush DEFAULT acc) -> tok (chars ((q :: escape_q q v ++ [q]) ++ tokens_str l)) (Dflt acc) = Ok (pre ++ mk_token ty v :: l)).
    { intros q Hty Q K pre acc ->. cbn [app]. rewrite in_default_mode by auto. rewrite <- app_assoc, chars_app.
      change (chars ([q] ++ tokens_str l)) with ([q] :: chars (tokens_str l)).
      rewrite read_quoted by auto. cbn [app]. rewrite IH1. cbn [prepend bind]. rewrite Hty. destruct v; [congruence|]. reflexivity. }
    assert (Lift : forall s, (match s with [] => True | c :: _ => is_space c = false end) -> tok (chars s) (Dflt []) = Ok (mk_token ty v :: l) ->
        forall w, tok (chars s) (Space w) = Ok (mk_token WHITESPACE w :: mk_token ty v :: l)).
    { intros s Hs E w. rewrite in_space_mode by auto. rewrite E. reflexivity. }
    unfold token_str. cbn [t_type t_value]. destruct ty.
    + assert (E0 : forall acc, ~ starts_default l -> tok (chars (escape_default v ++ tokens_str l)) (Dflt acc) = Ok (mk_token DEFAULT (acc ++ v) :: l)).
      { intros acc N. rewrite chars_app, read_default by auto. apply IH2; auto. destruct acc; [auto|discriminate]. }
      split; [apply E0; auto|]. split.
      * intros v0 _ N. exfalso. apply N. reflexivity.
      * intros w _. apply Lift; [|apply E0; auto]. destruct v as [|c v]; [congruence|].
        change (escape_default (c :: v)) with ((if is_quote c || is_space c then [BSLASH; c] else [c]) ++ escape_default v).
        destruct (is_quote c || is_space c) eqn:E; cbn; auto. apply orb_false_iff in E as [_ E]. exact E.
    + assert (E0 : forall acc, tok (chars (v ++ tokens_str l)) (Dflt acc) = Ok (flush DEFAULT acc ++ mk_token WHITESPACE v :: l)).
      { intros acc. destruct v as [|c v]; [congruence|]. cbn [forallb] in Ht. apply andb_true_iff in Ht as [H1 H2].
        cbn [app chars map tok all_space forallb]. rewrite H1. cbn [andb]. change (map (fun c0 => [c0]) (v ++ tokens_str l)) with (chars (v ++ tokens_str l)).
        rewrite chars_app, read_space by auto. rewrite IH3 by auto. reflexivity. }
      split; [apply (E0 [])|]. split.
      * intros v0 N _. rewrite E0. destruct v0; [congruence|reflexivity].
      * intros w N. exfalso. apply N. reflexivity.
    + split; [apply (Quo SQUOTE eq_refl eq_refl Ht [] [] eq_refl)|]. split.
      * intros v0 N _. rewrite (Quo SQUOTE eq_refl eq_refl Ht _ v0 eq_refl). destruct v0; [congruence|reflexivity].
      * intros w _. apply Lift; [reflexivity|]. apply (Quo SQUOTE eq_refl eq_refl Ht [] [] eq_refl).
    + split; [apply (Quo DQUOTE eq_refl eq_refl Ht [] [] eq_refl)|]. split.
      * intros v0 N _. rewrite (Quo DQUOTE eq_refl eq_refl Ht _ v0 eq_refl). destruct v0; [congruence|reflexivity].
      * intros w _. apply Lift; [reflexivity|]. apply (Quo DQUOTE eq_refl eq_refl Ht [] [] eq_refl).
Qed.

Lemma parse_no_percent s : ~ In PCT s -> parse s = Ok (match s with [] => [] | _ => [StringLiteral s] end).
Proof.
  intros N. unfold parse. cbn [parse_loop]. change (skipn (0 + 0) s) with s.
  assert (find_pct s = None) as ->.
  { rewrite split_pct_find. destruct (split_pct s) as [[b r]|] eqn:E; auto. apply split_pct_Some in E as [-> _].
    exfalso. apply N. apply in_or_app. right. now left. }
  destruct s; reflexivity.
Qed.
Theorem tokens_round_trip l : tokens_ok l -> ~ In PCT (tokens_str l) -> tokenize (tokens_str l) = Ok l.
Proof.
  intros O N. unfold tokenize. rewrite (parse_no_percent _ N). cbn [bind].
  assert (atoms (match tokens_str l with [] => [] | _ => [StringLiteral (tokens_str l)] end) = chars (tokens_str l)) as ->.
  { destruct (tokens_str l); auto. unfold atoms. cbn [flat_map]. now rewrite app_nil_r. }
  now apply tokens_read.
Qed.
End Uni.
