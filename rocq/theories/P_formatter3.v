(** What [formatted] returns. *)
From Coq Require Import Ascii String.
From Coq Require Import NArith List Bool Arith Lia.
From Verif Require Import PyStr PyStrFacts M_formatter Spec_formatter P_formatter P_formatter2.
Import ListNotations.
Open Scope N_scope.

Theorem fmt_same threshold t : plain t -> exists text ts, fmt threshold t 0 [] = Ok text /\ spells t ts /\ laid_out ts text /\ forall t', plain t' -> spells t' ts -> t' = t.
Proof.
  intros P. destruct (plain_formats threshold t P 0%nat []) as (text & ts & E & Sp & L). exists text, ts. split; [exact E|]. split; [exact Sp|]. split; [exact L|]. intros t' P' Sp'. now apply (spells_unique t' t ts).
Qed.
Theorem formatted_same ast_parse repr n expression t : ast_parse expression = Parsed t -> plain t ->
  exists text ts, formatted ast_parse repr (S n) expression = Some (Ok text) /\ spells t ts /\ laid_out ts text /\ forall t', plain t' -> spells t' ts -> t' = t.
Proof.
  intros A P. destruct (fmt_same 80 t P) as (text & ts & E & K). exists text, ts. split; [|exact K]. unfold formatted, format_expression. cbn [format_rounds]. rewrite A. change (N.to_nat 80) with 80%nat in *. rewrite E. reflexivity.
Qed.
(** * Exceptions *)
Definition mild {A} (r : result A) : Prop := match r with Ok _ => True | Err e => e = SpecfileException end.
Lemma mild_bind {A B} (r : result A) (f : A -> result B) : mild r -> (forall x, mild (f x)) -> mild (bind r f).
Proof. destruct r; cbn; auto. Qed.
Lemma mild_enclosed multiline indent st cl fs : Forall (fun f => forall n, mild (f n)) fs -> mild (enclosed multiline indent st cl fs).
Proof.
  intros H. unfold enclosed. fold (body multiline indent). apply mild_bind; [|intros; exact I]. induction H as [|f fs Hf H IH]; [exact I|]. cbn [body]. apply mild_bind; [apply Hf|]. intros x. apply mild_bind; [exact IH|]. intros y. exact I.
Qed.
Lemma mild_all {A} (l : list (result A)) : Forall mild l -> mild (all_ok l).
Proof. induction 1 as [|r l Hr H IH]; [exact I|]. cbn. apply mild_bind; auto. intros. apply mild_bind; auto. intros. exact I. Qed.
Theorem named_mild threshold t : named t -> forall indent prefix, mild (fmt threshold t indent prefix).
Proof.
  induction t as [r|l IH|l IH|l IH|f args kws IHa IHk|] using tree_ind2; intros P indent prefix; rewrite fmt_inner;
    (match goal with |- mild (bind (bind (inner _ _ _ ?t) _) _) => assert (K : forall m, mild (inner threshold m indent t)) end;
     [intros m; inversion P; subst; cbn [inner]|apply mild_bind; [apply mild_bind; [apply K|intros; exact I]|]; intros x; destruct (Nat.ltb _ _); [apply mild_bind; [apply K|intros; exact I]|exact I]]).
  - exact I.
  - apply mild_enclosed. rewrite Forall_map. rewrite Forall_forall in *. intros x Hx n. now apply IH; auto.
  - apply mild_enclosed. rewrite Forall_map. rewrite Forall_forall in *. intros x Hx n. now apply IH; auto.
  - apply mild_bind. { apply mild_all. rewrite Forall_map. rewrite Forall_forall in *. intros kv Hx. apply (proj1 (IH kv Hx)). now apply H0. }
    intros keys. apply mild_enclosed. rewrite Forall_map. apply Forall_forall. intros [key g] Hx n. apply in_combine_r in Hx. apply in_map_iff in Hx. destruct Hx as (kv & <- & Hkv). cbn. rewrite Forall_forall in *. apply (proj2 (IH kv Hkv)). now apply H0.
  - apply mild_enclosed. apply Forall_app. split; rewrite Forall_map; rewrite Forall_forall in *; intros x Hx n; [now apply IHa; auto|now apply IHk; auto].
  - reflexivity.
Qed.
Theorem formatted_total ast_parse repr n expression t : ast_parse expression = Parsed t -> named t -> exists text, formatted ast_parse repr (S n) expression = Some (Ok text).
Proof.
  intros A N. unfold formatted, format_expression. cbn [format_rounds]. rewrite A. pose proof (named_mild 80 t N 0%nat []) as M. destruct (fmt 80 t 0 []) as [s|e]; [eauto|]. cbn in M. subst. eauto.
Qed.
Theorem formatted_raises ast_parse repr n expression args kws : ast_parse expression = Parsed (Call None args kws) -> formatted ast_parse repr (S n) expression = Some (Err AttributeError).
Proof. intros A. unfold formatted, format_expression. cbn [format_rounds]. rewrite A. reflexivity. Qed.
Theorem formatted_index ast_parse repr n expression k o line : ast_parse expression = Syntax (S k) (S o) -> nth_error (splitlines expression) k = Some line -> (length line <= o)%nat ->
  formatted ast_parse repr (S n) expression = Some (Err IndexError).
Proof.
  intros A L O. unfold formatted, format_expression. cbn [format_rounds]. rewrite A. unfold placeholder. cbn [Nat.eqb orb pred]. rewrite L. rewrite (proj2 (nth_error_None line o) O). reflexivity.
Qed.
(** * Placeholders *)
Lemma laid_out_at a p b s : laid_out (a ++ p :: b) s -> exists x y, s = x ++ p ++ y /\ forall v, laid_out (a ++ v :: b) (x ++ v ++ y).
Proof.
  revert s. induction a as [|q a IH]; intros s H; cbn in H.
  - inversion H; subst. { exists [], []. rewrite app_nil_r. split; auto. intros v. rewrite app_nil_r. constructor. } exists [], (ws ++ s0). split; auto. intros v. cbn. now constructor.
  - inversion H; subst. { destruct a; discriminate. } destruct (IH _ H2) as (x & y & -> & K). exists (q ++ ws ++ x), y. split; [now rewrite <- !app_assoc|]. intros v. rewrite <- !app_assoc. cbn. constructor; auto.
Qed.
Lemma replace_first_at p v x y : (forall x' y', x ++ p ++ y = x' ++ p ++ y' -> length x <= length x')%nat -> replace_first p v (x ++ p ++ y) = x ++ v ++ y.
Proof.
  induction x as [|c x IH]; intros H.
  - cbn [app]. assert (St : startswith (p ++ y) p = true) by (apply startswith_iff; eauto). destruct (p ++ y) eqn:E; cbn [replace_first]; rewrite St; rewrite <- E, skipn_app, skipn_all, Nat.sub_diag; reflexivity.
  - cbn [app replace_first]. destruct (startswith (c :: x ++ p ++ y) p) eqn:St.
    + exfalso. apply startswith_iff in St. destruct St as (y' & E). specialize (H [] y'). cbn in H. rewrite E in H. specialize (H eq_refl). lia.
    + f_equal. apply IH. intros x' y' E. specialize (H (c :: x') y'). cbn in H. rewrite E in H. specialize (H eq_refl). lia.
Qed.
Theorem placeholder_once ast_parse repr n e l o e' p v t :
  ast_parse e = Syntax l o -> placeholder repr e l o = Ok (Some (e', (p, v))) -> ast_parse e' = Parsed t -> plain t ->
  (forall ts, spells t ts -> In p ts) ->
  (forall text x y x' y', fmt 80 t 0 [] = Ok text -> text = x ++ p ++ y -> text = x' ++ p ++ y' -> x = x') ->
  exists a b out, formatted ast_parse repr (S (S n)) e = Some (Ok out) /\ spells t (a ++ p :: b) /\ laid_out (a ++ v :: b) out.
Proof.
  intros A Pl A' P Ip Un. destruct (fmt_same 80 t P) as (text & ts & E & Sp & L & _). destruct (in_split p ts (Ip ts Sp)) as (a & b & ->). destruct (laid_out_at _ _ _ _ L) as (x & y & Et & K).
  exists a, b, (x ++ v ++ y). split; [|split; [exact Sp|apply K]]. unfold formatted, format_expression. cbn [format_rounds]. rewrite A, Pl, A', E. cbn [fold_left app fst snd]. rewrite Et, replace_first_at; [reflexivity|].
  intros x' y' E'. rewrite (Un text x y x' y' E Et); [lia|]. now rewrite Et.
Qed.
(** The text of a placeholder that is there already *)
Lemma splitlines_one (s cur : str) : no_breaks s -> cur ++ s <> [] -> splitlines_aux cur s = [rev cur ++ s].
Proof.
  revert cur. induction s as [|c s IH]; intros cur N H.
  - rewrite app_nil_r in *. cbn. now destruct cur.
  - cbn [splitlines_aux]. rewrite (N c) by (now left). rewrite IH; [cbn; now rewrite <- app_assoc|intros d Hd; apply N; now right|discriminate].
Qed.
Lemma matching_none w i rest : (forall c, In c w -> c <> 60 /\ c <> 62) -> find_matching 1 i (w ++ 62 :: rest) = Some (S (i + length w)).
Proof.
  revert i. induction w as [|c w IH]; intros i H.
  - cbn. now rewrite Nat.add_0_r.
  - cbn [app find_matching]. destruct (H c (or_introl eq_refl)) as (N1 & N2). apply N.eqb_neq in N1, N2. rewrite N1, N2. rewrite IH by (intros d Hd; apply H; now right). f_equal. cbn [length]. lia.
Qed.
Theorem placeholder_twice ast_parse repr n f w q :
  let v := 60 :: w ++ [62] in let p := 39 :: q in let before := f ++ lit "(" ++ p ++ lit ", " in
  repr v = p -> ~ In 39 f -> (forall c, In c w -> c <> 60 /\ c <> 62) -> no_breaks f -> no_breaks p -> no_breaks w ->
  ast_parse (before ++ v ++ lit ")") = Syntax 1 (S (length before)) -> ast_parse (before ++ p ++ lit ")") = Parsed (Call (Some f) [Const p; Const p] []) ->
  (length (before ++ p ++ lit ")") <= 80)%nat ->
  formatted ast_parse repr (S (S n)) (before ++ v ++ lit ")") = Some (Ok (f ++ lit "(" ++ v ++ lit ", " ++ p ++ lit ")")).
Proof.
  intros v p before R Nf Nw Bf Bp Bw A A' Le. unfold formatted, format_expression. cbn [format_rounds]. rewrite A.
  assert (Pl : placeholder repr (before ++ v ++ lit ")") 1 (S (length before)) = Ok (Some (before ++ p ++ lit ")", (p, v)))).
  { unfold placeholder. cbn [Nat.eqb orb pred]. unfold splitlines. rewrite splitlines_one; cbn [rev app].
    2:{ clear - Bf Bp Bw. unfold no_breaks in *. intros c Hc. unfold before, v, p in *. cbn [In] in Bp. rewrite !in_app_iff in Hc. cbn [In lit] in Hc. rewrite in_app_iff in Hc. cbn in Hc.
        repeat match type of Hc with _ \/ _ => destruct Hc as [Hc|Hc] end; try contradiction; try (subst c; reflexivity); auto. }
    2:{ unfold before. destruct f; discriminate. }
    cbn [nth_error]. rewrite nth_error_app2 by lia. rewrite Nat.sub_diag. cbn [nth_error v app]. cbn [N.eqb Pos.eqb negb].
    unfold find_matching_bracket. rewrite skipn_app, skipn_all, Nat.sub_diag. cbn [app skipn find_matching N.eqb Pos.eqb]. rewrite <- app_assoc. cbn [app]. rewrite matching_none by exact Nw.
    assert (Lv : length v = S (S (length w))) by (unfold v; cbn [length]; rewrite app_length; cbn [length]; lia).
    assert (Ev : 60 :: w ++ 62 :: lit ")" = v ++ lit ")") by (unfold v; cbn [app]; now rewrite <- app_assoc).
    replace (S (S (length before) + length w) - length before)%nat with (length v) by lia. rewrite Ev.
    assert (F1 : firstn (length v) (v ++ lit ")") = v) by (rewrite firstn_app, firstn_all, Nat.sub_diag; apply app_nil_r).
    assert (F2 : firstn (length before) (before ++ v ++ lit ")") = before) by (rewrite firstn_app, firstn_all, Nat.sub_diag; apply app_nil_r).
    rewrite !F1, F2, R.
    replace (skipn (S (S (length before) + length w)) (before ++ v ++ lit ")")) with (lit ")").
    2:{ rewrite app_assoc. rewrite skipn_app. rewrite skipn_all2 by (rewrite app_length; lia).
        replace (S (S (length before) + length w) - length (before ++ v))%nat with 0%nat by (rewrite app_length; lia). reflexivity. }
    cbn [skipn app join]. reflexivity. }
  rewrite Pl, A'. 
  assert (F : fmt 80 (Call (Some f) [Const p; Const p] []) 0 [] = Ok (f ++ lit "(" ++ p ++ lit ", " ++ p ++ lit ")")).
  { assert (Fp : fmt 80 (Const p) 0 [] = Ok p). { rewrite fmt_inner. cbn [inner bind spaces repeat app]. destruct (Nat.ltb _ _); reflexivity. }
    rewrite fmt_inner. cbn [inner map app]. unfold enclosed. rewrite !Fp. cbn [bind app spaces repeat].
    assert (Q : forall s, s = f ++ lit "(" ++ p ++ lit ", " ++ p ++ lit ")" -> Nat.ltb 80 (length s) = false) by (intros s ->; apply Nat.ltb_ge; unfold before in Le; rewrite <- !app_assoc in Le; exact Le).
    match goal with |- context [Nat.ltb 80 (length ?s)] => rewrite (Q s) end; [|rewrite <- !app_assoc; cbn [app]; now rewrite ?app_nil_r, <- ?app_assoc].
    rewrite <- !app_assoc. cbn [app]. now rewrite ?app_nil_r, <- ?app_assoc. }
  rewrite F. cbn [fold_left app fst snd]. f_equal. f_equal.
  replace (f ++ lit "(" ++ p ++ lit ", " ++ p ++ lit ")") with ((f ++ lit "(") ++ p ++ (lit ", " ++ p ++ lit ")")) by (rewrite <- !app_assoc; reflexivity).
  rewrite replace_first_at; [rewrite <- !app_assoc; reflexivity|].
  intros x' y' E. destruct (Nat.le_gt_cases (length (f ++ lit "(")) (length x')) as [|G]; [assumption|exfalso].
  assert (I39 : In 39 (f ++ lit "(")).
  { apply (f_equal (fun s => nth_error s (length x'))) in E. rewrite nth_error_app1 in E by exact G. rewrite (nth_error_app2 x') in E by lia. rewrite Nat.sub_diag in E. change (nth_error (p ++ y') 0) with (Some 39) in E. now apply nth_error_In in E. }
  apply in_app_iff in I39. destruct I39 as [I|[I|[]]]; [contradiction|discriminate].
Qed.
(** For the examples *)
Definition atomb (r : str) : bool :=
  negb (match r with [] => true | _ => false end) && negb (existsb (str_eqb r) [lit "["; lit "]"; lit "{"; lit "}"; lit ")"; lit ","; lit ":"; lit "="]) && negb (last r 0 =? 40).
Lemma atomb_atom r : atomb r = true -> atom r.
Proof.
  unfold atomb. intros H. apply andb_prop in H. destruct H as (H & L). apply andb_prop in H. destruct H as (N & E). split; [intros ->; discriminate|]. split.
  - intros I. apply negb_true_iff in E. rewrite <- not_true_iff_false in E. apply E. apply existsb_exists. exists r. split; [exact I|]. now apply str_eqb_eq.
  - intros x ->. change (lit "(") with [40] in L. rewrite last_last in L. discriminate.
Qed.
