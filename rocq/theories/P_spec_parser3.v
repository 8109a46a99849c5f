(** Proofs about the environment and whole parses. *)
From Coq Require Import Ascii String.
From Coq Require Import NArith ZArith List Bool Lia.
From Verif Require Import PyStr PyStrFacts M_constants M_value M_tags M_evr M_spec_parser Spec_spec_parser P_spec_parser2.
Import ListNotations.
Open Scope nat_scope.

(** * Environment *)
Lemma str_eqb_neq a b : a <> b -> str_eqb a b = false.
Proof. intros N. destruct (str_eqb a b) eqn:E; [apply str_eqb_eq in E; contradiction|reflexivity]. Qed.
Lemma get_set_env k v e k' : get_env k' (set_env k v e) = if str_eqb k' k then Some v else get_env k' e.
Proof.
  induction e as [|[q u] e IH]; cbn [set_env get_env]; [reflexivity|]. destruct (str_eqb k q) eqn:E; cbn [get_env].
  - apply str_eqb_eq in E. subst q. destruct (str_eqb k' k); reflexivity.
  - destruct (str_eqb k' q) eqn:E'; [|exact IH]. apply str_eqb_eq in E'. subst q. destruct (str_eqb k' k) eqn:E2; [|reflexivity]. apply str_eqb_eq in E2. subst k'. rewrite str_eqb_refl in E. discriminate.
Qed.
Lemma set_set k v u e : set_env k v (set_env k u e) = set_env k v e.
Proof. induction e as [|[q x] e IH]; cbn [set_env]; [rewrite str_eqb_refl; reflexivity|]. destruct (str_eqb k q) eqn:E; cbn [set_env]; rewrite E; [reflexivity|f_equal; exact IH]. Qed.
Lemma set_get k v e : get_env k e = Some v -> set_env k v e = e.
Proof.
  induction e as [|[q x] e IH]; cbn [set_env get_env]; [discriminate|]. destruct (str_eqb k q) eqn:E; [|intros H; f_equal; auto]. intros H. injection H as ->. reflexivity.
Qed.
Lemma set_comm k k' v u e : k <> k' -> get_env k e <> None -> set_env k v (set_env k' u e) = set_env k' u (set_env k v e).
Proof.
  intros N. induction e as [|[q x] e IH]; cbn [set_env get_env]; [contradiction|]. destruct (str_eqb k q) eqn:E, (str_eqb k' q) eqn:E'; intros G.
  - apply str_eqb_eq in E, E'. congruence.
  - cbn [set_env]. rewrite E, E'. reflexivity.
  - cbn [set_env]. rewrite E, E'. reflexivity.
  - cbn [set_env]. rewrite E, E'. f_equal. auto.
Qed.
Lemma del_set k k' u e : k <> k' -> del_env k (set_env k' u e) = set_env k' u (del_env k e).
Proof.
  intros N. unfold del_env. induction e as [|[q x] e IH]; cbn [set_env filter fst].
  - rewrite (str_eqb_neq k k') by exact N. reflexivity.
  - destruct (str_eqb k' q) eqn:E'; cbn [filter fst].
    + apply str_eqb_eq in E'. subst q. rewrite (str_eqb_neq k k') by exact N. cbn [negb set_env]. rewrite str_eqb_refl. reflexivity.
    + rewrite IH. destruct (str_eqb k q); cbn [negb]; [reflexivity|]. cbn [set_env]. rewrite E'. reflexivity.
Qed.
Lemma del_absent k e : get_env k e = None -> del_env k e = e.
Proof. unfold del_env. induction e as [|[q x] e IH]; cbn [get_env filter fst]; [reflexivity|]. destruct (str_eqb k q); [discriminate|]. cbn [negb]. intros H. f_equal. auto. Qed.
Lemma del_new k v e : get_env k e = None -> del_env k (set_env k v e) = e.
Proof.
  induction e as [|[q x] e IH]; cbn [get_env set_env].
  - intros _. unfold del_env. cbn [filter fst]. rewrite str_eqb_refl. reflexivity.
  - destruct (str_eqb k q) eqn:E; [discriminate|]. intros H. unfold del_env in *. cbn [filter fst]. rewrite E. cbn [negb]. f_equal. auto.
Qed.

Section Env.
Context {W : Type}.
Lemma restore_spec k v e (w : world W) : get_env k (env w) = Some v ->
  exists w', restore e k w = (w', Ok tt) /\ ctx w' = ctx w /\ files w' = files w /\
    env w' = match get_env k e with Some u => set_env k u (env w) | None => del_env k (env w) end.
Proof. intros G. unfold restore. rewrite G. destruct (get_env k e); eexists; (split; [reflexivity|]); cbn; auto. Qed.
Lemma environment_spec {B} (body : world W -> world W * result B) w :
  let w1 := mk_world (ctx w) (files w) (set_env LC_ALL UTF8 (set_env LANG UTF8 (env w))) in
  (forall w, env (fst (body w)) = env w) ->
  with_environment body w = (mk_world (ctx (fst (body w1))) (files (fst (body w1))) (env w), snd (body w1)).
Proof.
  intros w1 Q. unfold with_environment. fold w1. specialize (Q w1). destruct (body w1) as [w2 r]. cbn [fst snd] in *.
  assert (NL : LANG <> LC_ALL) by discriminate.
  destruct (restore_spec LANG UTF8 (env w) w2) as (w3 & -> & C3 & F3 & E3).
  { rewrite Q. unfold w1. cbn [env]. rewrite !get_set_env. rewrite str_eqb_refl. reflexivity. }
  assert (E3' : env w3 = set_env LC_ALL UTF8 (env w)).
  { rewrite E3, Q. unfold w1. cbn [env]. destruct (get_env LANG (env w)) as [v|] eqn:G.
    - rewrite set_comm by (auto; rewrite get_set_env, str_eqb_refl; discriminate). rewrite set_set, (set_get _ _ _ G). reflexivity.
    - rewrite del_set by exact NL. rewrite del_new by exact G. reflexivity. }
  destruct (restore_spec LC_ALL UTF8 (env w) w3) as (w4 & -> & C4 & F4 & E4).
  { rewrite E3', get_set_env, str_eqb_refl. reflexivity. }
  assert (E5 : env w4 = env w).
  { rewrite E4, E3'. destruct (get_env LC_ALL (env w)) as [v|] eqn:G; [rewrite set_set, (set_get _ _ _ G); reflexivity|apply del_new; exact G]. }
  rewrite <- E5, <- C3, <- C4, <- F3, <- F4. destruct w4; reflexivity.
Qed.
(** Whatever the block does, variables that were set are restored. *)
Lemma environment_values {B} (body : world W -> world W * result B) w u v :
  get_env LANG (env w) = Some u -> get_env LC_ALL (env w) = Some v ->
  let (w', r) := with_environment body w in
  let w2 := fst (body (mk_world (ctx w) (files w) (set_env LC_ALL UTF8 (set_env LANG UTF8 (env w))))) in
  get_env LANG (env w') = Some u /\ get_env LC_ALL (env w') = Some v /\
  (forall k, k <> LANG -> k <> LC_ALL -> get_env k (env w') = get_env k (env w2)) /\ files w' = files w2 /\ ctx w' = ctx w2.
Proof.
  intros Gu Gv. unfold with_environment, restore. destruct (body _) as [w2 r]. rewrite Gu, Gv. cbn [fst env files ctx].
  rewrite !get_set_env. rewrite str_eqb_refl. split; [reflexivity|]. rewrite str_eqb_refl. split; [reflexivity|]. split; [|auto].
  intros k N1 N2. rewrite !get_set_env, !str_eqb_neq by assumption. reflexivity.
Qed.
End Env.

(** * Whole parses *)
Section Parser.
Context {U : Unicode} {W A : Type}.
Context (stat_fault : world W -> str * str -> option exn) (write_outcome : world W -> str * str -> list N -> attempt) (unlink_fault : world W -> str * str -> option exn).
Context (order : list str -> list str).
Context (rpm_spec : bool -> str -> world W -> world W * result A) (spec_sources : A -> list str).
Context (temp_fault : world W -> option exn).
Context (set_context : list (str * option str) -> str -> W -> W * result unit).
Context (expand : str -> W -> W * result str).
Context (locate : str -> world W -> str -> result (option str)).
Context (S0 : sound_files stat_fault write_outcome unlink_fault) (O : set_order order) (Q : forall f c, quiet (rpm_spec f c)).
Notation get_rpm_spec := (get_rpm_spec rpm_spec temp_fault set_context).
Notation add_source := (add_source expand locate).
Notation add_sources := (add_sources expand locate).
Notation tags_sources := (tags_sources expand locate).
Notation collect_referenced := (collect_referenced expand locate).
Notation collect_included := (collect_included expand locate).
Notation collect_loaded := (collect_loaded expand locate).
Notation first_parse := (first_parse stat_fault write_outcome unlink_fault order rpm_spec spec_sources temp_fault set_context expand locate).
Notation do_parse := (do_parse stat_fault write_outcome unlink_fault order rpm_spec spec_sources temp_fault set_context expand locate).

Lemma get_quiet m d c f : quiet (get_rpm_spec m d c f).
Proof.
  intros w. unfold M_spec_parser.get_rpm_spec. destruct (set_context m d (ctx w)) as [x [[]|e]]; [|split; reflexivity].
  destruct (temp_fault (with_ctx x w)); [split; reflexivity|]. destruct (encodable c); [|split; reflexivity].
  assert (QE : forall w, env (fst (rpm_spec f c w)) = env w) by (intros w0; apply Q).
  pose proof (environment_spec (rpm_spec f c) (with_ctx x w) QE) as E. cbn zeta in E.
  match type of E with _ = (mk_world _ (files (fst (rpm_spec f c ?w1))) _, _) => pose proof (proj1 (Q f c w1)) as QF end. cbn [files] in QF.
  rewrite E. match goal with |- context [snd (rpm_spec f c ?w1)] => destruct (rpm_spec f c w1) as [w2 r] end. cbn [fst snd] in *.
  destruct r as [a|e]; [split; [exact QF|reflexivity]|]. destruct e; (split; [exact QF|reflexivity]).
Qed.
Lemma add_source_quiet d a acc : quiet (add_source d a acc).
Proof.
  intros w. unfold M_spec_parser.add_source. destruct (expand a (ctx w)) as [c [s|e]]; [|split; reflexivity].
  destruct (locate d (with_ctx c w) s) as [[n|]|e]; split; reflexivity.
Qed.
Lemma add_sources_quiet d args : forall acc, quiet (add_sources d args acc).
Proof.
  induction args as [|a args IH]; intros acc w; [split; reflexivity|]. cbn [M_spec_parser.add_sources]. pose proof (add_source_quiet d a acc w) as [F E].
  destruct (add_source d a acc w) as [w1 [acc1|e]]; [|split; [exact F|exact E]]. destruct (IH acc1 w1) as [F1 E1]. cbn [fst] in F, E. split; congruence.
Qed.
Lemma tags_sources_quiet d ts : forall acc, quiet (tags_sources d ts acc).
Proof.
  induction ts as [|t ts IH]; intros acc w; [split; reflexivity|]. cbn [M_spec_parser.tags_sources]. destruct (expand (t_value t) (ctx w)) as [c [s|e]]; [|split; reflexivity].
  destruct s; [|apply (IH acc (with_ctx c w))]. destruct (M_value.parse (t_value t)) as [nodes|e]; [|split; reflexivity].
  pose proof (add_sources_quiet d (shell_refs nodes) acc (with_ctx c w)) as [F E]. destruct (add_sources d (shell_refs nodes) acc (with_ctx c w)) as [w1 [acc1|e]]; [|split; [exact F|exact E]].
  destruct (IH acc1 w1) as [F1 E1]. cbn [fst with_ctx files env] in *. split; congruence.
Qed.
Lemma referenced_quiet d c : quiet (collect_referenced d c).
Proof. intros w. unfold M_spec_parser.collect_referenced. destruct (tags_parse _ _ _ _) as [[ts|e] x]; [|split; reflexivity]. apply (tags_sources_quiet d (ts_data ts) [] (with_ctx x w)). Qed.
Lemma included_quiet d c : quiet (collect_included d c).
Proof.
  intros w. unfold M_spec_parser.collect_included. destruct (include_args None (splitlines c)) as [args r]. pose proof (add_sources_quiet d args [] w) as [F E].
  destruct (add_sources d args [] w) as [w1 [acc|e]]; cbn [fst] in *; [destruct r|]; split; assumption.
Qed.
Lemma loaded_quiet d c : quiet (collect_loaded d c).
Proof. intros w. unfold M_spec_parser.collect_loaded. destruct (M_value.parse c); [apply add_sources_quiet|split; reflexivity]. Qed.

Lemma with_dummy_quiet {B} d sources non_empty (body : list (str * str) -> world W -> world W * result B) :
  (forall made, quiet (body made)) -> quiet (with_dummy_sources stat_fault write_outcome unlink_fault order d sources non_empty body).
Proof.
  intros QB w. destruct (with_dummy_spec stat_fault write_outcome unlink_fault order S0 d sources non_empty body w O (fun made w => proj1 (QB made w))) as (made & w1 & E1 & _ & -> & _).
  cbn [fst files env]. split; [reflexivity|]. rewrite (proj2 (QB made w1)). exact E1.
Qed.
Lemma first_quiet m d c f : quiet (first_parse m d c f).
Proof.
  intros w. unfold M_spec_parser.first_parse. pose proof (get_quiet m d c true w) as [F E]. destruct (get_rpm_spec m d c true w) as [w1 [spec|e]]; [split; [exact F|exact E]|].
  cbn [fst] in F, E. rewrite <- F, <- E. clear F E w. rename w1 into w.
  destruct e; try (split; reflexivity). destruct f; [|split; reflexivity]. cbn [negb].
  pose proof (included_quiet d c w) as [F E]. destruct (collect_included d c w) as [w1 [inc|e]]; [|split; [exact F|exact E]]. cbn [fst] in F, E. rewrite <- F, <- E. clear F E w. rename w1 into w.
  pose proof (loaded_quiet d c w) as [F E]. destruct (collect_loaded d c w) as [w1 [loa|e]]; [|split; [exact F|exact E]]. cbn [fst] in F, E. rewrite <- F, <- E. clear F E w. rename w1 into w.
  pose proof (referenced_quiet d c w) as [F E]. destruct (collect_referenced d c w) as [w1 [ne|e]]; [|split; [exact F|exact E]]. cbn [fst] in F, E. rewrite <- F, <- E. clear F E w. rename w1 into w.
  match goal with |- context [with_dummy_sources _ _ _ _ _ _ _ ?b w] => set (body := b) end.
  assert (QB : forall made, quiet (body made)).
  { intros made w0. unfold body. destruct made; [split; reflexivity|]. pose proof (get_quiet m d c true w0) as [F E]. destruct (get_rpm_spec m d c true w0) as [w1 [spec|e]]; split; [exact F|exact E|exact F|exact E]. }
  destruct (inc ++ loa) as [|s ss]; [destruct ne; [split; reflexivity|]|]; apply with_dummy_quiet; exact QB.
Qed.
Lemma parse_quiet m d c f : quiet (do_parse m d c f).
Proof.
  intros w. unfold M_spec_parser.do_parse. pose proof (first_quiet m d c f w) as [F E]. destruct (first_parse m d c f w) as [w1 [[[src ne] t]|e]]; [|split; [exact F|exact E]].
  cbn [fst] in F, E. rewrite <- F, <- E. apply with_dummy_quiet. intros made w0. pose proof (get_quiet m d c false w0) as [F0 E0].
  destruct (get_rpm_spec m d c false w0) as [w2 [spec|e]]; (split; [exact F0|exact E0]).
Qed.
(** A parse does not depend on the macro context before it. *)
Lemma parse_context m d c f w w' : (forall m d x y, set_context m d x = set_context m d y) -> files w = files w' -> env w = env w' -> do_parse m d c f w = do_parse m d c f w'.
Proof.
  intros I F E. unfold M_spec_parser.do_parse, M_spec_parser.first_parse.
  assert (G : get_rpm_spec m d c true w = get_rpm_spec m d c true w').
  { unfold M_spec_parser.get_rpm_spec, with_ctx. rewrite (I m d (ctx w) (ctx w')), F, E. reflexivity. }
  rewrite G. reflexivity.
Qed.
End Parser.
