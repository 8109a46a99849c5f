(** The files that are named in a spec file, and the outcome of a parse. *)
From Coq Require Import Ascii String.
From Coq Require Import NArith ZArith List Bool Lia.
From Verif Require Import PyStr PyStrFacts M_constants M_value M_tags M_evr M_spec_parser Spec_value2 Spec_spec_parser Spec_spec_parser2 P_value3 P_spec_parser P_spec_parser2 P_spec_parser3 P_spec_parser4 P_spec_parser6.
Import ListNotations.
Open Scope nat_scope.

(** * Nodes *)
Fixpoint size (n : node) : nat := match n with ConditionalMacroExpansion _ _ b => S (list_sum (map size b)) | _ => 1 end.
Lemma flat_flat {S T R} (f : S -> list T) (g : T -> list R) l : flat_map g (flat_map f l) = flat_map (fun x => flat_map g (f x)) l.
Proof. induction l as [|x l IH]; [reflexivity|]. cbn [flat_map]. rewrite flat_map_app, IH. reflexivity. Qed.
Lemma flatten_fold {T} (f : node -> list T) (g : node -> list T) :
  (forall p n b, g (ConditionalMacroExpansion p n b) = flat_map g b) -> (forall n, (forall p k b, n <> ConditionalMacroExpansion p k b) -> g n = f n) ->
  forall ns, flat_map f (flatten ns) = flat_map g ns.
Proof.
  intros G1 G2. assert (One : forall k n, size n <= k -> flat_map f (flatten_node n) = g n).
  { induction k as [|k IH]; intros n L; [destruct n; cbn in L; lia|].
    destruct n as [v|b|b|p m|p m a|p m b|m b]; try (cbn [flatten_node flat_map]; rewrite app_nil_r; symmetry; apply G2; discriminate).
    cbn [flatten_node]. rewrite G1, flat_flat. cbn [size] in L. assert (Lb : list_sum (map size b) <= k) by lia. clear L. induction b as [|x b IHb]; [reflexivity|].
    cbn [map list_sum fold_right] in Lb. change (fold_right Nat.add 0 (map size b)) with (list_sum (map size b)) in Lb. cbn [flat_map]. rewrite IH by lia. rewrite IHb by lia. reflexivity. }
  intros ns. unfold flatten. rewrite flat_flat. apply flat_map_ext. intros n. apply (One (size n)). lia.
Qed.
Lemma flatten_loads ns : flat_map (fun n => match n with BuiltinMacro name b => if str_eqb name (lit "load") then [b] else [] | _ => [] end) (flatten ns) = flat_map loads_of ns.
Proof.
  apply flatten_fold; [reflexivity|]. intros n N. destruct n as [v|b|b|p m|p m a|p m b|m b]; try reflexivity; [exfalso; apply (N p m b); reflexivity|].
  cbn [loads_of]. destruct (list_eq_dec N.eq_dec m (lit "load")) as [->|Ne]; [rewrite str_eqb_refl; reflexivity|rewrite (str_eqb_neq _ _ Ne); reflexivity].
Qed.
Lemma flatten_shells {T} (h : str -> list T) ns : flat_map (fun n => match n with ShellExpansion b => h b | _ => [] end) (flatten ns) = flat_map h (flat_map shells_of ns).
Proof.
  rewrite flat_flat. apply flatten_fold.
  - intros p n b. cbn [shells_of]. apply flat_flat.
  - intros n N. destruct n as [v|b|b|p m|p m a|p m b|m b]; try reflexivity; [cbn; rewrite app_nil_r; reflexivity|exfalso; apply (N p m b); reflexivity].
Qed.

Section Names.
Context {U : Unicode} {W : Type}.
Context (expand : str -> W -> W * result str) (locate : str -> world W -> str -> result (option str)).
Context (d : str) (w : world W) (value : str -> str) (place : str -> option str).
Context (E : forall s, expand s (ctx w) = (ctx w, Ok (value s))) (L : forall s, locate d w s = Ok (place s)).
Lemma with_same : with_ctx (ctx w) w = w.
Proof. destruct w; reflexivity. Qed.
Lemma add_named args : forall acc, add_sources expand locate d args acc w = (w, Ok (acc ++ named value place args)).
Proof.
  induction args as [|a args IH]; intros acc; cbn [add_sources]; [unfold named; cbn; rewrite app_nil_r; reflexivity|].
  unfold add_source. rewrite E, with_same, L. unfold named. cbn [flat_map]. fold (named value place args). destruct (place (value a)) as [n|]; rewrite IH; [rewrite <- app_assoc|]; reflexivity.
Qed.
Lemma included_named content args : included (splitlines content) args -> collect_included expand locate d content w = (w, Ok (named value place args)).
Proof. intros I. unfold collect_included. rewrite (included_args _ _ I (splitlines_no_lf content)), add_named. reflexivity. Qed.
Lemma loaded_named ns : canonical At_start ns -> collect_loaded expand locate d (nodes_str ns) w = (w, Ok (named value place (flat_map loads_of ns))).
Proof. intros C. unfold collect_loaded. rewrite (parse_printed ns C), flatten_loads, add_named. reflexivity. Qed.
Lemma named_app a b : named value place (a ++ b) = named value place a ++ named value place b.
Proof. apply flat_map_app. Qed.
Lemma shell_refs_found nodes found : Forall2 refs_in (flat_map shells_of nodes) found -> shell_refs nodes = concat found.
Proof.
  intros F. unfold shell_refs. rewrite (flatten_shells (find_refs 0)). induction F as [|b rs bs fs R F IH]; [reflexivity|]. cbn [flat_map concat]. rewrite (refs_found _ _ R), IH. reflexivity.
Qed.
Lemma tags_named ts rs : tag_refs value ts rs -> forall acc, tags_sources expand locate d ts acc w = (w, Ok (acc ++ named value place rs)).
Proof.
  induction 1 as [|t ts rs N R IH|t ts nodes found rs V P F R IH]; intros acc; cbn [tags_sources].
  - unfold named. cbn. rewrite app_nil_r. reflexivity.
  - rewrite E. destruct (value (t_value t)); [contradiction|]. rewrite with_same. apply IH.
  - rewrite E, V, with_same, P, (shell_refs_found _ _ F), add_named, IH, named_app, app_assoc. reflexivity.
Qed.
Lemma referenced_named content ts x rs : tags_parse (fun _ c s => let (c, r) := expand s c in (r, c)) TAG_NAMES (ctx w) (splitlines content) = (Ok ts, x) -> x = ctx w ->
  tag_refs value (ts_data ts) rs -> collect_referenced expand locate d content w = (w, Ok (named value place rs)).
Proof. intros T -> R. unfold collect_referenced. rewrite T, with_same. apply (tags_named _ _ R []). Qed.
End Names.

(** * Outcomes *)
Section Cache.
Context {G A : Type} (run : key -> G -> G * option (result (A * bool))).
Lemma new_parse i content extra s p old g r : get_parser i (p_parsers s) = Some p -> p_last s = None -> p_spec p = Some old ->
  run (mk_key i (p_sourcedir p) (p_macros p) (p_force p) content extra) (p_world s) = (g, Some r) ->
  (forall spec t, r = Ok (spec, t) -> snd (parse run i content extra s) = Some (Ok tt) /\
     get_parser i (p_parsers (fst (parse run i content extra s))) = Some (mk_parser (p_sourcedir p) (p_macros p) (p_force p) (Some (Some spec)) t)) /\
  (r = Err RPMException -> snd (parse run i content extra s) = Some (Err RPMException) /\ p_last (fst (parse run i content extra s)) = None /\
     get_parser i (p_parsers (fst (parse run i content extra s))) = Some (mk_parser (p_sourcedir p) (p_macros p) (p_force p) (Some None) false)) /\
  p_world (fst (parse run i content extra s)) = g /\
  (forall j, j <> i -> get_parser j (p_parsers (fst (parse run i content extra s))) = get_parser j (p_parsers s)).
Proof.
  intros Gi Last Sp R. unfold parse. rewrite Gi, Last, Sp. unfold key_of. rewrite R.
  assert (Same : forall (q : parser A), get_parser i (set_parser i q (p_parsers s)) = Some q) by (intros q; rewrite get_set, Nat.eqb_refl, Gi; reflexivity).
  assert (Oth : forall (q : parser A) j, j <> i -> get_parser j (set_parser i q (p_parsers s)) = get_parser j (p_parsers s)) by (intros q j Ne; rewrite get_set; destruct (Nat.eqb_spec i j); [congruence|reflexivity]).
  destruct r as [[spec t]|e].
  - cbn [fst snd p_parsers p_world]. split; [|split; [discriminate|split; [reflexivity|apply Oth]]]. intros spec' t' X. injection X as <- <-. split; [reflexivity|]. rewrite Same. reflexivity.
  - split; [discriminate|]. destruct e; (cbn [fst snd p_parsers p_world p_last]; split; [try discriminate|split; [reflexivity|apply Oth]]).
    intros _. split; [reflexivity|]. split; [reflexivity|]. rewrite Same. reflexivity.
Qed.
End Cache.

Section Parser.
Context {U : Unicode} {W A : Type}.
Context (stat_fault : world W -> str * str -> option exn) (write_outcome : world W -> str * str -> list N -> attempt) (unlink_fault : world W -> str * str -> option exn).
Context (order : list str -> list str).
Context (rpm_spec : bool -> str -> world W -> world W * result A) (spec_sources : A -> list str).
Context (temp_fault : world W -> option exn).
Context (set_context : list (str * option str) -> str -> W -> W * result unit).
Context (expand : str -> W -> W * result str).
Context (locate : str -> world W -> str -> result (option str)).
Notation get_rpm_spec := (get_rpm_spec rpm_spec temp_fault set_context).
Notation first_parse := (first_parse stat_fault write_outcome unlink_fault order rpm_spec spec_sources temp_fault set_context expand locate).
Notation do_parse := (do_parse stat_fault write_outcome unlink_fault order rpm_spec spec_sources temp_fault set_context expand locate).
Notation run_of := (run_of stat_fault write_outcome unlink_fault order rpm_spec spec_sources temp_fault set_context expand locate).
Lemma run_parse i content extra s p old g r : get_parser i (p_parsers s) = Some p -> p_last s = None -> p_spec p = Some old ->
  do_parse (p_macros p ++ match extra with Some x => x | None => [] end) (p_sourcedir p) content (p_force p) (p_world s) = (g, r) ->
  let s' := fst (parse run_of i content extra s) in
  (forall spec t, r = Ok (spec, t) -> snd (parse run_of i content extra s) = Some (Ok tt) /\
     get_parser i (p_parsers s') = Some (mk_parser (p_sourcedir p) (p_macros p) (p_force p) (Some (Some spec)) t)) /\
  (r = Err RPMException -> snd (parse run_of i content extra s) = Some (Err RPMException) /\ p_last s' = None /\
     get_parser i (p_parsers s') = Some (mk_parser (p_sourcedir p) (p_macros p) (p_force p) (Some None) false)) /\
  p_world s' = g /\ (forall j, j <> i -> get_parser j (p_parsers s') = get_parser j (p_parsers s)).
Proof. intros Gi Last Sp D. apply (new_parse run_of i content extra s p old g r Gi Last Sp). unfold M_spec_parser.run_of. cbn [k_macros k_extra k_sourcedir k_content k_force]. rewrite D. reflexivity. Qed.

(** What RPM parses, and in which world *)
Context (S0 : sound_files stat_fault write_outcome unlink_fault) (Wr : writable write_outcome) (O : set_order order) (Q : forall f c, quiet (rpm_spec f c)).
Lemma get_ok m d c f w w' spec : get_rpm_spec m d c f w = (w', Ok spec) -> exists w1, rpm_spec f c w1 = (fst (rpm_spec f c w1), Ok spec) /\ files w1 = files w /\ set_context m d (ctx w) = (ctx w1, Ok tt) /\
  (forall k, get_env k (env w1) = if str_eqb k (lit "LC_ALL") then Some (lit "C.UTF-8") else if str_eqb k (lit "LANG") then Some (lit "C.UTF-8") else get_env k (env w)).
Proof.
  intros X. unfold M_spec_parser.get_rpm_spec in X. destruct (set_context m d (ctx w)) as [x [[]|e]]; [|discriminate]. destruct (temp_fault _); [discriminate|]. destruct (encodable c); [|discriminate].
  rewrite (environment_spec (rpm_spec f c) (with_ctx x w) (fun w => proj2 (Q f c w))) in X. cbn [ctx files env with_ctx] in X.
  match type of X with context [snd (rpm_spec f c ?w1)] => exists w1 end. match goal with |- rpm_spec f c ?w1 = _ /\ _ => destruct (rpm_spec f c w1) as [w2 r] eqn:R end. cbn [snd fst] in X |- *.
  assert (r = Ok spec) by (destruct r as [a|e]; [congruence|destruct e; discriminate]). subst r. split; [reflexivity|]. split; [reflexivity|]. split; [reflexivity|].
  intros k. cbn [env]. rewrite !get_set_env. reflexivity.
Qed.
Lemma dummy_ok {B} d src ne (body : list (str * str) -> world W -> world W * result B) w w' b : (forall made, quiet (body made)) ->
  with_dummy_sources stat_fault write_outcome unlink_fault order d src ne body w = (w', Ok b) ->
  exists made w1, snd (body made w1) = Ok b /\ seen d src ne (files w) (files w1) /\ env w1 = env w /\ ctx w1 = ctx w.
Proof.
  intros QB X. destruct (with_dummy_spec stat_fault write_outcome unlink_fault order S0 d src ne body w O (fun made w => proj1 (QB made w))) as (made & w1 & E1 & C1 & Y & _ & _ & _ & Se & _).
  rewrite Y in X. exists made, w1. split; [congruence|]. split; [apply Se; exact Wr|]. auto.
Qed.
Notation run_with := (run_with rpm_spec set_context).
Lemma seen_nothing d fs : seen d [] [] fs fs.
Proof.
  intros e n. destruct (content_of (e, n) fs) eqn:C; [reflexivity|]. split; [|split; [|reflexivity]].
  - intros [_ [_ [s [[] _]]]].
  - intros [_ [_ [_ [s [[] _]]]]].
Qed.
Lemma filter_nothing (l : list str) : l = filter (fun s => negb (existsb (str_eqb s) [])) l.
Proof. induction l as [|x l IH]; [reflexivity|]. cbn [filter existsb negb]. f_equal. exact IH. Qed.
Lemma parse_result m d c f w w' spec t : do_parse m d c f w = (w', Ok (spec, t)) ->
  exists src0 ne0 src first,
    run_with m d c true src0 ne0 w first /\ run_with m d c false src ne0 w spec /\
    src = filter (fun s => negb (existsb (str_eqb s) ne0)) (spec_sources first) /\ (t = false -> src0 = [] /\ ne0 = []) /\
    (t = true -> exists w0 w1 w2 w3 inc loa, get_rpm_spec m d c true w = (w0, Err RPMException) /\ collect_included expand locate d c w0 = (w1, Ok inc) /\
       collect_loaded expand locate d c w1 = (w2, Ok loa) /\ collect_referenced expand locate d c w2 = (w3, Ok ne0) /\ src0 = inc ++ loa).
Proof.
  intros X. unfold M_spec_parser.do_parse in X.
  assert (Last : forall w1 src ne (b : bool), files w1 = files w -> env w1 = env w ->
    with_dummy_sources stat_fault write_outcome unlink_fault order d src ne (fun _ w => match get_rpm_spec m d c false w with (w, Ok spec) => (w, Ok (spec, b)) | (w, Err e) => (w, Err e) end) w1 = (w', Ok (spec, t)) ->
    t = b /\ run_with m d c false src ne w spec).
  { intros w1 src ne b F1 E1 Y. apply dummy_ok in Y as (made & w2 & B & Se & E2 & C2).
    - pose proof (get_ok m d c false w2) as Gk. destruct (get_rpm_spec m d c false w2) as [w3 [sp|e]]; [|discriminate]. cbn [snd] in B. injection B as <- <-. split; [reflexivity|].
      destruct (Gk w3 sp eq_refl) as (w4 & R & F4 & S4 & Ev). exists (ctx w2), w4. split; [exact R|]. split; [rewrite F4, <- F1; exact Se|]. split; [exact S4|]. intros k. rewrite Ev, E2, E1. reflexivity.
    - intros made w2. pose proof (get_quiet rpm_spec temp_fault set_context Q m d c false w2) as Y2. destruct (get_rpm_spec m d c false w2) as [w3 [sp|e]]; exact Y2. }
  pose proof (first_quiet stat_fault write_outcome unlink_fault order rpm_spec spec_sources temp_fault set_context expand locate S0 O Q m d c f w) as [F1 E1].
  destruct (first_parse m d c f w) as [w1 [[[src ne] b]|e]] eqn:P1; [|discriminate]. cbn [fst] in F1, E1. apply (Last w1 src ne b F1 E1) in X as [-> RL]. clear Last F1 E1.
  unfold M_spec_parser.first_parse in P1. destruct (get_rpm_spec m d c true w) as [w2 [sp|e]] eqn:Gt.
  - injection P1 as <- <- <- <-. exists [], [], (spec_sources sp), sp. split; [|split; [exact RL|split; [|split; [auto|discriminate]]]].
    + destruct (get_ok m d c true w w2 sp Gt) as (w4 & R & F4 & S4 & Ev). exists (ctx w), w4. split; [exact R|]. split; [rewrite F4; apply seen_nothing|]. split; [exact S4|exact Ev].
    + apply filter_nothing.
  - pose proof (get_quiet rpm_spec temp_fault set_context Q m d c true w) as [F2 E2]. rewrite Gt in F2, E2. cbn [fst] in F2, E2.
    destruct e; try discriminate. destruct f; [|discriminate]. cbn [negb] in P1.
    pose proof (included_quiet expand locate d c w2) as [F3 E3]. destruct (collect_included expand locate d c w2) as [w3 [inc|e]] eqn:G3; [|discriminate]. cbn [fst] in F3, E3.
    pose proof (loaded_quiet expand locate d c w3) as [F4 E4]. destruct (collect_loaded expand locate d c w3) as [w4 [loa|e]] eqn:G4; [|discriminate]. cbn [fst] in F4, E4.
    pose proof (referenced_quiet expand locate d c w4) as [F5 E5]. destruct (collect_referenced expand locate d c w4) as [w5 [rf|e]] eqn:G5; [|discriminate]. cbn [fst] in F5, E5.
    match type of P1 with context [with_dummy_sources _ _ _ _ _ _ _ ?b w5] => set (body := b) in P1 end.
    assert (P2 : with_dummy_sources stat_fault write_outcome unlink_fault order d (inc ++ loa) rf body w5 = (w1, Ok (src, ne, b))) by (destruct (inc ++ loa); [destruct rf; [discriminate|exact P1]|exact P1]). clear P1.
    apply dummy_ok in P2 as (made & w6 & B & Se & E6 & C6).
    + unfold body in B. destruct made; [discriminate|]. pose proof (get_ok m d c true w6) as Gk. destruct (get_rpm_spec m d c true w6) as [w7 [sp|e]]; [|discriminate]. cbn [snd] in B. injection B as <- <- <-.
      exists (inc ++ loa), rf, (filter (fun s => negb (existsb (str_eqb s) rf)) (spec_sources sp)), sp. split; [|split; [exact RL|split; [reflexivity|split; [discriminate|]]]].
      * destruct (Gk w7 sp eq_refl) as (w8 & R & F8 & S8 & Ev). exists (ctx w6), w8. split; [exact R|]. split; [rewrite F8, <- F2, <- F3, <- F4, <- F5; exact Se|]. split; [exact S8|]. intros k. rewrite Ev, E6, E5, E4, E3, E2. reflexivity.
      * intros _. exists w2, w3, w4, w5, inc, loa. auto.
    + intros made' w7. unfold body. destruct made'; [split; reflexivity|]. pose proof (get_quiet rpm_spec temp_fault set_context Q m d c true w7) as Y2. destruct (get_rpm_spec m d c true w7) as [w8 [sp|e]]; exact Y2.
Qed.
End Parser.
Lemma refs_all {U : Unicode} t : refs_in t (find_refs 0 t).
Proof. destruct (refs_total t) as (rs & R). rewrite (refs_found t rs R). exact R. Qed.
Lemma no_include l : Regex.re_match include_regex l = None -> forall arg, ~ include_line l arg.
Proof. intros E arg I. destruct (include_match l arg I) as (m & X & _). congruence. Qed.
