(** Theorems about forced parses and the outcome of parses (C121 to C125).  Spec_spec_parser2.v specifies what is looked for in a spec file
    ([included], [refs_in], [loads_of], [tag_refs], [named]) and how RPM is called ([run_with]). *)
From Coq Require Import Ascii String.
From Coq Require Import NArith ZArith List Bool Lia.
From Verif Require Import PyStr M_constants M_value M_tags M_evr M_spec_parser Spec_value2 Spec_spec_parser Spec_spec_parser2 P_value4 P_spec_parser5 P_spec_parser6 P_spec_parser7.
Import ListNotations.
Open Scope N_scope.

(** * C121 *)
(** The files in the source directory that [%include] lines name are found, and no others, in order; lines may be continued. *)
Theorem C121_included : forall (W : Type) (expand : str -> W -> W * result str) (locate : str -> world W -> str -> result (option str)) d w value place,
  (forall s, expand s (ctx w) = (ctx w, Ok (value s))) -> (forall s, locate d w s = Ok (place s)) ->
  forall content args, included (splitlines content) args ->
  collect_included expand locate d content w = (w, Ok (named value place args)).
Proof. exact @included_named. Qed.
Print Assumptions C121_included.
Example C121_example :
  let content := lit "Name: x" ++ [LF] ++ lit " %include  a/\" ++ [LF] ++ lit "b\" ++ [LF] ++ lit "c" ++ [LF] ++ lit "%include /d" in
  included (splitlines content) [lit "a/bc"; lit "/d"] /\
  named (fun s => s) (fun s => if startswith s (lit "/") then None else Some s) [lit "a/bc"; lit "/d"] = [lit "a/bc"].
Proof.
  cbn zeta. split; [|vm_compute; reflexivity].
  change (included [lit "Name: x"; lit " %include  a/\"; lit "b\"; lit "c"; lit "%include /d"] [lit "a/bc"; lit "/d"]).
  apply included_other; [apply no_include; vm_compute; reflexivity|].
  apply (included_line (lit " %include  a/\") (lit "a/\") [lit "b\"; lit "c"] [lit "%include /d"]).
  - exists [SPC], [SPC; SPC]. repeat split; try (repeat constructor); try discriminate; [intros c t E; injection E as <- _; reflexivity|]. cbn. intuition discriminate.
  - apply (continued_more (lit " %include  a/")). apply (continued_more (lit "b")). apply continued_not. intros x E. destruct x as [|a [|b x]]; discriminate.
  - apply (included_line (lit "%include /d") (lit "/d") [] []); [| |apply included_nil].
    + exists [], [SPC]. repeat split; try (repeat constructor); try discriminate; [intros c t E; injection E as <- _; reflexivity|]. cbn. intuition discriminate.
    + apply continued_not. intros x E. change (lit "%include /d") with (lit "%include /" ++ lit "d") in E. apply app_inj_tail in E as [_ E]. discriminate.
Qed.

(** * C122 *)
(** The files in the source directory that [%{load:...}] names are found, and no others, in order, at any depth of conditional macros. *)
Theorem C122_loaded : forall (U : Unicode) (W : Type) (expand : str -> W -> W * result str) (locate : str -> world W -> str -> result (option str)) d w value place,
  (forall s, expand s (ctx w) = (ctx w, Ok (value s))) -> (forall s, locate d w s = Ok (place s)) ->
  forall ns, canonical At_start ns -> collect_loaded expand locate d (nodes_str ns) w = (w, Ok (named value place (flat_map loads_of ns))).
Proof. exact @loaded_named. Qed.
Print Assumptions C122_loaded.
Example C122_example :
  let ns := [StringLiteral (lit "Name: x"); ConditionalMacroExpansion (lit "?") (lit "y") [BuiltinMacro (lit "load") (lit "a{b}")]; BuiltinMacro (lit "lua") (lit "c"); BuiltinMacro (lit "load") (lit "d")] in
  @canonical unicode_none At_start ns /\ flat_map loads_of ns = [lit "a{b}"; lit "d"].
Proof.
  cbn zeta. split; [|vm_compute; reflexivity]. apply can_first; [discriminate| |].
  { repeat first [apply escaped_nil | apply escaped_char; [discriminate|]]. }
  apply can_conditional; [repeat (constructor; auto)|left; reflexivity|intros c n' E; injection E as <- _; split; discriminate|nope| | |].
  - cl. apply (closed_pair _ _ (lit "load:a{b}") []); [|constructor]. cl. apply (closed_pair _ _ (lit "b") []); cl.
  - apply (can_builtin _ [] (lit "load")); [constructor|intros c n' E; injection E as <- _; split; discriminate|nope| |constructor]. cl. apply (closed_pair _ _ (lit "b") []); cl.
  - apply (can_builtin _ [] (lit "lua")); [constructor|intros c n' E; injection E as <- _; split; discriminate|nope|cl|].
    apply (can_builtin _ [] (lit "load")); [constructor|intros c n' E; injection E as <- _; split; discriminate|nope|cl|constructor].
Qed.

(** * C123 *)
(** The references to sources in a text are found, from left to right... *)
Theorem C123_references : forall (U : Unicode) t rs, refs_in t rs -> find_refs 0 t = rs.
Proof. exact @refs_found. Qed.
Print Assumptions C123_references.
(** ... and every text has them. *)
Theorem C123_total : forall (U : Unicode) t, exists rs, refs_in t rs.
Proof. exact @refs_total. Qed.
Print Assumptions C123_total.
(** The sources that must not be empty are those in the source directory to which tags with an empty value refer in shell expansions. *)
Theorem C123_tags : forall (U : Unicode) (W : Type) (expand : str -> W -> W * result str) (locate : str -> world W -> str -> result (option str)) d w value place,
  (forall s, expand s (ctx w) = (ctx w, Ok (value s))) -> (forall s, locate d w s = Ok (place s)) ->
  forall content ts x rs,
  tags_parse (fun _ c s => let (c, r) := expand s c in (r, c)) TAG_NAMES (ctx w) (splitlines content) = (Ok ts, x) -> x = ctx w ->
  tag_refs value (ts_data ts) rs -> collect_referenced expand locate d content w = (w, Ok (named value place rs)).
Proof. exact @referenced_named. Qed.
Print Assumptions C123_tags.
Example C123_example :
  @refs_in unicode_none (lit "cat %SOURCE1 %{?S:1} x%{S:12}%{?SOURCE0}%") [lit "%SOURCE1"; lit "%{S:12}"; lit "%{?SOURCE0}"] /\
  let value s := if is_substring (lit "%(") s then [] else s in
  let expand s (c : unit) := (c, Ok (value s)) in
  exists ts, @tags_parse unicode_none _ (fun _ c s => let (c, r) := expand s c in (r, c)) TAG_NAMES tt (splitlines (lit "Name: %SOURCE2" ++ [LF] ++ lit "Version: %{?x:%(cat %{SOURCE1} %SOURCE0)}")) = (Ok ts, tt) /\
  @tag_refs unicode_none value (ts_data ts) [lit "%{SOURCE1}"; lit "%SOURCE0"].
Proof.
  split; [exact (@refs_all unicode_none (lit "cat %SOURCE1 %{?S:1} x%{S:12}%{?SOURCE0}%"))|]. cbn zeta. eexists. split; [vm_compute; reflexivity|].
  cbn [ts_data]. apply tag_refs_value; [vm_compute; discriminate|]. apply (@tag_refs_empty unicode_none _ _ _ [ConditionalMacroExpansion (lit "?") (lit "x") [ShellExpansion (lit "cat %{SOURCE1} %SOURCE0")]] [[lit "%{SOURCE1}"; lit "%SOURCE0"]] []); [vm_compute; reflexivity|vm_compute; reflexivity| |apply tag_refs_nil].
  constructor; [|constructor]. exact (@refs_all unicode_none (lit "cat %{SOURCE1} %SOURCE0")).
Qed.

(** * C124 *)
(** A parse that is not skipped is one of the contents with the macros of the parser and, after them, the extra macros.  A successful one sets the
    result; one that RPM rejects leaves no result and is not remembered.  Other parsers stay as they are. *)
Theorem C124_outcome : forall (U : Unicode) (W A : Type) stat_fault write_outcome unlink_fault order (rpm_spec : bool -> str -> world W -> world W * result A)
    spec_sources temp_fault set_context expand locate i content extra s p old g r,
  get_parser i (p_parsers s) = Some p -> p_last s = None -> p_spec p = Some old ->
  do_parse stat_fault write_outcome unlink_fault order rpm_spec spec_sources temp_fault set_context expand locate
    (p_macros p ++ match extra with Some x => x | None => [] end) (p_sourcedir p) content (p_force p) (p_world s) = (g, r) ->
  let run := run_of stat_fault write_outcome unlink_fault order rpm_spec spec_sources temp_fault set_context expand locate in
  let s' := fst (parse run i content extra s) in
  (forall spec t, r = Ok (spec, t) -> snd (parse run i content extra s) = Some (Ok tt) /\
     get_parser i (p_parsers s') = Some (mk_parser (p_sourcedir p) (p_macros p) (p_force p) (Some (Some spec)) t)) /\
  (r = Err RPMException -> snd (parse run i content extra s) = Some (Err RPMException) /\ p_last s' = None /\
     get_parser i (p_parsers s') = Some (mk_parser (p_sourcedir p) (p_macros p) (p_force p) (Some None) false)) /\
  p_world s' = g /\ (forall j, j <> i -> get_parser j (p_parsers s') = get_parser j (p_parsers s)).
Proof. exact @run_parse. Qed.
Print Assumptions C124_outcome.
Example C124_example :
  let do m := @do_parse unicode_none _ _ no_stat all_written no_stat in_order toy_spec (fun x => x) no_temp toy_context toy_expand toy_locate m dir (lit "a") false start in
  do ([(lit "m", None)] ++ [(lit "n", None)]) = (mk_world [dir; lit "m"; lit "n"] (files start) (env start), Ok ([url], false)).
Proof. vm_compute. reflexivity. Qed.

(** * C125 *)
(** The result of a parse is what RPM makes of the contents, in full, when there are dummy files for the sources of a first result.
    That comes from a parse with no dummy files, or, in a tainted parse, with dummy files for the sources that were found in the contents. *)
Theorem C125_result : forall (U : Unicode) (W A : Type) stat_fault write_outcome unlink_fault order (rpm_spec : bool -> str -> world W -> world W * result A)
    spec_sources temp_fault set_context expand locate,
  sound_files stat_fault write_outcome unlink_fault -> writable write_outcome -> set_order order -> (forall f c, quiet (rpm_spec f c)) ->
  forall m d c f w w' spec t,
  do_parse stat_fault write_outcome unlink_fault order rpm_spec spec_sources temp_fault set_context expand locate m d c f w = (w', Ok (spec, t)) ->
  exists src0 ne0 src first,
    run_with rpm_spec set_context m d c true src0 ne0 w first /\ run_with rpm_spec set_context m d c false src ne0 w spec /\
    src = filter (fun s => negb (existsb (str_eqb s) ne0)) (spec_sources first) /\ (t = false -> src0 = [] /\ ne0 = []) /\
    (t = true -> exists w0 w1 w2 w3 inc loa, get_rpm_spec rpm_spec temp_fault set_context m d c true w = (w0, Err RPMException) /\ collect_included expand locate d c w0 = (w1, Ok inc) /\
       collect_loaded expand locate d c w1 = (w2, Ok loa) /\ collect_referenced expand locate d c w2 = (w3, Ok ne0) /\ src0 = inc ++ loa).
Proof. exact @parse_result. Qed.
Print Assumptions C125_result.
Example C125_example :
  let content := lit "Version: %(cat %{SOURCE0})" in
  let parse := @do_parse unicode_none _ _ no_stat all_written no_stat in_order toy_version (fun _ => [lit "y"]) no_temp toy_context toy_expand toy_locate [] dir content true start in
  snd parse = Ok ([url], true) /\ (forall f c, quiet (toy_version f c)).
Proof. split; [vm_compute; reflexivity|]. intros f c w. split; reflexivity. Qed.
