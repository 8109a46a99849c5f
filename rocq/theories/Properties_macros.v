(** Theorems about macro dumps and the macro context (C48, C49, C101, C102, C103, C104).  Spec_macros.v specifies dumps
    ([dumpable], [dump_of], [looks_like_macro]) and what is assumed about RPM ([rpm], [no_self_literals], [faithful]);
    P_macros3.v has a small macro context for the examples. *)
From Coq Require Import Ascii String.
From Coq Require Import NArith ZArith List Bool.
From Verif Require Import PyStr M_macros Spec_macros P_macros P_macros2 P_macros3.
Import ListNotations.
Open Scope N_scope.

(** * C48 *)
(** A dump, after its headline and before its summary, is parsed to the macros it was printed from. *)
Theorem C48_dump_parsed : forall (U : Unicode) head ms summary, ~ looks_like_macro head -> (forall x, head <> x ++ [BSLASH]) ->
  Forall (fun x => Forall (fun c => is_space c = true /\ c <> LF) (fst x) /\ dumpable (snd x)) ms ->
  parse ((head ++ [LF]) :: dump_of ms ++ [summary]) = Ok (map snd ms).
Proof. exact @parse_dump. Qed.
Print Assumptions C48_dump_parsed.
(** No macro has another level than those. *)
Theorem C48_levels : forall (U : Unicode) dump ms, parse dump = Ok ms -> Forall (fun m => level (m_level m)) ms.
Proof. exact @parsed_levels. Qed.
Print Assumptions C48_levels.
Example C48_example : let ms := [(lit " ", mk_macro (lit "_topdir") None (lit "/b") (-13) true); (lit "  ", mk_macro (lit "f") (Some (lit "(x:)")) (lit "a" ++ [LF] ++ lit "b") 0 false)] in
  Forall (fun x => Forall (fun c => is_space c = true /\ c <> LF) (fst x) /\ @dumpable unicode_none (snd x)) ms /\
  dump_of ms = [lit " -13= _topdir" ++ [TAB] ++ lit "/b" ++ [LF]; lit "  0: f(x:)" ++ [TAB] ++ lit "a" ++ [LF]; lit "b" ++ [LF]].
Proof.
  cbn zeta. split; [|reflexivity]. constructor; [|constructor; [|constructor]]; (split; [repeat constructor; discriminate|constructor]).
  - cbn. auto.
  - split; [discriminate|repeat constructor].
  - exact I.
  - exists (lit "/b"), []. split; [reflexivity|]. split; [left; discriminate|]. split; [|constructor]. constructor; [|constructor]. split; [cbn; intuition discriminate|].
    intros x E. apply (f_equal (@rev N)) in E. rewrite rev_app_distr in E. discriminate.
  - cbn. auto 12.
  - split; [discriminate|repeat constructor].
  - exists (lit "x:"). repeat split; try discriminate; cbn; intuition discriminate.
  - exists (lit "a"), [lit "b"]. split; [reflexivity|]. split; [left; discriminate|]. split; [|constructor; [|constructor]].
    + constructor; [|constructor; [|constructor]]; (split; [cbn; intuition discriminate|]); intros x E; apply (f_equal (@rev N)) in E; rewrite rev_app_distr in E; discriminate.
    + intros (w & sg & n & u & nm & o & b & E & _). assert (X : In TAB (lit "b")).
      { rewrite E. do 5 (apply in_or_app; right). apply in_or_app. right. left. reflexivity. }
      cbn in X. intuition discriminate.
Qed.

(** * C49 *)
(** Removing a macro ends within one round more than it has definitions, leaves all other macros alone, takes away only
    the latest definitions, and either the macro now expands to its own name or there were more than 20 definitions. *)
Theorem C49_ends : forall (W D : Type) (defs : W -> str -> list D) of_body del add expand names n w,
  rpm defs of_body del add expand names -> names n ->
  exists w' r, (forall rounds, (length (defs w n) < rounds)%nat -> remove del expand rounds n w = Some (w', r)) /\
    (forall m, m <> n -> defs w' m = defs w m) /\ (exists j, defs w' n = skipn j (defs w n)) /\
    match r with
    | Ok _ => exists t, unescaped n t /\ snd (expand (lit "%{" ++ n ++ lit "}") w') = Ok (lit "%{" ++ t ++ lit "}")
    | Err e => e = MacroRemovalException /\ (20 < length (defs w n))%nat
    end.
Proof. exact @remove_spec. Qed.
Print Assumptions C49_ends.
(** When no defined macro expands to its own name, a macro is undefined after its removal. *)
Theorem C49_undefined : forall (W D : Type) (defs : W -> str -> list D) of_body del add expand names n w rounds w',
  rpm defs of_body del add expand names -> no_self_literals defs expand names -> names n ->
  remove del expand rounds n w = Some (w', Ok tt) -> defs w' n = [].
Proof. exact @remove_undefined. Qed.
Print Assumptions C49_undefined.
(** There is no error with up to 20 definitions. *)
Theorem C49_succeeds : forall (W D : Type) (defs : W -> str -> list D) of_body del add expand names n w,
  rpm defs of_body del add expand names -> names n -> (length (defs w n) <= 20)%nat ->
  exists w', forall rounds, (length (defs w n) < rounds)%nat -> remove del expand rounds n w = Some (w', Ok tt).
Proof. exact @remove_total. Qed.
Print Assumptions C49_succeeds.
(** Two definitions, the older one with an error. *)
Example C49_example : rpm toy_defs toy_body toy_del toy_add (toy_expand true) (fun _ => True) /\ no_self_literals toy_defs (toy_expand true) (fun _ => True) /\
  remove toy_del (toy_expand true) 3 (lit "x") [(lit "x", (0%Z, lit "1")); (lit "y", (0%Z, lit "1")); (lit "x", (0%Z, lit "%f"))] = Some ([(lit "y", (0%Z, lit "1"))], Ok tt).
Proof. split; [apply toy_rpm|]. split; [apply toy_no_self_literals|]. reflexivity. Qed.
(** 21 definitions with errors are too many. *)
Example C49_exception_example : exists w', remove toy_del (toy_expand true) 30 (lit "x") (repeat (lit "x", (0%Z, lit "%f")) 21) = Some (w', Err MacroRemovalException).
Proof. eexists. vm_compute. reflexivity. Qed.

(** * C101 *)
(** A macro whose second definition expands to its own name is left with it: the removal ends there without an error. *)
Theorem C101_removal_stops_early_refuted : forall (W D : Type) (defs : W -> str -> list D) of_body del add expand names n w d d' ds rounds,
  rpm defs of_body del add expand names -> defs w n = d :: d' :: ds -> self_literal expand n (del n w) -> (0 < rounds)%nat ->
  exists w', remove del expand rounds n w = Some (w', Ok tt) /\ defs w' n = d' :: ds.
Proof. exact @remove_stops_early. Qed.
Print Assumptions C101_removal_stops_early_refuted.
Example C101_example : rpm toy_defs toy_body toy_del toy_add (toy_expand false) (fun _ => True) /\
  self_literal (toy_expand false) (lit "x") (toy_del (lit "x") [(lit "x", (0%Z, lit "1")); (lit "x", (0%Z, lit "%{x}"))]).
Proof. split; [apply toy_rpm|]. apply self_literal_iff. reflexivity. Qed.

(** * C102 *)
(** A macro that always expands, to something other than its own name, as a built-in one does, is tried to be removed forever. *)
Theorem C102_removal_hangs_refuted : forall (W : Type) (del : str -> W -> W) expand n,
  (forall w, ~ self_literal expand n w /\ exists s, snd (expand (lit "%{" ++ n ++ lit "}") w) = Ok s) ->
  forall rounds w, remove del expand rounds n w = None.
Proof. exact @remove_hangs. Qed.
Print Assumptions C102_removal_hangs_refuted.
Example C102_example : forall w : toy, ~ self_literal (fun _ w => (w, Ok (lit "4.18"))) (lit "rpmversion") w /\
  exists s, snd ((fun (_ : str) (w : toy) => (w, Ok (lit "4.18"))) (lit "%{" ++ lit "rpmversion" ++ lit "}") w) = Ok s.
Proof. intros w. split; [intros (t & _ & E); discriminate|]. exists (lit "4.18"). reflexivity. Qed.

(** * C103 *)
(** A definition replaces all others of the macro and no others. *)
Theorem C103_definition_replaces : forall (W D : Type) (defs : W -> str -> list D) of_body del add expand names n b w,
  rpm defs of_body del add expand names -> no_self_literals defs expand names -> names n -> (length (defs w n) <= 20)%nat ->
  exists w', (forall rounds, (length (defs w n) < rounds)%nat -> define del add expand rounds n b w = Some (w', Ok tt)) /\
    defs w' n = [of_body b] /\ forall m, m <> n -> defs w' m = defs w m.
Proof. exact @define_total. Qed.
Print Assumptions C103_definition_replaces.
(** After a reinitialisation, exactly the configured macros up to the given level are defined. *)
Theorem C103_reinitialised : forall (W D : Type) (defs : W -> str -> list D) of_body del add expand (U : Unicode) reload dump level names threshold rounds w w',
  rpm defs of_body del add expand names -> no_self_literals defs expand names ->
  (forall n d ds, defs (reload w) n = d :: ds -> names n) -> faithful defs level (reload w) (dump (reload w)) ->
  reinit del expand reload dump rounds threshold w = Some (w', Ok tt) ->
  forall n, defs w' n = match defs (reload w) n with d :: ds => if (level d <=? threshold)%Z then d :: ds else [] | [] => [] end.
Proof. exact @reinit_inv. Qed.
Print Assumptions C103_reinitialised.
(** What a spec file is parsed with depends on the configuration and on the arguments only: each macro has the value given to it last, no
    definition if that value is [None], and otherwise those of the configuration. *)
Theorem C103_parse_context : forall (W D : Type) (defs : W -> str -> list D) of_body del add expand (U : Unicode) reload dump level names rounds macros extra sourcedir w w',
  rpm defs of_body del add expand names -> no_self_literals defs expand names ->
  (forall n d ds, defs (reload w) n = d :: ds -> names n) -> faithful defs level (reload w) (dump (reload w)) ->
  Forall (fun x => names (fst x)) (macros ++ extra) -> names (lit "_sourcedir") ->
  context del add expand reload dump rounds macros extra sourcedir w = Some (w', Ok tt) ->
  forall n, defs w' n = if str_eqb n (lit "_sourcedir") then [of_body sourcedir]
    else match last_entry n (macros ++ extra) with
         | Some (Some v) => [of_body v]
         | Some None => []
         | None => match defs (reload w) n with d :: ds => if (level d <=? -11)%Z then d :: ds else [] | [] => [] end
         end.
Proof. exact @context_inv. Qed.
Print Assumptions C103_parse_context.
Example C103_example : let reload := fun _ : toy => toy_config in
  rpm toy_defs toy_body toy_del toy_add (toy_expand true) (fun _ => True) /\ no_self_literals toy_defs (toy_expand true) (fun _ => True) /\
  (forall n d ds, toy_defs (reload []) n = d :: ds -> True) /\ @faithful _ _ toy_defs unicode_none fst (reload []) (toy_dump (reload [])) /\
  @context unicode_none _ toy_del toy_add (toy_expand true) reload toy_dump 5 [(lit "a", Some (lit "1")); (lit "_topdir", None)] [(lit "a", Some (lit "2"))] (lit "/s") [(lit "z", (0%Z, lit "3"))]
    = Some ([(lit "_sourcedir", ((-1)%Z, lit "/s")); (lit "a", ((-1)%Z, lit "2"))], Ok tt).
Proof.
  cbn zeta. split; [apply toy_rpm|]. split; [apply toy_no_self_literals|]. split; [auto|]. split; [apply toy_faithful|]. vm_compute. reflexivity.
Qed.

(** * C104 *)
(** RPM prints a macro without a body without a tab; it is not recognised and goes to the body of the macro before it. *)
Theorem C104_macro_without_body_refuted : forall (U : Unicode) head ms m blanks blanks' n u name summary, ~ looks_like_macro head -> (forall x, head <> x ++ [BSLASH]) ->
  Forall (fun x => Forall (fun c => is_space c = true /\ c <> LF) (fst x) /\ dumpable (snd x)) (ms ++ [(blanks, m)]) ->
  (forall x, name <> x ++ [BSLASH]) -> name <> [] -> ~ In TAB (blanks' ++ n ++ [u; SPC] ++ name) -> m_body m <> [] ->
  parse ((head ++ [LF]) :: dump_of (ms ++ [(blanks, m)]) ++ [blanks' ++ n ++ [u; SPC] ++ name ++ [LF]; summary]) =
  Ok (map snd ms ++ [mk_macro (m_name m) (m_options m) (m_body m ++ LF :: blanks' ++ n ++ [u; SPC] ++ name) (m_level m) (m_used m)]).
Proof. exact @empty_body_dump. Qed.
Print Assumptions C104_macro_without_body_refuted.
Example C104_example : @parse unicode_none [lit "====" ++ [LF]; lit "-13: x" ++ [TAB] ++ lit "1" ++ [LF]; lit "  0: nil" ++ [LF]; lit "===="] =
  Ok [mk_macro (lit "x") None (lit "1" ++ [LF] ++ lit "  0: nil") (-13) false].
Proof. vm_compute. reflexivity. Qed.
(** A line that ends with a backslash is joined with the next one, whose body so loses a line break. *)
Theorem C104_lines_joined : forall (U : Unicode) ls l l' ls' summary,
  parse (ls ++ (l ++ [BSLASH; LF]) :: l' :: ls' ++ [summary]) = parse (ls ++ (l ++ l') :: ls' ++ [summary]).
Proof. exact @joined_dump. Qed.
Print Assumptions C104_lines_joined.
(** A dump whose last line before the summary ends with a backslash cannot be parsed. *)
Theorem C104_last_line_continued_refuted : forall (U : Unicode) ls l summary,
  parse (ls ++ [l ++ [BSLASH; LF]; summary]) = Err IndexError \/ parse (ls ++ [l ++ [BSLASH; LF]; summary]) = Err ValueError.
Proof. exact @continued_dump. Qed.
Print Assumptions C104_last_line_continued_refuted.
