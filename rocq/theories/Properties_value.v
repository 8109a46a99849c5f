(** Properties C26, C27, C46, C47: parsing of values.  [nodes_str] is [str()] of the
    nodes; [reads], [squeeze], [no_double], [nameless], [no_pct_literal] and [balanced]
    are in Spec_value.v. *)
From Coq Require Import Ascii String.
From Coq Require Import NArith ZArith List Bool.
From Verif Require Import PyStr M_value Spec_value P_value P_value2.
Import ListNotations.
Open Scope N_scope.

(** C26: the nodes describe the text, piece by piece. *)
Theorem C26_nodes_describe_text :
  forall (U : Unicode) (v : str) (ns : list node), parse v = Ok ns -> reads ns v.
Proof. exact @parse_reads. Qed.
Print Assumptions C26_nodes_describe_text.

(** C26: concatenation gives the text back, up to white space. *)
Theorem C26_lossless :
  forall (U : Unicode) (v : str) (ns : list node), parse v = Ok ns -> squeeze (nodes_str ns) = squeeze v.
Proof. exact @parse_lossless. Qed.
Print Assumptions C26_lossless.

(** C26: and exactly, if the text has no white space. *)
Theorem C26_lossless_exact :
  forall (U : Unicode) (v : str) (ns : list node), parse v = Ok ns ->
  forallb (fun c => negb (is_space c)) v = true -> nodes_str ns = v.
Proof. exact @parse_exact. Qed.
Print Assumptions C26_lossless_exact.

(** C26: parsing terminates with nodes or 'unterminated macro', unless the text
    contains a macro reference without a name. *)
Theorem C26_errors :
  forall (U : Unicode) (v : str) (e : exn), parse v = Err e ->
  e = UnterminatedMacroException \/ (e = ValueError /\ nameless v).
Proof. exact @parse_errors. Qed.
Print Assumptions C26_errors.

(** Finding: "%{}" makes the parser fail with ValueError. *)
Theorem C170_only_unterminated_error_refuted :
  forall U : Unicode, exists v e, parse v = Err e /\ e <> UnterminatedMacroException.
Proof. intros U. exists (lit "%{}"), ValueError. split; [reflexivity|discriminate]. Qed.
Print Assumptions C170_only_unterminated_error_refuted.

Example C26_example :
  parse (U:=unicode_none) (lit "%{name}-%{?rel:%{rel}%{?dist}.}%(echo 1)%[1+2]%{lua:print(1)}%%x") =
  Ok [EnclosedMacroSubstitution [] (lit "name") []; StringLiteral (lit "-");
      ConditionalMacroExpansion (lit "?") (lit "rel")
        [EnclosedMacroSubstitution [] (lit "rel") []; EnclosedMacroSubstitution (lit "?") (lit "dist") [];
         StringLiteral (lit ".")];
      ShellExpansion (lit "echo 1"); ExpressionExpansion (lit "1+2");
      BuiltinMacro (lit "lua") (lit "print(1)"); StringLiteral (lit "%%x")].
Proof. vm_compute. reflexivity. Qed.

(** C27: in a text without "%%", no percent sign ends up in a literal, at any depth. *)
Theorem C27_no_percent_in_literals :
  forall (U : Unicode) (v : str) (ns : list node), no_double v -> parse v = Ok ns -> Forall no_pct_literal ns.
Proof. exact @parse_no_pct. Qed.
Print Assumptions C27_no_percent_in_literals.

(** C27: a reference %name between two parsable texts is reported as that substitution. *)
Theorem C27_reference_found :
  forall (U : Unicode) (a nm b : str) (na nb : list node),
  nm <> [] -> forallb is_word nm = true ->
  (forall c b', b = c :: b' -> is_word c = false /\ c <> STAR /\ c <> HASH) ->
  no_double (a ++ PCT :: nm ++ b) -> parse a = Ok na -> parse b = Ok nb ->
  parse (a ++ PCT :: nm ++ b) = Ok (na ++ MacroSubstitution [] nm :: nb).
Proof. exact @parse_finds_reference. Qed.
Print Assumptions C27_reference_found.

(** C27: parsing is compositional at a percent sign. *)
Theorem C27_compositional :
  forall (U : Unicode) (a t : str) (na nt : list node),
  no_double (a ++ PCT :: t) -> parse a = Ok na -> parse (PCT :: t) = Ok nt ->
  parse (a ++ PCT :: t) = Ok (na ++ nt).
Proof. exact @parse_compose. Qed.
Print Assumptions C27_compositional.

(** Finding: after an escaped "%%" that follows another macro, references are missed. *)
Theorem C171_after_escaped_percent_refuted :
  forall U : Unicode, exists a nm na,
  parse (a ++ PCT :: nm) = Ok na /\ parse a <> Err UnterminatedMacroException /\ forallb is_word nm = true /\
  nm <> [] /\ ~ In (MacroSubstitution [] nm) na /\ forall x, a <> x ++ [PCT].
Proof.
  intros U. exists (lit "%a%%b"), (lit "c"), [MacroSubstitution [] (lit "a"); StringLiteral (lit "%%b%c")].
  repeat split; try reflexivity; try discriminate.
  - intros [Q|[Q|[]]]; discriminate.
  - intros x Q. change (lit "%a%%b") with (lit "%a%%" ++ lit "b") in Q.
    apply (f_equal (@rev N)) in Q. rewrite !rev_app_distr in Q. discriminate.
Qed.
Print Assumptions C171_after_escaped_percent_refuted.

Example C27_example :
  let U := unicode_none in
  parse (lit "x%{?a:1}") = Ok [StringLiteral (lit "x"); ConditionalMacroExpansion (lit "?") (lit "a") [StringLiteral (lit "1")]] /\
  parse (lit "-%b") = Ok [StringLiteral (lit "-"); MacroSubstitution [] (lit "b")] /\
  parse (lit "x%{?a:1}%name-%b") =
    Ok [StringLiteral (lit "x"); ConditionalMacroExpansion (lit "?") (lit "a") [StringLiteral (lit "1")];
        MacroSubstitution [] (lit "name"); StringLiteral (lit "-"); MacroSubstitution [] (lit "b")].
Proof. vm_compute. auto. Qed.

(** C46: balanced text has no open brackets, so a definition's continuation ends there. *)
Theorem C46_balanced_has_no_open_brackets :
  forall x : str, balanced false false x -> count_brackets x = (0%nat, 0%nat).
Proof. exact balanced_zero. Qed.
Print Assumptions C46_balanced_has_no_open_brackets.

(** C46: an unclosed %{ or %( is reported. *)
Theorem C46_open_construct_is_counted :
  forall x y z : str, balanced false false x -> balanced true false y -> balanced false true z ->
  count_brackets (x ++ PCT :: LBRACE :: y) = (1%nat, 0%nat) /\
  count_brackets (x ++ PCT :: LPAR :: z) = (0%nat, 1%nat).
Proof. exact balanced_open. Qed.
Print Assumptions C46_open_construct_is_counted.

Example C46_example : balanced false false (lit "a%{?b:{c}(}%%\}%(x)}").
Proof.
  cbn. apply B_char; try discriminate.
  apply (B_macro _ _ (lit "?b:{c}(")).
  { cbn. do 3 (apply B_char; try discriminate; try (split; discriminate)).
    apply (B_braces _ (lit "c")).
    - cbn. apply B_char; try discriminate; try (split; discriminate). constructor.
    - apply B_char; try discriminate; try (split; discriminate). constructor. }
  apply B_percent; try discriminate. apply B_escape.
  apply (B_shell _ _ (lit "x")).
  - cbn. apply B_char; try discriminate; try (split; discriminate). constructor.
  - apply B_char; try discriminate. constructor.
Qed.

(** C47: nothing but white space can be lost. *)
Theorem C47_split_lossless :
  forall (U : Unicode) (v body p s : str), split_conditional_macro_expansion v = Ok (body, p, s) ->
  squeeze (p ++ body ++ s) = squeeze v.
Proof. exact @split_cond_lossless. Qed.
Print Assumptions C47_split_lossless.

(** C47: the wrapper is empty, or the whole text is one conditional expansion. *)
Theorem C47_split_wrapper :
  forall (U : Unicode) (v body p s : str), split_conditional_macro_expansion v = Ok (body, p, s) ->
  (p = [] /\ s = [] /\ body = v) \/
  (exists pre name x, p = PCT :: LBRACE :: pre ++ name ++ [COLON] /\ s = [RBRACE] /\
    In QUESTION pre /\ ~ In COLON name /\ v = p ++ x ++ s /\ squeeze body = squeeze x).
Proof. exact @split_cond_wrapper. Qed.
Print Assumptions C47_split_wrapper.

(** C47: it only fails on a macro reference without a name. *)
Theorem C47_split_total :
  forall (U : Unicode) (v : str), (exists r, split_conditional_macro_expansion v = Ok r) \/
  (split_conditional_macro_expansion v = Err ValueError /\ nameless v).
Proof. exact @split_cond_total. Qed.
Print Assumptions C47_split_total.

Example C47_example :
  split_conditional_macro_expansion (U:=unicode_none) (lit "%{?with_x:Requires: %{name}-libs}") =
  Ok (lit "Requires: %{name}-libs", lit "%{?with_x:", lit "}").
Proof. vm_compute. reflexivity. Qed.
