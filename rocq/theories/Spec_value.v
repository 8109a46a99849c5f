(** Independent specification of parsed values and of bracket balance. *)
From Coq Require Import NArith List Bool.
From Verif Require Import PyStr M_value.
Import ListNotations.
Open Scope N_scope.

(** [reads ns t]: [t] is a text of which [ns] is the list of nodes, read left to right.
    Only the white space of [%{name args}] is not determined by the nodes. *)
Inductive reads : list node -> str -> Prop :=
| R_nil : reads [] []
| R_literal v ns t : v <> [] -> reads ns t -> reads (StringLiteral v :: ns) (v ++ t)
| R_shell b ns t : reads ns t ->
    reads (ShellExpansion b :: ns) (PCT :: LPAR :: b ++ RPAR :: t)
| R_expr b ns t : reads ns t ->
    reads (ExpressionExpansion b :: ns) (PCT :: LBRACK :: b ++ RBRACK :: t)
| R_sub p n ns t : reads ns t -> reads (MacroSubstitution p n :: ns) (PCT :: p ++ n ++ t)
| R_enclosed p n args x ns t : split_ws x = n :: args -> reads ns t ->
    reads (EnclosedMacroSubstitution p n args :: ns) (PCT :: LBRACE :: p ++ x ++ RBRACE :: t)
| R_conditional p n body x ns t : In QUESTION p -> ~ In COLON n -> reads body x -> reads ns t ->
    reads (ConditionalMacroExpansion p n body :: ns) (PCT :: LBRACE :: p ++ n ++ COLON :: x ++ RBRACE :: t)
| R_builtin n b ns t : ~ In COLON n -> reads ns t ->
    reads (BuiltinMacro n b :: ns) (PCT :: LBRACE :: n ++ COLON :: b ++ RBRACE :: t).

(** Text without its white space. *)
Definition squeeze (s : str) : str := filter (fun c => negb (is_space c)) s.

(** No escaped percent sign. *)
Definition no_double (v : str) : Prop := forall a b, v <> a ++ PCT :: PCT :: b.

(** [%{}], [%{?}], [%{ }]: a macro reference without a name. *)
Definition nameless (v : str) : Prop :=
  exists a p w b, v = a ++ PCT :: LBRACE :: p ++ w ++ RBRACE :: b /\
    Forall (fun c => c = QUESTION \/ c = BANG) p /\ Forall (fun c => is_space c = true) w.

(** No literal, at any depth, contains a percent sign. *)
Inductive no_pct_literal : node -> Prop :=
| NPL_literal v : ~ In PCT v -> no_pct_literal (StringLiteral v)
| NPL_shell b : no_pct_literal (ShellExpansion b)
| NPL_expr b : no_pct_literal (ExpressionExpansion b)
| NPL_sub p n : no_pct_literal (MacroSubstitution p n)
| NPL_enclosed p n args : no_pct_literal (EnclosedMacroSubstitution p n args)
| NPL_builtin n b : no_pct_literal (BuiltinMacro n b)
| NPL_conditional p n body : Forall no_pct_literal body -> no_pct_literal (ConditionalMacroExpansion p n body).

(** Bracket-balanced text.  [ib]/[ip]: whether we are inside %{...} / inside %(...).
    Plain brackets only count inside a macro construct of the same kind. *)
Inductive balanced : bool -> bool -> str -> Prop :=
| B_nil ib ip : balanced ib ip []
| B_char ib ip c t : c <> BSLASH -> c <> PCT ->
    (ib = true -> c <> LBRACE /\ c <> RBRACE) -> (ip = true -> c <> LPAR /\ c <> RPAR) ->
    balanced ib ip t -> balanced ib ip (c :: t)
| B_escape ib ip c t : balanced ib ip t -> balanced ib ip (BSLASH :: c :: t)
| B_percent ib ip c t : c <> LBRACE -> c <> LPAR -> balanced ib ip t -> balanced ib ip (PCT :: c :: t)
| B_macro ib ip x t : balanced true ip x -> balanced ib ip t ->
    balanced ib ip (PCT :: LBRACE :: x ++ RBRACE :: t)
| B_shell ib ip x t : balanced ib true x -> balanced ib ip t ->
    balanced ib ip (PCT :: LPAR :: x ++ RPAR :: t)
| B_braces ip x t : balanced true ip x -> balanced true ip t ->
    balanced true ip (LBRACE :: x ++ RBRACE :: t)
| B_parens ib x t : balanced ib true x -> balanced ib true t ->
    balanced ib true (LPAR :: x ++ RPAR :: t).
