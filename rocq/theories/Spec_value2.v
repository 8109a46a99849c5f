(** Nodes that are the reading of the text they are printed to. *)
From Coq Require Import NArith List Bool.
From Verif Require Import PyStr M_value.
Import ListNotations.
Open Scope N_scope.

(** Text in which the brackets [o] and [c] are balanced. *)
Inductive closed (o c : char) : str -> Prop :=
| closed_nil : closed o c []
| closed_char d t : d <> o -> d <> c -> closed o c t -> closed o c (d :: t)
| closed_pair x t : closed o c x -> closed o c t -> closed o c (o :: x ++ c :: t).
(** Text in which percent signs are doubled. *)
Inductive escaped : str -> Prop :=
| escaped_nil : escaped []
| escaped_char c t : c <> PCT -> escaped t -> escaped (c :: t)
| escaped_percent t : escaped t -> escaped (PCT :: PCT :: t).
(** Question and exclamation marks *)
Definition conds (p : str) : Prop := Forall (fun c => c = QUESTION \/ c = BANG) p.
Definition no_cond (n : str) : Prop := forall c n', n = c :: n' -> c <> QUESTION /\ c <> BANG.
(** Words between white space *)
Definition solid (w : str) : Prop := w <> [] /\ Forall (fun c => is_space c = false) w.

Section Uni.
Context {U : Unicode}.
(** Text that does not continue the name of a macro *)
Definition stops (t : str) : Prop := forall c t', t = c :: t' -> is_word c = false /\ c <> STAR /\ c <> HASH.
(** Where a node is: only a literal at the start of a text may have escaped percent signs, and literals do not follow each other. *)
Inductive place := At_start | After_macro | After_literal.
Inductive canonical : place -> list node -> Prop :=
| can_nil k : canonical k []
| can_first v ns : v <> [] -> escaped v -> canonical After_literal ns -> canonical At_start (StringLiteral v :: ns)
| can_literal v ns : v <> [] -> ~ In PCT v -> canonical After_literal ns -> canonical After_macro (StringLiteral v :: ns)
| can_shell k b ns : closed LPAR RPAR b -> canonical After_macro ns -> canonical k (ShellExpansion b :: ns)
| can_expression k b ns : closed LBRACK RBRACK b -> canonical After_macro ns -> canonical k (ExpressionExpansion b :: ns)
| can_substitution k p dash w star ns : conds p -> dash = [] \/ dash = [DASH] -> Forall (fun c => is_word c = true) w ->
    star = [] /\ stops (nodes_str ns) \/ star = [STAR] \/ star = [HASH] -> dash ++ w ++ star <> [] ->
    canonical After_macro ns -> canonical k (MacroSubstitution p (dash ++ w ++ star) :: ns)
| can_enclosed k p n args ns : conds p -> no_cond n -> Forall solid (n :: args) -> ~ In COLON (join [SPC] (n :: args)) ->
    closed LBRACE RBRACE (join [SPC] (n :: args)) -> canonical After_macro ns -> canonical k (EnclosedMacroSubstitution p n args :: ns)
| can_conditional k p n body ns : conds p -> In QUESTION p -> no_cond n -> ~ In COLON n -> closed LBRACE RBRACE (n ++ COLON :: nodes_str body) ->
    canonical At_start body -> canonical After_macro ns -> canonical k (ConditionalMacroExpansion p n body :: ns)
| can_builtin k p n b ns : Forall (fun c => c = BANG) p -> no_cond n -> ~ In COLON n -> closed LBRACE RBRACE (n ++ COLON :: b) ->
    canonical After_macro ns -> canonical k (BuiltinMacro (p ++ n) b :: ns).
End Uni.
