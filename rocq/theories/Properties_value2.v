(** Properties C118 - C120: what is printed is parsed to what it was printed from.  [canonical], [closed] and [no_cond] are in
    Spec_value2.v; [nodes_str] is [str()] of the nodes; [sample] is in P_value4.v. *)
From Coq Require Import Ascii String.
From Coq Require Import NArith ZArith List Bool.
From Verif Require Import PyStr M_value Spec_value2 P_value3 P_value4.
Import ListNotations.
Open Scope N_scope.

(** C118: parsing the text of nodes gives the nodes back. *)
Theorem C118_printed_nodes_parse :
  forall (U : Unicode) (ns : list node), canonical At_start ns -> parse (nodes_str ns) = Ok ns.
Proof. exact @parse_printed. Qed.
Print Assumptions C118_printed_nodes_parse.
Example C118_case : @canonical unicode_none At_start sample /\
  nodes_str sample = lit "1.%%%{?dist:%(f (a)b)-%-n*}%{?!x y z}%[1+[2]]%?v%{!load:{a}:b}x".
Proof. split; [exact sample_canonical|reflexivity]. Qed.

(** C119: a bracket after a backslash ends a macro. *)
Theorem C119_escaped_bracket_refuted :
  forall (U : Unicode) (n b rest : str), no_cond n -> ~ In COLON n -> closed LBRACE RBRACE (n ++ COLON :: b) -> rest <> [] -> ~ In PCT rest ->
  parse (PCT :: LBRACE :: n ++ COLON :: b ++ BSLASH :: RBRACE :: rest) = Ok [BuiltinMacro n (b ++ [BSLASH]); StringLiteral rest].
Proof. exact @escaped_bracket. Qed.
Print Assumptions C119_escaped_bracket_refuted.
Example C119_case : @parse unicode_none (lit "%{echo:a\}b}") = Ok [BuiltinMacro (lit "echo") (lit "a\"); StringLiteral (lit "b}")].
Proof. reflexivity. Qed.

(** C120: [%**] is not one macro. *)
Theorem C120_double_star_refuted :
  forall (U : Unicode) (rest : str), ~ In PCT rest -> parse (PCT :: STAR :: STAR :: rest) = Ok [MacroSubstitution [] [STAR]; StringLiteral (STAR :: rest)].
Proof. exact @double_star. Qed.
Print Assumptions C120_double_star_refuted.
Example C120_case : @parse unicode_none (lit "%** x") = Ok [MacroSubstitution [] (lit "*"); StringLiteral (lit "* x")].
Proof. reflexivity. Qed.
