(** Instances of the theorem on printed nodes. *)
From Coq Require Import Ascii String.
From Coq Require Import NArith ZArith List Bool.
From Verif Require Import PyStr M_value Spec_value2 P_value3.
Import ListNotations.
Open Scope N_scope.

Definition sample : list node :=
  [StringLiteral (lit "1.%%");
   ConditionalMacroExpansion (lit "?") (lit "dist") [ShellExpansion (lit "f (a)b"); StringLiteral (lit "-"); MacroSubstitution [] (lit "-n*")];
   EnclosedMacroSubstitution (lit "?!") (lit "x") [lit "y"; lit "z"]; ExpressionExpansion (lit "1+[2]");
   MacroSubstitution (lit "?") (lit "v"); BuiltinMacro (lit "!load") (lit "{a}:b"); StringLiteral (lit "x")].
Ltac nope := let E := fresh in intros E; cbn in E; repeat (destruct E as [E|E]; [discriminate E|]); exact E.
Ltac cl := repeat first [apply closed_nil | apply closed_char; [discriminate|discriminate|]].
Lemma sample_canonical : @canonical unicode_none At_start sample.
Proof.
  apply can_first; [discriminate| |].
  { repeat first [apply escaped_nil | apply escaped_percent | apply escaped_char; [discriminate|]]. }
  apply can_conditional; [repeat constructor|left; reflexivity|intros c n' E; injection E as <- _; split; discriminate|nope| | |].
  { cl. }
  { apply can_shell; [|apply can_literal; [discriminate|nope|]].
    { cl. apply (closed_pair _ _ (lit "a") (lit "b")); cl. }
    apply (can_substitution _ [] [DASH] (lit "n") [STAR]); [constructor|now right|repeat constructor|right; now left|discriminate|constructor]. }
  apply can_enclosed; [repeat (constructor; auto)|intros c n' E; injection E as <- _; split; discriminate| |nope|cl|].
  { repeat constructor; discriminate. }
  apply can_expression. { cl. apply (closed_pair _ _ (lit "2") []); cl. }
  apply (can_substitution _ (lit "?") [] (lit "v") []); [repeat (constructor; auto)|now left|repeat constructor| |discriminate|].
  { left. split; [reflexivity|]. intros c t' E. injection E as <- _. repeat split; discriminate. }
  apply (can_builtin _ [BANG] (lit "load")); [repeat constructor|intros c n' E; injection E as <- _; split; discriminate|nope| |].
  { cl. change (closed LBRACE RBRACE (LBRACE :: lit "a" ++ RBRACE :: lit ":b")). apply closed_pair; cl. }
  apply can_literal; [discriminate|nope|constructor].
Qed.

Lemma closed_app o c x y : closed o c x -> closed o c y -> closed o c (x ++ y).
Proof. induction 1; intros Y; cbn [app]; [exact Y|apply closed_char; auto|]. rewrite <- app_assoc. cbn [app]. apply closed_pair; auto. Qed.
Lemma escaped_bracket {U : Unicode} n b rest :
  no_cond n -> ~ In COLON n -> closed LBRACE RBRACE (n ++ COLON :: b) -> rest <> [] -> ~ In PCT rest ->
  parse (PCT :: LBRACE :: n ++ COLON :: b ++ BSLASH :: RBRACE :: rest) = Ok [BuiltinMacro n (b ++ [BSLASH]); StringLiteral rest].
Proof.
  intros Nc Nn C Nr Np. pose proof (parse_printed [BuiltinMacro ([] ++ n) (b ++ [BSLASH]); StringLiteral rest]) as P.
  cbn [nodes_str flat_map app node_str] in P. unfold braced in P. rewrite app_nil_r in P. cbn [app] in P.
  rewrite <- !app_assoc in P. cbn [app] in P. rewrite <- !app_assoc in P. cbn [app] in P. apply P.
  apply (can_builtin _ [] n); [constructor|exact Nc|exact Nn| |].
  - replace (n ++ COLON :: b ++ [BSLASH]) with ((n ++ COLON :: b) ++ [BSLASH]) by (rewrite <- app_assoc; reflexivity).
    apply closed_app; [exact C|]. constructor; [discriminate|discriminate|constructor].
  - apply can_literal; [exact Nr|exact Np|constructor].
Qed.
Lemma double_star {U : Unicode} rest : ~ In PCT rest -> parse (PCT :: STAR :: STAR :: rest) = Ok [MacroSubstitution [] [STAR]; StringLiteral (STAR :: rest)].
Proof.
  intros Np. pose proof (parse_printed [MacroSubstitution [] ([] ++ [] ++ [STAR]); StringLiteral (STAR :: rest)]) as P.
  cbn [nodes_str flat_map app node_str] in P. rewrite app_nil_r in P. apply P.
  apply (can_substitution _ [] [] [] [STAR]); [constructor|now left|constructor|right; now left|discriminate|].
  apply can_literal; [discriminate| |constructor]. intros [E|I]; [discriminate|contradiction].
Qed.
