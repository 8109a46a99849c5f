(** Property C249: definitions of macros are switched on or off once.  Model: M_update.v. *)
From Coq Require Import Ascii String.
From Coq Require Import NArith ZArith List Bool Arith Lia.
From Verif Require Import PyStr PyStrFacts Regex M_value Spec_value2 M_update Spec_update P_value P_update2 P_update4 P_update5 P_update6 P_update7 P_update9.
Import ListNotations.
Open Scope nat_scope.

(** * C249 *)
(** A value that is a condition on a macro, which does not hold: if each definition of the macro in front of the value is to be switched already
    (or there is none), no definition and no tag is changed, and the value is the one requested.  [x] tells whether the macro is defined. *)
Theorem C249_switched_once : forall (U : Unicode) (W : Type) (expand : str -> W -> W * result str) isid ex (I : W -> Prop),
  (forall s w, I w -> exists w', expand s w = (w', ex s) /\ I w') ->
  forall fuel value requested pos es w w' es' r p name body x, I w ->
  M_value.parse value = Ok [ConditionalMacroExpansion p name body] ->
  ex (lit "%{?" ++ name ++ lit ":1}") = Ok x -> (negated p = true <-> x <> []) ->
  (forall e, In e es -> e_name e = name -> e_tag e = false -> e_position e < pos -> e_flip e = true) ->
  requested <> [] -> ~ In LF requested ->
  update expand isid fuel value requested pos es w = (w', Ok (es', r)) -> es' = es /\ r = requested.
Proof. exact @update_switched. Qed.
Print Assumptions C249_switched_once.
(** The definition of [maj] is to be switched off, and is not switched on again; a definition that is not to be switched yet is switched. *)
Example C249_witness :
  M_value.parse (U:=unicode_none) (lit "%{!?maj:x}") = Ok [ConditionalMacroExpansion (lit "!?") (lit "maj") [StringLiteral (lit "x")]] /\
  demo_ex (lit "%{?" ++ lit "maj" ++ lit ":1}") = Ok (lit "1") /\ negated (lit "!?") = true /\
  demo_update "%{!?maj:x}" "y" 1 [flip (macro "maj" "1" 0)] = (tt, Ok ([flip (macro "maj" "1" 0)], lit "y")) /\
  demo_update "%{!?maj:x}" "y" 1 [macro "maj" "1" 0] = (tt, Ok ([flip (macro "maj" "1" 0)], lit "%{!?maj:y}")).
Proof.
  split; [vm_compute; reflexivity|]. split; [vm_compute; reflexivity|]. split; [vm_compute; reflexivity|]. split; vm_compute; reflexivity.
Qed.
