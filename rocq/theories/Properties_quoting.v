(** Property C251: how values are quoted in options.  Specification: Spec_options.v, Spec_quoting.v. *)
From Coq Require Import Ascii String.
From Coq Require Import NArith ZArith List Bool.
From Verif Require Import PyStr M_value M_options Spec_options Spec_quoting P_quoting Properties_options.
Import ListNotations.
Open Scope N_scope.

(** * C251 *)
(** An option that is not there yet is put at the end, with its argument behind a space, in double quotes if it has blanks; the rest of the text stays. *)
Theorem C251_new_option : forall os ds l its c s, cmdline os l its -> takes_argument os c -> lookup_opt c its = None ->
  exists o' t, opt_set (mk_opts l os ds) c (VStr s) = Ok o' /\ shown s t /\
    tokens_str (o_tokens o') = tokens_str l ++ match l with [] => [] | _ => [SPC] end ++ token_str (mk_token DEFAULT [DASH; c]) ++ SPC :: t.
Proof. exact set_shown. Qed.
Print Assumptions C251_new_option.
(** So is a positional argument that is appended. *)
Theorem C251_appended : forall os ds l its i v, cmdline os l its -> (Z.of_nat (length (positionals its)) <= i)%Z ->
  exists o' t, pos_insert (mk_opts l os ds) i v = Ok o' /\ shown (oval_str v) t /\ tokens_str (o_tokens o') = tokens_str l ++ match l with [] => [] | _ => [SPC] end ++ t.
Proof. exact append_shown. Qed.
Print Assumptions C251_appended.
(** A value is written in one way. *)
Theorem C251_one_way : forall s t t', shown s t -> shown s t' -> t = t'.
Proof. exact shown_one. Qed.
Print Assumptions C251_one_way.
Definition saying (r : result opts) : str := match r with Ok o => tokens_str (o_tokens o) | Err _ => [] end.
Definition one_x : list token := [mk_token DEFAULT (lit "x")].
Example C251_example : cmdline ex_os one_x [IPos (lit "x")] /\ takes_argument ex_os 98 /\ lookup_opt 98 [IPos (lit "x")] = None /\
  saying (opt_set (mk_opts one_x ex_os []) 98 (VStr (lit "a b" ++ [DQUOTE; SQUOTE]))) = lit "x -b " ++ DQUOTE :: lit "a b" ++ [BSLASH; DQUOTE; SQUOTE; DQUOTE] /\
  saying (pos_insert (mk_opts one_x ex_os []) 9 (VStr (lit "ab" ++ [DQUOTE; SQUOTE]))) = lit "x ab" ++ [BSLASH; DQUOTE; BSLASH; SQUOTE].
Proof.
  split; [apply (L_positional _ (mk_token DEFAULT (lit "x"))); [discriminate|now intros [v Q]|constructor]|]. split; [exact takes_b|]. split; [reflexivity|]. split; vm_compute; reflexivity.
Qed.
