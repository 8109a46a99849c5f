(** Property C255: options that are set to numbers.  Specification: Spec_options.v. *)
From Coq Require Import Ascii String.
From Coq Require Import NArith ZArith List Bool Lia.
From Verif Require Import PyStr M_value M_options Spec_options P_numbers Properties_options.
Import ListNotations.
Open Scope N_scope.

(** * C255 *)
(** A number is written with its digits, and a sign if it is negative. *)
Theorem C255_written : forall (U : Unicode) z, exists d, oval_str (VInt z) = (if (z <? 0)%Z then [DASH] else []) ++ d /\
  d <> [] /\ Forall (fun c => 48 <= c <= 57) d /\ int_of_str d = Some (Z.abs_N z).
Proof. exact @number_text. Qed.
Print Assumptions C255_written.
(** A negative number is accepted, but comes back as a text; C24 is about the numbers that come back. *)
Theorem C255_negative_refuted : forall (U : Unicode) os ds l its c z, cmdline os l its -> takes_argument os c -> lookup_opt c its = None -> (z < 0)%Z ->
  exists o', opt_set (mk_opts l os ds) c (VInt z) = Ok o' /\ opt_get o' c = Ok (VStr (oval_str (VInt z))).
Proof. exact @negative_set. Qed.
Print Assumptions C255_negative_refuted.
Example C255_example : cmdline ex_os [] [] /\ takes_argument ex_os 98 /\ lookup_opt 98 [] = None /\
  match opt_set (mk_opts [] ex_os []) 98 (VInt (-12)) with Ok o => (tokens_str (o_tokens o), opt_get (U:=unicode_none) o 98) = (lit "-b-12", Ok (VStr (lit "-12"))) | _ => False end /\
  match opt_set (mk_opts [] ex_os []) 98 (VInt 12) with Ok o => (tokens_str (o_tokens o), opt_get (U:=unicode_none) o 98) = (lit "-b12", Ok (VInt 12)) | _ => False end.
Proof. split; [constructor|]. split; [exact takes_b|]. split; [reflexivity|]. split; vm_compute; reflexivity. Qed.
