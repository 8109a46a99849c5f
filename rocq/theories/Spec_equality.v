(** What it means that options have the same values. *)
From Coq Require Import Ascii String.
From Coq Require Import NArith ZArith List Bool.
From Verif Require M_prep.
From Verif Require Import PyStr M_value M_sources M_options Spec_options.
Import ListNotations.
Open Scope N_scope.

(** Python's equality of the values of options. *)
Inductive same_value : oval -> oval -> Prop :=
| Same_none : same_value VNone VNone
| Same_text s : same_value (VStr s) (VStr s)
| Same_int z : same_value (VInt z) (VInt z)
| Same_bool b : same_value (VBool b) (VBool b)
| Same_true : same_value (VBool true) (VInt 1)
| Same_true' : same_value (VInt 1) (VBool true)
| Same_false : same_value (VBool false) (VInt 0)
| Same_false' : same_value (VInt 0) (VBool false).
(** The value of an occurrence of an option with or without an argument. *)
Definition occurrence {U : Unicode} (a : option str) : result oval := match a with None => Ok (VBool true) | Some v => number_or_text v end.
(** Every option occurs in both command lines with the same value, or in none. *)
Definition same_options {U : Unicode} (os : str) (its its' : list item) : Prop :=
  forall c, known os c ->
  match lookup_opt c its, lookup_opt c its' with
  | None, None => True
  | Some a, Some b => exists v w, occurrence a = Ok v /\ occurrence b = Ok w /\ same_value v w
  | _, _ => False
  end.
(** The sources as the user sees them: numbers and locations. *)
Definition seen {U : Unicode} (s : sources) : list (Z * str) := combine (numbers s) (locations s).
Definition as_patches (b : bool) (s : sources) : sources := mk_sources (s_tags s) (s_lists s) (s_dups s) (s_implicit s) (s_digits s) b.
(** A %patch with its number as an argument, and -p1. *)
Definition numbered_patch (n : N) : M_prep.macro :=
  M_prep.mk_macro M_prep.Patch (lit "%patch") (mk_opts [mk_token DEFAULT (dec n); mk_token WHITESPACE [SPC]; mk_token DEFAULT (lit "-p1")] (M_prep.optstring M_prep.Patch) (M_prep.defaults M_prep.Patch)) [SPC] [] [] [].
