(** Independent specification of how values are quoted in options. *)
From Coq Require Import Ascii String.
From Coq Require Import NArith ZArith List Bool.
From Verif Require Import PyStr.
Import ListNotations.
Open Scope N_scope.

(** [string.whitespace] of Python *)
Definition blank (c : char) : Prop := In c [SPC; TAB; LF; CR; 11; 12].
(** A backslash in front of each character for which [p] holds *)
Inductive escaped (p : char -> Prop) : str -> str -> Prop :=
| E_nil : escaped p [] []
| E_yes c s t : p c -> escaped p s t -> escaped p (c :: s) (BSLASH :: c :: t)
| E_no c s t : ~ p c -> escaped p s t -> escaped p (c :: s) (c :: t).
(** Values with blanks are in double quotes, where double quotes are escaped; other values are bare, where quotes and white space are escaped. *)
Definition shown (s t : str) : Prop :=
  (exists c, In c s /\ blank c) /\ (exists x, escaped (fun c => c = DQUOTE) s x /\ t = DQUOTE :: x ++ [DQUOTE]) \/
  (forall c, In c s -> ~ blank c) /\ escaped (fun c => c = DQUOTE \/ c = SQUOTE \/ is_space c = true) s t.
