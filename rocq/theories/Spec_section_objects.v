(** Specifications for copies of sections and for comparing positional arguments. *)
From Coq Require Import NArith ZArith List Bool.
From Verif Require Import PyStr M_section_objects.
Import ListNotations.
Open Scope N_scope.

(** Changes to what a section does not share with its copies: its name and its lines. *)
Definition own (e : edit) : Prop := match e with Options _ => False | _ => True end.
Section Uni.
Context {U : Unicode}.
(** An argument that can be read: a text, or digits that make a number. *)
Definition argument_ok (x : str) : Prop := str_isnumeric x = true -> exists n, int_of_str x = Some n.
(** Arguments with the same meaning: the same number or the same text. *)
Definition same_argument (x y : str) : Prop :=
  (exists n, str_isnumeric x = true /\ str_isnumeric y = true /\ int_of_str x = Some n /\ int_of_str y = Some n) \/ (str_isnumeric x = false /\ x = y).
End Uni.
