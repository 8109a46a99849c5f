(** Specification for options as a mapping. *)
From Coq Require Import NArith ZArith List Bool.
From Verif Require Import PyStr M_value M_options Spec_options.
Import ListNotations.
Open Scope N_scope.

(** The letters of an option string such as "a:b:cD". *)
Definition letters (os : str) : list char := filter (fun c => negb (c =? COLON)) os.
(** The option [c] occurs on the command line. *)
Definition mentioned (its : list item) (c : char) : bool :=
  match lookup_opt c its with Some _ => true | None => false end.
(** [text] can be shown as a value: a text or a number (not, for instance, "²", which is numeric but no integer). *)
Definition value_ok {U : Unicode} (text : str) : Prop := exists v, number_or_text text = Ok v.
Definition arguments_ok {U : Unicode} (its : list item) : Prop := forall c v, In (IOpt c (Some v)) its -> value_ok v.
Definition positionals_ok {U : Unicode} (its : list item) : Prop := forall v, In v (positionals its) -> value_ok v.
(** Without the options that the option string knows. *)
Definition without_known (os : str) (its : list item) : list item :=
  filter (fun i => match i with IOpt c _ => negb (char_in c (letters os)) | IPos _ => true end) its.
(** Without the positional arguments. *)
Definition only_options (its : list item) : list item :=
  filter (fun i => match i with IOpt _ _ => true | IPos _ => false end) its.
(** After these tokens there is no argument for an option in front of them. *)
Inductive no_argument : list token -> Prop :=
| N_nothing : no_argument []
| N_space w : t_type w = WHITESPACE -> no_argument [w]
| N_option t r : t_type t <> WHITESPACE -> dashed (t_value t) -> no_argument (t :: r)
| N_space_option w t r : t_type w = WHITESPACE -> dashed (t_value t) -> no_argument (w :: t :: r).
