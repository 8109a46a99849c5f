(** Reading tags with a concrete macro expansion, for the findings. *)
From Coq Require Import NArith List.
From Verif Require Import PyStr M_constants M_conditions M_tags.
Import ListNotations.
Open Scope N_scope.

(** A concrete expansion for the examples: every text expands to itself. *)
Definition demo (skip : bool) (w : unit) (s : str) : result str * unit := (Ok s, tt).
Definition parse_tags (lines : list str) : result tags := fst (tags_parse (U:=unicode_none) demo TAG_NAMES tt lines).
