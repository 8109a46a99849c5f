(** A concrete macro expansion and spec files as texts, for the findings. *)
From Coq Require Import Ascii String.
From Coq Require Import NArith List.
From Verif Require Import PyStr.
Import ListNotations.
Open Scope N_scope.

(** Expansion for the examples: only the expressions "0" and "1" are expanded. *)
Definition ex_expand (lines : list str) (skip : bool) (w : unit) (s : str) : result str * unit :=
  (Ok (if str_eqb s (lit "%{expr:0}") then lit "0" else if str_eqb s (lit "%{expr:1}") then lit "1" else s), tt).
Definition ex_id (s : str) : bool := true.
Definition file (l : list string) : list str := map lit l.
