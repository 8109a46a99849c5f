(** Independent specification of what the text of a changelog tells. *)
From Coq Require Import NArith List.
From Verif Require Import PyStr M_changelog Spec_sections.
Import ListNotations.
Open Scope N_scope.

(** Headers and contents of single lines *)
Definition single_lines (c : changelog) : Prop := Forall (fun e => Forall no_break (header e :: content e)) (entries c).
(** The same entries, but for the empty lines around them *)
Definition same_entries (c d : changelog) : Prop := map header (entries c) = map header (entries d) /\ map content (entries c) = map content (entries d).
(** Nothing above the newest entry, and one empty line between entries *)
Definition evenly_spaced (c : changelog) : Prop := predecessor c = [] /\ Forall (fun e => content e <> []) (entries c) /\
  (forall oldest newer, entries c = oldest :: newer -> following oldest = [] /\ Forall (fun e => following e = [[]]) newer).
