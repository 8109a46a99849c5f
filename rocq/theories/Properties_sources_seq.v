(** C210, C211: sources and patches as a sequence of Python: taking out, clearing, extending, searching, reversing. *)
From Coq Require Import Ascii String.
From Coq Require Import NArith ZArith List Bool Lia.
From Verif Require Import PyStr Regex M_constants M_value M_macro_definitions M_conditions M_tags M_sourcelist M_sources M_sources_seq Spec_sections Spec_tags Spec_sources P_sources7 P_sources8 P_sources_seq.
Import ListNotations.
Open Scope N_scope.

(** C210: [pop] returns the location of the source with that index, counted from the end if the index is negative, and takes away that source only. *)
Theorem C210_pop : forall (U : Unicode) (s : sources) (k : nat) (i : Z) (loc : str), readable s ->
  (i = Z.of_nat k \/ i = Z.of_nat k - Z.of_nat (length (locations s)))%Z -> nth_error (locations s) k = Some loc ->
  exists s', pop s i = Ok (loc, s') /\ readable s' /\ locations s' = removed k (locations s) /\ keeps_other_tags s s'.
Proof. exact @pop_semantics. Qed.
Print Assumptions C210_pop.
(** [clear] ends, with no source left, and keeps the other tags. *)
Theorem C210_clear : forall (U : Unicode) (s : sources) (rounds : nat), readable s -> (length (locations s) < rounds)%nat ->
  exists s', clear rounds s = Some (Ok s') /\ readable s' /\ locations s' = [] /\ keeps_other_tags s s'.
Proof. exact @clear_semantics. Qed.
Print Assumptions C210_clear.
(** [extend] puts new locations to the end, in order. *)
Theorem C210_extend : forall (U : Unicode) (s : sources) (locs : list str), readable s ->
  s_dups s = true \/ (NoDup locs /\ forall x, In x locs -> ~ In x (locations s)) ->
  exists s', extend s locs = (s', Ok tt) /\ readable s' /\ locations s' = locations s ++ locs /\ keeps_other_tags s s' /\
    (increasing (numbers s) -> increasing (numbers s')).
Proof. exact @extend_semantics. Qed.
Print Assumptions C210_extend.
(** What does not hold: all or nothing.  At a duplicate there is an exception, and the locations above it have been added. *)
Theorem C210_extend_refuted : forall (U : Unicode) (s : sources) (l1 : list str) (x : str) (l2 : list str), readable s -> s_dups s = false -> NoDup l1 ->
  (forall y, In y l1 -> ~ In y (locations s)) -> In x (locations s ++ l1) ->
  exists s', extend s (l1 ++ x :: l2) = (s', Err DuplicateSourceException) /\ locations s' = locations s ++ l1.
Proof. exact @extend_stops. Qed.
Print Assumptions C210_extend_refuted.
Definition example_sources : sources := container false ["Name: foo"; "# first"; "Source0: a"; "Source3:  b"; "License: MIT"; "SOURCE007: c"]%string [["d"; "e"]; []]%string.
Definition example_tags : sources := container false ["Name: foo"; "Source0: a"; "Source1: b"; "License: MIT"; "Source2: a"]%string [].
Definition strict (s : sources) : sources := mk_sources (s_tags s) (s_lists s) false (s_implicit s) (s_digits s) (s_patches s).
Example C210_example :
  readable (U:=unicode_none) example_sources /\
  pop (U:=unicode_none) example_tags (-1) = (let! s' := delete_item (U:=unicode_none) example_tags 2 in Ok (lit "a", s')) /\
  locations_of (let! r := pop (U:=unicode_none) example_sources (-4) in Ok (snd r)) = map lit ["a"; "c"; "d"; "e"]%string /\
  match clear (U:=unicode_none) 6 example_sources with Some r => lines_of r | None => [] end = map lit ["Name: foo"; "License: MIT"]%string /\
  clear (U:=unicode_none) 5 example_sources = None /\
  readable (U:=unicode_none) (strict example_sources) /\ s_dups (strict example_sources) = false /\
  locations (U:=unicode_none) (fst (extend (U:=unicode_none) (strict example_sources) (map lit ["x"; "y"]%string))) = map lit ["a"; "b"; "c"; "d"; "e"; "x"; "y"]%string /\
  locations (U:=unicode_none) (fst (extend (U:=unicode_none) (strict example_sources) (map lit ["x"; "b"; "y"]%string))) = map lit ["a"; "b"; "c"; "d"; "e"; "x"]%string.
Proof. assert (R : readable (U:=unicode_none) example_sources) by apply container_readable. repeat (split; [first [exact R|vm_compute; reflexivity]|]). vm_compute. reflexivity. Qed.

(** C211: that a location in [sources] is found by [index] does not hold; there always is an exception. *)
Theorem C211_index_refuted : forall (U : Unicode) (s : sources) (loc : str), contains s loc = true -> index (length (get_items s)) (Text loc) = Err ValueError.
Proof. intros. apply index_text. Qed.
Print Assumptions C211_index_refuted.
(** Nor can [sources] be reversed: afterwards each source but the one in the middle has as its location the other source of its pair, which has it as its
    own location, so writing does not end, however deep the calls may go. *)
Theorem C211_reverse_refuted : forall (around : nat -> str -> str) (locs : list str) (k depth : nat),
  (k < length locs)%nat -> (2 * k + 1 <> length locs)%nat ->
  written_value around (map Text locs) (S depth) k = nth_error locs k /\ written_value around (reverse (map Text locs)) depth k = None.
Proof. exact reverse_written. Qed.
Print Assumptions C211_reverse_refuted.
Example C211_example :
  contains (U:=unicode_none) example_sources (lit "b") = true /\
  reverse (map Text (map lit ["a"; "b"; "c"]%string)) = [Object 2; Text (lit "b"); Object 0] /\
  (forall depth, written_value (fun _ t => t) [Text (lit "a"); Object 0] (S (S depth)) 1 = Some (lit "a")).
Proof. repeat split; vm_compute; reflexivity. Qed.
