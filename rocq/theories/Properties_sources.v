(** Properties C28-C32, C73-C83, C90 and C91 (sources, patches and source lists).  Specification: Spec_sources.v. *)
From Coq Require Import Ascii String.
From Coq Require Import NArith ZArith List Bool Lia Sorting.Sorted.
From Verif Require Import PyStr PyStrFacts M_constants M_value M_macro_definitions M_conditions Spec_sections M_tags Spec_tags M_sourcelist M_sources Spec_sources
  P_tags5 P_sourcelist P_sources5 P_sources7 P_sources8 P_sources9.
Import ListNotations.
Open Scope N_scope.

Definition example_sources : sources := container false ["Name: foo"; "# first"; "Source0: a"; "Source3:  b"; "License: MIT"; "SOURCE007: c"]%string [["d"; "e"]; []]%string.
Definition example_tags : sources := container false ["Name: foo"; "Source0: a"; "Source1: b"; "License: MIT"; "Source2: a"]%string [].
Definition example_patches : sources := container true ["Name: foo"; "Source0: a"; "Patch1: x"; "Patch9: y"]%string [].

(** The containers the theorems are about: those read from a tag section ([readable]).  That decimal digits have no case is a fact about Unicode. *)
Theorem C28_parsed_sections_are_readable :
  forall (U : Unicode) (W : Type) (expand : bool -> W -> str -> result str * W) (w : W) (lines : list str) (ts : tags) (w' : W) (lists : list sourcelist) (dups implicit : bool) (digits : nat) (patches : bool),
  caseless_digits -> tags_parse expand TAG_NAMES w lines = (Ok ts, w') -> readable (mk_sources ts lists dups implicit digits patches).
Proof. exact (fun U W expand w lines ts w' lists d i n p C E => conj C (@parsed_names U W expand w lines ts w' E)). Qed.
Print Assumptions C28_parsed_sections_are_readable.
(** C28: the sources and their numbers. *)
Theorem C28_numbers :
  forall (U : Unicode) (s : sources), readable s ->
  exists l, numbered (source_word s) 0 (-1) (map t_name (ts_data (s_tags s))) l /\
  map (fun x => (i_place x, i_number x)) (get_items s) =
  map (fun x => (InTags (fst x), snd x)) l ++ list_numbers (last (map snd l) (-1)%Z) (s_lists s).
Proof. exact @numbers_spec. Qed.
Print Assumptions C28_numbers.
(** They increase, and so are distinct, if all tags have increasing numbers, or none has a number. *)
Theorem C28_explicit_numbers_increase :
  forall (U : Unicode) (s : sources), readable s -> all_numbered s -> (length (filter (fun sl => negb (Nat.eqb (length (sl_data sl)) 0)) (s_lists s)) <= 1)%nat ->
  forall l, numbered (source_word s) 0 (-1) (map t_name (ts_data (s_tags s))) l -> increasing (map snd l) -> increasing (numbers s).
Proof. exact @explicit_increasing. Qed.
Print Assumptions C28_explicit_numbers_increase.
Theorem C28_implicit_numbers_increase :
  forall (U : Unicode) (s : sources), readable s -> none_numbered s -> (length (filter (fun sl => negb (Nat.eqb (length (sl_data sl)) 0)) (s_lists s)) <= 1)%nat ->
  increasing (numbers s).
Proof. exact @implicit_increasing. Qed.
Print Assumptions C28_implicit_numbers_increase.
Example C28_example :
  readable (U:=unicode_none) example_sources /\ all_numbered (U:=unicode_none) example_sources /\ at_most_one_list example_sources /\
  locations (U:=unicode_none) example_sources = map lit ["a"; "b"; "c"; "d"; "e"]%string /\ numbers (U:=unicode_none) example_sources = [0; 3; 7; 8; 9]%Z /\
  increasing (numbers (U:=unicode_none) example_sources) /\
  none_numbered (U:=unicode_none) (container false ["Source: a"; "source : b"]%string [["c"]]%string) /\
  numbers (U:=unicode_none) (container false ["Source: a"; "source : b"]%string [["c"]]%string) = [0; 1; 2]%Z.
Proof.
  split; [apply container_readable|]. split; [apply all_digits_spec; [apply container_readable|vm_compute; reflexivity]|]. split; [unfold at_most_one_list; vm_compute; lia|]. split; [vm_compute; reflexivity|]. split; [vm_compute; reflexivity|].
  split; [|split; [apply no_digits_spec; [apply container_readable|vm_compute; reflexivity]|vm_compute; reflexivity]].
  assert (numbers (U:=unicode_none) example_sources = [0; 3; 7; 8; 9]%Z) as -> by (vm_compute; reflexivity). sorted.
Qed.

(** C29: [insert(i, location)] and [append(location)] ([i] at least the length) act like those of a list. *)
Theorem C29_insert :
  forall (U : Unicode) (s : sources) (i : nat) (loc : str), readable s -> s_dups s = true \/ ~ In loc (locations s) ->
  exists s', insert s (Z.of_nat i) loc = Ok s' /\ readable s' /\ locations s' = inserted (Nat.min i (length (locations s))) loc (locations s) /\
    keeps_other_tags s s' /\ (increasing (numbers s) -> increasing (numbers s')).
Proof. exact @insert_semantics. Qed.
Print Assumptions C29_insert.
Theorem C29_insert_duplicate :
  forall (U : Unicode) (s : sources) (i : Z) (loc : str), s_dups s = false -> In loc (locations s) -> insert s i loc = Err DuplicateSourceException.
Proof. exact @insert_duplicate. Qed.
Print Assumptions C29_insert_duplicate.
(** [insert_numbered(number, location)]: the position returned, and the number where all tags have numbers. *)
Theorem C29_insert_numbered :
  forall (U : Unicode) (s : sources) (number : Z) (loc : str), readable s -> s_dups s = true \/ ~ In loc (locations s) -> (0 <= number)%Z ->
  exists s' k, insert_numbered s number loc = Ok (s', k) /\ readable s' /\ locations s' = inserted k loc (locations s) /\ keeps_other_tags s s' /\
    (increasing (numbers s) -> increasing (numbers s') /\
       (all_numbered s -> no_list_entries s -> locations s <> [] -> nth_error (numbers s') k = Some number)).
Proof. exact @insert_numbered_semantics. Qed.
Print Assumptions C29_insert_numbered.
Example C29_example :
  lines_of (insert (U:=unicode_none) example_sources 1 (lit "new")) = map lit ["Name: foo"; "# first"; "Source0: a"; "Source3:  new"; "Source4:  b"; "License: MIT"; "SOURCE007: c"]%string /\
  locations_of (insert (U:=unicode_none) example_sources 1 (lit "new")) = map lit ["a"; "new"; "b"; "c"; "d"; "e"]%string /\
  numbers_of (insert (U:=unicode_none) example_sources 1 (lit "new")) = [0; 3; 4; 7; 8; 9]%Z /\
  numbers_of (fst_of (insert_numbered (U:=unicode_none) example_tags 1%Z (lit "new"))) = [0; 1; 2; 3]%Z /\
  increasing (numbers (U:=unicode_none) example_tags) /\ all_numbered (U:=unicode_none) example_tags /\ no_list_entries example_tags.
Proof.
  split; [vm_compute; reflexivity|]. split; [vm_compute; reflexivity|]. split; [vm_compute; reflexivity|]. split; [vm_compute; reflexivity|].
  split; [assert (numbers (U:=unicode_none) example_tags = [0; 1; 2]%Z) as -> by (vm_compute; reflexivity); sorted|]. split; [apply all_digits_spec; [apply container_readable|vm_compute; reflexivity]|]. vm_compute. constructor.
Qed.

(** C30: the patches there keep their numbers and locations; [h] is the highest number. *)
Theorem C30_add_patch :
  forall (U : Unicode) (s : sources) (loc : str) (number : option Z) (initial : Z),
  readable s -> s_dups s = true \/ ~ In loc (locations s) -> no_list_entries s -> NoDup (numbers s) ->
  (forall n, number = Some n -> forall x, In x (numbers s) -> (x < n)%Z) -> (forall n, number = Some n -> 0 <= n)%Z ->
  exists s' k m h, add_patch s loc number initial = Ok (s', k) /\
    locations s' = inserted k loc (locations s) /\ numbers s' = inserted k m (numbers s) /\ keeps_other_tags s s' /\
    (forall x, In x (numbers s) -> x <= h)%Z /\ (locations s <> [] -> In h (numbers s)) /\ (locations s = [] -> h = -1)%Z /\
    let n := match number with Some n => n | None => Z.max (h + 1) initial end in
    (all_numbered s -> locations s <> [] -> m = n) /\
    (locations s = [] -> s_implicit s = false -> s_digits s <> 0%nat -> m = n) /\
    (n = (h + 1)%Z -> m = n).
Proof. exact @add_patch_semantics. Qed.
Print Assumptions C30_add_patch.
Theorem C30_taken_number :
  forall (U : Unicode) (s : sources) (loc : str) (n initial : Z), (n <= max_number s)%Z -> add_patch s loc (Some n) initial = Err SourceNumberException.
Proof. exact @add_patch_taken. Qed.
Print Assumptions C30_taken_number.
Example C30_example :
  readable (U:=unicode_none) example_patches /\ no_list_entries example_patches /\ NoDup (numbers (U:=unicode_none) example_patches) /\ all_numbered (U:=unicode_none) example_patches /\
  lines_of (fst_of (add_patch (U:=unicode_none) example_patches (lit "z") None 0)) = map lit ["Name: foo"; "Source0: a"; "Patch1: x"; "Patch9: y"; "Patch10:z"]%string /\
  lines_of (fst_of (add_patch (U:=unicode_none) (container true ["Name: foo"; "Source0: a"; "License: MIT"]%string []) (lit "z") (Some 5%Z) 0)) = map lit ["Name: foo"; "Source0: a"; "Patch5:  z"; "License: MIT"]%string.
Proof.
  split; [apply container_readable|]. split; [vm_compute; constructor|]. split; [assert (numbers (U:=unicode_none) example_patches = [1; 9]%Z) as -> by (vm_compute; reflexivity); repeat constructor; cbn; intuition discriminate|].
  split; [apply all_digits_spec; [apply container_readable|vm_compute; reflexivity]|]. split; vm_compute; reflexivity.
Qed.

(** C31: deleting removes that source, keeps the others and every other tag; written numbers stay. *)
Theorem C31_delete :
  forall (U : Unicode) (s : sources) (k : nat), readable s -> (k < length (locations s))%nat ->
  exists s', delete_item s (Z.of_nat k) = Ok s' /\ readable s' /\ locations s' = removed k (locations s) /\ keeps_other_tags s s' /\
    (increasing (numbers s) -> increasing (numbers s')) /\ (all_numbered s -> no_list_entries s -> numbers s' = removed k (numbers s)).
Proof. exact @delete_semantics. Qed.
Print Assumptions C31_delete.
Theorem C31_remove_numbered :
  forall (U : Unicode) (s : sources) (number : Z), readable s ->
  (~ In number (numbers s) -> remove_numbered s number = Ok s) /\
  (In number (numbers s) -> exists k s', nth_error (numbers s) k = Some number /\ remove_numbered s number = Ok s' /\ locations s' = removed k (locations s) /\ keeps_other_tags s s' /\
     (increasing (numbers s) -> increasing (numbers s')) /\ (all_numbered s -> no_list_entries s -> numbers s' = removed k (numbers s))).
Proof. exact @remove_numbered_semantics. Qed.
Print Assumptions C31_remove_numbered.
Theorem C31_remove :
  forall (U : Unicode) (s : sources) (loc : str), readable s ->
  exists s', remove s loc = Ok s' /\ locations s' = filter (fun x => negb (str_eqb x loc)) (locations s) /\ keeps_other_tags s s' /\ (increasing (numbers s) -> increasing (numbers s')).
Proof. exact @remove_semantics. Qed.
Print Assumptions C31_remove.
(** A slice with a positive step, as the list of its indices. *)
Theorem C31_delete_slice :
  forall (U : Unicode) (s : sources) (is : list nat), readable s -> StronglySorted lt is -> Forall (fun i => (i < length (locations s))%nat) is ->
  exists s', delete_slice s is = Ok s' /\ locations s' = without (map (fun i => existsb (Nat.eqb i) is) (seq 0 (length (locations s)))) (locations s) /\ keeps_other_tags s s' /\
    (increasing (numbers s) -> increasing (numbers s')).
Proof. exact @delete_slice_semantics. Qed.
Print Assumptions C31_delete_slice.
Theorem C31_set_location :
  forall (U : Unicode) (s : sources) (k : nat) (loc : str), readable s -> (k < length (locations s))%nat ->
  exists s', set_location s (Z.of_nat k) loc = Ok s' /\ locations s' = update_at k (fun _ => loc) (locations s) /\ numbers s' = numbers s /\ keeps_other_tags s s'.
Proof. exact @set_location_semantics. Qed.
Print Assumptions C31_set_location.
Example C31_example :
  lines_of (delete_item (U:=unicode_none) example_tags 1) = map lit ["Name: foo"; "Source0: a"; "License: MIT"; "Source2: a"]%string /\
  numbers_of (remove_numbered (U:=unicode_none) example_tags 0) = [1; 2]%Z /\
  lines_of (remove (U:=unicode_none) example_tags (lit "a")) = map lit ["Name: foo"; "Source1: b"; "License: MIT"]%string /\
  locations_of (delete_slice (U:=unicode_none) example_sources [0; 2; 4]%nat) = map lit ["b"; "d"]%string /\
  lines_of (set_location (U:=unicode_none) example_tags 1 (lit "x")) = map lit ["Name: foo"; "Source0: a"; "Source1: x"; "License: MIT"; "Source2: a"]%string.
Proof. repeat split; vm_compute; reflexivity. Qed.

(** C32: source lists survive parsing and writing; every line that is neither empty nor a comment is a source. *)
Theorem C32_round_trip :
  forall (U : Unicode) (W : Type) (expand : bool -> W -> str -> result str * W) (w : W) (lines : list str) (s : sourcelist) (w' : W),
  Forall (fun l => ~ In LF l) lines -> slist_parse expand w lines = (Ok s, w') -> slist_raw s = lines.
Proof. exact @slist_round_trip. Qed.
Print Assumptions C32_round_trip.
Theorem C32_entries :
  forall (U : Unicode) (W : Type) (expand : bool -> W -> str -> result str * W) (w : W) (lines : list str) (s : sourcelist) (w' : W),
  Forall (fun l => ~ In LF l) lines -> slist_parse expand w lines = (Ok s, w') ->
  map e_location (sl_data s) = filter is_entry lines /\ (forall line, is_entry line = true <-> source_line line).
Proof. exact (fun U W ex w l s w' F E => conj (@slist_entries U W ex w l s w' F E) is_entry_spec). Qed.
Print Assumptions C32_entries.
Example C32_example :
  let lines := map lit ["# one"; "a.tar"; ""; "  # two"; " b.patch "; "# end"]%string in
  match fst (slist_parse (U:=unicode_none) (fun (skip : bool) (w : unit) s => (Ok s, w)) tt lines) with Ok s => slist_raw s = lines /\ map e_location (sl_data s) = map lit ["a.tar"; " b.patch "]%string | Err _ => False end.
Proof. vm_compute. split; reflexivity. Qed.

(** C90: what insertion, deletion and a new location leave alone.  [x] is the source at index [i], and the new one goes above it. *)
Theorem C90_insert_above :
  forall (U : Unicode) (s : sources) (i : nat) (loc : str) (s' : sources) (x : item), readable s -> insert s (Z.of_nat i) loc = Ok s' -> nth_error (get_items s) i = Some x ->
  match i_place x with
  | InTags j => exists a r b new, length a = j /\ tag_added s a (r :: b) loc new s' /\ named_after s r new (i_number x)
  | InList l j => entry_added s l j loc valid_above s'
  end.
Proof. exact @insert_below. Qed.
Print Assumptions C90_insert_above.
(** At the end: below the last source [x]. *)
Theorem C90_append :
  forall (U : Unicode) (s : sources) (i : nat) (loc : str) (s' : sources) (x : item), readable s -> insert s (Z.of_nat i) loc = Ok s' -> (length (get_items s) <= i)%nat ->
  nth_error (get_items s) (length (get_items s) - 1) = Some x ->
  match i_place x with
  | InTags j => exists a r b new, length a = j /\ tag_added s (a ++ [r]) b loc new s' /\ named_after s r new (i_number x + 1)
  | InList l j => entry_added s l (S j) loc valid_above s'
  end.
Proof. exact @insert_last. Qed.
Print Assumptions C90_append.
(** The first source: in the last list section if there is one. *)
Theorem C90_first :
  forall (U : Unicode) (s : sources) (i : nat) (loc : str) (s' : sources), readable s -> locations s = [] -> insert s (Z.of_nat i) loc = Ok s' ->
  (s_lists s = [] -> first_added s loc 0 s') /\ (s_lists s <> [] -> entry_added s (length (s_lists s) - 1) 0 loc (fun _ _ => true) s').
Proof. exact @insert_first. Qed.
Print Assumptions C90_first.
Theorem C90_insert_numbered :
  forall (U : Unicode) (s : sources) (number : Z) (loc : str) (s' : sources) (k : nat), readable s -> (0 <= number)%Z -> insert_numbered s number loc = Ok (s', k) ->
  first_added s loc number s' /\ k = 0%nat \/
  exists a r b new, (tag_added s a (r :: b) loc new s' \/ tag_added s (a ++ [r]) b loc new s') /\ named_after s r new number.
Proof. exact @insert_numbered_keeps. Qed.
Print Assumptions C90_insert_numbered.
Theorem C90_delete :
  forall (U : Unicode) (s : sources) (k : nat) (s' : sources) (x : item), readable s -> delete_item s (Z.of_nat k) = Ok s' -> nth_error (get_items s) k = Some x ->
  match i_place x with
  | InTags j => s_lists s' = s_lists s /\ exists a t b, length a = j /\ ts_data (s_tags s) = a ++ t :: b /\ map (with_preceding []) (ts_data (s_tags s')) = map (with_preceding []) (a ++ b)
  | InList l j => s_tags s' = s_tags s /\ exists l1 sl l2 c e d, length l1 = l /\ length c = j /\ s_lists s = l1 ++ sl :: l2 /\ sl_data sl = c ++ e :: d /\
      s_lists s' = l1 ++ mk_slist (c ++ d) (sl_remainder sl) :: l2
  end.
Proof. exact @delete_keeps. Qed.
Print Assumptions C90_delete.
Theorem C90_set_location :
  forall (U : Unicode) (s : sources) (k : nat) (loc : str) (s' : sources) (x : item), readable s -> set_location s (Z.of_nat k) loc = Ok s' -> nth_error (get_items s) k = Some x ->
  match i_place x with
  | InTags j => s_lists s' = s_lists s /\ ts_remainder (s_tags s') = ts_remainder (s_tags s) /\ exists a t b, length a = j /\ ts_data (s_tags s) = a ++ t :: b /\
      ts_data (s_tags s') = a ++ mk_tag (t_name t) loc (t_separator t) (t_comments t) (t_valid t) (t_prefix t) (t_suffix t) :: b
  | InList l j => s_tags s' = s_tags s /\ exists l1 sl l2 c e d, length l1 = l /\ length c = j /\ s_lists s = l1 ++ sl :: l2 /\ sl_data sl = c ++ e :: d /\
      s_lists s' = l1 ++ mk_slist (c ++ mk_entry loc (e_comments e) (e_valid e) :: d) (sl_remainder sl) :: l2
  end.
Proof. exact @set_location_keeps. Qed.
Print Assumptions C90_set_location.
Example C90_example :
  lines_of (insert (U:=unicode_none) (container false ["# x"; "Source000:   a"; "%if 1"; "License: MIT"; "# y"; "Source001:   b # b"; "%endif"]%string []) 1 (lit "new")) =
    map lit ["# x"; "Source000:   a"; "%if 1"; "License: MIT"; "Source001:   new"; "# y"; "Source002:   b # b"; "%endif"]%string /\
  lines_of (insert (U:=unicode_none) (container true ["Name: x"; "Source10:   a"; "License: MIT"]%string []) 0 (lit "p")) =
    map lit ["Name: x"; "Source10:   a"; "Patch0:     p"; "License: MIT"]%string /\
  (exists e, nth_error (get_items (U:=unicode_none) example_sources) 3 = Some e /\ i_place e = InList 0 0).
Proof. split; [vm_compute; reflexivity|]. split; [vm_compute; reflexivity|]. eexists. vm_compute. split; reflexivity. Qed.

(** Findings. *)
(** C91: the first patch does not go below the last source if there is a SourceLicense tag. *)
Theorem C91_source_license_refuted :
  exists s, readable (U:=unicode_none) s /\ tags_raw (s_tags s) = map lit ["Source0: a"; "License: MIT"; "SourceLicense: MIT"; "Summary: x"]%string /\
  lines_of (insert (U:=unicode_none) s 0 (lit "p")) = map lit ["Source0: a"; "License: MIT"; "SourceLicense: MIT"; "Patch0:        p"; "Summary: x"]%string.
Proof. exact source_license. Qed.
Print Assumptions C91_source_license_refuted.
(** C73: increasing written numbers do not make the numbers distinct if some tags have none. *)
Theorem C73_mixed_numbering_refuted :
  exists s, readable (U:=unicode_none) s /\ s_lists s = [] /\ map t_name (ts_data (s_tags s)) = map lit ["Source0"; "Source"; "Source1"]%string /\ numbers (U:=unicode_none) s = [0; 1; 1]%Z.
Proof. exact mixed_numbering. Qed.
Print Assumptions C73_mixed_numbering_refuted.
(** C74: every list section restarts the numbers. *)
Theorem C74_several_lists_refuted :
  exists s, readable (U:=unicode_none) s /\ numbers (U:=unicode_none) s = [0; 1; 2; 1]%Z /\ map (fun sl => length (sl_data sl)) (s_lists s) = [2; 1]%nat.
Proof. exact several_lists. Qed.
Print Assumptions C74_several_lists_refuted.
(** C75: inserting at a negative index makes two sources with the same number. *)
Theorem C75_negative_index_refuted :
  exists s s', readable (U:=unicode_none) s /\ increasing (numbers (U:=unicode_none) s) /\ insert (U:=unicode_none) s (-1) (lit "new") = Ok s' /\ numbers (U:=unicode_none) s' = [0; 1; 1]%Z.
Proof. exact negative_index_duplicate. Qed.
Print Assumptions C75_negative_index_refuted.
(** C76: distinct numbers do not stay distinct if they are not in order. *)
Theorem C76_unordered_numbers_refuted :
  exists s s', readable (U:=unicode_none) s /\ numbers (U:=unicode_none) s = [5; 4]%Z /\ insert (U:=unicode_none) s 2 (lit "new") = Ok s' /\ numbers (U:=unicode_none) s' = [5; 4; 5]%Z.
Proof. exact unordered_numbers. Qed.
Print Assumptions C76_unordered_numbers_refuted.
(** C77: adding a patch changes the numbers of the patches in a %patchlist section. *)
Theorem C77_patchlist_renumbered_refuted :
  exists s s', readable (U:=unicode_none) s /\ numbers (U:=unicode_none) s = [0; 1; 2]%Z /\ locations (U:=unicode_none) s = map lit ["a"; "b"; "c"]%string /\
  add_patch (U:=unicode_none) s (lit "new") None 0 = Ok (s', 1%nat) /\ numbers (U:=unicode_none) s' = [0; 3; 4; 5]%Z /\ locations (U:=unicode_none) s' = map lit ["a"; "new"; "b"; "c"]%string.
Proof. exact patchlist_renumbered. Qed.
Print Assumptions C77_patchlist_renumbered_refuted.
(** C78: with unnumbered patches the number asked for is ignored. *)
Theorem C78_requested_number_ignored_refuted :
  exists s s', readable (U:=unicode_none) s /\ add_patch (U:=unicode_none) s (lit "new") (Some 10%Z) 0 = Ok (s', 2%nat) /\ numbers (U:=unicode_none) s' = [0; 1; 2]%Z.
Proof. exact requested_number_ignored. Qed.
Print Assumptions C78_requested_number_ignored_refuted.
(** C79: the new tag can lose its colon, so it is no tag when the file is read again. *)
Theorem C79_colon_lost_refuted :
  exists s s' k, readable (U:=unicode_none) s /\ add_patch (U:=unicode_none) s (lit "new") (Some 100%Z) 0 = Ok (s', k) /\
  tags_raw (s_tags s') = [lit "Patch1 : a"; lit "Patch100 new"] /\
  match parse_tags [lit "Patch1 : a"; lit "Patch100 new"] with Ok ts => map t_name (ts_data ts) = [lit "Patch1"] | Err _ => False end.
Proof. exact colon_lost. Qed.
Print Assumptions C79_colon_lost_refuted.
(** C80: deleting a reversed slice deletes other tags. *)
Theorem C80_reversed_slice_refuted :
  exists s s', readable (U:=unicode_none) s /\ tags_raw (s_tags s) = map lit ["Source0: a"; "Source1: b"; "License: MIT"]%string /\
  delete_slice (U:=unicode_none) s [1; 0]%nat = Ok s' /\ tags_raw (s_tags s') = [lit "Source1: b"].
Proof. exact reversed_slice. Qed.
Print Assumptions C80_reversed_slice_refuted.
(** C81: reading an empty slice fails. *)
Theorem C81_empty_slice_refuted :
  forall (U : Unicode) (s : sources), get_slice s [] = Err IndexError.
Proof. exact (fun U s => eq_refl). Qed.
Print Assumptions C81_empty_slice_refuted.
(** C82: conditions and blank lines in a source list section become sources. *)
Theorem C82_conditions_become_sources_refuted :
  match fst (slist_parse (U:=unicode_none) (fun (skip : bool) (w : unit) s => (Ok s, w)) tt (map lit ["%if 0"; "a"; "%endif"; " "]%string)) with
  | Ok s => map e_location (sl_data s) = map lit ["%if 0"; "a"; "%endif"; " "]%string | Err _ => False end.
Proof. exact conditions_become_sources. Qed.
Print Assumptions C82_conditions_become_sources_refuted.
(** C83: deleting a source changes the numbers of the unnumbered sources below it. *)
Theorem C83_unnumbered_sources_shift_refuted :
  exists s s', readable (U:=unicode_none) s /\ locations (U:=unicode_none) s = map lit ["a"; "b"]%string /\ numbers (U:=unicode_none) s = [0; 1]%Z /\
  delete_item (U:=unicode_none) s 0 = Ok s' /\ locations (U:=unicode_none) s' = [lit "b"] /\ numbers (U:=unicode_none) s' = [0]%Z.
Proof. exact unnumbered_shift. Qed.
Print Assumptions C83_unnumbered_sources_shift_refuted.
