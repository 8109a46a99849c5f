(** Properties C175-C179: sources and patches of a whole spec file.  Specification: Spec_specfile3.v, Spec_specfile2.v, Spec_sources.v.
    [expand lines skip w s] is the expansion of [s] by RPM when the file has these lines; any function will do. *)
From Coq Require Import Ascii String.
From Coq Require Import NArith ZArith List Bool Arith Lia.
From Verif Require P_sources8.
From Verif Require Import PyStr PyStrFacts Regex M_value M_macro_definitions Spec_macro_definitions M_sections Spec_sections M_tags Spec_tags M_sourcelist M_sources Spec_sources
  M_specfile M_specfile2 Spec_specfile Spec_specfile2 Spec_specfile3 P_specfile9 P_specfile21 P_specfile22 P_specfile23.
Import ListNotations.
Open Scope N_scope.

(** * C175 *)
(** A source (or patch) is inserted at an index where sources are tags.  One line is new, a source tag with the new location; below it, source tags may
    have got new numbers; nothing else in the file changes.  If the new line does not tear a macro definition apart ([between_definitions]), then reading
    the file again shows the locations with the new one at that index, the same other tags and the same macros, and numbers that increase if they did before. *)
Theorem C175_insert : forall (U : Unicode) (W : Type) (expand : list str -> bool -> W -> str -> result str * W) patches dups implicit digits lines w w1 s i loc lines' w2,
  regular_file lines -> plain_lists patches lines -> read_sources expand patches dups implicit digits lines w = (lines, w1, Ok s) ->
  Forall simple_tag (ts_data (s_tags s)) -> Forall neat (ts_data (s_tags s)) -> caseless_digits -> file_value loc -> into_tags s i ->
  edit_sources expand patches dups implicit digits (fun s => insert s (Z.of_nat i) loc) lines w = (lines', w2, Ok tt) ->
  file_inserted expand patches dups implicit digits lines s loc lines'
    (fun s2 => locations s2 = inserted (Nat.min i (length (locations s))) loc (locations s) /\ (increasing (numbers s) -> increasing (numbers s2))).
Proof. exact @insert_file. Qed.
Print Assumptions C175_insert.
(** The same for [insert_numbered]; the new source has the number that was asked for. *)
Theorem C175_insert_numbered : forall (U : Unicode) (W : Type) (expand : list str -> bool -> W -> str -> result str * W) patches dups implicit digits lines w w1 s number loc lines' w2,
  regular_file lines -> plain_lists patches lines -> read_sources expand patches dups implicit digits lines w = (lines, w1, Ok s) ->
  Forall simple_tag (ts_data (s_tags s)) -> Forall neat (ts_data (s_tags s)) -> caseless_digits -> file_value loc -> (0 <= number)%Z ->
  edit_sources expand patches dups implicit digits (fun s => let! r := insert_numbered s number loc in Ok (fst r)) lines w = (lines', w2, Ok tt) ->
  file_inserted expand patches dups implicit digits lines s loc lines' (fun s2 => exists k, locations s2 = inserted k loc (locations s) /\
    (increasing (numbers s) -> increasing (numbers s2) /\ (all_numbered s -> no_list_entries s -> locations s <> [] -> nth_error (numbers s2) k = Some number))).
Proof. exact @insert_numbered_file. Qed.
Print Assumptions C175_insert_numbered.
(** And for [Specfile.add_patch] without a comment: all other patches keep their numbers, and the new patch has the number that was asked for or, if none
    was, the one after the highest number [h], but at least [initial]. *)
Theorem C175_add_patch : forall (U : Unicode) (W : Type) (expand : list str -> bool -> W -> str -> result str * W) lines w w1 s loc number initial digits lines' w2,
  regular_file lines -> plain_lists true lines -> read_sources expand true false false digits lines w = (lines, w1, Ok s) ->
  Forall simple_tag (ts_data (s_tags s)) -> Forall neat (ts_data (s_tags s)) -> caseless_digits -> file_value loc -> no_list_entries s -> NoDup (numbers s) ->
  (forall n, number = Some n -> 0 <= n)%Z -> spec_add_patch expand loc number [] initial digits lines w = (lines', w2, Ok tt) ->
  file_inserted expand true false false digits lines s loc lines' (fun s2 => exists k m h, locations s2 = inserted k loc (locations s) /\ numbers s2 = inserted k m (numbers s) /\
    (forall x, In x (numbers s) -> x <= h)%Z /\ (locations s <> [] -> In h (numbers s)) /\ (locations s = [] -> h = -1)%Z /\
    let n := match number with Some n => n | None => Z.max (h + 1) initial end in
    (all_numbered s -> locations s <> [] -> m = n) /\ (locations s = [] -> digits <> 0%nat -> m = n) /\ (n = (h + 1)%Z -> m = n)).
Proof. exact @add_patch_file. Qed.
Print Assumptions C175_add_patch.
Example C175_witness : regular_file (U:=unicode_none) src_file /\ plain_lists false src_file /\ plain_lists true src_file /\
  read_sources (U:=unicode_none) ex_expand false false false 0 src_file tt = (src_file, tt, Ok src_read) /\ read_sources (U:=unicode_none) ex_expand true false false 0 src_file tt = (src_file, tt, Ok pat_read) /\
  Forall simple_tag (ts_data (s_tags src_read)) /\ Forall (neat (U:=unicode_none)) (ts_data (s_tags src_read)) /\ caseless_digits (U:=unicode_none) /\
  file_value (lit "new.tar.gz") /\ into_tags (U:=unicode_none) src_read 1 /\ no_list_entries pat_read /\ NoDup (numbers (U:=unicode_none) pat_read) /\ (forall p, (p < 12)%nat -> between_definitions (U:=unicode_none) src_file p) /\
  edit_sources (U:=unicode_none) ex_expand false false false 0 (fun s => insert (U:=unicode_none) s 1 (lit "new.tar.gz")) src_file tt =
    (file ["%global v 1"; "Name: x"; "Source0: a"; "Source5: new.tar.gz"; "%if 1"; "Source6: b"; "%endif"; ""; "Patch1: p"; "%description"; "x"; "%sourcelist"; "z"]%string, tt, Ok tt) /\
  edit_sources (U:=unicode_none) ex_expand false false false 0 (fun s => let! r := insert_numbered (U:=unicode_none) s 3 (lit "new.tar.gz") in Ok (fst r)) src_file tt =
    (file ["%global v 1"; "Name: x"; "Source0: a"; "Source3: new.tar.gz"; "%if 1"; "Source5: b"; "%endif"; ""; "Patch1: p"; "%description"; "x"; "%sourcelist"; "z"]%string, tt, Ok tt) /\
  spec_add_patch (U:=unicode_none) ex_expand (lit "new.tar.gz") None [] 0 0 src_file tt =
    (file ["%global v 1"; "Name: x"; "Source0: a"; "%if 1"; "Source5: b"; "%endif"; ""; "Patch1: p"; "Patch2: new.tar.gz"; "%description"; "x"; "%sourcelist"; "z"]%string, tt, Ok tt).
Proof.
  split; [exact src_regular|]. split; [apply src_plain|]. split; [apply src_plain|]. split; [apply src_reads|]. split; [apply src_reads|]. split; [apply src_tags|]. split; [apply src_tags|].
  split; [exact P_sources8.ascii_caseless|]. split; [exact src_value|]. split; [apply src_into; repeat constructor|]. split; [apply src_patches|]. split; [apply src_patches|]. split; [exact src_between|].
  split; [vm_compute; reflexivity|]. split; vm_compute; reflexivity.
Qed.

(** * C176 *)
(** The location of a source tag is set.  Only the value on its line changes; reading the file again shows the new location in place of the old one, the
    same numbers, the same other tags and the same macros. *)
Theorem C176_set_location : forall (U : Unicode) (W : Type) (expand : list str -> bool -> W -> str -> result str * W) patches dups implicit digits lines w w1 s k j loc lines' w2,
  regular_file lines -> plain_lists patches lines -> read_sources expand patches dups implicit digits lines w = (lines, w1, Ok s) ->
  Forall simple_tag (ts_data (s_tags s)) -> Forall neat (ts_data (s_tags s)) -> caseless_digits -> file_value loc ->
  (exists n, nth_error (get_items s) k = Some (mk_item n (InTags j))) ->
  edit_sources expand patches dups implicit digits (fun s => set_location s (Z.of_nat k) loc) lines w = (lines', w2, Ok tt) ->
  exists x y name ds sep v, source_name (source_word s) name ds /\ lines = x ++ (name ++ sep ++ v) :: y /\ lines' = x ++ (name ++ sep ++ loc) :: y /\ nth_error (locations s) k = Some v /\
  regular_file lines' /\ same_macros (parse_plain lines) (parse_plain lines') /\
  forall w' l2 w2' s2, read_sources expand patches dups implicit digits lines' w' = (l2, w2', Ok s2) -> l2 = lines' /\ same_other_tags s s2 /\
    locations s2 = update_at k (fun _ => loc) (locations s) /\ numbers s2 = numbers s.
Proof. exact @set_location_file. Qed.
Print Assumptions C176_set_location.
(** The hypotheses are met as in [C175_witness]. *)
Example C176_witness : (exists n, nth_error (get_items (U:=unicode_none) src_read) 1 = Some (mk_item n (InTags 2))) /\
  edit_sources (U:=unicode_none) ex_expand false false false 0 (fun s => set_location (U:=unicode_none) s 1 (lit "new.tar.gz")) src_file tt =
    (file ["%global v 1"; "Name: x"; "Source0: a"; "%if 1"; "Source5: new.tar.gz"; "%endif"; ""; "Patch1: p"; "%description"; "x"; "%sourcelist"; "z"]%string, tt, Ok tt).
Proof. split; [exists 5%Z|]; vm_compute; reflexivity. Qed.

(** * C177 *)
(** Not so: a source may be put into the middle of a macro definition, which is another one then. *)
Theorem C177_new_source_keeps_macros_refuted : ~ (forall (U : Unicode) (expand : list str -> bool -> unit -> str -> result str * unit) lines i loc lines',
  Forall tidy_line lines -> Forall clean_line lines -> edit_sources expand false false false 0 (fun s => insert s i loc) lines tt = (lines', tt, Ok tt) ->
  map d_body (md_data (parse_plain lines')) = map d_body (md_data (parse_plain lines))).
Proof.
  intros H. destruct tear_torn as (E & N). apply N. symmetry. refine (H unicode_none _ _ _ _ _ _ _ E); apply tear_clean.
Qed.
Print Assumptions C177_new_source_keeps_macros_refuted.

(** * C178 *)
(** Entering and leaving the view of sources or of patches does not change a tidy file, whether they can be read or not. *)
Theorem C178_read : forall (U : Unicode) (W : Type) (expand : list str -> bool -> W -> str -> result str * W) patches dups implicit digits lines w lines' w' r,
  Forall tidy_line lines -> read_sources expand patches dups implicit digits lines w = (lines', w', r) -> lines' = lines.
Proof. exact @read_keeps. Qed.
Print Assumptions C178_read.
Example C178_witness : Forall (tidy_line (U:=unicode_none)) src_file /\ locations (U:=unicode_none) src_read = file ["a"; "b"; "z"]%string /\ numbers (U:=unicode_none) src_read = [0; 5; 6]%Z /\ locations (U:=unicode_none) pat_read = file ["p"]%string.
Proof. split; [exact (proj1 src_clean)|]. vm_compute. auto. Qed.

(** * C179 *)
(** Not so: section names are compared as they are written; the sources of a section "%Sourcelist" are not shown. *)
Theorem C179_list_sections_in_any_case_refuted : ~ (forall (U : Unicode) (expand : list str -> bool -> unit -> str -> result str * unit) lines header rest loc s,
  lines = rest ++ [header; loc] -> lower header = lit "%sourcelist" -> Forall (fun c => 97 <= c <= 122) loc ->
  read_sources expand false false false 0 lines tt = (lines, tt, Ok s) -> In loc (locations s)).
Proof.
  intros H. destruct list_missed as (s & E & L). assert (Q : In (lit "a") (locations (U:=unicode_none) s)); [|rewrite L in Q; destruct Q].
  refine (H unicode_none _ list_file (lit "%Sourcelist") [lit "Name: x"] (lit "a") s _ _ _ E); try reflexivity. repeat constructor; discriminate.
Qed.
Print Assumptions C179_list_sections_in_any_case_refuted.
