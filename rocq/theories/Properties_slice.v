(** Theorems about slices of collections (C224 to C226).  Spec_slice.v says which positions a slice picks ([picks], in its own order [positions]), and what is left of a list
    ([keeping]), of the lines of a changelog ([log_lines]) and of a command line ([drop_positionals], [set_values]). *)
From Coq Require Import Ascii String.
From Coq Require Import NArith ZArith List Bool Arith.
From Verif Require Import PyStr M_options M_changelog M_macro_definitions M_prep M_tags M_sources Spec_options M_slice Spec_slice P_slice P_slice2 P_slice3 P_slice4 P_slice5.
From Verif Require Spec_tags Spec_macro_definitions Spec_prep Spec_sources.
Import ListNotations.
Open Scope Z_scope.

(** * C224 *)
(** A slice gives the items it picks, in their order, or from the last to the first if its step is negative; there are none with a step of zero. *)
Theorem C224_reading : forall A s (l : list A),
  (0 < step_of s -> get_slice s l = Ok (keeping (picks s (length l)) 0 l)) /\
  (step_of s < 0 -> get_slice s l = Ok (rev (keeping (picks s (length l)) 0 l))) /\
  (step_of s = 0 -> get_slice s l = Err ValueError).
Proof. exact @get_slice_spec. Qed.
Print Assumptions C224_reading.
(** So also with collections; the lines that belong to none of the items are kept. *)
Theorem C224_collections : forall s, 0 < step_of s ->
  (forall ts, get_tags s ts = Ok (mk_tags (keeping (picks s (length (ts_data ts))) 0 (ts_data ts)) (ts_remainder ts))) /\
  (forall m, get_mdefs s m = Ok (mk_mdefs (keeping (picks s (length (md_data m))) 0 (md_data m)) (md_remainder m))) /\
  (forall p, get_prep s p = Ok (mk_prep (keeping (picks s (length (p_macros p))) 0 (p_macros p)) (p_remainder p))) /\
  (forall c, get_changelog s c = Ok (mk_changelog (keeping (picks s (length (entries c))) 0 (entries c)) (predecessor c))).
Proof. exact get_collections. Qed.
Print Assumptions C224_collections.
(** Positional arguments are read as numbers if they look like these. *)
Theorem C224_positionals : forall (U : Unicode) os ds l its s, cmdline os l its ->
  get_positionals s (mk_opts l os ds) = (let! vs := get_slice s (positionals its) in numbers_or_texts vs).
Proof. exact @get_positionals_spec. Qed.
Print Assumptions C224_positionals.
(** Deleting a slice with a positive step deletes what it picks and keeps all the rest: of tags, with the comments and all lines that are not empty of the others, ... *)
Theorem C224_delete_tags : forall s ts, 0 < step_of s -> let n := length (ts_data ts) in exists ts', del_tags s ts = Ok ts' /\
  map (M_tags.with_preceding []) (ts_data ts') = keeping (fun p => negb (picks s n p)) 0 (map (M_tags.with_preceding []) (ts_data ts)) /\
  Spec_tags.nonempty_lines (tags_raw ts') = Spec_tags.nonempty_lines (Spec_tags.lines_keeping (fun p => negb (picks s n p)) 0 (ts_data ts) ++ ts_remainder ts).
Proof. exact del_tags_pos. Qed.
Print Assumptions C224_delete_tags.
(** of macro definitions and of macros in %prep with all lines before them, ... *)
Theorem C224_delete_definitions : forall s m, 0 < step_of s -> let n := length (md_data m) in exists m', del_mdefs s m = Ok m' /\
  map (M_macro_definitions.with_preceding []) (md_data m') = keeping (fun p => negb (picks s n p)) 0 (map (M_macro_definitions.with_preceding []) (md_data m)) /\
  M_macro_definitions.get_raw_data m' = Spec_macro_definitions.lines_keeping (fun p => negb (picks s n p)) 0 (md_data m) ++ md_remainder m.
Proof. exact del_mdefs_pos. Qed.
Print Assumptions C224_delete_definitions.
Theorem C224_delete_macros : forall s m, 0 < step_of s -> let n := length (p_macros m) in exists m', del_prep s m = Ok m' /\
  map (M_prep.with_preceding []) (p_macros m') = keeping (fun p => negb (picks s n p)) 0 (map (M_prep.with_preceding []) (p_macros m)) /\
  prep_raw m' = Spec_prep.lines_without (List.filter (picks s n) (seq 0 n)) 0 (p_macros m) ++ p_remainder m.
Proof. exact del_prep_pos. Qed.
Print Assumptions C224_delete_macros.
(** of changelogs with some of the empty lines after them, ... *)
Theorem C224_delete_entries : forall s c, 0 < step_of s -> let n := length (entries c) in exists c', del_changelog s c = Ok c' /\
  map (fun e => (header e, content e)) (entries c') = keeping (fun p => negb (picks s n p)) 0 (map (fun e => (header e, content e)) (entries c)) /\
  get_raw_section_data c' = predecessor c ++ log_lines (picks s n) 0 (entries c).
Proof. exact del_changelog_pos. Qed.
Print Assumptions C224_delete_entries.
(** of sources and patches with no change of other tags, ... *)
Theorem C224_delete_sources : forall (U : Unicode) s x, 0 < step_of s -> Spec_sources.readable x -> let n := length (locations x) in exists x', del_sources s x = Ok x' /\
  locations x' = keeping (fun p => negb (picks s n p)) 0 (locations x) /\ Spec_sources.keeps_other_tags x x' /\ (Spec_sources.increasing (numbers x) -> Spec_sources.increasing (numbers x')).
Proof. exact @del_sources_pos. Qed.
Print Assumptions C224_delete_sources.
(** and of positional arguments with no change of options. *)
Theorem C224_delete_positionals : forall (U : Unicode) os ds l its s, cmdline os l its -> 0 < step_of s ->
  exists l', del_positionals s (mk_opts l os ds) = Ok (mk_opts l' os ds) /\ cmdline os l' (drop_positionals (picks s (length (positionals its))) 0 its).
Proof. exact @del_positionals_pos. Qed.
Print Assumptions C224_delete_positionals.
(** There are no slices with a step of zero. *)
Theorem C224_zero : forall (U : Unicode) s, step_of s = 0 ->
  (forall ts, del_tags s ts = Err ValueError) /\ (forall m, del_mdefs s m = Err ValueError) /\ (forall p, del_prep s p = Err ValueError) /\ (forall c, del_changelog s c = Err ValueError) /\
  (forall x, del_sources s x = Err ValueError) /\ (forall o, del_positionals s o = Err ValueError) /\
  (forall vs o, set_positionals s vs o = Err ValueError) /\ (forall vs x, set_sources s vs x = Err ValueError).
Proof. exact @zero_steps. Qed.
Print Assumptions C224_zero.

Definition every_other : slice := mk_slice None (Some (-1)) (Some 2).
Definition backwards : slice := mk_slice None None (Some (-2)).
Example C224_example : positions every_other 6 = [0; 2; 4]%nat /\ positions backwards 6 = [5; 3; 1]%nat /\
  positions (mk_slice (Some (-4)) (Some 100) None) 6 = [2; 3; 4; 5]%nat /\ get_slice every_other [10; 11; 12; 13; 14; 15] = Ok [10; 12; 14] /\
  get_slice backwards [10; 11; 12; 13; 14; 15] = Ok [15; 13; 11].
Proof. repeat split. Qed.
Definition word (v : str) : token := mk_token DEFAULT v.
Definition space : token := mk_token WHITESPACE (lit " ").
Definition example_line : list token := [word (lit "a"); space; word (lit "-p1"); space; word (lit "b"); space; word (lit "c")].
Example C224_example_line : cmdline (lit "p:") example_line [IPos (lit "a"); IOpt 112 (Some (lit "1")); IPos (lit "b"); IPos (lit "c")] /\
  del_positionals (mk_slice (Some 1) None None) (mk_opts example_line (lit "p:") []) = Ok (mk_opts [word (lit "a"); space; word (lit "-p1")] (lit "p:") []).
Proof.
  split; [|reflexivity]. unfold example_line.
  apply (L_positional _ (word (lit "a"))); [discriminate|intros [? E]; discriminate E|]. apply L_space; [reflexivity..|].
  apply (L_attached _ (word (lit "-p1")) 112 (lit "1")); [discriminate|reflexivity|discriminate|]. apply L_space; [reflexivity..|].
  apply (L_positional _ (word (lit "b"))); [discriminate|intros [? E]; discriminate E|]. apply L_space; [reflexivity..|].
  apply (L_positional _ (word (lit "c"))); [discriminate|intros [? E]; discriminate E|]. constructor.
Qed.

(** * C225 *)
(** Deleting a slice with a negative step that picks at most one position is right ... *)
Theorem C225_partial : forall s, step_of s < 0 ->
  (forall ts, let n := length (ts_data ts) in (length (positions s n) <= 1)%nat -> exists ts', del_tags s ts = Ok ts' /\
     map (M_tags.with_preceding []) (ts_data ts') = keeping (fun p => negb (picks s n p)) 0 (map (M_tags.with_preceding []) (ts_data ts))) /\
  (forall m, let n := length (md_data m) in (length (positions s n) <= 1)%nat -> exists m', del_mdefs s m = Ok m' /\
     map (M_macro_definitions.with_preceding []) (md_data m') = keeping (fun p => negb (picks s n p)) 0 (map (M_macro_definitions.with_preceding []) (md_data m))) /\
  (forall m, let n := length (p_macros m) in (length (positions s n) <= 1)%nat -> exists m', del_prep s m = Ok m' /\
     map (M_prep.with_preceding []) (p_macros m') = keeping (fun p => negb (picks s n p)) 0 (map (M_prep.with_preceding []) (p_macros m))) /\
  (forall c, let n := length (entries c) in (length (positions s n) <= 1)%nat -> exists c', del_changelog s c = Ok c' /\
     map (fun e => (header e, content e)) (entries c') = keeping (fun p => negb (picks s n p)) 0 (map (fun e => (header e, content e)) (entries c))).
Proof. exact reversed_single. Qed.
Print Assumptions C225_partial.
(** ... and wrong with any other: there is an exception, or something goes that the slice does not pick. *)
Theorem C225_refuted : forall s, step_of s < 0 ->
  (forall ts, let n := length (ts_data ts) in (2 <= length (positions s n))%nat -> del_tags s ts = Err IndexError \/ exists ts' gone p, del_tags s ts = Ok ts' /\
     map (M_tags.with_preceding []) (ts_data ts') = keeping (fun p => negb (gone p)) 0 (map (M_tags.with_preceding []) (ts_data ts)) /\ (p < n)%nat /\ gone p = true /\ picks s n p = false) /\
  (forall m, let n := length (md_data m) in (2 <= length (positions s n))%nat -> del_mdefs s m = Err IndexError \/ exists m' gone p, del_mdefs s m = Ok m' /\
     map (M_macro_definitions.with_preceding []) (md_data m') = keeping (fun p => negb (gone p)) 0 (map (M_macro_definitions.with_preceding []) (md_data m)) /\ (p < n)%nat /\ gone p = true /\ picks s n p = false) /\
  (forall m, let n := length (p_macros m) in (2 <= length (positions s n))%nat -> del_prep s m = Err IndexError \/ exists m' gone p, del_prep s m = Ok m' /\
     map (M_prep.with_preceding []) (p_macros m') = keeping (fun p => negb (gone p)) 0 (map (M_prep.with_preceding []) (p_macros m)) /\ (p < n)%nat /\ gone p = true /\ picks s n p = false) /\
  (forall c, let n := length (entries c) in (2 <= length (positions s n))%nat -> del_changelog s c = Err IndexError \/ exists c' gone p, del_changelog s c = Ok c' /\
     map (fun e => (header e, content e)) (entries c') = keeping (fun p => negb (gone p)) 0 (map (fun e => (header e, content e)) (entries c)) /\ (p < n)%nat /\ gone p = true /\ picks s n p = false).
Proof. exact reversed_wrong. Qed.
Print Assumptions C225_refuted.
(** [del tags[2:0:-1]] deletes the tags 1 and 3, not 1 and 2; positional arguments also become wrong. *)
Definition named (n : str) : tag := mk_tag n (lit "x") (lit ": ") (mk_comments [] []) true [] [].
Example C225_example : positions (mk_slice (Some 2) (Some 0) (Some (-1))) 4 = [2; 1]%nat /\
  del_tags (mk_slice (Some 2) (Some 0) (Some (-1))) (mk_tags [named (lit "A"); named (lit "B"); named (lit "C"); named (lit "D")] []) = Ok (mk_tags [named (lit "A"); named (lit "C")] []) /\
  del_tags (mk_slice None None (Some (-1))) (mk_tags [named (lit "A"); named (lit "B"); named (lit "C"); named (lit "D")] []) = Err IndexError /\
  del_positionals (mk_slice (Some 1) None (Some (-1))) (mk_opts example_line (lit "p:") []) = Ok (mk_opts [word (lit "-p1"); space; word (lit "b")] (lit "p:") []).
Proof. repeat split. Qed.

(** * C226 *)
(** With as many values as positions, the slice then has these values, and nothing else has changed; *)
Theorem C226_sources : forall (U : Unicode) s vs x, step_of s <> 0 -> Spec_sources.readable x -> length vs = length (positions s (length (locations x))) ->
  exists x', set_sources s vs x = Ok (x', None) /\ get_slice s (locations x') = Ok vs /\ length (locations x') = length (locations x) /\
  (forall p, picks s (length (locations x)) p = false -> nth_error (locations x') p = nth_error (locations x) p) /\ numbers x' = numbers x /\ Spec_sources.keeps_other_tags x x'.
Proof. exact @set_sources_back. Qed.
Print Assumptions C226_sources.
Theorem C226_positionals : forall (U : Unicode) os ds l its s vs, cmdline os l its -> step_of s <> 0 -> Forall (fun v => ~ dashed (oval_str v)) vs -> length vs = length (positions s (length (positionals its))) ->
  exists l' its', set_positionals s vs (mk_opts l os ds) = Ok (mk_opts l' os ds, None) /\ cmdline os l' its' /\ get_slice s (positionals its') = Ok (map oval_str vs) /\
  length its' = length its /\ forall p, nth_error its' p = nth_error its p \/ exists v w, nth_error its p = Some (IPos v) /\ nth_error its' p = Some (IPos w).
Proof. exact @set_positionals_back. Qed.
Print Assumptions C226_positionals.
(** with more values the rest is silently ignored, and with fewer there is an exception after all of them have been assigned. *)
Theorem C226_lengths : forall (U : Unicode) s vs x, step_of s <> 0 -> Spec_sources.readable x -> let is := positions s (length (locations x)) in
  exists x', set_sources s vs x = Ok (x', if (length is <=? length vs)%nat then None else Some IndexError) /\
  (forall p, nth_error (locations x') p = match assigned is vs p with Some v => Some v | None => nth_error (locations x) p end) /\ numbers x' = numbers x /\ Spec_sources.keeps_other_tags x x'.
Proof. exact @set_sources_spec. Qed.
Print Assumptions C226_lengths.
Theorem C226_lengths_positionals : forall (U : Unicode) os ds l its s vs, cmdline os l its -> step_of s <> 0 -> Forall (fun v => ~ dashed (oval_str v)) vs ->
  let is := positions s (length (positionals its)) in
  exists l', set_positionals s vs (mk_opts l os ds) = Ok (mk_opts l' os ds, if (length is <=? length vs)%nat then None else Some IndexError) /\
    cmdline os l' (set_values (assigned is (map oval_str vs)) 0 its).
Proof. exact @set_positionals_spec. Qed.
Print Assumptions C226_lengths_positionals.
(** So an assignment can lose values without an exception, and one that fails can leave changes. *)
Theorem C226_refuted :
  (exists s vs l its l', cmdline [] l its /\ set_positionals s vs (mk_opts l [] []) = Ok (mk_opts l' [] [], None) /\ get_slice s (map M_options.t_value (List.filter (fun t => negb (is_ws t)) l')) <> Ok (map oval_str vs)) /\
  (exists s vs l its l', cmdline [] l its /\ set_positionals s vs (mk_opts l [] []) = Ok (mk_opts l' [] [], Some IndexError) /\ l' <> l).
Proof. exact assignment_refuted. Qed.
Print Assumptions C226_refuted.
Example C226_example : cmdline (lit "p:") example_line [IPos (lit "a"); IOpt 112 (Some (lit "1")); IPos (lit "b"); IPos (lit "c")] /\
  set_positionals (mk_slice None None (Some (-2))) [VStr (lit "x"); VInt 5] (mk_opts example_line (lit "p:") []) =
    Ok (mk_opts [word (lit "5"); space; word (lit "-p1"); space; word (lit "b"); space; word (lit "x")] (lit "p:") [], None) /\
  set_positionals (mk_slice (Some 1) None None) [VStr (lit "x")] (mk_opts example_line (lit "p:") []) =
    Ok (mk_opts [word (lit "a"); space; word (lit "-p1"); space; word (lit "x"); space; word (lit "c")] (lit "p:") [], Some IndexError).
Proof. split; [exact (proj1 C224_example_line)|]. split; reflexivity. Qed.
