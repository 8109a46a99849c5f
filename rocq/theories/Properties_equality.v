(** Theorems about equality of options, %prep macros and sources (C232 to C234).  [cmdline os tokens items] (Spec_options) reads tokens as a command line for the option string [os];
    [same_options] and [same_value] (Spec_equality) say what is the same in two command lines. *)
From Coq Require Import Ascii String.
From Coq Require Import NArith ZArith List Bool.
From Verif Require Import PyStr M_value M_tags M_sources M_prep M_options Spec_options Spec_options2 M_equality Spec_equality P_equality P_equality2.
Import ListNotations.
Open Scope N_scope.

(** * C232 *)
(** Two lists of options compare equal exactly if every option occurs in both with the same value, or in none. *)
Theorem C232_options : forall (U : Unicode) os ds ds' l l' its its', cmdline os l its -> cmdline os l' its' -> arguments_ok its -> arguments_ok its' ->
  exists b, options_eq (mk_opts l os ds) (mk_opts l' os ds') = Ok b /\ (b = true <-> same_options os its its').
Proof. exact @options_eq_spec. Qed.
Print Assumptions C232_options.
Theorem C232_macros : forall (U : Unicode) a b its its', cmdline (o_optstring (m_opts a)) (o_tokens (m_opts a)) its -> cmdline (o_optstring (m_opts b)) (o_tokens (m_opts b)) its' ->
  o_optstring (m_opts a) = o_optstring (m_opts b) -> arguments_ok its -> arguments_ok its' ->
  exists r, macro_eq a b = Ok r /\
    (r = true <-> m_name a = m_name b /\ m_delim a = m_delim b /\ m_prefix a = m_prefix b /\ m_suffix a = m_suffix b /\ m_preceding a = m_preceding b /\ same_options (o_optstring (m_opts a)) its its').
Proof. exact @macro_eq_spec. Qed.
Print Assumptions C232_macros.
Theorem C232_lists : forall (U : Unicode) a b, prep_eq a b = Ok true <-> Forall2 (fun x y => macro_eq x y = Ok true) (p_macros a) (p_macros b).
Proof. exact @preps_equal. Qed.
Print Assumptions C232_lists.
(** So positional arguments do not matter, ... *)
Theorem C232_positionals_refuted : forall (U : Unicode) os ds ds' l l' its its', cmdline os l its -> cmdline os l' its' -> arguments_ok its -> only_options its = only_options its' ->
  options_eq (mk_opts l os ds) (mk_opts l' os ds') = Ok true.
Proof. exact @positionals_ignored. Qed.
Print Assumptions C232_positionals_refuted.
(** ... and [%patch 1 -p1] equals [%patch 2 -p1], although they apply different patches. *)
Theorem C232_patches_refuted : forall (U : Unicode) n m, macro_eq (numbered_patch n) (numbered_patch m) = Ok true /\ number (numbered_patch n) = Ok (Z.of_N n) /\ number (numbered_patch m) = Ok (Z.of_N m).
Proof. exact (fun U n m => conj (@patches_equal U n m) (conj (@patches_numbers U n) (@patches_numbers U m))). Qed.
Print Assumptions C232_patches_refuted.
Example C232_example : let U := unicode_none in
  macro_line (numbered_patch 1) = lit "%patch 1 -p1" /\ macro_line (numbered_patch 12) = lit "%patch 12 -p1" /\
  cmdline (optstring Patch) (o_tokens (m_opts (numbered_patch 12))) (patch_items 12) /\ arguments_ok (patch_items 12) /\
  only_options (patch_items 1) = only_options (patch_items 12) /\
  options_eq (mk_opts [mk_token DEFAULT (lit "-p01")] (optstring Patch) []) (mk_opts [mk_token DEFAULT (lit "-p"); mk_token WHITESPACE (lit " "); mk_token DEFAULT (lit "1")] (optstring Patch) []) = Ok true /\
  options_eq (mk_opts [mk_token DEFAULT (lit "-p1")] (optstring Patch) []) (mk_opts [mk_token DEFAULT (lit "-p2")] (optstring Patch) []) = Ok false.
Proof. cbn zeta. split; [reflexivity|]. split; [reflexivity|]. split; [apply (@patch_line unicode_none)|]. split; [apply (@patch_arguments unicode_none)|]. split; [reflexivity|]. vm_compute. auto. Qed.

(** * C233 *)
(** [prep.macros.remove(m)] removes [m] if no macro before it compares equal, ... *)
Theorem C233_partial : forall (U : Unicode) x b z rem, Forall (fun u => macro_eq u b = Ok false) x -> macros_remove (mk_prep (x ++ b :: z) rem) (length x) = Ok (mk_prep (x ++ z) rem).
Proof. exact @removed_itself. Qed.
Print Assumptions C233_partial.
(** ... and the first one that does otherwise: *)
Theorem C233_first : forall (U : Unicode) x a y b z rem, Forall (fun u => macro_eq u b = Ok false) x -> macro_eq a b = Ok true ->
  macros_remove (mk_prep (x ++ a :: y ++ b :: z) rem) (S (length x + length y)) = Ok (mk_prep (x ++ y ++ b :: z) rem).
Proof. exact @removed_other. Qed.
Print Assumptions C233_first.
(** asked to remove the second of two patches, it removes the first. *)
Theorem C233_refuted : forall (U : Unicode) n m rem, macros_remove (mk_prep [numbered_patch n; numbered_patch m] rem) 1 = Ok (mk_prep [numbered_patch m] rem).
Proof. exact @wrong_patch_removed. Qed.
Print Assumptions C233_refuted.
Example C233_example : let U := unicode_none in
  match M_prep.parse [lit "%setup -q"; lit "%patch 1 -p1"; lit "%patch 2 -p1"] with
  | Ok p => (exists a b c, p_macros p = [a; b; c] /\ macro_eq a c = Ok false /\ macro_eq b c = Ok true /\ macro_eq a b = Ok false) /\
            match macros_remove p 2, macros_remove p 1 with
            | Ok q, Ok q' => prep_raw q = [lit "%setup -q"; lit "%patch 2 -p1"] /\ prep_raw q' = [lit "%setup -q"; lit "%patch 2 -p1"]
            | _, _ => False end
  | Err _ => False
  end.
Proof. vm_compute. split; [do 3 eexists; repeat split|auto]. Qed.

(** * C234 *)
(** Sources that compare equal, or patches that do, have the same numbers and locations. *)
Theorem C234_partial : forall (U : Unicode) a b, sources_eqb a b = true -> s_patches a = s_patches b -> seen a = seen b.
Proof. exact @equal_sources. Qed.
Print Assumptions C234_partial.
(** But the sources of a file equal its patches. *)
Theorem C234_refuted : forall (U : Unicode) t d i n, t_name t = lit "Source0" ->
  let s := mk_sources (mk_tags [t] []) [] d i n false in
  sources_eqb s (as_patches true s) = true /\ seen s = [(0%Z, M_tags.t_value t)] /\ seen (as_patches true s) = [].
Proof. exact (fun U t d i n N => conj (@patches_are_sources _ true) (@one_source U t d i n N)). Qed.
Print Assumptions C234_refuted.
Theorem C234_all : forall s b, sources_eqb s (as_patches b s) = true.
Proof. exact patches_are_sources. Qed.
Print Assumptions C234_all.
Example C234_example : let U := unicode_none in
  let t := mk_tag (lit "Source0") (lit "a.tar") (lit ": ") (mk_comments [] []) true [] [] in
  let s := mk_sources (mk_tags [t] []) [] false false 1 false in
  sources_eqb s s = true /\ s_patches s = s_patches s /\ seen s = [(0%Z, lit "a.tar")] /\ t_name t = lit "Source0" /\
  sources_eqb s (mk_sources (mk_tags [] []) [] false false 1 false) = false.
Proof. vm_compute. repeat split. Qed.
