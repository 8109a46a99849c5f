(** Sources: parsed tag sections have known names, and concrete containers. *)
From Coq Require Import Ascii String.
From Coq Require Import NArith ZArith List Bool Lia Sorting.Sorted.
From Verif Require Import PyStr PyStrFacts Regex RegexFacts M_constants M_value M_macro_definitions M_conditions M_tags M_sourcelist M_sources Spec_sections Spec_tags Spec_sources
  P_tags P_tags2 P_tags5 P_sources P_sources2 P_sources7.
Import ListNotations.
Open Scope N_scope.

Section Uni.
Context {U : Unicode}.
Lemma first_match_name line m : first_match TAG_NAMES line = Some m -> tag_name (group_str 1 m).
Proof.
  intros E. apply first_match_in in E as (n & Hn & E). apply re_match_sound in E. unfold tag_regex in E. apply Match_Seq in E as (s0 & M0 & M). apply Match_Caret in M0 as [-> _].
  apply (tag_match n line [] m Hn) in M as (_ & (l & arg & A & B & C) & _). exists n, l, arg. auto.
Qed.
Lemma tags_loop_names : forall fuel lines data buffer ts, Forall tag_name (map t_name data) -> tags_loop TAG_NAMES fuel lines data buffer = Ok ts -> Forall tag_name (map t_name (ts_data ts)).
Proof.
  induction fuel as [|fuel IH]; intros lines data buffer ts F E; cbn [tags_loop] in E; [injection E as <-; exact F|].
  destruct lines as [|[line0 valid] lines]; [injection E as <-; exact F|]. destruct (split_trailing line0 []) as [line ws]. destruct (split_conditional_macro_expansion line) as [[[line1 p] sx]|e]; [|discriminate]. cbn [bind] in E.
  destruct (first_match TAG_NAMES line1) as [m|] eqn:Em; [|now apply IH in E].
  destruct (if str_eqb sx [] then _ else _) as [[v ws'] lines'']. apply IH in E; auto. rewrite map_app. apply Forall_app. split; auto. repeat constructor. now apply first_match_name in Em.
Qed.
Theorem parsed_names (W : Type) (expand : bool -> W -> str -> result str * W) w lines ts w' : tags_parse expand TAG_NAMES w lines = (Ok ts, w') -> Forall tag_name (map t_name (ts_data ts)).
Proof.
  unfold tags_parse. destruct (process_conditions _ _ _ _) as [[tagged|e] w1]; [|discriminate]. intros E. injection E as E _. eapply tags_loop_names; [|exact E]. constructor.
Qed.
End Uni.
Lemma ascii_caseless : caseless_digits (U:=unicode_none).
Proof.
  intros c Hc. unfold is_digit, digit_val in Hc. destruct (ascii_digit c) eqn:D.
  - unfold ascii_digit in D. apply andb_true_iff in D as [D1 D2]. apply N.leb_le in D1, D2. unfold lower_c. replace (ascii_upper c) with false; [now rewrite (proj2 (N.ltb_lt c 128)) by lia|].
    symmetry. unfold ascii_upper. apply andb_false_iff. left. apply N.leb_gt. lia.
  - cbn in Hc. destruct (c <? 128), (is_space c); discriminate.
Qed.
(** Containers for the examples: read from tag lines, with source lists. *)
Definition container (patches : bool) (lines : list string) (lists : list (list string)) : sources :=
  match parse_tags (map lit lines) with
  | Ok ts => mk_sources ts (map (fun l => mk_slist (map (fun x => mk_entry (lit x) no_comments true) l) []) lists) true false 1 patches
  | Err _ => mk_sources (mk_tags [] []) [] true false 1 patches
  end.
Lemma container_readable b lines lists : readable (U:=unicode_none) (container b lines lists).
Proof.
  split; [exact ascii_caseless|]. unfold container. destruct (parse_tags (map lit lines)) as [ts|e] eqn:E; [|constructor]. cbn [s_tags]. unfold parse_tags in E.
  destruct (tags_parse (U:=unicode_none) demo TAG_NAMES tt (map lit lines)) as [r w'] eqn:E'. cbn [fst] in E. subst r. exact (@parsed_names unicode_none unit demo tt _ ts w' E').
Qed.
Definition all_digits (s : sources) : bool := forallb (fun t => match kind (U:=unicode_none) (s_prefix s) (t_name t) with Some None => false | _ => true end) (ts_data (s_tags s)).
Definition no_digits (s : sources) : bool := forallb (fun t => match kind (U:=unicode_none) (s_prefix s) (t_name t) with Some (Some _) => false | _ => true end) (ts_data (s_tags s)).
Lemma all_digits_spec s : readable (U:=unicode_none) s -> all_digits s = true -> all_numbered (U:=unicode_none) s.
Proof.
  intros [C W] A t Ht Hs. unfold all_digits in A. rewrite forallb_forall in A. specialize (A t Ht). rewrite word_prefix in Hs. rewrite prefix_eq, (kind_implicit _ _ C Hs) in A. discriminate.
Qed.
Lemma no_digits_spec s : readable (U:=unicode_none) s -> no_digits s = true -> none_numbered (U:=unicode_none) s.
Proof.
  intros [C W] A t ds Ht Hs. unfold no_digits in A. rewrite forallb_forall in A. specialize (A t Ht). rewrite word_prefix in Hs. destruct ds as [|c ds]; auto.
  destruct (@P_evr.int_digits unicode_none (c :: ds)) as (n & Hi); [destruct Hs as (? & _ & _ & Hd); apply forallb_forall; now apply Forall_forall|discriminate|].
  destruct (kind_explicit _ _ _ n C Hs Hi) as [K _]. rewrite prefix_eq, K in A. discriminate.
Qed.
Definition lines_of (r : result sources) : list str := match r with Ok s => tags_raw (s_tags s) | Err _ => [] end.
Definition numbers_of (r : result sources) : list Z := match r with Ok s => numbers (U:=unicode_none) s | Err _ => [] end.
Definition locations_of (r : result sources) : list str := match r with Ok s => locations (U:=unicode_none) s | Err _ => [] end.
Definition fst_of {A B} (r : result (A * B)) : result A := match r with Ok (a, _) => Ok a | Err e => Err e end.
Definition at_most_one_list (s : sources) : Prop := (length (filter (fun sl => negb (Nat.eqb (length (sl_data sl)) 0)) (s_lists s)) <= 1)%nat.
Ltac sorted := repeat (apply SSorted_nil || apply SSorted_cons || apply Forall_nil || apply Forall_cons || (unfold Z.lt; reflexivity)).
Definition or_else (s : sources) (r : result sources) : sources := match r with Ok s' => s' | Err _ => s end.
Definition position_of {A} (r : result (A * nat)) : nat := match r with Ok (_, k) => k | Err _ => 0 end.
Lemma mixed_numbering :
  exists s, readable (U:=unicode_none) s /\ s_lists s = [] /\ map t_name (ts_data (s_tags s)) = map lit ["Source0"; "Source"; "Source1"]%string /\ numbers (U:=unicode_none) s = [0; 1; 1]%Z.
Proof.
  exists (container false ["Source0: a"; "Source: b"; "Source1: c"]%string []).
  split; [apply container_readable|].
  repeat match goal with |- _ /\ _ => split end; vm_compute; reflexivity.
Qed.
Lemma several_lists :
  exists s, readable (U:=unicode_none) s /\ numbers (U:=unicode_none) s = [0; 1; 2; 1]%Z /\ map (fun sl => length (sl_data sl)) (s_lists s) = [2; 1]%nat.
Proof.
  exists (container false ["Source0: a"]%string [["b"; "c"]; ["d"]]%string).
  split; [apply container_readable|].
  repeat match goal with |- _ /\ _ => split end; vm_compute; reflexivity.
Qed.
Lemma negative_index_duplicate :
  exists s s', readable (U:=unicode_none) s /\ increasing (numbers (U:=unicode_none) s) /\ insert (U:=unicode_none) s (-1) (lit "new") = Ok s' /\ numbers (U:=unicode_none) s' = [0; 1; 1]%Z.
Proof.
  exists (container false ["Source0: a"; "Source1: b"]%string []).
  exists (or_else (container false ["Source0: a"; "Source1: b"]%string []) (insert (U:=unicode_none) (container false ["Source0: a"; "Source1: b"]%string []) (-1) (lit "new"))).
  split; [apply container_readable|].
  split; [replace (numbers _) with [0; 1]%Z by (vm_compute; reflexivity); sorted|].
  repeat match goal with |- _ /\ _ => split end; vm_compute; reflexivity.
Qed.
Lemma unordered_numbers :
  exists s s', readable (U:=unicode_none) s /\ numbers (U:=unicode_none) s = [5; 4]%Z /\ insert (U:=unicode_none) s 2 (lit "new") = Ok s' /\ numbers (U:=unicode_none) s' = [5; 4; 5]%Z.
Proof.
  exists (container false ["Source5: a"; "Source4: b"]%string []).
  exists (or_else (container false ["Source5: a"; "Source4: b"]%string []) (insert (U:=unicode_none) (container false ["Source5: a"; "Source4: b"]%string []) 2 (lit "new"))).
  split; [apply container_readable|].
  repeat match goal with |- _ /\ _ => split end; vm_compute; reflexivity.
Qed.
Lemma patchlist_renumbered :
  exists s s', readable (U:=unicode_none) s /\ numbers (U:=unicode_none) s = [0; 1; 2]%Z /\ locations (U:=unicode_none) s = map lit ["a"; "b"; "c"]%string /\
  add_patch (U:=unicode_none) s (lit "new") None 0 = Ok (s', 1%nat) /\ numbers (U:=unicode_none) s' = [0; 3; 4; 5]%Z /\ locations (U:=unicode_none) s' = map lit ["a"; "new"; "b"; "c"]%string.
Proof.
  exists (container true ["Patch0: a"]%string [["b"; "c"]]%string).
  exists (or_else (container true ["Patch0: a"]%string [["b"; "c"]]%string) (fst_of (add_patch (U:=unicode_none) (container true ["Patch0: a"]%string [["b"; "c"]]%string) (lit "new") None 0))).
  split; [apply container_readable|].
  repeat match goal with |- _ /\ _ => split end; vm_compute; reflexivity.
Qed.
Lemma requested_number_ignored :
  exists s s', readable (U:=unicode_none) s /\ add_patch (U:=unicode_none) s (lit "new") (Some 10%Z) 0 = Ok (s', 2%nat) /\ numbers (U:=unicode_none) s' = [0; 1; 2]%Z.
Proof.
  exists (container true ["Patch: a"; "Patch: b"]%string []).
  exists (or_else (container true ["Patch: a"; "Patch: b"]%string []) (fst_of (add_patch (U:=unicode_none) (container true ["Patch: a"; "Patch: b"]%string []) (lit "new") (Some 10%Z) 0))).
  split; [apply container_readable|].
  repeat match goal with |- _ /\ _ => split end; vm_compute; reflexivity.
Qed.
Lemma colon_lost :
  exists s s' k, readable (U:=unicode_none) s /\ add_patch (U:=unicode_none) s (lit "new") (Some 100%Z) 0 = Ok (s', k) /\
  tags_raw (s_tags s') = [lit "Patch1 : a"; lit "Patch100 new"] /\
  match parse_tags [lit "Patch1 : a"; lit "Patch100 new"] with Ok ts => map t_name (ts_data ts) = [lit "Patch1"] | Err _ => False end.
Proof.
  exists (container true ["Patch1 : a"]%string []).
  exists (or_else (container true ["Patch1 : a"]%string []) (fst_of (add_patch (U:=unicode_none) (container true ["Patch1 : a"]%string []) (lit "new") (Some 100%Z) 0))).
  exists 1%nat.
  split; [apply container_readable|].
  repeat match goal with |- _ /\ _ => split end; vm_compute; reflexivity.
Qed.
Lemma reversed_slice :
  exists s s', readable (U:=unicode_none) s /\ tags_raw (s_tags s) = map lit ["Source0: a"; "Source1: b"; "License: MIT"]%string /\
  delete_slice (U:=unicode_none) s [1; 0]%nat = Ok s' /\ tags_raw (s_tags s') = [lit "Source1: b"].
Proof.
  exists (container false ["Source0: a"; "Source1: b"; "License: MIT"]%string []).
  exists (or_else (container false ["Source0: a"; "Source1: b"; "License: MIT"]%string []) (delete_slice (U:=unicode_none) (container false ["Source0: a"; "Source1: b"; "License: MIT"]%string []) [1; 0]%nat)).
  split; [apply container_readable|].
  repeat match goal with |- _ /\ _ => split end; vm_compute; reflexivity.
Qed.
Lemma conditions_become_sources :
  match fst (slist_parse (U:=unicode_none) (fun (skip : bool) (w : unit) s => (Ok s, w)) tt (map lit ["%if 0"; "a"; "%endif"; " "]%string)) with
  | Ok s => map e_location (sl_data s) = map lit ["%if 0"; "a"; "%endif"; " "]%string | Err _ => False end.
Proof.
  vm_compute. reflexivity.
Qed.
Lemma unnumbered_shift :
  exists s s', readable (U:=unicode_none) s /\ locations (U:=unicode_none) s = map lit ["a"; "b"]%string /\ numbers (U:=unicode_none) s = [0; 1]%Z /\
  delete_item (U:=unicode_none) s 0 = Ok s' /\ locations (U:=unicode_none) s' = [lit "b"] /\ numbers (U:=unicode_none) s' = [0]%Z.
Proof.
  exists (container false ["Source: a"; "Source: b"]%string []).
  exists (or_else (container false ["Source: a"; "Source: b"]%string []) (delete_item (U:=unicode_none) (container false ["Source: a"; "Source: b"]%string []) 0)).
  split; [apply container_readable|].
  repeat match goal with |- _ /\ _ => split end; vm_compute; reflexivity.
Qed.
Lemma source_license :
  exists s, readable (U:=unicode_none) s /\ tags_raw (s_tags s) = map lit ["Source0: a"; "License: MIT"; "SourceLicense: MIT"; "Summary: x"]%string /\
  lines_of (insert (U:=unicode_none) s 0 (lit "p")) = map lit ["Source0: a"; "License: MIT"; "SourceLicense: MIT"; "Patch0:        p"; "Summary: x"]%string.
Proof.
  exists (container true ["Source0: a"; "License: MIT"; "SourceLicense: MIT"; "Summary: x"]%string []).
  split; [apply container_readable|]. split; vm_compute; reflexivity.
Qed.
