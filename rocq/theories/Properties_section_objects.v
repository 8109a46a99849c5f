(** C244-C247: copies, slices and sums of sections and of lists of sections; comparing positional arguments. *)
From Coq Require Import Ascii String.
From Coq Require Import NArith ZArith List Bool.
From Verif Require Import PyStr M_constants M_options M_sections M_slice M_equality M_section_objects Spec_section_objects P_section_objects.
From Verif Require M_shared M_prep.
Import ListNotations.
Open Scope N_scope.

(** * C244 (refuted): "[section.copy()] equals the section, and changing either leaves the other unchanged". *)
Theorem C244_equal : forall h i j, section_of (copy_section h i j) j = section_of h i /\ forall m, m <> j -> section_of (copy_section h i j) m = section_of h m.
Proof. exact copied_same. Qed.
Print Assumptions C244_equal.
(** It holds of names and lines, for any number of changes. *)
Theorem C244_names_and_lines : forall h i j es, i <> j -> Forall own es ->
  section_of (apply_edits j es (copy_section h i j)) i = section_of h i /\ section_of (apply_edits i es (copy_section h i j)) j = section_of h i.
Proof. exact copied_own. Qed.
Print Assumptions C244_names_and_lines.
(** Options are shared: any change of the options of the copy is one of the original. *)
Theorem C244_options_refuted : forall h i j p, i <> j ->
  section_of (apply_edit j (copy_section h i j) (Options p)) i =
    mk_section (s_name (section_of h i)) p (s_delimiter (section_of h i)) (s_separator (section_of h i)) (s_data (section_of h i)).
Proof. exact copied_options. Qed.
Print Assumptions C244_options_refuted.
(** A slice of all the lines is independent; it has the lines that the slice picks, and the header of the section. *)
Theorem C244_slices : forall (U : Unicode) h i j k s h', slice_section h i j k s = Ok h' -> i <> j -> so_opts (h_secs h i) <> k ->
  (exists l, get_slice s (s_data (section_of h i)) = Ok l /\ section_of h' j = with_data l (section_of h i)) /\
  (forall es, section_of (apply_edits j es h') i = section_of h i) /\
  (forall es, section_of (apply_edits i es h') j = section_of h' j).
Proof. exact @sliced. Qed.
Print Assumptions C244_slices.
Theorem C244_slices_fail : forall (U : Unicode) h i j k s e, slice_section h i j k s = Err e -> In (lower (s_name (section_of h i))) SECTION_NAMES ->
  sl_step s = Some 0%Z /\ e = ValueError.
Proof. exact @slice_fails. Qed.
Print Assumptions C244_slices_fail.
Definition tokens (l : list string) : opts := mk_opts (map (fun x => mk_token DEFAULT (lit x)) l) (lit "n:f:p:P:eq") [].
Definition objects : heap := mk_heap (fun _ => tokens ["-p"]%string)
  (fun i => mk_sobject (lit (if Nat.eqb i 0 then "post" else "build")%string) i [SPC] [LF] (map lit ["a"; "b"; "c"]%string)).
Example C244_example :
  let h := copy_section objects 0 9 in
  s_id (section_of objects 0) = lit "post -p" /\
  s_id (section_of (apply_edit 9 h (Options (tokens ["-e"]%string))) 0) = lit "post -e" /\
  s_data (section_of (apply_edit 9 h (Content [])) 0) = map lit ["a"; "b"; "c"]%string /\
  match slice_section (U:=unicode_none) objects 0 9 9 (mk_slice (Some 1%Z) None None) with
  | Ok h' => s_data (section_of h' 9) = map lit ["b"; "c"]%string /\ s_id (section_of (apply_edit 9 h' (Options (tokens ["-e"]%string))) 0) = lit "post -p"
  | Err _ => False end.
Proof. split; [vm_compute; reflexivity|]. split; [vm_compute; reflexivity|]. split; [vm_compute; reflexivity|]. vm_compute. split; reflexivity. Qed.

(** * C245 (refuted): "changing a copy of the list of sections leaves the list unchanged". *)
(** Assigning lines to an attribute of the copy has the effect of that assignment on the original. *)
Theorem C245_lines_refuted : forall (U : Unicode) h l id d h', assign_lines h (copy_sections l) id d = Some h' -> NoDup l ->
  sec_set_data (map (section_of h) l) id d = Some (map (section_of h') l).
Proof. exact @assigned_lines. Qed.
Print Assumptions C245_lines_refuted.
(** Assigning a section and deleting one make another list of sections that have not changed. *)
Theorem C245_sections : forall (U : Unicode) h l id j,
  (forall c, assign_section h (copy_sections l) id j = Some c -> exists k, sec_find (map (section_of h) l) id = Ok k /\ map (section_of h) c = update_at k (fun _ => section_of h j) (map (section_of h) l)) /\
  (forall c, delete_section h (copy_sections l) id = Some c -> sec_del (map (section_of h) l) id = Some (map (section_of h) c)).
Proof. exact @list_changed. Qed.
Print Assumptions C245_sections.
Definition plain : heap := mk_heap (fun _ => tokens []) (fun i => mk_sobject (lit (if Nat.eqb i 0 then "package" else if Nat.eqb i 1 then "prep" else "build")%string) i [] [LF] [lit "x"]).
Example C245_example : NoDup [0; 1; 2]%nat /\
  match assign_lines (U:=unicode_none) plain [0; 1; 2]%nat (lit "Prep") [lit "y"] with
  | Some h' => map s_data (map (section_of h') [0; 1; 2]%nat) = [[lit "x"]; [lit "y"]; [lit "x"]] | None => False end /\
  assign_section (U:=unicode_none) plain [0; 1; 2]%nat (lit "prep") 7 = Some [0; 7; 2]%nat /\ delete_section (U:=unicode_none) plain [0; 1; 2]%nat (lit "prep") = Some [0; 2]%nat.
Proof. split; [repeat constructor; cbn; intuition discriminate|]. split; [vm_compute; reflexivity|]. split; vm_compute; reflexivity. Qed.

(** * C246 (refuted): "sections are lists: [section + lines] has the lines of both, and [section * n] has them [n] times". *)
Theorem C246_refuted : forall (U : Unicode) (s : section) (lines : list str) (n : nat), section_plus s lines = Err AttributeError /\ section_times s n = Err AttributeError.
Proof. intros. split; reflexivity. Qed.
Print Assumptions C246_refuted.
Example C246_example : section_plus (U:=unicode_none) (section_of plain 1) [lit "y"] = Err AttributeError /\ exists s, new_section (U:=unicode_none) (Name (lit "prep")) = Ok s.
Proof. split; [reflexivity|]. eexists. vm_compute. reflexivity. Qed.

(** * C247: positional arguments are equal if there are as many and each is the same number or the same text. *)
Theorem C247_equal : forall (U : Unicode) (a b : opts), Forall argument_ok (pos_list a) -> Forall argument_ok (pos_list b) ->
  exists r, positionals_eq a b = Ok r /\ (r = true <-> Forall2 same_argument (pos_list a) (pos_list b)).
Proof. exact @positionals_compared. Qed.
Print Assumptions C247_equal.
(** Numerals that [int] does not read, like superscripts, are a [ValueError] on either side. *)
Theorem C247_unreadable : forall (U : Unicode) (a b : opts), ~ Forall argument_ok (pos_list a) \/ ~ Forall argument_ok (pos_list b) -> positionals_eq a b = Err ValueError.
Proof. exact @positionals_unreadable. Qed.
Print Assumptions C247_unreadable.
Example C247_example :
  positionals_eq (U:=unicode_none) (tokens ["01"; "x"]%string) (tokens ["1"; "x"]%string) = Ok true /\ positionals_eq (U:=unicode_none) (tokens ["1"; "x"]%string) (tokens ["1"]%string) = Ok false /\
  positionals_eq (U:=unicode_none) (tokens ["1"; "X"]%string) (tokens ["1"; "x"]%string) = Ok false /\ Forall (argument_ok (U:=unicode_none)) (pos_list (tokens ["01"; "x"]%string)).
Proof.
  split; [vm_compute; reflexivity|]. split; [vm_compute; reflexivity|]. split; [vm_compute; reflexivity|].
  assert (E : pos_list (tokens ["01"; "x"]%string) = [lit "01"; lit "x"]) by (vm_compute; reflexivity). rewrite E.
  constructor; [intros _; exists 1; vm_compute; reflexivity|]. constructor; [intros Q; vm_compute in Q; discriminate|constructor].
Qed.

(** * C203 for [%prep] macros: deleting a macro of a copy puts the lines above it on top of the next macro, in the original too, which
    then writes them twice; deleting the last one does not. *)
Theorem C203_copies_of_prep_macros_refuted : forall h c a d n b, M_shared.dl_ids c = a ++ d :: n :: b -> NoDup (M_shared.dl_ids c) ->
  exists h' c', delete_macro h c (length a) = Ok (h', c') /\
    M_prep.delete (prep_of h c) (Z.of_nat (length a)) = Ok (prep_of h' c') /\
    M_prep.prep_raw (prep_of h' c) = flat_map M_prep.macro_raw (map h a) ++ M_prep.macro_raw (h d) ++ M_prep.m_preceding (h d) ++ M_prep.macro_raw (h n) ++
      flat_map M_prep.macro_raw (map h b) ++ M_shared.dl_rem c.
Proof. exact macros_copied. Qed.
Print Assumptions C203_copies_of_prep_macros_refuted.
Theorem C203_copies_of_prep_macros_last : forall h c a d, M_shared.dl_ids c = a ++ [d] ->
  exists c', delete_macro h c (length a) = Ok (h, c') /\ M_prep.delete (prep_of h c) (Z.of_nat (length a)) = Ok (prep_of h c').
Proof. exact macros_copied_last. Qed.
Print Assumptions C203_copies_of_prep_macros_last.
Definition two_macros (i : nat) : M_prep.macro :=
  M_prep.mk_macro (if Nat.eqb i 0 then M_prep.Setup else M_prep.Autopatch) (lit (if Nat.eqb i 0 then "%setup" else "%autopatch")%string) (tokens []) [] [] [] (if Nat.eqb i 0 then [lit "cd x"] else []).
Example C203_prep_example : NoDup [0; 1]%nat /\
  match delete_macro two_macros (M_shared.mk_dlist [0; 1]%nat [lit "end"]) 0 with
  | Ok (h', c') => M_prep.prep_raw (prep_of h' c') = map lit ["cd x"; "%autopatch"; "end"]%string /\
                   M_prep.prep_raw (prep_of h' (M_shared.mk_dlist [0; 1]%nat [lit "end"])) = map lit ["cd x"; "%setup"; "cd x"; "%autopatch"; "end"]%string
  | Err _ => False end.
Proof. split; [repeat constructor; cbn; intuition discriminate|]. vm_compute. split; reflexivity. Qed.

(** * C57: an identifier that no section has is not in the list; then [get] raises, and there is no attribute of that name to set or delete. *)
Theorem C57_absent : forall (U : Unicode) (l : list section) (id : str), ((forall s, In s l -> s_nid s <> lower id) <-> sec_contains l id = false) /\
  ((forall s, In s l -> s_nid s <> lower id) -> sec_get l id = Err ValueError /\ forall d, sec_set_data l id d = None /\ sec_del l id = None).
Proof. exact @absent_section. Qed.
Print Assumptions C57_absent.
Example C57_absent_example : sec_contains (U:=unicode_none) (map (section_of plain) [0; 1; 2]%nat) (lit "check") = false /\
  sec_contains (U:=unicode_none) (map (section_of plain) [0; 1; 2]%nat) (lit "PREP") = true.
Proof. split; vm_compute; reflexivity. Qed.

(** * C248 (refuted): "reading the identifiers of sections changes nothing, and a section whose options are as they were is as it was". *)
(** Reading gives the identifiers and leaves them, the text and the lines as they are. *)
Theorem C248_reading : forall (U : Unicode) (s : section),
  read_id s = (s_id s, settled s) /\ read_nid s = (s_nid s, settled s) /\ read_id (settled s) = read_id s /\ read_nid (settled s) = read_nid s /\
  section_str (settled s) = section_str s /\ section_raw (settled s) = section_raw s.
Proof. exact @reading_identifiers. Qed.
Print Assumptions C248_reading.
(** But a space is remembered.  An option is added to a section without any and is deleted again: if the identifier was read in between,
    as every access to a section by its name does for the sections above it, the header ends in a space, and the section is not found by its name. *)
Theorem C248_refuted : forall (U : Unicode) (s : section) (c : char) (v : oval) (o' : opts),
  s_delimiter s = [] -> o_tokens (s_opts s) = [] -> valid_option (s_opts s) c = true -> opt_set (s_opts s) c v = Ok o' ->
  v = VBool true \/ (exists t, v = VStr t /\ startswith t [DASH] = false) ->
  s_id s = s_name s /\ s_id (with_options (opt_del o' c) (with_options o' s)) = s_name s /\
  s_id (with_options (opt_del o' c) (snd (read_nid (with_options o' s)))) = s_name s ++ [SPC] /\
  s_nid (with_options (opt_del o' c) (snd (read_nid (with_options o' s)))) = lower (s_name s) ++ [SPC].
Proof. exact @option_and_back. Qed.
Print Assumptions C248_refuted.
Example C248_example : let s := mk_section (lit "post") (tokens []) [] [LF] [lit "true"] in
  match opt_set (s_opts s) 112 (VStr (lit "/bin/sh")) with
  | Ok o' => s_id (with_options o' s) = lit "post -p /bin/sh" /\
             let s' := with_options (opt_del o' 112) (snd (read_nid (U:=unicode_none) (with_options o' s))) in
             section_raw (U:=unicode_none) s' = map lit ["%post "; "true"]%string /\ sec_contains (U:=unicode_none) [s'] (lit "post") = false /\
             sec_contains (U:=unicode_none) [with_options (opt_del o' 112) (with_options o' s)] (lit "post") = true
  | Err _ => False end.
Proof. vm_compute. repeat split; reflexivity. Qed.
