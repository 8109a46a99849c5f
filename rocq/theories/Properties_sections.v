(** Properties C01, C02 and C57-C63 (sections).  Specification: Spec_sections.v. *)
From Coq Require Import Ascii String.
From Coq Require Import NArith ZArith List Bool Lia.
From Verif Require Import PyStr PyStrFacts M_constants M_options M_macro_definitions Spec_macro_definitions M_sections Spec_sections
  P_sections P_sections2 P_sections3 P_sections4 P_sections5.
Import ListNotations.
Open Scope N_scope.

(** A concrete expansion for the examples: [%{nl}] gives a line break and a word, everything else itself. *)
Definition ids (r : result (list section) * unit) : list (str * list str) :=
  match fst r with Ok l => map (fun s => (s_id s, s_data s)) l | Err _ => [] end.

(** C01: nothing is changed by parsing and writing back. *)
Theorem C01_round_trip :
  forall (U : Unicode) (W : Type) (expand : bool -> W -> str -> result str * W) (w : W) (lines : list str) (secs : list section) (w' : W),
  parse expand w lines = (Ok secs, w') ->
  Forall no_break lines ->
  Forall (fun l => header_line l -> stable_header l) lines ->
  Forall (fun s => s_nid s <> lit "package") (tl secs) ->
  sections_raw secs = lines /\ sections_str secs = lines_text lines.
Proof. exact @sections_round_trip. Qed.
Print Assumptions C01_round_trip.
(** Headers without quotes, backslashes and macros are stable. *)
Theorem C01_plain_headers_are_stable :
  forall (U : Unicode) (l : str),
  Forall (fun c => c <> DQUOTE /\ c <> SQUOTE /\ c <> BSLASH /\ c <> PCT) (tl l) -> stable_header l.
Proof. exact @plain_headers. Qed.
Print Assumptions C01_plain_headers_are_stable.
(** Headers whose possible option texts are all canonical are stable. *)
Theorem C01_canonical_options_are_stable :
  forall (U : Unicode) (text : str), Spec_options.canonical_text text -> stable text.
Proof. exact @canonical_stable. Qed.
Print Assumptions C01_canonical_options_are_stable.
Definition example_lines : list str :=
  map lit ["Name: x"; "%define a \"; "%build"; ""; "%Files  -n foo -f bar"; "/usr"; "%description"; "%prep %{nl}"; "%setup"; "%post -p %{bash}"]%string.
Example C01_example :
  ids (parse_demo example_lines) =
    [(lit "package", map lit ["Name: x"; "%define a \"; "%build"; ""]%string); (lit "Files  -n foo -f bar", [lit "/usr"]);
     (lit "description", []); (lit "prep", map lit ["%{nl}"; "%setup"]%string); (lit "post -p %{bash}", [])] /\
  Forall no_break example_lines /\
  (exists secs, fst (parse_demo example_lines) = Ok secs /\ Forall (fun s => s_nid (U:=unicode_none) s <> lit "package") (tl secs) /\
     sections_raw (U:=unicode_none) secs = example_lines).
Proof.
  split; [vm_compute; reflexivity|]. split; [repeat constructor|]. eexists. split; [vm_compute; reflexivity|]. split; [|vm_compute; reflexivity].
  repeat constructor; vm_compute; discriminate.
Qed.
Example C01_example_stable : stable_header (U:=unicode_none) (lit "%Files  -n foo -f bar").
Proof. apply C01_plain_headers_are_stable. repeat constructor; discriminate. Qed.

(** C02: the sections are the blocks of lines between headers. *)
Theorem C02_boundaries :
  forall (U : Unicode) (W : Type) (expand : bool -> W -> str -> result str * W) (w : W) (lines : list str) (secs : list section) (w' : W),
  Forall (fun l => ~ In LF l) lines -> distinct (parse_plain lines) ->
  parse expand w lines = (Ok secs, w') ->
  exists p ss bs, secs = p :: ss /\ s_nid p = lit "package" /\ lines = s_data p ++ block_lines bs /\ Forall2 belongs bs ss /\
    forall i line, nth_error lines i = Some line ->
      (In i (block_starts (length (s_data p)) bs) <-> header_line line /\ ~ body_line (parse_plain lines) i).
Proof. exact @boundaries. Qed.
Print Assumptions C02_boundaries.
Example C02_example :
  Forall (fun l => ~ In LF l) example_lines /\ distinct (parse_plain (U:=unicode_none) example_lines) /\
  (exists d, md_data (parse_plain (U:=unicode_none) example_lines) = [d] /\ d_name d = lit "a") /\ body_line (parse_plain (U:=unicode_none) example_lines) 2.
Proof.
  assert (exists d, md_data (parse_plain (U:=unicode_none) example_lines) = [d] /\ d_name d = lit "a" /\ length (split_on LF [] (d_body d)) = 2%nat /\ length (d_preceding d) = 1%nat) as (d & E & N & L1 & L2).
  { eexists. split; [vm_compute; reflexivity|]. auto. }
  split; [repeat constructor; cbn; intuition discriminate|]. revert E. generalize (parse_plain (U:=unicode_none) example_lines). intros m E.
  split; [|split].
  - intros a x b Q y Hy. rewrite E in Q. destruct a as [|a0 [|]]; try discriminate. destruct Hy.
  - eauto.
  - exists [], d, [], 1%nat. rewrite E, L1, L2. auto.
Qed.

(** C02: names, options and content of the sections, when expansion does not depend on the state of the parser. *)
Theorem C02_headers :
  forall (U : Unicode) (W : Type) (E : str -> result str) (w : W) (lines : list str) (secs : list section) (w' : W),
  parse (fun _ w s => (E s, w)) w lines = (Ok secs, w') ->
  exists p ss bs, secs = p :: ss /\ lines = s_data p ++ block_lines bs /\ Forall2 (made_from E) bs ss.
Proof. exact @sections_made. Qed.
Print Assumptions C02_headers.
Example C02_example_headers :
  let E := fun s => Ok (if str_eqb s (lit "%{nl}") then [LF] else s) in
  exists secs, fst (parse (U:=unicode_none) (fun _ w s => (E s, w)) tt (map lit ["%prep %{nl}"; "%setup"; "%post -p %{bash}"]%string)) = Ok secs /\
    map s_data secs = [[]; map lit ["%{nl}"; "%setup"]%string; []] /\ content_word E (lit "%{nl}") /\ ~ content_word E (lit "%{bash}").
Proof.
  eexists. split; [vm_compute; reflexivity|]. split; [vm_compute; reflexivity|]. split.
  - split; [now exists (lit "{nl}")|]. split; [repeat constructor|]. exists []. vm_compute. reflexivity.
  - intros (_ & _ & u & Q). vm_compute in Q. discriminate.
Qed.

(** C57: changing or deleting a section by identifier touches the first section with that identifier, and only that part of the text. *)
Theorem C57_first_with_identifier :
  forall (U : Unicode) (a : list section) (s : section) (b : list section) (id : str) (d : list str),
  s_nid s = lower id -> Forall (fun x => s_nid x <> lower id) a ->
  sec_set_data (a ++ s :: b) id d = Some (a ++ with_data d s :: b) /\
  sec_del (a ++ s :: b) id = Some (a ++ b) /\ sec_get (a ++ s :: b) id = Ok s /\ sec_contains (a ++ s :: b) id = true.
Proof. exact @set_first. Qed.
Print Assumptions C57_first_with_identifier.
Theorem C57_edit_is_local :
  forall (U : Unicode) (W : Type) (expand : bool -> W -> str -> result str * W) (w : W) (lines : list str) (secs : list section) (w' : W)
    (a : list section) (s : section) (b : list section),
  parse expand w lines = (Ok secs, w') -> Forall no_break lines ->
  Forall (fun l => header_line l -> stable_header l) lines -> Forall (fun x => s_nid x <> lit "package") (tl secs) ->
  secs = a ++ s :: b ->
  exists before after, lines_text lines = before ++ lines_text (s_data s) ++ after /\
    forall d, sections_str (a ++ with_data d s :: b) = before ++ lines_text d ++ after.
Proof. exact @sections_edit_local. Qed.
Print Assumptions C57_edit_is_local.
Theorem C57_delete_is_local :
  forall (U : Unicode) (W : Type) (expand : bool -> W -> str -> result str * W) (w : W) (lines : list str) (secs : list section) (w' : W)
    (a : list section) (s : section) (b : list section),
  parse expand w lines = (Ok secs, w') -> Forall no_break lines ->
  Forall (fun l => header_line l -> stable_header l) lines -> Forall (fun x => s_nid x <> lit "package") (tl secs) ->
  secs = a ++ s :: b ->
  exists l1 ls l2, lines = l1 ++ ls ++ l2 /\ sections_raw (a ++ b) = l1 ++ l2 /\ section_raw s = ls /\
    (a <> [] -> exists h body, ls = h :: body /\ header_line h).
Proof. exact @sections_delete_local. Qed.
Print Assumptions C57_delete_is_local.
Example C57_example :
  exists a s b, fst (parse_demo example_lines) = Ok (a ++ s :: b) /\ s_nid (U:=unicode_none) s = lower (U:=unicode_none) (lit "FILES  -n foo -f bar") /\
    s_data s = [lit "/usr"] /\ a <> [] /\ Forall (fun x => s_nid (U:=unicode_none) x <> lower (U:=unicode_none) (lit "FILES  -n foo -f bar")) a.
Proof.
  assert (exists x0 x1 b, fst (parse_demo example_lines) = Ok (x0 :: x1 :: b) /\ s_nid (U:=unicode_none) x1 = lit "files  -n foo -f bar" /\
    s_data x1 = [lit "/usr"] /\ s_nid (U:=unicode_none) x0 = lit "package") as (x0 & x1 & b & E & N1 & D & N0).
  { do 3 eexists. split; [vm_compute; reflexivity|]. repeat split; vm_compute; reflexivity. }
  exists [x0], x1, b. repeat split; auto; [discriminate|]. repeat constructor. rewrite N0. vm_compute. discriminate.
Qed.

(** C58: a section is found by its own identifier, in any case, if nothing after the name has upper case letters. *)
Theorem C58_lookup_by_own_identifier :
  forall (U : Unicode) (a : list section) (s : section) (b : list section) (id : str),
  lower (s_delim s ++ tokens_str (o_tokens (s_opts s))) = s_delim s ++ tokens_str (o_tokens (s_opts s)) ->
  lower id = lower (s_id s) ->
  sec_contains (a ++ s :: b) id = true /\
  exists s', sec_get (a ++ s :: b) id = Ok s' /\ In s' (a ++ [s]) /\ s_nid s' = s_nid s.
Proof. exact @lookup_own. Qed.
Print Assumptions C58_lookup_by_own_identifier.
Example C58_example :
  exists s, make_section (U:=unicode_none) (lit "Build") None [] [LF] [lit "make"] = Ok s /\
    lower (U:=unicode_none) (s_delim s ++ tokens_str (o_tokens (s_opts s))) = s_delim s ++ tokens_str (o_tokens (s_opts s)) /\
    lower (U:=unicode_none) (lit "bUILD") = lower (U:=unicode_none) (s_id s).
Proof. eexists. split; [vm_compute; reflexivity|]. split; vm_compute; reflexivity. Qed.

(** C59: ... but not if it has: [sections.get("package -n Foo")] fails for the section of [%package -n Foo]. *)
Theorem C59_upper_case_options_refuted :
  exists lines l s, fst (parse_demo lines) = Ok l /\ In s l /\ sec_contains (U:=unicode_none) l (s_id s) = false /\
    sec_get (U:=unicode_none) l (s_id s) = Err ValueError.
Proof. exact upper_case_options. Qed.
Print Assumptions C59_upper_case_options_refuted.

(** C60: the section of [%build ] (with a blank) is not found as "build". *)
Theorem C60_trailing_blank_refuted :
  exists l, fst (parse_demo [lit "%build "; lit "make"]) = Ok l /\ (exists s, In s l /\ s_name s = lit "build" /\ o_tokens (s_opts s) = []) /\
    sec_contains (U:=unicode_none) l (lit "build") = false.
Proof. exact trailing_blank. Qed.
Print Assumptions C60_trailing_blank_refuted.

(** C61: with two equal multi-line definitions a line of the second body opens a section. *)
Theorem C61_equal_definitions_refuted :
  exists lines l, fst (parse_demo lines) = Ok l /\ length l = 2%nat /\
    forall i line, nth_error lines i = Some line -> header_line line -> body_line (parse_plain (U:=unicode_none) lines) i.
Proof. exact equal_definitions. Qed.
Print Assumptions C61_equal_definitions_refuted.

(** C62: writing back loses a bare [%package] and rewrites headers with white space in a macro reference. *)
Theorem C62_headers_kept_refuted :
  (exists lines l, Forall no_break lines /\ fst (parse_demo lines) = Ok l /\ length lines = 2%nat /\ length (sections_raw (U:=unicode_none) l) = 1%nat) /\
  (exists l, fst (parse_demo [lit "%files %{?x:-n foo}"]) = Ok l /\ sections_raw (U:=unicode_none) l = [lit "%files %{?x:-n\ foo}"]).
Proof. exact headers_kept. Qed.
Print Assumptions C62_headers_kept_refuted.

(** C63: a line recognised as a header may have a name that no section can have, and the parser fails. *)
Theorem C63_accepted_names_refuted :
  exists line, header_line line /\ fst (parse_demo [line]) = Err ValueError.
Proof. exact accepted_names. Qed.
Print Assumptions C63_accepted_names_refuted.
