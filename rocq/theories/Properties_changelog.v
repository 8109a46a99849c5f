(** Properties of the changelog API (specfile/changelog.py). *)
From Coq Require Import Ascii String.
From Coq Require Import NArith ZArith List Bool Lia.
From Verif Require Import PyStr Regex M_evr M_changelog Spec_changelog P_changelog P_changelog2 P_changelog3.
Import ListNotations.
Open Scope N_scope.

(** C18: serialising a parsed %changelog gives back exactly the lines. *)
Theorem C18_changelog_roundtrip :
  forall lines : list str, get_raw_section_data (parse lines) = lines.
Proof. exact parse_raw. Qed.
Print Assumptions C18_changelog_roundtrip.

(** C18: the parsed value really is a changelog in the sense of Spec_changelog
    (headers start with "*", content has no trailing blank lines, ...). *)
Theorem C18_changelog_parse_wellformed :
  forall lines : list str, wf_changelog (parse lines).
Proof. exact parse_wf. Qed.
Print Assumptions C18_changelog_parse_wellformed.

(** C18: conversely every well-formed changelog is recovered from its text; with
    the two theorems above this determines the parser. *)
Theorem C18_changelog_text_determines_value :
  forall c : changelog, wf_changelog c -> parse (get_raw_section_data c) = c.
Proof. exact raw_parse. Qed.
Print Assumptions C18_changelog_text_determines_value.

Definition demo_lines : list str := map lit
  ["# comment"; "* Mon Jan 06 2025 A B <a@b> - 1:2.0-1"; "- second"; ""; "";
   "* Fri Jan 03 2025 A B <a@b> - 1.0-1"; "* odd line"; "- first"; ""]%string.
Example C18_example :
  wf_changelog (parse demo_lines) /\ length (entries (parse demo_lines)) = 2%nat.
Proof. split; [apply parse_wf | reflexivity]. Qed.

(** C19: appending an entry inserts its lines before the first header line and
    keeps every existing line in order. *)
Theorem C19_changelog_append_is_insertion :
  forall (lines : list str) (e : entry),
  exists before after,
    lines = before ++ after /\
    Forall (fun l => ~ header_line l) before /\
    (after = [] \/ exists l r, after = l :: r /\ header_line l) /\
    get_raw_section_data (append (parse lines) e) =
      before ++ (header e :: content e ++ following e) ++ after.
Proof. exact append_lines. Qed.
Print Assumptions C19_changelog_append_is_insertion.

(** C132: [del changelog[i]] with a non-negative index removes header and
    content of that entry and its first following blank line, nothing else. *)
Theorem C132_changelog_delete_removes_entry :
  forall a e b p, exists c',
    delete (mk_changelog (a ++ e :: b) p) (Z.of_nat (length a)) = Ok c' /\
    get_raw_section_data c' =
      p ++ flat_map entry_lines (rev b) ++ tl (following e) ++ flat_map entry_lines (rev a) /\
    get_raw_section_data (mk_changelog (a ++ e :: b) p) =
      p ++ flat_map entry_lines (rev b) ++ (header e :: content e ++ following e) ++
      flat_map entry_lines (rev a).
Proof. exact delete_lines. Qed.
Print Assumptions C132_changelog_delete_removes_entry.

(** Finding: a valid negative index raises IndexError after the entry is already gone. *)
Theorem C133_changelog_delete_negative_index_refuted :
  exists c : changelog, py_index (entries c) (-1) <> None /\ delete c (-1) = Err IndexError.
Proof. exists (mk_changelog [mk_entry (lit "* x") [lit "- y"] []] []). split; [discriminate|reflexivity]. Qed.
Print Assumptions C133_changelog_delete_negative_index_refuted.

(** C21: filtering a sorted changelog selects exactly the entries within the bounds. *)
Theorem C21_changelog_filter_selects_range :
  forall (U : Unicode) (cmp : label -> label -> Z), total_preorder cmp ->
  forall (c : changelog) (since until : option str),
  (forall e, In e (entries c) -> entry_evr e <> None) ->
  ascending cmp (entries c) ->
  M_changelog.filter cmp c since until =
  Ok (mk_changelog (List.filter (in_range cmp since until) (entries c)) (predecessor c)).
Proof. exact @filter_correct. Qed.
Print Assumptions C21_changelog_filter_selects_range.

Definition demo_cmp (x y : label) : Z :=
  (Z.of_nat (length (snd (fst x))) - Z.of_nat (length (snd (fst y))))%Z.
Example C21_example :
  total_preorder demo_cmp /\
  (forall e, In e (entries (parse demo_lines)) -> @entry_evr unicode_none e <> None) /\
  @ascending unicode_none demo_cmp (entries (parse demo_lines)).
Proof.
  split; [split; unfold demo_cmp; intros; lia|]. split.
  - intros e He. repeat (destruct He as [<-|He]; [vm_compute; discriminate|]). destruct He.
  - change (entries (parse demo_lines)) with
      [mk_entry (lit "* Fri Jan 03 2025 A B <a@b> - 1.0-1") [lit "* odd line"; lit "- first"] [[]];
       mk_entry (lit "* Mon Jan 06 2025 A B <a@b> - 1:2.0-1") [lit "- second"] [[]; []]].
    apply ascending_pair. vm_compute. discriminate.
Qed.

(** Finding: one entry without a recognisable EVR makes filtering raise TypeError. *)
Theorem C168_changelog_filter_without_evr_refuted :
  forall U : Unicode, forall cmp, exists c : changelog,
    (exists lines, c = parse lines) /\ M_changelog.filter cmp c (Some (lit "1.0-1")) None = Err TypeError.
Proof.
  intros U cmp. exists (parse [lit "* Mon Jan 06 2025 A B <a@b>"; lit "- x"]).
  split; [eauto|]. vm_compute. reflexivity.
Qed.
Print Assumptions C168_changelog_filter_without_evr_refuted.

(** C22: the EVR given to [assemble] is read back from the header. *)
Theorem C22_assemble_evr_reads_back :
  forall (U : Unicode) ts author cont v padding nl,
  ~ In LF author -> ~ In LF padding -> time_nolf ts -> evr_token v ->
  entry_evr (assemble ts author cont (Some v) padding nl) = Some v.
Proof. exact @assemble_evr_readback. Qed.
Print Assumptions C22_assemble_evr_reads_back.

(** C22: the padding of the day of month is read back: any number of spaces, and the
    zero exactly when the day has one digit. *)
Theorem C22_assemble_padding_reads_back :
  forall (U : Unicode) ts author cont v k (zero nl : bool),
  valid_date ts ->
  day_of_month_padding
    (assemble ts author cont v (spaces k ++ (if zero then [ZERO] else [])) nl) =
  spaces k ++ (if zero && (t_day ts <? 10) then [ZERO] else []).
Proof. exact @padding_readback. Qed.
Print Assumptions C22_assemble_padding_reads_back.

(** C22: a datetime is recognised as an extended timestamp unless the day is
    zero-padded (see C169 below). *)
Theorem C22_assemble_extended_reads_back :
  forall (U : Unicode) ts author cont v k (zero nl : bool),
  valid_date ts -> valid_time ts -> (zero = true -> 10 <= t_day ts) ->
  extended_timestamp
    (assemble ts author cont v (spaces k ++ (if zero then [ZERO] else [])) nl) = true.
Proof. exact @extended_readback. Qed.
Print Assumptions C22_assemble_extended_reads_back.

(** C22: and a date is not taken for one, unless the author has a colon or the EVR has
    more than one. *)
Theorem C22_assemble_date_reads_back :
  forall (U : Unicode) ts author cont v padding nl,
  t_time ts = None -> ~ In COLON author -> ~ In COLON padding ->
  (forall x, v = Some x -> (count_occ N.eq_dec x COLON <= 1)%nat) ->
  extended_timestamp (assemble ts author cont v padding nl) = false.
Proof. exact @extended_not_readback. Qed.
Print Assumptions C22_assemble_date_reads_back.
Example C22_date_example :
  let ts := mk_ts 2 1 5 2025 None in
  t_time ts = None /\ ~ In COLON (lit "A B <a@b>") /\
  (count_occ N.eq_dec (lit "1:2.0-1.fc40") COLON <= 1)%nat /\
  header (assemble ts (lit "A B <a@b>") [] (Some (lit "1:2.0-1.fc40")) (lit "0") true) =
  lit "* Wed Jan 05 2025 A B <a@b> - 1:2.0-1.fc40".
Proof.
  split; [reflexivity|]. split; [|split; [vm_compute; lia|reflexivity]].
  intros Hi; repeat (destruct Hi as [Hi|Hi]; [discriminate|]); destruct Hi.
Qed.

Definition demo_ts : timestamp := mk_ts 2 1 5 2025 (Some (12, 30, 0, lit "UTC")).
Example C22_example : valid_date demo_ts /\ valid_time demo_ts /\ time_nolf demo_ts /\
  evr_token (lit "1:2.0-1.fc40").
Proof.
  split; [unfold valid_date, demo_ts; cbn [t_weekday t_month t_day t_year]; lia|]. split.
  { exists 12, 30, 0, (lit "UTC"). repeat split; try reflexivity; try discriminate. repeat constructor. }
  split.
  { intros H. repeat (destruct H as [H|H]; [discriminate|]). destruct H. }
  split; [repeat constructor|]. split.
  { exists (lit "1:2.0"), (lit "1.fc40"). repeat split; discriminate. }
  split; [discriminate|]. split; [discriminate|].
  intros t H. apply (f_equal (@rev N)) in H. rewrite rev_app_distr in H. discriminate.
Qed.

(** Finding: with the default padding "0" and a one-digit day, the extended format
    is not recognised as extended. *)
Theorem C169_assemble_extended_zero_padded_refuted :
  forall U : Unicode, exists ts author cont v,
    valid_date ts /\ valid_time ts /\
    extended_timestamp (assemble ts author cont v (lit "0") true) = false.
Proof.
  intros U. exists demo_ts, (lit "A B <a@b>"), [lit "- x"], (Some (lit "1.0-1")).
  split; [apply C22_example|]. split; [apply C22_example|]. vm_compute. reflexivity.
Qed.
Print Assumptions C169_assemble_extended_zero_padded_refuted.

(** C174 (finding): an entry that is added without content is not an entry when the
    changelog is read again: the entry below it becomes its content. *)
Theorem C174_entry_without_content_refuted :
  forall p es e ts author v padding nl,
  wf_changelog (mk_changelog (es ++ [e]) p) -> Forall (fun l => ~ header_line l) (content e) ->
  let new := assemble ts author [] v padding nl in
  parse (get_raw_section_data (append (mk_changelog (es ++ [e]) p) new)) =
  mk_changelog (es ++ [mk_entry (header new) (following new ++ header e :: content e) (following e)]) p.
Proof. exact assemble_swallows. Qed.
Print Assumptions C174_entry_without_content_refuted.
(** Every changelog that was read is of this kind, if it has an entry and no starred lines in it. *)
Example C174_example :
  exists (es : list entry) (e : entry), M_changelog.parse (map lit ["* Mon Jan 06 2025 A B <a@b> - 1-1"; "- x"; ""]%string) = mk_changelog (es ++ [e]) [] /\
  wf_changelog (mk_changelog (es ++ [e]) []) /\ Forall (fun l => ~ header_line l) (content e).
Proof.
  exists [], (mk_entry (lit "* Mon Jan 06 2025 A B <a@b> - 1-1") [lit "- x"] [[]]). split; [reflexivity|]. split.
  - exact (parse_wf (map lit ["* Mon Jan 06 2025 A B <a@b> - 1-1"; "- x"; ""]%string)).
  - repeat constructor. intros [t E]. discriminate E.
Qed.
