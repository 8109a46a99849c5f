(** Properties C19, C20 and C126-C131: adding changelog entries.  Specification: Spec_add_entry.v. *)
From Coq Require Import Ascii String.
From Coq Require Import NArith ZArith List Bool.
From Verif Require Import PyStr M_options M_sections Spec_sections M_changelog M_release M_add_entry Spec_add_entry P_add_entry.
Import ListNotations.
Open Scope N_scope.

(** A world without state for the examples: the EVR is 1:2-3, "%%{v}" expands to "%{v}" and that to "9", anything else to itself. *)
Definition demo_expand (s : str) (w : unit) : unit * result str :=
  (w, Ok (if str_eqb s (lit "%{?epoch:%{epoch}:}%{version}-%{release}") then lit "1:2-3" else if str_eqb s (lit "%%{v}") then lit "%{v}" else if str_eqb s (lit "%{v}") then lit "9" else s)).
Definition demo_surround (w : unit) : surroundings := mk_surroundings None (lit "%packager") (Some (lit "e@x ", [])) (lit "Jo Doe") (lit "jo").
Definition demo_now (extended : bool) (w : unit) : timestamp := mk_ts 0 1 6 2025 (if extended then Some (1, 2, 3, lit "CET") else None).
Definition demo_section (name : str) (data : list str) : section := mk_section name (mk_opts [] [] []) [] [LF] data.
Definition S1 : section := demo_section (lit "changelog") (map lit ["* Fri Jan  3 2025 A - 1-1"; "- first"]%string).
Definition S2 : section := demo_section (lit "Changelog") [].
Definition SA : section := demo_section (lit "changelog") [lit "%autochangelog"].
Definition SX : section := demo_section (lit "changelog") [lit "%{}"].
Notation demo_add := (@add_entries unicode_none unit demo_expand demo_surround demo_now).
Lemma demo_manual : manual (U:=unicode_none) S1 /\ manual (U:=unicode_none) S2 /\ ~ manual (U:=unicode_none) SA.
Proof. split; [split; reflexivity|]. split; [split; reflexivity|]. intros [_ X]. discriminate. Qed.

(** * C19 *)
(** Only the contents of manual changelogs change, and they only get an entry at the top. *)
Theorem C19_sections : forall (U : Unicode) (W : Type) expand surround now entry email secs author evr ts (w : W) secs' w',
  add_entries expand surround now entry email author evr ts secs w = (secs', w', Ok tt) -> Forall2 (extended_by made entry) secs secs'.
Proof. exact @add_ok. Qed.
Print Assumptions C19_sections.
(** If it fails, this is true of the sections before some changelog, and the others are as they were. *)
Theorem C19_failure : forall (U : Unicode) (W : Type) expand surround now entry email e secs author evr ts (w : W) secs' w',
  add_entries expand surround now entry email author evr ts secs w = (secs', w', Err e) ->
  exists x x' s y, secs = x ++ s :: y /\ secs' = x' ++ s :: y /\ Forall2 (extended_by made entry) x x' /\ s_nid s = lit "changelog".
Proof. intros U W expand surround now. exact (add_fails expand surround now). Qed.
Print Assumptions C19_failure.
(** Nothing happens if there is no manual changelog. *)
Theorem C19_nothing_to_do : forall (U : Unicode) (W : Type) expand surround now (w : W) entry email author evr ts secs,
  Forall examined secs -> Forall (fun s => ~ manual s) secs -> add_entries expand surround now entry email author evr ts secs w = (secs, w, Ok tt).
Proof. exact @nothing_to_do. Qed.
Print Assumptions C19_nothing_to_do.
(** The new spec file consists of the sections that are changed so. *)
Theorem C19_text : forall (U : Unicode) (W : Type) expand surround now parse_expand entry author email ts evr lines (w : W) lines' w',
  add_changelog_entry expand surround now parse_expand entry author email ts evr lines w = (lines', w', Ok tt) ->
  exists secs w1 secs', M_sections.parse parse_expand w lines = (Ok secs, w1) /\ lines' = sections_raw secs' /\ Forall2 (extended_by made entry) secs secs'.
Proof. exact @add_text. Qed.
Print Assumptions C19_text.
(** All lines of the spec file are kept, in order, whatever the outcome, if it is written back as it was read (C01). *)
Theorem C19_lines : forall (U : Unicode) (W : Type) expand surround now parse_expand entry author email ts evr lines (w : W) lines' w' r,
  add_changelog_entry expand surround now parse_expand entry author email ts evr lines w = (lines', w', r) ->
  (forall secs w1, M_sections.parse parse_expand w lines = (Ok secs, w1) -> sections_raw secs = lines) -> kept lines lines'.
Proof. exact @add_kept. Qed.
Print Assumptions C19_lines.
Definition demo_file : list str := map lit ["Name: x"; "%changelog"; "# old ones"; "* Fri Jan  3 2025 A - 1-1"; "- first"; "%files"]%string.
Example C19_example :
  @add_changelog_entry unicode_none unit demo_expand demo_surround demo_now (fun _ w s => (Ok s, w)) [lit "- new"] (Some (lit "Jo")) None None None demo_file tt =
    (map lit ["Name: x"; "%changelog"; "# old ones"; "* Mon Jan  6 2025 Jo - 1:2-3"; "- new"; ""; "* Fri Jan  3 2025 A - 1-1"; "- first"; "%files"]%string, tt, Ok tt) /\
  (forall secs w1, @M_sections.parse unicode_none unit (fun _ w s => (Ok s, w)) tt demo_file = (Ok secs, w1) -> sections_raw (U:=unicode_none) secs = demo_file) /\
  fst (fst (demo_add [lit "- new"] None None None None [SA] tt)) = [SA] /\ Forall (examined (U:=unicode_none)) [SA; S1; S2].
Proof.
  split; [vm_compute; reflexivity|]. split; [intros secs w1; vm_compute; intros E; injection E as <- _; reflexivity|]. split; [reflexivity|].
  repeat constructor; intros _; eexists; reflexivity.
Qed.

(** * C20 *)
(** If no e-mail is given (or there is one manual changelog), and the expanded EVR expands to itself, all manual changelogs get entries
    with the same content, date, author and EVR: the author given, or the one that is found, and the date given, or today's, with
    the time if the newest entry of the first one has it.  The padding is that of each changelog. *)
Theorem C20_same_entry : forall (U : Unicode) (W : Type) expand surround now (w : W) v, expand v w = (w, Ok v) ->
  forall entry email author evr ts a secs, expand (match evr with Some x => x | None => lit "%{?epoch:%{epoch}:}%{version}-%{release}" end) w = (w, Ok v) ->
  signed (guess_packager (surround w)) author email a -> Forall examined secs -> email = None \/ at_most_one secs ->
  exists t secs', add_entries expand surround now entry email author evr ts secs w = (secs', w, Ok tt) /\ Forall2 (extended_by (made_with t a v) entry) secs secs' /\
    (forall t0, ts = Some t0 -> t = t0) /\ (ts = None -> forall s, first_manual secs s -> t = now (newest_extended s) w).
Proof. exact @all_alike. Qed.
Print Assumptions C20_same_entry.
Example C20_example :
  map s_data (fst (fst (demo_add [lit "- new"] None None None None [S1; SA; S2] tt))) =
    [map lit ["* Mon Jan  6 2025 Jo Doe <e@x> - 1:2-3"; "- new"; ""; "* Fri Jan  3 2025 A - 1-1"; "- first"]%string; [lit "%autochangelog"]; map lit ["* Mon Jan 06 2025 Jo Doe <e@x> - 1:2-3"; "- new"]%string] /\
  demo_expand (lit "1:2-3") tt = (tt, Ok (lit "1:2-3")) /\ signed (guess_packager (demo_surround tt)) None None (lit "Jo Doe <e@x>") /\ Forall (examined (U:=unicode_none)) [S1; SA; S2].
Proof.
  split; [vm_compute; reflexivity|]. split; [reflexivity|]. split; [apply (signed_neither (lit "Jo Doe <e@x>")); discriminate|]. repeat constructor; intros _; eexists; reflexivity.
Qed.

(** * C126 *)
(** The e-mail is added to the author once more for each further changelog. *)
Theorem C126_email_once_refuted : forall (U : Unicode) (W : Type) expand surround now (w : W) s1 s2, manual s1 -> manual s2 ->
  forall entry t a e v, expand (lit "%{?epoch:%{epoch}:}%{version}-%{release}") w = (w, Ok v) -> expand v w = (w, Ok v) ->
  exists s1' s2', add_entries expand surround now entry (Some e) (Some a) None (Some t) [s1; s2] w = ([s1'; s2'], w, Ok tt) /\
    extended_by (made_with t (a ++ lit " <" ++ e ++ lit ">") v) entry s1 s1' /\
    extended_by (made_with t (a ++ lit " <" ++ e ++ lit "> <" ++ e ++ lit ">") v) entry s2 s2'.
Proof. exact @email_twice. Qed.
Print Assumptions C126_email_once_refuted.
Example C126_example :
  map s_data (fst (fst (demo_add [lit "- new"] (Some (lit "j@x")) (Some (lit "Jo")) None (Some (demo_now false tt)) [S2; S2] tt))) =
    [map lit ["* Mon Jan 06 2025 Jo <j@x> - 1:2-3"; "- new"]%string; map lit ["* Mon Jan 06 2025 Jo <j@x> <j@x> - 1:2-3"; "- new"]%string].
Proof. vm_compute. reflexivity. Qed.

(** * C127 *)
(** The e-mail that is given is not used when the author is found, and is added to the author in further changelogs. *)
Theorem C127_email_used_refuted : forall (U : Unicode) (W : Type) expand surround now (w : W) s1 s2, manual s1 -> manual s2 ->
  forall entry t g e v, expand (lit "%{?epoch:%{epoch}:}%{version}-%{release}") w = (w, Ok v) -> expand v w = (w, Ok v) ->
  found (surround w) g -> g <> [] ->
  exists s1' s2', add_entries expand surround now entry (Some e) None None (Some t) [s1; s2] w = ([s1'; s2'], w, Ok tt) /\
    extended_by (made_with t g v) entry s1 s1' /\ extended_by (made_with t (g ++ lit " <" ++ e ++ lit ">") v) entry s2 s2'.
Proof. exact @email_only_later. Qed.
Print Assumptions C127_email_used_refuted.
Example C127_example :
  map s_data (fst (fst (demo_add [lit "- new"] (Some (lit "j@x")) None None (Some (demo_now false tt)) [S2; S2] tt))) =
    [map lit ["* Mon Jan 06 2025 Jo Doe <e@x> - 1:2-3"; "- new"]%string; map lit ["* Mon Jan 06 2025 Jo Doe <e@x> <j@x> - 1:2-3"; "- new"]%string].
Proof. vm_compute. reflexivity. Qed.

(** * C128 *)
(** The EVR is expanded once more for each further changelog. *)
Theorem C128_evr_expanded_once_refuted : forall (U : Unicode) (W : Type) expand surround now (w : W) s1 s2, manual s1 -> manual s2 ->
  forall entry t a v0 v1 v2, expand v0 w = (w, Ok v1) -> expand v1 w = (w, Ok v2) ->
  exists s1' s2', add_entries expand surround now entry None (Some a) (Some v0) (Some t) [s1; s2] w = ([s1'; s2'], w, Ok tt) /\
    extended_by (made_with t a v1) entry s1 s1' /\ extended_by (made_with t a v2) entry s2 s2'.
Proof. exact @evr_twice. Qed.
Print Assumptions C128_evr_expanded_once_refuted.
Example C128_example :
  map s_data (fst (fst (demo_add [lit "- new"] None (Some (lit "Jo")) (Some (lit "%%{v}")) (Some (demo_now false tt)) [S2; S2] tt))) =
    [map lit ["* Mon Jan 06 2025 Jo - %{v}"; "- new"]%string; map lit ["* Mon Jan 06 2025 Jo - 9"; "- new"]%string].
Proof. vm_compute. reflexivity. Qed.

(** * C129 *)
(** A failure with a later changelog leaves the entry in the ones before. *)
Theorem C129_all_or_nothing_refuted : forall (U : Unicode) (W : Type) expand surround now (w : W) s1, manual s1 ->
  forall entry t a v0 v1 s3 e, expand v0 w = (w, Ok v1) -> s_nid s3 = lit "changelog" -> contains_autochangelog (s_data s3) = Err e ->
  exists s1', add_entries expand surround now entry None (Some a) (Some v0) (Some t) [s1; s3] w = ([s1'; s3], w, Err e) /\
    extended_by (made_with t a v1) entry s1 s1' /\ s1' <> s1.
Proof. exact @half_done. Qed.
Print Assumptions C129_all_or_nothing_refuted.
Example C129_example : s_nid (U:=unicode_none) SX = lit "changelog" /\ contains_autochangelog (U:=unicode_none) (s_data SX) = Err ValueError.
Proof. split; reflexivity. Qed.

(** * C130 *)
(** The author is searched for in $RPM_PACKAGER, %packager, git and the account of the user, in this order. *)
Theorem C130_search_order : forall g p, guess_packager g = p <-> found g p.
Proof. exact found_guess. Qed.
Print Assumptions C130_search_order.
(** If it is empty, no changelog changes. *)
Theorem C130_no_author : forall (U : Unicode) (W : Type) expand surround now (w : W) entry a evr v, expand evr w = (w, Ok v) -> found (surround w) a -> a = [] ->
  forall secs, Forall examined secs -> (exists s, In s secs /\ manual s) ->
  forall email ts, add_entries expand surround now entry email None (Some evr) ts secs w = (secs, w, Err SpecfileException).
Proof. exact @no_author. Qed.
Print Assumptions C130_no_author.
Example C130_example : found (mk_surroundings (Some []) (lit "A <a@b>") None [] (lit "jo")) [] /\ found (mk_surroundings None (lit "A <a@b>") None [] (lit "jo")) (lit "A <a@b>") /\
  found (demo_surround tt) (lit "Jo Doe <e@x>") /\ found (mk_surroundings None (lit "%packager") None [] (lit "jo")) (lit "jo").
Proof. repeat split; apply found_guess; reflexivity. Qed.

(** * C131 *)
(** has_autochangelog is true exactly if a changelog is automatic. *)
Theorem C131_has_autochangelog : forall (U : Unicode) secs, Forall examined secs ->
  exists b, has_autochangelog secs = Ok b /\ (b = true <-> exists s, In s secs /\ s_nid s = lit "changelog" /\ contains_autochangelog (s_data s) = Ok true).
Proof. exact @has_auto. Qed.
Print Assumptions C131_has_autochangelog.
Example C131_example : has_autochangelog (U:=unicode_none) [S1; SA] = Ok true /\ has_autochangelog (U:=unicode_none) [S1; S2] = Ok false.
Proof. split; reflexivity. Qed.
