(** Theorems that complete others: C38 (releases), C121 (included files), C224 (slices of arguments); and property C254 (options of sections,
    with the table in Spec_section_options.v). *)
From Coq Require Import Ascii String.
From Coq Require Import NArith ZArith List Bool.
From Verif Require Import PyStr PyStrFacts M_constants M_options M_sections Spec_sections Spec_section_options P_section_options P_sections5 P_rest2 P_spec_parser5.
From Verif Require M_release Spec_release M_spec_parser Spec_spec_parser2 M_slice P_spec_parser6 Properties_sections.
Import ListNotations.
Open Scope N_scope.

(** * C38 *)
(** The release is what stands in front of the dist macro and a minor bump, and all of it if there is no dist macro. *)
Theorem C38_release : forall (U : Unicode) raw r d x n, Spec_release.with_dist raw r d x n -> ~ In LF raw -> M_release.release_of raw = r.
Proof. exact @release_dist. Qed.
Print Assumptions C38_release.
Theorem C38_release_no_dist : forall (U : Unicode) raw, Spec_release.no_dist raw -> ~ In LF raw -> M_release.release_of raw = raw.
Proof. exact @release_no_dist. Qed.
Print Assumptions C38_release_no_dist.
Example C38_release_example : @Spec_release.with_dist unicode_none (lit "3.1%{?dist}.2") (lit "3.1") (lit "%{?dist}") (lit ".2") (Some 2) /\
  @M_release.release_of unicode_none (lit "3.1%{?dist}.2") = lit "3.1".
Proof.
  split; [|reflexivity]. split; [reflexivity|]. split; [cbn; tauto|]. right. exists (lit "2"). split; [|split; reflexivity].
  split; [discriminate|]. constructor; [reflexivity|constructor].
Qed.

(** * C121 *)
(** If the last [%include] is continued to the end of the file and its last line ends with a backslash as well, a forced parse raises IndexError. *)
Theorem C121_unfinished : forall (W : Type) (expand : str -> W -> W * result str) (locate : str -> M_spec_parser.world W -> str -> result (option str)) d w value place,
  (forall s, expand s (M_spec_parser.ctx w) = (M_spec_parser.ctx w, Ok (value s))) -> (forall s, locate d w s = Ok (place s)) ->
  forall content ls args l arg more, splitlines content = ls ++ l :: more -> Spec_spec_parser2.included ls args -> Spec_spec_parser2.include_line l arg ->
  Forall (fun l => exists x, l = x ++ [BSLASH]) (l :: more) ->
  M_spec_parser.collect_included expand locate d content w = (w, Err IndexError).
Proof. exact @include_unfinished. Qed.
Print Assumptions C121_unfinished.
Example C121_unfinished_example :
  splitlines (lit "%include a\" ++ [LF] ++ lit "b\") = [] ++ lit "%include a\" :: [lit "b\"] /\ Spec_spec_parser2.included [] [] /\
  Spec_spec_parser2.include_line (lit "%include a\") (lit "a\") /\ Forall (fun l => exists x, l = x ++ [BSLASH]) [lit "%include a\"; lit "b\"].
Proof.
  split; [vm_compute; reflexivity|]. split; [constructor|]. split.
  - exists [], [SPC]. repeat split; try (repeat constructor); try discriminate; [intros c t E; injection E as <- _; reflexivity|]. cbn. intuition discriminate.
  - constructor; [exists (lit "%include a"); reflexivity|]. constructor; [exists (lit "b"); reflexivity|constructor].
Qed.

(** * C114 *)
(** With [force_parse], a spec file that RPM rejects raises IndexError then. *)
Theorem C114_unfinished_refuted : forall (W : Type) (expand : str -> W -> W * result str) (locate : str -> M_spec_parser.world W -> str -> result (option str)) d w value place,
  (forall s, expand s (M_spec_parser.ctx w) = (M_spec_parser.ctx w, Ok (value s))) -> (forall s, locate d w s = Ok (place s)) ->
  forall (U : Unicode) (A : Type) stat_fault write_outcome unlink_fault order (rpm_spec : bool -> str -> M_spec_parser.world W -> M_spec_parser.world W * result A)
    spec_sources temp_fault set_context macros w0 content ls args l arg more,
  M_spec_parser.get_rpm_spec rpm_spec temp_fault set_context macros d content true w0 = (w, Err RPMException) ->
  splitlines content = ls ++ l :: more -> Spec_spec_parser2.included ls args -> Spec_spec_parser2.include_line l arg ->
  Forall (fun l => exists x, l = x ++ [BSLASH]) (l :: more) ->
  M_spec_parser.do_parse stat_fault write_outcome unlink_fault order rpm_spec spec_sources temp_fault set_context expand locate macros d content true w0 = (w, Err IndexError).
Proof. exact @forced_unfinished. Qed.
Print Assumptions C114_unfinished_refuted.
Example C114_unfinished_example :
  snd (@M_spec_parser.do_parse unicode_none _ _ no_stat all_written no_stat in_order toy_error (fun x => x) no_temp toy_context toy_expand toy_locate [] dir (lit "Name: x" ++ [LF] ++ lit "%include f\") true start) = Err IndexError.
Proof. vm_compute. reflexivity. Qed.

(** * C224 *)
(** Each of the positional arguments of a slice is read for itself, and all of them are there. *)
Theorem C224_each_positional : forall (U : Unicode) l vs, M_slice.numbers_or_texts l = Ok vs <-> Forall2 (fun s v => number_or_text s = Ok v) l vs.
Proof. exact @numbers_or_texts_each. Qed.
Print Assumptions C224_each_positional.
Example C224_each_example : M_slice.numbers_or_texts (U:=unicode_none) [lit "a"; lit "12"] = Ok [VStr (lit "a"); VInt 12].
Proof. vm_compute. reflexivity. Qed.

(** * C254 *)
(** A new section takes the options in the table, and none if it is not there. *)
Theorem C254_new : forall (U : Unicode) name delimiter separator data s, make_section name None delimiter separator data = Ok s ->
  (forall o, In (lower name, o) options_table -> o_optstring (s_opts s) = o) /\ ((forall o, ~ In (lower name, o) options_table) -> o_optstring (s_opts s) = []).
Proof. exact @section_options_table. Qed.
Print Assumptions C254_new.
(** So does each section of a spec file, but for the preamble. *)
Theorem C254_parsed : forall (U : Unicode) (W : Type) (E : str -> result str) (w : W) lines p ss w', parse (fun _ w s => (E s, w)) w lines = (Ok (p :: ss), w') ->
  forall s, In s ss -> (forall o, In (lower (s_name s), o) options_table -> o_optstring (s_opts s) = o) /\
    ((forall o, ~ In (lower (s_name s), o) options_table) -> o_optstring (s_opts s) = []).
Proof.
  intros U W E w lines p ss w' P s I. destruct (Properties_sections.C02_headers _ _ _ _ _ _ _ P) as (p' & ss' & bs & Q & _ & F). injection Q as <- <-.
  clear P. induction F as [|b x bs ss M F IH]; [destruct I|]. destruct I as [<-|I]; [exact (section_options_parsed _ _ _ M)|exact (IH I)].
Qed.
Print Assumptions C254_parsed.
Example C254_example :
  (exists s, make_section (U:=unicode_none) (lit "Files") None [] [LF] [] = Ok s /\ o_optstring (s_opts s) = lit "n:f:") /\
  (exists s, make_section (U:=unicode_none) (lit "build") None [] [LF] [] = Ok s /\ o_optstring (s_opts s) = []) /\
  exists p s t w, parse (U:=unicode_none) (fun _ w x => (Ok x, w)) tt (map lit ["%POST"; "a"; "%description -l x"]%string) = (Ok [p; s; t], w) /\
    o_optstring (s_opts s) = lit "n:f:p:P:eq" /\ o_optstring (s_opts t) = lit "n:l:".
Proof.
  split; [eexists; split; [vm_compute; reflexivity|reflexivity]|]. split; [eexists; split; [vm_compute; reflexivity|reflexivity]|].
  eexists _, _, _, _. split; [vm_compute; reflexivity|]. split; vm_compute; reflexivity.
Qed.
