(** Theorems about parses (C42, C43, C105 to C117).  Spec_spec_parser.v specifies histories ([allocated], [harmless],
    [repeatable], [forget]) and what a parse sees of the source directory ([seen]), and what is assumed about the file system
    ([sound_files], [writable], [set_order]) and RPM ([quiet]); P_spec_parser5.v has a small RPM for the examples. *)
From Coq Require Import Ascii String.
From Coq Require Import NArith ZArith List Bool Lia.
From Verif Require Import PyStr M_value M_evr M_file Spec_file M_spec_parser Spec_spec_parser P_spec_parser P_spec_parser2 P_spec_parser3 P_spec_parser4 P_spec_parser5.
Import ListNotations.
Open Scope N_scope.

(** * C42 *)
(** In every history of parsers being created, copied, changed, dropped and used, a call to [parse] has the outcome, the effect on
    the world and the resulting parsers of a call that cannot be skipped. *)
Theorem C42_transparent : forall (G A : Type) (run : key -> G -> G * option (result (A * bool))) (same input : G -> G -> Prop),
  repeatable run input -> equivalence same -> (forall a b, same a b -> input a b) ->
  forall es g0 i content extra, allocated [] [] es -> harmless same es ->
  let s := steps run es (mk_process g0 None []) in
  snd (parse run i content extra s) = snd (parse run i content extra (forget s)) /\
  same (p_world (fst (parse run i content extra s))) (p_world (fst (parse run i content extra (forget s)))) /\
  forall j, get_parser j (p_parsers (fst (parse run i content extra s))) = get_parser j (p_parsers (fst (parse run i content extra (forget s)))).
Proof. exact @transparent. Qed.
Print Assumptions C42_transparent.
(** The parse of this library is repeatable: it depends on the files and the environment only, and leaves them as they are. *)
Theorem C42_repeatable : forall (U : Unicode) (W A : Type) stat_fault write_outcome unlink_fault order (rpm_spec : bool -> str -> world W -> world W * result A)
    spec_sources temp_fault set_context expand locate,
  sound_files stat_fault write_outcome unlink_fault -> set_order order -> (forall f c, quiet (rpm_spec f c)) ->
  (forall m d x y, set_context m d x = set_context m d y) ->
  repeatable (run_of stat_fault write_outcome unlink_fault order rpm_spec spec_sources temp_fault set_context expand locate)
    (fun g g' => files g = files g' /\ env g = env g').
Proof. exact @run_repeatable. Qed.
Print Assumptions C42_repeatable.
Example C42_example :
  let es := [New 0 dir [] false; Parse 0 (lit "a") None; Copy 0 1; Parse 1 (lit "a") None; Parse 1 (lit "a") None; Drop 0; New 0 dir [(lit "m", None)] true; Parse 0 (lit "b") None; Parse 0 (lit "b") None] in
  allocated [] [] es /\ harmless eq es /\ repeatable toy_run (fun g g' => files g = files g' /\ env g = env g') /\
  p_last (steps toy_run es (mk_process start None [])) = Some (mk_key 0 dir [(lit "m", None)] true (lit "b") None).
Proof.
  cbn zeta. split; [cbn; intuition discriminate|]. split; [intros f H; cbn in H; intuition discriminate|]. split; [|vm_compute; reflexivity].
  apply C42_repeatable; [exact toy_sound|exact toy_order|exact toy_quiet|reflexivity].
Qed.

(** * C105 *)
(** A deep copy that gets the identity of a parser that was parsed and then dropped is not parsed at all. *)
Theorem C105_copy_refuted : forall (G A : Type) (run : key -> G -> G * option (result (A * bool))) d m f content extra g g' spec t,
  run (mk_key 0 d m f content extra) g = (g', Some (Ok (spec, t))) ->
  let s := steps run [New 0 d m f; Parse 0 content extra; Copy 0 1; Drop 0; Copy 1 0] (mk_process g None []) in
  parse run 0 content extra s = (s, Some (Ok tt)) /\ exists p, get_parser 0 (p_parsers s) = Some p /\ p_spec p = Some None.
Proof. exact @copy_unparsed. Qed.
Print Assumptions C105_copy_refuted.
Example C105_example : toy_run (mk_key 0 dir [] false (lit "a") None) start = (mk_world [dir] (files start) (env start), Some (Ok ([url], false))).
Proof. vm_compute. reflexivity. Qed.

(** * C106 *)
(** Whatever changes between two calls with the same arguments, the second one leaves everything as it is. *)
Theorem C106_changes_refuted : forall (G A : Type) (run : key -> G -> G * option (result (A * bool))) f i content extra s,
  snd (parse run i content extra s) = Some (Ok tt) ->
  let s1 := step run (Other f) (fst (parse run i content extra s)) in
  p_world s1 = f (p_world (fst (parse run i content extra s))) /\ parse run i content extra s1 = (s1, Some (Ok tt)).
Proof. exact @changes_unnoticed. Qed.
Print Assumptions C106_changes_refuted.
(** With a macro in the context that a parse removes: *)
Example C106_example :
  let s := mk_process start None [(0%nat, mk_parser dir [] false (Some None) false)] in
  let s1 := step toy_run (Other (with_ctx [lit "m"])) (fst (parse toy_run 0 (lit "a") None s)) in
  snd (parse toy_run 0 (lit "a") None s) = Some (Ok tt) /\
  ctx (p_world (fst (parse toy_run 0 (lit "a") None s1))) = [lit "m"] /\ ctx (p_world (fst (parse toy_run 0 (lit "a") None (forget s1)))) = [dir].
Proof. vm_compute. auto. Qed.

(** * C107 *)
(** After a parse that failed with an exception other than [RPMException], a parser that had been parsed before raises [AttributeError]
    for every content, whatever happens in between. *)
Theorem C107_recovery_refuted : forall (G A : Type) (run : key -> G -> G * option (result (A * bool))) i content extra s e es content' extra' p spec,
  get_parser i (p_parsers s) = Some p -> p_spec p = Some (Some spec) ->
  snd (parse run i content extra s) = Some (Err e) -> e <> RPMException -> Forall (leaves i) es ->
  let s' := steps run es (fst (parse run i content extra s)) in parse run i content' extra' s' = (s', Some (Err AttributeError)).
Proof. exact @stuck_for_good. Qed.
Print Assumptions C107_recovery_refuted.
Example C107_example :
  let s := steps toy_run [New 0 dir [] false; Parse 0 (lit "a") None] (mk_process start None []) in
  (exists p, get_parser 0 (p_parsers s) = Some p /\ p_spec p = Some (Some [url])) /\ snd (parse toy_run 0 [56553] None s) = Some (Err ValueError) /\
  Forall (@leaves (world (list str)) 0) [New 1 dir [] false; Parse 1 (lit "b") None; Parse 0 (lit "a") None].
Proof. cbn zeta. split; [eexists; vm_compute; split; reflexivity|]. split; [vm_compute; reflexivity|]. repeat constructor. discriminate. Qed.

(** * C108 *)
(** After a parse that was interrupted, the contents parsed before it are not parsed again, although there is no parsed spec file. *)
Theorem C108_interrupt_refuted : forall (G A : Type) (run : key -> G -> G * option (result (A * bool))) i content extra content' extra' s s2,
  snd (parse run i content extra s) = Some (Ok tt) ->
  let s1 := fst (parse run i content extra s) in
  parse run i content' extra' s1 = (s2, None) ->
  (exists p, get_parser i (p_parsers s1) = Some p /\ run (key_of i p content' extra') (p_world s1) = (p_world s2, None)) /\
  parse run i content extra s2 = (s2, Some (Ok tt)) /\ exists p, get_parser i (p_parsers s2) = Some p /\ (p_spec p = None \/ p_spec p = Some None).
Proof. exact @interrupted. Qed.
Print Assumptions C108_interrupt_refuted.
Example C108_example :
  let run := fun k g => match k_content k with [] => (g, None) | _ => toy_run k g end in
  let s := mk_process start None [(0%nat, mk_parser dir [] false (Some None) false)] in
  snd (parse run 0 (lit "a") None s) = Some (Ok tt) /\ snd (parse run 0 [] None (fst (parse run 0 (lit "a") None s))) = None.
Proof. vm_compute. auto. Qed.

(** * C43 *)
(** After a parse, successful or not, the files and the environment are those from before, in the same order. *)
Theorem C43_parse : forall (U : Unicode) (W A : Type) stat_fault write_outcome unlink_fault order (rpm_spec : bool -> str -> world W -> world W * result A)
    spec_sources temp_fault set_context expand locate,
  sound_files stat_fault write_outcome unlink_fault -> set_order order -> (forall f c, quiet (rpm_spec f c)) ->
  forall macros sourcedir content force_parse w,
  let w' := fst (do_parse stat_fault write_outcome unlink_fault order rpm_spec spec_sources temp_fault set_context expand locate macros sourcedir content force_parse w) in
  files w' = files w /\ env w' = env w.
Proof. exact @parse_quiet. Qed.
Print Assumptions C43_parse.
(** Dummy sources are removed whatever a block does, except to the files. *)
Theorem C43_sources : forall (W : Type) stat_fault write_outcome unlink_fault order (B : Type) sourcedir sources non_empty (body : list (str * str) -> world W -> world W * result B) w,
  sound_files stat_fault write_outcome unlink_fault -> set_order order -> (forall made w, files (fst (body made w)) = files w) ->
  files (fst (with_dummy_sources stat_fault write_outcome unlink_fault order sourcedir sources non_empty body w)) = files w.
Proof. exact @dummy_restored. Qed.
Print Assumptions C43_sources.
(** A block is run with [LANG] and [LC_ALL] set to [C.UTF-8], and the environment is that from before afterwards. *)
Theorem C43_environment : forall (W B : Type) (body : world W -> world W * result B) w,
  (forall w, env (fst (body w)) = env w) ->
  exists e, (forall k, get_env k e = if str_eqb k (lit "LC_ALL") then Some (lit "C.UTF-8") else if str_eqb k (lit "LANG") then Some (lit "C.UTF-8") else get_env k (env w)) /\
    let (w', r) := body (mk_world (ctx w) (files w) e) in with_environment body w = (mk_world (ctx w') (files w') (env w), r).
Proof. exact @environment_block. Qed.
Print Assumptions C43_environment.
(** When both variables are set, they are restored whatever the block does to the environment. *)
Theorem C43_variables : forall (W B : Type) (body : world W -> world W * result B) w u v,
  get_env (lit "LANG") (env w) = Some u -> get_env (lit "LC_ALL") (env w) = Some v ->
  let w' := fst (with_environment body w) in get_env (lit "LANG") (env w') = Some u /\ get_env (lit "LC_ALL") (env w') = Some v.
Proof. exact @environment_both. Qed.
Print Assumptions C43_variables.
Example C43_example :
  let parse f := @do_parse unicode_none _ _ no_stat all_written no_stat in_order f (fun x => x) no_temp toy_context toy_expand toy_locate [] dir (lit "a") true start in
  parse toy_spec = (mk_world [dir] (files start) (env start), Ok ([url], false)) /\ parse toy_error = (mk_world [dir] (files start) (env start), Err RPMException) /\
  files start = [((dir, lit "x"), lit "data")] /\ env start = [(lit "LANG", lit "cs_CZ")].
Proof. vm_compute. auto. Qed.

(** * C109 *)
(** If the second source cannot be looked up, the dummy file of the first one stays. *)
Theorem C109_lookup_refuted : forall (W : Type) stat_fault write_outcome unlink_fault order (B : Type) d a b non_empty (body : list (str * str) -> world W -> world W * result B) w e,
  order [a; b] = [a; b] -> let na := get_filename_from_location a in let nb := get_filename_from_location b in na <> [] -> nb <> [] ->
  content_of (d, na) (files w) = None -> stat_fault w (d, na) = None -> write_outcome w (d, na) (magic_bytes na) = Written ->
  let w1 := mk_world (ctx w) (((d, na), magic_bytes na) :: files w) (env w) in
  stat_fault w1 (d, nb) = Some e ->
  with_dummy_sources stat_fault write_outcome unlink_fault order d [a; b] non_empty body w = (w1, Err e).
Proof. exact @stat_leaves. Qed.
Print Assumptions C109_lookup_refuted.
(** A dummy file that was written in part (as on a full disk) stays, and the block is run. *)
Theorem C109_written_refuted : forall (W : Type) stat_fault write_outcome unlink_fault order d a bytes (w : world W), order [a] = [a] -> order [] = [] ->
  let na := get_filename_from_location a in na <> [] ->
  content_of (d, na) (files w) = None -> stat_fault w (d, na) = None -> write_outcome w (d, na) (magic_bytes na) = Refused (Some bytes) ->
  with_dummy_sources stat_fault write_outcome unlink_fault order d [a] [] (fun _ w => (w, Ok tt)) w = (mk_world (ctx w) (((d, na), bytes) :: files w) (env w), Ok tt).
Proof. exact @partial_stays. Qed.
Print Assumptions C109_written_refuted.
(** If a dummy file cannot be removed, those after it stay as well. *)
Theorem C109_removed_refuted : forall (W : Type) stat_fault write_outcome unlink_fault order (B : Type) d a b (body : list (str * str) -> world W -> world W * result B) w e,
  order [a; b] = [a; b] -> order [] = [] ->
  let na := get_filename_from_location a in let nb := get_filename_from_location b in na <> [] -> nb <> [] -> na <> nb ->
  content_of (d, na) (files w) = None -> content_of (d, nb) (files w) = None -> (forall w p, stat_fault w p = None) -> writable write_outcome ->
  (forall made w, files (fst (body made w)) = files w) -> (forall w, unlink_fault w (d, na) = Some e) ->
  let r := with_dummy_sources stat_fault write_outcome unlink_fault order d [a; b] [] body w in
  snd r = Err e /\ content_of (d, na) (files (fst r)) <> None /\ content_of (d, nb) (files (fst r)) <> None.
Proof. exact @unlink_stays. Qed.
Print Assumptions C109_removed_refuted.
(** A file name that is too long to be looked up: *)
Example C109_example :
  let stat := fun (_ : world (list str)) (p : str * str) => if Nat.ltb 255 (length (snd p)) then Some OtherError else None in
  let long := repeat 97%N 256 in
  snd (with_dummy_sources stat all_written no_stat in_order dir [lit "z"; long] [] (fun _ w => (w, Ok tt)) start) = Err OtherError /\
  content_of (dir, lit "z") (files (fst (with_dummy_sources stat all_written no_stat in_order dir [lit "z"; long] [] (fun _ w => (w, Ok tt)) start))) <> None.
Proof. vm_compute. split; [reflexivity|discriminate]. Qed.

(** * C110 *)
(** A block sees the files that are there, dummy files for all missing sources, and nothing else; the created paths are listed. *)
Theorem C110_seen : forall (W : Type) stat_fault write_outcome unlink_fault order (B : Type) d sources non_empty (look : list (str * str) -> list ((str * str) * list N) -> B) (w : world W),
  sound_files stat_fault write_outcome unlink_fault -> writable write_outcome -> set_order order ->
  exists made fs, with_dummy_sources stat_fault write_outcome unlink_fault order d sources non_empty (fun made w => (w, Ok (look made (files w)))) w = (w, Ok (look made fs)) /\
    seen d sources non_empty (files w) fs /\
    (forall p, In p made <-> content_of p (files w) = None /\ content_of p fs <> None).
Proof. exact @dummy_seen. Qed.
Print Assumptions C110_seen.
(** The contents of a dummy file: 13 bytes, starting with the signature for the extension, or zeros. *)
Theorem C110_contents : forall n, length (magic_bytes n) = 13%nat /\
  (forall x, endswith n (lit ".gz") = true -> firstn 2 (magic_bytes n ++ x) = [31; 139]) /\
  (forall x, endswith n (lit ".xz") = true -> firstn 6 (magic_bytes n ++ x) = [253; 55; 122; 88; 90; 0]) /\
  (forall x, endswith n (lit ".bz2") = true -> firstn 3 (magic_bytes n ++ x) = [66; 90; 104]) /\
  ((forall e, In e [lit ".bz2"; lit ".zip"; lit ".xz"; lit ".zst"; lit ".lz"; lit ".lrz"; lit ".gz"; lit ".7z"] -> endswith n e = false) -> magic_bytes n = repeat 0 13).
Proof. exact magic_spec. Qed.
Print Assumptions C110_contents.
Example C110_example :
  with_dummy_sources no_stat all_written no_stat in_order dir [lit "a/x"; lit "b/y.gz"] [lit "z"] (fun made w => (w, Ok (made, files w))) start =
  (start, Ok ([(dir, lit "y.gz"); (dir, lit "z")],
     [((dir, lit "z"), lit "DUMMY"); ((dir, lit "y.gz"), [31; 139; 0; 0; 0; 0; 0; 0; 0; 0; 0; 0; 0]); ((dir, lit "x"), lit "data")])).
Proof. vm_compute. reflexivity. Qed.

(** * C111 *)
(** A source that must not be empty, but is also given by its location, gets a dummy file with no text in it. *)
Theorem C111_non_empty_refuted : forall (W : Type) stat_fault write_outcome unlink_fault order (B : Type) d sources non_empty l n (look : list ((str * str) * list N) -> B) (w : world W),
  sound_files stat_fault write_outcome unlink_fault -> writable write_outcome -> set_order order ->
  In l sources -> get_filename_from_location l = n -> n <> [] -> In n non_empty -> content_of (d, n) (files w) = None ->
  exists fs, with_dummy_sources stat_fault write_outcome unlink_fault order d sources non_empty (fun _ w => (w, Ok (look (files w)))) w = (w, Ok (look fs)) /\ content_of (d, n) fs = Some (magic_bytes n).
Proof. exact @non_empty_by_url. Qed.
Print Assumptions C111_non_empty_refuted.
(** So a spec file whose version comes from a missing source cannot be parsed if the source is given by a URL; if it is given by its name, it can. *)
Example C111_example :
  let content := lit "Source0: https://h/y" ++ [LF] ++ lit "Version: %(cat %{SOURCE0})" in
  let parse sources := snd (@do_parse unicode_none _ _ no_stat all_written no_stat in_order toy_version (fun _ => sources) no_temp toy_context toy_expand toy_locate [] dir content true start) in
  parse [url] = Err RPMException /\ parse [lit "y"] = Ok ([url], true).
Proof. vm_compute. auto. Qed.

(** * C112 *)
(** When nothing but RPM fails and the contents can be encoded, the only error of a parse is [RPMException]. *)
Theorem C112_errors : forall (U : Unicode) (W A : Type) stat_fault write_outcome unlink_fault order (rpm_spec : bool -> str -> world W -> world W * result A)
    spec_sources temp_fault set_context expand locate macros sourcedir content w e,
  sound_files stat_fault write_outcome unlink_fault -> set_order order -> (forall m d x, snd (set_context m d x) = Ok tt) -> (forall w, temp_fault w = None) ->
  (forall f c w e, snd (rpm_spec f c w) = Err e -> e = ValueError) -> (forall f c, quiet (rpm_spec f c)) -> (forall c, In c content -> ~ (55296 <= c <= 57343)) ->
  snd (do_parse stat_fault write_outcome unlink_fault order rpm_spec spec_sources temp_fault set_context expand locate macros sourcedir content false w) = Err e -> e = RPMException.
Proof. exact @parse_errors_plain. Qed.
Print Assumptions C112_errors.
Example C112_example : (forall m d x, snd (toy_context m d x) = Ok tt) /\ (forall f c w e, snd (toy_error f c w) = Err e -> e = ValueError) /\ (forall f c, quiet (toy_error f c)).
Proof. split; [reflexivity|]. split; [cbn; congruence|]. intros f c w. split; reflexivity. Qed.

(** * C113 *)
(** A file that is not valid UTF-8 can be read, but not parsed. *)
Theorem C113_undecodable_refuted : forall (U : Unicode) (W A : Type) stat_fault write_outcome unlink_fault order (rpm_spec : bool -> str -> world W -> world W * result A)
    spec_sources temp_fault set_context expand locate b s macros sourcedir force_parse w,
  (forall m d x, snd (set_context m d x) = Ok tt) -> (forall w, temp_fault w = None) ->
  plain_breaks (decode b) -> bytes b -> b <> [] -> (exists c, In c (decode b) /\ 56448 <= c /\ c <= 56575) -> read_lines b = Ok s ->
  snd (do_parse stat_fault write_outcome unlink_fault order rpm_spec spec_sources temp_fault set_context expand locate macros sourcedir (spec_str s) force_parse w) = Err ValueError.
Proof. exact @undecodable_file. Qed.
Print Assumptions C113_undecodable_refuted.
Example C113_example : let b := lit "Name: " ++ [233; 10] in
  plain_breaks (decode b) /\ bytes b /\ In 56553 (decode b) /\ (exists s, read_lines b = Ok s).
Proof. cbn zeta. split; [vm_compute; repeat constructor; discriminate|]. split; [repeat constructor|]. split; [vm_compute; auto 10|]. eexists. vm_compute. reflexivity. Qed.

(** * C114 *)
(** With [force_parse], a spec file that RPM rejects and that has a macro that is not closed raises the error about the macro. *)
Theorem C114_unterminated_refuted : forall (U : Unicode) (W A : Type) stat_fault write_outcome unlink_fault order (rpm_spec : bool -> str -> world W -> world W * result A)
    spec_sources temp_fault set_context expand locate macros sourcedir content w w1 e,
  get_rpm_spec rpm_spec temp_fault set_context macros sourcedir content true w = (w1, Err RPMException) -> include_args None (splitlines content) = ([], Ok tt) -> M_value.parse content = Err e ->
  do_parse stat_fault write_outcome unlink_fault order rpm_spec spec_sources temp_fault set_context expand locate macros sourcedir content true w = (w1, Err e).
Proof. exact @forced_unterminated. Qed.
Print Assumptions C114_unterminated_refuted.
(** A file that is included from a directory that does not exist raises the error about the directory. *)
Theorem C114_missing_directory_refuted : forall (U : Unicode) (W A : Type) stat_fault write_outcome unlink_fault order (rpm_spec : bool -> str -> world W -> world W * result A)
    spec_sources temp_fault set_context expand locate macros sourcedir content w w1 a args r x s e,
  get_rpm_spec rpm_spec temp_fault set_context macros sourcedir content true w = (w1, Err RPMException) -> include_args None (splitlines content) = (a :: args, r) ->
  expand a (ctx w1) = (x, Ok s) -> locate sourcedir (with_ctx x w1) s = Err e ->
  do_parse stat_fault write_outcome unlink_fault order rpm_spec spec_sources temp_fault set_context expand locate macros sourcedir content true w = (with_ctx x w1, Err e).
Proof. exact @forced_missing_directory. Qed.
Print Assumptions C114_missing_directory_refuted.
Example C114_example :
  let parse content := snd (@do_parse unicode_none _ _ no_stat all_written no_stat in_order toy_error (fun x => x) no_temp toy_context toy_expand toy_locate [] dir content true start) in
  parse (lit "Version: %{x") = Err UnterminatedMacroException /\ parse (lit "%include /t/f") = Err OtherError /\ parse (lit "%include f\") = Err IndexError /\ parse (lit "Name: x") = Err RPMException.
Proof. vm_compute. auto. Qed.

(** * C115 *)
(** A parse is tainted if and only if [force_parse] is set and RPM rejected the spec file as it is. *)
Theorem C115_tainted : forall (U : Unicode) (W A : Type) stat_fault write_outcome unlink_fault order (rpm_spec : bool -> str -> world W -> world W * result A)
    spec_sources temp_fault set_context expand locate macros sourcedir content force_parse w w' spec tainted,
  do_parse stat_fault write_outcome unlink_fault order rpm_spec spec_sources temp_fault set_context expand locate macros sourcedir content force_parse w = (w', Ok (spec, tainted)) ->
  tainted = true <-> force_parse = true /\ snd (get_rpm_spec rpm_spec temp_fault set_context macros sourcedir content true w) = Err RPMException.
Proof. exact @tainted_iff. Qed.
Print Assumptions C115_tainted.
(** When RPM does not reject the spec file as it is, [force_parse] makes no difference. *)
Theorem C115_force : forall (U : Unicode) (W A : Type) stat_fault write_outcome unlink_fault order (rpm_spec : bool -> str -> world W -> world W * result A)
    spec_sources temp_fault set_context expand locate macros sourcedir content w,
  snd (get_rpm_spec rpm_spec temp_fault set_context macros sourcedir content true w) <> Err RPMException ->
  do_parse stat_fault write_outcome unlink_fault order rpm_spec spec_sources temp_fault set_context expand locate macros sourcedir content true w =
  do_parse stat_fault write_outcome unlink_fault order rpm_spec spec_sources temp_fault set_context expand locate macros sourcedir content false w.
Proof. exact @force_irrelevant. Qed.
Print Assumptions C115_force.
Example C115_example : snd (get_rpm_spec toy_spec no_temp toy_context [] dir (lit "a") true start) = Ok [url].
Proof. vm_compute. reflexivity. Qed.

(** * C116, C117 *)
(** The message of an exception is the text of the first error that RPM reported. *)
Theorem C116_message : forall ls l rest msg, Forall (fun l => startswith (rstrip l) (lit "error:") = false) ls -> rstrip l = lit "error: " ++ msg -> is_substring (lit "error: ") msg = false ->
  rpm_exception_str (ls ++ l :: rest) = Ok msg.
Proof. exact exception_message. Qed.
Print Assumptions C116_message.
(** Without an error, it is everything RPM reported, after a line break. *)
Theorem C116_no_error : forall ls, Forall (fun l => startswith (rstrip l) (lit "error:") = false) ls -> rpm_exception_str ls = Ok (LF :: concat ls).
Proof. exact exception_none. Qed.
Print Assumptions C116_no_error.
Example C116_example : rpm_exception_str [lit "warning: a" ++ [LF]; lit "error: line 1: Unknown tag: b" ++ [LF]; lit "error: c" ++ [LF]] = Ok (lit "line 1: Unknown tag: b").
Proof. vm_compute. reflexivity. Qed.
(** A message with [error: ] in it is cut off there, and an error with no text has no message at all. *)
Theorem C117_cut_refuted : forall ls l rest a b, Forall (fun l => startswith (rstrip l) (lit "error:") = false) ls -> rstrip l = lit "error: " ++ a ++ lit "error: " ++ b -> ~ In COLON a ->
  rpm_exception_str (ls ++ l :: rest) = Ok a.
Proof. exact exception_cut. Qed.
Print Assumptions C117_cut_refuted.
Theorem C117_empty_refuted : forall ls l rest, Forall (fun l => startswith (rstrip l) (lit "error:") = false) ls -> rstrip l = lit "error:" -> rpm_exception_str (ls ++ l :: rest) = Err IndexError.
Proof. exact exception_index. Qed.
Print Assumptions C117_empty_refuted.
Example C117_example : rpm_exception_str [lit "error: lua script failed: error: x" ++ [LF]] = Ok (lit "lua script failed: ") /\ rpm_exception_str [lit "error: " ++ [LF]] = Err IndexError.
Proof. vm_compute. auto. Qed.
