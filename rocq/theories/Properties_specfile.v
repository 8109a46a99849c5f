(** Properties C145-C161: operations on a whole spec file.  Specification: Spec_specfile.v.
    [expand lines skip w s] is the expansion of [s] by RPM when the file has these lines; any function will do. *)
From Coq Require Import Ascii String.
From Coq Require Import NArith ZArith List Bool Arith Lia.
From Verif Require Import PyStr PyStrFacts Regex M_value M_macro_definitions Spec_macro_definitions M_sections Spec_sections M_tags Spec_tags M_release M_update
  M_specfile Spec_specfile P_specfile P_specfile2 P_specfile3 P_specfile4 P_specfile7 P_specfile8 P_specfile9.
Import ListNotations.
Open Scope N_scope.

(** * C145 *)
(** Whatever is done with the tags, as long as they are not modified, a tidy file stays as it is: also if reading them or using them fails. *)
Theorem C145_reading : forall (U : Unicode) (W : Type) (expand : list str -> bool -> W -> str -> result str * W) (A : Type) (use : tags -> W -> W * result A) lines w,
  Forall tidy_line lines -> fst (fst (view_tags expand (fun ts w => let (w, r) := use ts w in (ts, w, r)) lines w)) = lines.
Proof. exact @tidy_read. Qed.
Print Assumptions C145_reading.
Example C145_witness : Forall (tidy_line (U:=unicode_none)) ex_file /\ length ex_file = 10%nat.
Proof. split; [apply ex_tidy|reflexivity]. Qed.

(** * C146 *)
Theorem C146_get : forall (U : Unicode) (W : Type) (expand : list str -> bool -> W -> str -> result str * W) name lines w l w' ts k t,
  read_tags expand lines w = (l, w', Ok ts) -> designates ts name k t -> lower (t_name t) = lower name ->
  get_tag expand name lines w = (l, w', Ok (Some (t_value t))).
Proof. exact @get_tag_value. Qed.
Print Assumptions C146_get.
Theorem C146_absent : forall (U : Unicode) (W : Type) (expand : list str -> bool -> W -> str -> result str * W) name lines w l w' ts,
  read_tags expand lines w = (l, w', Ok ts) -> (forall t, In t (ts_data ts) -> lower (t_name t) <> lower name) ->
  get_tag expand name lines w = (l, w', Ok None) /\ forall v, set_tag expand name v lines w = (l, w', Err AttributeError).
Proof. exact @get_tag_absent. Qed.
Print Assumptions C146_absent.
Theorem C146_unreadable : forall (U : Unicode) (W : Type) (expand : list str -> bool -> W -> str -> result str * W) name v lines w l w' e,
  read_tags expand lines w = (l, w', Err e) -> get_tag expand name lines w = (l, w', Err e) /\ set_tag expand name v lines w = (l, w', Err e).
Proof. exact @unreadable_tags. Qed.
Print Assumptions C146_unreadable.
(** The tag in the branch that is not taken does not count. *)
Example C146_witness : read_tags (U:=unicode_none) ex_expand ex_file tt = (ex_file, tt, Ok ex_tags) /\
  designates (U:=unicode_none) ex_tags (lit "version") 2 ex_version /\ lower (U:=unicode_none) (t_name ex_version) = lit "version" /\
  get_tag (U:=unicode_none) ex_expand (lit "version") ex_file tt = (ex_file, tt, Ok (Some (lit "%{ver}"))) /\
  get_tag (U:=unicode_none) ex_expand (lit "epoch") ex_file tt = (ex_file, tt, Ok None).
Proof. split; [exact ex_read|]. split; [apply ex_designates|]. split; [apply ex_designates|]. split; vm_compute; reflexivity. Qed.

(** * C147 *)
Theorem C147_set : forall (U : Unicode) (W : Type) (expand : list str -> bool -> W -> str -> result str * W) name v lines w w' ts k t,
  read_tags expand lines w = (lines, w', Ok ts) -> designates ts name k t -> lower (t_name t) = lower name ->
  exists lines', set_tag expand name v lines w = (lines', w', Ok tt) /\ value_replaced ts k v lines lines'.
Proof. exact @set_tag_value. Qed.
Print Assumptions C147_set.
Example C147_witness : set_tag (U:=unicode_none) ex_expand (lit "version") (lit "2") ex_file tt =
  (file ["%global ver 1.0"; "%if 0"; "Version: 9"; "%endif"; "Name: x"; "Version: 2"; "Release: 1%{?dist}"; "Source0: x-%{version}.tar"; "%description"; "Version: no"]%string, tt, Ok tt).
Proof. vm_compute. reflexivity. Qed.

(** * C148 *)
(** A value that was set is there when the file is read again, and all other tags are as they were, up to the conditions that decide which of them count:
    these may depend on the value. *)
Theorem C148_set_read : forall (U : Unicode) (W : Type) (expand : list str -> bool -> W -> str -> result str * W) name v lines w w' ts k t lines' w1 w2 l2 w3 ts2,
  Forall tidy_line lines -> clean lines -> defined_apart (parse_plain lines) ->
  read_tags expand lines w = (lines, w', Ok ts) -> designates ts name k t -> lower (t_name t) = lower name -> one_line t ->
  ~ in_definition (parse_plain lines) (tag_line_number ts k t) -> line_value v ->
  set_tag expand name v lines w = (lines', w1, Ok tt) -> read_tags expand lines' w2 = (l2, w3, Ok ts2) ->
  map unflagged (ts_data ts2) = map unflagged (ts_data (set_value_at k v ts)) /\ ts_remainder ts2 = ts_remainder ts.
Proof. exact @set_then_read. Qed.
Print Assumptions C148_set_read.
Theorem C148_set_get : forall (U : Unicode) (W : Type) (expand : list str -> bool -> W -> str -> result str * W) name v lines w w' ts k t lines' w1 w2 l2 w3 ts2,
  Forall tidy_line lines -> clean lines -> defined_apart (parse_plain lines) ->
  read_tags expand lines w = (lines, w', Ok ts) -> designates ts name k t -> lower (t_name t) = lower name -> one_line t ->
  ~ in_definition (parse_plain lines) (tag_line_number ts k t) -> line_value v ->
  set_tag expand name v lines w = (lines', w1, Ok tt) -> read_tags expand lines' w2 = (l2, w3, Ok ts2) ->
  map t_valid (ts_data ts2) = map t_valid (ts_data ts) ->
  ts2 = set_value_at k v ts /\ get_tag expand name lines' w2 = (l2, w3, Ok (Some v)).
Proof. exact @set_then_get. Qed.
Print Assumptions C148_set_get.
Example C148_witness : Forall (tidy_line (U:=unicode_none)) ex_file /\ clean ex_file /\ defined_apart (parse_plain (U:=unicode_none) ex_file) /\ one_line ex_version /\
  ~ in_definition (parse_plain (U:=unicode_none) ex_file) (tag_line_number ex_tags 2 ex_version) /\ line_value (lit "2:%{?x}") /\
  exists lines' ts2, set_tag (U:=unicode_none) ex_expand (lit "version") (lit "2:%{?x}") ex_file tt = (lines', tt, Ok tt) /\
    read_tags (U:=unicode_none) ex_expand lines' tt = (lines', tt, Ok ts2) /\ map t_valid (ts_data ts2) = map t_valid (ts_data ex_tags).
Proof.
  split; [apply ex_tidy|]. split; [apply ex_tidy|]. split; [exact ex_apart|].
  split; [split; [|split]; [vm_compute; reflexivity..|intros Hi; vm_compute in Hi; repeat (destruct Hi as [Hi|Hi]; [discriminate|]); destruct Hi]|].
  split; [exact ex_outside|]. split.
  - split; [intros Hi; vm_compute in Hi; repeat (destruct Hi as [Hi|Hi]; [discriminate|]); destruct Hi|]. split; [eexists _, _; split; vm_compute; reflexivity|]. split; vm_compute; reflexivity.
  - eexists _, _. split; [vm_compute; reflexivity|]. split; vm_compute; reflexivity.
Qed.

(** * C149, C150 *)
Theorem C149_set_both : forall (U : Unicode) (W : Type) (expand : list str -> bool -> W -> str -> result str * W) version release lines w w' ts k t j u,
  read_tags expand lines w = (lines, w', Ok ts) ->
  designates ts (lit "version") k t -> lower (t_name t) = lit "version" -> designates ts (lit "release") j u -> lower (t_name u) = lit "release" ->
  exists middle lines', set_version_and_release expand version release lines w = (lines', w', Ok tt) /\
    value_replaced ts k version lines middle /\ value_replaced (set_value_at k version ts) j (get_updated_release (t_value u) release) middle lines'.
Proof. exact @set_both. Qed.
Print Assumptions C149_set_both.
Example C149_witness : designates (U:=unicode_none) ex_tags (lit "release") 3 ex_release /\ lower (U:=unicode_none) (t_name ex_release) = lit "release" /\
  set_version_and_release (U:=unicode_none) ex_expand (lit "2") (lit "5") ex_file tt =
  (file ["%global ver 1.0"; "%if 0"; "Version: 9"; "%endif"; "Name: x"; "Version: 2"; "Release: 5%{?dist}"; "Source0: x-%{version}.tar"; "%description"; "Version: no"]%string, tt, Ok tt).
Proof. split; [apply ex_designates_release|]. split; [apply ex_designates_release|]. vm_compute. reflexivity. Qed.
(** C150: without a Release tag the version is set all the same, and an AttributeError is raised. *)
Theorem C150_both_or_none_refuted : forall (U : Unicode) (W : Type) (expand : list str -> bool -> W -> str -> result str * W) version release lines w w' ts k t,
  read_tags expand lines w = (lines, w', Ok ts) ->
  designates ts (lit "version") k t -> lower (t_name t) = lit "version" -> (forall u, In u (ts_data ts) -> lower (t_name u) <> lit "release") ->
  exists lines', set_version_and_release expand version release lines w = (lines', w', Err AttributeError) /\ value_replaced ts k version lines lines'.
Proof. exact @set_both_without_release. Qed.
Print Assumptions C150_both_or_none_refuted.
Theorem C150_example_refuted : exists lines lines', read_tags (U:=unicode_none) ex_expand lines tt = (lines, tt, match read_tags (U:=unicode_none) ex_expand lines tt with (_, _, r) => r end) /\
  set_version_and_release (U:=unicode_none) ex_expand (lit "2") (lit "3") lines tt = (lines', tt, Err AttributeError) /\ lines = file ["Version: 1"]%string /\ lines' = file ["Version: 2"]%string.
Proof. exact both_half. Qed.
Print Assumptions C150_example_refuted.

(** * C151 *)
Theorem C151_set_release : forall (U : Unicode) (expand : list str -> bool -> unit -> str -> result str * unit) v lines ts k t,
  read_tags expand lines tt = (lines, tt, Ok ts) -> designates ts (lit "release") k t -> lower (t_name t) = lit "release" ->
  exists lines', set_release expand v lines tt = (lines', tt, Ok tt) /\ value_replaced ts k (get_updated_release (t_value t) v) lines lines'.
Proof. exact @set_release_value. Qed.
Print Assumptions C151_set_release.
Theorem C151_get_release : forall (U : Unicode) (expand : list str -> bool -> unit -> str -> result str * unit) lines ts k t,
  read_tags expand lines tt = (lines, tt, Ok ts) -> designates ts (lit "release") k t -> lower (t_name t) = lit "release" ->
  get_release expand lines tt = (lines, tt, Ok (release_of (t_value t))).
Proof. exact @get_release_value. Qed.
Print Assumptions C151_get_release.
Example C151_witness : get_release (U:=unicode_none) ex_expand ex_file tt = (ex_file, tt, Ok (lit "1")).
Proof. vm_compute. reflexivity. Qed.

(** * C152, C153 *)
Theorem C152_auto : forall (U : Unicode) (expand : list str -> bool -> unit -> str -> result str * unit) lines ts k t,
  read_tags expand lines tt = (lines, tt, Ok ts) -> designates ts (lit "release") k t -> lower (t_name t) = lit "release" ->
  has_autorelease (t_value t) = Ok true -> bump_release expand lines tt = (lines, tt, Ok tt).
Proof. exact @bump_auto. Qed.
Print Assumptions C152_auto.
Theorem C152_macro : forall (U : Unicode) (expand : list str -> bool -> unit -> str -> result str * unit) lines ts k t m j d,
  read_tags expand lines tt = (lines, tt, Ok ts) -> designates ts (lit "release") k t -> lower (t_name t) = lit "release" ->
  has_autorelease (t_value t) = Ok false -> read_macros expand lines tt = (lines, tt, Ok m) -> first_release_macro m j d ->
  exists lines', bump_release expand lines tt = (lines', tt, Ok tt) /\ body_replaced m j (bump_release_string (d_body d)) lines lines'.
Proof. exact @bump_macro. Qed.
Print Assumptions C152_macro.
Theorem C152_tag : forall (U : Unicode) (expand : list str -> bool -> unit -> str -> result str * unit) lines ts k t m,
  read_tags expand lines tt = (lines, tt, Ok ts) -> designates ts (lit "release") k t -> lower (t_name t) = lit "release" ->
  has_autorelease (t_value t) = Ok false -> read_macros expand lines tt = (lines, tt, Ok m) -> (forall d, In d (md_data m) -> ~ release_name d) ->
  exists lines', bump_release expand lines tt = (lines', tt, Ok tt) /\ value_replaced ts k (bump_release_string (t_value t)) lines lines'.
Proof. exact @bump_tag. Qed.
Print Assumptions C152_tag.
Example C152_witness : read_macros (U:=unicode_none) ex_expand ex_file tt = (ex_file, tt, Ok ex_macros) /\ has_autorelease (U:=unicode_none) (t_value ex_release) = Ok false /\
  map d_name (md_data ex_macros) = [lit "ver"] /\
  bump_release (U:=unicode_none) ex_expand (file ["Release: 1%{?dist}"]%string) tt = (file ["Release: 2%{?dist}"]%string, tt, Ok tt) /\
  bump_release (U:=unicode_none) ex_expand (file ["Release: %autorelease"]%string) tt = (file ["Release: %autorelease"]%string, tt, Ok tt) /\
  bump_release (U:=unicode_none) ex_expand (file ["%global baserelease 3"; "Release: %{baserelease}%{?dist}"]%string) tt = (file ["%global baserelease 4"; "Release: %{baserelease}%{?dist}"]%string, tt, Ok tt).
Proof. split; [exact ex_read_macros|]. repeat split; vm_compute; reflexivity. Qed.
(** C153: a definition that is commented out, or in a branch that is not taken, is bumped in place of the release. *)
Theorem C153_effective_refuted :
  bump_release (U:=unicode_none) ex_expand (file ["#%global baserelease 3"; "Release: 1%{?dist}"]%string) tt = (file ["#%global baserelease 4"; "Release: 1%{?dist}"]%string, tt, Ok tt) /\
  bump_release (U:=unicode_none) ex_expand (file ["%if 0"; "%global baserelease 3"; "%endif"; "Release: 1%{?dist}"]%string) tt =
    (file ["%if 0"; "%global baserelease 4"; "%endif"; "Release: 1%{?dist}"]%string, tt, Ok tt).
Proof. exact (conj bump_comment bump_false_branch). Qed.
Print Assumptions C153_effective_refuted.

(** * C154 *)
(** Whether it fails or not, an update changes nothing but values of tags and bodies of definitions that are not protected (and whether such definitions are
    commented out), and the tag it was asked to update. *)
Theorem C154_update : forall (U : Unicode) (W : Type) (expand : list str -> bool -> W -> str -> result str * W) isid protected name v lines w lines' w' r,
  update_tag expand isid protected name v lines w = (lines', w', r) ->
  changes expand (free_macro protected) (fun n => free_tag protected n \/ capitalize n = capitalize name) lines lines'.
Proof. exact @update_tag_changes. Qed.
Print Assumptions C154_update.
(** By default everything whose name contains "name", in any case, is protected. *)
Theorem C154_protected : forall s, protected_default s = true <-> exists a n b, s = a ++ n ++ b /\ ~ In LF a /\ Forall2 same_letter (lit "name") n.
Proof. exact protected_spec. Qed.
Print Assumptions C154_protected.
Example C154_witness : update_tag (U:=unicode_none) ex_expand ex_id protected_default (lit "source0") (lit "x-3.tar") ex_file tt =
  (file ["%global ver 3"; "%if 0"; "Version: 9"; "%endif"; "Name: x"; "Version: %{ver}"; "Release: 1%{?dist}"; "Source0: x-%{version}.tar"; "%description"; "Version: no"]%string, tt, Ok tt).
Proof. vm_compute. reflexivity. Qed.

(** * C155 *)
Theorem C155_same : forall (U : Unicode) (expand : list str -> bool -> unit -> str -> result str * unit) isid protected name lines ts m k t,
  read_tags expand lines tt = (lines, tt, Ok ts) -> read_macros expand lines tt = (lines, tt, Ok m) ->
  (forall skip s, exists x, expand lines skip tt s = (Ok x, tt)) ->
  (forall u, In u (ts_data ts) -> Forall (fun c => c < 128) (t_name u)) ->
  designates ts name k t -> lower (t_name t) = lower name ->
  update_tag expand isid protected name (t_value t) lines tt = (lines, tt, Ok tt).
Proof. exact @update_same. Qed.
Print Assumptions C155_same.
Example C155_witness : (forall skip s, exists x, ex_expand ex_file skip tt s = (Ok x, tt)) /\ (forall u, In u (ts_data ex_tags) -> Forall (fun c => c < 128) (t_name u)) /\
  update_tag (U:=unicode_none) ex_expand ex_id protected_default (lit "version") (lit "%{ver}") ex_file tt = (ex_file, tt, Ok tt).
Proof. split; [intros; eexists; reflexivity|]. split; [exact ex_ascii|]. vm_compute. reflexivity. Qed.

(** * C156, C157 *)
(** C156: a failing update has changed the file. *)
Theorem C156_failure_refuted :
  update_tag (U:=unicode_none) ex_expand ex_id protected_default (lit "version") (lit "2.0") (file ["%global ver 1.\"; "2"; "Version: %{ver}"]%string) tt =
    (file ["%global ver 2.0"; "Version: %{ver}"]%string, tt, Err ValueError) /\
  update_tag (U:=unicode_none) ex_expand ex_id protected_default (lit "version") (lit "3") (file ["%global a 0"; "%global v 2"; "%global u %{v}"; "%global v 3"; "Version: %{u}"]%string) tt =
    (file ["%global a 0"; "%global v 3"; "%global u %{v}"; "%global v 3"; "Version: %{u}"]%string, tt, Err ValueError).
Proof. exact (conj update_half update_half_twice). Qed.
Print Assumptions C156_failure_refuted.
(** C157: a successful update has changed the tag, or the macro, in the branch that is not taken. *)
Theorem C157_effective_refuted :
  update_tag (U:=unicode_none) ex_expand ex_id protected_default (lit "source0") (lit "foo-2.tar")
    (file ["%if 0"; "Version: 1"; "%else"; "Version: 1"; "%endif"; "Source0: foo-%{version}.tar"]%string) tt =
  (file ["%if 0"; "Version: 2"; "%else"; "Version: 1"; "%endif"; "Source0: foo-%{version}.tar"]%string, tt, Ok tt) /\
  update_tag (U:=unicode_none) ex_expand ex_id protected_default (lit "version") (lit "2.0")
    (file ["%if 1"; "%global a 1"; "%else"; "%global v 1"; "%endif"; "%if 0"; "%global b 1"; "%else"; "%global v 1"; "%endif"; "Version: %{v}"]%string) tt =
  (file ["%if 1"; "%global a 1"; "%else"; "%global v 2.0"; "%endif"; "%if 0"; "%global b 1"; "%else"; "%global v 1"; "%endif"; "Version: %{v}"]%string, tt, Ok tt).
Proof. exact (conj update_wrong_tag update_wrong_macro). Qed.
Print Assumptions C157_effective_refuted.

(** * C158, C159 *)
Theorem C158_plain : forall (U : Unicode) (W : Type) (expand : list str -> bool -> W -> str -> result str * W) isid v macro style lines w,
  update_version expand isid v None macro style lines w = update_tag expand isid protected_default (lit "Version") v lines w.
Proof. exact @version_plain. Qed.
Print Assumptions C158_plain.
Theorem C158_no_macro : forall (U : Unicode) (W : Type) (expand : list str -> bool -> W -> str -> result str * W) isid p v a b style lines w, p v = Span a b ->
  update_version expand isid v (Some p) None style lines w = update_tag expand isid protected_default (lit "Version") (firstn a v ++ lit "~" ++ skipn b v) lines w.
Proof. exact @version_no_macro. Qed.
Print Assumptions C158_no_macro.
Theorem C158_no_group : forall (U : Unicode) (W : Type) (expand : list str -> bool -> W -> str -> result str * W) isid p v macro style lines w, p v = NoGroup ->
  update_version expand isid v (Some p) macro style lines w = (lines, w, Err SpecfileException).
Proof. exact @version_no_group. Qed.
Print Assumptions C158_no_group.
Theorem C158_prerelease : forall (U : Unicode) (W : Type) (expand : list str -> bool -> W -> str -> result str * W) isid p v a b n style lines w w' m k d,
  p v = Span a b -> n <> [] -> read_macros expand lines w = (lines, w', Ok m) -> macro_designates m n k d ->
  exists lines1, def_replaced m k (set_in style d) lines lines1 /\
    update_version expand isid v (Some p) (Some n) style lines w = update_tag expand isid protected_default (lit "Version") (firstn a v ++ lit "~" ++ skipn b v) lines1 w'.
Proof. exact @version_in. Qed.
Print Assumptions C158_prerelease.
Theorem C158_release : forall (U : Unicode) (W : Type) (expand : list str -> bool -> W -> str -> result str * W) isid p v n style lines w w' m k d,
  p v = NoMatch -> n <> [] -> read_macros expand lines w = (lines, w', Ok m) -> macro_designates m n k d ->
  exists lines1, def_replaced m k (set_out style d) lines lines1 /\
    update_version expand isid v (Some p) (Some n) style lines w = update_tag expand isid protected_default (lit "Version") v lines1 w'.
Proof. exact @version_out. Qed.
Print Assumptions C158_release.
(** A macro that is not defined in the file is ignored. *)
Theorem C158_absent : forall (U : Unicode) (W : Type) (expand : list str -> bool -> W -> str -> result str * W) isid p v n style lines w w' m,
  n <> [] -> read_macros expand lines w = (lines, w', Ok m) -> (forall d, In d (md_data m) -> d_name d <> n) ->
  (p v = NoMatch -> update_version expand isid v (Some p) (Some n) style lines w = update_tag expand isid protected_default (lit "Version") v lines w') /\
  (forall a b, p v = Span a b -> update_version expand isid v (Some p) (Some n) style lines w = update_tag expand isid protected_default (lit "Version") (firstn a v ++ lit "~" ++ skipn b v) lines w').
Proof. exact @version_absent. Qed.
Print Assumptions C158_absent.
Example C158_witness : let lines := file ["%dnl %global pre rc1"; "%global v 1.0"; "Version: %{v}%{?pre:~%{pre}}"]%string in
  update_version (U:=unicode_none) ex_expand ex_id (lit "2.0rc4") (Some (fun _ => Span 3 3)) (Some (lit "pre")) DNL lines tt =
    (file [" %global pre rc4"; "%global v 2.0"; "Version: %{v}%{?pre:~%{pre}}"]%string, tt, Ok tt) /\
  update_version (U:=unicode_none) ex_expand ex_id (lit "2.0") (Some (fun _ => NoMatch)) (Some (lit "pre")) HASHED (file ["%global pre rc4"; "%global v 2.0"; "Version: %{v}"]%string) tt =
    (file ["#global pre rc4"; "%global v 2.0"; "Version: %{v}"]%string, tt, Ok tt).
Proof. split; vm_compute; reflexivity. Qed.
(** C159: if the pattern matches but the group takes no part in the match, the tilde ends up in front of the last character. *)
Theorem C159_tilde_refuted : update_version (U:=unicode_none) ex_expand ex_id (lit "2.0rc4") (Some (fun _ => NotParticipating)) None DNL (file ["Version: 1.0"]%string) tt =
  (file ["Version: 2.0rc~4"]%string, tt, Ok tt).
Proof. exact tilde_misplaced. Qed.
Print Assumptions C159_tilde_refuted.

(** * C160, C161 *)
(** C160: a line in the body of a macro is taken for a tag. *)
Theorem C160_macro_body_refuted : let lines := file ["%global common %{expand:"; "Version: 1"; "}"; "Name: x"; "Version: 2"]%string in
  get_tag (U:=unicode_none) ex_expand (lit "version") lines tt = (lines, tt, Ok (Some (lit "1"))) /\
  update_tag (U:=unicode_none) ex_expand ex_id protected_default (lit "version") (lit "3") lines tt =
    (file ["%global common %{expand:"; "Version: 3"; "}"; "Name: x"; "Version: 2"]%string, tt, Ok tt).
Proof. exact tag_in_macro. Qed.
Print Assumptions C160_macro_body_refuted.
(** C161: below a tag of several lines a macro defined just above a tag is not updated. *)
Theorem C161_several_lines_refuted :
  update_tag (U:=unicode_none) ex_expand ex_id protected_default (lit "version") (lit "3") (file ["Summary: %{expand:"; "a"; "b"; "c}"; "%global v 1"; "Version: %{v}"]%string) tt =
    (file ["Summary: %{expand:"; "a"; "b"; "c}"; "%global v 1"; "Version: 3"]%string, tt, Ok tt) /\
  update_tag (U:=unicode_none) ex_expand ex_id protected_default (lit "version") (lit "3") (file ["Summary: a"; "%global v 1"; "Version: %{v}"]%string) tt =
    (file ["Summary: a"; "%global v 3"; "Version: %{v}"]%string, tt, Ok tt).
Proof. exact multiline_hides. Qed.
Print Assumptions C161_several_lines_refuted.
