(** Theorems about release strings (C38, C39, C88, C89).  [with_dist], [no_dist], [counts_in_front], [no_front_count],
    [ends_in_number], [refers] and [leaves] are specified in Spec_release.v. *)
From Coq Require Import Ascii String.
From Coq Require Import NArith ZArith List Bool.
From Verif Require Import PyStr M_value M_release Spec_release P_release P_release2.
Import ListNotations.
Open Scope N_scope.

(** * C38 *)
(** A raw release is split into the release, the dist macro and the minor bump in the only possible way. *)
Theorem C38_split : forall (U : Unicode) raw r d x n, with_dist raw r d x n -> ~ In LF raw -> split_raw_release raw = (r, Some d, n).
Proof. exact @split_dist. Qed.
Print Assumptions C38_split.
Theorem C38_split_no_dist : forall (U : Unicode) raw, no_dist raw -> ~ In LF raw -> split_raw_release raw = (raw, None, None).
Proof. exact @split_no_dist. Qed.
Print Assumptions C38_split_no_dist.
(** Setting the release keeps the dist macro, and the new release reads back. *)
Theorem C38_set_release : forall (U : Unicode) raw r d x n v, with_dist raw r d x n -> ~ In LF raw -> ~ In LF v ->
  get_updated_release raw v = v ++ d /\ split_raw_release (get_updated_release raw v) = (v, Some d, None).
Proof. exact @set_release_dist. Qed.
Print Assumptions C38_set_release.
Theorem C38_set_release_no_dist : forall (U : Unicode) raw v, no_dist raw -> ~ In LF raw -> no_dist v -> ~ In LF v ->
  get_updated_release raw v = v /\ split_raw_release v = (v, None, None).
Proof. exact @set_release_no_dist. Qed.
Print Assumptions C38_set_release_no_dist.
Example C38_example : @with_dist unicode_none (lit "3.20240101git%{?dist}.2") (lit "3.20240101git") (lit "%{?dist}") (lit ".2") (Some 2) /\
  @split_raw_release unicode_none (lit "3.20240101git%{?dist}.2") = (lit "3.20240101git", Some (lit "%{?dist}"), Some 2) /\
  @get_updated_release unicode_none (lit "3.20240101git%{?dist}.2") (lit "4") = lit "4%{?dist}".
Proof.
  split; [|split; reflexivity]. split; [reflexivity|]. split; [cbn; tauto|]. right. exists (lit "2"). split; [|split; reflexivity].
  split; [discriminate|]. constructor; [reflexivity|constructor].
Qed.

(** * C39 *)
(** A release that counts at the front gets that number incremented, the rest is kept. *)
Theorem C39_front : forall (U : Unicode) s f zero ds post n, counts_in_front s f zero ds post -> ~ In LF s -> int_of_str ds = Some n ->
  bump_release_string s = f ++ zero ++ dec (n + 1) ++ post.
Proof. exact @bump_front. Qed.
Print Assumptions C39_front.
(** Otherwise, a number after the last dot is incremented. *)
Theorem C39_end : forall (U : Unicode) s a ds n, no_front_count s -> ends_in_number s a ds -> ~ In LF s -> int_of_str ds = Some n ->
  bump_release_string s = a ++ DOT :: dec (n + 1).
Proof. exact @bump_end. Qed.
Print Assumptions C39_end.
(** Otherwise, ".1" is appended. *)
Theorem C39_append : forall (U : Unicode) s, no_front_count s -> ~ (exists a ds, ends_in_number s a ds) -> ~ In LF s ->
  bump_release_string s = s ++ lit ".1".
Proof. exact @bump_append. Qed.
Print Assumptions C39_append.
(** There are no other releases. *)
Theorem C39_kinds : forall (U : Unicode) s, ~ In LF s ->
  (exists f zero ds post, counts_in_front s f zero ds post) \/
  (no_front_count s /\ exists a ds, ends_in_number s a ds) \/
  (no_front_count s /\ ~ exists a ds, ends_in_number s a ds).
Proof. exact @bump_kinds. Qed.
Print Assumptions C39_kinds.
(** However often a release is bumped, no value comes back. *)
Theorem C39_never_repeats : forall (U : Unicode) s i j, ~ In LF s -> (i < j)%nat ->
  Nat.iter i bump_release_string s <> Nat.iter j bump_release_string s.
Proof. exact @never_repeats. Qed.
Print Assumptions C39_never_repeats.
Example C39_example_front : @counts_in_front unicode_none (lit "0.9.rc1%{?dist}") [] (lit "0.") (lit "9") (lit ".rc1%{?dist}") /\
  @bump_release_string unicode_none (lit "0.9.rc1%{?dist}") = lit "0.10.rc1%{?dist}".
Proof.
  split; [|reflexivity]. split; [|left; discriminate]. split; [reflexivity|]. split; [split; [discriminate|constructor; [reflexivity|constructor]]|].
  split; [now left|]. split; [intros c t Q; injection Q as <- _; reflexivity|now left].
Qed.
Example C39_example_end : @ends_in_number unicode_none (lit "rc.4") (lit "rc") (lit "4") /\ @no_front_count unicode_none (lit "rc.4") /\
  @bump_release_string unicode_none (lit "rc.4") = lit "rc.5" /\ @bump_release_string unicode_none (lit "rc") = lit "rc.1".
Proof.
  split; [split; [reflexivity|split; [discriminate|split; [discriminate|constructor; [reflexivity|constructor]]]]|]. split; [|split; reflexivity].
  intros (f & z & ds & p & (E & (Nd & Fd) & [->|(ws & -> & _)] & _ & [->|[-> _]]) & _); cbn in E; try discriminate.
  destruct ds as [|c ds]; [congruence|]. cbn in E. injection E as <- _. inversion Fd; subst. discriminate.
Qed.

(** * C88 *)
(** A release counts as automatic exactly when %autorelease is referred to, directly or in a conditional expansion. *)
Theorem C88_autorelease : forall (U : Unicode) raw,
  has_autorelease raw = Ok true <-> exists nodes, parse raw = Ok nodes /\ refers (lit "autorelease") nodes.
Proof. exact @autorelease_iff. Qed.
Print Assumptions C88_autorelease.
(** A changelog counts as automatic exactly when a line that is not a comment refers to %autochangelog; lines with unterminated macros are passed over. *)
Theorem C88_autochangelog : forall (U : Unicode) section,
  (forall l e, In l section -> parse l = Err e -> e = UnterminatedMacroException) ->
  (contains_autochangelog section = Ok true <->
   exists l nodes, In l section /\ startswith (lstrip l) [HASH] = false /\ parse l = Ok nodes /\ refers (lit "autochangelog") nodes) /\
  exists b, contains_autochangelog section = Ok b.
Proof. exact @autochangelog_iff. Qed.
Print Assumptions C88_autochangelog.
Example C88_example : @has_autorelease unicode_none (lit "%{?fedora:%{autorelease -e rc}}") = Ok true /\
  @has_autorelease unicode_none (lit "1%{?dist}") = Ok false /\
  @contains_autochangelog unicode_none [lit "# %autochangelog"; lit "%{oops"; lit "%autochangelog"] = Ok true.
Proof. repeat split; reflexivity. Qed.

(** * C89 *)
(** Flattening gives the nodes outside of conditional expansions and, in their place, the ones inside, in order. *)
Theorem C89_flatten : forall ns out, flatten ns = out <-> leaves ns out.
Proof. exact flatten_leaves. Qed.
Print Assumptions C89_flatten.
Example C89_example : leaves [StringLiteral (lit "a"); ConditionalMacroExpansion (lit "?") (lit "x") [MacroSubstitution [] (lit "b"); ConditionalMacroExpansion (lit "!?") (lit "y") []]; StringLiteral (lit "c")]
  [StringLiteral (lit "a"); MacroSubstitution [] (lit "b"); StringLiteral (lit "c")].
Proof. apply flatten_leaves. reflexivity. Qed.
