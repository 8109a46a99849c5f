(** Independent specification of version strings. *)
From Coq Require Import NArith ZArith List Bool.
From Verif Require Import PyStr M_evr Spec_changelog.
Import ListNotations.
Open Scope N_scope.

(** A version according to RPM's naming rules: not empty, no "-", no ":", one line. *)
Definition rpm_version (v : str) : Prop := v <> [] /\ ~ In DASH v /\ ~ In COLON v /\ ~ In LF v.
(** A release: no "-", one line; it may be empty (unknown). *)
Definition rpm_release (r : str) : Prop := ~ In DASH r /\ ~ In LF r.
(** A package name: not empty, one line (dashes are fine). *)
Definition rpm_name (n : str) : Prop := n <> [] /\ ~ In LF n.

Definition wf_evr (x : evr) : Prop := rpm_version (e_version x) /\ rpm_release (e_release x).

(** [ep] is the written form of epoch [n]: nothing, or digits and a colon. *)
Definition epoch_text {U : Unicode} (n : N) (ep : str) : Prop :=
  (ep = [] /\ n = 0) \/ (exists d, ep = d ++ [COLON] /\ int_of_str d = Some n).
(** [t] is the written form of release [r]: nothing, or a dash and the release. *)
Definition release_text (r t : str) : Prop :=
  (t = [] /\ r = []) \/ (t = DASH :: r /\ r <> [] /\ ~ In DASH r).
(** End of input as [$] sees it: nothing or one newline. *)
Definition end_text (t : str) : Prop := t = [] \/ t = [LF].

(** The EVR part of a NEVRA with release [r]. *)
Definition nevra_evr (x : nevra) (r : str) : evr := mk_evr (a_epoch x) (a_version x) r.
