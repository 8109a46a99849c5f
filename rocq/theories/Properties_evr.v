(** Properties of EVR, NEVR, NEVRA and file name extraction (specfile/utils.py). *)
From Coq Require Import Ascii String.
From Coq Require Import NArith ZArith List Bool Lia Permutation.
From Verif Require Import PyStr Regex M_constants M_evr Spec_changelog Spec_evr P_evr.
Import ListNotations.
Open Scope N_scope.

(** C35: the six comparison operators of EVR agree with one total preorder. *)
Theorem C35_evr_operators_agree :
  forall cmp : label -> label -> Z, total_preorder cmp -> forall x y : evr,
  evr_le cmp x y = (evr_lt cmp x y || evr_eq cmp x y) /\
  evr_ge cmp x y = evr_le cmp y x /\
  evr_gt cmp x y = evr_lt cmp y x /\
  evr_lt cmp x y = negb (evr_ge cmp x y) /\
  evr_ne cmp x y = negb (evr_eq cmp x y) /\
  evr_eq cmp x y = (evr_le cmp x y && evr_le cmp y x).
Proof. exact evr_order_consistent. Qed.
Print Assumptions C35_evr_operators_agree.

Theorem C35_evr_le_total :
  forall cmp : label -> label -> Z, total_preorder cmp -> forall x y : evr,
  evr_le cmp x y = true \/ evr_le cmp y x = true.
Proof. exact evr_order_total. Qed.
Print Assumptions C35_evr_le_total.

Theorem C35_evr_le_transitive :
  forall cmp : label -> label -> Z, total_preorder cmp -> forall x y z : evr,
  evr_le cmp x y = true -> evr_le cmp y z = true -> evr_le cmp x z = true.
Proof. exact evr_order_trans. Qed.
Print Assumptions C35_evr_le_transitive.

(** C35: NEVR compares like EVR when the names agree, is incomparable otherwise. *)
Theorem C35_nevr_compares_by_evr :
  forall (cmp : label -> label -> Z) (x y : nevr),
  (n_name x = n_name y ->
    nevr_lt cmp x y = Some (evr_lt cmp (n_evr x) (n_evr y)) /\
    nevr_le cmp x y = Some (evr_le cmp (n_evr x) (n_evr y)) /\
    nevr_ge cmp x y = Some (evr_ge cmp (n_evr x) (n_evr y)) /\
    nevr_gt cmp x y = Some (evr_gt cmp (n_evr x) (n_evr y)) /\
    nevr_eq cmp x y = evr_eq cmp (n_evr x) (n_evr y)) /\
  (n_name x <> n_name y ->
    nevr_lt cmp x y = None /\ nevr_le cmp x y = None /\ nevr_ge cmp x y = None /\ nevr_gt cmp x y = None /\
    nevr_eq cmp x y = false) /\
  nevr_ne cmp x y = negb (nevr_eq cmp x y).
Proof. exact nevr_order. Qed.
Print Assumptions C35_nevr_compares_by_evr.

Theorem C35_nevra_compares_by_evr :
  forall (cmp : label -> label -> Z) (x y : nevra) (r r' : str),
  a_release x = Some r -> a_release y = Some r' ->
  (a_name x = a_name y /\ a_arch x = a_arch y ->
    nevra_lt cmp x y = Some (evr_lt cmp (nevra_evr x r) (nevra_evr y r')) /\
    nevra_le cmp x y = Some (evr_le cmp (nevra_evr x r) (nevra_evr y r')) /\
    nevra_ge cmp x y = Some (evr_ge cmp (nevra_evr x r) (nevra_evr y r')) /\
    nevra_gt cmp x y = Some (evr_gt cmp (nevra_evr x r) (nevra_evr y r')) /\
    nevra_eq cmp x y = evr_eq cmp (nevra_evr x r) (nevra_evr y r')) /\
  (a_name x <> a_name y \/ a_arch x <> a_arch y ->
    nevra_lt cmp x y = None /\ nevra_le cmp x y = None /\ nevra_ge cmp x y = None /\ nevra_gt cmp x y = None /\
    nevra_eq cmp x y = false) /\
  nevra_ne cmp x y = negb (nevra_eq cmp x y).
Proof. exact nevra_order. Qed.
Print Assumptions C35_nevra_compares_by_evr.

(** C35 (hash, one direction): values with the same hashed key are equal. *)
Theorem C35_same_hash_key_equal :
  forall cmp : label -> label -> Z, total_preorder cmp -> forall x y : evr,
  evr_key x = evr_key y -> evr_eq cmp x y = true.
Proof. exact evr_same_key. Qed.
Print Assumptions C35_same_hash_key_equal.
(** The same of NEVRs and NEVRAs, and the hashed keys of different values differ. *)
Theorem C35_nevr_hash_key :
  forall cmp : label -> label -> Z, total_preorder cmp -> forall x y : nevr,
  nevr_key x = nevr_key y -> x = y /\ nevr_eq cmp x y = true.
Proof. exact nevr_same_key. Qed.
Print Assumptions C35_nevr_hash_key.
Theorem C35_nevra_hash_key :
  forall cmp : label -> label -> Z, total_preorder cmp -> forall x y : nevra,
  nevra_key x = nevra_key y -> x = y /\ nevra_eq cmp x y = true.
Proof. exact nevra_same_key. Qed.
Print Assumptions C35_nevra_hash_key.

(** Finding: equal values may have different hashed keys, whatever the comparison. *)
Theorem C172_equal_values_hash_equal_refuted :
  forall cmp : label -> label -> Z, total_preorder cmp ->
  exists x y : evr, evr_eq cmp x y = true /\ evr_key x <> evr_key y.
Proof.
  intros cmp Hc. exists (mk_evr 0 [] (lit "1")), (mk_evr 0 (lit "0") (lit "1")). split; [|discriminate].
  unfold evr_eq, evr_cmp. apply Z.eqb_eq. apply (cmp_refl cmp Hc).
Qed.
Print Assumptions C172_equal_values_hash_equal_refuted.

(** A total preorder on labels, and values below, above and equal to each other. *)
Definition demo_cmp (x y : label) : Z :=
  (Z.of_nat (length (snd (fst x))) - Z.of_nat (length (snd (fst y))))%Z.
Example C35_example : total_preorder demo_cmp /\
  evr_lt demo_cmp (mk_evr 0 (lit "1") []) (mk_evr 0 (lit "1.0") []) = true.
Proof. split; [split; unfold demo_cmp; intros; lia|reflexivity]. Qed.

(** C36: EVR strings read back. *)
Theorem C36_evr_string_roundtrip :
  forall (U : Unicode) (x : evr), wf_evr x -> evr_from_string (evr_str x) = Ok x.
Proof. exact @evr_roundtrip. Qed.
Print Assumptions C36_evr_string_roundtrip.

(** C36: what a successful parse means: the text is the epoch, the version and the
    release, nothing lost (but a final newline). *)
Theorem C36_evr_parse_lossless :
  forall (U : Unicode) (s : str) (x : evr), evr_from_string s = Ok x ->
  exists ep rel t, s = ep ++ e_version x ++ rel ++ t /\ epoch_text (e_epoch x) ep /\
    e_version x <> [] /\ ~ In DASH (e_version x) /\ release_text (e_release x) rel /\ end_text t.
Proof. exact @evr_parse_sound. Qed.
Print Assumptions C36_evr_parse_lossless.

(** C36: every text of that shape is accepted (an epoch prefix is part of the
    version's shape here). *)
Theorem C36_evr_parse_accepts :
  forall (U : Unicode) (v rel t r : str),
  v <> [] -> ~ In DASH v -> release_text r rel -> end_text t ->
  exists x, evr_from_string (v ++ rel ++ t) = Ok x.
Proof. exact @evr_parse_complete. Qed.
Print Assumptions C36_evr_parse_accepts.

(** C36: str(from_string(s)) = s when the epoch, if written, is canonical and positive. *)
Theorem C36_evr_text_reproduced :
  forall (U : Unicode) (s : str) (x : evr), evr_from_string s = Ok x -> ~ In LF s ->
  (forall d t, s = d ++ COLON :: t -> d <> [] -> forallb is_digit d = true -> exists n, 0 < n /\ d = dec n) ->
  evr_str x = s.
Proof. exact @evr_text_back. Qed.
Print Assumptions C36_evr_text_reproduced.

(** C36: NEVR strings read back when there is a release, or the name has no dash. *)
Theorem C36_nevr_string_roundtrip :
  forall (U : Unicode) (x : nevr),
  rpm_name (n_name x) -> wf_evr (n_evr x) -> (e_release (n_evr x) <> [] \/ ~ In DASH (n_name x)) ->
  nevr_from_string (nevr_str x) = Ok x.
Proof. exact @nevr_roundtrip. Qed.
Print Assumptions C36_nevr_string_roundtrip.

(** Finding: without a release a dashed name is read back wrongly. *)
Theorem C173_nevr_without_release_refuted :
  forall U : Unicode, exists x : nevr,
  rpm_name (n_name x) /\ wf_evr (n_evr x) /\ exists y, nevr_from_string (nevr_str x) = Ok y /\ y <> x.
Proof.
  intros U. exists (mk_nevr (lit "a-b") (mk_evr 0 (lit "1") [])).
  repeat split; try discriminate; try (intros Hi; repeat (destruct Hi as [Hi|Hi]; [discriminate|]); destruct Hi).
  exists (mk_nevr (lit "a") (mk_evr 0 (lit "b") (lit "1"))). split; [reflexivity|discriminate].
Qed.
Print Assumptions C173_nevr_without_release_refuted.

(** C36: NEVRA strings read back, whatever the iteration order of the set of architectures. *)
Theorem C36_nevra_string_roundtrip :
  forall (U : Unicode) (arches : list str) (x : nevra) (r : str),
  Permutation arches (lit "noarch" :: ARCH_NAMES) -> a_arch x = lit "noarch" \/ In (a_arch x) ARCH_NAMES ->
  a_release x = Some r -> r <> [] -> rpm_release r -> rpm_name (a_name x) -> rpm_version (a_version x) ->
  nevra_from_string arches (nevra_str x) = Ok x.
Proof. exact @nevra_roundtrip. Qed.
Print Assumptions C36_nevra_string_roundtrip.
(** Without a release, a NEVRA that is read from a string has none (not an empty one). *)
Theorem C36_nevra_without_release :
  forall (U : Unicode) (arches : list str) (x : nevra),
  Permutation arches (lit "noarch" :: ARCH_NAMES) -> a_arch x = lit "noarch" \/ In (a_arch x) ARCH_NAMES ->
  a_release x = None -> rpm_name (a_name x) -> ~ In DASH (a_name x) -> rpm_version (a_version x) ->
  nevra_from_string arches (nevra_str x) = Ok x.
Proof. exact @nevra_no_release. Qed.
Print Assumptions C36_nevra_without_release.

Example C36_example :
  let x := mk_nevra (lit "python3-foo") 2 (lit "1.0~rc1") (Some (lit "1.fc40")) (lit "x86_64") in
  str_in (a_arch x) ARCH_NAMES = true /\ nevra_str x = lit "python3-foo-2:1.0~rc1-1.fc40.x86_64" /\
  rpm_name (a_name x) /\ rpm_version (a_version x) /\ rpm_release (lit "1.fc40").
Proof.
  repeat split; try discriminate; try reflexivity;
  intros Hi; repeat (destruct Hi as [Hi|Hi]; [discriminate|]); destruct Hi.
Qed.

(** C45 *)
Theorem C45_filename_from_location :
  forall l : str,
  (~ In SLASH l /\ get_filename_from_location l = l) \/
  (exists p, l = p ++ get_filename_from_location l /\
     ~ In SLASH (get_filename_from_location l) /\ ~ In EQUALS (get_filename_from_location l) /\
     In SLASH l /\ exists q c, p = q ++ [c] /\ (c = SLASH \/ c = EQUALS)).
Proof. exact filename_spec. Qed.
Print Assumptions C45_filename_from_location.
Example C45_example :
  get_filename_from_location (lit "https://example.com/a?b#/name=foo-1.0.tar.gz") = lit "foo-1.0.tar.gz".
Proof. reflexivity. Qed.
