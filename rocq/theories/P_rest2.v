(** Proofs that complete others: continued lines that do not end, options of sections, slices of arguments, releases. *)
From Coq Require Import Ascii String.
From Coq Require Import NArith ZArith List Bool Lia Arith.
From Verif Require Import PyStr PyStrFacts Regex.
From Verif Require M_spec_parser Spec_spec_parser2 P_spec_parser6 P_spec_parser7 M_options M_slice M_release Spec_release P_release M_constants M_sections.
Import ListNotations.
Open Scope N_scope.

Section Included.
Import M_spec_parser Spec_spec_parser2 P_spec_parser6 P_spec_parser7.
(** Each of the lines ends with a backslash. *)
Definition unfinished (ls : list str) : Prop := Forall (fun l => exists x, l = x ++ [BSLASH]) ls.
Lemma unfinished_args more : unfinished more -> forall p, include_args (Some p) more = ([], Err IndexError).
Proof.
  induction 1 as [|l ls E F IH]; intros p; [reflexivity|]. cbn [include_args].
  replace (endswith l [BSLASH]) with true by (symmetry; apply endswith_iff; destruct E as (x & ->); eauto). apply IH.
Qed.
Lemma included_then lines args : included lines args -> Forall (fun l => ~ In LF l) lines -> forall rest,
  include_args None (lines ++ rest) = let (a, r) := include_args None rest in (args ++ a, r).
Proof.
  induction 1 as [|l ls args No I IH|l arg more ls args IL C I IH]; intros F rest; [cbn [app]; destruct (include_args None rest); reflexivity| |].
  - inversion F as [|? ? F1 F2]; subst. cbn [include_args app]. rewrite (include_none l F1 No). apply IH, F2.
  - inversion F as [|? ? F1 F2]; subst. apply Forall_app in F2 as [_ F2]. cbn [include_args app]. destruct (include_match l arg IL) as (m & -> & ->).
    assert (Ca : continued arg more /\ endswith l [BSLASH] = endswith arg [BSLASH]).
    { destruct IL as (w & v & _ & B & Nv & _ & _ & ->). destruct (exists_last Nv) as (v0 & sp & ->). apply Forall_app in B as [_ B]. inversion B as [|? ? Sp _]; subst.
      assert (Q : forall y, w ++ lit "%include" ++ (v0 ++ [sp]) ++ arg = y ++ [BSLASH] -> exists z, arg = z ++ [BSLASH]).
      { intros y E. destruct arg as [|a0 arg0] using rev_ind; [|].
        - exfalso. rewrite app_nil_r, !app_assoc in E. apply app_inj_tail in E as [_ ->]. discriminate.
        - rewrite !app_assoc in E. apply app_inj_tail in E as [_ ->]. eexists. reflexivity. }
      split.
      - inversion C as [? Nb|x l' ls' C' E1 E2]; subst; [constructor; intros z ->; apply (Nb (w ++ lit "%include" ++ (v0 ++ [sp]) ++ z)); rewrite <- !app_assoc; reflexivity|].
        destruct (Q x (eq_sym E1)) as (z & ->). constructor. exact C'.
      - apply eq_iff_eq_true. rewrite !endswith_iff. split; intros (y & E); [exact (Q y E)|]. subst arg. exists (w ++ lit "%include" ++ (v0 ++ [sp]) ++ y). rewrite <- !app_assoc. reflexivity. }
    destruct Ca as [Ca ->]. pose proof (continued_args arg more Ca [] (ls ++ rest)) as X. cbn [app] in X. rewrite <- app_assoc, X, (IH F2). destruct (include_args None rest); reflexivity.
Qed.
Context {W : Type}.
Context (expand : str -> W -> W * result str) (locate : str -> world W -> str -> result (option str)).
Context (d : str) (w : world W) (value : str -> str) (place : str -> option str).
Context (E : forall s, expand s (ctx w) = (ctx w, Ok (value s))) (L : forall s, locate d w s = Ok (place s)).
Theorem include_unfinished content ls args l arg more : splitlines content = ls ++ l :: more -> included ls args -> include_line l arg -> unfinished (l :: more) ->
  collect_included expand locate d content w = (w, Err IndexError).
Proof.
  intros S I IL Un. unfold collect_included. pose proof (splitlines_no_lf content) as NL. rewrite S in *. apply Forall_app in NL as [N1 N2].
  rewrite (included_then _ _ I N1). cbn [include_args]. destruct (include_match l arg IL) as (m & -> & ->). inversion Un as [|? ? El Em]; subst.
  replace (endswith l [BSLASH]) with true by (symmetry; apply endswith_iff; destruct El as (x & ->); eauto).
  rewrite (unfinished_args _ Em). rewrite (add_named _ _ _ _ _ _ E L). reflexivity.
Qed.
Theorem forced_unfinished {U : Unicode} {A : Type} stat_fault write_outcome unlink_fault order (rpm_spec : bool -> str -> world W -> world W * result A) spec_sources temp_fault set_context macros w0 content ls args l arg more :
  get_rpm_spec rpm_spec temp_fault set_context macros d content true w0 = (w, Err RPMException) ->
  splitlines content = ls ++ l :: more -> included ls args -> include_line l arg -> unfinished (l :: more) ->
  do_parse stat_fault write_outcome unlink_fault order rpm_spec spec_sources temp_fault set_context expand locate macros d content true w0 = (w, Err IndexError).
Proof.
  intros G S I IL Un. unfold do_parse, first_parse. rewrite G. cbn [negb]. rewrite (include_unfinished content ls args l arg more S I IL Un). reflexivity.
Qed.
End Included.

Section Arguments.
Import M_options M_slice.
Context {U : Unicode}.
Theorem numbers_or_texts_each l : forall vs, numbers_or_texts l = Ok vs <-> Forall2 (fun s v => number_or_text s = Ok v) l vs.
Proof.
  induction l as [|x l IH]; intros vs; cbn [numbers_or_texts].
  - split; [intros E; injection E as <-; constructor|]. intros F. inversion F. reflexivity.
  - split.
    + destruct (number_or_text x) as [v|] eqn:Ex; cbn [bind]; [|discriminate]. destruct (numbers_or_texts l) as [ys|] eqn:El; cbn [bind]; [|discriminate].
      intros E. injection E as <-. constructor; [exact Ex|]. now apply IH.
    + intros F. inversion F as [|? v ? ys Ex Fl]; subst. rewrite Ex. cbn [bind]. apply IH in Fl. rewrite Fl. reflexivity.
Qed.
End Arguments.

Section Release.
Import M_release Spec_release P_release.
Context {U : Unicode}.
Theorem release_dist raw r d x n : with_dist raw r d x n -> ~ In LF raw -> release_of raw = r.
Proof. intros A B. unfold release_of. rewrite (split_dist raw r d x n A B). reflexivity. Qed.
Theorem release_no_dist raw : no_dist raw -> ~ In LF raw -> release_of raw = raw.
Proof. intros A B. unfold release_of. rewrite (split_no_dist raw A B). reflexivity. Qed.
End Release.
