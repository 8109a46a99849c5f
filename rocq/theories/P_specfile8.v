(** Proofs about operations on a whole spec file: updating the version. *)
From Coq Require Import Ascii String.
From Coq Require Import NArith ZArith List Bool Lia.
From Verif Require Import PyStr PyStrFacts Regex RegexFacts P_sections M_constants M_options M_value M_macro_definitions Spec_macro_definitions P_macro_definitions P_macro_definitions2
  M_conditions M_sections Spec_sections M_tags Spec_tags P_context
  M_release M_update M_specfile Spec_specfile P_specfile P_specfile2 P_specfile3.
Import ListNotations.
Open Scope N_scope.

Section Uni.
Context {U : Unicode} {W : Type} (expand : list str -> bool -> W -> str -> result str * W) (isid : str -> bool).
Notation Version := (lit "Version").
Lemma macro_index m name k d : macro_designates m name k d -> M_macro_definitions.find m name = Ok k.
Proof.
  intros (Hk & Hn & H). pose proof (P_macro_definitions2.find_spec m name) as S. destruct (M_macro_definitions.find m name) as [j|e].
  - f_equal. destruct S as (x & Hj & Hx & [(Hv & Hf)|(Hnone & Hf)]); destruct H as [(Kv & Kf)|(Knone & Kf)].
    + destruct (Nat.lt_trichotomy j k) as [L|[L|L]]; auto; exfalso.
      * rewrite (Kf j x L Hj Hx) in Hv. discriminate.
      * rewrite (Hf k d L Hk Hn) in Kv. discriminate.
    + rewrite (Knone x) in Hv; auto; [discriminate|]. eapply nth_error_In; eauto.
    + rewrite (Hnone d) in Kv; auto; [discriminate|]. eapply nth_error_In; eauto.
    + destruct (Nat.lt_trichotomy j k) as [L|[L|L]]; auto; exfalso; [now apply (Kf j x L Hj)|now apply (Hf k d L Hk)].
  - destruct S as (_ & S). destruct (S d); auto. eapply nth_error_In; eauto.
Qed.
Lemma update_def m k d f : nth_error (md_data m) k = Some d -> d_preceding (f d) = d_preceding d ->
  def_replaced m k (f d) (get_raw_data m) (get_raw_data (mk_mdefs (update_at k f (md_data m)) (md_remainder m))).
Proof.
  intros Hk Hp. pose proof Hk as Hk'. apply nth_error_split in Hk' as (x & y & E & L). exists d, (flat_map mdef_raw y ++ md_remainder m). split; auto. cbv zeta.
  unfold get_raw_data. cbn [md_data md_remainder]. rewrite E, <- L, update_at_app, !flat_map_app. rewrite firstn_app, Nat.sub_diag, firstn_all. cbn [firstn flat_map]. rewrite app_nil_r.
  change (mdef_raw d) with (d_preceding d ++ M_macro_definitions.own_lines d). change (mdef_raw (f d)) with (d_preceding (f d) ++ M_macro_definitions.own_lines (f d)). rewrite Hp. rewrite <- !app_assoc. auto.
Qed.
Theorem version_plain v macro style lines w : update_version expand isid v None macro style lines w = update_tag expand isid protected_default Version v lines w.
Proof. reflexivity. Qed.
Theorem version_no_macro p v a b style lines w : p v = Span a b ->
  update_version expand isid v (Some p) None style lines w = update_tag expand isid protected_default Version (firstn a v ++ lit "~" ++ skipn b v) lines w.
Proof. intros E. unfold update_version, andthen at 1, handle_prerelease. rewrite E. reflexivity. Qed.
Theorem version_no_group p v macro style lines w : p v = NoGroup -> update_version expand isid v (Some p) macro style lines w = (lines, w, Err SpecfileException).
Proof. intros E. unfold update_version, andthen, handle_prerelease. now rewrite E. Qed.
Lemma update_macro_def n style detected lines w w' m k d : n <> [] -> read_macros expand lines w = (lines, w', Ok m) -> macro_designates m n k d ->
  exists lines1, update_macro expand (Some n) style detected lines w = (lines1, w', Ok tt) /\ def_replaced m k ((if detected : bool then set_in else set_out) style d) lines lines1.
Proof.
  intros N R D. unfold read_macros, view_macros in R. unfold update_macro. destruct n as [|c n]; [congruence|]. unfold view_macros.
  destruct (parse_with_conditions (expand lines) w lines true) as [[m'|e] w1]; [|discriminate]. injection R as El -> ->. rewrite (macro_index _ _ _ _ D). eexists. split; [reflexivity|].
  pose proof (update_def m k d (fun d => with_commented_out (negb detected) (if d_commented_out d then d else with_style style d)) (proj1 D)) as K. rewrite El in K.
  destruct detected; apply K; destruct (d_commented_out d); reflexivity.
Qed.
Theorem version_in p v a b n style lines w w' m k d : p v = Span a b -> n <> [] -> read_macros expand lines w = (lines, w', Ok m) -> macro_designates m n k d ->
  exists lines1, def_replaced m k (set_in style d) lines lines1 /\
    update_version expand isid v (Some p) (Some n) style lines w = update_tag expand isid protected_default Version (firstn a v ++ lit "~" ++ skipn b v) lines1 w'.
Proof.
  intros E N R D. destruct (update_macro_def n style true _ _ _ _ _ _ N R D) as (l1 & Eu & Rp). exists l1. split; [exact Rp|].
  unfold update_version, andthen at 1, handle_prerelease. rewrite E. unfold andthen at 1. rewrite Eu. reflexivity.
Qed.
Theorem version_out p v n style lines w w' m k d : p v = NoMatch -> n <> [] -> read_macros expand lines w = (lines, w', Ok m) -> macro_designates m n k d ->
  exists lines1, def_replaced m k (set_out style d) lines lines1 /\
    update_version expand isid v (Some p) (Some n) style lines w = update_tag expand isid protected_default Version v lines1 w'.
Proof.
  intros E N R D. destruct (update_macro_def n style false _ _ _ _ _ _ N R D) as (l1 & Eu & Rp). exists l1. split; [exact Rp|].
  unfold update_version, andthen at 1, handle_prerelease. rewrite E. unfold andthen at 1. rewrite Eu. reflexivity.
Qed.
Theorem version_absent p v n style lines w w' m : n <> [] -> read_macros expand lines w = (lines, w', Ok m) -> (forall d, In d (md_data m) -> d_name d <> n) ->
  (p v = NoMatch -> update_version expand isid v (Some p) (Some n) style lines w = update_tag expand isid protected_default Version v lines w') /\
  (forall a b, p v = Span a b -> update_version expand isid v (Some p) (Some n) style lines w = update_tag expand isid protected_default Version (firstn a v ++ lit "~" ++ skipn b v) lines w').
Proof.
  intros N R D. assert (E : forall detected, update_macro expand (Some n) style detected lines w = (lines, w', Ok tt)).
  { intros detected. unfold read_macros, view_macros in R. unfold update_macro. destruct n as [|c n]; [congruence|]. unfold view_macros.
    destruct (parse_with_conditions (expand lines) w lines true) as [[m'|e] w1]; [|discriminate]. injection R as El -> ->.
    pose proof (P_macro_definitions2.find_spec m (c :: n)) as S. destruct (M_macro_definitions.find m (c :: n)) as [j|e]; [|now rewrite El].
    exfalso. destruct S as (x & Hj & Hx & _). apply nth_error_In in Hj. now apply (D x). }
  split; [intros Q|intros a b Q]; unfold update_version, andthen at 1, handle_prerelease; rewrite Q; unfold andthen at 1; rewrite E; reflexivity.
Qed.
Theorem protected_spec s : protected_default s = true <-> exists a n b, s = a ++ n ++ b /\ ~ In LF a /\ Forall2 same_letter (lit "name") n.
Proof.
  assert (Hl : forall a, In a (lit "name") -> (97 <= a <= 122) \/ a = 95) by (intros a Ha; left; cbn in Ha; repeat (destruct Ha as [<-|Ha]; [lia|]); destruct Ha).
  assert (HL : forall w, Forall2 (fun a c => ci a c = true) (lit "name") w <-> Forall2 same_letter (lit "name") w).
  { intros w. revert Hl. generalize (lit "name"). intros n Hl. split; induction 1 as [|a c n' w' P F IH]; constructor; try (apply IH; intros; apply Hl; now right); apply ci_letter; auto; apply Hl; now left. }
  unfold protected_default. destruct (re_match _ s) as [m|] eqn:E.
  - split; [intros _|auto]. apply re_match_sound in E. apply Match_Seq in E as (s1 & M1 & M2). apply Match_Star in M1 as (a & E1 & P & _ & _). cbn [rest] in E1.
    apply Match_ci_word in M2 as (n & E2 & F & _ & _). exists a, n, (rest m). split; [now rewrite E1, E2|]. split; [|now apply HL].
    intros Hi. rewrite forallb_forall in P. apply P in Hi. discriminate.
  - split; [discriminate|]. intros (a & n & b & -> & Na & F). exfalso. rewrite re_match_None in E. apply HL in F. apply (E (mkst (rev n ++ rev a) b [])). apply Match_Seq.
    exists (mkst (rev a) (n ++ b) []). split; [apply Match_Star; exists a|apply Match_ci_word; exists n].
    + split; [reflexivity|]. split; [|split; [cbn; now rewrite app_nil_r|reflexivity]]. apply forallb_forall. intros c Hc. unfold dot. apply negb_true_iff, N.eqb_neq. intros ->. contradiction.
    + split; [reflexivity|]. split; [exact F|]. split; reflexivity.
Qed.
End Uni.
