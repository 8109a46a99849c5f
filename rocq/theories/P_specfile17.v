(** Proofs about operations on a whole spec file: one change and what is read after it. *)
From Coq Require Import Ascii String.
From Coq Require Import NArith ZArith List Bool Lia.
From Verif Require P_value P_update4.
From Verif Require Import PyStr PyStrFacts Regex RegexFacts M_constants M_options M_value M_macro_definitions Spec_macro_definitions P_macro_definitions P_macro_definitions2
  P_macro_definitions3 M_conditions M_sections Spec_sections P_sections P_sections2 P_sections4 M_tags Spec_tags P_tags P_tags2 P_tags3 P_tags4 P_tags5 P_context
  M_release M_update M_specfile Spec_specfile Spec_update Spec_specfile2 P_specfile P_specfile2 P_specfile5 P_specfile6 P_specfile7 P_specfile10 P_specfile11 P_specfile12 P_specfile13 P_specfile14 P_specfile15 P_specfile3 P_specfile4 P_conditions2.
Import ListNotations.
Open Scope N_scope.
Open Scope nat_scope.

Section Uni.
Context {U : Unicode}.
Notation F := (map (fun l : str => (l, true))).
Definition readable (l : str) : Prop := exists r, split_conditional_macro_expansion l = Ok r.
Section World.
Context {W : Type} (expand : list str -> bool -> W -> str -> result str * W).
Lemma macros_read lines w l m w' : read_macros expand lines w = (l, w', Ok m) -> parse_with_conditions (expand lines) w lines true = (Ok m, w') /\ l = get_raw_data m.
Proof. unfold read_macros, view_macros. destruct (parse_with_conditions (expand lines) w lines true) as [[m0|] w0]; [|discriminate]. intros Q. injection Q as <- <- <-. auto. Qed.
Lemma macros_plain' lines m w w' : parse_with_conditions (expand lines) w lines true = (Ok m, w') -> parse_plain lines = mk_mdefs (map unvalid (md_data m)) (md_remainder m).
Proof.
  unfold parse_with_conditions. cbn [negb]. destruct (process_conditions (expand lines) w lines (Some (parse_plain lines))) as [[tagged|] w1] eqn:E; [|discriminate]. intros Q. injection Q as <- _.
  apply process_lines in E. rewrite <- E at 1. apply parse_fst.
Qed.
Lemma edited_at v : forall k ds d, nth_error ds k = Some d -> ordinary d -> blank (d_prefix d) -> fits v ->
  edited_all (repeat None k ++ Some v :: repeat None (length ds - S k)) ds (update_at k (renewed v) ds).
Proof.
  assert (K : forall ds, edited_all (repeat None (length ds)) ds ds) by (induction ds; cbn; constructor; auto).
  induction k as [|k IH]; intros [|x ds] d H O B V; try discriminate.
  - injection H as ->. cbn [repeat app length update_at]. replace (S (length ds) - 1) with (length ds) by lia. constructor; auto.
  - cbn [repeat app length update_at]. replace (S (length ds) - S (S k)) with (length ds - S k) by lia. constructor. eapply IH; eauto.
Qed.
Lemma renewed_active v d : d_commented_out d = false -> renewed v d = with_body v d.
Proof. destruct d. cbn. now intros ->. Qed.
Theorem set_body_effect k v d lines w m lines' w1 : regular_file lines -> read_macros expand lines w = (lines, w1, Ok m) -> only_macro m (d_name d) k d ->
  d_commented_out d = false -> ordinary d -> blank (d_prefix d) -> file_value v -> set_body expand k v lines w = (lines', w1, Ok tt) ->
  regular_file lines' /\
  (forall w2 l2 w3 m2, read_macros expand lines' w2 = (l2, w3, Ok m2) -> l2 = lines' /\ same_macros_but k v m m2) /\
  (forall w0 l0 w0' ts w2 l2 w3 ts2, read_tags expand lines w0 = (l0, w0', Ok ts) -> Forall simple_tag (ts_data ts) -> read_tags expand lines' w2 = (l2, w3, Ok ts2) ->
     l2 = lines' /\ same_tags ts ts2).
Proof.
  intros Rf Rm Om Ac Or Bl Fv E. apply regular_good in Rf. destruct (macros_read _ _ _ _ _ Rm) as (Pm & _). unfold set_body, view_macros in E. rewrite Pm in E. injection E as E. apply macros_plain' in Pm.
  destruct Om as (Hk & _ & Hu). set (vs := repeat None k ++ Some v :: repeat None (length (map unvalid (md_data m)) - S k)).
  assert (Ed : edited_all vs (md_data (parse_plain lines)) (update_at k (renewed v) (map unvalid (md_data m)))).
  { rewrite Pm. cbn [md_data]. apply (edited_at v k _ (unvalid d)); [now apply map_nth_error|exact Or|exact Bl|now apply file_value_fits]. }
  assert (Hv : forall i o, nth_error vs i = Some o -> o = if Nat.eqb i k then Some v else None).
  { intros i o H. unfold vs in H. destruct (Nat.eqb i k) eqn:Ei.
    - apply Nat.eqb_eq in Ei. subst i. rewrite nth_error_app2, repeat_length, Nat.sub_diag in H by (rewrite repeat_length; lia). cbn in H. congruence.
    - apply Nat.eqb_neq in Ei. apply nth_error_In in H as Hi. apply in_app_or in Hi as [Hi|[Hi|Hi]]; try (now apply repeat_spec in Hi).
      subst o. exfalso. destruct (Nat.lt_ge_cases i k).
      + rewrite nth_error_app1 in H by now rewrite repeat_length. apply nth_error_In, repeat_spec in H. discriminate.
      + rewrite nth_error_app2, repeat_length in H by now rewrite repeat_length. destruct (i - k) as [|j] eqn:Ej; [lia|]. cbn in H. apply nth_error_In, repeat_spec in H. discriminate. }
  assert (Fo : Forall file_option vs).
  { apply Forall_forall. intros o Ho. apply In_nth_error in Ho as (i & Hi). apply Hv in Hi. subst o. destruct (Nat.eqb i k); [exact Fv|exact Logic.I]. }
  assert (Oo : only_one vs (md_data (parse_plain lines))).
  { intros i x a j u Hi Ha Hj Nn. apply Hv in Hi. destruct (Nat.eqb i k) eqn:Ei; [|discriminate]. apply Nat.eqb_eq in Ei. subst i. rewrite Pm in Ha, Hj. cbn [md_data] in Ha, Hj. rewrite nth_error_map in Ha, Hj.
    rewrite Hk in Ha. injection Ha as <-. destruct (nth_error (md_data m) j) as [u0|] eqn:Hu0; [|discriminate]. injection Hj as <-. apply (Hu j u0 Hu0). exact Nn. }
  assert (El : lines' = get_raw_data (mk_mdefs (update_at k (renewed v) (map unvalid (md_data m))) (md_remainder (parse_plain lines)))).
  { rewrite <- E. unfold get_raw_data. rewrite Pm. cbn [md_data md_remainder]. f_equal. apply nth_error_split in Hk as (a & b & -> & <-). rewrite map_app. cbn [map].
    rewrite <- (map_length unvalid a) at 2. rewrite !update_at_app. rewrite !flat_map_app. cbn [flat_map]. rewrite !unvalid_raw. rewrite renewed_active by exact Ac. reflexivity. }
  destruct (def_step expand lines vs _ lines' Rf Ed Fo Oo El) as (G & B & K). split; [now apply regular_good|]. split.
  - intros w2 l2 w3 m2 R2. destruct (macros_read _ _ _ _ _ R2) as (P2 & ->). apply macros_plain' in P2. split.
    { rewrite <- (parse_plain_raw lines') by (apply sane_clean, G). rewrite P2. unfold get_raw_data. cbn [md_data md_remainder]. now rewrite unvalid_raw. }
    assert (D : Forall2 (fun p d' => let d := snd p in d_name d' = d_name d /\ d_is_global d' = d_is_global d /\ (d_commented_out d' = match fst p with None => d_commented_out d | Some _ => false end) /\ d_body d' = match fst p with None => d_body d | Some v => v end)
       (combine vs (md_data (parse_plain lines))) (md_data (parse_plain lines'))).
    { clear - B. induction B as [|o d d' vs ds ds' B0 _ IH]; cbn [combine]; constructor; auto. cbn [fst snd]. destruct o as [x|].
      - destruct B0 as (_ & _ & _ & _ & B0). rewrite B0. unfold reread. destruct (d_ws d) as [[[? ?] ?] ?]. auto.
      - destruct B0 as (_ & B0). rewrite B0. auto. }
    pose proof (became_len _ _ _ B) as (_ & L1 & L2). rewrite Pm in L1 at 1. rewrite P2 in L1. cbn [md_data] in L1. rewrite !map_length in L1.
    split; [congruence|]. intros i x x' Hx Hx'. assert (Hc : exists o, nth_error vs i = Some o /\ nth_error (combine vs (md_data (parse_plain lines))) i = Some (o, unvalid x)).
    { assert (Hp : nth_error (md_data (parse_plain lines)) i = Some (unvalid x)) by (rewrite Pm; cbn [md_data]; now apply map_nth_error). clear - Hp L2. revert i Hp L2. generalize (md_data (parse_plain lines)). induction vs as [|o vs IH]; intros [|y l] i Hp L2; try discriminate; [destruct i; discriminate|].
      destruct i as [|i]; [injection Hp as ->; now exists o|]. cbn in *. apply IH; auto. }
    destruct Hc as (o & Ho & Hc). rewrite P2 in D. cbn [md_data] in D. pose proof (Forall2_nth _ _ _ D i _ _ Hc (map_nth_error unvalid _ _ Hx')) as Q. cbn [fst snd] in Q. cbn [unvalid d_name d_body d_is_global d_commented_out] in Q.
    apply Hv in Ho. subst o. destruct Q as (Q1 & Q2 & Q3 & Q4). destruct (Nat.eqb i k) eqn:Ei; repeat split; auto. apply Nat.eqb_eq in Ei. subst i. rewrite Hk in Hx. injection Hx as <-. congruence.
  - intros w0 l0 w0' ts w2 l2 w3 ts2 R0 Sm R2. destruct (read_opens _ _ _ _ _ _ R0) as (rest & O & _). destruct (read_opens _ _ _ _ _ _ R2) as (rest2 & O2 & ->). destruct (K _ _ _ _ _ _ _ _ O Sm O2) as (_ & C).
    split; [eapply tidy_opens; eauto; apply sane_tidy, G|]. split; [apply (f_equal (@length _)) in C; now rewrite !map_length in C|]. intros i t t' Ht Ht'. destruct (cores_nth _ _ _ _ C Ht') as (t0 & Ht0 & Q). rewrite Ht in Ht0. injection Ht0 as <-.
    apply core_fields in Q as (Q1 & Q2 & Q3 & Q4 & Q5). auto.
Qed.
Theorem set_tag_effect name v lines w ts k t lines' w1 w2 : regular_file lines -> read_tags expand lines w = (lines, w1, Ok ts) -> Forall simple_tag (ts_data ts) ->
  designates ts name k t -> one_line t -> file_value v -> set_tag expand name v lines w = (lines', w2, Ok tt) ->
  regular_file lines' /\
  forall w0 l0 w0' m w3 l3 w4 m2, read_macros expand lines w0 = (l0, w0', Ok m) -> read_macros expand lines' w3 = (l3, w4, Ok m2) -> l3 = lines' /\ same_macros m m2.
Proof.
  intros Rf Rt Sm De Ol Fv E. apply regular_good in Rf. destruct (read_opens _ _ _ _ _ _ Rt) as (rest & O & _). unfold set_tag in E. rewrite (view_opens _ _ _ _ _ _ _ _ O) in E.
  destruct (tag_index ts name) as [k'|] eqn:I; [|discriminate]. injection E as E _. assert (k' = k).
  { pose proof (find_spec ts name) as Fs. unfold tag_index in I. destruct (tag_contains ts name); [|discriminate]. destruct (tag_find ts name) as [k0|]; [|discriminate]. injection I as ->.
    destruct De as (H1 & H2 & H3). destruct Fs as (t' & F1 & F2 & F3). 
    destruct (Nat.lt_trichotomy k' k) as [Q|[Q|Q]]; auto; exfalso.
    - destruct H3 as [(V & H3)|(H3 & H4)]; [|apply (H4 k' t' Q F1); exact F2]. destruct F3 as [(V' & F3)|(F3 & F4)]; [rewrite (H3 k' t' Q F1 F2) in V'; discriminate|].
      rewrite (F3 t) in V; [discriminate|eapply nth_error_In; eauto|exact H2].
    - destruct F3 as [(V' & F3)|(F3 & F4)]; [|apply (F4 k t Q H1); exact H2]. destruct H3 as [(V & H3)|(H3 & H4)]; [rewrite (F3 k t Q H1 H2) in V; discriminate|].
      rewrite (H3 t') in V'; [discriminate|eapply nth_error_In; eauto|exact F2]. }
  subst k'. destruct De as (Hk & _).
  assert (Te : Forall2 tedit (ts_data ts) (update_at k (with_value v) (ts_data ts))).
  { apply Forall2_nth_iff. split; [now rewrite update_at_length|]. intros i u u' Hu Hu'. rewrite update_at_nth, Hu in Hu'. destruct (Nat.eqb i k) eqn:Ek.
    - apply Nat.eqb_eq in Ek. subst i. rewrite Hk in Hu. injection Hu as <-. cbn in Hu'. injection Hu' as <-. right. eauto.
    - left. congruence. }
  destruct (tag_step expand _ _ _ _ _ _ _ Rf O Sm Te (eq_sym E)) as (G & (vs & N & B) & _). split; [now apply regular_good|]. intros w0 l0 w0' m w3 l3 w4 m2 R1 R2.
  destruct (macros_read _ _ _ _ _ R1) as (P1 & _). destruct (macros_read _ _ _ _ _ R2) as (P2 & ->). apply macros_plain' in P1, P2. split.
  { rewrite <- (parse_plain_raw lines') by (apply sane_clean, G). rewrite P2. unfold get_raw_data. cbn [md_data md_remainder]. now rewrite unvalid_raw. }
  assert (D : Forall2 (fun d d' => d_name d' = d_name d /\ d_is_global d' = d_is_global d /\ d_commented_out d' = d_commented_out d /\ d_body d' = d_body d) (md_data (parse_plain lines)) (md_data (parse_plain lines'))).
  { clear - B N. induction B as [|o d d' vs ds ds' B0 _ IH]; constructor; inversion N; subst; auto. destruct B0 as (_ & B0). rewrite B0. auto. }
  rewrite P1, P2 in D. cbn [md_data] in D. apply Forall2_nth_iff in D as (L & D). rewrite !map_length in L. split; [congruence|]. intros i d d' Hd Hd'. apply (D i _ _ (map_nth_error unvalid _ _ Hd) (map_nth_error unvalid _ _ Hd')).
Qed.
End World.
End Uni.
