(** Proofs about operations on a whole spec file: new values and new bodies, step by step. *)
From Coq Require Import Ascii String.
From Coq Require Import NArith ZArith List Bool Lia.
From Verif Require P_value.
From Verif Require Import PyStr PyStrFacts Regex RegexFacts M_constants M_options M_value M_macro_definitions Spec_macro_definitions P_macro_definitions P_macro_definitions2
  P_macro_definitions3 M_conditions M_sections Spec_sections P_sections P_sections2 P_sections4 M_tags Spec_tags P_tags P_tags2 P_tags3 P_tags4 P_tags5 P_context
  M_release M_update M_specfile Spec_specfile Spec_update Spec_specfile2 P_specfile P_specfile2 P_specfile5 P_specfile6 P_specfile7 P_specfile10 P_specfile11 P_specfile12.
Import ListNotations.
Open Scope N_scope.
Open Scope nat_scope.

Section Uni.
Context {U : Unicode}.
Notation F := (map (fun l : str => (l, true))).
Definition readable (l : str) : Prop := exists r, split_conditional_macro_expansion l = Ok r.
(** What is needed of a file, and kept. *)
Definition good_file (lines : list str) : Prop := Forall sane lines /\ defined_apart (parse_plain lines) /\ tags_outside lines.
Lemma Forall2_nth {A B} (R : A -> B -> Prop) l l' : Forall2 R l l' -> forall j x x', nth_error l j = Some x -> nth_error l' j = Some x' -> R x x'.
Proof. induction 1 as [|a b l l' H _ IH]; intros [|j] x x' E E'; try discriminate; [now injection E as <-; injection E' as <-|now apply (IH j)]. Qed.
Lemma Forall2_nth_l {A B} (R : A -> B -> Prop) l l' : Forall2 R l l' -> forall j x', nth_error l' j = Some x' -> exists x, nth_error l j = Some x /\ R x x'.
Proof. induction 1 as [|a b l l' H _ IH]; intros [|j] x' E; try discriminate; [injection E as <-; now exists a|now apply (IH j)]. Qed.
Lemma Forall2_firstn {A B} (R : A -> B -> Prop) l l' : Forall2 R l l' -> forall n, Forall2 R (firstn n l) (firstn n l').
Proof. induction 1 as [|a b l l' H _ IH]; intros [|n]; cbn; constructor; auto. Qed.
Lemma app_firstn {A} (a b : list A) : firstn (length a) (a ++ b) = a.
Proof. now rewrite firstn_app, Nat.sub_diag, firstn_all, app_nil_r. Qed.
Lemma same_like vs ds ds' : Forall (fun o => o = None) vs -> became_all vs ds ds' -> only_one vs ds.
Proof. intros N B i v d j u Hi. rewrite Forall_forall in N. apply nth_error_In, N in Hi. discriminate. Qed.

Section World.
Context {W : Type} (expand : list str -> bool -> W -> str -> result str * W).
Lemma tag_text_line ts t l : Forall sane (tags_raw ts) -> settled t -> In t (ts_data ts) -> l = tag_text t -> no_break l.
Proof.
  intros S (_ & _ & (P & _) & _) H ->. rewrite Forall_forall in S. apply (S (tag_text t)). unfold tags_raw. apply in_or_app. left. apply in_flat_map. exists t. split; auto.
  unfold tag_raw. apply in_or_app. right. rewrite split_on_none by exact P. now left.
Qed.
(** Tags on one line get new values. *)
Theorem tag_step lines w ts w1 rest data lines' : good_file lines -> opens expand lines w ts w1 rest -> Forall simple_tag (ts_data ts) -> Forall2 tedit (ts_data ts) data ->
  lines' = tags_raw (mk_tags data (ts_remainder ts)) ++ rest ->
  good_file lines' /\ (exists vs, Forall (fun o => o = None) vs /\ became_all vs (md_data (parse_plain lines)) (md_data (parse_plain lines'))) /\
  forall w' ts' w1' rest', opens expand lines' w' ts' w1' rest' -> Forall simple_tag (ts_data ts') /\ map tcore (ts_data ts') = map tcore data.
Proof.
  intros (S & A & TO) O Sm Ed El. destruct (opens_simple expand _ _ _ _ _ S O (or_introl Sm)) as (_ & Se & Nr & Rd & Co). pose proof (simple_closed _ Sm Co) as Cl.
  destruct (opens_facts expand _ _ _ _ _ S O) as (_ & _ & _ & _ & Eo & _).
  assert (Se' : Forall settled (ts_data ts)).
  { apply Forall_forall. intros t Ht. rewrite Forall_forall in Se. apply (Se (unflagged t)), in_map, Ht. }
  clear Se. assert (Sf : Forall sane (tags_raw ts)) by (rewrite Eo in S; now apply Forall_app in S).
  assert (NB : Forall (fun t => no_break (tag_text t)) (ts_data ts)).
  { apply Forall_forall. intros t Ht. rewrite Forall_forall in Se'. eapply tag_text_line; eauto. }
  assert (Rf : forall l, Forall2 redone l l) by (intros l; induction l; constructor; auto; now left).
  assert (R1 : Forall2 redone (tags_raw ts) (tags_raw (mk_tags data (ts_remainder ts)))).
  { unfold tags_raw. cbn [ts_data ts_remainder]. apply Forall2_app; [now apply tedit_raws|apply Rf]. }
  assert (R : Forall2 redone lines lines') by (rewrite El, Eo; apply Forall2_app; [exact R1|apply Rf]).
  assert (Sn : Forall sane lines').
  { apply Forall_forall. intros l' H. apply In_nth_error in H as (j & H). destruct (Forall2_nth_l _ _ _ R j l' H) as (l & Hl & [->|(n & s & v & v' & _ & _ & Q & _)]); auto.
    rewrite Forall_forall in S. apply S. now apply nth_error_In in Hl. }
  assert (Ll : length lines = length lines') by now apply Forall2_len in R.
  destruct (lines_like lines lines' (sane_clean _ S) (eq_sym Ll)) as (vs & K & N).
  { intros j l l' Hl Hl'. destruct (Forall2_nth _ _ _ R j l l' Hl Hl') as [->|(n & s & v & v' & T & T' & Q & _)]; [now left|right].
    assert (P : ~ In LF l) by (rewrite Forall_forall in S; apply no_break_LF, (S l); now apply nth_error_In in Hl).
    split; [eapply tag_line_no_macro; eauto|]. split; [eapply tag_line_no_macro; [apply no_break_LF, Q|eauto]|]. intros D. eapply TO; eauto. }
  apply like_parse in K.
  assert (A' : defined_apart (parse_plain lines')) by (eapply became_apart; eauto; eapply same_like; eauto).
  assert (TO' : tags_outside lines').
  { intros j l' n s v Hl' D T. apply (became_body_line vs _ _ j K) in D. destruct (Forall2_nth_l _ _ _ R j l' Hl') as (l & Hl & [->|(n0 & s0 & v0 & v' & T0 & _)]); eapply TO; eauto. }
  split; [repeat split; auto|]. split; [now exists vs|]. intros w' ts' w1' rest' O'.
  assert (Lf : length (tags_raw ts) = length (tags_raw ts')).
  { eapply (same_front expand lines lines' w w' ts ts'); eauto; [intros i; eapply became_body_line; eauto|]. intros j x x' Hx Hx'.
    destruct (Forall2_nth _ _ _ R j x x' Hx Hx') as [->|(n & s & v & v' & T & T' & _)]; auto. now rewrite (tag_line_no_header _ _ _ _ T), (tag_line_no_header _ _ _ _ T'). }
  destruct (opens_facts expand _ _ _ _ _ Sn O') as (_ & _ & _ & _ & Eo' & _).
  assert (Et : tags_raw ts' = tags_raw (mk_tags data (ts_remainder ts))).
  { rewrite <- (app_firstn (tags_raw ts') rest'), <- Eo', El, <- Lf. rewrite (Forall2_len _ _ _ R1). apply app_firstn. }
  destruct (opens_simple expand _ _ _ _ _ Sn O') as (Sm' & _ & _ & Rd' & Co').
  { right. rewrite Et. eapply redone_closed; eauto. rewrite <- Et. rewrite Eo' in Sn. apply Forall_app in Sn as [Sn _]. eapply Forall_impl; [|exact Sn]. intros l Hl. now apply sane_line in Hl. }
  split; [exact Sm'|]. rewrite Co', Et. unfold tags_raw. cbn [ts_data ts_remainder]. apply tedit_cores with (data := ts_data ts); auto. rewrite Et in Rd'. exact Rd'.
Qed.

(** Definitions on one line get new bodies. *)
Definition rebodied (l l' : str) : Prop := l = l' \/ def_line l /\ def_line l' /\ (sane l -> sane l').
Definition file_option (o : option str) : Prop := match o with Some v => file_value v | None => True end.
Lemma edited_rebodied vs ds ds' : edited_all vs ds ds' -> Forall file_option vs -> Forall2 rebodied (flat_map mdef_raw ds) (flat_map mdef_raw ds').
Proof.
  assert (Rf : forall l, Forall2 rebodied l l) by (intros l; induction l; constructor; auto; now left).
  induction 1 as [|d vs ds ds' _ IH|v d vs ds ds' Or B Fi _ IH]; intros Fv; cbn [flat_map]; [constructor| |]; inversion Fv as [|? ? F0 F']; subst; apply Forall2_app; auto.
  unfold mdef_raw. assert (N : ~ In LF (d_body (renewed v d) ++ d_ws3 (renewed v d))).
  { pose proof (ordinary_one d Or) as N. unfold renewed, d_ws3 in *. cbn [d_body d_ws with_commented_out with_body]. rewrite in_app_iff in *. destruct Fi as (V & _). tauto. }
  rewrite (own_one (renewed v d) N), (own_one d (ordinary_one d Or)). apply Forall2_app; [apply Rf|]. constructor; [|constructor]. right.
  split; [now apply def_start|]. split; [now apply renewed_def_line|]. intros S. now apply renewed_sane.
Qed.
Theorem def_step lines vs data' lines' : good_file lines -> edited_all vs (md_data (parse_plain lines)) data' -> Forall file_option vs -> only_one vs (md_data (parse_plain lines)) ->
  lines' = get_raw_data (mk_mdefs data' (md_remainder (parse_plain lines))) ->
  good_file lines' /\ became_all vs (md_data (parse_plain lines)) (md_data (parse_plain lines')) /\
  forall w ts w1 rest w' ts' w1' rest', opens expand lines w ts w1 rest -> Forall simple_tag (ts_data ts) -> opens expand lines' w' ts' w1' rest' ->
    Forall simple_tag (ts_data ts') /\ map tcore (ts_data ts') = map tcore (ts_data ts).
Proof.
  intros (S & A & TO) Ed Fv Oo El. pose proof (defs_like lines vs data' (sane_clean _ S) Ed) as K. rewrite <- El in K. pose proof (like_length _ _ _ K) as Ll. apply like_parse in K.
  assert (Rf : forall l, Forall2 rebodied l l) by (intros l; induction l; constructor; auto; now left).
  assert (R : Forall2 rebodied lines lines').
  { rewrite El. rewrite <- (parse_plain_raw lines (sane_clean _ S)) at 1. unfold get_raw_data. cbn [md_data md_remainder]. apply Forall2_app; [eapply edited_rebodied; eauto|apply Rf]. }
  assert (Sn : Forall sane lines').
  { apply Forall_forall. intros l' H. apply In_nth_error in H as (j & H). rewrite Forall_forall in S. destruct (Forall2_nth_l _ _ _ R j l' H) as (l & Hl & [->|(_ & _ & Q)]); apply nth_error_In in Hl; auto. }
  assert (A' : defined_apart (parse_plain lines')) by (eapply became_apart; eauto).
  assert (TO' : tags_outside lines').
  { intros j l' n s v Hl' D T. apply (became_body_line vs _ _ j K) in D. destruct (Forall2_nth_l _ _ _ R j l' Hl') as (l & Hl & [->|(_ & Q & _)]); [eapply TO; eauto|]. eapply def_line_no_tag; eauto. }
  split; [repeat split; auto|]. split; [exact K|]. intros w ts w1 rest w' ts' w1' rest' O Sm O'.
  destruct (opens_simple expand _ _ _ _ _ S O (or_introl Sm)) as (_ & _ & _ & _ & Co). pose proof (simple_closed _ Sm Co) as Cl.
  destruct (opens_facts expand _ _ _ _ _ S O) as (_ & _ & _ & _ & Eo & _). destruct (opens_facts expand _ _ _ _ _ Sn O') as (_ & _ & _ & _ & Eo' & _).
  assert (NL : forall l, In l lines \/ In l lines' -> ~ In LF l) by (rewrite Forall_forall in S, Sn; intros l [H|H]; [apply no_break_LF, (S l H)|apply no_break_LF, (Sn l H)]).
  assert (Lf : length (tags_raw ts) = length (tags_raw ts')).
  { eapply (same_front expand lines lines' w w' ts ts'); eauto; [intros i; eapply became_body_line; eauto|]. intros j x x' Hx Hx'.
    destruct (Forall2_nth _ _ _ R j x x' Hx Hx') as [->|(D & D' & _)]; auto. rewrite !def_line_no_header; auto; apply NL; [right|left]; eapply nth_error_In; eauto. }
  assert (Gt : Forall2 (fun l l' => line_tag l = line_tag l') (tags_raw ts) (tags_raw ts')).
  { rewrite <- (app_firstn (tags_raw ts) rest), <- (app_firstn (tags_raw ts') rest'), <- Eo, <- Eo', <- Lf. apply Forall2_firstn. clear - R NL.
    induction R as [|l l' x x' R0 R' IH]; constructor.
    - destruct R0 as [->|(D & D' & _)]; auto. rewrite !line_tag_def; auto; apply NL; [right|left]; now left.
    - apply IH. intros z [Hz|Hz]; apply NL; [left|right]; now right. }
  assert (Cl' : Forall closed_line (tags_raw ts') /\ flat_map line_tag (tags_raw ts') = flat_map line_tag (tags_raw ts)).
  { clear - Gt Cl. induction Gt as [|l l' x x' G0 G' IH]; [split; [constructor|reflexivity]|]. inversion Cl; subst. destruct IH as (I1 & I2); auto. split; [constructor; auto; unfold closed_line; now rewrite <- G0|].
    cbn [flat_map]. now rewrite I2, G0. }
  destruct Cl' as (Cl' & Fe). destruct (opens_simple expand _ _ _ _ _ Sn O' (or_intror Cl')) as (Sm' & _ & _ & _ & Co'). split; [exact Sm'|]. now rewrite Co', Co, Fe.
Qed.
End World.
End Uni.
