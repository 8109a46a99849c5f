(** Proofs about operations on a whole spec file: updating tags. *)
From Coq Require Import Ascii String.
From Coq Require Import NArith ZArith List Bool Lia.
From Verif Require P_update5.
From Verif Require Import PyStr PyStrFacts M_constants M_options M_value M_macro_definitions Spec_macro_definitions P_macro_definitions P_macro_definitions2
  M_conditions M_sections Spec_sections M_tags Spec_tags P_tags P_tags4 P_tags5 P_context
  M_release M_update M_specfile Spec_specfile P_specfile P_specfile2.
Import ListNotations.
Open Scope N_scope.

Section Uni.
Context {U : Unicode} {W : Type} (expand : list str -> bool -> W -> str -> result str * W).
Section Allowed.
Context (macros tags : str -> Prop).
Notation change := (change expand macros tags).
Notation changes := (changes expand macros tags).
Lemma changes_trans l l1 l2 : changes l l1 -> changes l1 l2 -> changes l l2.
Proof. intros A B. revert A. induction B as [|l' l1 l2 B IH C]; intros A; auto. eapply Cs_more; [apply IH, A|exact C]. Qed.
Lemma changes_one l l1 : change l l1 -> changes l l1.
Proof. intros C. eapply Cs_more; [apply Cs_none|exact C]. Qed.

(** An operation makes allowed changes only. *)
Definition allowed {A} (o : op (W:=W) A) : Prop := forall l w l' w' r, o l w = (l', w', r) -> changes l l'.
Lemma allowed_then {A B} (a : op A) (b : A -> op B) : allowed a -> (forall l w l' w' x, a l w = (l', w', Ok x) -> allowed (b x)) -> allowed (andthen a b).
Proof.
  intros Ha Hb l w l' w' r. unfold andthen. destruct (a l w) as [[l1 w1] [x|e]] eqn:E; intros Q.
  - eapply changes_trans; [eapply Ha; eauto|eapply Hb; eauto].
  - injection Q as <- <- <-. eapply Ha; eauto.
Qed.
Lemma allowed_done {A} (x : A) : allowed (done x).
Proof. intros l w l' w' r Q. injection Q as <- <- <-. apply Cs_none. Qed.
Lemma allowed_fail {A} e : allowed (fail (A:=A) e).
Proof. intros l w l' w' r Q. injection Q as <- <- <-. apply Cs_none. Qed.
Lemma allowed_tags {A} (body : M_tags.tags -> W -> M_tags.tags * W * result A) :
  (forall ts w ts' w' r, body ts w = (ts', w', r) -> ts_remainder ts' = ts_remainder ts /\ Forall2 (tag_change tags) (ts_data ts) (ts_data ts')) -> allowed (view_tags expand body).
Proof.
  intros H l w l' w' r. destruct (view_cases expand l w) as [(ts & w1 & rest & O)|(l1 & w1 & e & V)].
  - rewrite (view_opens _ _ _ _ _ _ _ _ O). destruct (body ts w1) as [[ts' w2] r'] eqn:E. intros Q; injection Q as <- <- <-.
    apply changes_one. destruct (H _ _ _ _ _ E) as (R & F). replace ts' with (mk_tags (ts_data ts') (ts_remainder ts)) by (rewrite <- R; now destruct ts').
    eapply C_tags; [|exact F]. unfold read_tags. rewrite (view_opens _ _ _ _ _ _ _ _ O). reflexivity.
  - rewrite V. intros Q; injection Q as <- <- <-. eapply changes_one, C_no_tags. unfold read_tags. apply V.
Qed.
Lemma allowed_macros {A} (body : list str -> mdefs -> W -> mdefs * W * result A) :
  (forall l m w m' w' r, body l m w = (m', w', r) -> md_remainder m' = md_remainder m /\ Forall2 (macro_change macros) (md_data m) (md_data m')) -> allowed (view_macros expand body).
Proof.
  intros H l w l' w' r. unfold view_macros. destruct (parse_with_conditions (expand l) w l true) as [[m|e] w1] eqn:P.
  - destruct (body l m w1) as [[m' w2] r'] eqn:E. intros Q; injection Q as <- <- <-.
    apply changes_one. destruct (H _ _ _ _ _ _ E) as (R & F). replace m' with (mk_mdefs (md_data m') (md_remainder m)) by (rewrite <- R; now destruct m').
    eapply C_macros; [|exact F]. unfold read_macros, view_macros. rewrite P. reflexivity.
  - intros Q; injection Q as <- <- <-. apply Cs_none.
Qed.
Lemma tags_same l : Forall2 (tag_change tags) l l.
Proof. induction l; constructor; auto. now left. Qed.
Lemma macros_same l : Forall2 (macro_change macros) l l.
Proof. induction l; constructor; auto. now left. Qed.
Lemma tags_trans : forall a b c, Forall2 (tag_change tags) a b -> Forall2 (tag_change tags) b c -> Forall2 (tag_change tags) a c.
Proof.
  intros a b c H. revert c. induction H as [|x y xs ys X _ IH]; intros c Q; inversion Q; subst; constructor; auto.
  destruct X as [->|(N & v & ->)]; auto. match goal with Y : tag_change _ (with_value v x) _ |- _ => destruct Y as [->|(N' & v' & ->)] end; (right; split; [exact N|]); [now exists v|now exists v'].
Qed.
Lemma macros_trans : forall a b c, Forall2 (macro_change macros) a b -> Forall2 (macro_change macros) b c -> Forall2 (macro_change macros) a c.
Proof.
  intros a b c H. revert c. induction H as [|x y xs ys X _ IH]; intros c' Q; inversion Q; subst; constructor; auto.
  destruct X as [->|(N & c & v & ->)]; auto. match goal with Y : macro_change _ (with_commented_out c _) _ |- _ => destruct Y as [->|(N' & c2 & v' & ->)] end; (right; split; [exact N|]); [now exists c, v|now exists c2, v'].
Qed.
Lemma tag_at : forall l k t v, nth_error l k = Some t -> tags (t_name t) -> Forall2 (tag_change tags) l (update_at k (with_value v) l).
Proof.
  induction l as [|x l IH]; intros [|k] t v; cbn; try discriminate.
  - intros Q Ht; injection Q as ->. constructor; [right; eauto|apply tags_same].
  - intros Q Ht. constructor; [now left|eauto].
Qed.
Lemma macro_at f : forall l k d, nth_error l k = Some d -> macro_change macros d (f d) -> Forall2 (macro_change macros) l (update_at k f l).
Proof.
  induction l as [|x l IH]; intros [|k] d; cbn; try discriminate.
  - intros Q Ht; injection Q as ->. constructor; [exact Ht|apply macros_same].
  - intros Q Ht. constructor; [now left|eauto].
Qed.
Lemma sync_macros_changes es : (forall e, In e es -> e_tag e = false -> macros (e_name e)) -> forall m m' r, sync_macros es m = (m', r) ->
  md_remainder m' = md_remainder m /\ Forall2 (macro_change macros) (md_data m) (md_data m').
Proof.
  induction es as [|e es IH]; intros He m m' r; cbn [sync_macros].
  - intros Q; injection Q as <- <-. split; [reflexivity|apply macros_same].
  - destruct (e_tag e) eqn:Et; [apply IH; intros; apply He; auto; now right|].
    destruct (sync_macro e m) as [m1|x] eqn:Es; [|intros Q; injection Q as <- <-; split; [reflexivity|apply macros_same]].
    intros Q. apply IH in Q; [|intros; apply He; auto; now right]. destruct Q as (Q1 & Q2).
    unfold sync_macro, bind in Es. pose proof (P_macro_definitions2.find_at_spec m (e_name e) (e_position e)) as F. destruct (find_at m (e_name e) (e_position e)) as [k|]; [|discriminate].
    destruct F as (d & Hd & Hn & _). assert (Hm : macros (d_name d)) by (rewrite Hn; apply He; auto; now left).
    injection Es as <-. cbn [md_data md_remainder] in *. split; [exact Q1|]. eapply macros_trans; [|exact Q2]. eapply macro_at; [exact Hd|].
    destruct (e_updated e); [right; split; auto; now exists false, (e_value e)|]. destruct (e_flip e); [|now left]. right; split; auto. exists (negb (e_disabled e)), (d_body d). now destruct d.
Qed.
Lemma sync_tags_changes es : (forall e n, In e es -> e_tag e = true -> capitalize n = capitalize (e_name e) -> tags n) -> forall ts ts' r, sync_tags es ts = (ts', r) ->
  ts_remainder ts' = ts_remainder ts /\ Forall2 (tag_change tags) (ts_data ts) (ts_data ts').
Proof.
  induction es as [|e es IH]; intros He ts ts' r; cbn [sync_tags].
  - intros Q; injection Q as <- <-. split; [reflexivity|apply tags_same].
  - destruct (e_tag e) eqn:Et; cbn [negb]; [|apply IH; intros; eapply He; eauto; now right].
    pose proof (P_tags4.find_at_spec ts (e_name e) (e_position e)) as F. destruct (tag_find_at ts (e_name e) (e_position e)) as [k|x]; [|intros Q; injection Q as <- <-; split; [reflexivity|apply tags_same]].
    destruct F as (t & Ht & Hn & _). intros Q. apply IH in Q; [|intros; eapply He; eauto; now right]. destruct (e_updated e); [|exact Q].
    destruct Q as (Q1 & Q2). split; [exact Q1|]. eapply tags_trans; [|exact Q2]. eapply tag_at; eauto. apply (He e); auto. now left.
Qed.
End Allowed.

Lemma sort_perm l e : In e (sort_entities l) -> In e l.
Proof.
  induction l as [|x l IH]; cbn [sort_entities fold_right]; auto. fold (sort_entities l).
  assert (P : forall l', In e (insert_entity x l') -> e = x \/ In e l').
  { induction l' as [|y l' IH']; cbn [insert_entity]; [intros [Q|[]]; auto|]. destruct (Nat.leb (e_position x) (e_position y)); cbn [In]; [intros [Q|Q]; auto|].
    intros [Q|Q]; auto. apply IH' in Q as [Q|Q]; auto. }
  intros Q. apply P in Q as [->|Q]; [now left|right; auto].
Qed.
Lemma macro_entities_free protected lines m : forall l skip w w' es, macro_entities expand protected lines m skip l w = (w', Ok es) ->
  forall e, In e es -> e_tag e = false /\ free_macro protected (e_name e) /\ e_updated e = false /\ e_flip e = false.
Proof.
  induction l as [|d l IH]; intros skip w w' es; cbn [macro_entities].
  - intros Q; injection Q as <- <-. intros e [].
  - destruct (d_valid d && negb (protected (d_name d)) && negb (endswith (d_name d) [RPAR])) eqn:B; [|apply IH].
    apply andb_true_iff in B as [B B3]. apply andb_true_iff in B as [_ B2]. apply negb_true_iff in B2, B3.
    assert (Fd : free_macro protected (d_name d)).
    { split; auto. intros (x & Q). apply endswith_char in B3 as [] || (assert (T : endswith (d_name d) [RPAR] = true) by (apply endswith_char; eauto); congruence). }
    destruct (get_position d m) as [p|]; [|discriminate]. cbv zeta.
    destruct (d_commented_out d).
    + destruct (macro_entities expand protected lines m skip l w) as [w1 [es1|]] eqn:E; [|discriminate]. intros Q; injection Q as <- <-. intros e [<-|He]; [cbn; auto|eapply IH; eauto].
    + destruct (expand lines skip w (d_body d)) as [[x|] w1]; [|discriminate].
      destruct (macro_entities expand protected lines m true l w1) as [w2 [es1|]] eqn:E; [|discriminate]. intros Q; injection Q as <- <-. intros e [<-|He]; [cbn; auto|eapply IH; eauto].
Qed.
Lemma tag_entities_free protected ts : forall l es, tag_entities protected ts l = Ok es ->
  forall e, In e es -> e_tag e = true /\ (exists n', protected n' = false /\ e_name e = lower n') /\ e_updated e = false /\ e_flip e = false.
Proof.
  induction l as [|t l IH]; intros es; cbn [tag_entities].
  - intros Q; injection Q as <-. intros e [].
  - destruct (t_valid t && negb (protected (t_name t))) eqn:B; [|apply IH]. apply andb_true_iff in B as [_ B]. apply negb_true_iff in B.
    unfold bind. destruct (tag_position t ts); [|discriminate]. destruct (tag_entities protected ts l) as [es1|]; [|discriminate]. intros Q; injection Q as <-.
    intros e [<-|He]; [cbn; eauto 6|eapply IH; eauto].
Qed.

Section Protected.
Context (isid protected : str -> bool).
Theorem update_value_changes value requested position :
  allowed (free_macro protected) (free_tag protected) (update_value expand isid protected value requested position).
Proof.
  unfold update_value. apply allowed_then.
  { apply allowed_macros. intros l m w m' w' r. destruct (macro_entities expand protected l m false (md_data m) w). intros Q; injection Q as <- <- <-. split; [reflexivity|apply macros_same]. }
  intros l1 w1 l1' w1' es1 E1. assert (F1 : forall e, In e es1 -> e_tag e = false /\ free_macro protected (e_name e)).
  { unfold view_macros in E1. destruct (parse_with_conditions (expand l1) w1 l1 true) as [[m|] w]; [|discriminate].
    destruct (macro_entities expand protected l1 m false (md_data m) w) as [w2 r] eqn:E. injection E1 as _ _ ->. intros e He. destruct (macro_entities_free _ _ _ _ _ _ _ _ E e He) as (A & B & _). auto. }
  apply allowed_then.
  { apply allowed_tags. intros ts w ts' w' r Q. injection Q as <- <- <-. split; [reflexivity|apply tags_same]. }
  intros l2 w2 l2' w2' es2 E2. assert (F2 : forall e, In e es2 -> e_tag e = true /\ exists n', protected n' = false /\ e_name e = lower n').
  { destruct (view_cases expand l2 w2) as [(ts & w & rest & O)|(l & w & e & V)]; [|rewrite V in E2; discriminate].
    rewrite (view_opens _ _ _ _ _ _ _ _ O) in E2. injection E2 as _ _ E. intros e He. destruct (tag_entities_free _ _ _ _ E e He) as (A & B & _). auto. }
  apply allowed_then.
  { intros l w l' w' r. destruct (update _ _ _ _ _ _ _ _). intros Q; injection Q as <- <- <-. apply Cs_none. }
  intros l3 w3 l3' w3' [es v] E3.
  assert (F : forall e, In e es -> (e_tag e = false -> free_macro protected (e_name e)) /\ (e_tag e = true -> forall n, capitalize n = capitalize (e_name e) -> free_tag protected n)).
  { destruct (update _ _ _ _ _ _ _ _) as [w [[es' v']|]] eqn:E in E3; [|discriminate]. injection E3 as _ _ <- <-. apply P_update5.update_frame in E.
    intros e He. apply In_nth_error in He as (k & Hk).
    assert (exists e0, In e0 (sort_entities (es1 ++ es2)) /\ e_name e = e_name e0 /\ e_tag e = e_tag e0) as (e0 & H0 & N0 & T0).
    { revert k Hk. clear -E. induction E as [|x y xs ys X _ IH]; intros [|k] Hk; cbn in Hk; try discriminate.
      - injection Hk as <-. exists x. split; [now left|]. destruct X as (A & B & _). auto.
      - destruct (IH k Hk) as (e0 & H0 & H1). exists e0. split; [now right|auto]. }
    apply sort_perm in H0. rewrite N0, T0. apply in_app_or in H0 as [H0|H0].
    - destruct (F1 e0 H0) as (A & B). split; [auto|congruence].
    - destruct (F2 e0 H0) as (A & n' & B & C). split; [congruence|]. intros _ n Hn. exists n'. split; auto. now rewrite <- C. }
  apply allowed_then.
  { apply allowed_macros. intros l m w m' w' r. destruct (sync_macros es m) as [m1 r1] eqn:E. intros Q; injection Q as <- <- <-. eapply sync_macros_changes; eauto. intros e He. apply F, He. }
  intros l4 w4 l4' w4' [] _. apply allowed_then; [|intros; apply allowed_done].
  apply allowed_tags. intros ts w ts' w' r. destruct (sync_tags es ts) as [ts1 r1] eqn:E. intros Q; injection Q as <- <- <-. eapply sync_tags_changes; eauto.
  intros e n He Ht Hn. destruct (F e He) as (_ & G). eapply G; eauto.
Qed.
End Protected.
Lemma change_mono (m1 m2 t1 t2 : str -> Prop) l l' : (forall n, m1 n -> m2 n) -> (forall n, t1 n -> t2 n) -> change expand m1 t1 l l' -> change expand m2 t2 l l'.
Proof. intros Hm Ht C. destruct C; [eapply C_tags; eauto|eapply C_no_tags; eauto|eapply C_macros; eauto].
  - match goal with H : Forall2 _ _ _ |- _ => induction H as [|x y ? ? X]; constructor; auto end. destruct X as [->|(N & v & ->)]; [now left|right; eauto].
  - match goal with H : Forall2 _ _ _ |- _ => induction H as [|x y ? ? X]; constructor; auto end. destruct X as [->|(N & c & v & ->)]; [now left|right; split; auto; now exists c, v]. Qed.
Lemma changes_mono (m1 m2 t1 t2 : str -> Prop) l l' : (forall n, m1 n -> m2 n) -> (forall n, t1 n -> t2 n) -> changes expand m1 t1 l l' -> changes expand m2 t2 l l'.
Proof. intros Hm Ht C. induction C as [|l l1 l2 C IH D]; [apply Cs_none|]. eapply Cs_more; [exact IH|]. eapply change_mono; eauto. Qed.
Theorem update_tag_changes isid protected name v lines w lines' w' r : update_tag expand isid protected name v lines w = (lines', w', r) ->
  changes expand (free_macro protected) (fun n => free_tag protected n \/ capitalize n = capitalize name) lines lines'.
Proof.
  revert lines w lines' w' r. change (allowed (free_macro protected) (fun n => free_tag protected n \/ capitalize n = capitalize name) (update_tag expand isid protected name v)).
  unfold update_tag. apply allowed_then.
  { apply allowed_tags. intros ts w ts' w' r Q. injection Q as <- <- <-. split; [reflexivity|apply tags_same]. }
  intros _ _ _ _ [original position] _. apply allowed_then.
  { intros l w l' w' r E. apply update_value_changes in E. eapply changes_mono; [| |exact E]; auto. }
  intros _ _ _ _ updated _. unfold set_tag. apply allowed_tags. intros ts w ts' w' r. destruct (tag_index ts name) as [k|] eqn:E; intros Q; injection Q as <- <- <-; (split; [reflexivity|]); [|apply tags_same].
  apply index_designates in E as (t & Hk & Hn & _). eapply tag_at; [exact Hk|right; exact Hn].
Qed.
End Uni.
