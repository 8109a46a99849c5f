(** Histories of objects and files. *)
From Coq Require Import NArith Arith List Bool Lia.
From Verif Require Import PyStr PyStrFacts M_file Spec_file P_file M_history Spec_history M_bytes Spec_bytes.
From Verif Require P_inherited P_sections2 P_specfile25 M_sections P_bytes.
Import ListNotations.

Lemma put_same {A} (f : nat -> A) i x : put f i x i = x.
Proof. unfold put. now rewrite Nat.eqb_refl. Qed.
Lemma put_other {A} (f : nat -> A) i x j : j <> i -> put f i x j = f j.
Proof. unfold put. intros N. now rewrite (proj2 (Nat.eqb_neq j i) N). Qed.
Lemma save_stored s : exists b r, save s = (b, r) /\ stored_as (spec_str s) b.
Proof. unfold save, stored_as. destruct (encode (spec_str s)) eqn:E; eauto 6. Qed.
Lemma stored_unique t b b' : stored_as t b -> stored_as t b' -> b = b'.
Proof. unfold stored_as. intros [H|[H ->]] [H'|[H' ->]]; congruence. Qed.

Section History.
Context (accepts : spec -> bool).
Notation step := (step accepts). Notation run := (run accepts).
Lemma run_app a b w : run (a ++ b) w = run b (run a w).
Proof. unfold M_history.run. apply fold_left_app. Qed.
Lemma run_cons x l w : run (x :: l) w = run l (fst (step x w)).
Proof. reflexivity. Qed.
(** One step writes at most one file. *)
Lemma step_files x w p : (w_files (fst (step x w)) p = w_files w p /\ forall b, ~ writes w x p b) \/ exists b, writes w x p b /\ w_files (fst (step x w)) p = b.
Proof.
  assert (NW : forall x0, (forall p0 b, ~ writes w x0 p0 b) -> w_files (fst (step x0 w)) p = w_files w p -> (w_files (fst (step x0 w)) p = w_files w p /\ forall b, ~ writes w x0 p b) \/ exists b, writes w x0 p b /\ w_files (fst (step x0 w)) p = b).
  { intros x0 H1 H2. left. split; auto. }
  destruct x as [i q a|i f|i|i|i q|i a|q b|q].
  - apply NW; [intros ? ?; inversion 1|]. cbn [M_history.step]. destruct (read w q); auto. destruct (accepts a0); auto.
  - cbn [M_history.step]. unfold with_object. destruct (w_objects w i) as [o|] eqn:E; [|left; split; auto; intros b; inversion 1; congruence].
    destruct (o_autosave o) eqn:A; [|left; split; auto; intros b; inversion 1; congruence].
    unfold save_object. cbn [o_spec o_path]. destruct (save_stored (mkSpec (f (sp_lines (o_spec o))) (sp_newline (o_spec o)))) as (b & r & -> & Hb). cbn [fst w_files put_file put_object].
    destruct (Nat.eq_dec p (o_path o)) as [->|N].
    + right. exists (Some b). rewrite put_same. split; auto. now constructor.
    + left. rewrite put_other by auto. split; auto. intros b'. inversion 1; subst. congruence.
  - cbn [M_history.step]. unfold with_object. destruct (w_objects w i) as [o|] eqn:E; [|left; split; auto; intros b; inversion 1; congruence].
    unfold save_object. destruct (save_stored (o_spec o)) as (b & r & -> & Hb). cbn [fst w_files put_file].
    destruct (Nat.eq_dec p (o_path o)) as [->|N].
    + right. exists (Some b). rewrite put_same. split; auto. now constructor.
    + left. rewrite put_other by auto. split; auto. intros b'. inversion 1; subst. congruence.
  - apply NW; [intros ? ?; inversion 1|]. cbn [M_history.step]. unfold with_object. destruct (w_objects w i) as [o|]; auto. destruct (read w (o_path o)); auto.
  - apply NW; [intros ? ?; inversion 1|]. cbn [M_history.step]. unfold with_object. destruct (w_objects w i) as [o|]; auto.
  - apply NW; [intros ? ?; inversion 1|]. cbn [M_history.step]. unfold with_object. destruct (w_objects w i) as [o|]; auto.
  - cbn [M_history.step fst put_file w_files]. destruct (Nat.eq_dec p q) as [->|N]; [right|left].
    + exists (Some b). rewrite put_same. split; auto. constructor.
    + rewrite put_other by auto. split; auto. intros b'. inversion 1; subst. congruence.
  - cbn [M_history.step fst put_file w_files]. destruct (Nat.eq_dec p q) as [->|N]; [right|left].
    + exists None. rewrite put_same. split; auto. constructor.
    + rewrite put_other by auto. split; auto. intros b'. inversion 1; subst. congruence.
Qed.
Notation never_written := (never_written accepts).
Lemma never_nil w p : never_written w [] p.
Proof. intros [|? ?] x l2 b E; discriminate. Qed.
Lemma never_snoc w l x p : never_written w l p -> (forall b, ~ writes (run l w) x p b) -> never_written w (l ++ [x]) p.
Proof.
  intros H1 H2 l1 y l2 b E. destruct l2 as [|z l2] using rev_ind; [|clear IHl2].
  - apply app_inj_tail in E as [<- <-]. apply H2.
  - change (y :: l2 ++ [z]) with ((y :: l2) ++ [z]) in E. rewrite app_assoc in E. apply app_inj_tail in E as [-> ->]. now apply (H1 l1 y l2 b).
Qed.
Theorem last_write l w p : (never_written w l p /\ w_files (run l w) p = w_files w p) \/
  exists l1 x l2 b, l = l1 ++ x :: l2 /\ writes (run l1 w) x p b /\ w_files (run l w) p = b /\ never_written (run (l1 ++ [x]) w) l2 p.
Proof.
  induction l as [|x l IH] using rev_ind; [left; split; [apply never_nil|reflexivity]|].
  rewrite run_app. change (run [x] (run l w)) with (fst (step x (run l w))). destruct (step_files x (run l w) p) as [[E N]|(b & Wr & E)].
  - rewrite E. destruct IH as [[Nv ->]|(l1 & y & l2 & b & -> & Wr & <- & Nv)].
    + left. split; auto. now apply never_snoc.
    + right. exists l1, y, (l2 ++ [x]), (w_files (run (l1 ++ y :: l2) w) p). split; [now rewrite <- app_assoc|]. split; auto. split; auto. apply never_snoc; auto.
      intros b. rewrite <- run_app, <- app_assoc. apply N.
  - right. exists l, x, [], b. split; auto. split; auto. split; auto. apply never_nil.
Qed.
(** Objects do not touch each other. *)
Lemma step_other x w i : subject x <> Some i -> w_objects (fst (step x w)) i = w_objects w i.
Proof.
  intros N. destruct x as [j q a|j f|j|j|j q|j a|q b|q]; cbn [M_history.step subject] in *; unfold with_object; auto;
    assert (NJ : i <> j) by congruence; try (destruct (w_objects w j) as [o|]; auto);
    try (destruct (read w _); auto); try (destruct (accepts _); auto); try (destruct (o_autosave o)); unfold save_object; try (destruct (save _) as [? ?]);
    cbn [fst put_object put_file w_objects]; rewrite ?put_other by auto; auto.
Qed.
Theorem others_alone : forall l w i, Forall (fun x => subject x <> Some i) l -> w_objects (run l w) i = w_objects w i.
Proof.
  induction l as [|x l IH]; intros w i F; auto. inversion F; subst. rewrite run_cons, IH by auto. now apply step_other.
Qed.
(** The lines of an object are those it has read, and its edits since. *)
Lemma step_lines x w i o : w_objects w i = Some o -> ~ reads i x ->
  exists o', w_objects (fst (step x w)) i = Some o' /\ o_spec o' = mkSpec (apply_all (edits i [x]) (sp_lines (o_spec o))) (sp_newline (o_spec o)).
Proof.
  intros E N. assert (Same : o_spec o = mkSpec (sp_lines (o_spec o)) (sp_newline (o_spec o))) by now destruct (o_spec o).
  destruct (option_map (Nat.eqb i) (subject x)) as [[|]|] eqn:S'.
  - destruct x as [j q a|j f|j|j|j q|j a|q b|q]; cbn [subject option_map] in S'; try discriminate; injection S' as S'; apply Nat.eqb_eq in S'; subst j; try (elim N; reflexivity);
      cbn [M_history.step edits apply_all fold_left]; unfold with_object; rewrite E; rewrite ?Nat.eqb_refl.
    + cbn [apply_all fold_left]. destruct (o_autosave o); unfold save_object; try (destruct (save _) as [? ?]); cbn [fst put_object put_file w_objects]; rewrite put_same; eauto.
    + unfold save_object. destruct (save _) as [? ?]. cbn [fst put_file w_objects]. eauto.
    + cbn [fst put_object w_objects]. rewrite put_same. eauto.
    + cbn [fst put_object w_objects]. rewrite put_same. eauto.
  - exists o. rewrite step_other; [|destruct (subject x) as [j|]; [|discriminate]; cbn in S'; injection S' as S'; apply Nat.eqb_neq in S'; congruence]. split; auto.
    destruct x as [j q a|j f|j|j|j q|j a|q b|q]; cbn [edits apply_all fold_left] in *; auto. cbn [subject option_map] in S'. injection S' as S'. rewrite Nat.eqb_sym, S'. auto.
  - exists o. destruct x; try discriminate; auto.
Qed.
Lemma edits_cons i x l : edits i (x :: l) = edits i [x] ++ edits i l.
Proof. destruct x; cbn [edits]; auto. destruct (Nat.eqb i0 i); auto. Qed.
Lemma apply_app a b l : apply_all (a ++ b) l = apply_all b (apply_all a l).
Proof. unfold apply_all. apply fold_left_app. Qed.
Theorem own_edits : forall l w i o, w_objects w i = Some o -> Forall (fun x => ~ reads i x) l ->
  exists o', w_objects (run l w) i = Some o' /\ o_spec o' = mkSpec (apply_all (edits i l) (sp_lines (o_spec o))) (sp_newline (o_spec o)).
Proof.
  induction l as [|x l IH]; intros w i o E F.
  - exists o. split; auto. cbn. now destruct (o_spec o).
  - inversion F; subst. rewrite run_cons. destruct (step_lines x w i o E) as (o1 & E1 & S1); auto. destruct (IH _ i o1 E1) as (o' & E' & S'); auto. exists o'. split; auto.
    rewrite S', S1, (edits_cons i x l), apply_app. reflexivity.
Qed.

(** * Settled texts are read back *)
Lemma join_snoc l x : l <> [] -> join [LF] (l ++ [x]) = join [LF] l ++ [LF] ++ x.
Proof.
  induction l as [|a l IH]; [congruence|]. intros _. destruct l as [|b l]; [reflexivity|].
  change (join [LF] ((a :: b :: l) ++ [x])) with (a ++ [LF] ++ join [LF] ((b :: l) ++ [x])). rewrite IH by discriminate.
  change (join [LF] (a :: b :: l)) with (a ++ [LF] ++ join [LF] (b :: l)). now rewrite <- !app_assoc.
Qed.
Lemma join_plain l : Forall (Forall (fun c => is_linebreak c = false)) l -> plain_breaks (join [LF] l).
Proof.
  induction 1 as [|x l H F IH]; [constructor|].
  assert (Q : Forall (fun c => is_linebreak c = true -> c = LF) x) by (eapply Forall_impl; [|exact H]; cbn; intros ? -> ?; discriminate).
  destruct l as [|y l]; [exact Q|]. change (join [LF] (x :: y :: l)) with (x ++ [LF] ++ join [LF] (y :: l)). apply Forall_app. split; auto. constructor; auto.
Qed.
Lemma no_cr t : plain_breaks t -> Forall (fun c => c <> CR) t.
Proof. intros P. eapply Forall_impl; [|exact P]. cbn. intros c H ->. specialize (H eq_refl). discriminate. Qed.
Lemma settled_reads s : settled s -> exists b, save s = (b, Ok tt) /\ read_lines b = Ok s.
Proof.
  intros (NB & SC & NE & LA). destruct (decode_encode _ SC) as (b & E & B & D). exists b. split; [unfold save; now rewrite E|].
  assert (P : plain_breaks (decode b)). { rewrite D. unfold spec_str. apply Forall_app. split; [now apply join_plain|]. destruct (sp_newline s); repeat constructor. }
  assert (Tx : join [LF] (sp_lines s) ++ [LF] = M_sections.lines_text (sp_lines s)). { rewrite join_lt by auto. rewrite P_bytes.lt_text. reflexivity. }
  assert (SL : splitlines (join [LF] (sp_lines s) ++ [LF]) = sp_lines s). { rewrite Tx. apply P_sections2.splitlines_lines. exact NB. }
  destruct (sp_newline s) eqn:Nl.
  - unfold spec_str in D. rewrite Nl in D. rewrite (P_inherited.read_plain_lines b _ _ P D). rewrite D, SL. cbn. destruct s; cbn in *. now subst.
  - unfold spec_str in D. rewrite Nl, app_nil_r in D. destruct (exists_last NE) as (ls & x & El). specialize (LA eq_refl). rewrite El, last_last in LA. destruct (exists_last LA) as (x' & c & Ex).
    assert (Dc : exists t, join [LF] (sp_lines s) = t ++ [c]).
    { rewrite El, Ex. destruct ls as [|y ls]; [eexists; reflexivity|]. rewrite join_snoc by discriminate. rewrite !app_assoc. eauto. }
    destruct Dc as (t & Et).
    assert (Bc : is_linebreak c = false). { rewrite El in NB. apply Forall_app in NB as [_ NB]. inversion NB as [|? ? H _]; subst. apply Forall_app in H as [_ H]. now inversion H. }
    rewrite Et in D. rewrite (P_inherited.read_plain_lines b _ _ P D). rewrite D.
    assert (CN : (c =? LF)%N = false). { apply N.eqb_neq. intros ->. discriminate. } rewrite CN. unfold splitlines in *.
    rewrite Et, P_inherited.splitlines_final in SL; auto.
    + rewrite SL. destruct s; cbn in *. now subst.
    + rewrite D in P. apply no_cr in P. now apply Forall_app in P as [P _].
Qed.

(** * Two objects *)
Theorem lost_update w p b s i j f g bg : i <> j -> w_files w p = Some b -> read_lines b = Ok s -> accepts s = true ->
  encode (spec_str (mkSpec (g (sp_lines s)) (sp_newline s))) = Some bg ->
  w_files (run [Open i p false; Open j p false; Edit i f; Edit j g; Save i; Save j] w) p = Some bg.
Proof.
  intros N Ef Er Ea Ee. unfold M_history.run. cbn [fold_left]. unfold M_history.step at 6. unfold read. rewrite Ef, Er, Ea. cbn [fst].
  unfold M_history.step at 5. unfold read. cbn [put_object w_files]. rewrite Ef, Er, Ea. cbn [fst].
  unfold M_history.step at 4. unfold with_object. cbn [put_object w_files w_objects]. rewrite put_other, put_same by auto. cbn [o_autosave o_spec o_path fst].
  unfold M_history.step at 3. unfold with_object. cbn [put_object w_files w_objects]. rewrite put_other, put_same by auto. cbn [o_autosave o_spec o_path fst].
  unfold M_history.step at 2. unfold with_object. cbn [put_object w_files w_objects]. rewrite put_other, put_same by auto. unfold save_object. cbn [o_autosave o_spec o_path fst]. destruct (save _) as [b1 r1]. cbn [fst].
  unfold M_history.step. unfold with_object. cbn [put_object put_file w_files w_objects]. rewrite put_same. unfold save_object. cbn [o_autosave o_spec o_path]. unfold save. rewrite Ee. cbn [fst put_file w_files]. now rewrite put_same.
Qed.
(** One after the other. *)
Lemma turn w i f o b s : w_objects w i = Some o -> w_files w (o_path o) = Some b -> read_lines b = Ok s -> settled (mkSpec (f (sp_lines s)) (sp_newline s)) ->
  exists w', run [Reload i; Edit i f; Save i] w = w' /\ (exists b', w_files w' (o_path o) = Some b' /\ read_lines b' = Ok (mkSpec (f (sp_lines s)) (sp_newline s))) /\
    forall j o1, w_objects w j = Some o1 -> exists o2, w_objects w' j = Some o2 /\ o_path o2 = o_path o1.
Proof.
  intros Eo Ef Er St. destruct (settled_reads _ St) as (b' & Es & Er'). eexists. split; [reflexivity|]. unfold M_history.run. cbn [fold_left].
  set (o1 := mk_object (o_path o) s (o_autosave o)). set (o2 := mk_object (o_path o) (mkSpec (f (sp_lines s)) (sp_newline s)) (o_autosave o)).
  assert (H1 : fst (step (Reload i) w) = put_object i o1 w). { cbn [M_history.step]. unfold with_object. rewrite Eo. unfold read. now rewrite Ef, Er. }
  rewrite H1. set (w1 := put_object i o1 w). assert (E1 : w_objects w1 i = Some o1) by apply put_same.
  assert (H2 : w_objects (fst (step (Edit i f) w1)) = put (w_objects w1) i (Some o2)).
  { cbn [M_history.step]. unfold with_object. rewrite E1. cbn [o_autosave o_path o_spec o1]. destruct (o_autosave o); [|reflexivity]. unfold save_object. destruct (save _). reflexivity. }
  set (w2 := fst (step (Edit i f) w1)) in *.
  assert (H3 : fst (step (Save i) w2) = put_file (o_path o) (Some b') w2).
  { cbn [M_history.step]. unfold with_object. rewrite H2, put_same. unfold save_object. cbn [o_spec o2]. now rewrite Es. }
  rewrite H3. split; [exists b'; split; [apply put_same|exact Er']|]. intros j oj Ej. cbn [put_file w_objects]. rewrite H2. destruct (Nat.eq_dec j i) as [->|N].
  - rewrite put_same. exists o2. split; auto. cbn. congruence.
  - rewrite put_other by auto. cbn [w1 put_object w_objects]. rewrite put_other by auto. eauto.
Qed.
Theorem no_lost_updates : forall l w p b s, w_files w p = Some b -> read_lines b = Ok s -> (forall i f, In (i, f) l -> exists o, w_objects w i = Some o /\ o_path o = p) ->
  settled_turns (sp_newline s) (sp_lines s) (map snd l) ->
  exists b', w_files (run (turns l) w) p = Some b' /\ read_lines b' = Ok (mkSpec (apply_all (map snd l) (sp_lines s)) (sp_newline s)).
Proof.
  induction l as [|[i f] l IH]; intros w p b s Ef Er Ho St.
  - exists b. split; auto. cbn. rewrite Er. now destruct s.
  - change (turns ((i, f) :: l)) with ([Reload i; Edit i f; Save i] ++ turns l). rewrite run_app. destruct (Ho i f) as (o & Eo & Po); [now left|]. cbn [map snd settled_turns] in St. destruct St as [_ St].
    assert (S1 : settled (mkSpec (f (sp_lines s)) (sp_newline s))). { destruct l; cbn [map settled_turns] in St; apply St. }
    rewrite <- Po in Ef. destruct (turn w i f o b s Eo Ef Er S1) as (w' & -> & (b' & Ef' & Er') & Hk). rewrite Po in Ef'.
    destruct (IH w' p b' _ Ef' Er') as (b2 & E2 & R2); [|exact St|].
    + intros j g Hj. destruct (Ho j g) as (oj & Ej & Pj); [now right|]. destruct (Hk j oj Ej) as (o2 & E2 & P2). exists o2. split; auto. congruence.
    + exists b2. split; auto.
Qed.
End History.

(** * Reloading inside of views *)
Lemma acts_cons x l s : acts (x :: l) s = acts l (act s x).
Proof. reflexivity. Qed.
Definition depth (s : state) : nat := match a_view s with Some (_, n) => S n | None => O end.
Lemma nth_update f : forall (h : list (list str)) i, (i < length h)%nat -> nth i (update_at i f h) [] = f (nth i h []).
Proof. induction h as [|x h IH]; intros [|i] L; cbn in *; try lia; auto. apply IH. lia. Qed.
Lemma nth_update_other f : forall (h : list (list str)) i j, i <> j -> nth j (update_at i f h) [] = nth j h [].
Proof. induction h as [|x h IH]; intros [|i] [|j] N; cbn; auto; try lia. Qed.
Lemma update_length {A} (f : A -> A) : forall h i, length (update_at i f h) = length h.
Proof. induction h as [|x h IH]; intros [|i]; cbn; auto. Qed.
Theorem changes_arrive : forall l s, (a_lines s < length (a_heap s))%nat -> (forall v n, a_view s = Some (v, n) -> v = a_lines s) -> loads_outside (depth s) l ->
  lines_now (acts l s) = expected (depth s) (lines_now s) l.
Proof.
  induction l as [|x l IH]; intros s B I L; auto. rewrite acts_cons. destruct x as [| |f|lines|]; cbn [loads_outside expected] in *.
  - rewrite IH; auto.
    + unfold depth in *. cbn [act a_view]. destruct (a_view s) as [[v n]|]; reflexivity.
    + cbn. intros v n. destruct (a_view s) as [[v0 n0]|] eqn:V; intros E; injection E as <- _; auto. now apply (I v0 n0).
    + unfold depth in *. cbn [act a_view]. destruct (a_view s) as [[v n]|]; exact L.
  - assert (D : depth (act s Leave) = pred (depth s)). { unfold depth. cbn [act a_view]. destruct (a_view s) as [[v [|n]]|]; reflexivity. }
    rewrite IH; auto; rewrite ?D; auto. cbn. intros v n. destruct (a_view s) as [[v0 [|n0]]|] eqn:V; intros E; try discriminate. injection E as <- _. now apply (I v0 (S n0)).
  - unfold act. destruct (a_view s) as [[v n]|] eqn:V.
    + assert (v = a_lines s) as -> by (eapply I; eauto). rewrite IH.
      * unfold depth, lines_now. cbn [a_view a_heap a_lines]. rewrite V. f_equal. now apply nth_update.
      * cbn. now rewrite update_length.
      * cbn. intros v' n' E. injection E as <- _. reflexivity.
      * unfold depth in *. cbn [a_view]. rewrite V in L. exact L.
    + rewrite IH; auto; [|intros v n E; congruence]. unfold depth. now rewrite V.
  - destruct L as [D L]. assert (V : a_view s = None). { unfold depth in D. destruct (a_view s) as [[? ?]|]; [discriminate|reflexivity]. }
    rewrite IH.
    + unfold depth, lines_now. cbn [act a_view a_heap a_lines]. f_equal. rewrite app_nth2 by lia. now rewrite Nat.sub_diag.
    + cbn. rewrite app_length. cbn. lia.
    + cbn. intros v n E. congruence.
    + exact L.
  - rewrite IH; auto.
Qed.
Lemma lost_changes : forall l s v n, a_view s = Some (v, n) -> v <> a_lines s -> stays_open n l -> lines_now (acts l s) = lines_now s.
Proof.
  induction l as [|x l IH]; intros s v n V N L; auto. rewrite acts_cons. destruct x as [| |f|lines|]; cbn [stays_open] in L.
  - rewrite (IH _ v (S n)); auto. cbn [act a_view]. now rewrite V.
  - destruct n as [|n]; [destruct L|]. rewrite (IH _ v n); auto. cbn [act a_view]. now rewrite V.
  - unfold act. rewrite V. rewrite (IH _ v n); auto. unfold lines_now. cbn. now apply nth_update_other.
  - destruct L.
  - rewrite (IH _ v n); auto.
Qed.
Lemma acts_store l s : a_saved (acts (l ++ [Store]) s) = Some (lines_now (acts l s)).
Proof. unfold acts. rewrite fold_left_app. reflexivity. Qed.
Theorem saved_changes lines l : loads_outside 0 l -> a_saved (acts (l ++ [Store]) (start lines)) = Some (expected 0 lines l).
Proof. intros L. rewrite acts_store. f_equal. apply (changes_arrive l (start lines)); auto. cbn. intros v n E. discriminate. Qed.
Theorem reload_loses lines loaded l : stays_open 0 l -> a_saved (acts (Enter :: Load loaded :: l ++ [Store]) (start lines)) = Some loaded.
Proof.
  intros L. rewrite !acts_cons, acts_store. f_equal. rewrite (lost_changes l _ 0%nat 0%nat); auto; cbn; auto.
Qed.

(** * Settings *)
Theorem settings accepts l : forall w i o, w_objects w i = Some o -> Forall (fun x => forall p a, x <> Open i p a) l ->
  exists o', w_objects (run accepts l w) i = Some o' /\ o_path o' = path_set i l (o_path o) /\ o_autosave o' = autosave_set i l (o_autosave o).
Proof.
  induction l as [|x l IH]; intros w i o H F. { exists o. auto. }
  inversion F as [|? ? N F']; subst. change (run accepts (x :: l) w) with (run accepts l (fst (step accepts x w))).
  assert (K : exists o1, w_objects (fst (step accepts x w)) i = Some o1 /\ o_path o1 = path_set i [x] (o_path o) /\ o_autosave o1 = autosave_set i [x] (o_autosave o)).
  { destruct x as [j p a|j f|j|j|j p|j a|p b|p]; cbn [step path_set autosave_set]; unfold with_object.
    - destruct (read w p) as [s|e]; [|eauto]. destruct (accepts s); [|eauto]. cbn. unfold put. destruct (Nat.eqb_spec i j) as [->|]; [exfalso; now apply (N p a)|eauto].
    - destruct (w_objects w j) as [oj|] eqn:Hj; [|eauto]. destruct (o_autosave oj) eqn:Ha; [unfold save_object; destruct (save _)|]; cbn; unfold put; (destruct (Nat.eqb_spec i j) as [->|]; [rewrite H in Hj; injection Hj as <-; eexists; split; [reflexivity|auto]|eauto]).
    - destruct (w_objects w j) as [oj|] eqn:Hj; [|eauto]. unfold save_object. destruct (save _). cbn. eauto.
    - destruct (w_objects w j) as [oj|] eqn:Hj; [|eauto]. destruct (read w (o_path oj)); [|eauto]. cbn. unfold put. destruct (Nat.eqb_spec i j) as [->|]; [rewrite H in Hj; injection Hj as <-; eexists; split; [reflexivity|auto]|eauto].
    - destruct (w_objects w j) as [oj|] eqn:Hj; cbn; unfold put; rewrite (Nat.eqb_sym j i); (destruct (Nat.eqb_spec i j) as [->|]; [|eauto]); rewrite H in Hj; [injection Hj as <-; eexists; split; [reflexivity|auto]|discriminate].
    - destruct (w_objects w j) as [oj|] eqn:Hj; cbn; unfold put; rewrite (Nat.eqb_sym j i); (destruct (Nat.eqb_spec i j) as [->|]; [|eauto]); rewrite H in Hj; [injection Hj as <-; eexists; split; [reflexivity|auto]|discriminate].
    - cbn. eauto.
    - cbn. eauto. }
  destruct K as (o1 & H1 & P1 & A1). destruct (IH _ i o1 H1 F') as (o' & H' & P' & A'). exists o'. split; [exact H'|]. rewrite P', A', P1, A1. destruct x; auto.
Qed.
Theorem reloading accepts w i o : w_objects w i = Some o ->
  (forall b s, w_files w (o_path o) = Some b -> read_lines b = Ok s ->
     snd (step accepts (Reload i) w) = Ok tt /\ w_objects (fst (step accepts (Reload i) w)) i = Some (mk_object (o_path o) s (o_autosave o))) /\
  (w_files w (o_path o) = None \/ (exists b e, w_files w (o_path o) = Some b /\ read_lines b = Err e) ->
     (exists e, snd (step accepts (Reload i) w) = Err e) /\ fst (step accepts (Reload i) w) = w).
Proof.
  intros H. cbn [step]. unfold with_object, read. rewrite H. split.
  - intros b s -> ->. cbn. unfold put. rewrite Nat.eqb_refl. auto.
  - intros [->|(b & e & -> & ->)]; cbn; eauto.
Qed.
Theorem opening accepts w i p a :
  (forall b s, w_files w p = Some b -> read_lines b = Ok s -> accepts s = true ->
     snd (step accepts (Open i p a) w) = Ok tt /\ w_objects (fst (step accepts (Open i p a) w)) i = Some (mk_object p s a)) /\
  (w_files w p = None -> (exists e, snd (step accepts (Open i p a) w) = Err e) /\ fst (step accepts (Open i p a) w) = w).
Proof.
  cbn [step]. unfold read. split.
  - intros b s -> -> ->. cbn. unfold put. rewrite Nat.eqb_refl. auto.
  - intros ->. cbn. eauto.
Qed.
