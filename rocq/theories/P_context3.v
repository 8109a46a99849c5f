(** Consequences of the refinement of views: shared values, explicit parents, programs without changes, overlapping views. *)
From Coq Require Import Arith List Bool Lia.
From Verif Require Import PyStr M_context Spec_context P_context P_context2.
Import ListNotations.

Section Context.
Context {V : Type} (load : nat -> V -> result V) (store : nat -> V -> V -> result V) (autosave : bool).
Notation views := (@views V).
Notation prog := (@prog V).
Notation within := (within load store autosave).
Notation meaning := (meaning load store autosave).
Notation observe := (observe load store autosave).
Notation observed := (observed load store autosave).
Notation inner := (inner load store).
Notation within_shared := (within_shared load store autosave).
Notation within_root := (within_root load store autosave).
Notation within_child := (within_child load store autosave).

(** * Equal states, with equal logs if [hist] *)
Section Rel.
Context (hist : Prop).
Definition eqv (s t : views) : Prop := doc s = doc t /\ saved s = saved t /\ (hist -> history s = history t) /\ forall k, cur s k = cur t k.
Lemma eqv_refl s : eqv s s. Proof. repeat split. Qed.
Lemma eqv_open s t k : eqv s t -> is_open k s = is_open k t.
Proof. intros [_ [_ [_ E]]]. unfold is_open. rewrite E. reflexivity. Qed.
Lemma eqv_put s t k v : eqv s t -> eqv (put k v s) (put k v t).
Proof. intros [A [B [C D]]]. repeat split; cbn; try assumption. intros k'. unfold upd. rewrite D. reflexivity. Qed.
Lemma eqv_wrote s t k : eqv s t -> eqv (wrote k s) (wrote k t).
Proof. intros [A [B [C D]]]. repeat split; cbn; try assumption. intros h. rewrite (C h). reflexivity. Qed.
Lemma eqv_opened s t k v : eqv s t -> eqv (opened k v s) (opened k v t).
Proof. intros [A [B [C D]]]. repeat split; cbn; try assumption; [intros h; rewrite (C h); reflexivity|]. intros k'. unfold upd. rewrite D. reflexivity. Qed.
Lemma eqv_closed s t : eqv s t -> eqv (closed_root autosave s) (closed_root autosave t).
Proof.
  intros H. pose proof H as [A [B [C D]]]. unfold closed_root. rewrite <- D. destruct (cur s []) as [v|]; [|exact H].
  repeat split; cbn; [rewrite B; reflexivity|intros h; rewrite (C h); reflexivity|]. intros k'. unfold upd. rewrite D. reflexivity.
Qed.
(** The states in which the body of a [with] on [k], entered in [s], may run. *)
Definition pre (k : path) (s s' : views) : Prop :=
  is_open k s' = true /\ forall k', is_open k' s = false -> ~ anc k' k -> is_open k' s' = false.
Lemma pre_root s : is_open [] s = false -> pre [] s (opened [] (doc s) s).
Proof.
  intros O. split; [rewrite is_open_opened, path_eqb_refl; reflexivity|]. intros k' O' N. rewrite is_open_opened.
  rewrite path_eqb_neq; [exact O'|]. intros ->. apply N. exists []. reflexivity.
Qed.
Lemma pre_child n p v s s' : pre p s s' -> pre (n :: p) s (opened (n :: p) v s').
Proof.
  intros [P N]. split; [rewrite is_open_opened, path_eqb_refl; reflexivity|]. intros k' O' Nk. rewrite is_open_opened.
  rewrite path_eqb_neq; [|intros ->; apply Nk; exists []; reflexivity]. apply N; [exact O'|]. intros [l E]. apply Nk. exists (n :: l). rewrite E. reflexivity.
Qed.
Lemma not_anc n p : ~ anc (n :: p) p.
Proof. intros [l E]. assert (length p = length l + S (length p)) by (rewrite E at 1; rewrite app_length; reflexivity). lia. Qed.
Lemma pre_closed n p s s' : pre p s s' -> is_open (n :: p) s = false -> is_open (n :: p) s' = false.
Proof. intros [_ N] O. apply N; [exact O|apply not_anc]. Qed.

Lemma within_rel k : forall A A' (b : views -> views * A) (b' : views -> views * A') s t, eqv s t ->
  (forall s' t', pre k s s' -> eqv s' t' -> eqv (fst (b s')) (fst (b' t'))) ->
  eqv (fst (within k A b s)) (fst (within k A' b' t)) /\
  ((exists e, snd (within k A b s) = Err e /\ snd (within k A' b' t) = Err e) \/
   exists s0 t0, pre k s s0 /\ eqv s0 t0 /\ snd (within k A b s) = Ok (snd (b s0)) /\ snd (within k A' b' t) = Ok (snd (b' t0))).
Proof.
  induction k as [|n p IH]; intros A A' b b' s t Q E.
  - destruct (is_open [] s) eqn:O; pose proof O as O'; rewrite (eqv_open _ _ _ Q) in O'.
    + rewrite !within_shared by assumption. cbn [fst snd]. assert (P : pre [] s s) by (split; auto). split; [apply E; assumption|]. right. exists s, t. split; [exact P|]. split; [exact Q|]. split; reflexivity.
    + rewrite !within_root by assumption. cbn [fst snd]. assert (Q' : eqv (opened [] (doc s) s) (opened [] (doc t) t)).
      { destruct Q as [D Q]. rewrite D. apply eqv_opened. split; assumption. }
      split; [apply eqv_closed, E; [apply pre_root; exact O|exact Q']|]. right. eexists. eexists. split; [apply pre_root; exact O|]. split; [exact Q'|]. split; reflexivity.
  - destruct (is_open (n :: p) s) eqn:O; pose proof O as O'; rewrite (eqv_open _ _ _ Q) in O'.
    + rewrite !within_shared by assumption. cbn [fst snd]. assert (P : pre (n :: p) s s) by (split; auto). split; [apply E; assumption|]. right. exists s, t. split; [exact P|]. split; [exact Q|]. split; reflexivity.
    + rewrite !within_child by assumption. cbn [fst snd]. rewrite <- (eqv_open s t p Q).
      assert (G : forall s' t', pre p s s' -> eqv s' t' -> eqv (fst (inner n p b s')) (fst (inner n p b' t')) /\
        ((exists e, snd (inner n p b s') = Not_loaded _ e /\ snd (inner n p b' t') = Not_loaded _ e) \/
         exists s0 t0 f, pre (n :: p) s s0 /\ eqv s0 t0 /\ snd (inner n p b s') = Finished _ (snd (b s0)) f /\ snd (inner n p b' t') = Finished _ (snd (b' t0)) f)).
      { clear -E. intros s' t' P Q. unfold P_context2.inner. pose proof Q as [_ [_ [_ Qc]]]. rewrite <- Qc. destruct (cur s' p) as [pv|]; [|split; [exact Q|]; left; eexists; split; reflexivity].
        destruct (load n pv) as [v|e]; [|split; [exact Q|]; left; eexists; split; reflexivity]. pose proof (eqv_opened _ _ (n :: p) v Q) as Q0. pose proof (pre_child n p v _ _ P) as P0.
        remember (opened (n :: p) v s') as s0. remember (opened (n :: p) v t') as t0. pose proof (E s0 t0 P0 Q0) as E1.
        destruct (b s0) as [s1 a] eqn:B1, (b' t0) as [t1 a'] eqn:B2. cbn [fst] in E1.
        pose proof E1 as [_ [_ [_ Ec]]]. rewrite <- !Ec.
        destruct (cur s1 (n :: p)) as [v'|]; [destruct (cur s1 p) as [pv'|]|]; try (split; [exact E1|]; left; eexists; split; reflexivity).
        destruct (store n v' pv') as [w|e]; cbn [fst snd].
        - split; [apply eqv_wrote, eqv_put, eqv_put, E1|]. right. exists s0, t0, None. rewrite B1, B2. split; [exact P0|]. split; [exact Q0|]. split; reflexivity.
        - split; [apply eqv_put, E1|]. right. exists s0, t0, (Some e). rewrite B1, B2. split; [exact P0|]. split; [exact Q0|]. split; reflexivity. }
      destruct (IH _ _ (inner n p b) (inner n p b') s t Q (fun s' t' P Q => proj1 (G s' t' P Q))) as [S1 S2]. split; [exact S1|].
      destruct S2 as [[e [-> ->]]|[s0 [t0 [P0 [Q0 [-> ->]]]]]]; [left; exists e; split; reflexivity|].
      destruct (proj2 (G s0 t0 P0 Q0)) as [[e [-> ->]]|[s1 [t1 [f [P1 [Q1 [-> ->]]]]]]]; cbn [outer].
      * left. eexists. split; reflexivity.
      * destruct f as [e|]; [|right; exists s1, t1; split; [exact P1|]; split; [exact Q1|]; split; reflexivity].
        destruct (is_open p s && key_error e); [right; exists s1, t1; split; [exact P1|]; split; [exact Q1|]; split; reflexivity|left; exists e; split; reflexivity].
Qed.
Lemma meaning_eqv p : forall env s t, eqv s t -> eqv (fst (meaning p env s)) (fst (meaning p env t)) /\ snd (meaning p env s) = snd (meaning p env t).
Proof.
  induction p as [|i f|e|p1 IH1 p2 IH2|p1 IH1 p2 IH2|k p IH]; intros env s t Q; cbn [Spec_context.meaning].
  - split; [exact Q|reflexivity].
  - destruct (nth_error env i) as [k|]; [|split; [exact Q|reflexivity]]. pose proof Q as [_ [_ [_ C]]]. rewrite <- C.
    destruct (cur s k); cbn; (split; [|reflexivity]); [apply eqv_put|]; exact Q.
  - split; [exact Q|reflexivity].
  - destruct (IH1 env s t Q) as [Q1 E1]. destruct (meaning p1 env s) as [s1 r1], (meaning p1 env t) as [t1 r1']. cbn [fst snd] in *. subst r1'.
    destruct r1; [split; [exact Q1|reflexivity]|apply IH2, Q1].
  - destruct (IH1 env s t Q) as [Q1 E1]. destruct (meaning p1 env s) as [s1 r1], (meaning p1 env t) as [t1 r1']. cbn [fst snd] in *. subst r1'.
    destruct r1; [apply IH2, Q1|split; [exact Q1|reflexivity]].
  - destruct (within_rel k _ _ (meaning p (k :: env)) (meaning p (k :: env)) s t Q (fun s' t' _ Q' => proj1 (IH (k :: env) s' t' Q'))) as [S1 S2].
    rewrite <- (eqv_open _ _ _ Q).
    destruct (within k (option exn) (meaning p (k :: env)) s) as [s1 r1], (within k (option exn) (meaning p (k :: env)) t) as [t1 r1']. cbn [fst snd] in *.
    split; [exact S1|]. destruct S2 as [[e [-> ->]]|[s0 [t0 [_ [Q0 [-> ->]]]]]]; [reflexivity|]. f_equal. apply IH, Q0.
Qed.
End Rel.
Lemma eqv_observed p q d : eqv True (fst (meaning p [] (no_views d))) (fst (meaning q [] (no_views d))) ->
  snd (meaning p [] (no_views d)) = snd (meaning q [] (no_views d)) -> observe p d = observe q d.
Proof.
  rewrite !observe_eq. unfold P_context2.observed. destruct (meaning p [] (no_views d)) as [s r], (meaning q [] (no_views d)) as [t r'].
  cbn [fst snd]. intros [-> [-> [H _]]] ->. rewrite (H I). reflexivity.
Qed.

(** * No KeyErrors *)
Definition no_key : Prop := (forall n v, load n v <> Err KeyError) /\ (forall n v w, store n v w <> Err KeyError).
Lemma inner_no_key n p A (b : views -> views * A) s e : no_key ->
  snd (inner n p b s) = Not_loaded _ e \/ (exists a, snd (inner n p b s) = Finished _ a (Some e)) -> e <> KeyError.
Proof.
  intros [NL NS]. unfold P_context2.inner. destruct (cur s p) as [pv|].
  2: { cbn. intros [E|[a E]]; [injection E as <-; discriminate|discriminate]. }
  destruct (load n pv) as [v|e'] eqn:L.
  2: { cbn. intros [E|[a E]]; [|discriminate]. injection E as <-. intros ->. exact (NL _ _ L). }
  destruct (b _) as [s1 a]. destruct (cur s1 (n :: p)) as [v'|]; [destruct (cur s1 p) as [pv'|]|].
  2,3: cbn; intros [E|[x E]]; [injection E as <-; discriminate|discriminate].
  destruct (store n v' pv') as [w|e'] eqn:S; cbn; (intros [E|[x E]]; [discriminate|]); [discriminate|].
  injection E as _ <-. intros ->. exact (NS _ _ _ S).
Qed.
Lemma within_no_key k : no_key -> forall A (b : views -> views * A) s, snd (within k A b s) <> Err KeyError.
Proof.
  intros NK. induction k as [|n p IH]; intros A b s.
  - destruct (is_open [] s) eqn:O; [rewrite within_shared by exact O|rewrite within_root by exact O]; discriminate.
  - destruct (is_open (n :: p) s) eqn:O; [rewrite within_shared by exact O; discriminate|]. rewrite within_child by exact O. cbn [snd].
    specialize (IH _ (inner n p b) s).
    destruct (within_state load store autosave p _ _ (inner n p b) (inner n p b) s (fun _ => eq_refl)) as [_ [[e [E _]]|[s0 [E _]]]]; rewrite E in *; cbn [outer].
    { intros X. apply IH. congruence. }
    destruct (snd (inner n p b s0)) as [e|a f] eqn:I.
    + assert (e <> KeyError) by (eapply (inner_no_key n p _ b s0); [exact NK|left; exact I]). destruct (is_open p s && key_error e); congruence.
    + destruct f as [e|]; [|discriminate]. assert (e <> KeyError) by (eapply (inner_no_key n p _ b s0); [exact NK|right; eexists; exact I]).
      destruct (is_open p s && key_error e); congruence.
Qed.
Lemma left_shared_not b e : e <> Some KeyError -> left_shared b e = e.
Proof. destruct e as [e|]; [|reflexivity]. destruct e; try reflexivity. congruence. Qed.
Lemma left_shared_no b e : e <> Some KeyError -> left_shared b e <> Some KeyError.
Proof. intros N. rewrite left_shared_not; exact N. Qed.
Lemma meaning_no_key p : no_key -> no_key_errors p -> forall env s, snd (meaning p env s) <> Some KeyError.
Proof.
  intros NK. induction p as [|i f|e|p1 IH1 p2 IH2|p1 IH1 p2 IH2|k p IH]; cbn [no_key_errors]; intros N env s; cbn [Spec_context.meaning]; try discriminate.
  - destruct (nth_error env i); discriminate.
  - cbn. congruence.
  - destruct N as [N1 N2]. specialize (IH1 N1 env s). destruct (meaning p1 env s) as [s1 [e|]]; [exact IH1|apply IH2, N2].
  - destruct N as [N1 N2]. specialize (IH1 N1 env s). destruct (meaning p1 env s) as [s1 [e|]]; [apply IH2, N2|discriminate].
  - pose proof (within_no_key k NK _ (meaning p (k :: env)) s) as W.
    destruct (within_state load store autosave k _ _ (meaning p (k :: env)) (meaning p (k :: env)) s (fun _ => eq_refl)) as [_ [[e [E _]]|[s0 [E _]]]];
      destruct (within k _ _ s) as [s' r]; cbn [snd] in *; subst r; [intros X; apply W; congruence|]. apply left_shared_no, IH, N.
Qed.

(** * A view opened inside itself *)
Lemma shared_merged k a p b d : no_key -> no_key_errors p ->
  observe (With k (Then a (Then (With k p) b))) d = observe (With k (Then a (Then (merged 0 p) b))) d.
Proof.
  intros NK N.
  assert (X : forall s t, is_open k s = true -> eqv True s t ->
    eqv True (fst (meaning (Then a (Then (With k p) b)) [k] s)) (fst (meaning (Then a (Then (merged 0 p) b)) [k] t)) /\
    snd (meaning (Then a (Then (With k p) b)) [k] s) = snd (meaning (Then a (Then (merged 0 p) b)) [k] t)).
  { intros s t O Q. cbn [Spec_context.meaning]. destruct (meaning_eqv True a [k] s t Q) as [Q1 E1]. destruct (meaning_good load store autosave a [k] s) as [G _].
    destruct (meaning a [k] s) as [s1 r1], (meaning a [k] t) as [t1 r1']. cbn [fst snd] in *. subst r1'.
    destruct r1 as [e|]; [split; [exact Q1|reflexivity]|]. assert (O1 : is_open k s1 = true) by (rewrite G; exact O).
    rewrite O1. rewrite within_shared by exact O1.
    assert (MM : meaning (merged 0 p) [k] t1 = meaning p [k; k] t1) by exact (merged_meaning load store autosave p [] k [] t1).
    rewrite MM. cbn [app fst snd]. destruct (meaning_eqv True p [k; k] s1 t1 Q1) as [Q2 E2].
    pose proof (meaning_no_key p NK N [k; k] s1) as NP.
    destruct (meaning p [k; k] s1) as [s2 r2], (meaning p [k; k] t1) as [t2 r2']. cbn [fst snd] in *. subst r2'.
    rewrite left_shared_not by exact NP. destruct r2; [split; [exact Q2|reflexivity]|]. apply meaning_eqv, Q2. }
  apply eqv_observed.
  - cbn [Spec_context.meaning].
    destruct (within_rel True k _ _ (meaning (Then a (Then (With k p) b)) [k]) (meaning (Then a (Then (merged 0 p) b)) [k]) (no_views d) (no_views d) (eqv_refl True _)
      (fun s' t' P Q => proj1 (X s' t' (proj1 P) Q))) as [S1 _].
    change (eqv True (fst (let (s, r) := within k (option exn) (meaning (Then a (Then (With k p) b)) [k]) (no_views d) in (s, match r with Err e => Some e | Ok o => left_shared (is_open k (no_views d)) o end)))
      (fst (let (s, r) := within k (option exn) (meaning (Then a (Then (merged 0 p) b)) [k]) (no_views d) in (s, match r with Err e => Some e | Ok o => left_shared (is_open k (no_views d)) o end)))).
    destruct (within k _ _ _), (within k _ _ _). exact S1.
  - destruct (within_rel True k _ _ (meaning (Then a (Then (With k p) b)) [k]) (meaning (Then a (Then (merged 0 p) b)) [k]) (no_views d) (no_views d) (eqv_refl True _)
      (fun s' t' P Q => proj1 (X s' t' (proj1 P) Q))) as [_ S2].
    change (snd (let (s, r) := within k (option exn) (meaning (Then a (Then (With k p) b)) [k]) (no_views d) in (s, match r with Err e => Some e | Ok o => left_shared (is_open k (no_views d)) o end)) =
      snd (let (s, r) := within k (option exn) (meaning (Then a (Then (merged 0 p) b)) [k]) (no_views d) in (s, match r with Err e => Some e | Ok o => left_shared (is_open k (no_views d)) o end))).
    destruct (within k _ _ _) as [s1 r1], (within k _ _ _) as [t1 r1']. cbn [fst snd] in *.
    destruct S2 as [[e [-> ->]]|[s0 [t0 [P [Q [-> ->]]]]]]; [reflexivity|]. f_equal. apply (X s0 t0 (proj1 P) Q).
Qed.
Lemma left_shared_false e : left_shared false e = e.
Proof. destruct e as [e|]; [|reflexivity]. destruct e; reflexivity. Qed.
Lemma no_views_closed k d : is_open k (@no_views V d) = false.
Proof. reflexivity. Qed.
Lemma meaning_with k p env s : meaning (With k p) env s =
  (fst (within k _ (meaning p (k :: env)) s), match snd (within k _ (meaning p (k :: env)) s) with Err e => Some e | Ok o => left_shared (is_open k s) o end).
Proof. cbn [Spec_context.meaning]. destruct (within k _ _ s). reflexivity. Qed.
(** The body of a view inside the view it is part of. *)
Definition step n p (b : prog) env (s : views) : views * option exn :=
  (fst (inner n p (meaning b ((n :: p) :: env)) s), match outer true (Ok (snd (inner n p (meaning b ((n :: p) :: env)) s))) with Err e => Some e | Ok o => o end).
Lemma with_child n p b env s : is_open p s = true -> is_open (n :: p) s = false -> meaning (With (n :: p) b) env s = step n p b env s.
Proof.
  intros P O. rewrite meaning_with, O. rewrite within_child by exact O. cbn [fst snd]. rewrite P. rewrite within_shared by exact P. cbn [fst snd].
  unfold step. f_equal. destruct (outer _ _); [apply left_shared_false|reflexivity].
Qed.
Lemma inner_ext n p A (b b' : views -> views * A) s : (forall s, b s = b' s) -> inner n p b s = inner n p b' s.
Proof. intros E. unfold P_context2.inner. destruct (cur s p) as [pv|]; [|reflexivity]. destruct (load n pv); [|reflexivity]. rewrite E. reflexivity. Qed.

(** * Opening the view that a view is part of *)
Lemma explicit_parent n p b d : no_key -> observe (With p (With (n :: p) (lifted 1 b))) d = observe (With (n :: p) b) d.
Proof.
  intros NK. rewrite !observe_eq. unfold P_context2.observed. rewrite (meaning_with p), (meaning_with (n :: p)). rewrite !no_views_closed.
  rewrite within_child by apply no_views_closed. cbn [fst snd]. rewrite no_views_closed.
  set (I := inner n p (meaning b [n :: p])).
  assert (X : forall s' t', pre p (no_views d) s' -> eqv True s' t' -> eqv True (fst (meaning (With (n :: p) (lifted 1 b)) [p] s')) (fst (I t')) /\
    (snd (meaning (With (n :: p) (lifted 1 b)) [p] s') = match outer true (Ok (snd (I t'))) with Err e => Some e | Ok o => o end)).
  { intros s' t' P Q. rewrite with_child; [|apply P|eapply pre_closed; [exact P|reflexivity]]. unfold step.
    rewrite (inner_ext n p _ (meaning (lifted 1 b) [n :: p; p]) (meaning b [n :: p])) by (intros s; exact (lifted_meaning load store autosave b [n :: p] p [] s)).
    fold I. cbn [fst snd].
    assert (Y : eqv True (fst (I s')) (fst (I t')) /\ snd (I s') = snd (I t')).
    { unfold I, P_context2.inner. pose proof Q as [_ [_ [_ Qc]]]. rewrite <- Qc. destruct (cur s' p) as [pv|]; [|split; [exact Q|reflexivity]].
      destruct (load n pv) as [v|e]; [|split; [exact Q|reflexivity]].
      destruct (meaning_eqv True b [n :: p] _ _ (eqv_opened True _ _ (n :: p) v Q)) as [Q1 E1].
      destruct (meaning b _ (opened _ _ s')) as [s1 r1], (meaning b _ (opened _ _ t')) as [t1 r1']. cbn [fst snd] in *. subst r1'.
      pose proof Q1 as [_ [_ [_ Qd]]]. rewrite <- !Qd. destruct (cur s1 (n :: p)) as [v'|]; [destruct (cur s1 p) as [pv'|]|]; try (split; [exact Q1|reflexivity]).
      destruct (store n v' pv') as [w|e]; cbn [fst snd]; (split; [|reflexivity]); [apply eqv_wrote, eqv_put|]; apply eqv_put, Q1. }
    destruct Y as [Y1 Y2]. rewrite Y2. split; [exact Y1|reflexivity]. }
  destruct (within_rel True p _ _ (meaning (With (n :: p) (lifted 1 b)) [p]) I (no_views d) (no_views d) (eqv_refl True _) (fun s' t' P Q => proj1 (X s' t' P Q))) as [S1 S2].
  change (inner n p (meaning b [n :: p])) with I. destruct (within p _ (meaning _ [p]) _) as [s1 r1], (within p _ I _) as [t1 r1']. cbn [fst snd] in *. destruct S1 as [-> [-> [SH _]]]. rewrite (SH Logic.I).
  f_equal. f_equal. f_equal. destruct S2 as [[e [-> ->]]|[s0 [t0 [P [Q [-> ->]]]]]]; [reflexivity|].
  rewrite left_shared_false. rewrite (proj2 (X s0 t0 P Q)). pose proof (fun e => inner_no_key n p _ (meaning b [n :: p]) t0 e NK) as NKI. fold I in NKI.
  cbn [outer]. destruct (snd (I t0)) as [e|a f].
  - assert (e <> KeyError) by (apply NKI; left; reflexivity). destruct e; try reflexivity. congruence.
  - destruct f as [e|]; cbn [andb]; [|symmetry; apply left_shared_false].
    assert (e <> KeyError) by (apply NKI; right; eexists; reflexivity). destruct e; try reflexivity. congruence.
Qed.

(** * Programs that change nothing *)
Section Quiet.
Context (ok : path -> V -> Prop).
Definition lossless : Prop := forall n p pv v, ok p pv -> load n pv = Ok v -> ok (n :: p) v /\ store n v pv = Ok pv.
Record Q (s : views) : Prop := { q_root : forall v, cur s [] = Some v -> v = doc s; q_ok : forall k v, cur s k = Some v -> ok k v;
  q_child : forall n p v, cur s (n :: p) = Some v -> exists pv, cur s p = Some pv /\ load n pv = Ok v; q_doc : ok [] (doc s) }.
Definition unchanged {A} (b : views -> views * A) (s : views) : Prop :=
  (forall k', cur (fst (b s)) k' = cur s k') /\ doc (fst (b s)) = doc s /\ (saved (fst (b s)) = saved s \/ saved (fst (b s)) = Some (doc s)).
Lemma Q_same s s' : Q s -> (forall k', cur s' k' = cur s k') -> doc s' = doc s -> Q s'.
Proof.
  intros [A B C D] E F. constructor.
  - intros v. rewrite E, F. apply A.
  - intros k v. rewrite E. apply B.
  - intros n p v. rewrite !E. apply C.
  - rewrite F. exact D.
Qed.
Lemma Q_opened n p v pv s : Q s -> is_open (n :: p) s = false -> cur s p = Some pv -> load n pv = Ok v -> ok (n :: p) v -> Q (opened (n :: p) v s).
Proof.
  intros [q1 q2 q3 q4] O Cp L OK. assert (C0 : cur s (n :: p) = None) by (unfold is_open in O; destruct (cur s (n :: p)); [discriminate|reflexivity]).
  assert (NP : p <> n :: p) by (intros E; apply (f_equal (@length nat)) in E; cbn in E; lia).
  constructor; cbn [opened cur doc].
  - unfold upd. rewrite path_eqb_neq by discriminate. exact q1.
  - intros k v'. unfold upd. destruct (path_eqb k (n :: p)) eqn:E; [|apply q2]. intros X. injection X as <-. apply path_eqb_true in E. subst. exact OK.
  - intros n' p' v'. unfold upd. destruct (path_eqb (n' :: p') (n :: p)) eqn:E.
    + apply path_eqb_true in E. injection E as -> ->. intros X. injection X as <-. rewrite path_eqb_neq by exact NP. exists pv. split; assumption.
    + intros X. destruct (q3 _ _ _ X) as [pv' [Y Z]]. destruct (path_eqb p' (n :: p)) eqn:E'; [apply path_eqb_true in E'; subst; congruence|]. exists pv'. split; assumption.
  - exact q4.
Qed.
Lemma Q_root s : Q s -> is_open [] s = false -> Q (opened [] (doc s) s).
Proof.
  intros [q1 q2 q3 q4] O. assert (C0 : cur s [] = None) by (unfold is_open in O; destruct (cur s []); [discriminate|reflexivity]).
  constructor; cbn [opened cur doc].
  - unfold upd. rewrite path_eqb_refl. congruence.
  - intros k v. unfold upd. destruct (path_eqb k []) eqn:E; [|apply q2]. intros X. injection X as <-. apply path_eqb_true in E. subst. exact q4.
  - intros n p v. unfold upd. rewrite (path_eqb_neq (n :: p) []) by discriminate. intros X. destruct (q3 _ _ _ X) as [pv [Y Z]].
    destruct (path_eqb p []) eqn:E; [apply path_eqb_true in E; subst; congruence|]. exists pv. split; assumption.
  - exact q4.
Qed.
Lemma within_unchanged k : lossless -> forall A (b : views -> views * A) s, (forall s', pre k s s' -> Q s' -> unchanged b s') -> Q s -> unchanged (within k A b) s.
Proof.
  intros LL. induction k as [|n p IH]; intros A b s B q.
  - destruct (is_open [] s) eqn:O; unfold unchanged; [rewrite within_shared by exact O; apply B; [split; auto|exact q]|]. rewrite within_root by exact O. cbn [fst].
    assert (C0 : cur s [] = None) by (unfold is_open in O; destruct (cur s []); [discriminate|reflexivity]).
    destruct (B _ (pre_root _ O) (Q_root _ q O)) as [B1 [B2 B3]]. destruct (b (opened [] (doc s) s)) as [s1 a]. cbn [fst] in *. unfold closed_root.
    rewrite B1. cbn [opened cur]. rewrite upd_same. cbn [cur doc saved]. split; [|split; [reflexivity|]].
    + intros k'. unfold upd. destruct (path_eqb k' []) eqn:E; [apply path_eqb_true in E; subst; symmetry; exact C0|]. rewrite B1. cbn [opened cur]. unfold upd. rewrite E. reflexivity.
    + destruct autosave; [right; reflexivity|exact B3].
  - destruct (is_open (n :: p) s) eqn:O; unfold unchanged; [rewrite within_shared by exact O; apply B; [split; auto|exact q]|]. rewrite within_child by exact O. cbn [fst].
    apply IH; [|exact q]. intros s' P q'. unfold unchanged, P_context2.inner. destruct (cur s' p) as [pv|] eqn:Cp; [|cbn; auto].
    destruct (load n pv) as [v|e] eqn:L; [|cbn; auto].
    destruct (LL n p pv v (q_ok _ q' _ _ Cp) L) as [OK ST]. pose proof (pre_closed n p _ _ P O) as O'.
    assert (NP : p <> n :: p) by (intros E; apply (f_equal (@length nat)) in E; cbn in E; lia).
    assert (C0 : cur s' (n :: p) = None) by (unfold is_open in O'; destruct (cur s' (n :: p)); [discriminate|reflexivity]).
    destruct (B _ (pre_child n p v _ _ P) (Q_opened n p v pv s' q' O' Cp L OK)) as [B1 [B2 B3]].
    destruct (b (opened (n :: p) v s')) as [s1 a]. cbn [fst] in B1, B2, B3. rewrite !B1. cbn [opened cur]. rewrite upd_same, upd_other by exact NP. rewrite Cp, ST.
    cbn [fst wrote put cur doc saved]. split; [|split; [exact B2|exact B3]]. intros k'. unfold upd. destruct (path_eqb k' p) eqn:E; [apply path_eqb_true in E; subst; symmetry; exact Cp|].
    destruct (path_eqb k' (n :: p)) eqn:E'; [apply path_eqb_true in E'; subst; symmetry; exact C0|]. rewrite B1. cbn [opened cur]. unfold upd. rewrite E'. reflexivity.
Qed.
Lemma unchanged_refl {A} (a : A) s : unchanged (fun s => (s, a)) s.
Proof. split; [reflexivity|]. split; [reflexivity|left; reflexivity]. Qed.
Lemma meaning_unchanged p : lossless -> no_edits p -> forall env s, Q s -> unchanged (meaning p env) s.
Proof.
  intros LL. induction p as [|i f|e|p1 IH1 p2 IH2|p1 IH1 p2 IH2|k p IH]; cbn [no_edits]; intros N env s q.
  - apply (unchanged_refl (@None exn)).
  - contradiction.
  - apply (unchanged_refl (Some e)).
  - destruct N as [N1 N2]. destruct (IH1 N1 env s q) as [A1 [A2 A3]]. unfold unchanged. cbn [Spec_context.meaning]. destruct (meaning p1 env s) as [s1 [e|]]; cbn [fst] in *; [auto|].
    destruct (IH2 N2 env s1 (Q_same _ _ q A1 A2)) as [B1 [B2 B3]]. split; [intros k'; rewrite B1; apply A1|]. split; [congruence|].
    destruct B3 as [-> | ->]; [exact A3|right; congruence].
  - destruct N as [N1 N2]. destruct (IH1 N1 env s q) as [A1 [A2 A3]]. unfold unchanged. cbn [Spec_context.meaning]. destruct (meaning p1 env s) as [s1 [e|]]; cbn [fst] in *; [|auto].
    destruct (IH2 N2 env s1 (Q_same _ _ q A1 A2)) as [B1 [B2 B3]]. split; [intros k'; rewrite B1; apply A1|]. split; [congruence|].
    destruct B3 as [-> | ->]; [exact A3|right; congruence].
  - unfold unchanged. rewrite meaning_with. cbn [fst]. apply within_unchanged; [exact LL| |exact q]. intros s' _ q'. apply IH; assumption.
Qed.
Lemma quiet_programs p d : lossless -> ok [] d -> no_edits p ->
  let '(r, l, f, h) := observe p d in l = Some d /\ (f = None \/ f = Some d).
Proof.
  intros LL OK N. rewrite observe_eq. unfold P_context2.observed.
  destruct (meaning_unchanged p LL N [] (no_views d)) as [_ [A B]].
  { constructor; try discriminate. exact OK. }
  destruct (meaning p [] (no_views d)) as [s r]. cbn [fst] in *. cbn in A, B. rewrite A. split; [reflexivity|exact B].
Qed.
End Quiet.
(** * Views of the same parent *)
Lemma self_cons (n : nat) (p : path) : p <> n :: p.
Proof. intros E. apply (f_equal (@length nat)) in E. cbn in E. lia. Qed.
(** What [With (n :: p) (Edit 0 f)] does in a state where [p] is open and [n :: p] is not. *)
Lemma edit_child n p f env s pv : cur s p = Some pv -> is_open (n :: p) s = false ->
  meaning (With (n :: p) (Edit 0 f)) env s =
  match load n pv with
  | Err e => (s, Some (if key_error e then StopIteration else e))
  | Ok v =>
      let s1 := put (n :: p) None (put (n :: p) (Some (f v)) (opened (n :: p) v s)) in
      match store n (f v) pv with
      | Ok w => (wrote (n :: p) (put p (Some w) s1), None)
      | Err e => (s1, if key_error e then None else Some e)
      end
  end.
Proof.
  intros Cp O. assert (P : is_open p s = true) by (unfold is_open; rewrite Cp; reflexivity).
  rewrite with_child by assumption. unfold step, P_context2.inner. rewrite Cp. destruct (load n pv) as [v|e]; [|reflexivity].
  cbn [Spec_context.meaning nth_error]. change (cur (opened (n :: p) v s) (n :: p)) with (upd (cur s) (n :: p) (Some v) (n :: p)). rewrite upd_same.
  change (cur (put (n :: p) (Some (f v)) (opened (n :: p) v s)) (n :: p)) with (upd (upd (cur s) (n :: p) (Some v)) (n :: p) (Some (f v)) (n :: p)).
  rewrite upd_same.
  change (cur (put (n :: p) (Some (f v)) (opened (n :: p) v s)) p) with (upd (upd (cur s) (n :: p) (Some v)) (n :: p) (Some (f v)) p).
  rewrite !upd_other by apply self_cons. rewrite Cp. cbn zeta. destruct (store n (f v) pv) as [w|e]; cbn [fst snd outer andb]; [reflexivity|].
  destruct (key_error e); reflexivity.
Qed.
(** The inner of two views of the same parent is overwritten by the outer one. *)
Lemma lost_update a b p f g d : a <> b -> total store ->
  (forall pv v x h y, h = f \/ h = g -> load a pv = Ok v -> load b pv = Ok x -> store b (h x) pv = Ok y -> store a v y = store a v pv) ->
  observe (With (a :: p) (With (b :: p) (Edit 0 f))) d = observe (With (a :: p) (With (b :: p) (Edit 0 g))) d.
Proof.
  intros NE T ST. assert (NB : b :: p <> a :: p) by congruence.
  set (F := fun h => inner a p (meaning (With (b :: p) (Edit 0 h)) [a :: p])).
  assert (X : forall s t, pre p (no_views d) s -> eqv True s t -> eqv True (fst (F f s)) (fst (F g t)) /\ snd (F f s) = snd (F g t)).
  { intros s t P Q. unfold F, P_context2.inner. pose proof Q as [_ [_ [_ Qc]]]. rewrite <- Qc. destruct (cur s p) as [pv|] eqn:Cp; [|split; [exact Q|reflexivity]].
    destruct (load a pv) as [v|e] eqn:LA; [|split; [exact Q|reflexivity]].
    assert (Cs : forall s, cur s p = Some pv -> cur (opened (a :: p) v s) p = Some pv).
    { intros s' C. change (upd (cur s') (a :: p) (Some v) p = Some pv). rewrite upd_other by apply self_cons. exact C. }
    assert (Os : forall s, is_open (b :: p) s = false -> is_open (b :: p) (opened (a :: p) v s) = false).
    { intros s' O. rewrite is_open_opened, path_eqb_neq by exact NB. exact O. }
    assert (OB : is_open (b :: p) s = false) by (eapply pre_closed; [exact P|reflexivity]).
    assert (OBt : is_open (b :: p) t = false) by (rewrite <- (eqv_open True _ _ _ Q); exact OB).
    rewrite (edit_child b p f _ _ pv), (edit_child b p g _ _ pv); auto; [|apply Cs; rewrite <- Qc; exact Cp].
    pose proof (eqv_opened True _ _ (a :: p) v Q) as Q0. remember (opened (a :: p) v s) as s0 eqn:E0. remember (opened (a :: p) v t) as t0 eqn:E1.
    assert (Ca : cur s0 (a :: p) = Some v) by (subst s0; apply upd_same). assert (Cp0 : cur s0 p = Some pv) by (subst s0; apply Cs; exact Cp).
    pose proof Q0 as [D0 [D1 [D2 D3]]].
    destruct (load b pv) as [vb|e] eqn:LB.
    2: { rewrite <- !D3, Ca, Cp0. destruct (store a v pv) as [w|e']; cbn [fst snd]; (split; [|reflexivity]); [apply eqv_wrote, eqv_put|]; apply eqv_put, Q0. }
    destruct (T b (f vb) pv) as [w1 E3], (T b (g vb) pv) as [w2 E4]. cbn zeta. rewrite E3, E4. cbn [fst snd].
    cbn [wrote put opened cur]. rewrite !upd_same. rewrite !(upd_other _ p _ (a :: p)) by (apply not_eq_sym, self_cons). rewrite !(upd_other _ (b :: p) _ (a :: p)) by congruence.
    rewrite <- !D3, Ca. rewrite (ST _ _ _ _ _ (or_introl eq_refl) LA LB E3), (ST _ _ _ _ _ (or_intror eq_refl) LA LB E4). destruct (T a v pv) as [x ->]. cbn [fst snd].
    split; [|reflexivity]. split; [exact D0|]. split; [exact D1|]. split; [intros _; cbn [wrote put opened cur history]; rewrite (D2 Logic.I); reflexivity|].
    intros k. cbn [fst wrote put opened cur]. unfold upd. destruct (path_eqb k p); [reflexivity|]. destruct (path_eqb k (a :: p)); [reflexivity|].
    destruct (path_eqb k (b :: p)); [reflexivity|apply D3]. }
  rewrite !observe_eq. unfold P_context2.observed. rewrite !(meaning_with (a :: p)). rewrite !no_views_closed, !within_child by apply no_views_closed. cbn [fst snd].
  rewrite !no_views_closed. change (inner a p (meaning (With (b :: p) (Edit 0 f)) [a :: p])) with (F f). change (inner a p (meaning (With (b :: p) (Edit 0 g)) [a :: p])) with (F g).
  destruct (within_rel True p _ _ (F f) (F g) (no_views d) (no_views d) (eqv_refl True _) (fun s t P Q => proj1 (X s t P Q))) as [S1 S2].
  destruct (within p _ (F f) _) as [s1 r1], (within p _ (F g) _) as [t1 r1']. cbn [fst snd] in *. destruct S1 as [-> [-> [SH _]]]. rewrite (SH Logic.I).
  destruct S2 as [[e [-> ->]]|[s0 [t0 [P [Q [-> ->]]]]]]; [reflexivity|]. rewrite (proj2 (X s0 t0 P Q)). reflexivity.
Qed.
(** Views of the same parent that do not touch each other's part can be nested or used one after the other. *)
Definition apart (a b : nat) (f g : V -> V) : Prop :=
  forall pv v, load a pv = Ok v -> exists pa, store a (f v) pv = Ok pa /\ load b pa = load b pv /\
    forall x, load b pv = Ok x -> exists pb pab, store b (g x) pv = Ok pb /\ store b (g x) pa = Ok pab /\ store a (f v) pb = Ok pab.
Lemma apart_views a b p f g d : a <> b -> apart a b f g ->
  let '(_, l1, f1, _) := observe (With p (With (a :: p) (Then (Edit 0 f) (With (b :: p) (Edit 0 g))))) d in
  let '(_, l2, f2, _) := observe (With p (Then (With (a :: p) (Edit 0 f)) (With (b :: p) (Edit 0 g)))) d in l1 = l2 /\ f1 = f2.
Proof.
  intros NE AP. assert (NB : b :: p <> a :: p) by congruence. assert (NB' : a :: p <> b :: p) by congruence.
  pose proof (self_cons a p) as Sa. pose proof (self_cons b p) as Sb.
  set (x := With (a :: p) (Then (Edit 0 f) (With (b :: p) (Edit 0 g)))). set (y := Then (With (a :: p) (Edit 0 f)) (With (b :: p) (Edit 0 g))).
  assert (X : forall s t, pre p (no_views d) s -> eqv False s t -> eqv False (fst (meaning x [p] s)) (fst (meaning y [p] t))).
  { intros s t P Q. pose proof Q as [D0 [D1 [D2 D3]]]. destruct (open_cur _ _ (proj1 P)) as [pv Cp].
    assert (OA : is_open (a :: p) s = false) by (eapply pre_closed; [exact P|reflexivity]).
    assert (OB : is_open (b :: p) s = false) by (eapply pre_closed; [exact P|reflexivity]).
    assert (OAt : is_open (a :: p) t = false) by (rewrite <- (eqv_open False _ _ _ Q); exact OA).
    assert (OBt : is_open (b :: p) t = false) by (rewrite <- (eqv_open False _ _ _ Q); exact OB).
    assert (Ct : cur t p = Some pv) by (rewrite <- D3; exact Cp).
    change (meaning y [p] t) with (let (s, r) := meaning (With (a :: p) (Edit 0 f)) [p] t in match r with Some e => (s, Some e) | None => meaning (With (b :: p) (Edit 0 g)) [p] s end).
    rewrite (edit_child a p f _ t pv Ct OAt). unfold x. rewrite (with_child a p _ _ s (proj1 P) OA). unfold step, P_context2.inner. rewrite Cp.
    destruct (load a pv) as [v|e] eqn:LA; [|exact Q]. destruct (AP pv v LA) as [pa [E1 [L1 AP1]]]. rewrite E1. cbn zeta.
    set (t1 := wrote (a :: p) (put p (Some pa) (put (a :: p) None (put (a :: p) (Some (f v)) (opened (a :: p) v t))))).
    change (meaning (Then (Edit 0 f) (With (b :: p) (Edit 0 g))) ((a :: p) :: [p]) (opened (a :: p) v s)) with
      (meaning (With (b :: p) (Edit 0 g)) [a :: p; p] (match cur (opened (a :: p) v s) (a :: p) with Some v0 => put (a :: p) (Some (f v0)) (opened (a :: p) v s) | None => opened (a :: p) v s end)).
    change (cur (opened (a :: p) v s) (a :: p)) with (upd (cur s) (a :: p) (Some v) (a :: p)). rewrite upd_same.
    set (s1 := put (a :: p) (Some (f v)) (opened (a :: p) v s)).
    assert (C1 : cur s1 p = Some pv) by (unfold s1; cbn [put opened cur]; rewrite !upd_other by exact Sa; exact Cp).
    assert (C2 : cur t1 p = Some pa) by (unfold t1; cbn [wrote put opened cur]; apply upd_same).
    assert (O1 : is_open (b :: p) s1 = false) by (unfold s1; rewrite is_open_put, is_open_opened, !path_eqb_neq by exact NB; exact OB).
    assert (O2 : is_open (b :: p) t1 = false).
    { unfold t1. change (is_open (b :: p) (put p (Some pa) (put (a :: p) None (put (a :: p) (Some (f v)) (opened (a :: p) v t)))) = false).
      rewrite !is_open_put, is_open_opened, !(path_eqb_neq (b :: p) (a :: p)) by exact NB. rewrite path_eqb_neq by (apply not_eq_sym; exact Sb). exact OBt. }
    rewrite (edit_child b p g _ s1 pv C1 O1), (edit_child b p g _ t1 pa C2 O2). rewrite L1.
    assert (C3 : cur s1 (a :: p) = Some (f v)) by (unfold s1; cbn [put opened cur]; apply upd_same).
    destruct (load b pv) as [vb|e].
    2: { cbn [fst snd]. rewrite C1, C3, E1. cbn [fst]. split; [exact D0|]. split; [exact D1|]. split; [contradiction|].
         intros k. unfold s1, t1. cbn [wrote put opened cur]. unfold upd. destruct (path_eqb k p); [reflexivity|]. destruct (path_eqb k (a :: p)); [reflexivity|apply D3]. }
    cbn zeta. destruct (AP1 vb eq_refl) as [pb [pab [E2 [E3 E4]]]]. rewrite E2, E3. cbn [fst snd].
    cbn [wrote put opened cur]. rewrite upd_same. rewrite (upd_other _ p _ (a :: p)) by (apply not_eq_sym; exact Sa).
    rewrite !(upd_other _ (b :: p) _ (a :: p)) by exact NB'. rewrite C3, E4. cbn [fst].
    split; [exact D0|]. split; [exact D1|]. split; [contradiction|].
    intros k. unfold s1, t1. cbn [wrote put opened cur]. unfold upd. destruct (path_eqb k p); [reflexivity|].
    destruct (path_eqb k (b :: p)) eqn:Eb; destruct (path_eqb k (a :: p)) eqn:Ea; try reflexivity. apply D3. }
  destruct (within_rel False p _ _ (meaning x [p]) (meaning y [p]) (no_views d) (no_views d) (eqv_refl False _) X) as [S1 _].
  rewrite !observe_eq. unfold P_context2.observed. rewrite !(meaning_with p). cbv beta iota zeta.
  destruct S1 as [-> [-> _]]. split; reflexivity.
Qed.
(** * A KeyError inside a view that is open already *)
Lemma key_error_lost k b d : observe (With k (Then (With k (Raise KeyError)) b)) d = observe (With k b) d.
Proof.
  assert (X : forall s t, is_open k s = true -> eqv True s t ->
    eqv True (fst (meaning (Then (With k (Raise KeyError)) b) [k] s)) (fst (meaning b [k] t)) /\
    snd (meaning (Then (With k (Raise KeyError)) b) [k] s) = snd (meaning b [k] t)).
  { intros s t O Q. change (meaning (Then (With k (Raise KeyError)) b) [k] s) with
      (let (s, r) := meaning (With k (Raise KeyError)) [k] s in match r with Some e => (s, Some e) | None => meaning b [k] s end).
    rewrite meaning_with, O, within_shared by exact O. cbn [fst snd Spec_context.meaning left_shared]. apply meaning_eqv, Q. }
  destruct (within_rel True k _ _ (meaning (Then (With k (Raise KeyError)) b) [k]) (meaning b [k]) (no_views d) (no_views d) (eqv_refl True _)
    (fun s t P Q => proj1 (X s t (proj1 P) Q))) as [S1 S2].
  apply eqv_observed; rewrite !meaning_with; cbn [fst snd]; [exact S1|].
  destruct S2 as [[e [-> ->]]|[s0 [t0 [P [Q [-> ->]]]]]]; [reflexivity|]. rewrite (proj2 (X s0 t0 (proj1 P) Q)). reflexivity.
Qed.
End Context.
