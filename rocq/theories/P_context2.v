(** Consequences of the refinement of views. *)
From Coq Require Import Arith List Bool Lia.
From Verif Require Import PyStr M_context Spec_context P_context.
Import ListNotations.

Section Context.
Context {V : Type} (load : nat -> V -> result V) (store : nat -> V -> V -> result V) (autosave : bool).
Notation views := (@views V).
Notation prog := (@prog V).
Notation within := (within load store autosave).
Notation meaning := (meaning load store autosave).
Notation observe := (observe load store autosave).

(** * Observations follow the specification *)
Definition observed (p : prog) (d : V) : option exn * option V * option V * list event :=
  let (s, r) := meaning p [] (no_views d) in (r, Some (doc s), saved s, history s).
Lemma observe_eq p d : observe p d = observed p d.
Proof.
  unfold Spec_context.observe, observed. pose proof (refinement load store autosave p d) as H.
  destruct (run load store autosave p [] (initial d)) as [m r]. destruct (meaning p [] (no_views d)) as [s r'].
  destruct H as [-> [-> [-> [-> _]]]]. reflexivity.
Qed.

(** * [within] *)
Definition inner n p {A} (b : views -> views * A) (s : views) : views * inside A :=
  match cur s p with
  | None => (s, Not_loaded _ OtherError)
  | Some pv =>
      match load n pv with
      | Err e => (s, Not_loaded _ e)
      | Ok v =>
          let (s, a) := b (opened (n :: p) v s) in
          match cur s (n :: p), cur s p with
          | Some v', Some pv' =>
              match store n v' pv' with
              | Ok w => (wrote (n :: p) (put p (Some w) (put (n :: p) None s)), Finished _ a None)
              | Err e => (put (n :: p) None s, Finished _ a (Some e))
              end
          | _, _ => (s, Not_loaded _ OtherError)
          end
      end
  end.
Definition outer {A} (shared : bool) (r : result (inside A)) : result A :=
  match r with
  | Err e => Err e
  | Ok (Not_loaded _ e) => Err (if shared && key_error e then StopIteration else e)
  | Ok (Finished _ a None) => Ok a
  | Ok (Finished _ a (Some e)) => if shared && key_error e then Ok a else Err e
  end.
Lemma within_shared k A b s : is_open k s = true -> within k A b s = (fst (b s), Ok (snd (b s))).
Proof. destruct k as [|n p]; intros E; cbn [Spec_context.within]; rewrite E; destruct (b s); reflexivity. Qed.
Lemma within_root A b s : is_open [] s = false -> within [] A b s = (closed_root autosave (fst (b (opened [] (doc s) s))), Ok (snd (b (opened [] (doc s) s)))).
Proof. intros E. cbn [Spec_context.within]. rewrite E. destruct (b _); reflexivity. Qed.
Lemma within_child n p A b s : is_open (n :: p) s = false ->
  within (n :: p) A b s = (fst (within p _ (inner n p b) s), outer (is_open p s) (snd (within p _ (inner n p b) s))).
Proof.
  intros E. cbn [Spec_context.within]. rewrite E. change (within p (inside A) _ s) with (within p (inside A) (inner n p b) s).
  destruct (within p (inside A) (inner n p b) s) as [s' r]. reflexivity.
Qed.

(** The state left behind does not depend on the outcome of the body. *)
Lemma within_state k : forall A A' (b : views -> views * A) (b' : views -> views * A') s, (forall s, fst (b s) = fst (b' s)) ->
  fst (within k A b s) = fst (within k A' b' s) /\
  ((exists e, snd (within k A b s) = Err e /\ snd (within k A' b' s) = Err e) \/
   exists s0, snd (within k A b s) = Ok (snd (b s0)) /\ snd (within k A' b' s) = Ok (snd (b' s0))).
Proof.
  induction k as [|n p IH]; intros A A' b b' s E.
  - destruct (is_open [] s) eqn:O.
    + rewrite !within_shared by exact O. cbn [fst snd]. split; [apply E|]. right. exists s. split; reflexivity.
    + rewrite !within_root by exact O. cbn [fst snd]. rewrite E. split; [reflexivity|]. right. eexists. split; reflexivity.
  - destruct (is_open (n :: p) s) eqn:O.
    + rewrite !within_shared by exact O. cbn [fst snd]. split; [apply E|]. right. exists s. split; reflexivity.
    + rewrite !within_child by exact O. cbn [fst snd].
      assert (G : forall s, fst (inner n p b s) = fst (inner n p b' s) /\
        ((exists e, snd (inner n p b s) = Not_loaded _ e /\ snd (inner n p b' s) = Not_loaded _ e) \/
         exists s0 f, snd (inner n p b s) = Finished _ (snd (b s0)) f /\ snd (inner n p b' s) = Finished _ (snd (b' s0)) f)).
      { clear -E. intros s. unfold inner. destruct (cur s p) as [pv|]; [|cbn; eauto].
        destruct (load n pv) as [v|e]; [|cbn; eauto]. pose proof (E (opened (n :: p) v s)) as E1.
        remember (opened (n :: p) v s) as s0. destruct (b s0) as [s1 a] eqn:B1, (b' s0) as [s1' a'] eqn:B2. cbn [fst] in E1. subst s1'.
        destruct (cur s1 (n :: p)) as [v'|]; [|cbn; eauto]. destruct (cur s1 p) as [pv'|]; [|cbn; eauto].
        destruct (store n v' pv') as [w|e]; (split; [reflexivity|]; right; exists s0); rewrite B1, B2; eexists; split; reflexivity. }
      destruct (IH _ _ (inner n p b) (inner n p b') s (fun s => proj1 (G s))) as [S1 S2]. split; [exact S1|].
      destruct S2 as [[e [-> ->]]|[s0 [-> ->]]]; [left; exists e; split; reflexivity|].
      destruct (proj2 (G s0)) as [[e [-> ->]]|[s1 [f [-> ->]]]]; cbn [outer].
      * left. eexists. split; reflexivity.
      * destruct f as [e|]; [|right; exists s1; split; reflexivity].
        destruct (is_open p s && key_error e); [right; exists s1; split; reflexivity|left; exists e; split; reflexivity].
Qed.
Lemma within_ext k A (b b' : views -> views * A) s : (forall s, b s = b' s) -> within k A b s = within k A b' s.
Proof.
  revert A b b' s. induction k as [|n p IH]; intros A b b' s E.
  - destruct (is_open [] s) eqn:O; [rewrite !within_shared by exact O|rewrite !within_root by exact O]; rewrite !E; reflexivity.
  - destruct (is_open (n :: p) s) eqn:O; [rewrite !within_shared by exact O; rewrite !E; reflexivity|].
    rewrite !within_child by exact O. rewrite (IH _ (inner n p b) (inner n p b')); [reflexivity|].
    clear -E. intros s. unfold inner. destruct (cur s p) as [pv|]; [|reflexivity]. destruct (load n pv); [|reflexivity]. rewrite E. reflexivity.
Qed.

(** An exception in the body of a [with]. *)
Lemma exception_writes k p e d : let '(r, l, f, h) := observe (With k p) d in
  exists r', observe (With k (Then p (Raise e))) d = (r', l, f, h) /\ (r = None -> r' = Some e).
Proof.
  rewrite !observe_eq. unfold observed. cbn [Spec_context.meaning].
  destruct (within_state k _ _ (meaning p [k]) (fun s => let (s0, r) := meaning p [k] s in match r with Some e0 => (s0, Some e0) | None => (s0, Some e) end) (no_views d)) as [S1 S2].
  { intros s. destruct (meaning p [k] s) as [s' [e'|]]; reflexivity. }
  destruct (within k (option exn) (meaning p [k]) (no_views d)) as [s1 r1].
  destruct (within k (option exn) _ (no_views d)) as [s2 r2]. cbn [fst snd] in *. subst s2.
  eexists. split; [reflexivity|]. assert (X : is_open k (no_views d) = false) by (destruct k; reflexivity).
  rewrite X. destruct S2 as [[e0 [-> ->]]|[s0 [-> ->]]]; [discriminate|].
  destruct (meaning p [k] s0) as [s' [e'|]]; cbn [snd]; unfold left_shared.
  - destruct e'; discriminate.
  - destruct e; reflexivity.
Qed.

(** * Moving programs *)
Lemma merged_meaning p : forall e1 k e2 s, meaning (merged (length e1) p) (e1 ++ k :: e2) s = meaning p (e1 ++ k :: k :: e2) s.
Proof.
  induction p as [|i f|e|p1 IH1 p2 IH2|p1 IH1 p2 IH2|k' p IH]; intros e1 k e2 s; cbn [merged Spec_context.meaning]; try reflexivity.
  - replace (nth_error (e1 ++ k :: e2) (if Nat.leb i (length e1) then i else pred i)) with (nth_error (e1 ++ k :: k :: e2) i); [reflexivity|].
    destruct (Nat.leb_spec i (length e1)) as [L|L].
    + destruct (Nat.eq_dec i (length e1)) as [->|N]; [rewrite !nth_error_app2 by lia; rewrite Nat.sub_diag; reflexivity|].
      rewrite !nth_error_app1 by lia. reflexivity.
    + rewrite !nth_error_app2 by lia. destruct (i - length e1) as [|j] eqn:J; [lia|]. replace (pred i - length e1) with j by lia. reflexivity.
  - rewrite IH1. destruct (meaning p1 _ s) as [s' [e|]]; [reflexivity|apply IH2].
  - rewrite IH1. destruct (meaning p1 _ s) as [s' [e|]]; [apply IH2|reflexivity].
  - rewrite (within_ext k' _ _ (meaning p (k' :: e1 ++ k :: k :: e2))); [reflexivity|]. intros s'. apply (IH (k' :: e1)).
Qed.
Lemma lifted_meaning p : forall e1 k e2 s, meaning (lifted (length e1) p) (e1 ++ k :: e2) s = meaning p (e1 ++ e2) s.
Proof.
  induction p as [|i f|e|p1 IH1 p2 IH2|p1 IH1 p2 IH2|k' p IH]; intros e1 k e2 s; cbn [lifted Spec_context.meaning]; try reflexivity.
  - replace (nth_error (e1 ++ k :: e2) (if Nat.ltb i (length e1) then i else S i)) with (nth_error (e1 ++ e2) i); [reflexivity|].
    destruct (Nat.ltb_spec i (length e1)) as [L|L].
    + rewrite !nth_error_app1 by lia. reflexivity.
    + rewrite !nth_error_app2 by lia. replace (S i - length e1) with (S (i - length e1)) by lia. reflexivity.
  - rewrite IH1. destruct (meaning p1 _ s) as [s' [e|]]; [reflexivity|apply IH2].
  - rewrite IH1. destruct (meaning p1 _ s) as [s' [e|]]; [apply IH2|reflexivity].
  - rewrite (within_ext k' _ _ (meaning p (k' :: e1 ++ e2))); [reflexivity|]. intros s'. apply (IH (k' :: e1)).
Qed.
(** * Open views, and the log *)
Definition total : Prop := forall n v pv, exists w, store n v pv = Ok w.
Definition open_in (ctx : list path) (s : views) : Prop := forall k, In k ctx <-> is_open k s = true.
Definition good {A} (b : views -> views * A) (s : views) : Prop :=
  (forall k', is_open k' (fst (b s)) = is_open k' s) /\
  (total -> exists l, history (fst (b s)) = history s ++ l /\ forall ctx, open_in ctx s -> nested ctx l).
Lemma nested_app ctx a b : nested ctx a -> nested ctx b -> nested ctx (a ++ b).
Proof.
  induction 1 as [|ctx k l1 l2 N P H1 IH1 H2 IH2]; intros B; [exact B|]. cbn [app]. rewrite <- app_assoc. cbn [app].
  constructor; auto.
Qed.
Lemma open_cur k (s : views) : is_open k s = true -> exists v, cur s k = Some v.
Proof. unfold is_open. destruct (cur s k) as [v|]; [exists v; reflexivity|discriminate]. Qed.
Lemma is_open_opened k v (s : views) k' : is_open k' (opened k v s) = if path_eqb k' k then true else is_open k' s.
Proof. unfold is_open, opened, upd. cbn [cur]. destruct (path_eqb k' k); reflexivity. Qed.
Lemma is_open_put k v (s : views) k' : is_open k' (put k v s) = if path_eqb k' k then (match v with Some _ => true | None => false end) else is_open k' s.
Proof. unfold is_open, put, upd. cbn [cur]. destruct (path_eqb k' k); reflexivity. Qed.
Lemma open_in_opened ctx k v (s : views) : open_in ctx s -> open_in (k :: ctx) (opened k v s).
Proof.
  intros O k'. cbn [In]. rewrite is_open_opened. destruct (path_eqb k' k) eqn:E.
  - unfold path_eqb in E. destruct (list_eq_dec _ k' k); [|discriminate]. subst. split; auto.
  - unfold path_eqb in E. destruct (list_eq_dec _ k' k); [discriminate|]. rewrite (O k'). split; [intros [->|H]; [congruence|exact H]|auto].
Qed.
Lemma open_closed ctx k (s : views) : open_in ctx s -> is_open k s = false -> ~ In k ctx.
Proof. intros O E I. apply O in I. congruence. Qed.
Lemma within_good k : forall A (b : views -> views * A) s,
  (forall s', is_open k s' = true -> (forall k', is_open k' s = false -> ~ anc k' k -> is_open k' s' = false) -> good b s') -> good (within k A b) s.
Proof.
  induction k as [|n p IH]; intros A b s B.
  - destruct (is_open [] s) eqn:O.
    + assert (G : good b s) by (apply B; auto). unfold good. rewrite within_shared by exact O. exact G.
    + set (s0 := opened [] (doc s) s). assert (G : good b s0).
      { apply B; unfold s0; [rewrite is_open_opened, path_eqb_refl; reflexivity|]. intros k' O' N. rewrite is_open_opened.
        rewrite path_eqb_neq; [exact O'|]. intros ->. apply N. exists []. reflexivity. }
      unfold good. rewrite within_root by exact O. fold s0. cbn [fst]. destruct G as [G1 G2].
      assert (O1 : is_open [] (fst (b s0)) = true) by (rewrite G1; unfold s0; rewrite is_open_opened, path_eqb_refl; reflexivity).
      destruct (open_cur _ _ O1) as [v Cv]. unfold closed_root. rewrite Cv. split.
      * intros k'. unfold is_open at 1, upd. cbn [cur]. destruct (path_eqb k' []) eqn:E.
        -- unfold path_eqb in E. destruct (list_eq_dec _ k' []); [|discriminate]. subst. symmetry. exact O.
        -- fold (is_open k' (fst (b s0))). rewrite G1. unfold s0. rewrite is_open_opened, E. reflexivity.
      * intros T. destruct (G2 T) as [l [H N]]. cbn [history]. rewrite H. exists (Loaded [] :: l ++ [Stored []]). split.
        -- unfold s0. cbn [opened history]. rewrite <- !app_assoc. reflexivity.
        -- intros ctx C. constructor; [exact (open_closed _ _ _ C O)|discriminate| |constructor]. apply N. apply open_in_opened. exact C.
  - destruct (is_open (n :: p) s) eqn:O.
    + assert (G : good b s) by (apply B; auto). unfold good. rewrite within_shared by exact O. exact G.
    + unfold good. rewrite within_child by exact O. cbn [fst]. apply IH. intros s' P N.
      assert (O' : is_open (n :: p) s' = false).
      { apply N; [exact O|]. intros [l E]. assert (length p = length l + S (length p)) by (rewrite E at 1; rewrite app_length; reflexivity). lia. }
      unfold good, inner. destruct (open_cur _ _ P) as [pv Cp]. rewrite Cp.
      destruct (load n pv) as [v|e].
      2: { cbn [fst]. split; [reflexivity|]. intros _. exists []. rewrite app_nil_r. split; [reflexivity|]. constructor. }
      set (s0 := opened (n :: p) v s'). assert (NP : p <> n :: p) by (intros E; apply (f_equal (@length nat)) in E; cbn in E; lia).
      assert (G : good b s0).
      { apply B; unfold s0; [rewrite is_open_opened, path_eqb_refl; reflexivity|]. intros k' Ok' Nk. rewrite is_open_opened.
        rewrite path_eqb_neq; [|intros ->; apply Nk; exists []; reflexivity]. apply N; [exact Ok'|]. intros [l E]. apply Nk. exists (n :: l). rewrite E. reflexivity. }
      destruct G as [G1 G2]. destruct (b s0) as [s1 a]. cbn [fst] in G1, G2.
      assert (O1 : is_open (n :: p) s1 = true) by (rewrite G1; unfold s0; rewrite is_open_opened, path_eqb_refl; reflexivity).
      assert (O2 : is_open p s1 = true) by (rewrite G1; unfold s0; rewrite is_open_opened, path_eqb_neq by exact NP; exact P).
      destruct (open_cur _ _ O1) as [v1 Cv]. destruct (open_cur _ _ O2) as [pv1 Cp1]. rewrite Cv, Cp1.
      assert (K : forall k', is_open k' (put (n :: p) None s1) = is_open k' s').
      { intros k'. rewrite is_open_put. destruct (path_eqb k' (n :: p)) eqn:E.
        - unfold path_eqb in E. destruct (list_eq_dec _ k' (n :: p)); [|discriminate]. subst. symmetry. exact O'.
        - rewrite G1. unfold s0. rewrite is_open_opened, E. reflexivity. }
      destruct (store n v1 pv1) as [w|e] eqn:S.
      2: { cbn [fst]. split; [exact K|]. intros T. destruct (T n v1 pv1) as [w S']. congruence. }
      cbn [fst]. split.
      * intros k'. change (is_open k' (put p (Some w) (put (n :: p) None s1)) = is_open k' s'). rewrite is_open_put.
        destruct (path_eqb k' p) eqn:E; [|apply K]. unfold path_eqb in E. destruct (list_eq_dec _ k' p); [|discriminate]. subst. symmetry. exact P.
      * intros T. destruct (G2 T) as [l [H Nl]]. cbn [wrote put history]. rewrite H. exists (Loaded (n :: p) :: l ++ [Stored (n :: p)]). split.
        -- unfold s0. cbn [opened history]. rewrite <- !app_assoc. reflexivity.
        -- intros ctx C. constructor; [exact (open_closed _ _ _ C O')| | |constructor].
           ++ intros n' p' E. injection E as <- <-. apply C. exact P.
           ++ apply Nl. apply open_in_opened. exact C.
Qed.
Lemma open_in_ext ctx (s s' : views) : (forall k, is_open k s' = is_open k s) -> open_in ctx s -> open_in ctx s'.
Proof. intros E O k. rewrite E. apply O. Qed.
Lemma meaning_good p : forall env s, good (meaning p env) s.
Proof.
  induction p as [|i f|e|p1 IH1 p2 IH2|p1 IH1 p2 IH2|k p IH]; intros env s.
  - split; [reflexivity|]. intros _. exists []. cbn. rewrite app_nil_r. split; [reflexivity|]. constructor.
  - unfold good. cbn [Spec_context.meaning]. destruct (nth_error env i) as [k|].
    + destruct (cur s k) as [v|] eqn:C; cbn [fst].
      * split; [|intros _; exists []; cbn; rewrite app_nil_r; split; [reflexivity|constructor]].
        intros k'. rewrite is_open_put. destruct (path_eqb k' k) eqn:E; [|reflexivity]. unfold path_eqb in E. destruct (list_eq_dec _ k' k); [|discriminate].
        subst. unfold is_open. rewrite C. reflexivity.
      * split; [reflexivity|]. intros _. exists []. rewrite app_nil_r. split; [reflexivity|]. constructor.
    + split; [reflexivity|]. intros _. exists []. cbn. rewrite app_nil_r. split; [reflexivity|]. constructor.
  - split; [reflexivity|]. intros _. exists []. cbn. rewrite app_nil_r. split; [reflexivity|]. constructor.
  - destruct (IH1 env s) as [A1 A2]. unfold good. cbn [Spec_context.meaning]. destruct (meaning p1 env s) as [s1 [e|]]; cbn [fst] in A1, A2 |- *; [split; assumption|].
    destruct (IH2 env s1) as [B1 B2]. split; [intros k'; rewrite B1; apply A1|]. intros T. destruct (A2 T) as [l [H N]]. destruct (B2 T) as [l' [H' N']].
    exists (l ++ l'). rewrite H', H, app_assoc. split; [reflexivity|]. intros ctx C. apply nested_app; [apply N, C|]. apply N'. exact (open_in_ext _ _ _ A1 C).
  - destruct (IH1 env s) as [A1 A2]. unfold good. cbn [Spec_context.meaning]. destruct (meaning p1 env s) as [s1 [e|]]; cbn [fst] in A1, A2 |- *; [|split; assumption].
    destruct (IH2 env s1) as [B1 B2]. split; [intros k'; rewrite B1; apply A1|]. intros T. destruct (A2 T) as [l [H N]]. destruct (B2 T) as [l' [H' N']].
    exists (l ++ l'). rewrite H', H, app_assoc. split; [reflexivity|]. intros ctx C. apply nested_app; [apply N, C|]. apply N'. exact (open_in_ext _ _ _ A1 C).
  - unfold good. cbn [Spec_context.meaning]. pose proof (within_good k _ (meaning p (k :: env)) s (fun s' _ _ => IH (k :: env) s')) as G.
    unfold good in G. destruct (within k (option exn) (meaning p (k :: env)) s) as [s' r]. exact G.
Qed.
Lemma log_nested p d : total -> nested [] (snd (observe p d)).
Proof.
  intros T. rewrite observe_eq. unfold observed. destruct (meaning_good p [] (no_views d)) as [_ G]. destruct (G T) as [l [H N]].
  destruct (meaning p [] (no_views d)) as [s r]. cbn [fst snd] in *. rewrite H. cbn. apply N. intros k. cbn. split; [intros []|discriminate].
Qed.
End Context.
