(** Proofs about deep copies. *)
From Coq Require Import Ascii String.
From Coq Require Import NArith List Bool Arith Lia.
From Verif Require Import PyStr PyStrFacts M_deepcopy Spec_deepcopy.
Import ListNotations.

(** ** Lists *)
Lemma set_at_length {A} : forall i (x : A) l, length (set_at i x l) = length l.
Proof. induction i as [|i IH]; intros x [|y l]; cbn; try reflexivity. rewrite IH. reflexivity. Qed.
Lemma set_at_same {A} : forall i (x : A) l, (i < length l)%nat -> nth_error (set_at i x l) i = Some x.
Proof. induction i as [|i IH]; intros x [|y l] H; cbn in *; try lia; [reflexivity|]. apply IH. lia. Qed.
Lemma set_at_other {A} : forall i j (x : A) l, i <> j -> nth_error (set_at i x l) j = nth_error l j.
Proof.
  induction i as [|i IH]; intros [|j] x [|y l] H; cbn; try reflexivity; try congruence. apply IH. congruence.
Qed.
Lemma index_of_some : forall n memo i, index_of n memo = Some i -> nth_error memo i = Some n.
Proof.
  intros n memo. induction memo as [|m memo IH]; intros i H; cbn in H; [discriminate|].
  destruct (Nat.eqb_spec m n) as [->|E].
  - injection H as <-. reflexivity.
  - destruct (index_of n memo) as [j|] eqn:Ej; [|discriminate]. injection H as <-. cbn. apply IH. reflexivity.
Qed.
Lemma index_of_none : forall n memo, index_of n memo = None -> ~ In n memo.
Proof.
  intros n memo. induction memo as [|m memo IH]; intros H; cbn in *; [tauto|].
  destruct (Nat.eqb_spec m n) as [->|E]; [discriminate|]. destruct (index_of n memo); [discriminate|]. intros [X|X]; [congruence|]. apply IH; auto.
Qed.

(** ** The rule *)
Lemma rule_contextual : forall c k, contextual c k -> rule c k = Shared.
Proof. intros c k [[-> | ->] ->]; reflexivity. Qed.
Lemma rule_parsed : forall c k, parsed c k -> exists a, rule c k = Reset a /\ (k = lit "spec" -> a = lit "None") /\ (k = lit "tainted" -> a = lit "False").
Proof. intros c k [-> [-> | ->]]; eexists; (split; [reflexivity|split; intros X; solve [reflexivity | cbv in X; discriminate X]]). Qed.
Lemma rule_not_parsed : forall c k, not_parsed c k -> forall a, rule c k <> Reset a.
Proof.
  intros c k H a. unfold rule. destruct (_ && str_eqb k context); [discriminate|].
  destruct (str_eqb_spec c (lit "SpecParser")) as [->|]; [|discriminate].
  destruct (str_eqb_spec k (lit "spec")) as [->|]; [exfalso; apply H; split; auto|].
  destruct (str_eqb_spec k (lit "tainted")) as [->|]; [exfalso; apply H; split; auto|]. discriminate.
Qed.
Lemma rule_own : forall c k, own c k -> rule c k = Deep.
Proof.
  intros c k [H1 H2]. pose proof (rule_not_parsed c k H1) as X. unfold rule in *. fold context in *.
  destruct ((str_eqb c (lit "Tag") || str_eqb c (lit "SourcelistEntry")) && str_eqb k context) eqn:E.
  - exfalso. apply H2. apply andb_true_iff in E. destruct E as [E1 E2]. apply str_eqb_eq in E2. split; [|exact E2].
    apply orb_true_iff in E1. destruct E1 as [E1|E1]; apply str_eqb_eq in E1; auto.
  - destruct (str_eqb c (lit "SpecParser") && str_eqb k (lit "spec")); [exfalso; eapply X; reflexivity|].
    destruct (str_eqb c (lit "SpecParser") && str_eqb k (lit "tainted")); [exfalso; eapply X; reflexivity|]. reflexivity.
Qed.

(** ** The copies *)
Section Copy.
  Variable h : list obj.
  (** [v'] is the copy of [v] *)
  Definition copied (memo : list nat) (v v' : value) : Prop :=
    match v, v' with
    | Atom a, Atom b => a = b
    | Ref n, Ref m => exists i, m = (length h + i)%nat /\ nth_error memo i = Some n
    | _, _ => False
    end.
  Definition field_copied (memo : list nat) (class : str) (kv kv' : str * value) : Prop :=
    fst kv' = fst kv /\
    match rule class (fst kv) with
    | Deep => copied memo (snd kv) (snd kv')
    | Shared => snd kv' = snd kv
    | Reset a => snd kv' = Atom a
    end.
  Definition obj_copied (memo : list nat) (o o' : obj) : Prop :=
    o_class o' = o_class o /\ Forall2 (field_copied memo (o_class o)) (o_fields o) (o_fields o').
  Lemma copied_mono : forall memo ext v v', copied memo v v' -> copied (memo ++ ext) v v'.
  Proof.
    intros memo ext [a|n] [b|m]; cbn; try tauto. intros [i [Hm Hi]]. exists i. split; [exact Hm|].
    rewrite nth_error_app1; [exact Hi|]. apply nth_error_Some. congruence.
  Qed.
  Lemma field_copied_mono : forall memo ext c kv kv', field_copied memo c kv kv' -> field_copied (memo ++ ext) c kv kv'.
  Proof.
    intros memo ext c kv kv' [H1 H2]. split; [exact H1|]. destruct (rule c (fst kv)); [|exact H2|exact H2]. apply copied_mono. exact H2.
  Qed.
  Lemma obj_copied_mono : forall memo ext o o', obj_copied memo o o' -> obj_copied (memo ++ ext) o o'.
  Proof.
    intros memo ext o o' [H1 H2]. split; [exact H1|]. induction H2; constructor; [apply field_copied_mono; assumption|assumption].
  Qed.
  (** What a call does to the memo and the copies *)
  Definition step (memo : list nat) (news : list obj) (memo' : list nat) (news' : list obj) : Prop :=
    (exists ext, memo' = memo ++ ext) /\ length news' = length memo' /\ (NoDup memo -> NoDup memo') /\
    (Forall (fun n => (n < length h)%nat) memo -> Forall (fun n => (n < length h)%nat) memo') /\
    (forall i, (i < length memo)%nat -> nth_error news' i = nth_error news i) /\
    (forall i, (length memo <= i < length memo')%nat -> exists n o o', nth_error memo' i = Some n /\ nth_error h n = Some o /\ nth_error news' i = Some o' /\ obj_copied memo' o o').
  Lemma step_refl : forall memo news, length news = length memo -> step memo news memo news.
  Proof.
    intros memo news E. repeat split; auto; [exists []; rewrite app_nil_r; reflexivity|]. intros i Hi. lia.
  Qed.
  Lemma step_trans : forall m1 n1 m2 n2 m3 n3, step m1 n1 m2 n2 -> step m2 n2 m3 n3 -> step m1 n1 m3 n3.
  Proof.
    intros m1 n1 m2 n2 m3 n3 [[e1 E1] [L1 [D1 [B1 [O1 C1]]]]] [[e2 E2] [L2 [D2 [B2 [O2 C2]]]]].
    repeat split; auto.
    - exists (e1 ++ e2). subst. rewrite app_assoc. reflexivity.
    - intros i Hi. rewrite O2, O1; auto. subst m2. rewrite app_length. lia.
    - intros i Hi. destruct (le_lt_dec (length m2) i) as [G|G].
      + apply C2. lia.
      + destruct (C1 i) as [n [o [o' [X1 [X2 [X3 X4]]]]]]; [lia|]. exists n, o, o'. repeat split.
        * subst m3. rewrite nth_error_app1; auto.
        * exact X2.
        * rewrite O2; auto.
        * apply X4.
        * subst m3. apply (obj_copied_mono _ e2 _ _ X4).
  Qed.
  Definition good (copy : list nat -> list obj -> value -> option (list nat * list obj * value)) : Prop :=
    forall memo news v memo' news' v', length news = length memo -> copy memo news v = Some (memo', news', v') -> step memo news memo' news' /\ copied memo' v v'.
  Lemma copy_fields_good : forall copy, good copy -> forall class fields memo news memo' news' fields', length news = length memo ->
    copy_fields copy class fields memo news = Some (memo', news', fields') -> step memo news memo' news' /\ Forall2 (field_copied memo' class) fields fields'.
  Proof.
    intros copy G class. induction fields as [|[k v] fields IH]; intros memo news memo' news' fields' L H; cbn in H.
    - injection H as <- <- <-. split; [apply step_refl; exact L|constructor].
    - destruct (rule class k) as [| |a] eqn:R.
      + destruct (copy memo news v) as [[[m1 n1] v1]|] eqn:E; [|discriminate].
        destruct (copy_fields copy class fields m1 n1) as [[[m2 n2] f2]|] eqn:E2; [|discriminate]. cbn in H. injection H as <- <- <-.
        destruct (G _ _ _ _ _ _ L E) as [S1 C1].
        destruct (IH _ _ _ _ _ (proj1 (proj2 S1)) E2) as [S2 C2].
        split; [exact (step_trans _ _ _ _ _ _ S1 S2)|]. constructor; [|exact C2]. split; [reflexivity|]. cbn. rewrite R.
        destruct S2 as [[e ->] _]. apply copied_mono. exact C1.
      + destruct (copy_fields copy class fields memo news) as [[[m2 n2] f2]|] eqn:E2; [|discriminate]. cbn in H. injection H as <- <- <-.
        destruct (IH _ _ _ _ _ L E2) as [S2 C2]. split; [exact S2|]. constructor; [|exact C2]. split; [reflexivity|]. cbn. rewrite R. reflexivity.
      + destruct (copy_fields copy class fields memo news) as [[[m2 n2] f2]|] eqn:E2; [|discriminate]. cbn in H. injection H as <- <- <-.
        destruct (IH _ _ _ _ _ L E2) as [S2 C2]. split; [exact S2|]. constructor; [|exact C2]. split; [reflexivity|]. cbn. rewrite R. reflexivity.
  Qed.
  Lemma copy_value_good : forall fuel, good (copy_value fuel h).
  Proof.
    induction fuel as [|fuel IH]; intros memo news v memo' news' v' L H; cbn in H.
    - destruct v as [a|n]; [injection H as <- <- <-; split; [apply step_refl; exact L|reflexivity]|].
      destruct (index_of n memo) as [i|] eqn:E; [|discriminate]. injection H as <- <- <-. split; [apply step_refl; exact L|].
      exists i. split; [reflexivity|]. apply index_of_some. exact E.
    - destruct v as [a|n]; [injection H as <- <- <-; split; [apply step_refl; exact L|reflexivity]|].
      destruct (index_of n memo) as [i|] eqn:E; [injection H as <- <- <-; split; [apply step_refl; exact L|]; exists i; split; [reflexivity|]; apply index_of_some; exact E|].
      destruct (nth_error h n) as [o|] eqn:En; [|discriminate].
      destruct (copy_fields (copy_value fuel h) (o_class o) (o_fields o) (memo ++ [n]) (news ++ [mk_obj (o_class o) []])) as [[[m1 n1] f1]|] eqn:Ef; [|discriminate].
      injection H as <- <- <-.
      assert (L1 : length (news ++ [mk_obj (o_class o) []]) = length (memo ++ [n])) by (rewrite !app_length, L; reflexivity).
      destruct (copy_fields_good _ IH _ _ _ _ _ _ _ L1 Ef) as [[[ext E1] [L2 [D [B [O C]]]]] F].
      assert (Lm : (length memo < length m1)%nat) by (subst m1; rewrite !app_length; cbn; lia).
      split.
      + repeat split.
        * exists ([n] ++ ext). subst m1. rewrite <- app_assoc. reflexivity.
        * rewrite set_at_length. exact L2.
        * intros ND. apply D. apply NoDup_rev in ND. rewrite <- (rev_involutive (memo ++ [n])). apply NoDup_rev. rewrite rev_app_distr. cbn. constructor; [|exact ND].
          rewrite <- in_rev. apply index_of_none. exact E.
        * intros FB. apply B. apply Forall_app. split; [exact FB|]. constructor; [|constructor]. apply nth_error_Some. congruence.
        * intros i Hi. rewrite set_at_other by lia. rewrite O by (rewrite app_length; cbn; lia). apply nth_error_app1. lia.
        * intros i Hi. destruct (Nat.eq_dec i (length memo)) as [->|Ne].
          -- exists n, o, (mk_obj (o_class o) f1). repeat split.
             ++ subst m1. rewrite <- app_assoc. rewrite nth_error_app2 by lia. rewrite Nat.sub_diag. reflexivity.
             ++ exact En.
             ++ apply set_at_same. lia.
             ++ exact F.
          -- destruct (C i) as [n' [o1 [o' [X1 [X2 [X3 X4]]]]]]; [rewrite app_length; cbn; lia|]. exists n', o1, o'. split; [exact X1|]. split; [exact X2|].
             split; [rewrite set_at_other by lia; exact X3|exact X4].
      + exists (length memo). split; [reflexivity|]. subst m1. rewrite <- app_assoc. rewrite nth_error_app2 by lia. rewrite Nat.sub_diag. reflexivity.
  Qed.

  (** ** It comes to an end *)
  Hypothesis Hh : closed h.
  Lemma bounded_length : forall memo, NoDup memo -> Forall (fun n => (n < length h)%nat) memo -> (length memo <= length h)%nat.
  Proof.
    intros memo D B. rewrite <- (seq_length (length h) 0). apply NoDup_incl_length; [exact D|]. intros n Hn. apply in_seq. rewrite Forall_forall in B. specialize (B n Hn). lia.
  Qed.
  Lemma copy_fields_total : forall copy bound, good copy ->
    (forall memo news v, length news = length memo -> NoDup memo -> Forall (fun n => (n < length h)%nat) memo -> (bound <= length memo)%nat -> known h v -> copy memo news v <> None) ->
    forall class fields memo news, length news = length memo -> NoDup memo -> Forall (fun n => (n < length h)%nat) memo -> (bound <= length memo)%nat ->
    (forall k v, In (k, v) fields -> known h v) -> copy_fields copy class fields memo news <> None.
  Proof.
    intros copy bound G T class. induction fields as [|[k v] fields IH]; intros memo news L D B Bd K; cbn; [discriminate|].
    destruct (rule class k) as [| |a].
    - destruct (copy memo news v) as [[[m1 n1] v1]|] eqn:E; [|exfalso; exact (T _ _ _ L D B Bd (K k v (or_introl eq_refl)) E)].
      destruct (G _ _ _ _ _ _ L E) as [[[e E1] [L1 [D1 [B1 _]]]] _].
      assert (X : copy_fields copy class fields m1 n1 <> None).
      { apply IH; auto; [subst m1; rewrite app_length; lia|]. intros. eapply K. right. eassumption. }
      destruct (copy_fields copy class fields m1 n1); [discriminate|congruence].
    - assert (X : copy_fields copy class fields memo news <> None) by (apply IH; auto; intros; eapply K; right; eassumption).
      destruct (copy_fields copy class fields memo news); [discriminate|congruence].
    - assert (X : copy_fields copy class fields memo news <> None) by (apply IH; auto; intros; eapply K; right; eassumption).
      destruct (copy_fields copy class fields memo news); [discriminate|congruence].
  Qed.
  Lemma copy_value_total : forall fuel memo news v, length news = length memo -> NoDup memo -> Forall (fun n => (n < length h)%nat) memo ->
    (length h <= length memo + fuel)%nat -> known h v -> copy_value fuel h memo news v <> None.
  Proof.
    induction fuel as [|fuel IH]; intros memo news v L D B Bd K; (destruct v as [a|n]; cbn; [discriminate|]);
      (destruct (index_of n memo) as [i|] eqn:E; [discriminate|]); apply index_of_none in E.
    - exfalso. assert (X : (length (n :: memo) <= length h)%nat) by (apply bounded_length; [constructor; assumption|constructor; assumption]). cbn in X. lia.
    - cbn in K. destruct (nth_error h n) as [o|] eqn:En; [|apply nth_error_None in En; lia].
      assert (X : copy_fields (copy_value fuel h) (o_class o) (o_fields o) (memo ++ [n]) (news ++ [mk_obj (o_class o) []]) <> None).
      { apply (copy_fields_total _ (S (length memo)) (copy_value_good fuel)).
        - intros m2 n2 v2 L2 D2 B2 Bd2 K2. apply IH; auto. lia.
        - rewrite !app_length, L. reflexivity.
        - rewrite <- (rev_involutive (memo ++ [n])). apply NoDup_rev. rewrite rev_app_distr. cbn. constructor; [rewrite <- in_rev; exact E|]. apply NoDup_rev. exact D.
        - apply Forall_app. split; [exact B|]. constructor; [exact K|constructor].
        - rewrite app_length. cbn. lia.
        - intros k v Hv. eapply Hh; [|exact Hv]. eapply nth_error_In. exact En. }
      destruct (copy_fields _ _ _ _ _) as [[[m1 n1] f1]|]; [discriminate|congruence].
  Qed.
  (** ** What is seen *)
  Lemma field_in : forall k o v, field k o = Some v -> In (k, v) (o_fields o).
  Proof.
    intros k o v. unfold field. destruct (find _ (o_fields o)) as [[k' v']|] eqn:E; [|discriminate]. cbn. intros X. injection X as <-.
    apply find_some in E. destruct E as [I E]. cbn in E. apply str_eqb_eq in E. subst. exact I.
  Qed.
  (** The original, in any heap in which its objects are as they were *)
  Lemma follow_old : forall path h2 v, (forall n, (n < length h)%nat -> nth_error h2 n = nth_error h n) -> known h v ->
    follow h2 v path = follow h v path /\ match follow h v path with Some v' => known h v' | None => True end.
  Proof.
    induction path as [|k path IH]; intros h2 v Hs K; cbn; [auto|].
    destruct v as [a|n]; [auto|]. cbn in K. rewrite (Hs n K). destruct (nth_error h n) as [o|] eqn:En; [|auto].
    destruct (field k o) as [v'|] eqn:F; [|auto]. apply IH; [exact Hs|]. eapply Hh; [eapply nth_error_In; exact En|]. apply field_in in F. exact F.
  Qed.
  Lemma observe_old : forall path h2 v, (forall n, (n < length h)%nat -> nth_error h2 n = nth_error h n) -> known h v -> observe h2 v path = observe h v path.
  Proof.
    intros path h2 v Hs K. unfold observe. destruct (follow_old path h2 v Hs K) as [-> X]. destruct (follow h v path) as [[a|n]|]; [reflexivity| |reflexivity].
    cbn in X. rewrite (Hs n X). reflexivity.
  Qed.
  Section Done.
    Variables (memo : list nat) (news : list obj).
    Hypothesis Hdone : step [] [] memo news.
    Lemma find_copied : forall class k l l', Forall2 (field_copied memo class) l l' ->
      match find (fun kv => str_eqb (fst kv) k) l, find (fun kv => str_eqb (fst kv) k) l' with
      | Some kv, Some kv' => fst kv = k /\ field_copied memo class kv kv' | None, None => True | _, _ => False end.
    Proof.
      intros class k l l' F. induction F as [|kv kv' l l' H F IH]; cbn; [exact I|]. destruct H as [H1 H2]. rewrite H1.
      destruct (str_eqb (fst kv) k) eqn:E; [|exact IH]. apply str_eqb_eq in E. repeat split; [exact E|exact H1|exact H2].
    Qed.
    Lemma copy_at : forall h2, (forall i, (i < length news)%nat -> nth_error h2 (length h + i) = nth_error news i) -> forall n m, copied memo (Ref n) (Ref m) ->
      exists o o', nth_error h n = Some o /\ nth_error h2 m = Some o' /\ obj_copied memo o o'.
    Proof.
      intros h2 Hn n m [i [-> Hi]]. destruct Hdone as [_ [L [_ [_ [_ C]]]]].
      assert (Li : (i < length memo)%nat) by (apply nth_error_Some; congruence).
      destruct (C i) as [n' [o [o' [X1 [X2 [X3 X4]]]]]]; [cbn; lia|]. rewrite Hi in X1. injection X1 as <-. exists o, o'. split; [exact X2|].
      rewrite Hn by lia. split; [exact X3|exact X4].
    Qed.
    (** Along paths of copied attributes, in any heap in which the new objects are as they were *)
    Lemma follow_deep : forall h2, (forall i, (i < length news)%nat -> nth_error h2 (length h + i) = nth_error news i) -> forall path v v', copied memo v v' ->
      path_of own h v path ->
      match follow h v path, follow h2 v' path with Some x, Some x' => copied memo x x' | None, None => True | _, _ => False end.
    Proof.
      intros h2 Hn. induction path as [|k path IH]; intros v v' Hc Hp; cbn; [exact Hc|].
      destruct v as [a|n], v' as [b|m]; try (cbn in Hc; tauto).
      destruct (copy_at h2 Hn n m Hc) as [o [o' [E1 [E2 [Ec Ef]]]]]. cbn in Hp. rewrite E1 in *. rewrite E2. destruct Hp as [Hd Hp].
      pose proof (find_copied _ k _ _ Ef) as X. unfold field in *.
      destruct (find _ (o_fields o)) as [kv|], (find _ (o_fields o')) as [kv'|]; cbn in *; try tauto.
      destruct X as [Ek [_ X]]. rewrite Ek in X. rewrite (rule_own _ _ Hd) in X. apply IH; assumption.
    Qed.
    Lemma observe_deep : forall h2, (forall i, (i < length news)%nat -> nth_error h2 (length h + i) = nth_error news i) -> forall path v v', copied memo v v' ->
      path_of own h v path -> observe h2 v' path = observe h v path.
    Proof.
      intros h2 Hn path v v' Hc Hp. pose proof (follow_deep h2 Hn path v v' Hc Hp) as X. unfold observe.
      destruct (follow h v path) as [[a|n]|], (follow h2 v' path) as [[b|m]|]; cbn in X; try tauto; try congruence.
      destruct (copy_at h2 Hn n m X) as [o [o' [E1 [E2 [Ec _]]]]]. rewrite E1, E2. cbn. rewrite Ec. reflexivity.
    Qed.
    (** Along any path that reads no attribute that is set anew *)
    Lemma observe_copy : forall path v v', copied memo v v' -> known h v -> path_of not_parsed h v path -> observe (h ++ news) v' path = observe h v path.
    Proof.
      assert (Hn : forall i, (i < length news)%nat -> nth_error (h ++ news) (length h + i) = nth_error news i).
      { intros i Hi. rewrite nth_error_app2 by lia. f_equal. lia. }
      assert (Hs : forall n, (n < length h)%nat -> nth_error (h ++ news) n = nth_error h n) by (intros; apply nth_error_app1; assumption).
      induction path as [|k path IH]; intros v v' Hc K Hp; [apply (observe_deep _ Hn [] _ _ Hc); exact I|].
      destruct v as [a|n], v' as [b|m]; try (cbn in Hc; tauto); try reflexivity.
      destruct (copy_at _ Hn n m Hc) as [o [o' [E1 [E2 [Ec Ef]]]]]. cbn in Hp. rewrite E1 in Hp. destruct Hp as [Hd Hp].
      pose proof (find_copied _ k _ _ Ef) as X. unfold observe. cbn [follow]. rewrite E1, E2.
      pose proof (field_in k o) as FI. unfold field in *.
      destruct (find _ (o_fields o)) as [kv|], (find _ (o_fields o')) as [kv'|]; cbn in *; try tauto.
      destruct X as [Ek [_ X]]. rewrite Ek in X.
      assert (Kv : known h (snd kv)) by (eapply Hh; [eapply nth_error_In; exact E1|apply FI; reflexivity]).
      pose proof (rule_not_parsed _ _ Hd) as NR.
      destruct (rule (o_class o) k) as [| |a] eqn:R; [exact (IH _ _ X Kv Hp)| |destruct (NR a eq_refl)].
      rewrite X. apply (observe_old path _ _ Hs Kv).
    Qed.
  End Done.
End Copy.

(** ** All together *)
Lemma deepcopy_done : forall fuel h v h' v', deepcopy fuel h v = Some (h', v') -> exists memo news, h' = h ++ news /\ step h [] [] memo news /\ copied h memo v v'.
Proof.
  intros fuel h v h' v' H. unfold deepcopy in H. destruct (copy_value fuel h [] [] v) as [[[m n] x]|] eqn:E; [|discriminate]. injection H as <- <-.
  exists m, n. split; [reflexivity|]. apply (copy_value_good h fuel [] [] v m n x eq_refl E).
Qed.
Theorem deepcopy_total : forall h v, closed h -> known h v -> exists h' v', deepcopy (length h) h v = Some (h', v').
Proof.
  intros h v C K. unfold deepcopy. pose proof (copy_value_total h C (length h) [] [] v eq_refl (NoDup_nil _) (Forall_nil _) (le_n _) K) as X.
  destruct (copy_value _ h [] [] v) as [[[m n] x]|]; [|congruence]. eauto.
Qed.
Theorem deepcopy_equal : forall fuel h v h' v', closed h -> known h v -> deepcopy fuel h v = Some (h', v') -> forall path, path_of not_parsed h v path ->
  observe h' v' path = observe h v path.
Proof.
  intros fuel h v h' v' C K H path Hp. destruct (deepcopy_done _ _ _ _ _ H) as [m [n [-> [S1 Hc]]]]. eapply observe_copy; eassumption.
Qed.
Theorem deepcopy_original : forall fuel h v h' v', closed h -> deepcopy fuel h v = Some (h', v') -> forall w h2 path, known h w ->
  (forall n, (n < length h)%nat -> nth_error h2 n = nth_error h' n) -> observe h2 w path = observe h w path.
Proof.
  intros fuel h v h' v' C H w h2 path K Hs. destruct (deepcopy_done _ _ _ _ _ H) as [m [n [-> _]]]. apply observe_old; auto. intros i Hi. rewrite Hs by exact Hi. apply nth_error_app1. exact Hi.
Qed.
Theorem deepcopy_copy : forall fuel h v h' v', deepcopy fuel h v = Some (h', v') -> forall h2 path, path_of own h v path ->
  (forall n, (length h <= n < length h')%nat -> nth_error h2 n = nth_error h' n) -> observe h2 v' path = observe h v path.
Proof.
  intros fuel h v h' v' H h2 path Hp Hs. destruct (deepcopy_done _ _ _ _ _ H) as [m [n [-> [S1 Hc]]]]. eapply observe_deep; [exact S1| |exact Hc|exact Hp].
  intros i Hi. rewrite Hs by (rewrite app_length; lia). rewrite nth_error_app2 by lia. f_equal. lia.
Qed.
Theorem deepcopy_fresh : forall fuel h v h' v', deepcopy fuel h v = Some (h', v') -> forall path, path_of own h v path ->
  match follow h v path, follow h' v' path with
  | Some (Ref _), Some (Ref m) => (length h <= m < length h')%nat | Some (Atom a), Some (Atom b) => a = b | None, None => True | _, _ => False end.
Proof.
  intros fuel h v h' v' H path Hp. destruct (deepcopy_done _ _ _ _ _ H) as [m [n [-> [S1 Hc]]]].
  assert (Hn : forall i, (i < length n)%nat -> nth_error (h ++ n) (length h + i) = nth_error n i) by (intros i Hi; rewrite nth_error_app2 by lia; f_equal; lia).
  pose proof (follow_deep h m n S1 (h ++ n) Hn path v v' Hc Hp) as X.
  destruct (follow h v path) as [[a|x]|], (follow (h ++ n) v' path) as [[b|y]|]; cbn in X; auto. destruct X as [i [-> Hi]].
  destruct S1 as [_ [L _]]. assert (i < length m)%nat by (apply nth_error_Some; congruence). rewrite app_length. lia.
Qed.
(** Two paths lead to one object of the copy exactly when they do so in the original. *)
Theorem deepcopy_sharing : forall fuel h v h' v', deepcopy fuel h v = Some (h', v') -> forall p q, path_of own h v p -> path_of own h v q ->
  follow h v p = follow h v q <-> follow h' v' p = follow h' v' q.
Proof.
  intros fuel h v h' v' H p q Hp Hq. destruct (deepcopy_done _ _ _ _ _ H) as [m [n [-> [S1 Hc]]]].
  assert (Hn : forall i, (i < length n)%nat -> nth_error (h ++ n) (length h + i) = nth_error n i) by (intros i Hi; rewrite nth_error_app2 by lia; f_equal; lia).
  pose proof (follow_deep h m n S1 (h ++ n) Hn p v v' Hc Hp) as X. pose proof (follow_deep h m n S1 (h ++ n) Hn q v v' Hc Hq) as Y.
  destruct S1 as [_ [_ [D _]]]. specialize (D (NoDup_nil _)).
  destruct (follow h v p) as [[a|x]|], (follow (h ++ n) v' p) as [[b|y]|]; cbn in X; try tauto;
    destruct (follow h v q) as [[a2|x2]|], (follow (h ++ n) v' q) as [[b2|y2]|]; cbn in Y; try tauto; try (split; congruence).
  destruct X as [i [-> Hi]], Y as [j [-> Hj]]. split; intros E.
  - injection E as <-. assert (i = j); [|congruence]. rewrite NoDup_nth_error in D. apply D; [apply nth_error_Some; congruence|congruence].
  - injection E as E. assert (i = j) by lia. subst. congruence.
Qed.
(** The attributes that are not copied *)
Theorem deepcopy_fields : forall fuel h v h' v', deepcopy fuel h v = Some (h', v') -> forall path n o k, path_of own h v path -> follow h v path = Some (Ref n) -> nth_error h n = Some o ->
  exists m o', follow h' v' path = Some (Ref m) /\ nth_error h' m = Some o' /\ o_class o' = o_class o /\ map fst (o_fields o') = map fst (o_fields o) /\
  (contextual (o_class o) k -> field k o' = field k o) /\
  (parsed (o_class o) k -> field k o <> None -> field k o' = Some (Atom (if str_eqb k (lit "spec") then lit "None" else lit "False"))).
Proof.
  intros fuel h v h' v' H path n o k Hp Hf Ho. destruct (deepcopy_done _ _ _ _ _ H) as [m [nw [-> [S1 Hc]]]].
  assert (Hn : forall i, (i < length nw)%nat -> nth_error (h ++ nw) (length h + i) = nth_error nw i) by (intros i Hi; rewrite nth_error_app2 by lia; f_equal; lia).
  pose proof (follow_deep h m nw S1 (h ++ nw) Hn path v v' Hc Hp) as X. rewrite Hf in X.
  destruct (follow (h ++ nw) v' path) as [[b|y]|] eqn:Ef; try (cbn in X; tauto).
  destruct (copy_at h m nw S1 (h ++ nw) Hn n y X) as [o1 [o' [E1 [E2 [Ec F]]]]]. rewrite Ho in E1. injection E1 as <-.
  exists y, o'. split; [reflexivity|]. split; [exact E2|]. split; [exact Ec|]. split.
  - clear -F. induction F as [|kv kv' l l' [H1 _] F IH]; cbn; [reflexivity|]. rewrite H1, IH. reflexivity.
  - pose proof (find_copied h m _ k _ _ F) as Y. unfold field. split.
    + intros Hx. destruct (find _ (o_fields o)) as [kv|], (find _ (o_fields o')) as [kv'|]; cbn; try tauto.
      destruct Y as [Ek [_ Y]]. rewrite Ek, (rule_contextual _ _ Hx) in Y. congruence.
    + intros Hx. destruct (find _ (o_fields o)) as [kv|], (find _ (o_fields o')) as [kv'|]; cbn; try tauto.
      intros _. destruct Y as [Ek [_ Y]]. destruct (rule_parsed _ _ Hx) as [a [R [Ra Rb]]]. rewrite Ek, R in Y. rewrite Y. do 2 f_equal.
      destruct Hx as [_ [-> | ->]]; cbn; auto.
Qed.
(** ** Contexts *)
Theorem contexts : forall fuel h v h' v', deepcopy fuel h v = Some (h', v') -> forall path n o, path_of own h v path -> follow h v path = Some (Ref n) -> nth_error h n = Some o ->
  o_class o = lit "Tag" \/ o_class o = lit "SourcelistEntry" -> follow h' v' (path ++ [context]) = follow h v (path ++ [context]).
Proof.
  intros fuel h v h' v' H path n o Hp Hf Ho Hc. destruct (deepcopy_fields _ _ _ _ _ H path n o context Hp Hf Ho) as [m [o' [Hf' [Ho' [_ [_ [Hx _]]]]]]].
  assert (A : forall hh path w x, follow hh w path = Some x -> follow hh w (path ++ [context]) = follow hh x [context]).
  { intros hh. induction path0 as [|k p IH]; intros w x E; cbn in E |- *; [injection E as ->; reflexivity|].
    destruct w as [a|q]; [discriminate|]. destruct (nth_error hh q) as [oo|]; [|discriminate]. destruct (field k oo) as [z|]; [|discriminate]. apply IH. exact E. }
  rewrite (A _ _ _ _ Hf), (A _ _ _ _ Hf'). cbn [follow]. rewrite Ho, Ho', (Hx (conj Hc eq_refl)). reflexivity.
Qed.
Theorem contexts_apart : forall fuel h n o s h' v', nth_error h n = Some o -> o_class o = lit "Sources" -> field context o = Some (Ref s) -> deepcopy fuel h (Ref n) = Some (h', v') ->
  (exists m, follow h' v' [context] = Some (Ref m) /\ (length h <= m)%nat) /\
  forall path, path_of own h (Ref n) path -> (exists t ot, follow h (Ref n) path = Some (Ref t) /\ nth_error h t = Some ot /\ o_class ot = lit "Tag" /\ field context ot = Some (Ref s)) ->
    follow h' v' (path ++ [context]) = Some (Ref s).
Proof.
  intros fuel h n o s h' v' Ho Hc Hs H. split.
  - pose proof (deepcopy_fresh _ _ _ _ _ H [context]) as X. cbn [path_of follow] in X. rewrite Ho, Hs in X.
    assert (Y : own (o_class o) context /\ True).
    { split; [|exact I]. rewrite Hc. split; [intros [E _]; cbv in E; discriminate E|intros [[E|E] _]; cbv in E; discriminate E]. }
    specialize (X Y). cbn [follow]. destruct v' as [a|m]; [contradiction|]. destruct (nth_error h' m) as [o'|]; [|contradiction].
    destruct (field context o') as [[b|q]|]; try contradiction. exists q. split; [reflexivity|lia].
  - intros path Hp [t [ot [E1 [E2 [E3 E4]]]]].
    rewrite (contexts _ _ _ _ _ H path t ot Hp E1 E2 (or_introl E3)). clear -E1 E2 E4. revert E1. generalize (Ref n). induction path as [|k p IH]; intros w E; cbn [follow app] in E |- *.
    + injection E as ->. rewrite E2, E4. reflexivity.
    + destruct w as [a|q]; [discriminate|]. destruct (nth_error h q) as [oo|]; [|discriminate]. destruct (field k oo) as [z|]; [|discriminate]. apply IH. exact E.
Qed.
