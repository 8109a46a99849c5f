(** Proofs about nested views: the machine of generators and dictionaries refines the specification. *)
From Coq Require Import Arith List Bool Lia.
From Verif Require Import PyStr PyStrFacts M_context Spec_context.
Import ListNotations.

Lemma path_eqb_refl k : path_eqb k k = true.
Proof. unfold path_eqb. destruct (list_eq_dec Nat.eq_dec k k); [reflexivity|contradiction]. Qed.
Lemma path_eqb_neq a b : a <> b -> path_eqb a b = false.
Proof. unfold path_eqb. destruct (list_eq_dec Nat.eq_dec a b); [contradiction|reflexivity]. Qed.
Lemma upd_same {A} (f : path -> option A) k x : upd f k x k = x.
Proof. unfold upd. rewrite path_eqb_refl. reflexivity. Qed.
Lemma upd_other {A} (f : path -> option A) k x k' : k' <> k -> upd f k x k' = f k'.
Proof. intros N. unfold upd. rewrite path_eqb_neq by assumption. reflexivity. Qed.
Lemma path_dec (a b : path) : {a = b} + {a <> b}.
Proof. apply list_eq_dec, Nat.eq_dec. Qed.

Lemma update_len {A} (f : A -> A) : forall l i, length (update_at i f l) = length l.
Proof. induction l as [|x l IH]; intros [|i]; cbn; try reflexivity. rewrite IH. reflexivity. Qed.
Lemma update_nth_same {A} (f : A -> A) : forall l i, nth_error (update_at i f l) i = option_map f (nth_error l i).
Proof. induction l as [|x l IH]; intros [|i]; cbn; try reflexivity. apply IH. Qed.
Lemma update_nth_other {A} (f : A -> A) : forall l i j, i <> j -> nth_error (update_at i f l) j = nth_error l j.
Proof. induction l as [|x l IH]; intros [|i] [|j] N; cbn; try reflexivity; try congruence. apply IH. congruence. Qed.
Lemma nth_last {A} (l : list A) x : nth_error (l ++ [x]) (length l) = Some x.
Proof. rewrite nth_error_app2, Nat.sub_diag by lia. reflexivity. Qed.
Lemma nth_lt {A} (l : list A) i x : nth_error l i = Some x -> i < length l.
Proof. intros E. apply nth_error_Some. congruence. Qed.

Section Context.
Context {V : Type} (load : nat -> V -> result V) (store : nat -> V -> V -> result V) (autosave : bool).
Notation st := (@st V).
Notation views := (@views V).
Notation close := (close store autosave).
Notation call := (call load store autosave).
Notation within := (within load store autosave).

Definition obj (k : path) (m : st) : option nat :=
  match suspended k m with Some g => option_map g_object (nth_error (gens m) g) | None => None end.
Lemma suspended_gen k (m : st) g : suspended k m = Some g ->
  generators m k = Some g /\ exists x, nth_error (gens m) g = Some x /\ g_done x = false /\ obj k m = Some (g_object x).
Proof.
  unfold obj. intros S. rewrite S. unfold suspended in S. destruct (generators m k) as [g'|]; [|discriminate].
  destruct (nth_error (gens m) g') as [x|] eqn:E; [|discriminate]. destruct (g_done x) eqn:D; [discriminate|]. injection S as ->.
  split; [reflexivity|]. exists x. rewrite E. split; [reflexivity|]. split; [assumption|reflexivity].
Qed.
Lemma obj_suspended k (m : st) o : obj k m = Some o -> exists g x, suspended k m = Some g /\ generators m k = Some g /\
  nth_error (gens m) g = Some x /\ g_done x = false /\ g_object x = o.
Proof.
  intros O. assert (O' := O). unfold obj in O. destruct (suspended k m) as [g|] eqn:S; [|discriminate].
  destruct (suspended_gen k m g S) as [G [x [E [D X]]]]. exists g, x. rewrite X in O'. injection O' as O'. repeat (split; [assumption||reflexivity|]). exact O'.
Qed.
Lemma obj_none k (m : st) : obj k m = None <-> suspended k m = None.
Proof.
  split; [|unfold obj; intros ->; reflexivity]. intros O. destruct (suspended k m) as [g|] eqn:S; [|reflexivity].
  destruct (suspended_gen k m g S) as [_ [x [_ [_ X]]]]. congruence.
Qed.
(** [obj] only looks at the generators. *)
Lemma obj_ext k (m m' : st) : generators m' k = generators m k -> gens m' = gens m -> obj k m' = obj k m.
Proof. intros A B. unfold obj, suspended. rewrite A, B. reflexivity. Qed.

Record Inv (m : st) : Prop := {
  i_values : forall k o, obj k m = Some o -> values m k = Some o /\ o < length (heap m) /\ (o = 0 <-> k = []);
  i_object : forall k k' o, obj k m = Some o -> obj k' m = Some o -> k = k';
  i_gen : forall k k' g, suspended k m = Some g -> suspended k' m = Some g -> k = k';
  i_range : forall k g, generators m k = Some g -> g < length (gens m);
  i_heap : heap m <> [] }.
Record R (m : st) (s : views) : Prop := {
  r_inv : Inv m;
  r_cur : forall k, cur s k = match obj k m with Some o => nth_error (heap m) o | None => None end;
  r_doc : obj [] m = None -> nth_error (heap m) 0 = Some (doc s);
  r_disk : disk m = saved s;
  r_log : log m = history s }.
Record F (m m' : st) : Prop := {
  f_open : forall k g, suspended k m = Some g -> generators m' k = Some g /\ values m' k = values m k;
  f_gens : forall i, i < length (gens m) -> nth_error (gens m') i = nth_error (gens m) i;
  f_handles : forall i, i < length (handles m) -> nth_error (handles m') i = nth_error (handles m) i;
  f_heap : length (heap m) <= length (heap m');
  f_closed : forall k, obj k m = None -> obj k m' = None }.

Lemma F_obj m m' k o : F m m' -> obj k m = Some o -> obj k m' = Some o.
Proof.
  intros f O. destruct (obj_suspended k m o O) as [g [x [S [G [E [D X]]]]]]. destruct (f_open m m' f k g S) as [G' _].
  pose proof (f_gens m m' f g (nth_lt _ _ _ E)) as E'. unfold obj, suspended. rewrite G', E', E, D. cbn. rewrite E', E. cbn. congruence.
Qed.
Lemma F_suspended m m' k g : F m m' -> suspended k m = Some g -> suspended k m' = Some g.
Proof.
  intros f S. destruct (f_open m m' f k g S) as [G' _]. destruct (suspended_gen k m g S) as [G [x [E [D _]]]].
  pose proof (f_gens m m' f g (nth_lt _ _ _ E)) as E'. unfold suspended. rewrite G', E', E, D. reflexivity.
Qed.
Lemma F_refl m : F m m.
Proof. split; auto. intros k g S. split; [|reflexivity]. apply suspended_gen in S. apply S. Qed.
Lemma nth_len {A} (l l' : list A) : (forall i, i < length l -> nth_error l' i = nth_error l i) -> length l <= length l'.
Proof.
  intros H. destruct (length l) eqn:E; [lia|]. assert (L : nth_error l' n = nth_error l n) by (apply H; lia).
  assert (N : nth_error l n <> None) by (apply nth_error_Some; lia). rewrite <- L in N. apply nth_error_Some in N. lia.
Qed.
Lemma F_trans m1 m2 m3 : F m1 m2 -> F m2 m3 -> F m1 m3.
Proof.
  intros a b. pose proof (nth_len _ _ (f_gens _ _ a)). pose proof (nth_len _ _ (f_handles _ _ a)). split.
  - intros k g S. destruct (f_open _ _ a k g S) as [G W]. pose proof (F_suspended _ _ k g a S) as S2. destruct (f_open _ _ b k g S2) as [G2 W2].
    split; congruence.
  - intros i L. rewrite (f_gens _ _ b), (f_gens _ _ a); [reflexivity|assumption|lia].
  - intros i L. rewrite (f_handles _ _ b), (f_handles _ _ a); [reflexivity|assumption|lia].
  - pose proof (f_heap _ _ a). pose proof (f_heap _ _ b). lia.
  - intros k O. apply (f_closed _ _ b), (f_closed _ _ a), O.
Qed.

(** * Steps that only touch handles *)
Lemma Inv_handles m hs : Inv m -> Inv (set_handles hs m).
Proof. intros []. split; assumption. Qed.
Lemma R_handles m s hs : R m s -> R (set_handles hs m) s.
Proof. intros []. split; try assumption. apply Inv_handles. assumption. Qed.
Lemma F_handles m hs : (forall i, i < length (handles m) -> nth_error hs i = nth_error (handles m) i) -> F m (set_handles hs m).
Proof. intros H. split; auto. intros k g S. split; [|reflexivity]. apply suspended_gen in S. apply S. Qed.

Lemma abs_ok m : Inv m -> exists s, R m s.
Proof.
  intros I. destruct (heap m) as [|v l] eqn:H; [contradiction (i_heap m I)|].
  exists (mk_views v (fun k => match obj k m with Some o => nth_error (heap m) o | None => None end) (disk m) (log m)).
  split; [exact I|reflexivity|intros _; rewrite H; reflexivity|reflexivity|reflexivity].
Qed.
(** * Opening *)
Lemma started_suspended k o hp op (m : st) k' : Inv m -> suspended k' (started k o hp op m) =
  if path_eqb k' k then Some (length (gens m)) else suspended k' m.
Proof.
  intros I. unfold suspended, started. cbn [generators gens set_values set_generators set_gens add_log]. unfold upd. destruct (path_eqb k' k).
  { rewrite nth_last. reflexivity. }
  destruct (generators m k') as [g|] eqn:G; [|reflexivity]. apply (i_range m I) in G. rewrite nth_error_app1 by assumption. reflexivity.
Qed.
Lemma started_obj k o hp op (m : st) k' : Inv m -> obj k' (started k o hp op m) = if path_eqb k' k then Some o else obj k' m.
Proof.
  intros I. unfold obj. rewrite started_suspended by assumption. destruct (path_eqb k' k) eqn:P.
  - unfold started. cbn [gens set_values set_generators set_gens add_log]. rewrite nth_last. reflexivity.
  - destruct (suspended k' m) as [g|] eqn:S; [|reflexivity]. unfold started. cbn [gens set_values set_generators set_gens add_log].
    destruct (suspended_gen _ _ _ S) as [_ [x [E _]]]. rewrite nth_error_app1 by (eapply nth_lt; exact E). reflexivity.
Qed.
Lemma path_eqb_true a b : path_eqb a b = true -> a = b.
Proof. unfold path_eqb. destruct (list_eq_dec Nat.eq_dec a b); [auto|discriminate]. Qed.
Lemma started_inv k o hp op (m : st) : Inv m -> o < length (heap m) -> (o = 0 <-> k = []) -> (forall k', obj k' m = Some o -> k' = k) ->
  Inv (started k o hp op m).
Proof.
  intros I L Z N. split.
  - intros k' o' O. rewrite started_obj in O by assumption. unfold started. cbn [values heap set_values set_generators set_gens add_log]. unfold upd.
    destruct (path_eqb k' k) eqn:P.
    + injection O as <-. apply path_eqb_true in P. subst k'. auto.
    + apply (i_values m I). exact O.
  - intros k1 k2 o'. rewrite !started_obj by assumption. destruct (path_eqb k1 k) eqn:P1; destruct (path_eqb k2 k) eqn:P2; intros A B.
    + apply path_eqb_true in P1, P2. congruence.
    + injection A as <-. apply path_eqb_true in P1. subst k1. symmetry. apply N. exact B.
    + injection B as <-. apply path_eqb_true in P2. subst k2. apply N. exact A.
    + eapply (i_object m I); eassumption.
  - intros k1 k2 g. rewrite !started_suspended by assumption. destruct (path_eqb k1 k) eqn:P1; destruct (path_eqb k2 k) eqn:P2; intros A B.
    + apply path_eqb_true in P1, P2. congruence.
    + injection A as <-. apply suspended_gen in B. destruct B as [B _]. apply (i_range m I) in B. lia.
    + injection B as <-. apply suspended_gen in A. destruct A as [A _]. apply (i_range m I) in A. lia.
    + eapply (i_gen m I); eassumption.
  - intros k' g. unfold started. cbn [generators gens set_values set_generators set_gens add_log]. unfold upd. rewrite app_length. cbn.
    destruct (path_eqb k' k); intros G; [injection G as <-; lia|]. apply (i_range m I) in G. lia.
  - exact (i_heap m I).
Qed.
Lemma started_F k o hp op (m : st) : Inv m -> obj k m = None ->
  (forall k', obj k' m = None -> k' <> k -> obj k' (started k o hp op m) = None) /\
  (forall k' g, suspended k' m = Some g -> generators (started k o hp op m) k' = Some g /\ values (started k o hp op m) k' = values m k').
Proof.
  intros I O. split.
  - intros k' O' N. rewrite started_obj by assumption. rewrite path_eqb_neq by assumption. exact O'.
  - intros k' g S. assert (N : k' <> k). { intros ->. apply obj_none in O. congruence. }
    unfold started. cbn [generators values set_values set_generators set_gens add_log]. rewrite !upd_other by assumption. split; [|reflexivity].
    apply suspended_gen in S. apply S.
Qed.
Lemma started_R k o v hp op (m : st) s : R m s -> obj k m = None -> nth_error (heap m) o = Some v -> (o = 0 <-> k = []) ->
  (forall k', obj k' m = Some o -> k' = k) -> (k = [] -> v = doc s) -> R (started k o hp op m) (opened k v s).
Proof.
  intros r O E Z N D. pose proof (r_inv _ _ r) as I. split.
  - apply started_inv; try assumption. eapply nth_lt; exact E.
  - intros k'. rewrite started_obj by assumption. unfold opened. cbn [cur]. unfold upd. destruct (path_eqb k' k); [symmetry; exact E|]. apply (r_cur _ _ r).
  - rewrite started_obj by assumption. destruct (path_eqb [] k) eqn:P; [discriminate|]. apply (r_doc _ _ r).
  - apply (r_disk _ _ r).
  - unfold started, opened. cbn [log history set_values set_generators set_gens add_log]. rewrite (r_log _ _ r). reflexivity.
Qed.
Lemma push_inv m v : Inv m -> Inv (set_heap (heap m ++ [v]) m).
Proof.
  intros I. split.
  - intros k o O. destruct (i_values m I k o O) as [A [B C]]. cbn [set_heap heap values]. rewrite app_length. cbn. split; [exact A|]. split; [lia|exact C].
  - exact (i_object m I).
  - exact (i_gen m I).
  - exact (i_range m I).
  - cbn. destruct (heap m); discriminate.
Qed.
Lemma push_R m s v : R m s -> R (set_heap (heap m ++ [v]) m) s.
Proof.
  intros r. pose proof (r_inv _ _ r) as I. split.
  - apply push_inv. exact I.
  - intros k. rewrite (r_cur _ _ r). change (obj k (set_heap (heap m ++ [v]) m)) with (obj k m). destruct (obj k m) as [o|] eqn:O; [|reflexivity].
    destruct (i_values m I k o O) as [_ [L _]]. cbn. rewrite nth_error_app1 by assumption. reflexivity.
  - intros O. cbn [heap set_heap]. rewrite nth_error_app1; [apply (r_doc _ _ r O)|]. destruct (heap m) eqn:H; [contradiction (i_heap m I)|cbn; lia].
  - apply (r_disk _ _ r).
  - apply (r_log _ _ r).
Qed.
Lemma fresh_object m v : Inv m -> forall k', obj k' (set_heap (heap m ++ [v]) m) = Some (length (heap m)) -> False.
Proof. intros I k' O. change (obj k' m = Some (length (heap m))) in O. apply (i_values m I) in O. lia. Qed.

Lemma enter_ready h k b (m : st) o : nth_error (handles m) h = Some (mk_handle k b Ready) -> values m k = Some o ->
  enter h m = (progressed h Open m, Ok o).
Proof. intros E W. unfold enter. rewrite E, W. reflexivity. Qed.
(** What a successful call gives. *)
Lemma call_ok : forall k m m1 h, Inv m -> call k m = (m1, Ok h) ->
  exists o, Inv m1 /\ obj k m1 = Some o /\ enter h m1 = (progressed h Open m1, Ok o) /\
    nth_error (handles m1) h = Some (mk_handle k (match obj k m with Some _ => false | None => true end) Ready) /\
    (forall k', obj k' m = None -> ~ (exists l, k = l ++ k') -> obj k' m1 = None) /\
    (forall k' o', obj k' m = Some o' -> obj k' m1 = Some o').
Proof.
  induction k as [|n p IH]; intros m m1 h I C; cbn [M_context.call] in C.
  - destruct (suspended [] m) as [g|] eqn:S.
    + destruct (suspended_gen _ _ _ S) as [_ [x [_ [_ O]]]]. cbn in C. injection C as <- <-. exists (g_object x).
      split; [apply Inv_handles; exact I|]. split; [exact O|]. rewrite O. cbn [handles set_handles]. rewrite nth_last. split; [|split; [reflexivity|split; auto]].
      eapply enter_ready; cbn; [rewrite nth_last; reflexivity|]. apply (i_values m I) in O. apply O.
    + apply obj_none in S. cbn in C. injection C as <- <-. exists 0.
      assert (I1 : Inv (started [] 0 0 0 m)).
      { apply started_inv; [exact I|destruct (heap m) eqn:H; [contradiction (i_heap m I)|cbn; lia]|tauto|]. intros k' O. apply (i_values m I) in O. apply O. reflexivity. }
      split; [apply Inv_handles; exact I1|].
      split; [change (obj [] (started [] 0 0 0 m) = Some 0); rewrite started_obj by assumption; reflexivity|]. rewrite S. cbn [handles set_handles started add_log set_values set_generators set_gens].
      rewrite nth_last. split; [|split; [reflexivity|split]].
      * eapply enter_ready; cbn; [rewrite nth_last; reflexivity|reflexivity].
      * intros k' O' N. change (obj k' (started [] 0 0 0 m) = None). rewrite started_obj by assumption. rewrite path_eqb_neq; [exact O'|].
        intros ->. apply N. exists []. reflexivity.
      * intros k' o' O'. change (obj k' (started [] 0 0 0 m) = Some o'). rewrite started_obj by assumption. rewrite path_eqb_neq; [exact O'|congruence].
  - destruct (suspended (n :: p) m) as [g|] eqn:S.
    + destruct (suspended_gen _ _ _ S) as [_ [x [_ [_ O]]]]. cbn in C. injection C as <- <-. exists (g_object x).
      split; [apply Inv_handles; exact I|]. split; [exact O|]. rewrite O. cbn [handles set_handles]. rewrite nth_last. split; [|split; [reflexivity|split; auto]].
      eapply enter_ready; cbn; [rewrite nth_last; reflexivity|]. apply (i_values m I) in O. apply O.
    + apply obj_none in S. destruct (call p m) as [m2 [hp|e]] eqn:CP; [|discriminate].
      destruct (IH _ _ _ I CP) as [op [I2 [O2 [E2 [_ [N2 K2]]]]]]. rewrite E2 in C. set (m3 := progressed hp Open m2) in *.
      assert (I3 : Inv m3) by (apply Inv_handles; exact I2).
      destruct (nth_error (heap m3) op) as [pv|] eqn:EP; [|discriminate]. destruct (load n pv) as [v|e] eqn:LD.
      2: { destruct (close p hp (Some e) m3) as [? [?|]]; discriminate. }
      cbn in C. injection C as <- <-. exists (length (heap m3)).
      set (m4 := set_heap (heap m3 ++ [v]) m3). assert (I4 : Inv m4) by (apply push_inv; exact I3).
      assert (I5 : Inv (started (n :: p) (length (heap m3)) hp op m4)).
      { apply started_inv; [exact I4|unfold m4; cbn [heap set_heap]; rewrite app_length; cbn; lia| |].
        - split; [|discriminate]. intros Z. destruct (heap m3) eqn:H; [contradiction (i_heap m3 I3)|discriminate].
        - intros k' O. contradiction (fresh_object m3 v I3 k' O). }
      split; [apply Inv_handles; exact I5|].
      split; [change (obj (n :: p) (started (n :: p) (length (heap m3)) hp op m4) = Some (length (heap m3))); rewrite started_obj by assumption; rewrite path_eqb_refl; reflexivity|].
      rewrite S. cbn [handles set_handles started add_log set_values set_generators set_gens]. rewrite nth_last. split; [|split; [reflexivity|split]].
      3: { intros k' o' O'. change (obj k' (started (n :: p) (length (heap m3)) hp op m4) = Some o'). rewrite started_obj by assumption.
           rewrite path_eqb_neq; [apply K2; exact O'|congruence]. }
      2: { intros k' O' N. change (obj k' (started (n :: p) (length (heap m3)) hp op m4) = None). rewrite started_obj by assumption.
           rewrite path_eqb_neq; [|intros ->; apply N; exists []; reflexivity]. apply N2; [exact O'|]. intros [l ->]. apply N. exists (n :: l). reflexivity. }
      eapply enter_ready; cbn [handles set_handles started add_log set_values set_generators set_gens values]; [rewrite nth_last; reflexivity|]. apply upd_same.
Qed.

(** * Closing *)
Lemma exhaust_gens g (m : st) i : nth_error (gens (exhaust g m)) i =
  if Nat.eq_dec i g then option_map (fun x => mk_gen true (g_object x) (g_parent x) (g_parent_object x)) (nth_error (gens m) i) else nth_error (gens m) i.
Proof.
  unfold exhaust. cbn [gens set_gens]. destruct (Nat.eq_dec i g) as [->|N]; [apply update_nth_same|apply update_nth_other; congruence].
Qed.
Lemma exhaust_suspended k g (m : st) k' : Inv m -> suspended k m = Some g -> suspended k' (exhaust g m) = if path_eqb k' k then None else suspended k' m.
Proof.
  intros I S. destruct (path_eqb k' k) eqn:P.
  - apply path_eqb_true in P. subst k'. destruct (suspended_gen _ _ _ S) as [G [x [E _]]]. unfold suspended. change (generators (exhaust g m)) with (generators m).
    rewrite G, exhaust_gens. destruct (Nat.eq_dec g g); [|contradiction]. rewrite E. reflexivity.
  - destruct (suspended k' m) as [g'|] eqn:S'.
    + assert (N : g' <> g). { intros ->. rewrite (i_gen m I _ _ _ S S'), path_eqb_refl in P. discriminate. }
      destruct (suspended_gen _ _ _ S') as [G [x [E [D _]]]]. unfold suspended. change (generators (exhaust g m)) with (generators m).
      rewrite G, exhaust_gens. destruct (Nat.eq_dec g' g); [contradiction|]. rewrite E, D. reflexivity.
    + unfold suspended in *. change (generators (exhaust g m)) with (generators m). destruct (generators m k') as [g'|]; [|reflexivity].
      rewrite exhaust_gens. destruct (Nat.eq_dec g' g) as [->|N]; [|exact S']. destruct (nth_error (gens m) g); reflexivity.
Qed.
Lemma exhaust_obj k g (m : st) k' : Inv m -> suspended k m = Some g -> obj k' (exhaust g m) = if path_eqb k' k then None else obj k' m.
Proof.
  intros I S. unfold obj. rewrite (exhaust_suspended k) by assumption. destruct (path_eqb k' k) eqn:P; [reflexivity|].
  destruct (suspended k' m) as [g'|] eqn:S'; [|reflexivity]. rewrite exhaust_gens. destruct (Nat.eq_dec g' g) as [->|N]; [|reflexivity].
  rewrite (i_gen m I _ _ _ S S'), path_eqb_refl in P. discriminate.
Qed.
Lemma exhaust_R k g (m : st) s : R m s -> suspended k m = Some g -> k <> [] -> R (exhaust g m) (put k None s).
Proof.
  intros r S NK. pose proof (r_inv _ _ r) as I. split.
  - split.
    + intros k' o. rewrite (exhaust_obj k) by assumption. destruct (path_eqb k' k); [discriminate|]. apply (i_values m I).
    + intros k1 k2 o. rewrite !(exhaust_obj k) by assumption. destruct (path_eqb k1 k); [discriminate|]. destruct (path_eqb k2 k); [discriminate|]. apply (i_object m I).
    + intros k1 k2 o. rewrite !(exhaust_suspended k) by assumption. destruct (path_eqb k1 k); [discriminate|]. destruct (path_eqb k2 k); [discriminate|]. apply (i_gen m I).
    + intros k' g' G. unfold exhaust. cbn [gens set_gens]. rewrite update_len. apply (i_range m I k' g' G).
    + exact (i_heap m I).
  - intros k'. rewrite (exhaust_obj k) by assumption. unfold put. cbn [cur]. unfold upd. destruct (path_eqb k' k); [reflexivity|]. apply (r_cur _ _ r).
  - rewrite (exhaust_obj k) by assumption. rewrite path_eqb_neq by congruence. apply (r_doc _ _ r).
  - apply (r_disk _ _ r).
  - apply (r_log _ _ r).
Qed.
(** Deleting the dictionary entries of a closed view. *)
Definition forget (k : path) (m : st) : st := set_values (upd (values m) k None) (set_generators (upd (generators m) k None) m).
Lemma forget_suspended k (m : st) k' : suspended k m = None -> suspended k' (forget k m) = suspended k' m.
Proof.
  intros S. unfold suspended at 1. unfold forget. cbn [generators gens set_values set_generators]. unfold upd. destruct (path_eqb k' k) eqn:P.
  - apply path_eqb_true in P. subst k'. symmetry. exact S.
  - reflexivity.
Qed.
Lemma forget_obj k (m : st) k' : suspended k m = None -> obj k' (forget k m) = obj k' m.
Proof. intros S. unfold obj. rewrite forget_suspended by assumption. reflexivity. Qed.
Lemma forget_R k (m : st) s : R m s -> suspended k m = None -> R (forget k m) s.
Proof.
  intros r S. pose proof (r_inv _ _ r) as I. split.
  - split.
    + intros k' o O. rewrite forget_obj in O by assumption. assert (N : k' <> k). { intros ->. apply obj_none in S. congruence. }
      unfold forget. cbn [values heap set_values set_generators]. rewrite upd_other by assumption. apply (i_values m I). exact O.
    + intros k1 k2 o. rewrite !forget_obj by assumption. apply (i_object m I).
    + intros k1 k2 o. rewrite !forget_suspended by assumption. apply (i_gen m I).
    + intros k' g. unfold forget. cbn [generators gens set_values set_generators]. unfold upd. destruct (path_eqb k' k); [discriminate|]. apply (i_range m I).
    + exact (i_heap m I).
  - intros k'. rewrite forget_obj by assumption. apply (r_cur _ _ r).
  - rewrite forget_obj by assumption. apply (r_doc _ _ r).
  - apply (r_disk _ _ r).
  - apply (r_log _ _ r).
Qed.
Lemma forget_F k (m0 m : st) : F m0 m -> suspended k m0 = None -> suspended k m = None -> F m0 (forget k m).
Proof.
  intros f S0 S. split.
  - intros k' g S'. assert (N : k' <> k) by congruence. unfold forget. cbn [generators values set_values set_generators]. rewrite !upd_other by assumption. apply (f_open _ _ f k' g S').
  - exact (f_gens _ _ f).
  - exact (f_handles _ _ f).
  - exact (f_heap _ _ f).
  - intros k' O. rewrite forget_obj by assumption. apply (f_closed _ _ f). exact O.
Qed.
(** Editing an object changes the value of its view only. *)
Lemma edit_obj o f (m : st) k : obj k (edit o f m) = obj k m.
Proof. reflexivity. Qed.
Lemma edit_R k o f (m : st) s v : R m s -> obj k m = Some o -> cur s k = Some v -> R (edit o f m) (put k (Some (f v)) s).
Proof.
  intros r O C. pose proof (r_inv _ _ r) as I. split.
  - split.
    + intros k' o' O'. cbn [edit heap set_heap]. rewrite update_len. apply (i_values m I k' o' O').
    + exact (i_object m I).
    + exact (i_gen m I).
    + exact (i_range m I).
    + unfold edit. cbn [heap set_heap]. intros H. apply (i_heap m I). apply (f_equal (@length V)) in H. rewrite update_len in H. destruct (heap m); [reflexivity|discriminate].
  - intros k'. rewrite edit_obj. unfold put. cbn [cur edit heap set_heap]. unfold upd. destruct (path_eqb k' k) eqn:P.
    + apply path_eqb_true in P. subst k'. rewrite O, update_nth_same. rewrite (r_cur _ _ r), O in C. rewrite C. reflexivity.
    + rewrite (r_cur _ _ r). destruct (obj k' m) as [o'|] eqn:O'; [|reflexivity]. rewrite update_nth_other; [reflexivity|].
      intros <-. rewrite (i_object m I _ _ _ O O'), path_eqb_refl in P. discriminate.
  - intros O0. rewrite edit_obj in O0. cbn [edit heap set_heap]. rewrite update_nth_other; [apply (r_doc _ _ r O0)|].
    intros ->. apply (i_values m I) in O. destruct O as [Q1 [Q2 Q3]]. rewrite (proj1 Q3 eq_refl) in *. 
    destruct (obj [] m) eqn:O1; [discriminate|]. rewrite (r_cur _ _ r), O1 in C. discriminate.
  - apply (r_disk _ _ r).
  - apply (r_log _ _ r).
Qed.
Lemma edit_F m0 m o f : F m0 m -> F m0 (edit o f m).
Proof.
  intros q. split.
  - exact (f_open _ _ q).
  - exact (f_gens _ _ q).
  - exact (f_handles _ _ q).
  - cbn [edit heap set_heap]. rewrite update_len. exact (f_heap _ _ q).
  - exact (f_closed _ _ q).
Qed.

(** * The frame of a view that is being opened and closed *)
Record F0 (m m' : st) : Prop := {
  f0_open : forall k g, suspended k m = Some g -> suspended k m' = Some g /\ values m' k = values m k;
  f0_gens : forall i, i < length (gens m) -> nth_error (gens m') i = nth_error (gens m) i;
  f0_handles : forall i, i < length (handles m) -> nth_error (handles m') i = nth_error (handles m) i;
  f0_heap : length (heap m) <= length (heap m') }.
Lemma F_F0 m m' : F m m' -> F0 m m'.
Proof.
  intros f. split; [|exact (f_gens _ _ f)|exact (f_handles _ _ f)|exact (f_heap _ _ f)].
  intros k g S. split; [exact (F_suspended _ _ k g f S)|exact (proj2 (f_open _ _ f k g S))].
Qed.
Lemma F_intro m m' : F0 m m' -> (forall k, obj k m = None -> obj k m' = None) -> F m m'.
Proof.
  intros f C. split; [|exact (f0_gens _ _ f)|exact (f0_handles _ _ f)|exact (f0_heap _ _ f)|exact C].
  intros k g S. destruct (f0_open _ _ f k g S) as [A B]. split; [|exact B]. apply suspended_gen in A. apply A.
Qed.
Lemma F0_trans m1 m2 m3 : F0 m1 m2 -> F0 m2 m3 -> F0 m1 m3.
Proof.
  intros a b. pose proof (nth_len _ _ (f0_gens _ _ a)). pose proof (nth_len _ _ (f0_handles _ _ a)). split.
  - intros k g S. destruct (f0_open _ _ a k g S) as [G W]. destruct (f0_open _ _ b k g G) as [G2 W2]. split; congruence.
  - intros i L. rewrite (f0_gens _ _ b), (f0_gens _ _ a); [reflexivity|assumption|lia].
  - intros i L. rewrite (f0_handles _ _ b), (f0_handles _ _ a); [reflexivity|assumption|lia].
  - pose proof (f0_heap _ _ a). pose proof (f0_heap _ _ b). lia.
Qed.
Lemma F0_progressed m m' h p : F0 m m' -> length (handles m) <= h -> F0 m (progressed h p m').
Proof.
  intros f L. split; [exact (f0_open _ _ f)|exact (f0_gens _ _ f)| |exact (f0_heap _ _ f)].
  intros i Li. unfold progressed. cbn [handles set_handles]. rewrite update_nth_other by lia. apply (f0_handles _ _ f). exact Li.
Qed.
Lemma F0_add_handle m m' k b : F0 m m' -> F0 m (fst (add_handle k b m')).
Proof.
  intros f. split; [exact (f0_open _ _ f)|exact (f0_gens _ _ f)| |exact (f0_heap _ _ f)].
  intros i Li. unfold add_handle. cbn [fst handles set_handles]. pose proof (nth_len _ _ (f0_handles _ _ f)). rewrite nth_error_app1 by lia. apply (f0_handles _ _ f). exact Li.
Qed.
Lemma F0_started m m' k o hp op : F0 m m' -> Inv m' -> suspended k m = None -> F0 m (started k o hp op m').
Proof.
  intros f I S. split.
  - intros k' g S'. assert (N : k' <> k) by congruence. rewrite started_suspended by assumption. rewrite path_eqb_neq by assumption.
    unfold started. cbn [values set_values set_generators set_gens add_log]. rewrite upd_other by assumption. apply (f0_open _ _ f). exact S'.
  - intros i L. unfold started. cbn [gens set_values set_generators set_gens add_log]. pose proof (nth_len _ _ (f0_gens _ _ f)). rewrite nth_error_app1 by lia. apply (f0_gens _ _ f). exact L.
  - exact (f0_handles _ _ f).
  - exact (f0_heap _ _ f).
Qed.
Lemma F0_push m m' v : F0 m m' -> F0 m (set_heap (heap m' ++ [v]) m').
Proof.
  intros f. split; [exact (f0_open _ _ f)|exact (f0_gens _ _ f)|exact (f0_handles _ _ f)|]. cbn [heap set_heap]. rewrite app_length. pose proof (f0_heap _ _ f). lia.
Qed.
Lemma F0_edit m m' o f : F0 m m' -> F0 m (edit o f m').
Proof.
  intros q. split; [exact (f0_open _ _ q)|exact (f0_gens _ _ q)|exact (f0_handles _ _ q)|]. cbn [edit heap set_heap]. rewrite update_len. exact (f0_heap _ _ q).
Qed.
Lemma F0_exhaust m m' k g : F0 m m' -> Inv m' -> suspended k m = None -> suspended k m' = Some g -> length (gens m) <= g -> F0 m (exhaust g m').
Proof.
  intros f I S0 S L. split.
  - intros k' g' S'. rewrite (exhaust_suspended k) by assumption. rewrite path_eqb_neq by congruence. apply (f0_open _ _ f). exact S'.
  - intros i Li. rewrite exhaust_gens. destruct (Nat.eq_dec i g); [lia|]. apply (f0_gens _ _ f). exact Li.
  - exact (f0_handles _ _ f).
  - exact (f0_heap _ _ f).
Qed.
Lemma F0_log m m' e : F0 m m' -> F0 m (add_log e m').
Proof. intros []. split; assumption. Qed.
Lemma F0_disk m m' d : F0 m m' -> F0 m (set_disk d m').
Proof. intros []. split; assumption. Qed.
Lemma F0_forget m m' k : F0 m m' -> suspended k m = None -> suspended k m' = None -> F0 m (forget k m').
Proof.
  intros f S0 S. split.
  - intros k' g S'. assert (N : k' <> k) by congruence. rewrite forget_suspended by assumption. destruct (f0_open _ _ f k' g S') as [A B]. split; [exact A|].
    unfold forget. cbn [values set_values]. rewrite upd_other by assumption. exact B.
  - exact (f0_gens _ _ f).
  - exact (f0_handles _ _ f).
  - exact (f0_heap _ _ f).
Qed.
Lemma F0_refl m : F0 m m.
Proof. apply F_F0, F_refl. Qed.
Lemma exhaust_root g (m : st) s v : R m s -> suspended [] m = Some g -> cur s [] = Some v ->
  R (exhaust g m) (mk_views v (upd (cur s) [] None) (saved s) (history s)).
Proof.
  intros r S C. pose proof (r_inv _ _ r) as I. split.
  - split.
    + intros k' o. rewrite (exhaust_obj []) by assumption. destruct (path_eqb k' []); [discriminate|]. apply (i_values m I).
    + intros k1 k2 o. rewrite !(exhaust_obj []) by assumption. destruct (path_eqb k1 []); [discriminate|]. destruct (path_eqb k2 []); [discriminate|]. apply (i_object m I).
    + intros k1 k2 o. rewrite !(exhaust_suspended []) by assumption. destruct (path_eqb k1 []); [discriminate|]. destruct (path_eqb k2 []); [discriminate|]. apply (i_gen m I).
    + intros k' g' G. unfold exhaust. cbn [gens set_gens]. rewrite update_len. apply (i_range m I k' g' G).
    + exact (i_heap m I).
  - intros k'. rewrite (exhaust_obj []) by assumption. cbn [cur]. unfold upd. destruct (path_eqb k' []); [reflexivity|]. apply (r_cur _ _ r).
  - intros _. cbn [doc]. rewrite (r_cur _ _ r) in C. destruct (suspended_gen _ _ _ S) as [_ [x [_ [_ O]]]]. rewrite O in C.
    apply (i_values m I) in O. destruct O as [_ [_ Z]]. rewrite (proj2 Z eq_refl) in C. exact C.
  - apply (r_disk _ _ r).
  - apply (r_log _ _ r).
Qed.
Lemma log_R m s e : R m s -> R (add_log e m) (mk_views (doc s) (cur s) (saved s) (history s ++ [e])).
Proof. intros [I C D K L]. split; [destruct I; split; assumption|exact C|exact D|exact K|]. cbn. rewrite L. reflexivity. Qed.
Lemma disk_R m s d : R m s -> R (set_disk d m) (mk_views (doc s) (cur s) d (history s)).
Proof. intros [I C D K L]. split; [destruct I; split; assumption|exact C|exact D|reflexivity|exact L]. Qed.

(** * One view around a body *)
Definition mwith (k : path) (A : Type) (ex : A -> option exn) (mb : nat -> nat -> st -> st * A) (m : st) : st * result (option exn * A) :=
  match call k m with
  | (m, Err e) => (m, Err e)
  | (m, Ok h) =>
      match enter h m with
      | (m, Err e) => (m, Err e)
      | (m, Ok o) => let (m, a) := mb h o m in let (m, r) := close k h (ex a) m in (m, Ok (r, a))
      end
  end.
Definition anc (k' k : path) : Prop := exists l, k = l ++ k'.
Definition body_ok (k : path) (m0 : st) (A : Type) (mb : nat -> nat -> st -> st * A) (sb : views -> views * A) : Prop :=
  forall m s h o, (forall k', obj k' m0 = None -> ~ anc k' k -> obj k' m = None) -> (forall k' o', obj k' m0 = Some o' -> obj k' m = Some o') ->
    R m s -> obj k m = Some o ->
    R (fst (mb h o m)) (fst (sb s)) /\ F m (fst (mb h o m)) /\ snd (mb h o m) = snd (sb s).
Definition agree {A} (ex : A -> option exn) (shared : bool) (rm : result (option exn * A)) (rs : result A) : Prop :=
  match rs with
  | Err e => rm = Err e \/ exists a, rm = Ok (Some e, a)
  | Ok a => rm = Ok (left_shared shared (ex a), a)
  end.
Definition sim (k : path) : Prop := forall A (ex : A -> option exn) mb sb m s, R m s -> body_ok k m A mb sb ->
  R (fst (mwith k A ex mb m)) (fst (within k A sb s)) /\ F m (fst (mwith k A ex mb m)) /\
  agree ex (is_open k s) (snd (mwith k A ex mb m)) (snd (within k A sb s)).

Lemma is_open_obj k m s : R m s -> is_open k s = match obj k m with Some _ => true | None => false end.
Proof.
  intros r. unfold is_open. rewrite (r_cur _ _ r). destruct (obj k m) as [o|] eqn:O; [|reflexivity].
  apply (i_values m (r_inv _ _ r)) in O. destruct O as [_ [L _]]. apply nth_error_Some in L. destruct (nth_error (heap m) o); [reflexivity|contradiction].
Qed.
Lemma left_shared_swallow e : match e with Some KeyError => None | _ => e end = left_shared true e.
Proof. destruct e as [[]|]; reflexivity. Qed.
Lemma left_shared_false e : left_shared false e = e.
Proof. destruct e as [[]|]; reflexivity. Qed.
Lemma within_shared k A (sb : views -> views * A) s : is_open k s = true -> within k A sb s = (fst (sb s), Ok (snd (sb s))).
Proof. intros O. destruct k; cbn [Spec_context.within]; rewrite O; destruct (sb s); reflexivity. Qed.
Lemma with_shared k A ex mb sb m s o : R m s -> body_ok k m A mb sb -> obj k m = Some o ->
  R (fst (mwith k A ex mb m)) (fst (within k A sb s)) /\ F m (fst (mwith k A ex mb m)) /\
  agree ex (is_open k s) (snd (mwith k A ex mb m)) (snd (within k A sb s)).
Proof.
  intros r B O. assert (IO : is_open k s = true) by (rewrite (is_open_obj k m s r), O; reflexivity).
  rewrite (within_shared _ _ _ _ IO), IO. cbn [fst snd]. destruct (obj_suspended _ _ _ O) as [g [x [S _]]].
  assert (C : call k m = (set_handles (handles m ++ [mk_handle k false Ready]) m, Ok (length (handles m)))) by (destruct k; cbn [M_context.call]; rewrite S; reflexivity).
  unfold mwith. rewrite C. set (h := length (handles m)). set (m1 := set_handles _ m).
  assert (V1 : values m k = Some o) by apply (i_values m (r_inv _ _ r) k o O).
  rewrite (enter_ready h k false m1 o); [|apply nth_last|exact V1]. set (m2 := progressed h Open m1).
  assert (R2 : R m2 s) by (apply R_handles, R_handles; exact r).
  assert (F2 : F0 m m2). { apply F0_progressed; [|unfold h; lia]. exact (F0_add_handle m m k false (F0_refl m)). }
  destruct (B m2 s h o (fun k' O' _ => O') (fun k' o' O' => O') R2 O) as [R3 [F3 E3]]. destruct (mb h o m2) as [m3 a]. destruct (sb s) as [s3 a']. cbn [fst snd] in *. subst a'.
  assert (H3 : nth_error (handles m3) h = Some (mk_handle k false Open)).
  { rewrite (f_handles _ _ F3).
    - unfold m2, progressed. cbn [handles set_handles]. rewrite update_nth_same. unfold m1. cbn [handles set_handles]. unfold h. rewrite nth_last. reflexivity.
    - unfold m2, progressed, m1. cbn [handles set_handles]. rewrite update_len, app_length. unfold h. cbn. lia. }
  assert (CL : close k h (ex a) m3 = (progressed h Done m3, left_shared true (ex a))).
  { rewrite <- left_shared_swallow. destruct k; cbn [M_context.close]; rewrite H3; reflexivity. }
  rewrite CL. cbn [fst snd]. split; [apply R_handles; exact R3|]. split; [|reflexivity].
  apply F_intro.
  - apply F0_progressed; [|unfold h; lia]. exact (F0_trans _ _ _ F2 (F_F0 _ _ F3)).
  - intros k' O'. apply (f_closed _ _ F3). exact O'.
Qed.

Lemma sim_root : sim [].
Proof.
  intros A ex mb sb m s r B. destruct (obj [] m) as [o|] eqn:O; [exact (with_shared [] A ex mb sb m s o r B O)|].
  assert (IO : is_open [] s = false) by (rewrite (is_open_obj [] m s r), O; reflexivity). pose proof (r_inv _ _ r) as I.
  pose proof (proj1 (obj_none [] m) O) as S. cbn [Spec_context.within]. rewrite IO.
  unfold mwith. cbn [M_context.call]. rewrite S. unfold add_handle. set (m0 := started [] 0 0 0 m). set (h := length (handles m0)).
  assert (R0 : R m0 (opened [] (doc s) s)).
  { apply started_R; [exact r|exact O|apply (r_doc _ _ r O)|tauto| |reflexivity]. intros k' O'. apply (i_values m I) in O'. apply O'. reflexivity. }
  set (m1 := set_handles (handles m0 ++ [mk_handle [] true Ready]) m0).
  rewrite (enter_ready h [] true m1 0); [|apply nth_last|reflexivity]. set (m2 := progressed h Open m1).
  assert (R2 : R m2 (opened [] (doc s) s)) by (apply R_handles, R_handles; exact R0).
  assert (O2 : forall k', obj k' m2 = if path_eqb k' [] then Some 0 else obj k' m).
  { intros k'. change (obj k' m2) with (obj k' m0). apply started_obj. exact I. }
  assert (F2 : F0 m m2).
  { apply F0_progressed; [|unfold h; apply Nat.le_refl]. exact (F0_add_handle m m0 [] true (F0_started m m [] 0 0 0 (F0_refl m) I S)). }
  destruct (B m2 (opened [] (doc s) s) h 0) as [R3 [F3 E3]]; [| |exact R2|rewrite O2; reflexivity|].
  { intros k' O' N. rewrite O2. rewrite path_eqb_neq; [exact O'|]. intros ->. apply N. exists []. reflexivity. }
  { intros k' o' O'. rewrite O2. rewrite path_eqb_neq; [exact O'|]. congruence. }
  destruct (mb h 0 m2) as [m3 a]. destruct (sb (opened [] (doc s) s)) as [s3 a']. cbn [fst snd] in *. subst a'.
  assert (H3 : nth_error (handles m3) h = Some (mk_handle [] true Open)).
  { rewrite (f_handles _ _ F3).
    - unfold m2, progressed. cbn [handles set_handles]. rewrite update_nth_same. unfold m1. cbn [handles set_handles]. unfold h. rewrite nth_last. reflexivity.
    - unfold m2, progressed, m1. cbn [handles set_handles]. rewrite update_len, app_length. unfold h. cbn. lia. }
  assert (S2 : suspended [] m2 = Some (length (gens m))). { change (suspended [] m2) with (suspended [] m0). unfold m0. rewrite started_suspended by exact I. reflexivity. }
  pose proof (F_suspended _ _ _ _ F3 S2) as S3. set (g := length (gens m)) in *.
  destruct (suspended_gen _ _ _ S3) as [G3 [x [X3 [D3 O3]]]].
  assert (CU : exists v, cur s3 [] = Some v).
  { pose proof (is_open_obj [] m3 s3 R3) as Q. rewrite O3 in Q. unfold is_open in Q. destruct (cur s3 []) as [v|]; [eauto|discriminate]. }
  destruct CU as [v CU]. set (m4 := progressed h Done m3).
  assert (R4 : R m4 s3) by (apply R_handles; exact R3).
  pose proof (exhaust_root g m4 s3 v R4 S3 CU) as R5. set (m5 := exhaust g m4) in *.
  assert (H0 : nth_error (heap m5) 0 = Some v).
  { change (nth_error (heap m3) 0 = Some v). rewrite (r_cur _ _ R3) in CU. rewrite O3 in CU. apply (i_values m3 (r_inv _ _ R3)) in O3.
    destruct O3 as [_ [_ Z]]. rewrite (proj2 Z eq_refl) in CU. exact CU. }
  assert (CL : close [] h (ex a) m3 = (forget [] (add_log (Stored []) (if autosave then set_disk (nth_error (heap m5) 0) m5 else m5)), ex a)).
  { cbn [M_context.close]. rewrite H3. fold m4. change (generators m4 []) with (generators m3 []). rewrite G3. change (nth_error (gens m4) g) with (nth_error (gens m3) g).
    rewrite X3, D3. fold m5. reflexivity. }
  rewrite CL. cbn [fst snd]. set (m6 := if autosave then _ else m5).
  assert (R6 : R m6 (mk_views v (upd (cur s3) [] None) (if autosave then Some v else saved s3) (history s3))).
  { unfold m6. destruct autosave; [|exact R5]. rewrite H0. exact (disk_R m5 _ (Some v) R5). }
  assert (RC : R (add_log (Stored []) m6) (closed_root autosave s3)).
  { unfold closed_root. rewrite CU. exact (log_R m6 _ (Stored []) R6). }
  assert (S5 : suspended [] m5 = None). { unfold m5. rewrite (exhaust_suspended []); [apply path_eqb_refl || reflexivity|exact (r_inv _ _ R4)|exact S3]. }
  assert (S6 : suspended [] (add_log (Stored []) m6) = None) by (unfold m6; destruct autosave; exact S5).
  split; [exact (forget_R [] _ _ RC S6)|]. split; [|cbn [agree]; rewrite left_shared_false; reflexivity].
  apply F_intro.
  - apply F0_forget; [|exact S|exact S6]. apply F0_log.
    assert (F5 : F0 m m5).
    { apply (F0_exhaust m m4 [] g); [|exact (r_inv _ _ R4)|exact S|exact S3|unfold g; lia]. apply F0_progressed; [|unfold h; apply Nat.le_refl].
      exact (F0_trans _ _ _ F2 (F_F0 _ _ F3)). }
    unfold m6. destruct autosave; [apply F0_disk|]; exact F5.
  - intros k' O'. rewrite forget_obj by exact S6. assert (E : obj k' (add_log (Stored []) m6) = obj k' m5) by (unfold m6; destruct autosave; reflexivity).
    rewrite E. unfold m5. rewrite (exhaust_obj []); [|exact (r_inv _ _ R4)|exact S3]. destruct (path_eqb k' []) eqn:P; [reflexivity|].
    apply (f_closed _ _ F3). rewrite O2, P. exact O'.
Qed.

(** The part of a child view that runs inside its parent. *)
Definition ex' {A} (x : inside A) : option exn := match x with Not_loaded _ e => Some e | Finished _ _ f => f end.
Definition mb' (n : nat) (p : path) (A : Type) (mb : nat -> nat -> st -> st * A) (hp op : nat) (m : st) : st * inside A :=
  match nth_error (heap m) op with
  | None => (m, Not_loaded A OtherError)
  | Some pv =>
      match load n pv with
      | Err e => (m, Not_loaded A e)
      | Ok v =>
          let o := length (heap m) in
          let m := started (n :: p) o hp op (set_heap (heap m ++ [v]) m) in
          let h := length (handles m) in
          let g := pred (length (gens m)) in
          let (m, a) := mb h o (progressed h Open (set_handles (handles m ++ [mk_handle (n :: p) true Ready]) m)) in
          let m := exhaust g (progressed h Done m) in
          match nth_error (heap m) o, nth_error (heap m) op with
          | Some v', Some pv' =>
              match store n v' pv' with
              | Ok w => (add_log (Stored (n :: p)) (edit op (fun _ => w) m), Finished A a None)
              | Err e => (m, Finished A a (Some e))
              end
          | _, _ => (m, Not_loaded A OtherError)
          end
      end
  end.
Definition sb' (n : nat) (p : path) (A : Type) (sb : views -> views * A) (s : views) : views * inside A :=
  match cur s p with
  | None => (s, Not_loaded A OtherError)
  | Some pv =>
      match load n pv with
      | Err e => (s, Not_loaded A e)
      | Ok v =>
          let (s, a) := sb (opened (n :: p) v s) in
          match cur s (n :: p), cur s p with
          | Some v', Some pv' =>
              match store n v' pv' with
              | Ok w => (wrote (n :: p) (put p (Some w) (put (n :: p) None s)), Finished A a None)
              | Err e => (put (n :: p) None s, Finished A a (Some e))
              end
          | _, _ => (s, Not_loaded A OtherError)
          end
      end
  end.
Lemma not_anc n p : ~ anc (n :: p) p.
Proof. intros [l E]. apply (f_equal (@length nat)) in E. rewrite app_length in E. cbn in E. lia. Qed.
Lemma neq_cons (n : nat) p : p <> n :: p.
Proof. intros E. apply (f_equal (@length nat)) in E. cbn in E. lia. Qed.

(** The state in the middle of the child view: opened, body done, everything still in place. *)
Record middle (n : nat) (p : path) (A : Type) mb sb (m m3 : st) (s s3 : views) (hp op h o : nat) (v pv : V) (a : A) : Prop := {
  md_mb : mb h o (progressed h Open (set_handles (handles (started (n :: p) o hp op (set_heap (heap m ++ [v]) m)) ++ [mk_handle (n :: p) true Ready])
            (started (n :: p) o hp op (set_heap (heap m ++ [v]) m)))) = (m3, a);
  md_sb : sb (opened (n :: p) v s) = (s3, a);
  md_R : R m3 s3;
  md_F0 : F0 m m3;
  md_closed : forall k', obj k' m = None -> k' <> n :: p -> obj k' m3 = None;
  md_handle : nth_error (handles m3) h = Some (mk_handle (n :: p) true Open);
  md_susp : suspended (n :: p) m3 = Some (length (gens m));
  md_gen : nth_error (gens m3) (length (gens m)) = Some (mk_gen false o hp op);
  md_parent : obj p m3 = Some op;
  md_obj : obj (n :: p) m3 = Some o }.
Lemma child_middle n p A mb sb m0 m s hp op v pv : obj (n :: p) m0 = None -> body_ok (n :: p) m0 A mb sb ->
  (forall k', obj k' m0 = None -> ~ anc k' p -> obj k' m = None) -> (forall k' o', obj k' m0 = Some o' -> obj k' m = Some o') ->
  R m s -> obj p m = Some op ->
  exists m3 s3 a, middle n p A mb sb m m3 s s3 hp op (length (handles m)) (length (heap m)) v pv a.
Proof.
  intros O0 B C CK r OP. pose proof (r_inv _ _ r) as I. set (k := n :: p) in *.
  assert (O : obj k m = None) by (apply C; [exact O0|apply not_anc]). pose proof (proj1 (obj_none _ _) O) as S.
  set (o := length (heap m)). set (mp := set_heap (heap m ++ [v]) m).
  assert (Rp : R mp s) by (apply push_R; exact r). pose proof (r_inv _ _ Rp) as Ip.
  set (m1 := started k o hp op mp). set (h := length (handles m)).
  assert (Z : o = 0 <-> k = []). { split; [|discriminate]. unfold o. intros Z. destruct (heap m) eqn:H; [contradiction (i_heap m I)|discriminate]. }
  assert (R1 : R m1 (opened k v s)).
  { apply started_R; [exact Rp|exact O|unfold mp, o; cbn [heap set_heap]; apply nth_last|exact Z| |discriminate].
    intros k' O'. contradiction (fresh_object m v I k' O'). }
  set (m2 := progressed h Open (set_handles (handles m1 ++ [mk_handle k true Ready]) m1)).
  assert (R2 : R m2 (opened k v s)) by (apply R_handles, R_handles; exact R1).
  assert (O2 : forall k', obj k' m2 = if path_eqb k' k then Some o else obj k' m).
  { intros k'. change (obj k' m2) with (obj k' m1). unfold m1. rewrite started_obj by exact Ip. reflexivity. }
  assert (F2 : F0 m m2).
  { apply F0_progressed; [|unfold h; lia]. exact (F0_add_handle m m1 k true (F0_started m mp k o hp op (F0_push m m v (F0_refl m)) Ip S)). }
  destruct (B m2 (opened k v s) h o) as [R3 [F3 E3]]; [| |exact R2|rewrite O2, path_eqb_refl; reflexivity|].
  { intros k' O' N. rewrite O2. destruct (path_eqb k' k) eqn:P.
    - apply path_eqb_true in P. subst k'. contradiction N. exists []. reflexivity.
    - apply C; [exact O'|]. intros [l E]. apply N. exists (n :: l). unfold k. rewrite E. reflexivity. }
  { intros k' o' O'. rewrite O2. rewrite path_eqb_neq; [apply CK; exact O'|]. congruence. }
  destruct (mb h o m2) as [m3 a] eqn:EM. destruct (sb (opened k v s)) as [s3 a'] eqn:ES. cbn [fst snd] in *. subst a'.
  assert (S2 : suspended k m2 = Some (length (gens m))).
  { change (suspended k m2) with (suspended k m1). unfold m1. rewrite started_suspended by exact Ip. rewrite path_eqb_refl. reflexivity. }
  assert (G2 : nth_error (gens m2) (length (gens m)) = Some (mk_gen false o hp op)).
  { change (nth_error (gens m ++ [mk_gen false o hp op]) (length (gens m)) = Some (mk_gen false o hp op)). apply nth_last. }
  exists m3, s3, a. split.
  - exact EM.
  - exact ES.
  - exact R3.
  - exact (F0_trans _ _ _ F2 (F_F0 _ _ F3)).
  - intros k' O' N. apply (f_closed _ _ F3). rewrite O2, path_eqb_neq by exact N. exact O'.
  - rewrite (f_handles _ _ F3).
    + unfold m2, progressed. cbn [handles set_handles]. rewrite update_nth_same. change (handles m1) with (handles m). unfold h. rewrite nth_last. reflexivity.
    + unfold m2, progressed. cbn [handles set_handles]. rewrite update_len, app_length. change (handles m1) with (handles m). unfold h. cbn. lia.
  - exact (F_suspended _ _ _ _ F3 S2).
  - rewrite (f_gens _ _ F3); [exact G2|]. exact (nth_lt _ _ _ G2).
  - apply (F_obj _ _ _ _ F3). rewrite O2, path_eqb_neq by apply neq_cons. exact OP.
  - apply (F_obj _ _ _ _ F3). rewrite O2, path_eqb_refl. reflexivity.
Qed.
(** After the child view is exhausted. *)
Lemma middle_after n p A mb sb m m3 s s3 hp op h o v pv a : R m s -> obj (n :: p) m = None -> length (handles m) <= h ->
  middle n p A mb sb m m3 s s3 hp op h o v pv a ->
  let m5 := exhaust (length (gens m)) (progressed h Done m3) in
  R m5 (put (n :: p) None s3) /\ F m m5 /\ obj p m5 = Some op /\ suspended (n :: p) m5 = None.
Proof.
  intros r O L M m5. destruct M as [_ _ R3 F3 C3 _ S3 _ OP _]. set (m4 := progressed h Done m3) in *.
  assert (R4 : R m4 s3) by (apply R_handles; exact R3). assert (S4 : suspended (n :: p) m4 = Some (length (gens m))) by exact S3.
  pose proof (r_inv _ _ R4) as I4. split; [apply exhaust_R; [exact R4|exact S4|discriminate]|].
  assert (OB : forall k', obj k' m5 = if path_eqb k' (n :: p) then None else obj k' m4) by (intros k'; unfold m5; apply exhaust_obj; assumption).
  split; [|split].
  - apply F_intro.
    + apply (F0_exhaust m m4 (n :: p)); [|exact I4|apply obj_none; exact O|exact S4|lia]. apply F0_progressed; assumption.
    + intros k' O'. rewrite OB. destruct (path_eqb k' (n :: p)) eqn:P; [reflexivity|]. apply C3; [exact O'|]. intros ->. rewrite path_eqb_refl in P. discriminate.
  - rewrite OB, path_eqb_neq by apply neq_cons. exact OP.
  - apply obj_none. rewrite OB, path_eqb_refl. reflexivity.
Qed.
Lemma cur_some k m s o : R m s -> obj k m = Some o -> exists v, cur s k = Some v /\ nth_error (heap m) o = Some v.
Proof.
  intros r O. pose proof (is_open_obj k m s r) as Q. rewrite O in Q. unfold is_open in Q. rewrite (r_cur _ _ r) in *. rewrite O in *.
  destruct (nth_error (heap m) o) as [v|]; [eauto|discriminate].
Qed.
Lemma child_body n p A mb sb m0 : obj (n :: p) m0 = None -> body_ok (n :: p) m0 A mb sb ->
  body_ok p m0 (inside A) (mb' n p A mb) (sb' n p A sb).
Proof.
  intros O0 B m s hp op C CK r OP. destruct (cur_some p m s op r OP) as [pv [CP HP]]. unfold mb', sb'. rewrite CP, HP.
  destruct (load n pv) as [v|e]; [|cbn; split; [exact r|split; [apply F_refl|reflexivity]]].
  assert (O : obj (n :: p) m = None) by (apply C; [exact O0|apply not_anc]).
  destruct (child_middle n p A mb sb m0 m s hp op v pv O0 B C CK r OP) as [m3 [s3 [a M]]]. pose proof M as [EM ES R3 _ _ _ _ _ OP3 OK3].
  change (handles (started (n :: p) (length (heap m)) hp op (set_heap (heap m ++ [v]) m))) with (handles m) in *.
  cbn zeta. rewrite EM, ES.
  assert (G : pred (length (gens (started (n :: p) (length (heap m)) hp op (set_heap (heap m ++ [v]) m)))) = length (gens m)).
  { change (pred (length (gens m ++ [mk_gen false (length (heap m)) hp op])) = length (gens m)). rewrite app_length. cbn. lia. }
  rewrite G. destruct (middle_after _ _ _ _ _ _ _ _ _ _ _ _ _ _ _ _ r O (Nat.le_refl _) M) as [R5 [F5 [OP5 _]]].
  set (m5 := exhaust _ _) in *. destruct (cur_some _ _ _ _ R3 OK3) as [v' [CV HV]]. destruct (cur_some _ _ _ _ R3 OP3) as [pv' [CPV HPV]].
  change (heap m5) with (heap m3). rewrite CV, CPV, HV, HPV. destruct (store n v' pv') as [w|e]; cbn [fst snd].
  - assert (CP5 : cur (put (n :: p) None s3) p = Some pv').
    { unfold put. cbn [cur]. rewrite upd_other by apply neq_cons. exact CPV. }
    pose proof (edit_R p op (fun _ => w) m5 _ pv' R5 OP5 CP5) as R6. cbn in R6. split; [exact (log_R _ _ (Stored (n :: p)) R6)|].
    split; [|reflexivity]. apply F_intro; [apply F0_log, F0_edit, F_F0; exact F5|]. intros k' O'. apply (f_closed _ _ F5 k' O').
  - split; [exact R5|]. split; [exact F5|reflexivity].
Qed.
Lemma sim_child n p : sim p -> sim (n :: p).
Proof.
  intros IH A ex mb sb m s r B. destruct (obj (n :: p) m) as [o|] eqn:O; [exact (with_shared (n :: p) A ex mb sb m s o r B O)|].
  assert (IO : is_open (n :: p) s = false) by (rewrite (is_open_obj _ m s r), O; reflexivity). pose proof (r_inv _ _ r) as I.
  pose proof (proj1 (obj_none _ m) O) as S.
  destruct (IH (inside A) ex' (mb' n p A mb) (sb' n p A sb) m s r (child_body n p A mb sb m O B)) as [RP [FP AG]].
  change (within (n :: p) A sb s) with (if is_open (n :: p) s then let (s0, a) := sb s in (s0, Ok a) else
    let (s0, r0) := within p (inside A) (sb' n p A sb) s in
    (s0, match r0 with
         | Err e => Err e
         | Ok (Not_loaded _ e) => Err (if is_open p s && key_error e then StopIteration else e)
         | Ok (Finished _ a None) => Ok a
         | Ok (Finished _ a (Some e)) => if is_open p s && key_error e then Ok a else Err e
         end)).
  rewrite IO. destruct (within p (inside A) (sb' n p A sb) s) as [sf rs] eqn:EW. cbn [fst snd] in *.
  unfold mwith in *. cbn [M_context.call]. rewrite S. destruct (call p m) as [m1 [hp|e]] eqn:CP.
  2: { cbn [fst snd] in *. split; [exact RP|]. split; [exact FP|]. destruct rs as [[e'|a f]|e'].
       - cbn in AG. discriminate.
       - cbn in AG. discriminate.
       - cbn [agree] in *. destruct AG as [AG|[a AG]]; [|discriminate]. injection AG as ->. left. reflexivity. }
  destruct (call_ok p m m1 hp I CP) as [op [I1 [O1 [E1 [_ [N1 K1]]]]]]. rewrite E1 in *. set (m2 := progressed hp Open m1) in *.
  assert (I2 : Inv m2) by (apply Inv_handles; exact I1). assert (OP : obj p m2 = Some op) by exact O1.
  destruct (abs_ok m2 I2) as [s2 R2].
  destruct (cur_some p m2 s2 op R2 OP) as [pv [_ HP]]. unfold mb' in RP, FP, AG. rewrite HP in *. destruct (load n pv) as [v|e] eqn:LD.
  - destruct (child_middle n p A mb sb m m2 s2 hp op v pv O B N1 K1 R2 OP) as [m3 [s3 [a M]]]. pose proof M as [EM _ R3 _ _ H3 S3 G3 OP3 OK3].
    change (handles (started (n :: p) (length (heap m2)) hp op (set_heap (heap m2 ++ [v]) m2))) with (handles m2) in *.
    cbn zeta in RP, FP, AG. rewrite EM in RP, FP, AG.
    assert (G : pred (length (gens (started (n :: p) (length (heap m2)) hp op (set_heap (heap m2 ++ [v]) m2)))) = length (gens m2)).
    { change (pred (length (gens m2 ++ [mk_gen false (length (heap m2)) hp op])) = length (gens m2)). rewrite app_length. cbn. lia. }
    rewrite G in RP, FP, AG. unfold add_handle.
    change (handles (started (n :: p) (length (heap m2)) hp op (set_heap (heap m2 ++ [v]) m2))) with (handles m2). cbv beta iota.
    rewrite (enter_ready (length (handles m2)) (n :: p) true _ (length (heap m2))); [|apply nth_last|apply upd_same].
    rewrite EM. cbn [M_context.close]. rewrite H3. set (m4 := progressed (length (handles m2)) Done m3) in *.
    change (generators m4 (n :: p)) with (generators m3 (n :: p)). destruct (suspended_gen _ _ _ S3) as [GG _]. rewrite GG.
    change (nth_error (gens m4) (length (gens m2))) with (nth_error (gens m3) (length (gens m2))). rewrite G3. cbn [g_done g_object g_parent g_parent_object].
    assert (O2 : obj (n :: p) m2 = None) by (apply N1; [exact O|apply not_anc]).
    destruct (middle_after _ _ _ _ _ _ _ _ _ _ _ _ _ _ _ _ R2 O2 (Nat.le_refl _) M) as [_ [_ [_ S5]]]. fold m4 in S5.
    set (m5 := exhaust (length (gens m2)) m4) in *. change (heap m5) with (heap m3) in *.
    destruct (cur_some _ _ _ _ R3 OK3) as [v' [_ HV]]. destruct (cur_some _ _ _ _ R3 OP3) as [pv' [_ HPV]]. rewrite HV, HPV in *.
    assert (KEY : forall mf rf f,
      R mf sf -> F m mf -> agree ex' (is_open p s) (Ok (rf, Finished A a f)) rs ->
      let res := match rf with Some e' => (mf, Some e') | None => (forget (n :: p) mf, ex a) end in
      R (fst res) sf /\ F m (fst res) /\
      agree ex false (Ok (snd res, a)) match rs with
        | Err e => Err e
        | Ok (Not_loaded _ e) => Err (if is_open p s && key_error e then StopIteration else e)
        | Ok (Finished _ a None) => Ok a
        | Ok (Finished _ a (Some e)) => if is_open p s && key_error e then Ok a else Err e
        end).
    { clear -O. intros mf rf f Rf Ff Af. cbn zeta. pose proof (f_closed _ _ Ff _ O) as Of. apply obj_none in Of.
      assert (RG : R (fst match rf with Some e' => (mf, Some e') | None => (forget (n :: p) mf, ex a) end) sf).
      { destruct rf; [exact Rf|]. apply forget_R; assumption. }
      assert (FG : F m (fst match rf with Some e' => (mf, Some e') | None => (forget (n :: p) mf, ex a) end)).
      { destruct rf; [exact Ff|]. apply forget_F; [exact Ff|apply obj_none; exact O|exact Of]. }
      split; [exact RG|]. split; [exact FG|]. destruct rs as [[e'|a' f']|e']; cbn [agree] in Af.
      - discriminate.
      - injection Af as -> -> ->. cbn [ex']. destruct f' as [e'|]; cbn [left_shared].
        + destruct (is_open p s) eqn:SH; cbn [andb].
          * destruct e'; cbn [key_error left_shared snd agree]; rewrite ?left_shared_false; try reflexivity; right; eexists; reflexivity.
          * destruct e'; cbn [snd agree]; right; eexists; reflexivity.
        + cbn [snd agree]. rewrite left_shared_false. reflexivity.
      - destruct Af as [Af|[x Af]]; [discriminate|]. injection Af as -> <-. cbn [snd agree]. right. eexists. reflexivity. }
    destruct (store n v' pv') as [w|e'].
    + cbn [ex'] in *. destruct (close p hp None _) as [mf rf] eqn:CL. cbn [fst snd] in RP, FP, AG.
      specialize (KEY mf rf None RP FP AG). destruct rf as [e'|]; exact KEY.
    + cbn [ex'] in *. destruct (close p hp (Some e') _) as [mf rf] eqn:CL. cbn [fst snd] in RP, FP, AG.
      specialize (KEY mf rf (Some e') RP FP AG). destruct rf as [e''|]; exact KEY.
  - cbn [ex'] in *. destruct (close p hp (Some e) m2) as [mf rf] eqn:CL. cbn [fst snd] in *. split; [exact RP|]. split; [exact FP|].
    destruct rs as [[e'|a' f']|e']; cbn [agree] in *.
    + injection AG as -> <-. left. cbn [ex']. destruct (is_open p s) eqn:SH; cbn [andb].
      * destruct e; reflexivity.
      * destruct e; reflexivity.
    + discriminate.
    + destruct AG as [AG|[x AG]]; [discriminate|]. injection AG as -> <-. left. reflexivity.
Qed.
Lemma sim_all k : sim k.
Proof. induction k as [|n p IH]; [exact sim_root|exact (sim_child n p IH)]. Qed.

(** * Programs *)
Definition env_ok (env : list nat) (keys : list path) (m : st) : Prop := Forall2 (fun o k => obj k m = Some o) env keys.
Lemma env_F env keys m m' : F m m' -> env_ok env keys m -> env_ok env keys m'.
Proof. intros f. induction 1; constructor; [apply (F_obj _ _ _ _ f); assumption|assumption]. Qed.
Lemma F0_env env keys m m' : (forall k o, obj k m = Some o -> obj k m' = Some o) -> env_ok env keys m -> env_ok env keys m'.
Proof. intros f. induction 1; constructor; [apply f; assumption|assumption]. Qed.
Lemma run_sim : forall (p : prog) env keys m s, R m s -> env_ok env keys m ->
  R (fst (run load store autosave p env m)) (fst (meaning load store autosave p keys s)) /\ F m (fst (run load store autosave p env m)) /\
  snd (run load store autosave p env m) = snd (meaning load store autosave p keys s).
Proof.
  induction p as [|i f|e|p1 IH1 p2 IH2|p1 IH1 p2 IH2|k p IH]; intros env keys m s r E; cbn [run meaning].
  - cbn. split; [exact r|]. split; [apply F_refl|reflexivity].
  - destruct (nth_error env i) as [o|] eqn:N.
    + assert (K : exists k, nth_error keys i = Some k /\ obj k m = Some o).
      { clear -E N. revert i N. induction E as [|x y l l' H E IH]; intros [|i] N; try discriminate.
        - injection N as ->. exists y. split; [reflexivity|exact H].
        - apply IH. exact N. }
      destruct K as [k [-> O]]. destruct (cur_some k m s o r O) as [v [C _]]. rewrite C. cbn [fst snd].
      split; [apply edit_R; assumption|]. split; [apply edit_F, F_refl|reflexivity].
    + assert (K : nth_error keys i = None).
      { clear -E N. revert i N. induction E as [|x y l l' H E IH]; intros [|i] N; try reflexivity; [discriminate|apply IH, N]. }
      rewrite K. cbn. split; [exact r|]. split; [apply F_refl|reflexivity].
  - cbn. split; [exact r|]. split; [apply F_refl|reflexivity].
  - destruct (IH1 env keys m s r E) as [R1 [F1 E1]]. destruct (run load store autosave p1 env m) as [m1 r1].
    destruct (meaning load store autosave p1 keys s) as [s1 r1']. cbn [fst snd] in *. subst r1'. destruct r1 as [e|].
    + cbn. auto.
    + destruct (IH2 env keys m1 s1 R1 (env_F _ _ _ _ F1 E)) as [R2 [F2 E2]]. split; [exact R2|]. split; [exact (F_trans _ _ _ F1 F2)|exact E2].
  - destruct (IH1 env keys m s r E) as [R1 [F1 E1]]. destruct (run load store autosave p1 env m) as [m1 r1].
    destruct (meaning load store autosave p1 keys s) as [s1 r1']. cbn [fst snd] in *. subst r1'. destruct r1 as [e|].
    + destruct (IH2 env keys m1 s1 R1 (env_F _ _ _ _ F1 E)) as [R2 [F2 E2]]. split; [exact R2|]. split; [exact (F_trans _ _ _ F1 F2)|exact E2].
    + cbn. auto.
  - assert (B : body_ok k m (option exn) (fun _ o m' => run load store autosave p (o :: env) m') (meaning load store autosave p (k :: keys))).
    { intros m' s' h o C K r' O'. apply IH; [exact r'|]. constructor; [exact O'|]. eapply F0_env; [|exact E]. exact K. }
    destruct (sim_all k (option exn) (fun x => x) _ _ m s r B) as [R1 [F1 A1]]. unfold mwith in R1, F1, A1.
    destruct (within k (option exn) (meaning load store autosave p (k :: keys)) s) as [s1 rs]. cbn [fst snd] in *.
    destruct (call k m) as [m1 [h|e]].
    2: { cbn [fst snd] in *. split; [exact R1|]. split; [exact F1|]. destruct rs as [a|e']; cbn [agree] in A1; [discriminate|].
         destruct A1 as [A1|[a A1]]; [|discriminate]. congruence. }
    destruct (enter h m1) as [m2 [o|e]].
    2: { cbn [fst snd] in *. split; [exact R1|]. split; [exact F1|]. destruct rs as [a|e']; cbn [agree] in A1; [discriminate|].
         destruct A1 as [A1|[a A1]]; [|discriminate]. congruence. }
    destruct (run load store autosave p (o :: env) m2) as [m3 r3]. destruct (close k h r3 m3) as [m4 r4]. cbn [fst snd] in *.
    split; [exact R1|]. split; [exact F1|]. destruct rs as [a|e']; cbn [agree] in A1.
    + injection A1 as -> ->. reflexivity.
    + destruct A1 as [A1|[a A1]]; [discriminate|]. congruence.
Qed.
Lemma initial_R d : R (initial d) (no_views d).
Proof.
  split; [|reflexivity|reflexivity|reflexivity|reflexivity]. split; [discriminate|discriminate|discriminate|discriminate|discriminate].
Qed.
(** A whole program, from a spec file without open views. *)
Theorem refinement (p : prog) d : let (m, r) := run load store autosave p [] (initial d) in let (s, r') := meaning load store autosave p [] (no_views d) in
  r = r' /\ nth_error (heap m) 0 = Some (doc s) /\ disk m = saved s /\ log m = history s /\
  (forall k, suspended k m = None) /\ (forall k, cur s k = None).
Proof.
  destruct (run_sim p [] [] (initial d) (no_views d) (initial_R d) (Forall2_nil _)) as [r [f E]].
  destruct (run load store autosave p [] (initial d)) as [m r1]. destruct (meaning load store autosave p [] (no_views d)) as [s r2]. cbn [fst snd] in *.
  assert (N : forall k, obj k m = None) by (intros k; apply (f_closed _ _ f); reflexivity).
  split; [exact E|]. split; [apply (r_doc _ _ r), N|]. split; [apply (r_disk _ _ r)|]. split; [apply (r_log _ _ r)|]. split.
  - intros k. apply obj_none, N.
  - intros k. rewrite (r_cur _ _ r), N. reflexivity.
Qed.
End Context.
