(** Proofs about slices of positional arguments. *)
From Coq Require Import NArith ZArith List Bool Lia Sorted.
From Verif Require Import PyStr PyStrFacts M_options Spec_options P_options2 P_options3 P_options4 M_slice Spec_slice P_slice P_slice2.
From Verif Require P_slice3.
Import ListNotations.
Open Scope nat_scope.

Lemma drop_app : forall f a b i, drop_positionals f i (a ++ b) = drop_positionals f i a ++ drop_positionals f (i + length (positionals a)) b.
Proof.
  intros f. induction a as [|[c x|v] a IH]; intros b i; cbn [app drop_positionals positionals length].
  - rewrite Nat.add_0_r. reflexivity.
  - rewrite IH. reflexivity.
  - rewrite IH, <- app_assoc. do 3 f_equal. lia.
Qed.
Lemma drop_ext : forall f g a i, (forall p, i <= p < i + length (positionals a) -> f p = g p) -> drop_positionals f i a = drop_positionals g i a.
Proof.
  intros f g. induction a as [|[c x|v] a IH]; intros i H; cbn [drop_positionals positionals length] in *; [reflexivity| |].
  - f_equal. apply IH. exact H.
  - rewrite (H i) by lia. f_equal. apply IH. intros p Hp. apply H. lia.
Qed.
Lemma drop_none : forall f a i, (forall p, i <= p < i + length (positionals a) -> f p = false) -> drop_positionals f i a = a.
Proof.
  intros f. induction a as [|[c x|v] a IH]; intros i H; cbn [drop_positionals positionals length] in *; [reflexivity| |].
  - f_equal. apply IH. exact H.
  - rewrite (H i) by lia. cbn [app]. f_equal. apply IH. intros p Hp. apply H. lia.
Qed.
Lemma values_app : forall f a b i, set_values f i (a ++ b) = set_values f i a ++ set_values f (i + length (positionals a)) b.
Proof.
  intros f. induction a as [|[c x|v] a IH]; intros b i; cbn [app set_values positionals length].
  - rewrite Nat.add_0_r. reflexivity.
  - rewrite IH. reflexivity.
  - rewrite IH. replace (S i + length (positionals a)) with (i + S (length (positionals a))) by lia. reflexivity.
Qed.
Lemma values_ext : forall f g a i, (forall p, i <= p < i + length (positionals a) -> f p = g p) -> set_values f i a = set_values g i a.
Proof.
  intros f g. induction a as [|[c x|v] a IH]; intros i H; cbn [set_values positionals length] in *; [reflexivity| |].
  - f_equal. apply IH. exact H.
  - rewrite (H i) by lia. f_equal. apply IH. intros p Hp. apply H. lia.
Qed.
Lemma values_none : forall a i, set_values (fun _ => None) i a = a.
Proof. induction a as [|[c x|v] a IH]; intros i; cbn; [reflexivity| |]; rewrite IH; reflexivity. Qed.

Section Uni.
Context {U : Unicode}.
Variables (os : str) (ds : list (char * oval)) (toks : list token).
Let O := mk_opts toks os ds.
Lemma del_step : forall pre t post i1 i2, cmdline os pre i1 -> t_type t <> WHITESPACE -> ~ dashed (t_value t) -> cmdline os post i2 ->
  exists a b, pos_delete_token (pre ++ t :: post) (length pre) = a ++ b /\ cmdline os a i1 /\ cmdline os b i2 /\ items_from O 0 a = items_from O 0 pre.
Proof.
  intros pre t post i1 i2 C1 Tt Nd C2. unfold pos_delete_token. destruct (unsnoc pre) as [->|(pre' & w & ->)].
  - cbn [length app]. destruct post as [|p post].
    + exists [], []. cbn. auto.
    + cbn [length Nat.ltb Nat.leb andb tok_at nth]. change (tok_at (t :: p :: post) 1) with p. destruct (is_ws p) eqn:Wp.
      * apply is_ws_true in Wp. exists [], post. split; [reflexivity|]. split; [exact C1|]. split; [|reflexivity]. inversion C2; subst; (assumption || congruence).
      * exists [], (p :: post). split; [reflexivity|]. auto.
  - rewrite app_length. cbn [length]. rewrite Nat.add_1_r. rewrite <- app_assoc. cbn [app]. rewrite tok_at_mid. destruct (is_ws w) eqn:Ww.
    + apply is_ws_true in Ww. rewrite remove_at_app, remove_at_app. exists pre', post. split; [reflexivity|].
      assert (C' : cmdline os pre' i1) by (eapply cmdline_unsnoc; eauto). split; [exact C'|]. split; [exact C2|].
      unfold O. rewrite (cmdline_items os ds toks pre' i1 C'). rewrite items_space by exact Ww. cbn. rewrite app_nil_r. reflexivity.
    + exists (pre' ++ [w]), post. split; [|auto].
      replace (S (length pre')) with (length (pre' ++ [w])) by (rewrite app_length; cbn; lia).
      replace (pre' ++ w :: t :: post) with ((pre' ++ [w]) ++ t :: post) by now rewrite <- app_assoc. now rewrite remove_at_app.
Qed.
Lemma nth_items : forall pre i1 l j, cmdline os pre i1 -> j < length (positionals i1) -> nth j (items_from O 0 (pre ++ l)) 0 = nth j (items_from O 0 pre) 0.
Proof. intros pre i1 l j C H. unfold O. rewrite (cmdline_items os ds toks pre i1 C). rewrite app_nth1; [reflexivity|]. rewrite (items_length os ds toks pre i1 C). exact H. Qed.
Lemma del_desc : forall ks l its, cmdline os l its -> StronglySorted gt ks -> Forall (fun k => k < length (positionals its)) ks ->
  exists l', delete_tokens l (map (fun k => nth k (items_from O 0 l) 0) ks) = Ok l' /\ cmdline os l' (drop_positionals (fun p => existsb (Nat.eqb p) ks) 0 its).
Proof.
  induction ks as [|k ks IH]; intros l its C St F; cbn [map delete_tokens].
  - exists l. split; [reflexivity|]. rewrite drop_none by reflexivity. exact C.
  - inversion St as [|? ? S1 S2]; subst. inversion F as [|? ? Fk F2]; subst.
    destruct (locate_pos os ds toks l its k C Fk) as (pre & t & post & i1 & i2 & -> & Tt & Nd & -> & C1 & C2 & Lk & N). fold O in N. rewrite N.
    rewrite (proj2 (Nat.ltb_lt (length pre) _)) by (rewrite app_length; cbn; lia).
    destruct (del_step pre t post i1 i2 C1 Tt Nd C2) as [a [b [E [Ca [Cb It]]]]]. rewrite E.
    assert (F3 : Forall (fun j => j < length (positionals i1)) ks) by (eapply Forall_impl; [|exact S2]; cbn; lia).
    assert (M : map (fun k => nth k (items_from O 0 (pre ++ t :: post)) 0) ks = map (fun k => nth k (items_from O 0 (a ++ b)) 0) ks).
    { apply map_ext_in. intros j Hj. rewrite Forall_forall in F3. specialize (F3 j Hj). rewrite (nth_items pre i1 _ j C1 F3), (nth_items a i1 _ j Ca F3), It. reflexivity. }
    rewrite M. destruct (IH (a ++ b) (i1 ++ i2) (cmdline_app os a b i1 i2 Ca Cb) S1) as [l' [E' C']].
    { eapply Forall_impl; [|exact F3]. cbn. intros j Hj. rewrite positionals_app, app_length. lia. }
    exists l'. split; [exact E'|]. rewrite drop_app in C' |- *. cbn [drop_positionals existsb Nat.add]. rewrite Lk, Nat.eqb_refl. cbn [orb app].
    rewrite (drop_ext _ (fun p => existsb (Nat.eqb p) ks) i1), (drop_none _ i2 (S k)).
    + rewrite (drop_none _ i2) in C'; [exact C'|]. intros p Hp. apply not_in_false. intros X. rewrite Forall_forall in F3. specialize (F3 p X). lia.
    + intros p Hp. rewrite (proj2 (Nat.eqb_neq p k)) by lia. apply not_in_false. intros X. rewrite Forall_forall in F3. specialize (F3 p X). lia.
    + intros p Hp. rewrite (proj2 (Nat.eqb_neq p k)) by lia. reflexivity.
Qed.
Lemma assigned_none {A} : forall is (vs : list A) p, ~ In p is -> assigned is vs p = None.
Proof.
  induction is as [|j is IH]; intros [|v vs] p H; cbn; try reflexivity. rewrite (proj2 (Nat.eqb_neq j p)) by (intros ->; apply H; left; reflexivity). apply IH. intros X. apply H. right. exact X.
Qed.
Lemma set_all : forall ks vs l its, cmdline os l its -> NoDup ks -> Forall (fun k => k < length (positionals its)) ks -> Forall (fun v => ~ dashed (oval_str v)) vs ->
  exists l', set_tokens l (map (fun k => nth k (items_from O 0 l) 0) ks) vs = (l', if length ks <=? length vs then None else Some IndexError) /\
    cmdline os l' (set_values (assigned ks (map oval_str vs)) 0 its).
Proof.
  induction ks as [|k ks IH]; intros vs l its C D F V.
  - exists l. split; [reflexivity|]. cbn. rewrite values_none. exact C.
  - destruct vs as [|v vs]; [exists l; split; [reflexivity|]; cbn; rewrite values_none; exact C|].
    inversion D as [|? ? D1 D2]; subst. inversion F as [|? ? Fk F2]; subst. inversion V as [|? ? Vv V2]; subst. cbn [map set_tokens length Nat.leb assigned].
    destruct (locate_pos os ds toks l its k C Fk) as (pre & t & post & i1 & i2 & -> & Tt & Nd & -> & C1 & C2 & Lk & N). fold O in N. rewrite N, update_at_app.
    set (t' := set_value (oval_str v) t).
    assert (It : items_from O 0 (pre ++ t :: post) = items_from O 0 (pre ++ t' :: post)).
    { unfold O. rewrite !(cmdline_items os ds toks pre i1 C1). rewrite (items_pos os ds toks post _ t) by assumption. rewrite (items_pos os ds toks post _ t'); [reflexivity|exact Tt|exact Vv]. }
    rewrite It. destruct (IH vs (pre ++ t' :: post) (i1 ++ IPos (oval_str v) :: i2)) as [l' [E' C']]; auto.
    + apply cmdline_app; [exact C1|]. apply (L_positional os t'); auto.
    + eapply Forall_impl; [|exact F2]. cbn. intros j Hj. rewrite positionals_app, app_length in *. cbn [positionals length] in *. exact Hj.
    + exists l'. split; [exact E'|]. rewrite values_app in C' |- *. cbn [set_values Nat.add] in C' |- *. rewrite Lk, Nat.eqb_refl in *. rewrite (assigned_none ks _ k D1) in C'.
      rewrite (values_ext _ (assigned ks (map oval_str vs)) i1), (values_ext _ (assigned ks (map oval_str vs)) i2); [exact C'| |].
      * intros p Hp. rewrite (proj2 (Nat.eqb_neq k p)) by lia. reflexivity.
      * intros p Hp. rewrite (proj2 (Nat.eqb_neq k p)) by lia. reflexivity.
Qed.
End Uni.
Theorem del_positionals_pos : forall (U : Unicode) os ds l its s, cmdline os l its -> (0 < step_of s)%Z ->
  exists l', del_positionals s (mk_opts l os ds) = Ok (mk_opts l' os ds) /\ cmdline os l' (drop_positionals (picks s (length (positionals its))) 0 its).
Proof.
  intros U os ds l its s C H. unfold del_positionals, get_items. cbn [o_tokens]. rewrite (items_length os ds l l its C).
  destruct (slice_range_pos s (length (positionals its)) H) as [is [E [St P]]]. rewrite E. cbn [bind]. rewrite <- map_rev.
  destruct (del_desc os ds l (rev is) l its C (sorted_rev_lt is St)) as [l' [E' C']].
  { apply Forall_rev. apply Forall_forall. intros p Hp. apply P in Hp. apply picks_lt in Hp. exact Hp. }
  exists l'. rewrite E'. split; [reflexivity|].
  rewrite (drop_ext _ (picks s (length (positionals its)))) in C'; [exact C'|]. intros p _. apply (existsb_picks s (length (positionals its))). intros q. rewrite <- in_rev. apply P.
Qed.
Lemma get_slice_map {A B} : forall (f : A -> B) s l, (let! r := get_slice s l in Ok (map f r)) = get_slice s (map f l).
Proof.
  intros f s l. unfold get_slice. rewrite map_length. destruct (slice_range s (length l)) as [is|]; cbn [bind]; [|reflexivity]. f_equal. symmetry. apply (picked_map f l is).
Qed.
Theorem get_positionals_spec : forall (U : Unicode) os ds l its s, cmdline os l its ->
  get_positionals s (mk_opts l os ds) = (let! vs := get_slice s (positionals its) in numbers_or_texts vs).
Proof.
  intros U os ds l its s C. rewrite <- (positionals_spec os ds l its C). unfold pos_list. rewrite <- get_slice_map. unfold get_positionals. destruct (get_slice s _) as [r|]; reflexivity.
Qed.
Theorem set_positionals_spec : forall (U : Unicode) os ds l its s vs, cmdline os l its -> step_of s <> 0%Z -> Forall (fun v => ~ dashed (oval_str v)) vs ->
  let is := positions s (length (positionals its)) in
  exists l', set_positionals s vs (mk_opts l os ds) = Ok (mk_opts l' os ds, if length is <=? length vs then None else Some IndexError) /\
    cmdline os l' (set_values (assigned is (map oval_str vs)) 0 its).
Proof.
  intros U os ds l its s vs C H V is. unfold set_positionals, get_items. cbn [o_tokens]. rewrite (items_length os ds l l its C).
  rewrite (slice_positions s _ H). cbn [bind]. fold is. destruct (set_all os ds l is vs l its C) as [l' [E' C']]; [apply P_slice3.positions_nodup|apply P_slice3.positions_lt|exact V|].
  exists l'. rewrite E'. split; [reflexivity|exact C'].
Qed.
