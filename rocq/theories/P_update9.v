(** Proofs about updating values: definitions that have been switched already. *)
From Coq Require Import Ascii String.
From Coq Require Import NArith ZArith List Bool Lia Arith.
From Verif Require Import PyStr PyStrFacts Regex RegexFacts M_value Spec_value Spec_value2 P_value P_release2 P_context M_update Spec_update P_update P_update2 P_update3 P_update4 P_update5.
Import ListNotations.
Open Scope nat_scope.

Section Uni.
Context {U : Unicode}.
Section World.
Context {W : Type} (expand : str -> W -> W * result str) (isid : str -> bool).
Context (ex : str -> result str) (I : W -> Prop) (pure : forall s w, I w -> exists w', expand s w = (w', ex s) /\ I w').
Lemma empty_pattern s : ~ In LF s -> s <> [] -> re_match (Seq Caret (fold_right Seq Dollar [word []])) s = None.
Proof.
  intros L N. destruct (re_match _ s) as [m|] eqn:E; [|reflexivity]. exfalso. apply re_match_sound in E. apply Match_Seq in E as (s0 & M0 & M). apply Match_Caret in M0 as [-> _].
  cbn [fold_right] in M. apply Match_Seq in M as (s1 & M1 & M2). apply Match_Dollar in M2 as [-> D]. cbn in M1. inversion M1; subst. cbn [rest] in D.
  destruct s as [|c [|c' l]]; cbn in D; [now apply N| |discriminate]. apply N.eqb_eq in D. subst c. apply L. left. reflexivity.
Qed.
Definition switched (es : list entity) (pos : nat) (name : str) : Prop :=
  forall e, In e es -> e_name e = name -> e_tag e = false -> e_position e < pos -> e_flip e = true.
Theorem update_switched fuel value requested pos es w w' es' r p name body x : I w -> M_value.parse value = Ok [ConditionalMacroExpansion p name body] ->
  ex (lit "%{?" ++ name ++ lit ":1}") = Ok x -> (negated p = true <-> x <> []) -> switched es pos name -> requested <> [] -> ~ In LF requested ->
  update expand isid fuel value requested pos es w = (w', Ok (es', r)) -> es' = es /\ r = requested.
Proof.
  intros Iw Ep Ex Px Sw R1 R2 E. destruct fuel as [|fuel]; [discriminate|]. rewrite update_S in E. destruct (str_eqb value requested); [injection E as _ <- <-; auto|].
  assert (Fl : str_in name (flippable_entities pos es) = false).
  { destruct (str_in name (flippable_entities pos es)) eqn:S; [|reflexivity]. exfalso. unfold str_in in S. apply existsb_exists in S as (n & Hn & Q). apply str_eqb_eq in Q. subst n.
    unfold flippable_entities in Hn. apply in_map_iff in Hn as (e & En & He). apply filter_In in He as [He B]. rewrite !andb_true_iff, !negb_true_iff in B. destruct B as [[B1 B2] B3]. apply Nat.ltb_lt in B1.
    rewrite (Sw e He En B2 B1) in B3. discriminate. }
  assert (A : forall fl next, str_in name fl = false -> (forall w w' es' r, I w -> next w = (w', Ok (es', r)) -> es' = es /\ r = requested) -> forall w w' es' r, I w -> run_attempt expand isid (update expand isid fuel) value requested pos es fl next w = (w', Ok (es', r)) -> es' = es /\ r = requested).
  { clear E Iw w w'. intros fl next Nf Hn w w' es0 r0 Iw E. unfold run_attempt in E. destruct (construct_regex expand isid value (modifiable_entities pos es) fl w) as [w1 [q|]] eqn:Ec; [|discriminate].
    assert (Q : I w1 /\ p_regex q = Seq Caret (fold_right Seq Dollar [word []])).
    { unfold construct_regex in Ec. rewrite Ep in Ec. cbn [flatten] in Ec. rewrite flatten_node_cond in Ec.
      assert (Ev : exists w2, I w2 /\ evaluate expand (modifiable_entities pos es) fl p name ([], []) w = (w2, Ok (false, ([], [])))).
      { unfold evaluate. destruct (negb (str_in name (modifiable_entities pos es))); [exists w; auto|]. destruct (pure (lit "%{?" ++ name ++ lit ":1}") w Iw) as (w2 & -> & I2). rewrite Ex. exists w2. split; [exact I2|].
        rewrite Nf. destruct (negated p), x as [|c x]; cbn [negb orb andb]; try reflexivity; exfalso; [apply Px; reflexivity|destruct Px as [_ Px]; discriminate (Px ltac:(discriminate))]. }
      destruct Ev as (w2 & I2 & ->) in Ec. cbn in Ec. injection Ec as <- <-. split; [exact I2|reflexivity]. }
    destruct Q as [I1 Q]. rewrite Q, (empty_pattern _ R2 R1) in E. apply (Hn _ _ _ _ I1 E). }
  refine (A _ _ Fl _ _ _ _ _ Iw E). apply A; [reflexivity|]. intros w1 w2 es1 r1 _ E1. injection E1 as _ <- <-. auto.
Qed.
End World.
End Uni.
