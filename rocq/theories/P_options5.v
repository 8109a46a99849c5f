(** Proofs about failures of option strings. *)
From Coq Require Import Ascii String.
From Coq Require Import NArith ZArith List Bool Lia.
From Verif Require Import PyStr PyStrFacts M_value M_options Spec_options P_options P_options2 P_options3 P_options4.
Import ListNotations.
Open Scope N_scope.

Lemma well_inv a t : well_quoted (a :: t) ->
  (a <> [DQUOTE] /\ a <> [SQUOTE] /\ a <> [BSLASH] /\ well_quoted t) \/ (a = [BSLASH] /\ exists b u, t = b :: u /\ well_quoted u) \/
  exists q body u, is_quote q = true /\ a = [q] /\ t = body ++ [q] :: u /\ inside_quotes q body /\ well_quoted u.
Proof. inversion 1; subst; [left; auto|right; left; split; [reflexivity|eauto]|right; right; eauto 10]. Qed.
Lemma inside_inv q a t : inside_quotes q (a :: t) ->
  (a <> [q] /\ a <> [BSLASH] /\ inside_quotes q t) \/ (a = [BSLASH] /\ exists b u, t = b :: u /\ inside_quotes q u).
Proof. inversion 1; subst; eauto 10. Qed.
Definition fine {A} (r : result A) : Prop := exists x, r = Ok x.
Lemma fine_prepend x r : fine (prepend x r) <-> fine r.
Proof. unfold fine, prepend. destruct r as [y|e]; cbn; split; intros (z & Q); try discriminate; eauto. Qed.
Lemma not_fine {A} e : ~ fine (@Err A e).
Proof. intros (x & Q). discriminate. Qed.

Section U.
Context {U : Unicode}.
Definition dflt_step (c : str) (inp' : list str) (v : str) : result (list token) :=
  if all_space c then prepend (flush DEFAULT v) (tok inp' (Space c))
  else if str_eqb c [DQUOTE] then prepend (flush DEFAULT v) (tok inp' (Quote DQUOTE []))
  else if str_eqb c [SQUOTE] then prepend (flush DEFAULT v) (tok inp' (Quote SQUOTE []))
  else if str_eqb c [BSLASH] then match inp' with [] => Err OptionsException | d :: inp'' => tok inp'' (Dflt (v ++ d)) end
  else tok inp' (Dflt (v ++ c)).
Lemma tok_fine n : forall inp, (length inp <= n)%nat ->
  (forall v, fine (tok inp (Dflt v)) <-> well_quoted inp) /\ (forall ws, fine (tok inp (Space ws)) <-> well_quoted inp) /\
  (forall q v, is_quote q = true -> fine (tok inp (Quote q v)) <-> exists body t, inp = body ++ [q] :: t /\ inside_quotes q body /\ well_quoted t).
Proof.
  induction n as [|n IH]; intros inp L.
  - destruct inp; [|cbn in L; lia]. split; [|split].
    + intros v. split; [constructor|]. cbn. unfold fine. eauto.
    + intros v. split; [constructor|]. cbn. unfold fine. eauto.
    + intros q v _. split; [intros Q; now apply not_fine in Q|]. intros (b & t & Q & _). destruct b; discriminate.
  - destruct inp as [|c inp']; [apply (IH []); cbn; lia|].
    assert (L' : (length inp' <= n)%nat) by (cbn in L; lia). pose proof (IH _ L') as (ID & IS & IQ).
    assert (Step : forall v, fine (dflt_step c inp' v) <-> well_quoted (c :: inp')).
    { intros v. unfold dflt_step. destruct (all_space c) eqn:Es.
      - rewrite fine_prepend, IS. assert (N : c <> [DQUOTE] /\ c <> [SQUOTE] /\ c <> [BSLASH]) by (repeat split; intros ->; discriminate).
        split; [intros W; now apply W_atom|]. intros W. apply well_inv in W as [(_ & _ & _ & W)|[(Q & _)|(q & b & u & Hq & Q & _)]]; [exact W|tauto|].
        exfalso. unfold is_quote in Hq. apply orb_true_iff in Hq as [Hq|Hq]; apply N.eqb_eq in Hq; subst q; tauto.
      - assert (Quo : forall q, is_quote q = true -> c = [q] -> fine (tok inp' (Quote q [])) <-> well_quoted (c :: inp')).
        { intros q Hq ->. rewrite (IQ q [] Hq). split.
          - intros (b & t & -> & B & W). now apply W_quoted.
          - intros W. apply well_inv in W as [(A & B & _)|[(Q & _)|(q' & b & u & _ & Q & -> & B & W)]].
            + exfalso. unfold is_quote in Hq. apply orb_true_iff in Hq as [Hq|Hq]; apply N.eqb_eq in Hq; subst q; tauto.
            + exfalso. injection Q as ->. discriminate.
            + injection Q as <-. eauto. }
        destruct (str_eqb c [DQUOTE]) eqn:E1; [apply str_eqb_eq in E1; rewrite fine_prepend; now apply Quo|].
        destruct (str_eqb c [SQUOTE]) eqn:E2; [apply str_eqb_eq in E2; rewrite fine_prepend; now apply Quo|].
        assert (N1 : c <> [DQUOTE]) by (intros ->; now rewrite str_eqb_refl in E1). assert (N2 : c <> [SQUOTE]) by (intros ->; now rewrite str_eqb_refl in E2).
        assert (NQ : forall q, is_quote q = true -> c <> [q]).
        { intros q Hq ->. unfold is_quote in Hq. apply orb_true_iff in Hq as [Hq|Hq]; apply N.eqb_eq in Hq; subst q; tauto. }
        destruct (str_eqb c [BSLASH]) eqn:E3.
        + apply str_eqb_eq in E3. subst c. destruct inp' as [|d inp''].
          * split; [intros Q; now apply not_fine in Q|]. intros W. apply well_inv in W as [(_ & _ & Q & _)|[(_ & ? & ? & Q & _)|(q & b & u & _ & _ & Q & _)]]; [congruence|discriminate|destruct b; discriminate].
          * assert (L2 : (length inp'' <= n)%nat) by (cbn in L'; lia). destruct (IH _ L2) as (ID2 & _). rewrite ID2. split; [apply W_escape|].
            intros W. apply well_inv in W as [(_ & _ & Q & _)|[(_ & ? & ? & Q & W)|(q & b & u & Hq & Q & _)]]; [congruence|injection Q as <- <-; exact W|]. now apply NQ in Q.
        + assert (N3 : c <> [BSLASH]) by (intros ->; now rewrite str_eqb_refl in E3). rewrite ID. split; [intros W; now apply W_atom|].
          intros W. apply well_inv in W as [(_ & _ & _ & W)|[(Q & _)|(q & b & u & Hq & Q & _)]]; [exact W|tauto|]. now apply NQ in Q. }
    split; [exact Step|]. split.
    + intros ws. cbn [tok]. fold (dflt_step c inp' []). destruct (all_space c) eqn:Es; [|rewrite fine_prepend; apply Step].
      rewrite IS. specialize (Step []). unfold dflt_step in Step. rewrite Es, fine_prepend in Step. rewrite <- IS. exact Step.
    + intros q v Hq. cbn [tok]. destruct (str_eqb c [q]) eqn:Eq.
      * apply str_eqb_eq in Eq. subst c. rewrite fine_prepend, ID. split.
        -- intros W. exists [], inp'. repeat split; [constructor|exact W].
        -- intros (b & t & Q & B & W). destruct b as [|x b]; [injection Q as <-; exact W|]. injection Q as <- ->.
           apply inside_inv in B as [(N & _)|(Q & _)]; [congruence|]. injection Q as ->. discriminate.
      * assert (Nq : c <> [q]) by (intros ->; now rewrite str_eqb_refl in Eq). destruct (str_eqb c [BSLASH]) eqn:Eb.
        -- apply str_eqb_eq in Eb. subst c. destruct inp' as [|d inp''].
           ++ split; [intros Q; now apply not_fine in Q|]. intros (b & t & Q & B & _). destruct b as [|x b]; [injection Q as <- _; congruence|]. injection Q as <- Q. destruct b; discriminate.
           ++ assert (L2 : (length inp'' <= n)%nat) by (cbn in L'; lia). destruct (IH _ L2) as (_ & _ & IQ2). rewrite (IQ2 q _ Hq). split.
              ** intros (b & t & -> & B & W). exists ([BSLASH] :: d :: b), t. repeat split; [now apply I_escape|exact W].
              ** intros (b & t & Q & B & W). destruct b as [|x b]; [injection Q as <- _; congruence|]. injection Q as <- Q.
                 apply inside_inv in B as [(_ & N & _)|(_ & y & u & -> & B)]; [congruence|]. cbn in Q. injection Q as <- ->. eauto.
        -- assert (Nb : c <> [BSLASH]) by (intros ->; now rewrite str_eqb_refl in Eb). rewrite (IQ q _ Hq). split.
           ++ intros (b & t & -> & B & W). exists (c :: b), t. repeat split; [now apply I_atom|exact W].
           ++ intros (b & t & Q & B & W). destruct b as [|x b]; [injection Q as -> _; congruence|]. injection Q as <- ->.
              apply inside_inv in B as [(_ & _ & B)|(Q & _)]; [eauto|congruence].
Qed.
Theorem tokenize_fine s ns : parse s = Ok ns -> ((exists l, tokenize s = Ok l) <-> well_quoted (atoms ns)).
Proof. intros E. unfold tokenize. rewrite E. cbn [bind]. apply (tok_fine (length (atoms ns)) (atoms ns) (le_n _)). Qed.
End U.

Theorem set_refused os ds l c v : (exists e, opt_set (mk_opts l os ds) c v = Err e) <-> does_not_fit os c v.
Proof.
  unfold opt_set, does_not_fit, requires_argument. cbn [o_optstring o_tokens].
  destruct v; rewrite ?takes_req; destruct (requires_in os c); cbn [andb negb]; (split; [intros (e & Q)|intros Q]); try congruence; try (eexists; reflexivity);
    repeat match type of Q with context [match ?x with _ => _ end] => destruct x; try discriminate end; try contradiction; auto; try discriminate.
Qed.
Theorem set_refused_error os ds l c v e : opt_set (mk_opts l os ds) c v = Err e -> e = OptionsException.
Proof.
  unfold opt_set. intros Q. repeat match type of Q with context [match ?x with _ => _ end] => destruct x; try discriminate end; congruence.
Qed.
