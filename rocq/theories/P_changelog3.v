(** Extended timestamps are not seen where there are none; entries without content. *)
From Coq Require Import Ascii String.
From Coq Require Import NArith ZArith List Bool Lia Arith.
From Verif Require Import PyStr PyStrFacts Regex RegexFacts M_evr M_changelog Spec_changelog P_changelog P_changelog2.
Import ListNotations.
Open Scope N_scope.

Section Uni.
Context {U : Unicode}.

Lemma colons_app a b : count_occ N.eq_dec (a ++ b) COLON = (count_occ N.eq_dec a COLON + count_occ N.eq_dec b COLON)%nat.
Proof. apply count_occ_app. Qed.
Lemma span_colons r s s' : Match r s s' ->
  (count_occ N.eq_dec (rest s') COLON <= count_occ N.eq_dec (rest s) COLON)%nat.
Proof. intros M. destruct (Match_span _ _ _ M) as (w & -> & _). rewrite colons_app. lia. Qed.
Lemma colon_span s s' : Match (chr COLON) s s' ->
  (S (count_occ N.eq_dec (rest s') COLON) = count_occ N.eq_dec (rest s) COLON)%nat.
Proof.
  intros M. apply Match_Ch in M as (c & E & P & _). apply N.eqb_eq in P as <-.
  rewrite E. now rewrite count_occ_cons_eq.
Qed.

Lemma few_colons e : (count_occ N.eq_dec (header e) COLON < 2)%nat -> extended_timestamp e = false.
Proof.
  intros C. unfold extended_timestamp, re_search. destruct (search_from _ _ _) as [[q m]|] eqn:S; auto. exfalso.
  apply search_from_Some in S as (w & rs & E & _ & M & _).
  assert (M' : Match extended_regex (mkst q rs []) m).
  { apply results_Match. destruct (results _ _); [discriminate|]. injection M as ->. now left. }
  clear M. assert (D : (count_occ N.eq_dec rs COLON < 2)%nat) by (rewrite E, colons_app in C; lia).
  unfold extended_regex in M'. cbn [seqs] in M'.
  apply Match_Seq in M' as (s1 & M1 & M'). apply span_colons in M1. cbn [rest] in M1.
  apply Match_Seq in M' as (s2 & M2 & M'). apply span_colons in M2.
  apply Match_Seq in M' as (s3 & M3 & M'). apply span_colons in M3.
  apply Match_Seq in M' as (s4 & M4 & M'). apply span_colons in M4.
  apply Match_Seq in M' as (s5 & M5 & M'). apply span_colons in M5.
  apply Match_Seq in M' as (s6 & M6 & M'). apply span_colons in M6.
  apply Match_Seq in M' as (s7 & M7 & M'). apply span_colons in M7.
  apply Match_Seq in M' as (s8 & M8 & M'). apply colon_span in M8.
  apply Match_Seq in M' as (s9 & M9 & M'). apply span_colons in M9.
  apply Match_Seq in M' as (s10 & M10 & M'). apply colon_span in M10. lia.
Qed.

Lemma digits_colons s : forallb is_digit s = true -> count_occ N.eq_dec s COLON = 0%nat.
Proof.
  intros D. apply count_occ_not_In. intros I. rewrite forallb_forall in D. apply D in I.
  revert I. vm_compute. discriminate.
Qed.
Lemma dec_colons n : count_occ N.eq_dec (dec n) COLON = 0%nat.
Proof. apply count_occ_not_In. intros I. pose proof (dec_digits n) as D. rewrite forallb_forall in D. apply D in I. discriminate. Qed.
Lemma dec_pad_colons k n : count_occ N.eq_dec (dec_pad k n) COLON = 0%nat.
Proof.
  unfold dec_pad. rewrite colons_app, dec_colons, Nat.add_0_r. induction (k - List.length (dec n))%nat; cbn; auto.
Qed.
Lemma weekday_colons k : count_occ N.eq_dec (nth k WEEKDAYS []) COLON = 0%nat.
Proof. do 8 (destruct k as [|k]; [reflexivity|]). destruct k; reflexivity. Qed.
Lemma month_colons k : count_occ N.eq_dec (nth k MONTHS []) COLON = 0%nat.
Proof. do 13 (destruct k as [|k]; [reflexivity|]). destruct k; reflexivity. Qed.
Lemma removelast_colons s : count_occ N.eq_dec s COLON = 0%nat -> count_occ N.eq_dec (removelast s) COLON = 0%nat.
Proof.
  intros H. apply count_occ_not_In. intros I. apply count_occ_not_In in H. apply H.
  destruct s as [|x s]; [destruct I|]. rewrite (app_removelast_last x (l:=x :: s)) by discriminate. apply in_or_app. now left.
Qed.

Lemma extended_not_readback ts author cont v padding nl :
  t_time ts = None -> ~ In COLON author -> ~ In COLON padding ->
  (forall x, v = Some x -> (count_occ N.eq_dec x COLON <= 1)%nat) ->
  extended_timestamp (assemble ts author cont v padding nl) = false.
Proof.
  intros T A P V. apply few_colons. unfold assemble. cbn [header]. rewrite T.
  apply (count_occ_not_In N.eq_dec) in A. apply (count_occ_not_In N.eq_dec) in P.
  pose proof (removelast_colons _ P) as P'.
  assert (V' : (count_occ N.eq_dec (match v with Some e => lit " - " ++ e | None => [] end) COLON <= 1)%nat).
  { destruct v as [x|]; [|cbn; lia]. specialize (V x eq_refl). rewrite colons_app. cbn. exact V. }
  revert V'. generalize (match v with Some e => lit " - " ++ e | None => [] end). intros t V'.
  rewrite !colons_app, weekday_colons, month_colons, dec_pad_colons, A.
  assert (D : count_occ N.eq_dec (if endswith padding [ZERO] then [SPC] ++ removelast padding ++ dec_pad 2 (t_day ts)
                  else [SPC] ++ padding ++ dec (t_day ts)) COLON = 0%nat).
  { destruct (endswith _ _); rewrite !colons_app, ?dec_pad_colons, ?dec_colons, ?P, ?P'; reflexivity. }
  rewrite D. cbn. lia.
Qed.
End Uni.

(** An entry without content takes over the one below it. *)
Lemma swallowed p es e h bl :
  wf_changelog (mk_changelog (es ++ [e]) p) -> Forall (fun l => ~ header_line l) (content e) ->
  header_line h -> Forall blank_line bl ->
  parse (get_raw_section_data (append (mk_changelog (es ++ [e]) p) (mk_entry h [] bl))) =
  mk_changelog (es ++ [mk_entry h (bl ++ header e :: content e) (following e)]) p.
Proof.
  intros (Wp & We & Wc) N Hh Hb. cbn [entries predecessor] in *.
  assert (X : wf_changelog (mk_changelog (es ++ [mk_entry h (bl ++ header e :: content e) (following e)]) p)).
  { split; [exact Wp|]. cbn [entries]. split.
    - apply Forall_app in We as [We1 We2]. apply Forall_app. split; auto. constructor; auto.
      inversion We2 as [|? ? (H1 & H2 & H3 & H4) _]; subst. split; [exact Hh|]. cbn [content following header]. split; auto. split.
      + intros a l E. apply (f_equal (@rev str)) in E. rewrite !rev_app_distr in E. cbn [rev app] in E.
        destruct (rev (content e)) as [|x r] eqn:Er.
        * cbn [app] in E. injection E as <- _. intros B. destruct H1 as [t Et]. rewrite Et in B.
          inversion B as [|? ? Q]. discriminate Q.
        * cbn [app] in E. injection E as <- _. apply (f_equal (@rev str)) in Er. rewrite rev_involutive in Er.
          cbn [rev] in Er. eapply H3; exact Er.
      + intros a l b E Hl. apply app_eq_app in E as (m & [[-> E]|[-> E]]).
        * destruct m as [|y m]; [now rewrite app_nil_r in *|].
          injection E as -> _. rewrite Forall_app in Hb. destruct Hb as [Hb Hc].
          inversion Hc as [|? ? Q _]; subst. destruct Hl as [t ->]. inversion Q as [|? ? Q']. discriminate Q'.
        * destruct m as [|y m]; [injection E as <- <-; now rewrite app_nil_r|].
          injection E as <- E. rewrite E in N. rewrite Forall_app in N. destruct N as [_ N]. inversion N; subst. contradiction.
    - destruct es as [|x es]; [constructor|]. cbn [app tl] in *. apply Forall_app in Wc as [Wc _].
      apply Forall_app. split; auto. constructor; auto. cbn. destruct bl; discriminate. }
  rewrite <- (raw_parse _ X). f_equal. unfold get_raw_section_data, append. cbn [entries predecessor].
  f_equal. rewrite !rev_app_distr. cbn [rev app flat_map]. unfold entry_lines. cbn [header content following app].
  rewrite <- !app_assoc. cbn [app]. reflexivity.
Qed.

Lemma assemble_swallows p es e ts author v padding nl :
  wf_changelog (mk_changelog (es ++ [e]) p) -> Forall (fun l => ~ header_line l) (content e) ->
  let new := assemble ts author [] v padding nl in
  parse (get_raw_section_data (append (mk_changelog (es ++ [e]) p) new)) =
  mk_changelog (es ++ [mk_entry (header new) (following new ++ header e :: content e) (following e)]) p.
Proof.
  intros W N. cbn zeta. unfold assemble at 1. rewrite swallowed; auto.
  - cbn [app]. eexists. reflexivity.
  - destruct nl; repeat constructor.
Qed.
