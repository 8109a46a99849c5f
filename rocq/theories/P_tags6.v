(** Proofs about tags with values of several lines. *)
From Coq Require Import Ascii String.
From Coq Require Import NArith ZArith List Bool Lia.
From Verif Require Import PyStr PyStrFacts Regex RegexFacts M_constants M_value Spec_value P_value P_value2 Spec_sections P_sections M_macro_definitions Spec_macro_definitions P_macro_definitions
  M_conditions P_conditions P_conditions2 P_conditions3 M_tags Spec_tags Spec_tags2 P_tags P_tags2 P_tags3.
Import ListNotations.
Open Scope N_scope.

Section Uni.
Context {U : Unicode}.
Lemma value_open_iff v : value_open v = true <-> left_open v.
Proof.
  unfold value_open, left_open. destruct (count_brackets v) as [[|b] [|p]]; cbn; split; try discriminate; try reflexivity; intros Q; now exfalso.
Qed.
Lemma on_lines_cons v l more : on_lines v (l :: more) = on_lines (v ++ LF :: l) more.
Proof. unfold on_lines. cbn [flat_map]. now rewrite <- app_assoc. Qed.
Lemma extend_value_on : forall lines v v' ws' rest, Forall (fun l => ~ In LF (fst l) /\ rstrip (fst l) = fst l) lines ->
  extend_value v [] lines = (v', ws', rest) ->
  ws' = [] /\ exists more, lines = more ++ rest /\ v' = on_lines v (map fst more) /\ goes_on v (map fst more) (map fst rest).
Proof.
  induction lines as [|[l b] lines IH]; intros v v' ws' rest F; cbn [extend_value].
  - intros E; injection E as <- <- <-. split; auto. exists []. unfold on_lines, goes_on. cbn. rewrite app_nil_r. repeat split; auto. intros [|] ? ? Q; discriminate.
  - inversion F as [|? ? [NL Nt] F']; subst. cbn [fst] in *. destruct (value_open v) eqn:Vo.
    + destruct (no_trailing l NL Nt) as [_ ->]. rewrite app_nil_r. intros E. apply IH in E as (-> & more & -> & -> & G1 & G2); auto. split; auto.
      exists ((l, b) :: more). cbn [app map fst]. rewrite on_lines_cons. repeat split; auto.
      * intros [|x a] y c Q; [unfold on_lines; cbn; rewrite app_nil_r; now apply value_open_iff|]. cbn [app] in Q. injection Q as <- Q. rewrite on_lines_cons. now apply (G1 _ _ _ Q).
      * now rewrite on_lines_cons.
    + intros E; injection E as <- <- <-. split; auto. exists []. unfold on_lines, goes_on. cbn [map app flat_map]. rewrite app_nil_r. repeat split; auto.
      * intros [|] ? ? Q; discriminate.
      * right. intros Q. unfold on_lines in Q. cbn [flat_map] in Q. rewrite app_nil_r in Q. apply value_open_iff in Q. congruence.
Qed.
Lemma tags_loop_on : forall fuel lines data buffer ts, (length lines <= fuel)%nat ->
  Forall (fun l => ~ In LF (fst l) /\ rstrip (fst l) = fst l) lines -> Forall (fun l => regular (fst l)) lines ->
  tags_loop TAG_NAMES fuel lines data buffer = Ok ts -> exists found, ts_data ts = data ++ found /\ written_on lines found.
Proof.
  induction fuel as [|fuel IH]; intros lines data buffer ts Lf F X; cbn [tags_loop].
  - destruct lines; [|cbn in Lf; lia]. intros E; injection E as <-. exists []. rewrite app_nil_r. split; auto. constructor.
  - destruct lines as [|[line0 valid] lines].
    + intros E; injection E as <-. exists []. rewrite app_nil_r. split; auto. constructor.
    + cbn in Lf. inversion F as [|? ? [NL Nt] F']; subst. inversion X as [|? ? X0 X']; subst. cbn [fst] in *. destruct (no_trailing line0 NL Nt) as [-> _].
      destruct (split_conditional_macro_expansion line0) as [[[line1 prefix] suffix]|e] eqn:Es; cbn [bind]; [|discriminate].
      pose proof Es as Es2. apply (split_exact line0 _ _ _ X0) in Es2.
      assert (NL1 : ~ In LF line1) by (intros Q; apply NL; rewrite <- Es2, !in_app_iff; auto).
      pose proof (first_match_tag_line line1 NL1) as T. destruct (first_match TAG_NAMES line1) as [m|] eqn:Em.
      * destruct (if str_eqb suffix [] then extend_value (group_str 3 m) [] lines else (group_str 3 m, [], lines)) as [[value ws'] rest] eqn:Ev.
        assert (K : ws' = [] /\ exists more, lines = more ++ rest /\ value = on_lines (group_str 3 m) (map fst more) /\
          (suffix <> [] /\ more = [] \/ suffix = [] /\ goes_on (group_str 3 m) (map fst more) (map fst rest))).
        { destruct (str_eqb suffix []) eqn:Q.
          - apply str_eqb_eq in Q. apply extend_value_on in Ev as (-> & more & E1 & E2 & E3); auto. split; auto. exists more. auto.
          - injection Ev as <- <- <-. split; auto. exists []. unfold on_lines. cbn. rewrite app_nil_r. repeat split; auto. left. split; auto. intros ->. rewrite str_eqb_refl in Q. discriminate. }
        destruct K as (-> & more & -> & -> & G). intros E. apply Forall_app in F' as [_ F']. apply Forall_app in X' as [_ X'].
        apply IH in E as (found & Ed & Wr); auto; [|rewrite app_length in Lf; lia]. eexists (_ :: found). rewrite <- app_assoc in Ed. split; [exact Ed|].
        eapply O_tag; cbn [t_name t_separator t_value t_valid t_prefix t_suffix]; eauto. apply app_nil_r.
      * intros E. apply IH in E as (found & Ed & Wr); auto; [|lia]. exists found. split; auto. eapply O_other; eauto.
Qed.
(** There is one reading. *)
Lemma goes_on_cons v l more rest : goes_on v (l :: more) rest -> goes_on (v ++ LF :: l) more rest.
Proof. intros [A B]. split; [|now rewrite on_lines_cons in B]. intros a x b ->. rewrite <- on_lines_cons. apply (A (l :: a) x b). reflexivity. Qed.
Lemma goes_on_one : forall (more more' rest rest' : list (str * bool)) v, more ++ rest = more' ++ rest' ->
  goes_on v (map fst more) (map fst rest) -> goes_on v (map fst more') (map fst rest') -> more = more' /\ rest = rest'.
Proof.
  assert (S : forall x (more rest rest' : list (str * bool)) v, rest = x :: more ++ rest' -> goes_on v [] (map fst rest) -> goes_on v (map fst (x :: more)) (map fst rest') -> False).
  { intros x more rest rest' v -> [_ [Q|Q]] [A _]; [discriminate|]. apply Q. apply (A [] (fst x) (map fst more)). reflexivity. }
  induction more as [|x more IH]; intros [|y more'] rest rest' v E G G'; cbn [app] in E; auto.
  - exfalso. apply (S _ _ _ _ _ E G G').
  - exfalso. symmetry in E. apply (S _ _ _ _ _ E G' G).
  - injection E as <- E. cbn [map] in G, G'. apply goes_on_cons in G, G'. destruct (IH _ _ _ _ E G G') as [-> ->]. auto.
Qed.
Definition seen (t : tag) := (t_name t, t_value t, t_separator t, t_valid t, t_prefix t, t_suffix t).
Theorem written_on_one : forall lines ts, written_on lines ts -> forall ts', written_on lines ts' -> map seen ts = map seen ts'.
Proof.
  induction 1 as [|line valid body p s lines ts E N _ IH|line valid body p s v more rest t ts E T H1 H2 H3 H4 G _ IH]; intros ts' Wr'.
  - inversion Wr'. reflexivity.
  - inversion Wr' as [|? ? body' p' s' ? ? E' N' R'|? ? body' p' s' v' more' rest' t' ts2 E' T' H1' H2' H3' H4' G' R']; subst; [now apply IH|].
    rewrite E in E'. injection E' as <- _ _. exfalso. eapply N; eauto.
  - inversion Wr' as [|? ? body' p' s' ? ? E' N' R'|? ? body' p' s' v' more' rest' t' ts2 E' T' H1' H2' H3' H4' G' R']; subst; rewrite E in E'; injection E' as <- E1 E2; [exfalso; eapply N'; eauto|].
    destruct (tag_line_unique _ _ _ _ _ _ _ T T') as (N1 & N2 & ->).
    assert (K : more = more' /\ rest = rest').
    { match goal with Q : more' ++ rest' = more ++ rest |- _ => symmetry in Q; rename Q into Q0 end. destruct G as [[S ->]|[S G]], G' as [[S' ->]|[S' G']]; try congruence; [now cbn in Q0|]. now apply (goes_on_one more more' rest rest' v'). }
    destruct K as [-> ->]. cbn [map]. f_equal; [|now apply IH]. unfold seen. congruence.
Qed.
Section Parse.
Context {W : Type} (expand : bool -> W -> str -> result str * W).
Theorem tags_written_on w lines ts w' : Forall (fun l => ~ In LF l) lines -> Forall (fun l => rstrip l = l) lines -> Forall regular lines ->
  tags_parse expand TAG_NAMES w lines = (Ok ts, w') ->
  exists tagged, process_conditions expand w lines (Some (parse_plain lines)) = (Ok tagged, w') /\ map fst tagged = lines /\ written_on tagged (ts_data ts).
Proof.
  intros F S X E. unfold tags_parse in E. destruct (process_conditions expand w lines (Some (parse_plain lines))) as [[tagged|e] w1] eqn:P; [|discriminate].
  injection E as E <-. exists tagged. split; auto. pose proof (process_lines expand w lines _ tagged _ P) as L. split; auto. subst lines.
  apply tags_loop_on in E as (found & Ed & Wr); auto.
  - cbn in Ed. now rewrite Ed.
  - apply Forall_forall. intros l Hl. rewrite Forall_forall in F, S. split; [apply F|apply S]; apply in_map, Hl.
  - apply Forall_forall. intros l Hl. rewrite Forall_forall in X. apply (X (fst l)), in_map, Hl.
Qed.
End Parse.
End Uni.
