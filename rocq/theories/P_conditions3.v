(** Proofs about condition processing: failures. *)
From Coq Require Import Ascii String.
From Coq Require Import NArith ZArith List Bool Lia.
From Verif Require Import PyStr PyStrFacts Regex RegexFacts M_value M_macro_definitions Spec_macro_definitions
  P_macro_definitions P_macro_definitions2 M_conditions Spec_conditions P_conditions P_conditions2.
Import ListNotations.
Open Scope N_scope.

Lemma cond_or_plain x : ~ In LF x -> (exists kw e, cond_line x kw e) \/ plain_line x.
Proof.
  intros N. destruct (re_match condition_regex x) as [m|] eqn:E.
  - left. apply cond_sound in E as (kw & after & K & _). exists kw. eexists. exists after. split; [exact K|]. split; [exact N|reflexivity].
  - right. intros kw after K. assert (C : exists e, cond_line x kw e) by (eexists; exists after; repeat split; eauto).
    destruct C as (e & C). apply cond_match in C as (m & M & _). congruence.
Qed.
Lemma cond_fun x kw e kw' e' : cond_line x kw e -> cond_line x kw' e' -> kw = kw' /\ e = e'.
Proof.
  intros A B. apply cond_match in A as (m & M & A1 & A2). apply cond_match in B as (m' & M' & B1 & B2).
  rewrite M in M'. injection M' as <-. split; congruence.
Qed.
Lemma cond_not_plain x kw e : cond_line x kw e -> plain_line x -> False.
Proof. intros (after & K & _) P. now apply P in K. Qed.
Lemma cond_kw x kw e : cond_line x kw e -> In kw if_keywords \/ In kw elif_keywords \/ kw = lit "%endif" \/ kw = lit "%else".
Proof.
  intros (after & (w & _ & _ & Ik & _) & _). unfold keywords in Ik. rewrite !in_app_iff in Ik. cbn [In] in Ik. intuition.
Qed.
Lemma JoinedE_continuation e lines rest : JoinedE e lines rest <-> exists e' taken, continuation e lines = (e', taken, rest).
Proof.
  split.
  - induction 1 as [e lines N|e|e0 l lines rest J (e' & taken & IH)].
    + destruct lines as [|l lines]; cbn [continuation]; [eauto|].
      destruct (endswith e [BSLASH]) eqn:Q; [|eauto]. apply endswith_iff in Q as (t & ->). exfalso. eapply N; reflexivity.
    + cbn; eauto.
    + cbn [continuation]. rewrite endswith_bs, removelast_last, IH. eauto.
  - intros (e' & taken & C). revert e e' taken C. induction lines as [|l lines IH]; intros e e' taken; cbn [continuation].
    + intros Q; injection Q as _ _ <-. apply JE_end.
    + destruct (endswith e [BSLASH]) eqn:Q.
      * apply endswith_iff in Q as (e0 & ->). rewrite removelast_last.
        destruct (continuation (e0 ++ l) lines) as [[e1 t1] r1] eqn:C. intros Q; injection Q as _ _ <-.
        apply JE_more. eauto.
      * intros R; injection R as _ _ <-. apply JE_done. intros e0 ->. rewrite endswith_bs in Q. discriminate.
Qed.

Section Errors.
Context {U : Unicode} {W : Type} (expand : bool -> W -> str -> result str * W) (ranges : list (nat * nat)).
Definition raised (e : exn) : Prop := exists skip w s, fst (expand skip w s) = Err e.
Lemma expand1_err skip w s e skip' w' : expand1 expand skip w s = (Err e, skip', w') -> raised e.
Proof.
  unfold expand1. destruct (expand skip w s) as [[x|e1] w1] eqn:Q; [discriminate|].
  intros R; injection R as <- _ _. exists skip, w, s. now rewrite Q.
Qed.
Lemma resolve_list_err mac neg w s e w' : resolve_list expand mac neg w s = (Err e, w') -> raised e.
Proof.
  unfold resolve_list. destruct (expand1 expand false w mac) as [[[x|e1] sk] w1] eqn:Q1.
  - destruct (expand1 expand sk w1 s) as [[[y|e2] sk2] w2] eqn:Q2; [discriminate|]. intros R; injection R as <- _. eapply expand1_err; eauto.
  - intros R; injection R as <- _. eapply expand1_err; eauto.
Qed.
Lemma resolve_err w kw s e w' : resolve_expression expand w kw s = (Err e, w') -> raised e.
Proof.
  unfold resolve_expression. destruct (str_in kw _).
  - destruct (expand1 expand false w _) as [[[x|e1] sk] w1] eqn:Q1; [discriminate|].
    pose proof (expand1_err _ _ _ _ _ _ Q1) as K. destruct e1; try discriminate; intros R; injection R as <- _; exact K.
  - destruct (endswith kw (lit "arch")); [apply resolve_list_err|].
    destruct (endswith kw (lit "os")); [apply resolve_list_err|discriminate].
Qed.
Theorem loop_err : forall fuel skip w br i lines e w', (length lines <= fuel)%nat ->
  loop expand ranges fuel skip w br i lines = (Err e, w') -> e = IndexError \/ raised e.
Proof.
  induction fuel as [|fuel IH]; intros skip w br i lines e w' Hf; destruct lines as [|line lines]; cbn [M_conditions.loop].
  1,3: discriminate.
  - cbn in Hf. lia.
  - cbn [length] in Hf.
    assert (One : forall x sk ww b j l, (length l <= fuel)%nat -> emit x (loop expand ranges fuel sk ww b j l) = (Err e, w') -> e = IndexError \/ raised e).
    { intros x sk ww b j l Hl. destruct (loop expand ranges fuel sk ww b j l) as [[y|e1] w2] eqn:L; cbn [emit]; [discriminate|].
      intros Q; injection Q as <- <-. eauto. }
    destruct br as [|top under]; [intros Q; injection Q as <- _; auto|].
    destruct (excluded ranges i); [apply One; lia|].
    destruct (expand1 expand skip w line) as [[r skip1] w1] eqn:X.
    destruct (match r with Err RPMException => Ok line | _ => r end) as [x|e1] eqn:R.
    2:{ intros Q; injection Q as <- <-. right. destruct r as [x|e2]; [discriminate|].
        apply expand1_err in X. destruct e2; inversion R; subst; auto. }
    destruct (re_match condition_regex x) as [m|]; [|apply One; lia]. cbv zeta.
    match goal with |- context [match ?a with Ok _ => _ | Err _ => _ end] => destruct a as [[flag br1]|e1] eqn:A end.
    2:{ intros Q; injection Q as <- _. left. destruct (str_eqb (group_str 1 m) (lit "%endif")); [destruct under; congruence|].
        destruct (startswith (group_str 1 m) (lit "%el")); [destruct under; congruence|congruence]. }
    destruct (_ || _); [|apply One; lia].
    destruct br1 as [|top1 under1]; [intros Q; injection Q as <- _; auto|].
    match goal with |- context [if str_eqb (group_str 2 m) [] then ?a else ?b] =>
      destruct (if str_eqb (group_str 2 m) [] then a else b) as [[e0 taken] rest] eqn:C end.
    match goal with |- context [if top1 then ?a else ?b] => destruct (if top1 then a else b) as [[b0|x2] w2] eqn:T end.
    + apply One.
      assert (E : lines = taken ++ rest).
      { destruct (str_eqb (group_str 2 m) []); [injection C as <- <- <-; reflexivity|]. eapply continuation_split; eauto. }
      apply (f_equal (@length _)) in E. rewrite app_length in E. lia.
    + intros Q; injection Q as <- <-. right. destruct top1; [|discriminate]. eapply resolve_err; eauto.
Qed.
End Errors.
Section Errors2.
Context {U : Unicode} {W : Type} (expand : bool -> W -> str -> result str * W).
Theorem process_err w lines m e w' : process_conditions expand w lines m = (Err e, w') -> e = IndexError \/ raised expand e.
Proof.
  unfold process_conditions. 
  assert (match m with None => Ok [] | Some m0 => excluded_lines m0 end = Ok (ranges_of m)) as ->.
  { destruct m as [m|]; cbn; auto. destruct (excluded_lines_total m) as (r & ->). reflexivity. }
  apply loop_err. auto.
Qed.
End Errors2.

Section Pure.
Context {U : Unicode} {W : Type} (E : str -> str).
Local Notation pure := (@pure W E).
Lemma resolve_pure w kw s : exists b, resolve_expression pure w kw s = (Ok b, w).
Proof.
  unfold resolve_expression, resolve_list, expand1, pure. destruct (str_in kw _); [eauto|].
  destruct (endswith kw (lit "arch")); [eauto|]. destruct (endswith kw (lit "os")); eauto.
Qed.
Lemma pure_loop : forall fuel lines skip w top under i, (length lines <= fuel)%nat -> Forall (fun l => ~ In LF (E l)) lines ->
  ((exists res, loop pure [] fuel skip w (top :: under) i lines = (Ok res, w)) /\ Balanced E (length under) lines) \/
  (loop pure [] fuel skip w (top :: under) i lines = (Err IndexError, w) /\ ~ Balanced E (length under) lines).
Proof.
  induction fuel as [|fuel IH]; intros lines skip w top under i Hf NL; destruct lines as [|line lines].
  1,3: left; split; [eexists; reflexivity|constructor].
  - cbn in Hf; lia.
  - cbn [length] in Hf. apply Forall_cons_iff in NL as [N1 NL].
    assert (Emit : forall x (r : result (list (str * bool)) * W), ((exists res, r = (Ok res, w)) -> exists res, emit x r = (Ok res, w)) /\
        (r = (Err IndexError, w) -> emit x r = (Err IndexError, w))).
    { intros x r. split; [intros (res & ->); cbn; eauto|intros ->; reflexivity]. }
    cbn [M_conditions.loop].
    change (excluded [] i) with false. cbv iota.
    change (expand1 pure skip w line) with (@Ok str (E line), true, w). cbv iota.
    destruct (cond_or_plain _ N1) as [(kw & e & C)|P].
    + destruct (cond_match _ _ _ C) as (m & M1 & M2 & M3). rewrite M1, M2. cbv zeta. rewrite (cont_eq m e _ M3).
      assert (Inv : forall d, Balanced E d (line :: lines) ->
         (In kw if_keywords /\ exists rest, JoinedE e lines rest /\ Balanced E (S d) rest) \/
         (In kw elif_keywords /\ exists rest d0, d = S d0 /\ JoinedE e lines rest /\ Balanced E d rest) \/
         (kw = lit "%else" /\ exists d0, d = S d0 /\ Balanced E d lines) \/
         (kw = lit "%endif" /\ exists d0, d = S d0 /\ Balanced E d0 lines)).
      { intros d B. inversion B as [|? ? ? P ?|? ? kw' e' ? ? C' I' J' B'|? ? kw' e' ? ? C' I' J' B'|? ? e' ? C' B'|? ? e' ? C' B']; subst.
        - exfalso. eapply cond_not_plain; eauto.
        - destruct (cond_fun _ _ _ _ _ C C') as [<- <-]. left; eauto.
        - destruct (cond_fun _ _ _ _ _ C C') as [<- <-]. right; left; eauto 10.
        - destruct (cond_fun _ _ _ _ _ C C') as [<- <-]. right; right; left; eauto.
        - destruct (cond_fun _ _ _ _ _ C C') as [<- <-]. right; right; right; eauto. }
      assert (Cont : exists e' taken rest, continuation e lines = (e', taken, rest)) by (destruct (continuation e lines) as [[? ?] ?]; eauto).
      destruct Cont as (e' & taken & rest & Ec). pose proof (continuation_split _ _ _ _ _ Ec) as El.
      assert (Je : JoinedE e lines rest) by (apply JoinedE_continuation; eauto).
      assert (Ju : forall r, JoinedE e lines r -> r = rest).
      { intros r J. apply JoinedE_continuation in J as (? & ? & J). congruence. }
      assert (Fr : (length rest <= fuel)%nat) by (apply (f_equal (@length _)) in El; rewrite app_length in El; lia).
      assert (NLr : Forall (fun l => ~ In LF (E l)) rest) by (rewrite El in NL; apply Forall_app in NL; tauto).
      rewrite Ec.
      assert (Dis : forall k1 k2 : str, In k1 if_keywords -> In k1 elif_keywords -> False).
      { intros k1 _ I1 I2. apply kw_if in I1 as (_ & Q1 & _). apply kw_elif in I2 as (_ & Q2 & _). congruence. }
      destruct (cond_kw _ _ _ C) as [Ik|[Ik|[->| ->]]].
      * destruct (kw_if _ Ik) as (K1 & K2 & K3). rewrite K1, K2, K3.
        assert (T : exists b, (if top then resolve_expression pure w kw (if str_eqb e' [] then [ZERO] else e') else (Ok false, w)) = (Ok b, w)).
        { destruct top; [apply resolve_pure|eauto]. }
        destruct T as (b & ->).
        destruct (IH rest true w b (top :: under) (S i + length taken)%nat Fr NLr) as [[L B]|[L B]].
        -- left. split; [now apply Emit|]. eapply B_if; eauto.
        -- right. split; [now apply Emit|]. intros Q. apply Inv in Q as [(_ & r & J & Q)|[(I2 & _)|[(-> & _)|(-> & _)]]].
           ++ rewrite (Ju r J) in Q. now apply B.
           ++ eapply Dis; eauto.
           ++ vm_compute in K2. discriminate.
           ++ vm_compute in K1. discriminate.
      * destruct (kw_elif _ Ik) as (K1 & K2 & K3). rewrite K1, K2, K3.
        assert (NIf : ~ In kw if_keywords) by (intros I2; eapply Dis; eauto).
        destruct under as [|v under].
        -- right. split; [reflexivity|]. intros Q. apply Inv in Q as [(I2 & _)|[(_ & r & d0 & Q & _)|[(_ & d0 & Q & _)|(_ & d0 & Q & _)]]]; try discriminate. auto.
        -- cbv iota.
           assert (T : exists b, (if (if v then negb top else top) then resolve_expression pure w kw (if str_eqb e' [] then [ZERO] else e') else (Ok false, w)) = (Ok b, w)).
           { destruct (if v then negb top else top); [apply resolve_pure|eauto]. }
           destruct T as (b & ->).
           destruct (IH rest true w b (v :: under) (S i + length taken)%nat Fr NLr) as [[L B]|[L B]].
           ++ left. split; [now apply Emit|]. eapply B_elif; eauto.
           ++ right. split; [now apply Emit|]. intros Q. apply Inv in Q as [(I2 & _)|[(_ & r & d0 & _ & J & Q)|[(-> & _)|(-> & _)]]].
              ** auto.
              ** rewrite (Ju r J) in Q. now apply B.
              ** vm_compute in K3. discriminate.
              ** vm_compute in K1. discriminate.
      * change (str_eqb (lit "%endif") (lit "%endif")) with true. cbv iota.
        change (startswith (lit "%endif") (lit "%if") || startswith (lit "%endif") (lit "%elif")) with false. 
        assert (NI : ~ In (lit "%endif") if_keywords /\ ~ In (lit "%endif") elif_keywords).
        { split; intros Q; cbn in Q; repeat (destruct Q as [Q|Q]; [discriminate|]); destruct Q. }
        destruct under as [|v under].
        -- right. split; [reflexivity|]. intros Q. apply Inv in Q as [(I2 & _)|[(I2 & _)|[(Q & _)|(_ & d0 & Q & _)]]]; try discriminate; tauto.
        -- cbv iota. destruct (IH lines true w v under (S i)) as [[L B]|[L B]]; auto; try lia.
           ++ left. split; [now apply Emit|]. eapply B_endif; eauto.
           ++ right. split; [now apply Emit|]. intros Q. apply Inv in Q as [(I2 & _)|[(I2 & _)|[(Q & _)|(_ & d0 & Q & Q2)]]]; try discriminate; try tauto.
              cbn in Q. injection Q as <-. auto.
      * change (str_eqb (lit "%else") (lit "%endif")) with false. cbv iota.
        change (startswith (lit "%else") (lit "%el")) with true. cbv iota.
        change (startswith (lit "%else") (lit "%if") || startswith (lit "%else") (lit "%elif")) with false. 
        assert (NI : ~ In (lit "%else") if_keywords /\ ~ In (lit "%else") elif_keywords).
        { split; intros Q; cbn in Q; repeat (destruct Q as [Q|Q]; [discriminate|]); destruct Q. }
        destruct under as [|v under].
        -- right. split; [reflexivity|]. intros Q. apply Inv in Q as [(I2 & _)|[(I2 & _)|[(_ & d0 & Q & _)|(Q & _)]]]; try discriminate; tauto.
        -- cbv iota. destruct (IH lines true w (if v then negb top else top) (v :: under) (S i)) as [[L B]|[L B]]; auto; try lia.
           ++ left. split; [now apply Emit|]. eapply B_else; eauto.
           ++ right. split; [now apply Emit|]. intros Q. apply Inv in Q as [(I2 & _)|[(I2 & _)|[(_ & d0 & Q & Q2)|(Q & _)]]]; try discriminate; try tauto.
    + rewrite (plain_no_match _ P).
      destruct (IH lines true w top under (S i)) as [[L B]|[L B]]; auto; try lia.
      * left. split; [now apply Emit|]. now constructor.
      * right. split; [now apply Emit|]. intros Q. inversion Q; subst; auto; eapply cond_not_plain; eauto.
Qed.
Theorem process_balanced (w : W) lines : Forall (fun l => ~ In LF (E l)) lines ->
  ((exists res, process_conditions pure w lines None = (Ok res, w)) <-> Balanced E 0 lines) /\
  (process_conditions pure w lines None = (Err IndexError, w) <-> ~ Balanced E 0 lines).
Proof.
  intros NL. unfold process_conditions.
  destruct (pure_loop (length lines) lines false w true [] 0 (le_n _) NL) as [[(res & L) B]|[L B]]; rewrite L; split; split; intros Q; eauto; try tauto.
  - discriminate.
  - destruct Q as (? & Q). discriminate.
Qed.
End Pure.

Section RoundTrip.
Context {U : Unicode} {W : Type} (expand : bool -> W -> str -> result str * W).
Theorem parse_with_conditions_raw w lines b m w' : clean lines -> parse_with_conditions expand w lines b = (Ok m, w') ->
  get_raw_data m = lines.
Proof.
  unfold parse_with_conditions. intros C. destruct b; cbn [negb].
  - destruct (process_conditions expand w lines _) as [[t|e] w1] eqn:P; [|discriminate]. intros Q; injection Q as <- _.
    apply process_lines in P. rewrite <- P in C |- *. now apply parse_tagged_raw.
  - intros Q; injection Q as <- _. now apply parse_plain_raw.
Qed.
End RoundTrip.

(** For examples. *)
Lemma plain_of_match x : forallb (fun c => negb (c =? LF)) x = true -> re_match condition_regex x = None -> plain_line x.
Proof.
  intros N M. assert (~ In LF x). { intros Hi. rewrite forallb_forall in N. apply N in Hi. discriminate. }
  destruct (cond_or_plain x) as [(kw & e & C)|P]; auto. apply cond_match in C as (m & Q & _). congruence.
Qed.
Lemma cond_of_parts indent kw after e : blank indent -> In kw keywords -> (after = [] \/ exists c r, after = c :: r /\ is_space c = true) ->
  forallb (fun c => negb (c =? LF)) (indent ++ kw ++ after) = true ->
  e = (if str_eqb (lstrip after) [BSLASH] then [] else strip after) -> cond_line (indent ++ kw ++ after) kw e.
Proof.
  intros B I A N E. exists after. split; [exists indent; auto|]. split; auto.
  intros Hi. rewrite forallb_forall in N. apply N in Hi. discriminate.
Qed.
Section Resolve.
Context {U : Unicode} {W : Type}.
Lemma split_ws_aux_nonempty : forall s cur t, In t (split_ws_aux cur s) -> t <> [].
Proof.
  induction s as [|c s IH]; intros cur t; cbn [split_ws_aux].
  - destruct cur as [|c cur]; [intros []|]. intros [<-|[]] Q. apply (f_equal (@length _)) in Q. rewrite rev_length in Q. discriminate.
  - destruct (is_space c).
    + destruct cur as [|d cur]; [apply IH|]. intros [<-|Hi]; [|eauto]. intros Q. apply (f_equal (@length _)) in Q. rewrite rev_length in Q. discriminate.
    + apply IH.
Qed.
Lemma found_iff t x : existsb (fun u => negb (str_eqb u []) && str_eqb u t) (split_ws x) = true <-> In t (split_ws x).
Proof.
  rewrite existsb_exists. split.
  - intros (u & Hu & E). apply andb_true_iff in E as [_ E]. apply str_eqb_eq in E. now subst.
  - intros Hi. exists t. split; auto. rewrite str_eqb_refl, andb_true_r. apply negb_true_iff, str_eqb_neq. eapply split_ws_aux_nonempty; eauto.
Qed.
Theorem resolve_arch (E : str -> str) (w : W) (kw e : str) : In kw [lit "%ifarch"; lit "%elifarch"; lit "%ifnarch"; lit "%ifos"; lit "%elifos"; lit "%ifnos"] ->
  exists b, resolve_expression (pure E) w kw e = (Ok b, w) /\
  let target := E (if str_in kw [lit "%ifarch"; lit "%elifarch"; lit "%ifnarch"] then lit "%{_target_cpu}" else lit "%{_target_os}") in
  (b = true <-> if str_in kw [lit "%ifnarch"; lit "%ifnos"] then ~ In target (split_ws (E e)) else In target (split_ws (E e))).
Proof.
  intros Hk. assert (N : forall t x, negb (existsb (fun u => negb (str_eqb u []) && str_eqb u t) (split_ws x)) = true <-> ~ In t (split_ws x)).
  { intros t x. rewrite negb_true_iff, <- found_iff. split; [congruence|]. destruct (existsb _ _); tauto. }
  cbn [In] in Hk. repeat (destruct Hk as [<-|Hk]; [eexists; split; [reflexivity|]; first [apply found_iff|apply N]|]). destruct Hk.
Qed.
Theorem resolve_elifn (E : str -> str) (w : W) (kw e : str) : In kw [lit "%elifnarch"; lit "%elifnos"] ->
  exists b, resolve_expression (pure E) w kw e = (Ok b, w) /\
  let target := E (if str_eqb kw (lit "%elifnarch") then lit "%{_target_cpu}" else lit "%{_target_os}") in
  (b = true <-> In target (split_ws (E e))).
Proof. intros Hk. cbn [In] in Hk. repeat (destruct Hk as [<-|Hk]; [eexists; split; [reflexivity|]; apply found_iff|]). destruct Hk. Qed.
Theorem resolve_if (expand : bool -> W -> str -> result str * W) (w : W) (kw e : str) : In kw [lit "%if"; lit "%elif"] ->
  resolve_expression expand w kw e =
  match expand false w (lit "%{expr:" ++ e ++ [RBRACE]) with
  | (Ok x, w') => (Ok (if startswith x (lit "%{expr:") then false else match py_int x with Some 0%Z => false | _ => true end), w')
  | (Err RPMException, w') => (Ok false, w')
  | (Err ex, w') => (Err ex, w')
  end.
Proof.
  intros Hk. unfold resolve_expression. assert (str_in kw [lit "%if"; lit "%elif"] = true) as -> by now apply str_in_iff.
  unfold expand1. destruct (expand false w _) as [[x|ex] w']; [|destruct ex; reflexivity].
  unfold int_nonzero. destruct (py_int x) as [[| |]|]; reflexivity.
Qed.
End Resolve.
