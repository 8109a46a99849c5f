(** Proofs about macro dumps. *)
From Coq Require Import Ascii String.
From Coq Require Import NArith ZArith List Bool Lia.
From Verif Require Import PyStr PyStrFacts Regex RegexFacts M_macros Spec_macros.
Import ListNotations.
Open Scope N_scope.

Section Dump.
Context {U : Unicode}.
Lemma digit_not_space c : is_digit c = true -> is_space c = false.
Proof.
  unfold is_digit, digit_val. destruct (ascii_digit c) eqn:A; [intros _|].
  - unfold ascii_digit in A. apply andb_true_iff in A. destruct A as [A1 A2]. apply N.leb_le in A1, A2. unfold is_space.
    repeat match goal with |- context [?a <=? ?b] => destruct (N.leb_spec a b); try lia | |- context [?a =? ?b] => destruct (N.eqb_spec a b); try lia end; reflexivity.
  - destruct (c <? 128); [discriminate|]. destruct (is_space c); [discriminate|reflexivity].
Qed.
Lemma Forall_forallb (p : N -> bool) l : Forall (fun c => p c = true) l <-> forallb p l = true.
Proof. rewrite forallb_forall, Forall_forall. reflexivity. Qed.

(** A header line and its groups. *)
Lemma head_match w sign n u name o b :
  Forall (fun c => is_space c = true) w -> (sign = [] \/ sign = [DASH]) -> n <> [] -> Forall (fun c => is_digit c = true) n ->
  (u = EQUALS \/ u = COLON) -> name <> [] -> Forall (fun c => is_word c = true) name ->
  (o = [] \/ exists x, x <> [] /\ ~ In LF x /\ ~ In RPAR x /\ o = LPAR :: x ++ [RPAR]) -> ~ In LF b ->
  exists m, re_match macro_regex (w ++ sign ++ n ++ [u; SPC] ++ name ++ o ++ TAB :: b) = Some m /\
    group 1 m = Some (sign ++ n) /\ group 2 m = Some [u] /\ group 3 m = Some name /\ group 4 m = (match o with [] => None | _ => Some o end) /\ group 5 m = Some b.
Proof.
  intros Fw Hs Nn Fn Hu Nm Fm Ho Nb. apply Forall_forallb in Fw, Fn, Fm.
  assert (Dd : is_digit DASH = false) by reflexivity.
  eexists. split.
  - apply re_match_H. unfold macro_regex. eapply H_seq; [reflexivity|].
    eapply H_seq.
    { apply H_star; [exact Fw|]. intros c rs' E. destruct Hs as [->| ->]; cbn [app] in E; [|injection E as <- _; reflexivity].
      destruct n as [|d n]; [congruence|]. injection E as <- _. cbn [forallb] in Fn. apply andb_true_iff in Fn. apply digit_not_space. apply Fn. }
    eapply H_seq.
    { eapply (H_grp 1 _ _ _ (sign ++ n)).
      - instantiate (1 := mkst (rev n ++ rev sign ++ rev w ++ []) ([u; SPC] ++ name ++ o ++ TAB :: b) []).
        destruct Hs as [->| ->]; cbn [app rev].
        + eapply H_seq; [apply H_altr; [|apply H_eps]|].
          * cbn [results rest chr]. unfold chr. cbn [results rest]. destruct n as [|d n]; [congruence|]. cbn [app]. destruct (N.eqb_spec DASH d) as [<-|X]; [|reflexivity].
            cbn [forallb] in Fn. rewrite Dd in Fn. discriminate.
          * apply H_plus; [exact Nn|exact Fn|]. intros c rs' E. injection E as <- _. destruct Hu as [->| ->]; reflexivity.
        + eapply H_seq; [apply H_altl; apply H_chr|]. apply H_plus; [exact Nn|exact Fn|]. intros c rs' E. injection E as <- _. destruct Hu as [->| ->]; reflexivity.
      - cbn [pre]. rewrite rev_app_distr, <- app_assoc. reflexivity. }
    cbn [pre rest caps]. eapply H_seq.
    { eapply (H_grp 2 _ _ (mkst (u :: rev n ++ rev sign ++ rev w ++ []) (SPC :: name ++ o ++ TAB :: b) [(1%nat, sign ++ n)]) [u]).
      - destruct Hu as [->| ->]; [apply H_altl; apply H_chr|]. apply H_altr; [reflexivity|apply H_chr].
      - reflexivity. }
    cbn [pre rest caps]. eapply H_seq; [apply H_chr|]. eapply H_seq.
    { eapply (H_grp 3 _ _ _ name).
      - apply H_plus; [exact Nm|exact Fm|]. intros c rs' E. destruct Ho as [->|[x [_ [_ [_ ->]]]]]; injection E as <- _; reflexivity.
      - reflexivity. }
    cbn [pre rest caps]. eapply H_seq.
    { instantiate (1 := mkst (rev o ++ rev name ++ SPC :: u :: rev n ++ rev sign ++ rev w ++ []) (TAB :: b) ((match o with [] => [] | _ => [(4%nat, o)] end) ++ [(3%nat, name); (2%nat, [u]); (1%nat, sign ++ n)])).
      destruct Ho as [->|[x [Nx [Lx [Rx ->]]]]].
      - apply H_altr; [reflexivity|]. apply H_eps.
      - apply H_altl. change ((match LPAR :: x ++ [RPAR] with [] => [] | _ => [(4%nat, LPAR :: x ++ [RPAR])] end) ++ [(3%nat, name); (2%nat, [u]); (1%nat, sign ++ n)])
          with ((4%nat, LPAR :: x ++ [RPAR]) :: [(3%nat, name); (2%nat, [u]); (1%nat, sign ++ n)]).
        assert (E : rev (LPAR :: x ++ [RPAR]) = RPAR :: rev x ++ [LPAR]) by (cbn [rev]; rewrite rev_app_distr; reflexivity).
        destruct x as [|c x]; [congruence|].
        assert (Hc : forallb dot (c :: x) = true).
        { apply forallb_forall. intros y Iy. unfold dot. apply negb_true_iff. apply N.eqb_neq. intros ->. contradiction. }
        cbn [forallb] in Hc. apply andb_true_iff in Hc. destruct Hc as [Hc Hx].
        replace (rev (LPAR :: (c :: x) ++ [RPAR]) ++ rev name ++ SPC :: u :: rev n ++ rev sign ++ rev w ++ [])
          with (RPAR :: rev x ++ c :: LPAR :: rev name ++ SPC :: u :: rev n ++ rev sign ++ rev w ++ []) by (rewrite E; cbn [rev app]; rewrite <- !app_assoc; reflexivity).
        replace ((LPAR :: (c :: x) ++ [RPAR]) ++ TAB :: b) with (LPAR :: c :: x ++ RPAR :: TAB :: b) by (cbn [app]; rewrite <- app_assoc; reflexivity).
        eapply (H_grp 4 _ _ (mkst (RPAR :: rev x ++ c :: LPAR :: rev name ++ SPC :: u :: rev n ++ rev sign ++ rev w ++ []) (TAB :: b) [(3%nat, name); (2%nat, [u]); (1%nat, sign ++ n)]) (LPAR :: (c :: x) ++ [RPAR])).
        + eapply H_seq; [apply H_chr|]. unfold Plus. apply H_Seq_assoc. eapply H_seq; [apply H_ch; exact Hc|].
          apply (H_lazy_until dot RPAR _ x); [exact Hx|]. intros I. apply Rx. right. exact I.
        + cbn [pre]. rewrite E. cbn [rev app]. rewrite <- !app_assoc. reflexivity. }
    eapply H_seq; [apply H_chr|]. eapply H_seq.
    { eapply (H_grp 5 _ _ _ b).
      - rewrite <- (app_nil_r b) at 1. apply H_star; [|intros c rs' E; discriminate]. apply forallb_forall. intros y Iy. unfold dot. apply negb_true_iff. apply N.eqb_neq. intros ->. contradiction.
      - reflexivity. }
    cbn [pre rest caps]. reflexivity.
  - unfold group. cbn [caps]. destruct Ho as [->|[x [_ [_ [_ ->]]]]]; repeat split.
Qed.

Lemma not_head l : ~ looks_like_macro l -> re_match macro_regex l = None.
Proof.
  intros N. apply re_match_None. intros m M. apply N. clear N. unfold macro_regex in M.
  apply Match_Seq in M as (s0 & M0 & M). apply Match_Caret in M0 as [-> _].
  apply Match_Seq in M as (s1 & M1 & M). apply Match_Star in M1 as (w & E1 & F1 & _). cbn [rest] in E1.
  apply Match_Seq in M as (s2 & M2 & M).
  apply Match_Grp_simple in M2; [|cbn; auto]. destruct M2 as (w2 & s2' & M2 & E2 & _ & _ & ->). cbn [rest] in *.
  apply Match_Seq in M2 as (s2a & M2a & M2b). apply Match_Plus in M2b as (n & Nn & En & Fn & _).
  assert (exists sign, (sign = [] \/ sign = [DASH]) /\ rest s1 = sign ++ rest s2a) as (sign & Hs & Es).
  { unfold Opt in M2a. apply Match_Alt in M2a as [M2a|M2a]; [|apply Match_Eps in M2a; subst s2a; exists []; auto].
    apply Match_Ch in M2a as (c & E & X & _). apply N.eqb_eq in X. subst c. exists [DASH]. rewrite E. auto. }
  apply Match_Seq in M as (s3 & M3 & M). apply Match_Grp_simple in M3; [|cbn; auto]. destruct M3 as (w3 & s3' & M3 & E3 & _ & _ & ->). cbn [rest] in *.
  assert (exists u, (u = EQUALS \/ u = COLON) /\ rest s2' = u :: rest s3') as (u & Hu & Eu).
  { apply Match_Alt in M3 as [M3|M3]; apply Match_Ch in M3 as (c & E & X & _); apply N.eqb_eq in X; subst c; cbn [rest] in E; rewrite E; eauto. }
  apply Match_Seq in M as (s4 & M4 & M). apply Match_Ch in M4 as (c & E4 & X & _). apply N.eqb_eq in X. subst c. cbn [rest] in E4.
  apply Match_Seq in M as (s5 & M5 & M). apply Match_Grp_Plus in M5 as (name & Nm & E5 & F5 & _).
  apply Match_Seq in M as (s6 & M6 & M).
  assert (exists o, (o = [] \/ exists x, x <> [] /\ ~ In LF x /\ o = LPAR :: x ++ [RPAR]) /\ rest s5 = o ++ rest s6) as (o & Ho & E6).
  { unfold Opt in M6. apply Match_Alt in M6 as [M6|M6]; [|apply Match_Eps in M6; subst s6; exists []; auto].
    apply Match_Grp_simple in M6; [|cbn; auto]. destruct M6 as (w6 & s6' & M6 & E6 & _ & _ & ->). cbn [rest] in *.
    apply Match_Seq in M6 as (s6a & Ma & M6). apply Match_Ch in Ma as (c & Ea & X & _). apply N.eqb_eq in X. subst c.
    apply Match_Seq in M6 as (s6b & Mb & Mc). apply Match_Plus in Mb as (x & Nx & Eb & Fx & _).
    apply Match_Ch in Mc as (c & Ec & X & _). apply N.eqb_eq in X. subst c.
    exists (LPAR :: x ++ [RPAR]). split.
    - right. exists x. split; [exact Nx|]. split; [|reflexivity]. intros I. rewrite forallb_forall in Fx. specialize (Fx LF I). discriminate.
    - rewrite Ea, Eb, Ec. cbn [app]. rewrite <- app_assoc. reflexivity. }
  apply Match_Seq in M as (s7 & M7 & M). apply Match_Ch in M7 as (c & E7 & X & _). apply N.eqb_eq in X. subst c.
  exists w, sign, n, u, name, o, (rest s7).
  split; [rewrite E1, Es, En, Eu, E4, E5, E6, E7; reflexivity|].
  apply Forall_forallb in F1, Fn, F5. repeat split; assumption.
Qed.

(** * The loop *)
Definition with_body (b : str) (m : macro) : macro := mk_macro (m_name m) (m_options m) b (m_level m) (m_used m).
Lemma not_continued l : (forall x, l <> x ++ [BSLASH]) -> continued (l ++ [LF]) = false.
Proof.
  intros Nx. unfold continued. destruct (endswith (l ++ [LF]) [BSLASH; LF]) eqn:E; [|reflexivity]. exfalso.
  apply endswith_iff in E as [t E]. change [BSLASH; LF] with ([BSLASH] ++ [LF]) in E. rewrite app_assoc in E. apply app_inj_tail in E as [E _]. exact (Nx _ E).
Qed.
Lemma drop_newline l : drop_last 1 (l ++ [LF]) = l.
Proof. unfold drop_last. rewrite app_length. cbn [length]. replace (length l + 1 - 1)%nat with (length l) by lia. rewrite firstn_app, Nat.sub_diag, firstn_all. apply app_nil_r. Qed.
Lemma loop_line l d acc : (forall x, l <> x ++ [BSLASH]) -> parse_loop None ((l ++ [LF]) :: d) acc = let! acc' := parse_line (l ++ [LF]) acc in parse_loop None d acc'.
Proof. intros N. cbn [parse_loop]. rewrite not_continued by exact N. reflexivity. Qed.
Lemma more_lines others : forall d m acc, Forall (fun l => forall x, l <> x ++ [BSLASH]) others -> Forall (fun l => ~ looks_like_macro l) others -> m_body m <> [] ->
  parse_loop None (map (fun l => l ++ [LF]) others ++ d) (m :: acc) = parse_loop None d (with_body (m_body m ++ flat_map (fun l => LF :: l) others) m :: acc).
Proof.
  induction others as [|l others IH]; intros d m acc F1 F2 N.
  - cbn [map app flat_map]. rewrite app_nil_r. destruct m. reflexivity.
  - inversion F1; inversion F2; subst. cbn [map app]. rewrite loop_line by assumption. unfold parse_line. rewrite drop_newline, not_head by assumption. cbn [bind].
    replace (match m_body m with [] => l | b => b ++ LF :: l end) with (m_body m ++ LF :: l) by (destruct (m_body m); [contradiction|reflexivity]).
    rewrite IH; [|assumption|assumption|cbn; destruct (m_body m); discriminate]. cbn [m_body with_body flat_map]. rewrite <- app_assoc. reflexivity.
Qed.
Lemma join_lines first others : join [LF] (first :: others) = first ++ flat_map (fun l => LF :: l) others.
Proof.
  revert first. induction others as [|l others IH]; intros first; [cbn; rewrite app_nil_r; reflexivity|].
  change (join [LF] (first :: l :: others)) with (first ++ [LF] ++ join [LF] (l :: others)). rewrite IH. reflexivity.
Qed.
Lemma split_on_app' a : forall cur s, ~ In LF a -> split_on LF cur (a ++ s) = split_on LF (rev a ++ cur) s.
Proof.
  induction a as [|x a IH]; intros cur s N; cbn [app split_on rev]; auto. destruct (N.eqb_spec LF x) as [X|X]; [exfalso; apply N; left; symmetry; exact X|].
  rewrite IH by (intros I; apply N; right; exact I). rewrite <- app_assoc. reflexivity.
Qed.
Lemma split_lines others : forall first, ~ In LF first -> Forall (fun l => ~ In LF l) others -> split_on LF [] (first ++ flat_map (fun l => LF :: l) others) = first :: others.
Proof.
  induction others as [|l others IH]; intros first N F; cbn [flat_map].
  - rewrite split_on_app' by exact N. cbn. rewrite app_nil_r, rev_involutive. reflexivity.
  - inversion F; subst. rewrite split_on_app' by exact N. cbn [app split_on]. rewrite N.eqb_refl, app_nil_r, rev_involutive. f_equal. apply IH; assumption.
Qed.
Lemma number_level z : level z -> exists sign n, number z = sign ++ n /\ (sign = [] \/ sign = [DASH]) /\ n <> [] /\ Forall (fun c => is_digit c = true) n /\ ~ In LF n /\ py_int (number z) = Some z.
Proof.
  intros I. unfold level in I. cbn in I.
  repeat (destruct I as [<-|I]; [first [exists [DASH]; eexists; split; [reflexivity|]|exists []; eexists; split; [reflexivity|]];
    (split; [auto|]; split; [discriminate|]; split; [repeat constructor|]; split; [cbn; intuition discriminate|reflexivity])|]).
  destruct I.
Qed.
Lemma word_not_LF c : is_word c = true -> c <> LF.
Proof. intros H ->. discriminate. Qed.
Lemma existsb_level z : level z -> existsb (Z.eqb z) LEVELS = true.
Proof. intros I. apply existsb_exists. exists z. split; [exact I|apply Z.eqb_refl]. Qed.
Theorem parsed_levels d ms : parse d = Ok ms -> Forall (fun m => level (m_level m)) ms.
Proof.
  assert (L : forall line acc acc', Forall (fun m => level (m_level m)) acc -> parse_line line acc = Ok acc' -> Forall (fun m => level (m_level m)) acc').
  { intros line acc acc' F E. unfold parse_line in E. cbv zeta in E. destruct (re_match macro_regex (drop_last 1 line)) as [m|].
    - destruct (py_int (group_str 1 m)) as [z|]; [|discriminate]. destruct (existsb (Z.eqb z) LEVELS) eqn:Q; [|discriminate]. injection E as <-. constructor; [|exact F].
      apply existsb_exists in Q as (x & Hx & Q). apply Z.eqb_eq in Q. subst x. exact Hx.
    - destruct acc as [|x acc]; injection E as <-; [constructor|]. inversion F; subst. constructor; auto. }
  assert (G : forall d pending acc ms, Forall (fun m => level (m_level m)) acc -> parse_loop pending d acc = Ok ms -> Forall (fun m => level (m_level m)) ms).
  { clear d ms. induction d as [|l d IH]; intros pending acc ms F E; cbn [parse_loop] in E.
    - destruct pending; [discriminate|]. injection E as <-. apply Forall_rev. exact F.
    - cbv zeta in E. match type of E with (if ?b then _ else _) = _ => destruct b end; [eapply IH; eauto|].
      match type of E with bind ?x _ = _ => destruct x as [acc'|] eqn:Ea end; [|discriminate]. cbn [bind] in E. eapply IH; [|exact E]. eapply L; eauto. }
  unfold parse. destruct d as [|l d]; [discriminate|]. apply G. constructor.
Qed.
Lemma one_macro blanks m d acc : Forall (fun c => is_space c = true /\ c <> LF) blanks -> dumpable m ->
  parse_loop None (lines_of (text_of blanks m) ++ d) acc = parse_loop None d (m :: acc).
Proof.
  intros FB [DL [DN1 DN2] DO DB]. destruct DB as [first [others [EB [H1 [H2 H3]]]]]. inversion H2 as [|? ? [F1 F2] H2']; subst.
  destruct (number_level _ DL) as [sign [n [En [Hs [Nn [Fn [Ln Pn]]]]]]].
  set (o := match m_options m with Some o => o | None => [] end).
  set (u := if m_used m then EQUALS else COLON).
  assert (Ho : o = [] \/ exists x, x <> [] /\ ~ In LF x /\ ~ In RPAR x /\ o = LPAR :: x ++ [RPAR]).
  { unfold o. destruct (m_options m) as [o'|]; [|auto]. destruct DO as [x [-> [X1 [X2 X3]]]]. right. exists x. auto. }
  set (head := blanks ++ sign ++ n ++ [u; SPC] ++ m_name m ++ o ++ [TAB]).
  assert (TE : text_of blanks m = (head ++ first) ++ flat_map (fun l => LF :: l) others).
  { unfold text_of, head. fold o u. rewrite En, EB, join_lines. rewrite <- !app_assoc. reflexivity. }
  assert (HL : ~ In LF head).
  { unfold head. intros I. repeat (apply in_app_or in I; destruct I as [I|I]).
    - rewrite Forall_forall in FB. apply (proj2 (FB _ I)). reflexivity.
    - destruct Hs as [->| ->]; [destruct I|destruct I as [I|[]]; discriminate].
    - contradiction.
    - unfold u in I. destruct I as [I|[I|[]]]; [destruct (m_used m); discriminate|discriminate].
    - rewrite Forall_forall in DN2. apply (word_not_LF _ (DN2 _ I)). reflexivity.
    - destruct Ho as [->|[x [_ [X [_ ->]]]]]; [destruct I|]. destruct I as [I|I]; [discriminate|]. apply in_app_or in I. destruct I as [I|[I|[]]]; [contradiction|discriminate].
    - destruct I as [I|[]]. discriminate. }
  unfold lines_of. rewrite TE, split_lines.
  2: { intros I. apply in_app_or in I. tauto. }
  2: { apply Forall_impl with (2 := H2'). intros a [A _]. exact A. }
  cbn [map app]. rewrite loop_line.
  2: { intros x E. destruct first as [|c first'] eqn:Q.
    - rewrite app_nil_r in E. unfold head in E. rewrite !app_assoc in E. apply app_inj_tail in E as [_ E]. discriminate.
    - destruct (@exists_last _ (c :: first')) as [i [z Ez]]; [discriminate|]. rewrite Ez in *. rewrite app_assoc in E. apply app_inj_tail in E as [_ ->]. apply (F2 i). reflexivity. }
  unfold parse_line. rewrite drop_newline.
  assert (FB' : Forall (fun c => is_space c = true) blanks) by (apply Forall_impl with (2 := FB); intros c [C _]; exact C).
  assert (Hu : u = EQUALS \/ u = COLON) by (unfold u; destruct (m_used m); auto).
  destruct (head_match blanks sign n u (m_name m) o first FB' Hs Nn Fn Hu DN1 DN2 Ho F1) as [mm [RM [G1 [G2 [G3 [G4 G5]]]]]].
  replace (head ++ first) with (blanks ++ sign ++ n ++ [u; SPC] ++ m_name m ++ o ++ TAB :: first) by (unfold head; rewrite <- !app_assoc; reflexivity).
  rewrite RM. unfold group_str. rewrite G1, G2, G3, G4, G5, <- En, Pn, (existsb_level _ DL). cbn [bind].
  set (m1 := mk_macro _ _ _ _ _).
  assert (E1 : m1 = with_body first m).
  { unfold m1, with_body. f_equal.
    - unfold o. destruct (m_options m) as [o'|]; [|reflexivity]. destruct DO as [x [-> _]]. reflexivity.
    - unfold u. destruct (m_used m); reflexivity. }
  rewrite E1. destruct H1 as [H1|H1].
  - rewrite more_lines; [|apply Forall_impl with (2 := H2'); intros a [_ A]; exact A|exact H3|exact H1]. f_equal. f_equal.
    cbn [m_body with_body m_name m_options m_level m_used]. rewrite <- join_lines, <- EB. destruct m. reflexivity.
  - rewrite H1 in *. cbn [map app]. f_equal. f_equal. cbn in EB. rewrite <- EB. destruct m. reflexivity.
Qed.
Lemma all_macros ms : forall acc, Forall (fun x => Forall (fun c => is_space c = true /\ c <> LF) (fst x) /\ dumpable (snd x)) ms ->
  parse_loop None (dump_of ms) acc = Ok (rev acc ++ map snd ms).
Proof.
  induction ms as [|[b m] ms IH]; intros acc F.
  - cbn. rewrite app_nil_r. reflexivity.
  - inversion F as [|? ? [F1 F2] F']; subst. cbn [dump_of map snd fst] in *. rewrite one_macro by assumption. rewrite IH by assumption. cbn [rev]. rewrite <- app_assoc. reflexivity.
Qed.
Lemma parse_dump head ms summary : ~ looks_like_macro head -> (forall x, head <> x ++ [BSLASH]) ->
  Forall (fun x => Forall (fun c => is_space c = true /\ c <> LF) (fst x) /\ dumpable (snd x)) ms ->
  parse ((head ++ [LF]) :: dump_of ms ++ [summary]) = Ok (map snd ms).
Proof.
  intros NH NB F. unfold parse. rewrite app_comm_cons, removelast_last. rewrite loop_line by exact NB. unfold parse_line. rewrite drop_newline, not_head by exact NH.
  cbn [bind]. apply (all_macros ms []). exact F.
Qed.
(** * What goes wrong *)
(** A macro without a tab, as RPM prints one without a body, ends up in the previous body. *)
Lemma empty_body blanks n u name m d acc : (forall x, name <> x ++ [BSLASH]) -> name <> [] -> ~ In TAB (blanks ++ n ++ [u; SPC] ++ name) ->
  parse_loop None ((blanks ++ n ++ [u; SPC] ++ name ++ [LF]) :: d) (m :: acc) =
  parse_loop None d (with_body (match m_body m with [] => [] | b => b ++ [LF] end ++ blanks ++ n ++ [u; SPC] ++ name) m :: acc).
Proof.
  intros NB NN NT. replace (blanks ++ n ++ [u; SPC] ++ name ++ [LF]) with ((blanks ++ n ++ [u; SPC] ++ name) ++ [LF]) by (rewrite <- !app_assoc; reflexivity).
  rewrite loop_line.
  2: { intros x E. destruct (@exists_last _ name NN) as [i [z ->]]. rewrite !app_assoc in E. apply app_inj_tail in E as [_ ->]. apply (NB i). reflexivity. }
  unfold parse_line. rewrite drop_newline, not_head.
  2: { intros (w & sg & k & u' & nm & o & b & E & _). apply NT. rewrite E. do 5 (apply in_or_app; right). apply in_or_app. right. left. reflexivity. }
  cbn [bind]. unfold with_body. destruct (m_body m); [reflexivity|]. rewrite <- app_assoc. reflexivity.
Qed.
Lemma all_macros_then ms : forall acc d, Forall (fun x => Forall (fun c => is_space c = true /\ c <> LF) (fst x) /\ dumpable (snd x)) ms ->
  parse_loop None (dump_of ms ++ d) acc = parse_loop None d (rev (map snd ms) ++ acc).
Proof.
  induction ms as [|[b m] ms IH]; intros acc d F; [reflexivity|].
  inversion F as [|? ? [F1 F2] F']; subst. cbn [dump_of map snd fst rev] in *. rewrite <- app_assoc, one_macro by assumption. rewrite IH by assumption. rewrite <- app_assoc. reflexivity.
Qed.
Lemma empty_body_dump head ms m blanks blanks' n u name summary : ~ looks_like_macro head -> (forall x, head <> x ++ [BSLASH]) ->
  Forall (fun x => Forall (fun c => is_space c = true /\ c <> LF) (fst x) /\ dumpable (snd x)) (ms ++ [(blanks, m)]) ->
  (forall x, name <> x ++ [BSLASH]) -> name <> [] -> ~ In TAB (blanks' ++ n ++ [u; SPC] ++ name) -> m_body m <> [] ->
  parse ((head ++ [LF]) :: dump_of (ms ++ [(blanks, m)]) ++ [blanks' ++ n ++ [u; SPC] ++ name ++ [LF]; summary]) =
  Ok (map snd ms ++ [mk_macro (m_name m) (m_options m) (m_body m ++ LF :: blanks' ++ n ++ [u; SPC] ++ name) (m_level m) (m_used m)]).
Proof.
  intros NH NB F N1 N2 N3 N4. unfold parse.
  change ((head ++ [LF]) :: dump_of (ms ++ [(blanks, m)]) ++ [blanks' ++ n ++ [u; SPC] ++ name ++ [LF]; summary]) with
    (((head ++ [LF]) :: dump_of (ms ++ [(blanks, m)])) ++ [blanks' ++ n ++ [u; SPC] ++ name ++ [LF]] ++ [summary]).
  rewrite app_assoc, removelast_last. rewrite <- app_comm_cons, loop_line by exact NB. unfold parse_line at 1. rewrite drop_newline, not_head by exact NH.
  cbn [bind]. rewrite all_macros_then by exact F. rewrite map_app, rev_app_distr. cbn [map snd rev app]. rewrite app_nil_r.
  rewrite (empty_body blanks' n u name m [] _ N1 N2 N3). cbn [parse_loop rev]. rewrite rev_involutive. unfold with_body.
  destruct (m_body m); [contradiction|]. rewrite <- app_assoc. reflexivity.
Qed.
Lemma continued_dump ls l summary : parse (ls ++ [l ++ [BSLASH; LF]; summary]) = Err IndexError \/ parse (ls ++ [l ++ [BSLASH; LF]; summary]) = Err ValueError.
Proof.
  unfold parse. replace (ls ++ [l ++ [BSLASH; LF]; summary]) with ((ls ++ [l ++ [BSLASH; LF]]) ++ [summary]) by (rewrite <- app_assoc; reflexivity).
  rewrite removelast_last. replace (match (ls ++ [l ++ [BSLASH; LF]]) ++ [summary] with [] => Err IndexError | _ :: _ => parse_loop None (ls ++ [l ++ [BSLASH; LF]]) [] end)
    with (parse_loop None (ls ++ [l ++ [BSLASH; LF]]) []) by (destruct ls; reflexivity).
  generalize (@nil macro). generalize (@None str). induction ls as [|x ls IH]; intros pending acc.
  - left. cbn [app parse_loop]. replace (continued (match pending with Some p => p ++ l ++ [BSLASH; LF] | None => l ++ [BSLASH; LF] end)) with true; [reflexivity|].
    symmetry. unfold continued. apply endswith_iff. destruct pending as [p|]; [exists (p ++ l); apply app_assoc|exists l; reflexivity].
  - cbn [app parse_loop]. destruct (continued _); [apply IH|]. unfold parse_line.
    destruct (re_match macro_regex _) as [m|]; [|destruct acc; cbn [bind]; apply IH].
    destruct (py_int _); [|right; reflexivity]. destruct (existsb _ _); [cbn [bind]; apply IH|right; reflexivity].
Qed.
Lemma joined_dump ls l l' ls' summary : parse (ls ++ (l ++ [BSLASH; LF]) :: l' :: ls' ++ [summary]) = parse (ls ++ (l ++ l') :: ls' ++ [summary]).
Proof.
  assert (P : forall a, parse (a ++ [summary]) = parse_loop None a []).
  { intros a. unfold parse. rewrite removelast_last. destruct a; reflexivity. }
  replace (ls ++ (l ++ [BSLASH; LF]) :: l' :: ls' ++ [summary]) with ((ls ++ (l ++ [BSLASH; LF]) :: l' :: ls') ++ [summary]) by (rewrite <- app_assoc; reflexivity).
  replace (ls ++ (l ++ l') :: ls' ++ [summary]) with ((ls ++ (l ++ l') :: ls') ++ [summary]) by (rewrite <- app_assoc; reflexivity).
  rewrite !P. generalize (@nil macro). generalize (@None str). induction ls as [|x ls IH]; intros pending acc.
  - cbn [app parse_loop].
    assert (C : forall p, continued (p ++ [BSLASH; LF]) = true) by (intros p; unfold continued; apply endswith_iff; exists p; reflexivity).
    assert (DL : forall p, drop_last 2 (p ++ [BSLASH; LF]) = p).
    { intros p. unfold drop_last. rewrite app_length. cbn [length]. replace (length p + 2 - 2)%nat with (length p) by lia. rewrite firstn_app, Nat.sub_diag, firstn_all. apply app_nil_r. }
    destruct pending as [p|].
    + rewrite app_assoc, C, DL, <- app_assoc. reflexivity.
    + rewrite C, DL. reflexivity.
  - cbn [app parse_loop]. destruct (continued _); [apply IH|]. destruct (parse_line _ acc); [cbn [bind]; apply IH|reflexivity].
Qed.
End Dump.
