(** Proofs about reading and writing the %prep section. *)
From Coq Require Import Ascii String.
From Coq Require Import NArith ZArith List Bool Lia.
From Verif Require Import PyStr PyStrFacts Regex RegexFacts M_value M_options Spec_value P_value P_value2 Spec_options P_options M_prep Spec_prep.
Import ListNotations.
Open Scope N_scope.

Section U.
Context {U : Unicode}.

Lemma search_at r : forall w pr rs m,
  (forall w1 w2, w = w1 ++ w2 -> w2 <> [] -> results r (mkst (rev w1 ++ pr) (w2 ++ rs) []) = []) ->
  H r (mkst (rev w ++ pr) rs []) m -> search_from r pr (w ++ rs) = Some (rev w ++ pr, m).
Proof.
  induction w as [|c w IH]; intros pr rs m N E; cbn [app].
  - now apply search_here.
  - rewrite search_skip; [|apply (N [] (c :: w)); [reflexivity|discriminate]].
    rewrite (IH (c :: pr) rs m).
    + cbn [rev]. now rewrite <- app_assoc.
    + intros w1 w2 Q Nw. specialize (N (c :: w1) w2). cbn [rev] in N. rewrite <- app_assoc in N. apply N; [cbn; now rewrite Q|auto].
    + cbn [rev] in E. rewrite <- app_assoc in E. exact E.
Qed.
Lemma search_none r : forall rs pr, (forall w rs', rs = w ++ rs' -> results r (mkst (rev w ++ pr) rs' []) = []) -> search_from r pr rs = None.
Proof.
  induction rs as [|c rs IH]; intros pr N; cbn [search_from].
  - pose proof (N [] [] eq_refl) as Q. cbn [rev app] in Q. now rewrite Q.
  - pose proof (N [] (c :: rs) eq_refl) as Q. cbn [rev app] in Q. rewrite Q. cbn [hd_error]. apply IH. intros w rs' E. specialize (N (c :: w) rs'). cbn [rev] in N. rewrite <- app_assoc in N.
    apply N. cbn. now rewrite E.
Qed.

(** A match starts with a macro name. *)
Lemma macro_match pr rs m : Match macro_regex (mkst pr rs []) m -> exists w r, In w prep_words /\ rs = w ++ r.
Proof.
  unfold macro_regex. rewrite Match_Seq. intros (s1 & G & _). apply Match_Grp in G as (_ & s2 & A & _).
  apply Match_Seq in A as (s3 & P & A). apply Match_Ch in P as (c & E & P & _). apply N.eqb_eq in P. subst c. cbn [rest] in E.
  unfold alts in A. cbn [map] in A. rewrite E. unfold prep_words. cbn [map].
  apply Match_Alt in A as [A|A]; [apply Match_word in A as (W & _); exists (lit "%setup"), (rest s2); rewrite W; cbn; auto|].
  apply Match_Alt in A as [A|A].
  { apply Match_Seq in A as (s4 & A & _). apply Match_word in A as (W & _). exists (lit "%patch"), (rest s4). rewrite W. cbn; auto. }
  apply Match_Alt in A as [A|A]; apply Match_word in A as (W & _).
  - exists (lit "%autopatch"), (rest s2). rewrite W. cbn; auto 6.
  - exists (lit "%autosetup"), (rest s2). rewrite W. cbn; auto 6.
Qed.
Lemma no_macro_here line w rs pr : line = w ++ rs -> ~ occurs_at line (length w) -> results macro_regex (mkst pr rs []) = [].
Proof.
  intros E N. apply results_nil. intros m M. apply macro_match in M as (v & r & I & Q). apply N. exists v, r. split; auto.
  now rewrite E, skipn_app, skipn_all, Nat.sub_diag.
Qed.
Lemma search_no_macro line : ~ mentions_macro line -> re_search macro_regex line = None.
Proof.
  intros N. apply search_none. intros w rs' E. rewrite app_nil_r. apply (no_macro_here line w); auto. intros Q. apply N. now exists (length w).
Qed.

Lemma H_word t : forall pr rs cs, H (word t) (mkst pr (t ++ rs) cs) (mkst (rev t ++ pr) rs cs).
Proof.
  unfold word. induction t as [|c [|d t] IH]; intros pr rs cs.
  - reflexivity.
  - apply H_chr.
  - change (seqs (map chr (c :: d :: t))) with (Seq (chr c) (seqs (map chr (d :: t)))). eapply H_seq; [apply H_chr|].
    specialize (IH (c :: pr) rs cs). cbn [rev] in *. rewrite <- !app_assoc in *. exact IH.
Qed.
Lemma name_here name pr t : macro_name name ->
  (forall ds c o, name = lit "%patch" ++ ds -> t = c :: o -> is_digit c = false) ->
  H (Seq (chr PCT) (alts [word (lit "setup"); Seq (word (lit "patch")) (Star true is_digit); word (lit "autopatch"); word (lit "autosetup")]))
    (mkst pr (name ++ t) []) (mkst (rev name ++ pr) t []).
Proof.
  assert (P : forall x s s', H (alts [word (lit "setup"); Seq (word (lit "patch")) (Star true is_digit); word (lit "autopatch"); word (lit "autosetup")])
       (mkst (PCT :: pr) (x ++ t) []) (mkst s s' []) ->
     H (Seq (chr PCT) (alts [word (lit "setup"); Seq (word (lit "patch")) (Star true is_digit); word (lit "autopatch"); word (lit "autosetup")]))
       (mkst pr ((PCT :: x) ++ t) []) (mkst s s' [])).
  { intros. cbn [app]. eapply H_seq; [apply H_chr|assumption]. }
  intros [I|(ds & -> & Hd)] N.
  - destruct I as [<-|[<-|[<-|[]]]].
    + change (lit "%setup") with (PCT :: lit "setup"). apply P. cbn [rev]. rewrite <- app_assoc. apply H_altl. apply (H_word (lit "setup")).
    + change (lit "%autosetup") with (PCT :: lit "autosetup"). apply P. cbn [rev]. rewrite <- app_assoc.
      apply H_altr; [reflexivity|]. apply H_altr; [reflexivity|]. apply H_altr; [reflexivity|]. apply (H_word (lit "autosetup")).
    + change (lit "%autopatch") with (PCT :: lit "autopatch"). apply P. cbn [rev]. rewrite <- app_assoc.
      apply H_altr; [reflexivity|]. apply H_altr; [reflexivity|]. apply H_altl. apply (H_word (lit "autopatch")).
  - change (lit "%patch" ++ ds) with (PCT :: lit "patch" ++ ds). apply P. rewrite <- app_assoc. apply H_altr; [reflexivity|]. apply H_altl.
    eapply H_seq; [apply (H_word (lit "patch"))|]. change (PCT :: lit "patch" ++ ds) with ((PCT :: lit "patch") ++ ds). rewrite rev_app_distr, <- app_assoc.
    apply H_star; [apply forallb_forall; now apply Forall_forall|]. intros c o E. eapply N; [reflexivity|exact E].
Qed.

Lemma search_macro line before name space options : ~ In LF line -> macro_line_of line before name space options ->
  exists p, re_search macro_regex line = Some (rev before, mkst p [] [(3%nat, options); (2%nat, space); (1%nat, name)]).
Proof.
  intros NL (-> & Hn & First & Hs & Ho & Hd).
  assert (Sp : forallb is_space space = true) by (apply forallb_forall; now apply Forall_forall).
  assert (Do : forallb dot options = true).
  { apply forallb_forall. intros c Hc. unfold dot. apply negb_true_iff, N.eqb_neq. intros ->. apply NL. rewrite !in_app_iff. auto. }
  eexists. unfold re_search. rewrite <- (app_nil_r (rev before)). apply search_at.
  - intros w1 w2 E N. rewrite app_nil_r. apply (no_macro_here (before ++ name ++ space ++ options) w1); [now rewrite E, <- app_assoc|].
    intros Q. apply First in Q. rewrite E, app_length in Q. destruct w2; [congruence|cbn in Q; lia].
  - unfold macro_regex. eapply H_seq.
    + eapply H_grp; [apply name_here; auto; intros ds c o; apply Hd|reflexivity].
    + cbn [pre rest caps]. eapply H_seq; [eapply H_grp; [apply H_star; auto|reflexivity]|]. cbn [pre rest caps].
      rewrite <- (app_nil_r options) at 1. apply H_lazy_star; auto.
      * intros w1 w2 E N m' M. apply Match_Dollar in M as [_ D]. cbn [rest] in D. rewrite app_nil_r in D. destruct w2 as [|c [|? ?]]; [congruence| |discriminate].
        cbn in D. apply N.eqb_eq in D. subst c. apply NL. rewrite E, !in_app_iff. right; right; right; right; now left.
      * reflexivity.
Qed.

Lemma kind_of_name name : macro_name name -> exists k, kind_of name = Some k /\ kind_named name (k, optstring k, defaults k).
Proof.
  intros [[<-|[<-|[<-|[]]]]|(ds & -> & _)].
  - exists Setup. split; [reflexivity|constructor].
  - exists Autosetup. split; [reflexivity|constructor].
  - exists Autopatch. split; [reflexivity|constructor].
  - exists Patch. split; [reflexivity|constructor].
Qed.

Lemma unwrapped_split line : unwrapped line -> split_conditional_macro_expansion line = Ok (line, [], []).
Proof.
  intros [N W]. destruct (split_cond_total line) as [([[body p] s] & E)|[_ Q]]; [|contradiction].
  destruct (split_cond_wrapper _ _ _ _ E) as [(-> & -> & ->)|(pre & name & x & -> & -> & _ & _ & L & _)]; auto.
  exfalso. apply W. exists (pre ++ name ++ [COLON] ++ x). rewrite L. cbn [app]. repeat (rewrite <- ?app_assoc; cbn [app]). reflexivity.
Qed.

Lemma canonical_nil : forall s toks, canonical_text s -> tokenize s = Ok toks -> tokens_str toks = s.
Proof. intros s toks C T. destruct (canonical_round_trip s C) as (l & T' & E). congruence. Qed.

Lemma macro_line_kept k name toks space before suffix buffer options os ds : (options <> [] -> space <> []) -> tokens_str toks = options ->
  macro_line (mk_macro k name (mk_opts toks os ds) space before suffix buffer) = before ++ name ++ space ++ options ++ suffix.
Proof.
  intros N T. unfold macro_line. cbn [m_opts o_tokens m_prefix m_name m_delim m_suffix]. rewrite T. destruct options as [|c o]; auto.
  destruct space; auto. exfalso. now apply N.
Qed.

Lemma str_eqb_nil_iff s : str_eqb s [] = match s with [] => true | _ => false end.
Proof. destruct s; reflexivity. Qed.
Lemma parse_kept : forall infos lines, Forall2 kept infos lines -> forall data buffer,
  exists p ms, parse_loop lines data buffer = Ok p /\ prep_raw p = flat_map macro_raw data ++ buffer ++ lines /\
    p_macros p = data ++ ms /\ Forall2 holds (macros_of infos) ms.
Proof.
  induction 1 as [|info line infos lines K F IH]; intros data buffer.
  - exists (mk_prep data buffer), []. cbn [macros_of]. rewrite !app_nil_r. auto.
  - assert (Keep : exists p ms, parse_loop lines data (buffer ++ [line]) = Ok p /\ prep_raw p = flat_map macro_raw data ++ buffer ++ line :: lines /\
       p_macros p = data ++ ms /\ Forall2 holds (macros_of infos) ms).
    { destruct (IH data (buffer ++ [line])) as (p & ms & E & R & M & Q). exists p, ms. rewrite R, <- app_assoc. auto. }
    assert (Take : forall k name options toks d before suffix os ds,
       kind_named name (k, os, ds) -> tokenize options = Ok toks -> macro_line (mk_macro k name (mk_opts toks os ds) d before suffix buffer) = line ->
       exists p ms, parse_loop lines (data ++ [mk_macro k name (mk_opts toks os ds) d before suffix buffer]) [] = Ok p /\
         prep_raw p = flat_map macro_raw data ++ buffer ++ line :: lines /\ p_macros p = data ++ ms /\ Forall2 holds ((name, options) :: macros_of infos) ms).
    { intros k name options toks d before suffix os ds Kn T L. destruct (IH (data ++ [mk_macro k name (mk_opts toks os ds) d before suffix buffer]) []) as (p & ms & E & R & M & Q).
      exists p, (mk_macro k name (mk_opts toks os ds) d before suffix buffer :: ms). split; auto. split.
      - rewrite R, flat_map_app. cbn [flat_map]. unfold macro_raw at 2. cbn [m_preceding]. rewrite L, app_nil_r. cbn [app]. rewrite <- !app_assoc. reflexivity.
      - split; [now rewrite M, <- app_assoc|]. constructor; auto. repeat split; auto. }
    destruct K as [line NL Uw NM|line before name options NL Uw ML No|line before name space options NL Uw ML Ns Ct|line cond body before name space options NL EL SP ML Ns Ct];
      cbn [parse_loop macros_of].
    + rewrite (unwrapped_split _ Uw). cbn [bind]. rewrite (search_no_macro _ NM). exact Keep.
    + rewrite (unwrapped_split _ Uw). cbn [bind]. destruct (search_macro _ _ _ _ _ NL ML) as (q & ->). cbn -[parse_loop].
      destruct options; [congruence|]. cbn -[parse_loop]. exact Keep.
    + rewrite (unwrapped_split _ Uw). cbn [bind]. destruct (search_macro _ _ _ _ _ NL ML) as (q & ->). cbn -[parse_loop kind_of].
      destruct (canonical_round_trip _ Ct) as (toks & T & Et). pose proof ML as (EL & Hn & _). destruct (kind_of_name _ Hn) as (k & -> & Kn).
      assert (B : str_eqb space [] && negb (str_eqb options []) = false).
      { rewrite !str_eqb_nil_iff. destruct space, options; auto. exfalso. now apply Ns. }
      rewrite B, T. cbn [bind]. apply Take; auto. rewrite macro_line_kept with (options := options); auto.
      rewrite rev_involutive. cbn [rest app]. now rewrite app_nil_r.
    + rewrite SP. cbn [bind]. assert (NLb : ~ In LF body) by (intros Q; apply NL; rewrite EL, !in_app_iff; auto).
      destruct (search_macro _ _ _ _ _ NLb ML) as (q & ->). cbn -[parse_loop kind_of].
      destruct (canonical_round_trip _ Ct) as (toks & T & Et). pose proof ML as (EB & Hn & _). destruct (kind_of_name _ Hn) as (k & -> & Kn).
      assert (B : str_eqb space [] && negb (str_eqb options []) = false).
      { rewrite !str_eqb_nil_iff. destruct space, options; auto. exfalso. now apply Ns. }
      rewrite B, T. cbn [bind]. apply Take; auto. rewrite macro_line_kept with (options := options); auto.
      rewrite rev_involutive. cbn [rest app]. rewrite EL, EB. rewrite <- !app_assoc. reflexivity.
Qed.
Theorem parse_round_trip infos lines : Forall2 kept infos lines ->
  exists p, parse lines = Ok p /\ prep_raw p = lines /\ Forall2 holds (macros_of infos) (p_macros p).
Proof.
  intros F. destruct (parse_kept infos lines F [] []) as (p & ms & E & R & M & Q). exists p. rewrite M. auto.
Qed.

(** Whatever the lines are, those that are not wrapped and hold no macro stay where they are. *)
Lemma parse_others : forall lines data buffer p, parse_loop lines data buffer = Ok p ->
  exists out, prep_raw p = flat_map macro_raw data ++ buffer ++ out /\ Forall2 other_kept lines out.
Proof.
  induction lines as [|line lines IH]; intros data buffer p E; cbn [parse_loop] in E.
  - injection E as <-. exists []. rewrite app_nil_r. split; [reflexivity|constructor].
  - destruct (split_conditional_macro_expansion line) as [[[body prefix] suffix]|] eqn:S; [|discriminate]. cbn [bind] in E.
    assert (Keep : parse_loop lines data (buffer ++ [body]) = Ok p -> exists out, prep_raw p = flat_map macro_raw data ++ buffer ++ out /\ Forall2 other_kept (line :: lines) out).
    { intros Q. apply IH in Q as (out & R & F). exists (body :: out). rewrite R, <- app_assoc. split; [reflexivity|]. constructor; auto.
      intros Uw _. rewrite (unwrapped_split _ Uw) in S. congruence. }
    destruct (re_search macro_regex body) as [[before m]|] eqn:Q; [|auto].
    destruct (str_eqb (group_str 2 m) [] && negb (str_eqb (group_str 3 m) [])); [auto|].
    destruct (kind_of (group_str 1 m)) as [k|]; [|auto].
    destruct (tokenize (group_str 3 m)) as [toks|]; [|discriminate]. cbn [bind] in E. apply IH in E as (out & R & F).
    eexists (_ :: out). rewrite R, flat_map_app. cbn [flat_map]. unfold macro_raw at 2. cbn [m_preceding]. rewrite app_nil_r. cbn [app]. rewrite <- !app_assoc. split; [reflexivity|].
    constructor; auto. intros Uw NM. exfalso. rewrite (unwrapped_split _ Uw) in S. injection S as <- <- <-. rewrite (search_no_macro _ NM) in Q. discriminate.
Qed.
Theorem parse_keeps_others lines p : parse lines = Ok p -> Forall2 other_kept lines (prep_raw p).
Proof. intros E. destruct (parse_others lines [] [] p E) as (out & R & F). rewrite R. exact F. Qed.

(** When reading fails. *)
Theorem parse_errors : forall lines data buffer e, parse_loop lines data buffer = Err e ->
  e = OptionsException \/ e = ValueError \/ e = UnterminatedMacroException.
Proof.
  induction lines as [|line lines IH]; intros data buffer e E; cbn [parse_loop] in E; [discriminate|].
  destruct (split_cond_total line) as [([[body prefix] suffix] & S)|[S _]]; rewrite S in E; [|injection E as <-; auto]. cbn [bind] in E.
  destruct (re_search macro_regex body) as [[before m]|]; [|eauto].
  destruct (str_eqb (group_str 2 m) [] && negb (str_eqb (group_str 3 m) [])); [eauto|].
  destruct (kind_of (group_str 1 m)) as [k|]; [|eauto].
  destruct (tokenize (group_str 3 m)) as [toks|e'] eqn:T; cbn [bind] in E; [eauto|]. injection E as <-.
  apply tokenize_errors in T as [->|T]; auto. apply P_value.parse_errors in T as [->|[-> _]]; auto.
Qed.
End U.
