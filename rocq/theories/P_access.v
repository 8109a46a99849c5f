(** The lines of macro definitions and definitions as attributes: proofs. *)
From Coq Require Import Ascii String.
From Coq Require Import NArith ZArith List Bool Lia.
From Verif Require M_tags P_tags4.
From Verif Require Import PyStr PyStrFacts Regex RegexFacts M_value M_macro_definitions Spec_macro_definitions P_macro_definitions P_macro_definitions2 M_access Spec_access.
Import ListNotations.
Open Scope N_scope.

Lemma open_unfinished b : body_open b = true <-> unfinished b.
Proof.
  unfold body_open, unfinished. destruct (count_brackets b) as [x y]. rewrite !orb_true_iff, !Nat.ltb_lt, endswith_char. split.
  - intros [[H|H]|H]; [left|left|now right]; intros Q; injection Q as -> ->; lia.
  - intros [H|H]; [|now right]. left. destruct x; [|left; lia]. destruct y; [congruence|right; lia].
Qed.
Section U.
Context {U : Unicode}.
Lemma extend_takes : forall lines b b' ls, extend_body b lines = (b', ls) -> exists taken, lines = taken ++ ls /\
  (forall p l q, taken = p ++ l :: q -> unfinished (with_lines b p)) /\ (ls = [] \/ ~ unfinished (with_lines b taken)).
Proof.
  induction lines as [|[l v] lines IH]; intros b b' ls; cbn [extend_body].
  - intros Q. injection Q as <- <-. exists []. split; [reflexivity|]. split; [intros [|? ?] ? ? Q; discriminate|now left].
  - destruct (body_open b) eqn:E.
    + intros Q. apply IH in Q as (taken & -> & H1 & H2). exists ((l, v) :: taken). split; [reflexivity|].
      assert (K : forall p, with_lines b ((l, v) :: p) = with_lines (b ++ LF :: l) p). { intros p. unfold with_lines. cbn [flat_map fst]. now rewrite <- app_assoc. }
      split; [|rewrite K; exact H2]. intros [|x p] z q Q; injection Q as <- Q.
      * unfold with_lines. cbn [flat_map]. rewrite app_nil_r. now apply open_unfinished.
      * rewrite K. eauto.
    + intros Q. injection Q as <- <-. exists []. split; [reflexivity|]. split; [intros [|? ?] ? ? Q; discriminate|right]. unfold with_lines. cbn [flat_map]. rewrite app_nil_r.
      intros Q. apply open_unfinished in Q. congruence.
Qed.
Lemma trailing_here p y t : y <> [] -> forallb space_not_lf y = true -> at_dollar t = true -> results re_trailing (mkst p (y ++ t) []) <> [].
Proof.
  intros N B D Q. assert (M : Match re_trailing (mkst p (y ++ t) []) (mkst (rev y ++ p) t [(1%nat, y)])).
  { unfold re_trailing. apply Match_Seq. eexists. split; [apply L_grp, L_plus; assumption|]. now apply Match_Dollar. }
  apply results_Match in M. rewrite Q in M. destruct M.
Qed.
Lemma trailing_spec body w3 b w : split_trailing body w3 = (b, w) -> trimmed b /\ exists t, body = b ++ t /\ blank t.
Proof.
  unfold split_trailing, re_split1, re_search. destruct (search_from re_trailing [] body) as [[pr m]|] eqn:E.
  - apply search_from_Some in E as (x & rs & -> & -> & Hm & F). rewrite !app_nil_r, rev_involutive in *. intros Q. injection Q as <- _.
    assert (HM : Match re_trailing (mkst (rev x) rs []) m). { apply results_Match. destruct (results _ _); cbn in Hm; [discriminate|]. injection Hm as ->. now left. }
    unfold re_trailing in HM. apply Match_Seq in HM as (s1 & HM & HD). apply Match_Grp_Plus in HM as (y & Ny & E1 & B & _ & C). apply Match_Dollar in HD as [-> HD]. cbn [rest] in E1. split.
    + intros a c -> Hc. destruct (N.eq_dec c LF) as [|Nc]; [assumption|exfalso]. specialize (F a [c] eq_refl ltac:(discriminate)). revert F. rewrite E1.
      change ([c] ++ y ++ rest s1) with ((c :: y) ++ rest s1). apply trailing_here; [discriminate| |exact HD]. cbn [forallb]. rewrite B. unfold space_not_lf. rewrite Hc. apply N.eqb_neq in Nc. now rewrite Nc.
    + exists rs. split; [reflexivity|]. rewrite E1. apply Forall_app. split.
      * apply blank_forallb. rewrite forallb_forall in *. intros c Hc. specialize (B c Hc). unfold space_not_lf in B. now apply andb_true_iff in B.
      * destruct (rest s1) as [|c [|? ?]]; cbn in HD; try discriminate; [constructor|]. apply N.eqb_eq in HD. subst c. constructor; [reflexivity|constructor].
  - intros Q. injection Q as <- _. split.
    + intros a c -> Hc. destruct (N.eq_dec c LF) as [|Nc]; [assumption|exfalso]. pose proof (search_from_None _ _ _ E a [c] eq_refl) as Q. revert Q.
      change [c] with ([c] ++ []) at 1. apply trailing_here; [discriminate| |reflexivity]. cbn [forallb]. unfold space_not_lf. rewrite Hc. apply N.eqb_neq in Nc. now rewrite Nc.
    + exists []. split; [now rewrite app_nil_r|constructor].
Qed.
Lemma extend_text : forall lines b b' ls taken, extend_body b lines = (b', ls) -> lines = taken ++ ls -> b' = with_lines b taken.
Proof.
  induction lines as [|[l v] lines IH]; intros b b' ls taken; cbn [extend_body].
  - intros Q. injection Q as <- <-. rewrite app_nil_r. intros <-. unfold with_lines. cbn [flat_map]. now rewrite app_nil_r.
  - destruct (body_open b).
    + intros Q E. destruct taken as [|x taken].
      * exfalso. cbn in E. subst ls. apply extend_takes in Q as (t & Q & _). apply (f_equal (@length _)) in Q. rewrite app_length in Q. cbn in Q. lia.
      * injection E as <- E. rewrite (IH _ _ _ _ Q E). unfold with_lines. cbn [flat_map fst]. now rewrite <- app_assoc.
    + intros Q. injection Q as <- <-. intros E. assert (taken = []) as ->. { apply (f_equal (@length _)) in E. rewrite app_length in E. destruct taken; [reflexivity|cbn in E; lia]. }
      unfold with_lines. cbn [flat_map]. now rewrite app_nil_r.
Qed.
Lemma make_takes line m v buffer lines d rest : ~ In LF line -> re_match md_regex line = Some m -> make_def m v buffer lines = (d, rest) ->
  exists taken, lines = taken ++ rest /\ d_preceding d = buffer /\ makes line v taken rest d.
Proof.
  intros HLF HM. destruct (md_match _ _ HLF HM) as (w0 & dn & sc & k & w1 & nm & w2 & body & w3 & S). destruct S as [SL S1 S3 S4 S5 S6 S7 S8 S9 B0 BK B1 B2 B3 BS].
  unfold make_def. rewrite S1, S3, S4, S5, S6, S7, S8, S9.
  set (dnl := match group 2 m with Some _ => true | None => false end). set (esc := sc_escaped sc). set (hsh := sc_hashed sc).
  destruct (if negb dnl && negb esc && negb hsh then _ else _) as [[bd w] ls] eqn:EB. destruct (split_trailing bd w) as [b' w'] eqn:ET. intros Q; injection Q as <- <-.
  assert (EC : dnl || hsh || esc && char_in HASH sc = negb (negb dnl && negb esc && negb hsh)).
  { subst dnl esc hsh. destruct BS as [(_ & -> & _)|(_ & -> & [->|[->|(x & ->)]])]; try reflexivity. cbn [char_in existsb]. change (HASH =? HASH) with true || idtac.
    destruct (sc_escaped (HASH :: x ++ [PCT])), (sc_hashed (HASH :: x ++ [PCT])); reflexivity. }
  assert (KG : str_eqb k (lit "global") = true <-> k = lit "global") by apply str_eqb_eq.
  destruct (negb dnl && negb esc && negb hsh) eqn:EA.
  - destruct (if str_eqb w3 [BSLASH] then _ else _) as [b1 w_1] eqn:Ebw in EB. destruct (extend_body b1 lines) as [b2 ls2] eqn:EX. injection EB as -> -> ->.
    destruct (extend_takes _ _ _ _ EX) as (taken & -> & H1 & H2). exists taken. split; [reflexivity|]. cbn [d_preceding]. split; [reflexivity|]. split; [reflexivity|].
    cbn [d_name d_body d_is_global d_commented_out]. rewrite EC. destruct (trailing_spec _ _ _ _ ET) as (TB & tr & ETr & BTr). rewrite (extend_text _ _ _ _ _ EX eq_refl) in ETr.
    assert (Hb1 : body ++ w3 = b1 ++ w /\ blank w).
    { destruct (str_eqb w3 [BSLASH]) eqn:Q; injection Ebw as <- <-; [apply str_eqb_eq in Q as ->; rewrite app_nil_r; split; [reflexivity|constructor]|]. split; [reflexivity|].
      destruct B3 as [B3|B3]; auto. rewrite B3, str_eqb_refl in Q. discriminate. }
    exists (w0 ++ dn ++ sc), k, w1, w2, b1, w. split; [rewrite SL, <- !app_assoc; now rewrite (proj1 Hb1)|]. do 5 (split; [first [assumption|apply Hb1]|]). split; [eauto 6|]. split; [discriminate|]. auto.
  - injection EB as <- <- <-. exists []. split; [reflexivity|]. split; [reflexivity|]. split; [reflexivity|]. cbn [d_name d_body d_is_global d_commented_out]. rewrite EC. cbn [negb]. destruct (trailing_spec _ _ _ _ ET) as (TB & tr & ETr & BTr).
    assert (WL : forall t, with_lines t [] = t) by (intros; apply app_nil_r).
    destruct B3 as [B3| ->].
    + exists (w0 ++ dn ++ sc), k, w1, w2, body, w3. split; [rewrite SL, <- !app_assoc; reflexivity|]. do 5 (split; [assumption|]). split; [exists tr; rewrite WL; auto|]. split; [auto|discriminate].
    + exists (w0 ++ dn ++ sc), k, w1, w2, (body ++ [BSLASH]), []. split; [rewrite SL, app_nil_r, <- !app_assoc; reflexivity|]. do 5 (split; [first [assumption|constructor]|]).
      split; [|split; [auto|discriminate]]. exists (tr ++ [BSLASH]). rewrite WL, ETr, <- app_assoc. split; [reflexivity|]. split; [exact TB|]. right. split; [reflexivity|]. eauto.
Qed.
Lemma dot_noLF s : ~ In LF s -> forallb dot s = true.
Proof. intros H. apply forallb_forall. intros c Hc. unfold dot. apply negb_true_iff, N.eqb_neq. intros ->. auto. Qed.
Lemma line_matches line : ~ In LF line -> definition_line line -> re_match md_regex line <> None.
Proof.
  intros HLF (w0 & mark & k & w1 & word & options & w2 & body & E & B0 & HM & HK & B1 & N1 & HW & NW & HO & B2 & N2).
  assert (NI : forall x a b, line = a ++ x ++ b -> ~ In LF x). { intros x a b Q HI. apply HLF. rewrite Q, !in_app_iff. auto. }
  assert (Mk : exists cs sc, L (Seq (Opt (Grp 2 (Regex.word (lit "%dnl")))) (Grp 3 re_sc)) [(1%nat, w0)] mark ((3%nat, sc) :: cs)).
  { assert (Nm : ~ In LF mark) by (apply (NI mark w0 (k ++ w1 ++ word ++ options ++ w2 ++ body)); rewrite E; reflexivity).
    assert (D : forall x cs, ~ In LF x -> L (Seq (Star false dot) (chr PCT)) cs (x ++ [PCT]) cs).
    { intros x cs Hx. apply L_seq with cs; [apply L_star, dot_noLF, Hx|apply L_chr]. }
    destruct HM as [->|[->|[(x & ->)|(x & ->)]]].
    - exists [(1%nat, w0)], (lit "%"). change (lit "%") with ([] ++ lit "%") at 1. apply L_seq with [(1%nat, w0)]; [apply L_altr, L_eps|]. apply L_grp.
      apply L_iff; [reflexivity|]. apply L_altl, L_chr.
    - exists [(1%nat, w0)], (lit "#"). change (lit "#") with ([] ++ lit "#") at 1. apply L_seq with [(1%nat, w0)]; [apply L_altr, L_eps|]. apply L_grp.
      apply L_iff; [reflexivity|]. apply L_altr. change (lit "#") with (lit "#" ++ []). apply L_seq with [(1%nat, w0)]; [apply L_chr|apply L_altr, L_eps].
    - exists [(1%nat, w0)], (lit "#" ++ x ++ lit "%"). change (lit "#" ++ x ++ lit "%") with ([] ++ lit "#" ++ x ++ lit "%") at 1. apply L_seq with [(1%nat, w0)]; [apply L_altr, L_eps|]. apply L_grp.
      apply L_iff; [reflexivity|]. apply L_altr. apply L_seq with [(1%nat, w0)]; [apply L_chr|apply L_altl, D]. intros Q. apply Nm. rewrite !in_app_iff. auto.
    - exists [(2%nat, lit "%dnl"); (1%nat, w0)], (x ++ lit "%"). apply L_seq with [(2%nat, lit "%dnl"); (1%nat, w0)]; [apply L_altl, L_grp, L_word|]. apply L_grp.
      eapply L_ift; [reflexivity|]. apply D. intros Q. apply Nm. rewrite !in_app_iff. auto. }
  destruct Mk as (cs & sc & Mk).
  assert (Nb : forallb dot body = true). { apply dot_noLF, (NI body (w0 ++ mark ++ k ++ w1 ++ word ++ options ++ w2) []). rewrite E, app_nil_r, <- !app_assoc. reflexivity. }
  assert (HN : forall cs, L re_name cs (word ++ options) cs).
  { intros c. apply L_seq with c; [apply L_plus; [now apply forallb_forall, Forall_forall|exact NW]|]. destruct HO as [->|(x & ->)]; [apply L_altr, L_eps|]. apply L_altl.
    apply L_seq with c; [apply L_chr|]. apply L_seq with c; [|apply L_chr]. apply L_star, dot_noLF. apply (NI x (w0 ++ mark ++ k ++ w1 ++ word ++ lit "(") (lit ")" ++ w2 ++ body)).
    rewrite E, <- !app_assoc. reflexivity. }
  intros Q. pose proof (proj1 (re_match_None _ _) Q) as Q1. revert Q1. clear Q. apply blank_forallb in B0, B1, B2.
  pose (r := Seq (Grp 1 (Star true is_space)) (Seq (Seq (Opt (Grp 2 (Regex.word (lit "%dnl")))) (Grp 3 re_sc)) (Seq (Grp 4 (Alt (Regex.word (lit "global")) (Regex.word (lit "define"))))
    (Seq (Grp 5 (Plus true is_space)) (Seq (Grp 6 re_name) (Seq (Grp 7 (Plus true is_space)) (Seq (Grp 8 (Star false dot)) (Grp 9 (Alt (Star true is_space) (chr BSLASH)))))))))).
  assert (LR : exists cs', L r [] line cs').
  { replace line with (w0 ++ mark ++ k ++ w1 ++ (word ++ options) ++ w2 ++ body ++ []) by (rewrite E, app_nil_r, <- !app_assoc; reflexivity). eexists. apply L_seq with [(1%nat, w0)]; [apply L_grp, L_star, B0|]. eapply L_seq; [exact Mk|]. eapply L_seq.
    { apply L_grp. destruct HK as [->| ->]; [apply L_altl, L_word|apply L_altr, L_word]. }
    eapply L_seq; [apply L_grp, L_plus; assumption|]. eapply L_seq; [apply L_grp, HN|]. eapply L_seq; [apply L_grp, L_plus; assumption|].
    eapply L_seq; [apply L_grp, L_star, Nb|]. apply L_grp, L_altl, L_star. reflexivity. }
  destruct LR as (cs' & LR). apply match_whole_caret in LR. intros Q. apply (Q (mkst (rev line) [] cs')). revert LR. unfold md_regex, r. clear. intros LR.
  repeat match goal with H : Match (Seq _ _) _ _ |- _ => apply Match_Seq in H as (? & ? & ?) end.
  repeat (apply Match_Seq; eexists; split; [eassumption|]). assumption.
Qed.
Lemma matches_line line m : ~ In LF line -> re_match md_regex line = Some m -> definition_line line.
Proof.
  intros HLF HM. destruct (md_match _ _ HLF HM) as (w0 & dn & sc & k & w1 & nm & w2 & body & w3 & S). destruct S as [SL S1 S3 S4 S5 S6 S7 S8 S9 B0 BK B1 B2 B3 BS].
  assert (X : w1 <> [] /\ w2 <> [] /\ exists word options, nm = word ++ options /\ Forall (fun c => is_word c = true) word /\ word <> [] /\ (options = [] \/ exists x, options = lit "(" ++ x ++ lit ")")).
  { clear - HM S5 S6 S7. apply re_match_sound in HM. unfold md_regex in HM.
    apply Match_Seq in HM as (s0 & _ & HM). apply Match_Seq in HM as (s1 & _ & HM). apply Match_Seq in HM as (s2 & _ & HM). apply Match_Seq in HM as (s3 & _ & HM). apply Match_Seq in HM as (s4 & _ & HM).
    apply Match_Seq in HM as (s5 & H5 & HM). apply Match_Grp_Plus in H5 as (v1 & N5 & _ & _ & _ & C5).
    apply Match_Seq in HM as (s6 & H6 & HM). apply Match_Grp_simple in H6 as (v & t6 & H6 & E6 & _ & _ & ->); [|cbn; tauto].
    apply Match_Seq in HM as (s7 & H7 & HM). apply Match_Grp_Plus in H7 as (v2 & N7 & _ & _ & _ & C7).
    apply Match_Seq in HM as (s8 & H8 & HM). apply Match_Grp_Star in H8 as (v3 & _ & _ & _ & C8).
    apply Match_Seq in HM as (s9 & H9 & HM). apply Match_Grp_simple in H9 as (v4 & t9 & _ & _ & _ & _ & ->); [|cbn; tauto].
    apply Match_Dollar in HM as [-> _]. cbn [rest caps pre] in *.
    assert (Q5 : v1 = w1) by (rewrite <- S5; unfold group_str, group; cbn [caps]; rewrite C8, C7; cbn; rewrite C5; reflexivity).
    assert (Q6 : v = nm) by (rewrite <- S6; unfold group_str, group; cbn [caps]; rewrite C8, C7; reflexivity).
    assert (Q7 : v2 = w2) by (rewrite <- S7; unfold group_str, group; cbn [caps]; rewrite C8, C7; reflexivity).
    subst v1 v v2. split; [exact N5|]. split; [exact N7|]. unfold re_name in H6. apply Match_Seq in H6 as (u & H6 & HO). apply Match_Plus in H6 as (w & NW & Ew & Bw & _).
    assert (Ho : exists o, rest u = o ++ rest t6 /\ (o = [] \/ exists x, o = lit "(" ++ x ++ lit ")")).
    { apply Match_Alt in HO as [HO|HO]; [|apply Match_Eps in HO; subst t6; exists []; auto].
      apply Match_Seq in HO as (a & HA & HO). apply Match_Seq in HO as (b & HB & HO). apply Match_Ch in HA as (c & HA & PA & _). apply Match_Star in HB as (x & HB & _). apply Match_Ch in HO as (c' & HO & PO & _).
      apply N.eqb_eq in PA, PO. subst c c'. exists (lit "(" ++ x ++ lit ")"). split; [|right; eauto]. rewrite HA, HB, HO, <- app_assoc. cbn [app lit list_ascii_of_string map]. rewrite <- app_assoc. reflexivity. }
    destruct Ho as (o & Eo & Ho). exists w, o. split; [|split; [now apply Forall_forall, forallb_forall|split; [exact NW|exact Ho]]].
    rewrite Eo in Ew. rewrite E6, app_assoc in Ew. now apply app_inv_tail in Ew. }
  destruct X as (N1 & N2 & word & options & -> & HW & NW & HO).
  exists w0, (dn ++ sc), k, w1, word, options, w2, (body ++ w3). split; [rewrite SL, <- !app_assoc; reflexivity|]. split; [exact B0|].
  split; [|repeat (split; [assumption|]); assumption].
  destruct BS as [(-> & _ & x & ->)|(-> & _ & [->|[->|(x & ->)]])]; [right; right; right; exists x; reflexivity|now left|right; now left|right; right; left; exists x; reflexivity].
Qed.
Lemma matches_iff line : ~ In LF line -> (re_match md_regex line = None <-> ~ definition_line line).
Proof.
  intros HLF. split.
  - intros Q D. now apply (line_matches _ HLF D).
  - intros D. destruct (re_match md_regex line) eqn:E; [|reflexivity]. exfalso. apply D, (matches_line _ _ HLF E).
Qed.
Lemma loop_made : forall fuel lines data buffer above, (length lines <= fuel)%nat -> Forall (fun l => ~ In LF (fst l)) lines -> Forall (fun l => ~ definition_line (fst l)) above ->
  buffer = map fst above ->
  exists ds tail, parse_loop fuel lines data buffer = mk_mdefs (data ++ ds) tail /\ made_of (above ++ lines) ds tail.
Proof.
  induction fuel as [|fuel IH]; intros lines data buffer above L F FA ->.
  - destruct lines; [|cbn in L; lia]. exists [], (map fst above). cbn [parse_loop]. rewrite !app_nil_r. split; [reflexivity|now constructor].
  - destruct lines as [|[line v] lines]; cbn [parse_loop]; [exists [], (map fst above); rewrite !app_nil_r; split; [reflexivity|now constructor]|].
    cbn in L. inversion F as [|? ? F1 F2]; subst. cbn [fst] in F1. destruct (re_match md_regex line) as [m|] eqn:EM.
    + destruct (make_def m v (map fst above) lines) as [d rest] eqn:ED. destruct (make_takes _ _ _ _ _ _ _ F1 EM ED) as (taken & -> & Hp & Hm).
      apply Forall_app in F2 as (_ & F2). rewrite app_length in L. destruct (IH rest (data ++ [d]) [] [] ltac:(lia) F2 (Forall_nil _) eq_refl) as (ds & tail & E & M).
      exists (d :: ds), tail. rewrite E, <- app_assoc. split; [reflexivity|]. constructor; auto. exact (matches_line _ _ F1 EM).
    + destruct (IH lines data (map fst above ++ [line]) (above ++ [(line, v)]) ltac:(lia) F2) as (ds & tail & E & M); [|now rewrite map_app|].
      { apply Forall_app. split; [exact FA|]. constructor; [|constructor]. now apply matches_iff. }
      exists ds, tail. split; [exact E|]. now rewrite <- app_assoc in M.
Qed.
Theorem tagged_made lines : Forall (fun l => ~ In LF (fst l)) lines -> made_of lines (md_data (parse_tagged lines)) (md_remainder (parse_tagged lines)).
Proof. intros F. destruct (loop_made (length lines) lines [] [] [] (le_n _) F (Forall_nil _) eq_refl) as (ds & tail & E & M). unfold parse_tagged. rewrite E. exact M. Qed.
End U.

Lemma contains_iff m name : contains m name = true <-> defines m name.
Proof. unfold contains, defines. rewrite existsb_exists. split; intros (d & H & E); exists d; (split; [exact H|]); now apply str_eqb_eq. Qed.
Lemma find_stands m name : match find m name with
  | Ok k => exists a d b, length a = k /\ stands_for m name a d b
  | Err e => e = ValueError /\ ~ defines m name end.
Proof.
  pose proof (find_spec m name) as F. destruct (find m name) as [k|e].
  - destruct F as (d & Hd & N & F). destruct (nth_error_split _ _ Hd) as (a & b & E & L). exists a, d, b. split; [exact L|]. split; [exact E|]. split; [exact N|].
    assert (K : forall u, In u a -> exists j, (j < k)%nat /\ nth_error (md_data m) j = Some u).
    { intros u Hu. apply In_nth_error in Hu as (j & Hj). assert (Lj : (j < length a)%nat) by (apply nth_error_Some; congruence). exists j. split; [lia|]. rewrite E, nth_error_app1; auto. }
    destruct F as [(V & F)|(F1 & F2)]; [left|right]; (split; [assumption|]); intros u Hu; destruct (K u Hu) as (j & Lj & Hj); eauto.
  - destruct F as (-> & F). split; [reflexivity|]. intros (d & H & E). now apply (F d).
Qed.
Theorem attributes m name :
  (defines m name <-> contains m name = true) /\
  (defines m name -> exists a d b, stands_for m name a d b /\ mdef_getattr m name = Some (Ok d) /\ mdef_get m name None = Ok d /\
     (forall v, setattr m name v = Some (mk_mdefs (a ++ with_body v d :: b) (md_remainder m))) /\ delattr m name = Some (mk_mdefs (a ++ b) (md_remainder m))) /\
  (~ defines m name -> mdef_getattr m name = None /\ mdef_get m name None = Err ValueError /\ (forall b, setattr m name b = None) /\ delattr m name = None).
Proof.
  split; [symmetry; apply contains_iff|]. pose proof (find_stands m name) as F. split; intros D.
  - destruct (find m name) as [k|e] eqn:E; [|now destruct F as (_ & F)]. destruct F as (a & d & b & L & S). exists a, d, b. split; [exact S|].
    apply contains_iff in D. destruct S as (Ed & _). unfold mdef_getattr, mdef_get, setattr, delattr. rewrite D, E. cbn [bind].
    assert (Hd : nth_error (md_data m) k = Some d) by (rewrite Ed, <- L, nth_error_app2, Nat.sub_diag by lia; reflexivity). rewrite Hd. do 2 (split; [reflexivity|]).
    rewrite Ed, <- L, remove_at_app. split; [|reflexivity]. intros v. now rewrite update_at_app.
  - destruct (contains m name) eqn:C; [exfalso; now apply D, contains_iff|]. destruct (find m name) as [k|e] eqn:E.
    + exfalso. destruct F as (a & d & b & L & Ed & N & _). apply D. exists d. split; [rewrite Ed; apply in_app_iff; right; now left|exact N].
    + destruct F as (-> & _). unfold mdef_getattr, mdef_get, setattr, delattr. rewrite C, E. auto.
Qed.
Theorem tag_got {U : Unicode} ts name : match tag_get ts name None with
  | Ok t => tag_stands_for ts name t
  | Err e => e = ValueError /\ forall t, In t (M_tags.ts_data ts) -> capitalize (M_tags.t_name t) <> capitalize name end.
Proof.
  unfold tag_get. pose proof (P_tags4.find_spec ts name) as F. destruct (M_tags.tag_find ts name) as [k|e]; cbn [bind]; [|exact F]. destruct F as (d & Hd & N & F). rewrite Hd.
  destruct (nth_error_split _ _ Hd) as (a & b & E & L). exists a, b. split; [exact E|]. split; [exact N|].
  assert (K : forall u, In u a -> exists j, (j < k)%nat /\ nth_error (M_tags.ts_data ts) j = Some u).
  { intros u Hu. apply In_nth_error in Hu as (j & Hj). assert (Lj : (j < length a)%nat) by (apply nth_error_Some; congruence). exists j. split; [lia|]. rewrite E, nth_error_app1; auto. }
  destruct F as [(V & F)|(F1 & F2)]; [left|right]; (split; [assumption|]); intros u Hu; destruct (K u Hu) as (j & Lj & Hj); eauto.
Qed.
Theorem tag_got_at {U : Unicode} ts name p : match tag_get ts name (Some p) with
  | Ok t => In t (M_tags.ts_data ts) /\ capitalize (M_tags.t_name t) = capitalize name /\ M_tags.tag_position t ts = Ok p
  | Err e => e = ValueError /\ forall t, In t (M_tags.ts_data ts) -> capitalize (M_tags.t_name t) = capitalize name -> M_tags.tag_position t ts <> Ok p end.
Proof.
  unfold tag_get. pose proof (P_tags4.find_at_spec ts name p) as F. destruct (M_tags.tag_find_at ts name p) as [k|e]; cbn [bind]; [|exact F]. destruct F as (d & Hd & N & F). rewrite Hd.
  split; [now apply nth_error_In in Hd|]. auto.
Qed.
Theorem mdef_got_at m name p : match mdef_get m name (Some p) with
  | Ok d => In d (md_data m) /\ d_name d = name /\ get_position d m = Ok p
  | Err e => e = ValueError /\ forall d, In d (md_data m) -> d_name d = name -> get_position d m <> Ok p end.
Proof.
  unfold mdef_get. pose proof (find_at_spec m name p) as F. destruct (find_at m name p) as [k|e]; cbn [bind]; [|exact F]. destruct F as (d & Hd & N & F). rewrite Hd.
  split; [now apply nth_error_In in Hd|]. auto.
Qed.
