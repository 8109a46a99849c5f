(** What a forced parse looks for in a spec file. *)
From Coq Require Import Ascii String.
From Coq Require Import NArith ZArith List Bool Lia.
From Verif Require Import PyStr PyStrFacts Regex RegexFacts M_value M_tags M_macros M_spec_parser Spec_value2 Spec_spec_parser2 P_evr P_prep.
Import ListNotations.
Open Scope nat_scope.

Lemma Forall_forallb {T} (P : T -> Prop) (p : T -> bool) l : (forall x, P x <-> p x = true) -> Forall P l <-> forallb p l = true.
Proof. intros E. rewrite forallb_forall, Forall_forall. split; intros H x I; apply E, H, I. Qed.
Lemma blanks_b w : blanks w -> forallb is_space w = true.
Proof. intros B. apply (proj1 (Forall_forallb _ is_space w (fun x => iff_refl _))). exact B. Qed.

(** * Lines *)
Lemma splitlines_aux_no_lf s : forall cur, ~ In LF cur -> Forall (fun l => ~ In LF l) (splitlines_aux cur s).
Proof.
  induction s as [s IH] using (induction_ltof1 _ (@length N)). unfold ltof in IH. intros cur C.
  assert (R : ~ In LF (rev cur)) by (rewrite <- in_rev; exact C).
  destruct s as [|c s]; cbn [splitlines_aux].
  - destruct cur; constructor; [exact R|constructor].
  - repeat match goal with |- context [if ?b then _ else _] => let E := fresh "E" in destruct b eqn:E | |- context [match s with _ => _ end] => destruct s end; try (constructor; [exact R|]);
      try (apply IH; [cbn; lia|exact (fun x => x)]).
    apply IH; [cbn; lia|]. intros [X|X]; [subst c; discriminate|contradiction].
Qed.
Lemma splitlines_no_lf s : Forall (fun l => ~ In LF l) (splitlines s).
Proof. apply splitlines_aux_no_lf. intros []. Qed.

(** * Included files *)
Lemma dots a : ~ In LF a -> forallb dot a = true.
Proof. intros N. apply forallb_forall. intros x I. unfold dot. apply negb_true_iff, N.eqb_neq. intros ->. contradiction. Qed.
Lemma include_match l arg : include_line l arg -> exists m, re_match include_regex l = Some m /\ group_str 1 m = arg.
Proof.
  intros (w & v & B1 & B2 & Nv & F & NL & ->). apply blanks_b in B1, B2.
  exists (mkst (rev arg ++ rev v ++ rev (lit "%include") ++ rev w ++ []) [] [(1, arg)]). split; [|reflexivity].
  apply re_match_H. unfold include_regex. eapply H_seq; [apply H_caret|]. eapply H_seq; [apply H_star; [exact B1|intros c rs' E; injection E as <- _; reflexivity]|].
  eapply H_seq; [apply H_word|]. eapply H_seq; [apply H_plus; [exact Nv|exact B2|exact F]|]. eapply H_seq; [|apply H_dollar].
  pose proof (H_star dot (rev v ++ rev (lit "%include") ++ rev w ++ []) arg [] [] (dots arg NL)) as X. rewrite (app_nil_r arg) in X.
  apply (H_grp 1 _ _ _ arg) in X; [exact X| |reflexivity]. intros c rs' E. discriminate.
Qed.
Lemma strip_blanks v : exists w t, v = w ++ t /\ blanks w /\ (forall c t', t = c :: t' -> is_space c = false).
Proof.
  induction v as [|c v (w & t & -> & B & F)]; [exists [], []; repeat split; [constructor|discriminate]|].
  destruct (is_space c) eqn:E; [exists (c :: w), t; repeat split; [constructor; auto|exact F]|].
  exists [], (c :: w ++ t). repeat split; [constructor|]. intros c' t' X. injection X as <- _. exact E.
Qed.
Lemma include_none l : ~ In LF l -> (forall arg, ~ include_line l arg) -> re_match include_regex l = None.
Proof.
  intros NL No. destruct (re_match include_regex l) as [m|] eqn:E; [|reflexivity]. exfalso. apply re_match_sound in E.
  unfold include_regex in E. apply Match_Seq in E as (s1 & M1 & E). apply Match_Caret in M1 as [-> _].
  apply Match_Seq in E as (s2 & M2 & E). apply Match_Star in M2 as (w & R1 & B1 & _). cbn [rest] in R1.
  apply Match_Seq in E as (s3 & M3 & E). apply Match_word in M3 as (R2 & _).
  apply Match_Seq in E as (s4 & M4 & _). apply Match_Plus in M4 as (v & Nv & R3 & B2 & _).
  destruct (strip_blanks (rest s4)) as (v' & t & R4 & B3 & F).
  apply (No t). exists w, (v ++ v'). split; [apply Forall_forall; apply forallb_forall; exact B1|].
  split; [apply Forall_app; split; [apply Forall_forall; apply forallb_forall; exact B2|exact B3]|]. split; [destruct v; [contradiction|discriminate]|]. split; [exact F|].
  assert (El : l = w ++ lit "%include" ++ (v ++ v') ++ t) by (rewrite R1, R2, R3, R4, <- app_assoc; reflexivity).
  split; [|exact El]. intros I. apply NL. rewrite El. apply in_or_app. right. apply in_or_app. right. apply in_or_app. right. exact I.
Qed.
Lemma continued_args l more : continued l more -> forall p rest,
  (if endswith l [BSLASH] then include_args (Some (p ++ l)) (more ++ rest) else let (args, r) := include_args None (more ++ rest) in ((p ++ l) :: args, r)) =
  (let (args, r) := include_args None rest in ((p ++ joined l more) :: args, r)).
Proof.
  induction 1 as [l Nb|x l ls C IH]; intros p rest.
  - replace (endswith l [BSLASH]) with false; [reflexivity|]. symmetry. apply not_true_iff_false. rewrite endswith_iff. intros (t & E). apply (Nb t E).
  - replace (endswith (x ++ [BSLASH]) [BSLASH]) with true by (symmetry; apply endswith_iff; eauto). cbn [app include_args joined].
    replace (drop_last 1 (p ++ x ++ [BSLASH])) with (p ++ x).
    2: { unfold drop_last. rewrite app_assoc, app_length. cbn [length]. replace (length (p ++ x) + 1 - 1) with (length (p ++ x)) by lia. rewrite firstn_app, firstn_all, Nat.sub_diag. cbn. rewrite app_nil_r. reflexivity. }
    rewrite IH. rewrite removelast_last, <- app_assoc. reflexivity.
Qed.
Lemma included_args lines args : included lines args -> Forall (fun l => ~ In LF l) lines -> include_args None lines = (args, Ok tt).
Proof.
  induction 1 as [|l ls args No I IH|l arg more ls args IL C I IH]; intros F; [reflexivity| |].
  - inversion F as [|? ? F1 F2]; subst. cbn [include_args]. rewrite (include_none l F1 No). apply IH, F2.
  - inversion F as [|? ? F1 F2]; subst. apply Forall_app in F2 as [_ F2]. cbn [include_args]. destruct (include_match l arg IL) as (m & -> & ->).
    assert (Ca : continued arg more /\ endswith l [BSLASH] = endswith arg [BSLASH]).
    { destruct IL as (w & v & _ & B & Nv & _ & _ & ->). destruct (exists_last Nv) as (v0 & sp & ->). apply Forall_app in B as [_ B]. inversion B as [|? ? Sp _]; subst.
      assert (Q : forall y, w ++ lit "%include" ++ (v0 ++ [sp]) ++ arg = y ++ [BSLASH] -> exists z, arg = z ++ [BSLASH]).
      { intros y E. destruct arg as [|a0 arg0] using rev_ind; [|].
        - exfalso. rewrite app_nil_r, !app_assoc in E. apply app_inj_tail in E as [_ ->]. discriminate.
        - rewrite !app_assoc in E. apply app_inj_tail in E as [_ ->]. eexists. reflexivity. }
      split.
      - inversion C as [? Nb|x l' ls' C' E1 E2]; subst; [constructor; intros z ->; apply (Nb (w ++ lit "%include" ++ (v0 ++ [sp]) ++ z)); rewrite <- !app_assoc; reflexivity|].
        destruct (Q x (eq_sym E1)) as (z & ->). constructor. exact C'.
      - apply eq_iff_eq_true. rewrite !endswith_iff. split; intros (y & E); [exact (Q y E)|]. subst arg. exists (w ++ lit "%include" ++ (v0 ++ [sp]) ++ y). rewrite <- !app_assoc. reflexivity. }
    destruct Ca as [Ca ->]. pose proof (continued_args arg more Ca [] ls) as X. cbn [app] in X. rewrite X, (IH F2). reflexivity.
Qed.

(** * References to sources *)
Section Uni.
Context {U : Unicode}.
Lemma conds_b q : conds q <-> forallb is_cond_char q = true.
Proof.
  apply Forall_forallb. intros x. unfold is_cond_char. rewrite orb_true_iff, !N.eqb_eq. reflexivity.
Qed.
Lemma digits_b n : digits n <-> n <> [] /\ forallb is_digit n = true.
Proof. unfold digits. rewrite (Forall_forallb _ is_digit n (fun x => iff_refl _)). reflexivity. Qed.
Definition ref_tail : re := Seq (Star true is_cond_char) (Seq (word (lit "SOURCE")) (Seq (Plus true is_digit) (IfGrp 2 (chr RBRACE) Eps))).
Lemma H_tail q n pr rs cs s' : conds q -> digits n -> (forall c rs', rs = c :: rs' -> is_digit c = false) ->
  H (IfGrp 2 (chr RBRACE) Eps) (mkst (rev n ++ rev (lit "SOURCE") ++ rev q ++ pr) rs cs) s' ->
  H ref_tail (mkst pr (q ++ lit "SOURCE" ++ n ++ rs) cs) s'.
Proof.
  intros Q D F X. apply conds_b in Q. apply digits_b in D as [D1 D2]. eapply H_seq; [apply H_star; [exact Q|intros c rs' E; injection E as <- _; reflexivity]|].
  eapply H_seq; [apply H_word|]. eapply H_seq; [apply H_plus; [exact D1|exact D2|exact F]|exact X].
Qed.
Lemma conds_head q n t : conds q -> forall c r, q ++ lit "SOURCE" ++ n ++ t = c :: r -> c <> LBRACE.
Proof. intros Q c r E. destruct q as [|c0 q]; [injection E as <- _; discriminate|]. inversion Q as [|? ? [-> | ->] _]; subst; injection E as <- _; discriminate. Qed.
Lemma open_match r t : open_ref r -> (forall c t', t = c :: t' -> is_digit c = false) -> exists m, re_match source_ref_regex (r ++ t) = Some m /\ rest m = t.
Proof.
  intros (q & n & Q & D & ->) F. replace ((PCT :: q ++ lit "SOURCE" ++ n) ++ t) with (PCT :: q ++ lit "SOURCE" ++ n ++ t) by (cbn [app]; rewrite <- !app_assoc; reflexivity). eexists. split; [apply re_match_H; unfold source_ref_regex; fold ref_tail|].
  - eapply H_seq; [apply H_chr|]. apply H_altl. unfold Opt. apply H_Seq_altr.
    + intros m' M. apply Match_Seq in M as (s1 & M & _). apply Match_Grp in M as (w & s2 & M & _). apply Match_Ch in M as (c & E & P & _).
      cbn [rest] in E. apply N.eqb_eq in P. subst c. apply (conds_head q n t Q _ _ E). reflexivity.
    + apply H_Seq_eps. apply H_tail; [exact Q|exact D|exact F|]. unfold H. cbn [results caps cap_get]. reflexivity.
  - reflexivity.
Qed.
Lemma closed_match r t : closed_ref r -> exists m, re_match source_ref_regex (r ++ t) = Some m /\ rest m = t.
Proof.
  intros [(q & n & Q & D & ->)|(n & D & ->)].
  - replace ((PCT :: LBRACE :: q ++ lit "SOURCE" ++ n ++ [RBRACE]) ++ t) with (PCT :: LBRACE :: q ++ lit "SOURCE" ++ n ++ RBRACE :: t) by (cbn [app]; rewrite <- !app_assoc; reflexivity). eexists. split; [apply re_match_H; unfold source_ref_regex; fold ref_tail|].
    + eapply H_seq; [apply H_chr|]. apply H_altl. unfold Opt. apply H_Seq_altl. eapply H_seq; [eapply (H_grp 2 _ _ _ [LBRACE]); [apply H_chr|reflexivity]|].
      cbn [pre rest caps]. apply H_tail; [exact Q|exact D| |].
      * intros c rs' E. injection E as <- _. reflexivity.
      * unfold H. cbn [results caps cap_get Nat.eqb app rest]. reflexivity.
    + reflexivity.
  - apply digits_b in D as [D1 D2]. replace ((PCT :: LBRACE :: lit "S:" ++ n ++ [RBRACE]) ++ t) with (PCT :: lit "{S:" ++ n ++ RBRACE :: t) by (cbn [app]; change (lit "{S:") with (LBRACE :: lit "S:"); cbn [app]; rewrite <- !app_assoc; reflexivity). eexists. split; [apply re_match_H; unfold source_ref_regex|].
    + eapply H_seq; [apply H_chr|]. apply H_altr.
      * apply results_nil. intros m M. apply Match_Seq in M as (s1 & M1 & M2). unfold Opt in M1. apply Match_Alt in M1 as [M1|M1].
        -- apply Match_Grp in M1 as (w & s2 & M & R1 & R2 & _). apply Match_Ch in M as (c & E & P & _). rewrite R2 in E. cbn [rest app] in E. injection E as <- E.
           apply Match_Seq in M2 as (s3 & M3 & M4). apply Match_Star in M3 as (w3 & R3 & B & _). apply Match_Seq in M4 as (s4 & M4 & _). apply Match_word in M4 as (R4 & _).
           rewrite <- E, R4 in R3. destruct w3 as [|c w3]; [discriminate|]. injection R3 as <- R3. discriminate.
        -- apply Match_Eps in M1 as ->. apply Match_Seq in M2 as (s3 & M3 & M4). apply Match_Star in M3 as (w3 & R3 & B & _). apply Match_Seq in M4 as (s4 & M4 & _). apply Match_word in M4 as (R4 & _).
           cbn [rest app] in R3. rewrite R4 in R3. destruct w3 as [|c w3]; [discriminate|]. injection R3 as <- R3. discriminate.
      * eapply H_seq; [apply (H_word (lit "{S:"))|]. eapply H_seq; [apply H_plus; [exact D1|exact D2|intros c rs' E; injection E as <- _; reflexivity]|]. apply H_chr.
    + reflexivity.
Qed.
Lemma tail_found s s' : Match ref_tail s s' -> exists q n, conds q /\ digits n /\ (cap_get 2 (caps s) = None -> rest s = q ++ lit "SOURCE" ++ n ++ rest s') /\ (cap_get 2 (caps s) <> None -> rest s = q ++ lit "SOURCE" ++ n ++ RBRACE :: rest s').
Proof.
  intros M. unfold ref_tail in M. apply Match_Seq in M as (s1 & M1 & M). apply Match_Star in M1 as (q & R1 & Q & _ & C1).
  apply Match_Seq in M as (s2 & M2 & M). apply Match_word in M2 as (R2 & _ & C2). apply Match_Seq in M as (s3 & M3 & M). apply Match_Plus in M3 as (n & N1 & R3 & N2 & _ & C3).
  apply Match_IfGrp in M. rewrite C3, C2, C1 in M. exists q, n. split; [apply conds_b; exact Q|]. split; [apply digits_b; auto|]. rewrite R1, R2, R3. split; intros C.
  - rewrite C in M. apply Match_Eps in M. subst s'. reflexivity.
  - destruct (cap_get 2 (caps s)); [|contradiction]. apply Match_Ch in M as (c & R4 & P & _). apply N.eqb_eq in P. subst c. rewrite R4. reflexivity.
Qed.
Lemma ref_found s m : re_match source_ref_regex s = Some m -> exists r, s = r ++ rest m /\ (open_ref r \/ closed_ref r).
Proof.
  intros E. apply re_match_sound in E. unfold source_ref_regex in E. fold ref_tail in E. apply Match_Seq in E as (s1 & M & E). apply Match_Ch in M as (c & R0 & P & _ & C0). apply N.eqb_eq in P. subst c. cbn [rest caps] in R0, C0.
  apply Match_Alt in E as [E|E]; apply Match_Seq in E as (s2 & M1 & M2).
  - apply tail_found in M2 as (q & n & Q & D & T1 & T2). unfold Opt in M1. apply Match_Alt in M1 as [M1|M1].
    + apply Match_Grp in M1 as (w & s3 & M & _ & R2 & _ & _ & C2). apply Match_Ch in M as (c & R3 & P & _). apply N.eqb_eq in P. subst c. rewrite R2 in R3.
      rewrite C2 in T2. specialize (T2 ltac:(discriminate)). exists (PCT :: LBRACE :: q ++ lit "SOURCE" ++ n ++ [RBRACE]). split.
      * rewrite R0, R3, T2. cbn [app]. rewrite <- !app_assoc. reflexivity.
      * right. left. exists q, n. auto.
    + apply Match_Eps in M1. subst s2. rewrite C0 in T1. specialize (T1 eq_refl). exists (PCT :: q ++ lit "SOURCE" ++ n). split; [rewrite R0, T1; cbn [app]; rewrite <- !app_assoc; reflexivity|].
      left. exists q, n. auto.
  - apply Match_word in M1 as (R1 & _). apply Match_Seq in M2 as (s3 & M3 & M4). apply Match_Plus in M3 as (n & N1 & R3 & N2 & _). apply Match_Ch in M4 as (c & R4 & P & _). apply N.eqb_eq in P. subst c.
    exists (PCT :: LBRACE :: lit "S:" ++ n ++ [RBRACE]). split; [rewrite R0, R1, R3, R4; change (lit "{S:") with (LBRACE :: lit "S:"); cbn [app]; rewrite <- !app_assoc; reflexivity|].
    right. right. exists n. split; [apply digits_b; auto|reflexivity].
Qed.
Lemma strip_digits t : exists n u, t = n ++ u /\ Forall (fun c => is_digit c = true) n /\ (forall c u', u = c :: u' -> is_digit c = false).
Proof.
  induction t as [|c t (n & u & -> & D & F)]; [exists [], []; repeat split; [constructor|discriminate]|].
  destruct (is_digit c) eqn:E; [exists (c :: n), u; repeat split; [constructor; auto|exact F]|].
  exists [], (c :: n ++ u). repeat split; [constructor|]. intros c' u' X. injection X as <- _. exact E.
Qed.
Lemma skip_refs a : forall b, find_refs (length a) (a ++ b) = find_refs 0 b.
Proof. induction a as [|c a IH]; intros b; [reflexivity|]. cbn [app length find_refs]. apply IH. Qed.
Lemma find_one r t : r <> [] -> (exists m, re_match source_ref_regex (r ++ t) = Some m /\ rest m = t) -> find_refs 0 (r ++ t) = r :: find_refs 0 t.
Proof.
  intros N (m & M & R). destruct r as [|c r]; [contradiction|]. cbn [app find_refs] in *. rewrite M, R. cbn [length]. rewrite app_length.
  replace (S (length r + length t) - length t) with (S (length r)) by lia. cbn [firstn]. rewrite firstn_app, firstn_all, Nat.sub_diag. cbn [firstn]. rewrite app_nil_r.
  replace (S (length r) - 1) with (length r) by lia. rewrite skip_refs. reflexivity.
Qed.
Lemma refs_found t rs : refs_in t rs -> find_refs 0 t = rs.
Proof.
  induction 1 as [|r t rs O F R IH|r t rs C R IH|c t rs No R IH]; [reflexivity| | |].
  - rewrite (find_one r t), IH; [reflexivity|destruct O as (? & ? & _ & _ & ->); discriminate|apply open_match; assumption].
  - rewrite (find_one r t), IH; [reflexivity|destruct C as [(? & ? & _ & _ & ->)|(? & _ & ->)]; discriminate|apply closed_match; assumption].
  - cbn [find_refs]. destruct (re_match source_ref_regex (c :: t)) as [m|] eqn:M; [|exact IH]. apply ref_found in M as (r & E & K). destruct (No r _ E). tauto.
Qed.
(** Every text has its references. *)
Lemma refs_total t : exists rs, refs_in t rs.
Proof.
  remember (length t) as k eqn:K. revert t K. induction k as [k IH] using lt_wf_ind. intros t ->. destruct t as [|c t]; [exists []; constructor|].
  destruct (re_match source_ref_regex (c :: t)) as [m|] eqn:M.
  - pose proof (ref_found _ _ M) as (r & E & K). 
    assert (Nr : length (rest m) < length (c :: t)). { rewrite E, app_length. destruct r; [|cbn; lia]. destruct K as [(? & ? & _ & _ & X)|[(? & ? & _ & _ & X)|(? & _ & X)]]; discriminate. }
    destruct (IH _ Nr (rest m) eq_refl) as (rs & R). rewrite E. exists (r :: rs). destruct K as [K|K]; [|apply refs_closed; assumption].
    apply refs_open; [exact K| |exact R]. intros d t' Et. destruct (is_digit d) eqn:Dd; [|reflexivity]. exfalso.
    (* a longer match would have been preferred *)
    destruct K as (q & n & Q & Dn & Er).
    destruct (strip_digits (rest m)) as (n2 & t2 & E2 & D2 & F2).
    assert (O2 : open_ref (r ++ n2)). { exists q, (n ++ n2). split; [exact Q|]. split; [split; [destruct Dn as [X _]; destruct n; [contradiction|discriminate]|apply Forall_app; split; [apply Dn|exact D2]]|]. rewrite Er. cbn [app]. rewrite <- !app_assoc. reflexivity. }
    destruct (open_match (r ++ n2) t2 O2 F2) as (m2 & M2 & R2). rewrite E, E2, app_assoc, M2 in M. injection M as <-. rewrite R2 in E2. 
    destruct n2 as [|d2 n2]; [|apply (f_equal (@length N)) in E2; cbn in E2; rewrite app_length in E2; lia]. cbn [app] in E2. rewrite R2 in Et. rewrite (F2 _ _ Et) in Dd. discriminate.
  - destruct (IH (length t) ltac:(cbn; lia) t eq_refl) as (rs & R). exists rs. apply refs_other; [|exact R]. intros r t' E. split; intros K.
    + destruct (strip_digits t') as (n2 & t2 & E2 & D2 & F2). destruct K as (q & n & Q & Dn & Er).
      assert (O2 : open_ref (r ++ n2)). { exists q, (n ++ n2). split; [exact Q|]. split; [split; [destruct Dn as [X _]; destruct n; [contradiction|discriminate]|apply Forall_app; split; [apply Dn|exact D2]]|]. rewrite Er. cbn [app]. rewrite <- !app_assoc. reflexivity. }
      destruct (open_match (r ++ n2) t2 O2 F2) as (m2 & M2 & R2). rewrite E, E2, app_assoc, M2 in M. discriminate.
    + destruct (closed_match r t' K) as (m2 & M2 & _). rewrite E, M2 in M. discriminate.
Qed.
End Uni.
