(** Proofs about condition processing: the main loop. *)
From Coq Require Import Ascii String.
From Coq Require Import NArith ZArith List Bool Lia.
From Verif Require Import PyStr PyStrFacts Regex RegexFacts M_value M_macro_definitions Spec_macro_definitions
  P_macro_definitions P_macro_definitions2 M_conditions Spec_conditions P_conditions.
Import ListNotations.
Open Scope N_scope.

Lemma continuation_split : forall lines e e' taken rest, continuation e lines = (e', taken, rest) -> lines = taken ++ rest.
Proof.
  induction lines as [|l lines IH]; intros e e' taken rest; cbn [continuation].
  - intros Q; injection Q as <- <- <-. reflexivity.
  - destruct (endswith e [BSLASH]).
    + destruct (continuation (removelast e ++ l) lines) as [[e1 t1] r1] eqn:C. intros Q; injection Q as <- <- <-.
      cbn. f_equal. eauto.
    + intros Q; injection Q as <- <- <-. reflexivity.
Qed.

Section Loop.
Context {U : Unicode} {W : Type} (expand : bool -> W -> str -> result str * W) (ranges : list (nat * nat)).
Notation loop := (loop expand ranges).

Lemma emit_emit {A B} (x y : list A) (r : result (list A) * B) : emit x (emit y r) = emit (x ++ y) r.
Proof. destruct r as [[z|e] w]; cbn; auto. now rewrite app_assoc. Qed.
Lemma emit_nil {A B} (r : result (list A) * B) : emit [] r = r.
Proof. destruct r as [[z|e] w]; reflexivity. Qed.

(** The lines come back in order. *)
Theorem loop_lines : forall fuel skip w br i lines res w',
  loop fuel skip w br i lines = (Ok res, w') -> map fst res = lines.
Proof.
  induction fuel as [|fuel IH]; intros skip w br i lines res w'; destruct lines as [|line lines]; cbn [M_conditions.loop].
  1,3: intros Q; injection Q as <- <-; reflexivity.
  - discriminate.
  - assert (One : forall flag sk ww b j, emit [(line, flag)] (loop fuel sk ww b j lines) = (Ok res, w') -> map fst res = line :: lines).
    { intros flag sk ww b j. destruct (loop fuel sk ww b j lines) as [[y|e] w2] eqn:L; cbn [emit]; [|discriminate].
      intros Q; injection Q as <- <-. cbn. f_equal. eauto. }
    destruct br as [|top under]; [discriminate|].
    destruct (excluded ranges i); [apply One|].
    destruct (expand1 expand skip w line) as [[r skip1] w1].
    destruct (match r with Err RPMException => Ok line | _ => r end) as [x|e]; [|discriminate].
    destruct (re_match condition_regex x) as [m|]; [|apply One]. cbv zeta.
    match goal with |- context [match ?a with Ok _ => _ | Err _ => _ end] => destruct a as [[flag br1]|e]; [|discriminate] end.
    destruct (_ || _); [|apply One].
    destruct br1 as [|top1 under1]; [discriminate|].
    match goal with |- context [if str_eqb (group_str 2 m) [] then ?a else ?b] =>
      destruct (if str_eqb (group_str 2 m) [] then a else b) as [[e taken] rest] eqn:C end.
    match goal with |- context [if top1 then ?a else ?b] => destruct (if top1 then a else b) as [[b0|x2] w2]; [|discriminate] end.
    match goal with |- context [emit _ ?l] => destruct l as [[y|e2] w3] eqn:L; cbn [emit]; [|discriminate] end.
    intros Q; injection Q as <- <-. cbn [map app]. rewrite map_app, map_map. cbn [map fst]. rewrite map_id.
    apply IH in L. rewrite L. f_equal.
    destruct (str_eqb (group_str 2 m) []); [injection C as <- <- <-; reflexivity|].
    symmetry. eapply continuation_split; eauto.
Qed.

(** What one iteration does, by the kind of the line. *)
Lemma Shows_expand1 skip w line x s1 : Shows expand (skip, w) line x s1 ->
  exists r, expand1 expand skip w line = (r, fst s1, snd s1) /\ (match r with Err RPMException => Ok line | _ => r end) = Ok x.
Proof.
  unfold Shows, expand1. destruct (expand skip w line) as [[y|e] w'].
  - intros [-> ->]. exists (Ok y). auto.
  - destruct e; try tauto. intros [-> ->]. exists (Err RPMException). auto.
Qed.

Lemma loop_fuel : forall fuel1 fuel2 skip w br i lines, (length lines <= fuel1)%nat -> (length lines <= fuel2)%nat ->
  loop fuel1 skip w br i lines = loop fuel2 skip w br i lines.
Proof.
  induction fuel1 as [|fuel1 IH]; intros fuel2 skip w br i lines L1 L2; destruct lines as [|line lines].
  - destruct fuel2; reflexivity.
  - cbn in L1. lia.
  - destruct fuel2; reflexivity.
  - destruct fuel2 as [|fuel2]; [cbn in L2; lia|]. cbn [length] in L1, L2. cbn [M_conditions.loop].
    assert (One : forall sk ww b j, loop fuel1 sk ww b j lines = loop fuel2 sk ww b j lines) by (intros; apply IH; lia).
    destruct br as [|top under]; [reflexivity|].
    destruct (excluded ranges i); [now rewrite One|].
    destruct (expand1 expand skip w line) as [[r skip1] w1].
    destruct (match r with Err RPMException => Ok line | _ => r end) as [x|e]; [|reflexivity].
    destruct (re_match condition_regex x) as [m|]; [|now rewrite One]. cbv zeta.
    match goal with |- context [match ?a with Ok _ => _ | Err _ => _ end] => destruct a as [[flag br1]|e]; [|reflexivity] end.
    destruct (_ || _); [|now rewrite One].
    destruct br1 as [|top1 under1]; [reflexivity|].
    match goal with |- context [if str_eqb (group_str 2 m) [] then ?a else ?b] =>
      destruct (if str_eqb (group_str 2 m) [] then a else b) as [[e taken] rest] eqn:C end.
    match goal with |- context [if top1 then ?a else ?b] => destruct (if top1 then a else b) as [[b0|x2] w2]; [|reflexivity] end.
    assert (E : lines = taken ++ rest).
    { destruct (str_eqb (group_str 2 m) []); [injection C as <- <- <-; reflexivity|]. eapply continuation_split; eauto. }
    apply (f_equal (@length _)) in E. rewrite app_length in E.
    rewrite (IH fuel2); [reflexivity|lia|lia].
Qed.

(** A run with exactly enough fuel. *)
Definition run (s : bool * W) br i lines := loop (length lines) (fst s) (snd s) br i lines.
Lemma run_loop fuel s br i lines : (length lines <= fuel)%nat -> loop fuel (fst s) (snd s) br i lines = run s br i lines.
Proof. intros. apply loop_fuel; auto. Qed.

Lemma run_excluded s top under i line lines : excluded ranges i = true ->
  run s (top :: under) i (line :: lines) = emit [(line, top)] (run s (top :: under) (S i) lines).
Proof. intros E. unfold run. cbn [length M_conditions.loop]. now rewrite E. Qed.
Lemma run_plain s top under i line lines x s1 : excluded ranges i = false -> Shows expand s line x s1 -> plain_line x ->
  run s (top :: under) i (line :: lines) = emit [(line, top)] (run s1 (top :: under) (S i) lines).
Proof.
  intros E Sh P. destruct s as [skip w]. apply Shows_expand1 in Sh as (r & E1 & E2). unfold run. cbn [length M_conditions.loop fst snd].
  rewrite E, E1. cbv iota. rewrite E2, (plain_no_match _ P). reflexivity.
Qed.
Lemma run_endif s top v under i line lines x s1 e : excluded ranges i = false -> Shows expand s line x s1 -> cond_line x (lit "%endif") e ->
  run s (top :: v :: under) i (line :: lines) = emit [(line, v)] (run s1 (v :: under) (S i) lines).
Proof.
  intros E Sh P. destruct s as [skip w]. apply Shows_expand1 in Sh as (r & E1 & E2). unfold run. cbn [length M_conditions.loop fst snd].
  rewrite E, E1. cbv iota. destruct (cond_match _ _ _ P) as (m & M1 & M2 & M3). rewrite E2, M1, M2. reflexivity.
Qed.
Lemma run_else s top v under i line lines x s1 e : excluded ranges i = false -> Shows expand s line x s1 -> cond_line x (lit "%else") e ->
  run s (top :: v :: under) i (line :: lines) = emit [(line, v)] (run s1 ((if v then negb top else top) :: v :: under) (S i) lines).
Proof.
  intros E Sh P. destruct s as [skip w]. apply Shows_expand1 in Sh as (r & E1 & E2). unfold run. cbn [length M_conditions.loop fst snd].
  rewrite E, E1. cbv iota. destruct (cond_match _ _ _ P) as (m & M1 & M2 & M3). rewrite E2, M1, M2. reflexivity.
Qed.

Lemma endswith_bs e0 : endswith (e0 ++ [BSLASH]) [BSLASH] = true.
Proof. apply endswith_iff. eauto. Qed.
Lemma Joined_continuation e taken e' : Joined e taken e' -> forall rest, rest <> [] -> continuation e (taken ++ rest) = (e', taken, rest).
Proof.
  induction 1 as [e N|e0 l taken e J IH]; intros rest Hr.
  - destruct rest as [|l rest]; [congruence|]. cbn [app continuation].
    destruct (endswith e [BSLASH]) eqn:E; auto. apply endswith_iff in E as (t & ->). exfalso. eapply N; reflexivity.
  - cbn [app continuation]. rewrite endswith_bs, removelast_last, IH; auto.
Qed.
(** The continuation lines and the expression as the loop computes them. *)
Lemma cont_eq m e lines : expr_of m = e ->
  (if str_eqb (group_str 2 m) [] then (group_str 2 m, [], lines)
   else continuation (if str_eqb (group_str 3 m) [BSLASH] then group_str 2 m ++ [BSLASH] else group_str 2 m) lines) =
  continuation e lines.
Proof.
  unfold expr_of. destruct (str_eqb (group_str 2 m) []) eqn:Q; intros <-; auto.
  apply str_eqb_eq in Q. rewrite Q. destruct lines; reflexivity.
Qed.
Lemma kw_if kw : In kw if_keywords -> str_eqb kw (lit "%endif") = false /\ startswith kw (lit "%el") = false /\
  startswith kw (lit "%if") || startswith kw (lit "%elif") = true.
Proof. cbn [if_keywords map In]. intros Hk. repeat (destruct Hk as [<-|Hk]; [vm_compute; auto|]). destruct Hk. Qed.
Lemma kw_elif kw : In kw elif_keywords -> str_eqb kw (lit "%endif") = false /\ startswith kw (lit "%el") = true /\
  startswith kw (lit "%if") || startswith kw (lit "%elif") = true.
Proof. cbn [elif_keywords map In]. intros Hk. repeat (destruct Hk as [<-|Hk]; [vm_compute; auto|]). destruct Hk. Qed.

Lemma run_if (s : bool * W) top under i line x s1 kw e taken e' b s2 lines : excluded ranges i = false -> Shows expand s line x s1 ->
  cond_line x kw e -> In kw if_keywords -> Joined e taken e' -> Truth expand top s1 kw e' b s2 -> lines <> [] ->
  run s (top :: under) i (line :: taken ++ lines) =
  emit ((line, top) :: map (fun l => (l, top)) taken) (run s2 ((top && b) :: top :: under) (i + 1 + length taken) lines).
Proof.
  intros E Sh P Ik J T N. destruct s as [skip w]. apply Shows_expand1 in Sh as (r & E1 & E2). unfold run at 1. cbn [length M_conditions.loop fst snd].
  rewrite E, E1. cbv iota. destruct (cond_match _ _ _ P) as (m & M1 & M2 & M3). rewrite E2, M1, M2. cbv zeta.
  destruct (kw_if _ Ik) as (K1 & K2 & K3). rewrite K1, K2, K3. rewrite (cont_eq m e _ M3), (Joined_continuation _ _ _ J _ N).
  unfold Truth in T. destruct top.
  - destruct T as (w' & R & ->). rewrite R. cbn [fst snd andb].
    rewrite <- (run_loop (length (taken ++ lines))) by (rewrite app_length; lia). cbn [fst snd].
    replace (S i + length taken)%nat with (i + 1 + length taken)%nat by lia. reflexivity.
  - subst s2. rewrite run_loop; [|rewrite app_length; lia].
    replace (S i + length taken)%nat with (i + 1 + length taken)%nat by lia. reflexivity.
Qed.
Lemma run_elif (s : bool * W) (b0 v : bool) under i line x s1 kw e taken e' b s2 lines : excluded ranges i = false -> Shows expand s line x s1 ->
  cond_line x kw e -> In kw elif_keywords -> Joined e taken e' ->
  forall top1 : bool, top1 = (if v then negb b0 else b0) -> Truth expand top1 s1 kw e' b s2 -> lines <> [] ->
  run s (b0 :: v :: under) i (line :: taken ++ lines) =
  emit ((line, v) :: map (fun l => (l, top1)) taken) (run s2 ((top1 && b) :: v :: under) (i + 1 + length taken) lines).
Proof.
  intros E Sh P Ik J top1 Et T N. destruct s as [skip w]. apply Shows_expand1 in Sh as (r & E1 & E2). unfold run at 1. cbn [length M_conditions.loop fst snd].
  rewrite E, E1. cbv iota. destruct (cond_match _ _ _ P) as (m & M1 & M2 & M3). rewrite E2, M1, M2. cbv zeta.
  destruct (kw_elif _ Ik) as (K1 & K2 & K3). rewrite K1, K2, K3. rewrite (cont_eq m e _ M3), (Joined_continuation _ _ _ J _ N).
  rewrite <- Et. unfold Truth in T. destruct top1.
  - destruct T as (w' & R & ->). rewrite R. cbn [fst snd andb].
    rewrite <- (run_loop (length (taken ++ lines))) by (rewrite app_length; lia). cbn [fst snd].
    replace (S i + length taken)%nat with (i + 1 + length taken)%nat by lia. reflexivity.
  - subst s2. rewrite run_loop; [|rewrite app_length; lia].
    replace (S i + length taken)%nat with (i + 1 + length taken)%nat by lia. reflexivity.
Qed.

Scheme Meaning_ind2 := Induction for Meaning Sort Prop
with Tail_ind2 := Induction for Tail Sort Prop.

Lemma combine_app {A B} (a c : list A) (b d : list B) : length a = length b -> combine (a ++ c) (b ++ d) = combine a b ++ combine c d.
Proof. revert b. induction a as [|x a IH]; intros [|y b] L; cbn in *; try lia; auto. f_equal. auto. Qed.
Lemma combine_const {A B} (v : B) (l : list A) : combine l (map (fun _ => v) l) = map (fun x => (x, v)) l.
Proof. induction l; cbn; congruence. Qed.

Ltac idx := match goal with |- ?l = ?r =>
  match l with context [run _ _ ?a _] => match r with context [run _ _ ?b _] =>
    replace b with a by (repeat (rewrite ?app_length, ?map_length; cbn [length]); lia); reflexivity end end end.
Theorem meaning_run (in_body : nat -> Prop) (Hin : forall i, in_body i <-> excluded ranges i = true) v i s lines flags s' : Meaning expand in_body v i s lines flags s' ->
  length flags = length lines /\
  forall under rest, run s (v :: under) i (lines ++ rest) = emit (combine lines flags) (run s' (v :: under) (i + length lines) rest).
Proof.
  assert (Hout : forall i, ~ in_body i -> excluded ranges i = false) by (intros j N; apply not_true_iff_false; now rewrite <- Hin).
  revert v i s lines flags s'.
  apply (Meaning_ind2 U W expand in_body
    (fun v i s lines flags s' _ => length flags = length lines /\
       forall under rest, run s (v :: under) i (lines ++ rest) = emit (combine lines flags) (run s' (v :: under) (i + length lines) rest))
    (fun v b i s lines flags s' _ => lines <> [] /\ length flags = length lines /\
       forall under rest, run s ((v && b) :: v :: under) i (lines ++ rest) = emit (combine lines flags) (run s' (v :: under) (i + length lines) rest))).
  - intros v i s. split; [reflexivity|]. intros under rest. cbn [combine app]. rewrite emit_nil. idx.
  - intros v i s line rest0 flags s' E M [L IH]. split; [cbn; lia|]. intros under rest. cbn [app].
    rewrite run_excluded by (now apply Hin); rewrite IH, emit_emit; auto. cbn [combine app]. idx.
  - intros v i s line x s1 rest0 flags s' E Sh P M [L IH]. apply Hout in E. split; [cbn; lia|]. intros under rest. cbn [app].
    rewrite (run_plain s v under i line _ x s1), IH, emit_emit; auto. cbn [combine app]. idx.
  - intros v i s line x s1 kw e taken e' b s2 body fbody s3 tail ftail s4 rest0 frest s' E Sh C Ik J T M1 [L1 IH1] M2 (N2 & L2 & IH2) M3 [L3 IH3]. apply Hout in E.
    split; [cbn [length]; rewrite !app_length, map_length; lia|]. intros under rest. cbn [app].
    repeat rewrite <- app_assoc.
    erewrite run_if; eauto; [|destruct body; [destruct tail; [congruence|discriminate]|discriminate]].
    rewrite IH1, IH2, IH3, !emit_emit. cbn [combine].
    rewrite !combine_app by (rewrite ?map_length; lia). rewrite combine_const. cbn [app].
    repeat rewrite <- app_assoc. idx.
  - intros v b i s line x s1 e E Sh C. apply Hout in E. split; [discriminate|]. split; [reflexivity|]. intros under rest. cbn [app].
    erewrite run_endif; eauto. cbn [combine]. idx.
  - intros v b i s line x s1 e body fbody s2 line2 x2 e2 s' E Sh C M [L IH] E2 Sh2 C2. apply Hout in E, E2.
    split; [discriminate|]. split; [cbn; rewrite !app_length; cbn; lia|]. intros under rest. cbn [app]. rewrite <- app_assoc.
    erewrite run_else; eauto.
    replace (if v then negb (v && b) else v && b) with (v && negb b) by (destruct v, b; reflexivity).
    replace (S i) with (i + 1)%nat by lia. rewrite IH. cbn [app]. erewrite run_endif; eauto. rewrite !emit_emit.
    cbn [combine app]. rewrite combine_app by lia. cbn [combine]. idx.
  - intros v b i s line x s1 kw e taken e' b2 s2 body fbody s3 line2 x2 e2 s' E Sh C Ik J T M [L IH] E2 Sh2 C2. apply Hout in E, E2.
    split; [discriminate|]. split; [cbn; rewrite !app_length, map_length; cbn; lia|]. intros under rest. cbn [app]. repeat rewrite <- app_assoc.
    assert (Q : (if v then negb (v && b) else v && b) = v && negb b) by (destruct v, b; reflexivity).
    rewrite (run_elif s (v && b) v under i line x s1 kw e taken e' b2 s2) with (top1 := v && negb b); auto; [|destruct body; discriminate].
    rewrite IH. cbn [app]. erewrite run_endif; eauto. rewrite !emit_emit.
    cbn [combine app]. rewrite !combine_app by (rewrite ?map_length; lia). rewrite combine_const. cbn [combine].
    repeat (rewrite <- ?app_assoc; cbn [app]). idx.
Qed.
End Loop.

Section Top.
Context {U : Unicode} {W : Type} (expand : bool -> W -> str -> result str * W).
Theorem process_lines w lines m res w' : process_conditions expand w lines m = (Ok res, w') -> map fst res = lines.
Proof.
  unfold process_conditions. destruct (match m with None => _ | Some m0 => _ end) as [ranges|e]; [|discriminate]. apply loop_lines.
Qed.

Definition ranges_of (m : option mdefs) : list (nat * nat) :=
  match m with None => [] | Some m => match excluded_lines m with Ok r => r | Err _ => [] end end.
Lemma excluded_lines_total m : exists r, excluded_lines m = Ok r.
Proof.
  unfold excluded_lines.
  assert (K : forall l, (forall d, In d l -> In d (md_data m)) -> exists r, fold_right (fun d acc =>
    let! l := acc in let! p := get_position d m in
    Ok ((p, (p + length (split_on LF [] (d_body d)))%nat) :: l)) (Ok []) l = Ok r).
  { induction l as [|d l IH]; intros Hl; cbn [fold_right]; [eauto|].
    destruct IH as (r & ->); [intros; apply Hl; now right|]. cbn [bind].
    destruct (get_position_total m d) as (p & ->); [apply Hl; now left|]. cbn [bind]. eauto. }
  apply K. auto.
Qed.
Lemma split_on_count (c : char) s : forall cur, length (split_on c cur s) = S (count_occ N.eq_dec s c).
Proof.
  induction s as [|d s IH]; intros cur; cbn [split_on count_occ]; [reflexivity|]. destruct (N.eq_dec d c) as [->|N].
  - rewrite N.eqb_refl. cbn [length]. now rewrite IH.
  - rewrite (proj2 (N.eqb_neq c d)) by congruence. apply IH.
Qed.
Lemma definition_line_iff m i : definition_line m i <-> excluded (ranges_of m) i = true.
Proof.
  destruct m as [m|]; [|cbn; split; [tauto|discriminate]]. unfold definition_line, ranges_of.
  destruct (excluded_lines_total m) as (r & E). rewrite E. unfold excluded_lines in E. revert r E.
  generalize (md_data m) as l. induction l as [|d l IH]; cbn [fold_right]; intros r E.
  - injection E as <-. split; [intros (d & p & [] & _)|discriminate].
  - destruct (fold_right _ _ l) as [l'|e]; [|discriminate]. cbn [bind] in E. destruct (get_position d m) as [p|e] eqn:Ep; [|discriminate]. cbn [bind] in E.
    injection E as <-. cbn [excluded existsb fst snd]. rewrite orb_true_iff, andb_true_iff, Nat.leb_le, Nat.ltb_lt, split_on_count. specialize (IH l' eq_refl).
    change (existsb (fun r => Nat.leb (fst r) i && Nat.ltb i (snd r)) l') with (excluded l' i). rewrite <- IH. split.
    + intros (d' & p' & [->|Hd] & Hp & B); [left; rewrite Ep in Hp; injection Hp as <-; lia|right; eauto].
    + intros [B|(d' & p' & Hd & Hp & B)]; [exists d, p; split; [now left|split; [exact Ep|lia]]|exists d', p'; split; [now right|auto]].
Qed.
Theorem process_meaning w lines m flags skip w' :
  Meaning expand (definition_line m) true 0 (false, w) lines flags (skip, w') ->
  process_conditions expand w lines m = (Ok (combine lines flags), w').
Proof.
  intros M. apply (meaning_run expand (ranges_of m) _ (definition_line_iff m)) in M as [L M]. specialize (M [] []). rewrite app_nil_r in M.
  unfold process_conditions.
  assert (match m with None => Ok [] | Some m0 => excluded_lines m0 end = Ok (ranges_of m)) as ->.
  { destruct m as [m|]; cbn; auto. destruct (excluded_lines_total m) as (r & ->). reflexivity. }
  unfold run in M. cbn [fst snd] in M. rewrite M. cbn. now rewrite app_nil_r.
Qed.
End Top.
