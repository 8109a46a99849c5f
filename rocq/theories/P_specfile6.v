(** Proofs about operations on a whole spec file: a value that was set is read again. *)
From Coq Require Import Ascii String.
From Coq Require Import NArith ZArith List Bool Lia.
From Verif Require P_value.
From Verif Require Import PyStr PyStrFacts Regex RegexFacts M_constants M_options M_value M_macro_definitions Spec_macro_definitions P_macro_definitions P_macro_definitions2
  M_conditions M_sections Spec_sections P_sections P_sections2 P_sections4 M_tags Spec_tags P_tags P_tags2 P_tags3 P_tags4 P_tags5 P_context
  M_release M_update M_specfile Spec_specfile P_specfile P_specfile2 P_specfile5.
Import ListNotations.
Open Scope N_scope.
Open Scope nat_scope.

Section Uni.
Context {U : Unicode}.
Notation tl := (list (str * bool)).
(** Validity flags are only copied. *)
Lemma extend_value_flags : forall lines v ws, extend_value v ws (map (fun l => (fst l, true)) lines) =
  let '(v', ws', ls) := extend_value v ws lines in (v', ws', map (fun l => (fst l, true)) ls).
Proof.
  induction lines as [|[l f] lines IH]; intros v ws; cbn [extend_value map fst]; auto. destruct (value_open v); auto.
  destruct (match re_split1 re_trailing l with Some (b, m) => (b, group_str 1 m) | None => (l, ws) end). apply IH.
Qed.
Lemma loop_flags names : forall fuel lines data buffer, tags_loop names fuel (map (fun l => (fst l, true)) lines) (map unflagged data) buffer =
  match tags_loop names fuel lines data buffer with Ok ts => Ok (mk_tags (map unflagged (ts_data ts)) (ts_remainder ts)) | Err e => Err e end.
Proof.
  induction fuel as [|fuel IH]; intros lines data buffer; cbn [tags_loop map]; auto. destruct lines as [|[line f] lines]; auto. cbn [map fst].
  destruct (split_trailing line []) as [line1 ws]. destruct (split_conditional_macro_expansion line1) as [[[l1 p] s]|e]; cbn [bind]; auto.
  destruct (first_match names l1) as [m|]; [|apply IH]. destruct (str_eqb s []).
  - rewrite extend_value_flags. destruct (extend_value (group_str 3 m) ws lines) as [[v' ws'] ls]. rewrite <- IH. now rewrite map_app.
  - rewrite <- IH. now rewrite map_app.
Qed.
Lemma loop_front names : forall fuel lines data buffer, tags_loop names fuel lines data buffer =
  match tags_loop names fuel lines [] buffer with Ok ts => Ok (mk_tags (data ++ ts_data ts) (ts_remainder ts)) | Err e => Err e end.
Proof.
  induction fuel as [|fuel IH]; intros lines data buffer; cbn [tags_loop]; [cbn; now rewrite app_nil_r|]. destruct lines as [|[line f] lines]; [cbn; now rewrite app_nil_r|].
  destruct (split_trailing line []) as [line1 ws]. destruct (split_conditional_macro_expansion line1) as [[[l1 p] s]|e]; cbn [bind]; auto.
  destruct (first_match names l1) as [m|]; [|apply IH].
  destruct (if str_eqb s [] then _ else _) as [[v' ws'] ls]. rewrite IH. rewrite (IH ls ([] ++ _)). destruct (tags_loop names fuel ls [] []) as [ts|]; auto. cbn [ts_data ts_remainder app]. now rewrite <- app_assoc.
Qed.

(** The loop that reads tags gets from some lines to others. *)
Inductive treach : list str -> list tag -> list str -> list str -> list tag -> list str -> Prop :=
| T_here lines data buffer : treach lines data buffer lines data buffer
| T_other line lines data buffer rest data' buffer' l1 p s : split_conditional_macro_expansion line = Ok (l1, p, s) -> first_match TAG_NAMES l1 = None ->
    treach lines data (buffer ++ [p ++ l1 ++ s]) rest data' buffer' -> treach (line :: lines) data buffer rest data' buffer'
| T_tag line lines data buffer rest data' buffer' l1 p s m v ws lines1 : split_conditional_macro_expansion line = Ok (l1, p, s) -> first_match TAG_NAMES l1 = Some m ->
    (if str_eqb s [] then extend_value (group_str 3 m) [] (map (fun l => (l, true)) lines) else (group_str 3 m, [], map (fun l => (l, true)) lines)) = (v, ws, map (fun l => (l, true)) lines1) ->
    treach lines1 (data ++ [mk_tag (group_str 1 m) v (group_str 2 m) (comments_parse buffer) true p (s ++ ws)]) [] rest data' buffer' ->
    treach (line :: lines) data buffer rest data' buffer'.

Notation F := (map (fun l : str => (l, true))).
Definition plain (l : str) : Prop := ~ In LF l /\ rstrip l = l.
Lemma extend_value_suffix : forall lines v ws v' ws' ls, extend_value v ws lines = (v', ws', ls) -> exists taken, lines = taken ++ ls.
Proof.
  induction lines as [|[l f] lines IH]; intros v ws v' ws' ls; cbn [extend_value]; [intros Q; injection Q as <- <- <-; now exists []|].
  destruct (value_open v); [|intros Q; injection Q as <- <- <-; now exists []]. destruct (match re_split1 re_trailing l with Some (b, m) => (b, group_str 1 m) | None => (l, ws) end).
  intros Q. apply IH in Q as (t & ->). now exists ((l, f) :: t).
Qed.
Lemma extend_value_stop : forall x v ws v' ws' y y', y <> [] -> y' <> [] -> extend_value v ws (x ++ y) = (v', ws', y) -> extend_value v ws (x ++ y') = (v', ws', y').
Proof.
  induction x as [|[l f] x IH]; intros v ws v' ws' y y' N N'; cbn [app].
  - destruct y as [|[l f] y]; [congruence|]. destruct y' as [|[l' f'] y']; [congruence|]. cbn [extend_value]. destruct (value_open v).
    + destruct (match re_split1 re_trailing l with Some (b, m) => (b, group_str 1 m) | None => (l, ws) end).
      intros Q. apply extend_value_suffix in Q as (t & Q). apply (f_equal (@length _)) in Q. rewrite app_length in Q. cbn in Q. lia.
    + intros Q; injection Q as <- <-. reflexivity.
  - cbn [extend_value]. destruct (value_open v).
    + destruct (match re_split1 re_trailing l with Some (b, m) => (b, group_str 1 m) | None => (l, ws) end). now apply IH.
    + intros Q; injection Q as _ _ Q. apply (f_equal (@length _)) in Q. cbn in Q. rewrite app_length in Q. lia.
Qed.
Lemma F_inj x y : F x = F y -> x = y.
Proof. revert y. induction x as [|a x IH]; intros [|b y]; cbn; try discriminate; auto. intros Q; injection Q as -> Q. f_equal. auto. Qed.
Lemma F_split x : forall t y, F x = t ++ y -> exists t' y', x = t' ++ y' /\ t = F t' /\ y = F y'.
Proof.
  induction x as [|a x IH]; intros [|c t] y; cbn [map app]; try discriminate.
  - intros <-. now exists [], [].
  - intros <-. now exists [], (a :: x).
  - intros Q; injection Q as <- Q. destruct (IH _ _ Q) as (t' & y' & -> & -> & ->). now exists (a :: t'), y'.
Qed.
Notation taking s m lines := (if str_eqb s [] then extend_value (group_str 3 m) [] (F lines) else (group_str 3 m, [], F lines)).
Lemma taking_suffix (s : str) m lines v ws lines1 : taking s m lines = (v, ws, F lines1) -> exists taken, lines = taken ++ lines1.
Proof.
  destruct (str_eqb s []); [|intros Q; injection Q as _ _ Q; apply F_inj in Q; now exists []].
  intros Q. apply extend_value_suffix in Q as (t & Q). apply F_split in Q as (t' & y & -> & _ & Q). apply F_inj in Q. subst. eauto.
Qed.
Lemma taking_ok (s : str) m lines : exists v ws lines1, taking s m lines = (v, ws, F lines1).
Proof.
  destruct (str_eqb s []); [|eauto]. destruct (extend_value (group_str 3 m) [] (F lines)) as [[v ws] ls] eqn:E. pose proof E as E'. apply extend_value_suffix in E' as (t & Q).
  apply F_split in Q as (t' & y & -> & _ & ->). eauto.
Qed.
Lemma taking_stop (s : str) m x y y' v ws : y <> [] -> y' <> [] -> taking s m (x ++ y) = (v, ws, F y) -> taking s m (x ++ y') = (v, ws, F y').
Proof.
  intros N N'. destruct (str_eqb s []).
  - rewrite !map_app. apply extend_value_stop; intros Q; apply map_eq_nil in Q; auto.
  - intros Q; injection Q as <- <- Q. apply F_inj in Q. apply (f_equal (@length _)) in Q. rewrite app_length in Q. destruct x; [reflexivity|cbn in Q; lia].
Qed.
Lemma treach_shorter lines data buffer rest data' buffer' : treach lines data buffer rest data' buffer' -> exists a, lines = a ++ rest.
Proof.
  induction 1 as [|line lines data buffer rest data' buffer' l1 p s Sp M R (a & ->)|line lines data buffer rest data' buffer' l1 p s m v ws lines1 Sp M T R (a & ->)].
  - now exists [].
  - now exists (line :: a).
  - apply taking_suffix in T as (t & ->). exists (line :: t ++ a). cbn. now rewrite app_assoc.
Qed.
Lemma treach_swap lines data buffer rest data' buffer' : treach lines data buffer rest data' buffer' -> forall a, lines = a ++ rest -> rest <> [] ->
  forall rest', rest' <> [] -> treach (a ++ rest') data buffer rest' data' buffer'.
Proof.
  induction 1 as [|line lines data buffer rest data' buffer' l1 p s Sp M R IH|line lines data buffer rest data' buffer' l1 p s m v ws lines1 Sp M T R IH]; intros a E N rest' N'.
  - assert (a = []) as -> by (destruct a; [auto|exfalso; apply (f_equal (@length _)) in E; cbn in E; rewrite app_length in E; lia]). constructor.
  - destruct a as [|x a].
    + exfalso. apply treach_shorter in R as (a & ->). cbn in E. apply (f_equal (@length _)) in E. cbn in E. rewrite app_length in E. lia.
    + injection E as <- ->. cbn [app]. eapply T_other; eauto.
  - destruct a as [|x a].
    + exfalso. apply treach_shorter in R as (a & ->). apply taking_suffix in T as (t & ->). cbn in E. apply (f_equal (@length _)) in E. cbn in E. rewrite !app_length in E. lia.
    + injection E as <- ->. cbn [app]. pose proof R as R'. apply treach_shorter in R' as (a1 & ->). pose proof T as T'. apply taking_suffix in T' as (t & E).
      rewrite app_assoc in E. apply app_inv_tail in E. subst a. rewrite <- app_assoc in *.
      apply (T_tag line _ data buffer rest' data' buffer' l1 p s m v ws (a1 ++ rest')); [exact Sp|exact M| |apply (IH a1); auto].
      apply (taking_stop s m t (a1 ++ rest)); [destruct a1; [auto|discriminate]|destruct a1; [auto|discriminate]|exact T].
Qed.
Lemma plain_trailing l : plain l -> split_trailing l [] = (l, []).
Proof. intros [N R]. now apply no_trailing. Qed.
Lemma tags_fuel : forall fuel lines data buffer, length lines <= fuel -> tags_loop TAG_NAMES fuel lines data buffer = tags_loop TAG_NAMES (length lines) lines data buffer.
Proof.
  induction fuel as [fuel IH] using lt_wf_ind. intros lines data buffer L. destruct lines as [|[line v] lines]; [destruct fuel; reflexivity|].
  cbn [length] in *. destruct fuel as [|fuel]; [lia|]. cbn [tags_loop]. destruct (split_trailing line []) as [line1 ws]. destruct (split_conditional_macro_expansion line1) as [[[l1 p] s]|e]; cbn [bind]; auto.
  destruct (first_match TAG_NAMES l1) as [m|]; [|rewrite (IH fuel) by lia; reflexivity].
  destruct (if str_eqb s [] then extend_value (group_str 3 m) ws lines else (group_str 3 m, ws, lines)) as [[v' ws'] ls] eqn:E.
  assert (exists t, lines = t ++ ls) as (t & ->). { destruct (str_eqb s []); [now apply extend_value_suffix in E|injection E as _ _ <-; now exists []]. }
  rewrite app_length in *.
  rewrite (IH fuel) by lia. destruct (Nat.eq_dec fuel (length t + length ls)) as [->|]; [rewrite (IH (length t + length ls)) by lia; reflexivity|].
  symmetry. apply IH; lia.
Qed.
Lemma treach_loop lines data buffer rest data' buffer' : treach lines data buffer rest data' buffer' -> Forall plain lines ->
  tags_loop TAG_NAMES (length lines) (F lines) data buffer = tags_loop TAG_NAMES (length rest) (F rest) data' buffer'.
Proof.
  induction 1 as [|line lines data buffer rest data' buffer' l1 p s Sp M R IH|line lines data buffer rest data' buffer' l1 p s m v ws lines1 Sp M T R IH]; intros P; auto;
    inversion P as [|? ? P0 P']; subst; cbn [length map tags_loop]; rewrite (plain_trailing _ P0), Sp; cbn [bind]; rewrite M.
  - rewrite app_nil_r. apply IH, P'.
  - rewrite T. pose proof T as T'. apply taking_suffix in T' as (t & ->). rewrite tags_fuel by (rewrite map_length, app_length; lia). rewrite map_length. apply IH. now apply Forall_app in P'.
Qed.
(** Where a tag comes from. *)
Lemma treach_tag : forall fuel lines data buffer ts k t, length lines <= fuel -> Forall plain lines -> tags_loop TAG_NAMES fuel (F lines) data buffer = Ok ts ->
  nth_error (ts_data ts) k = Some t -> length data <= k ->
  exists l b data' buffer' l1 p s m v ws b1, treach lines data buffer (l :: b) data' buffer' /\ length data' = k /\ plain l /\
    split_conditional_macro_expansion l = Ok (l1, p, s) /\ first_match TAG_NAMES l1 = Some m /\ taking s m b = (v, ws, F b1) /\
    t = mk_tag (group_str 1 m) v (group_str 2 m) (comments_parse buffer') true p (s ++ ws).
Proof.
  induction fuel as [|fuel IH]; intros lines data buffer ts k t L P; cbn [tags_loop].
  - intros Q; injection Q as <-. cbn. intros Hk Hl. assert (k < length data) by (apply nth_error_Some; congruence). lia.
  - destruct lines as [|l lines]; cbn [map].
    + intros Q; injection Q as <-. cbn. intros Hk Hl. assert (k < length data) by (apply nth_error_Some; congruence). lia.
    + inversion P as [|? ? P0 P']; subst. cbn in L. rewrite (plain_trailing _ P0). destruct (split_conditional_macro_expansion l) as [[[l1 p] s]|e] eqn:Sp; cbn [bind]; [|discriminate].
      destruct (first_match TAG_NAMES l1) as [m|] eqn:M.
      * destruct (taking_ok s m lines) as (v & ws & b1 & T). rewrite T. intros E Hk Hl.
        destruct (Nat.eq_dec (length data) k) as [Q|Q].
        -- exists l, lines, data, buffer, l1, p, s, m, v, ws, b1. repeat split; auto; [apply T_here|apply P0|apply P0|].
           rewrite loop_front in E. destruct (tags_loop TAG_NAMES fuel (F b1) [] []) as [ts1|]; [|discriminate]. injection E as <-. cbn [ts_data] in Hk.
           rewrite <- app_assoc, nth_error_app2, <- Q, Nat.sub_diag in Hk by lia. cbn in Hk. congruence.
        -- pose proof T as T'. apply taking_suffix in T' as (t' & ->). rewrite app_length in L. apply Forall_app in P' as [_ P'].
           edestruct IH with (3 := E) (4 := Hk) as (l' & b & data' & buffer' & x1 & x2 & x3 & x4 & x5 & x6 & x7 & R & H); auto; [lia|rewrite app_length; cbn; lia|].
           exists l', b, data', buffer', x1, x2, x3, x4, x5, x6, x7. split; [|exact H]. eapply T_tag; eauto.
      * rewrite app_nil_r. intros E Hk Hl.
        edestruct IH with (3 := E) (4 := Hk) as (l' & b & data' & buffer' & x1 & x2 & x3 & x4 & x5 & x6 & x7 & R & H); auto; [lia|].
        exists l', b, data', buffer', x1, x2, x3, x4, x5, x6, x7. split; [|exact H]. eapply T_other; eauto.
Qed.
Lemma treach_buffer lines data buffer rest data' buffer' : treach lines data buffer rest data' buffer' -> Forall plain lines -> Forall regular lines -> Forall (fun l => ~ In LF l) buffer -> Forall (fun l => ~ In LF l) buffer'.
Proof.
  induction 1 as [|line lines data buffer rest data' buffer' l1 p s Sp M R IH|line lines data buffer rest data' buffer' l1 p s m v ws lines1 Sp M T R IH]; intros P X B; auto;
    inversion P as [|? ? P0 P']; inversion X as [|? ? X0 X']; subst.
  - apply IH; auto. apply Forall_app. split; auto. constructor; auto. rewrite (split_exact _ _ _ _ X0 Sp). apply P0.
  - apply taking_suffix in T as (t & ->). apply Forall_app in P' as [_ P']. apply Forall_app in X' as [_ X']. apply IH; auto.
Qed.
End Uni.
