(** Proofs about operations on a whole spec file: replacing one line that is not part of a macro definition. *)
From Coq Require Import Ascii String.
From Coq Require Import NArith ZArith List Bool Lia.
From Verif Require Import PyStr PyStrFacts Regex M_constants M_options M_value M_macro_definitions Spec_macro_definitions P_macro_definitions P_macro_definitions2
  M_conditions M_sections Spec_sections P_sections P_sections2 Spec_specfile.
Import ListNotations.
Open Scope N_scope.
Open Scope nat_scope.

Section Uni.
Context {U : Unicode}.
Notation tl := (list (str * bool)).
(** The loop that reads macro definitions gets from some lines to others. *)
Inductive reach : tl -> list mdef -> list str -> tl -> list mdef -> list str -> Prop :=
| R_here lines data buffer : reach lines data buffer lines data buffer
| R_other line valid lines data buffer rest data' buffer' : re_match md_regex line = None ->
    reach lines data (buffer ++ [line]) rest data' buffer' -> reach ((line, valid) :: lines) data buffer rest data' buffer'
| R_def line valid m d lines1 lines data buffer rest data' buffer' : re_match md_regex line = Some m -> make_def m valid buffer lines = (d, lines1) ->
    reach lines1 (data ++ [d]) [] rest data' buffer' -> reach ((line, valid) :: lines) data buffer rest data' buffer'.
Lemma extend_suffix : forall lines b b' ls, extend_body b lines = (b', ls) -> exists taken, lines = taken ++ ls.
Proof.
  induction lines as [|[l f] lines IH]; intros b b' ls; cbn [extend_body]; [intros Q; injection Q as <- <-; now exists []|].
  destruct (body_open b); [|intros Q; injection Q as <- <-; now exists []]. intros Q. apply IH in Q as (t & ->). now exists ((l, f) :: t).
Qed.
Lemma make_def_suffix m v buffer lines d rest : make_def m v buffer lines = (d, rest) -> exists taken, lines = taken ++ rest.
Proof.
  unfold make_def. destruct (negb _ && negb (sc_escaped _) && negb (sc_hashed _)).
  - destruct (str_eqb (group_str 9 m) [BSLASH]);
    (match goal with |- context [extend_body ?b lines] => destruct (extend_body b lines) as [b' ls] eqn:E end);
    destruct (split_trailing _ _); intros Q; injection Q as _ <-; now apply extend_suffix in E.
  - destruct (split_trailing _ _). intros Q; injection Q as _ <-. now exists [].
Qed.
Lemma reach_shorter lines data buffer rest data' buffer' : reach lines data buffer rest data' buffer' -> length rest <= length lines.
Proof.
  induction 1 as [| |line valid m d lines1 lines data buffer rest data' buffer' M D R IH]; cbn [length]; auto.
  apply make_def_suffix in D as (t & ->). rewrite app_length. lia.
Qed.
(** What follows the lines taken for a body does not matter. *)
Lemma extend_stop : forall x b b' y y', y <> [] -> y' <> [] -> extend_body b (x ++ y) = (b', y) -> extend_body b (x ++ y') = (b', y').
Proof.
  induction x as [|[l f] x IH]; intros b b' y y' N N'; cbn [app].
  - destruct y as [|[l f] y]; [congruence|]. destruct y' as [|[l' f'] y']; [congruence|]. cbn [extend_body]. destruct (body_open b).
    + intros Q. apply extend_suffix in Q as (t & Q). apply (f_equal (@length _)) in Q. rewrite app_length in Q. cbn in Q. lia.
    + intros Q; injection Q as <-. reflexivity.
  - cbn [extend_body]. destruct (body_open b).
    + now apply IH.
    + intros Q; injection Q as _ Q. apply (f_equal (@length _)) in Q. cbn in Q. rewrite app_length in Q. lia.
Qed.
Lemma make_def_stop m v buffer x y y' d : y <> [] -> y' <> [] -> make_def m v buffer (x ++ y) = (d, y) -> make_def m v buffer (x ++ y') = (d, y').
Proof.
  intros N N'. unfold make_def. destruct (negb _ && negb (sc_escaped _) && negb (sc_hashed _)).
  - destruct (str_eqb (group_str 9 m) [BSLASH]);
    (match goal with |- context [extend_body ?b (x ++ y)] => destruct (extend_body b (x ++ y)) as [b' ls] eqn:E end);
    destruct (split_trailing b' _) eqn:S; intros Q; injection Q as Q1 Q2; subst ls; rewrite (extend_stop _ _ _ _ y' N N' E), S, Q1; reflexivity.
  - destruct (split_trailing _ _). intros Q; injection Q as Q1 Q2. apply (f_equal (@length _)) in Q2. rewrite app_length in Q2. destruct x; [|cbn in Q2; lia]. now subst.
Qed.
Lemma app_longer {A} (a b c : list A) : a ++ b = c -> length c < length b -> False.
Proof. intros <-. rewrite app_length. lia. Qed.
Lemma reach_swap lines data buffer rest data' buffer' : reach lines data buffer rest data' buffer' -> forall a, lines = a ++ rest -> rest <> [] ->
  forall rest', rest' <> [] -> reach (a ++ rest') data buffer rest' data' buffer'.
Proof.
  induction 1 as [lines data buffer|line valid lines data buffer rest data' buffer' M R IH|line valid m d lines1 lines data buffer rest data' buffer' M D R IH]; intros a E N rest' N'.
  - assert (a = []) as -> by (destruct a; [auto|exfalso; apply (f_equal (@length _)) in E; cbn in E; rewrite app_length in E; lia]). constructor.
  - destruct a as [|x a].
    + exfalso. apply reach_shorter in R. cbn in E. subst rest. cbn in R. lia.
    + injection E as <- ->. cbn [app]. apply R_other; auto.
  - destruct a as [|x a].
    + exfalso. apply reach_shorter in R. apply make_def_suffix in D as (t & ->). cbn in E. subst rest. cbn in R. rewrite app_length in R. lia.
    + injection E as <- ->. cbn [app].
      pose proof D as D'. apply make_def_suffix in D' as (t & E).
      assert (exists a1, lines1 = a1 ++ rest) as (a1 & ->).
      { clear -R. revert R. generalize (data ++ [d]), (@nil str). intros. induction R; idtac.
        - now exists [].
        - destruct IHR as (a1 & ->). now exists ((line, valid) :: a1).
        - destruct IHR as (a1 & ->). apply make_def_suffix in H0 as (t & ->). exists ((line, valid) :: t ++ a1). cbn. now rewrite app_assoc. }
      rewrite app_assoc in E. apply app_inv_tail in E. subst a. rewrite <- app_assoc in *.
      apply (R_def line valid m d (a1 ++ rest')); [exact M| |apply (IH a1); auto].
      apply (make_def_stop m valid buffer t (a1 ++ rest)); [destruct a1; [auto|discriminate]|destruct a1; [auto|discriminate]|exact D].
Qed.

(** The loop's result, started from there. *)
Lemma loop_fuel : forall fuel lines data buffer, length lines <= fuel -> parse_loop fuel lines data buffer = parse_loop (length lines) lines data buffer.
Proof.
  induction fuel as [fuel IH] using lt_wf_ind. intros lines data buffer L. destruct lines as [|[line v] lines]; [destruct fuel; reflexivity|].
  cbn [length] in *. destruct fuel as [|fuel]; [lia|]. cbn [parse_loop]. destruct (re_match md_regex line) as [m|].
  - destruct (make_def m v buffer lines) as [d rest] eqn:D. apply make_def_suffix in D as (t & ->). rewrite app_length in *.
    rewrite (IH fuel) by lia. destruct (Nat.eq_dec fuel (length t + length rest)) as [->|]; [rewrite (IH (length t + length rest)) by lia; reflexivity|].
    symmetry. apply IH; lia.
  - rewrite (IH fuel) by lia. reflexivity.
Qed.
Lemma reach_loop lines data buffer rest data' buffer' : reach lines data buffer rest data' buffer' ->
  parse_loop (length lines) lines data buffer = parse_loop (length rest) rest data' buffer'.
Proof.
  induction 1 as [|line valid lines data buffer rest data' buffer' M R IH|line valid m d lines1 lines data buffer rest data' buffer' M D R IH]; auto; cbn [length parse_loop]; rewrite M; auto.
  rewrite D, <- IH. apply loop_fuel. apply make_def_suffix in D as (t & ->). rewrite app_length. lia.
Qed.
Lemma loop_data : forall fuel lines data buffer, exists more, md_data (parse_loop fuel lines data buffer) = data ++ more.
Proof.
  induction fuel as [|fuel IH]; intros lines data buffer; cbn [parse_loop]; [exists []; cbn; now rewrite app_nil_r|].
  destruct lines as [|[line v] lines]; [exists []; cbn; now rewrite app_nil_r|]. destruct (re_match md_regex line) as [m|]; [|apply IH].
  destruct (make_def m v buffer lines) as [d rest]. destruct (IH rest (data ++ [d]) []) as (more & ->). exists (d :: more). now rewrite <- app_assoc.
Qed.
(** A line is reached, or it is part of a definition. *)
Lemma reach_or_inside : forall fuel lines data buffer a l b, length lines <= fuel -> clean (map fst lines) -> lines = a ++ l :: b ->
  (exists data' buffer', reach lines data buffer (l :: b) data' buffer') \/
  in_definition (parse_loop fuel lines data buffer) (length (flat_map mdef_raw data) + length buffer + length a).
Proof.
  induction fuel as [|fuel IH]; intros lines data buffer a l b L C E; [subst; rewrite app_length in L; cbn in L; lia|].
  destruct a as [|[line v] a]; [left; subst; do 2 eexists; apply R_here|]. subst lines. cbn [app length] in L. cbn [app parse_loop].
  destruct (re_match md_regex line) as [m|] eqn:M.
  - destruct (make_def m v buffer (a ++ l :: b)) as [d rest] eqn:D. cbn [app map fst] in C.
    destruct (make_def_raw line m v buffer _ d rest C M D) as (taken & Et & Er).
    assert (Ep : d_preceding d = buffer).
    { unfold make_def in D. destruct (_ && _ && _) in D; [destruct (str_eqb (group_str 9 m) [BSLASH]) in D; destruct (extend_body _ _) in D|]; destruct (split_trailing _ _) in D; injection D as <- _; reflexivity. }
    assert (Eo : M_macro_definitions.own_lines d = line :: map fst taken).
    { unfold mdef_raw in Er. rewrite Ep in Er. now apply app_inv_head in Er. }
    destruct (Nat.lt_ge_cases (length a) (length taken)) as [Hl|Hl].
    + right. destruct (loop_data fuel rest (data ++ [d]) []) as (more & Em). exists data, d, more, (S (length a)).
      rewrite Em, <- app_assoc. split; [reflexivity|]. rewrite Eo, Ep. cbn [length]. rewrite map_length. split; lia.
    + assert (exists a1, a = taken ++ a1) as (a1 & ->).
      { exists (skipn (length taken) a). pose proof (f_equal (firstn (length taken)) Et) as Q. rewrite !firstn_app, Nat.sub_diag, firstn_all in Q. cbn [firstn] in Q. rewrite app_nil_r in Q.
        replace (length taken - length a) with 0 in Q by lia. cbn [firstn] in Q. rewrite app_nil_r in Q. rewrite <- Q at 1. now rewrite firstn_skipn. }
      rewrite <- app_assoc in Et. apply app_inv_head in Et. subst rest.
      destruct (IH (a1 ++ l :: b) (data ++ [d]) [] a1 l b) as [(data' & buffer' & R)|H]; auto.
      * rewrite !app_length in L. rewrite app_length. lia.
      * rewrite <- app_assoc, map_app in C. apply (clean_tail (line :: map fst taken)). exact C.
      * left. exists data', buffer'. eapply R_def; eauto.
      * right. rewrite flat_map_app in H. cbn [flat_map] in H. rewrite app_nil_r, app_length, Er in H. rewrite app_length in H. cbn [length] in *. rewrite map_length in H. rewrite app_length. 
        match goal with |- in_definition _ ?x => match type of H with in_definition _ ?y => replace x with y by lia end end. exact H.
  - destruct (IH (a ++ l :: b) data (buffer ++ [line]) a l b) as [(data' & buffer' & R)|H]; auto; [lia| | |].
    * apply (clean_tail [line]). exact C.
    * left. exists data', buffer'. now apply R_other.
    * right. rewrite app_length in H. cbn [length] in *.
      match goal with |- in_definition _ ?x => match type of H with in_definition _ ?y => replace x with y by lia end end. exact H.
Qed.

(** Lines above definitions do not matter for what is defined. *)
Definition moved (d d' : mdef) : Prop := length (d_preceding d) = length (d_preceding d') /\ d' = with_preceding (d_preceding d') d.
Lemma make_def_moved m v b1 b2 lines : length b1 = length b2 -> moved (fst (make_def m v b1 lines)) (fst (make_def m v b2 lines)) /\ snd (make_def m v b1 lines) = snd (make_def m v b2 lines).
Proof.
  intros L. unfold make_def. destruct (_ && _ && _); [destruct (str_eqb (group_str 9 m) [BSLASH]); destruct (extend_body _ _)|]; destruct (split_trailing _ _); (split; [split; [exact L|reflexivity]|reflexivity]).
Qed.
Lemma loop_moved : forall fuel lines d1 d2 b1 b2, length b1 = length b2 -> Forall2 moved d1 d2 ->
  Forall2 moved (md_data (parse_loop fuel lines d1 b1)) (md_data (parse_loop fuel lines d2 b2)).
Proof.
  induction fuel as [|fuel IH]; intros lines d1 d2 b1 b2 L F; cbn [parse_loop]; auto. destruct lines as [|[line v] lines]; auto.
  destruct (re_match md_regex line) as [m|]; [|apply IH; auto; rewrite !app_length; cbn; lia].
  destruct (make_def_moved m v b1 b2 lines L) as (M & R). destruct (make_def m v b1 lines) as [x1 r1], (make_def m v b2 lines) as [x2 r2]. cbn [fst snd] in *. subst r2.
  apply IH; auto. apply Forall2_app; auto.
Qed.
(** The same definitions, with other lines above them, cover the same lines. *)
Lemma moved_raw l l' : Forall2 moved l l' -> length (flat_map mdef_raw l) = length (flat_map mdef_raw l').
Proof.
  induction 1 as [|d d' l l' (L & E) _ IH]; auto. cbn [flat_map]. rewrite !app_length, IH. f_equal. unfold mdef_raw. rewrite !app_length, <- L. rewrite E. reflexivity.
Qed.
Lemma moved_body m m' i : Forall2 moved (md_data m) (md_data m') -> body_line m i -> body_line m' i.
Proof.
  intros F (a & d & b & k & E & Hk & Ei). rewrite E in F. apply Forall2_app_inv_l in F as (a' & r & Fa & Fr & E'). inversion Fr as [|? d' ? b' (L & Ed) Fb]; subst.
  exists a', d', b', k. split; [exact E'|]. rewrite Ed. cbn [d_body]. split; [exact Hk|]. rewrite <- (moved_raw _ _ Fa). cbn [d_preceding with_preceding]. now rewrite L.
Qed.
Lemma moved_sym l l' : Forall2 moved l l' -> Forall2 moved l' l.
Proof. induction 1 as [|d d' l l' (L & E) F IH]; constructor; auto. split; [auto|]. rewrite E. destruct d; reflexivity. Qed.
Lemma Forall2_len {A B} (R : A -> B -> Prop) l l' : Forall2 R l l' -> length l = length l'.
Proof. induction 1; cbn; auto. Qed.
Lemma moved_apart m m' : Forall2 moved (md_data m) (md_data m') -> defined_apart m -> defined_apart m'.
Proof.
  intros F A a d b x E Hx N. apply moved_sym in F. rewrite E in F. apply Forall2_app_inv_l in F as (a' & r & Fa & Fr & E'). inversion Fr as [|? d' ? b' (L & Ed) Fb]; subst.
  apply In_nth_error in Hx as (n & Hn). destruct (nth_error a' n) as [x'|] eqn:Hn'; [|apply nth_error_None in Hn'; assert (n < length a) by (apply nth_error_Some; congruence); apply Forall2_len in Fa; lia].
  assert (moved x x') as (_ & Ex). { clear -Fa Hn Hn'. revert n Hn Hn'. induction Fa; intros [|n]; cbn; try discriminate; [congruence|eauto]. }
  specialize (A a' d' b' x' E' (nth_error_In _ _ Hn')). rewrite Ed, Ex in A. auto.
Qed.
Lemma apart_distinct m : defined_apart m -> distinct m.
Proof. intros A a d b E x Hx S. unfold same_def in S. injection S as Sn Sb _. now apply (A a d b x E Hx Sn). Qed.

(** Replacing a line outside definitions by another one that is no definition. *)
Theorem replace_body a l b l' : clean (a ++ l :: b) -> ~ in_definition (parse_plain (a ++ l :: b)) (length a) -> re_match md_regex l = None -> re_match md_regex l' = None ->
  Forall2 moved (md_data (parse_plain (a ++ l :: b))) (md_data (parse_plain (a ++ l' :: b))).
Proof.
  intros C N M M'. unfold parse_plain, parse_tagged. set (f := fun l : str => (l, true)).
  assert (E : map fst (map f (a ++ l :: b)) = a ++ l :: b) by (rewrite map_map; apply map_id).
  destruct (reach_or_inside (length (map f (a ++ l :: b))) (map f (a ++ l :: b)) [] [] (map f a) (l, true) (map f b)) as [(data & buffer & R)|I].
  - auto.
  - now rewrite E.
  - now rewrite map_app.
  - rewrite (reach_loop _ _ _ _ _ _ R). rewrite map_app in R. cbn [map] in R.
    apply (reach_swap _ _ _ _ _ _) with (a := map f a) (rest' := (l', true) :: map f b) in R; [|reflexivity|discriminate|discriminate].
    rewrite map_app. cbn [map]. change (f l') with (l', true). rewrite (reach_loop _ _ _ _ _ _ R). cbn [length parse_loop]. rewrite M, M'.
    apply loop_moved; [now rewrite !app_length|]. clear. induction data; constructor; auto. split; auto. now destruct a.
  - exfalso. apply N. unfold parse_plain, parse_tagged. fold f. cbn [flat_map length Nat.add] in I. rewrite (map_length f a) in I. exact I.
Qed.
End Uni.
