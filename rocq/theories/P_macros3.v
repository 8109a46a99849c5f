(** A small macro context, to show that the assumptions about RPM can be met. *)
From Coq Require Import Ascii String.
From Coq Require Import NArith ZArith List Bool Lia.
From Verif Require Import PyStr PyStrFacts M_macros Spec_macros P_macros.
Import ListNotations.
Open Scope N_scope.

(** The definitions, the latest first: name, level and body. *)
Definition toy := list (str * (Z * str)).
Definition toy_defs (w : toy) (n : str) : list (Z * str) := map snd (filter (fun x => str_eqb (fst x) n) w).
Definition toy_body (b : str) : Z * str := ((-1)%Z, b).
Fixpoint toy_del (n : str) (w : toy) : toy :=
  match w with [] => [] | x :: w' => if str_eqb (fst x) n then w' else x :: toy_del n w' end.
Definition toy_add (n b : str) (w : toy) : toy := (n, toy_body b) :: w.
(** [strict]: a body that begins with [%] is an error; otherwise every body is its expansion. *)
Definition toy_expand (strict : bool) (e : str) (w : toy) : toy * result str :=
  match e with
  | 37 :: 123 :: e' =>
      let n := removelast e' in
      match toy_defs w n with
      | [] => (w, Ok (braced (unescape n)))
      | (_, b) :: _ => (w, match b with 37 :: _ => if strict then Err RPMException else Ok b | _ => Ok b end)
      end
  | _ => (w, Ok e)
  end.

Lemma toy_rpm strict names : rpm toy_defs toy_body toy_del toy_add (toy_expand strict) names.
Proof.
  constructor.
  - intros n w. induction w as [|x w IH]; [reflexivity|]. cbn [toy_del]. unfold toy_defs in *. cbn [filter].
    destruct (str_eqb (fst x) n) eqn:E; [reflexivity|]. cbn [filter]. rewrite E. exact IH.
  - intros n m w N. induction w as [|x w IH]; [reflexivity|]. cbn [toy_del]. unfold toy_defs in *. cbn [filter].
    destruct (str_eqb (fst x) n) eqn:E.
    + destruct (str_eqb (fst x) m) eqn:E'; [|reflexivity]. apply str_eqb_eq in E, E'. congruence.
    + cbn [filter]. destruct (str_eqb (fst x) m); [cbn [map]; f_equal|]; exact IH.
  - intros n b w. unfold toy_defs, toy_add. cbn [filter fst]. rewrite str_eqb_refl. reflexivity.
  - intros n b m w N. unfold toy_defs, toy_add. cbn [filter fst]. destruct (str_eqb n m) eqn:E; [apply str_eqb_eq in E; congruence|reflexivity].
  - intros e w. assert (X : fst (toy_expand strict e w) = w); [|rewrite X; intros n; reflexivity].
    unfold toy_expand. destruct e as [|a e]; [reflexivity|]. repeat (match goal with |- fst (match ?x with _ => _ end) = _ => destruct x end; try reflexivity).
  - intros e w w' S. unfold toy_expand. destruct e as [|a e]; [reflexivity|].
    repeat (match goal with |- snd (match ?x with _ => _ end) = snd (match ?x with _ => _ end) => destruct x end; try reflexivity).
    rewrite (S (removelast e)). destruct (toy_defs w' (removelast e)) as [|[? ?] ?]; reflexivity.
  - intros e w x. unfold toy_expand. destruct e as [|a e]; [discriminate|].
    repeat (match goal with |- snd (match ?x with _ => _ end) = _ -> _ => destruct x end; cbn [snd]; try discriminate).
    repeat (match goal with |- (match ?x with _ => _ end) = _ -> _ => destruct x end; try discriminate). congruence.
  - intros n t w _ E T. rewrite (unescaped_unique _ _ T _ (unescape_unescaped n)). change (lit "%{" ++ n ++ lit "}") with (37 :: 123 :: n ++ [125]). unfold toy_expand. rewrite removelast_last, E. reflexivity.
Qed.
Lemma toy_no_self_literals names : no_self_literals toy_defs (toy_expand true) names.
Proof.
  intros n w _ H. apply self_literal_iff in H. unfold toy_expand, braced, LBRACE, PCT in H. cbn [app] in H. rewrite removelast_last in H.
  destruct (toy_defs w n) as [|[l b] ds]; [reflexivity|]. exfalso. cbn [snd] in H.
  repeat (match type of H with (match ?x with _ => _ end) = _ => destruct x end; try discriminate).
Qed.
(** Its configuration, and what it dumps then. *)
Definition toy_config : toy := [(lit "_topdir", ((-13)%Z, lit "/b")); (lit "x", (0%Z, lit "1")); (lit "x", ((-13)%Z, lit "2"))].
Definition toy_dump (_ : toy) : list str :=
  (lit "========" ++ [LF]) :: dump_of [(lit " ", mk_macro (lit "_topdir") None (lit "/b") (-13) false); (lit "  ", mk_macro (lit "x") None (lit "1") 0 true)] ++ [lit "active 2"].
Lemma toy_faithful : @faithful _ _ toy_defs unicode_none fst toy_config (toy_dump toy_config).
Proof.
  exists [mk_macro (lit "_topdir") None (lit "/b") (-13) false; mk_macro (lit "x") None (lit "1") 0 true]. split; [vm_compute; reflexivity|]. split.
  - intros m [<-|[<-|[]]]; eexists; eexists; split; reflexivity.
  - intros n d ds. unfold toy_defs, toy_config. cbn [filter fst]. destruct (str_eqb (lit "_topdir") n) eqn:E1.
    + apply str_eqb_eq in E1. subst n. intros _. eexists. split; [left; reflexivity|reflexivity].
    + destruct (str_eqb (lit "x") n) eqn:E2; [|discriminate]. apply str_eqb_eq in E2. subst n. intros _. eexists. split; [right; left; reflexivity|reflexivity].
Qed.
