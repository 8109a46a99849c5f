(** Expansion in the context of a spec file. *)
From Coq Require Import Ascii String.
From Coq Require Import NArith List Bool.
From Verif Require Import PyStr PyStrFacts M_spec_parser Spec_spec_parser P_spec_parser M_expand Spec_expand.
Import ListNotations.

Section Expand.
Context {G A B : Type} (run : key -> G -> G * option (result (A * bool))) (ask : str -> G -> G * result B).
Lemma parses_or_not i content extra skip : negb skip || match extra with Some _ => true | None => false end = true -> forall e s,
  expand run ask i content extra skip e s = match parse run i content extra s with (s', Some (Ok _)) => asked ask e s' | (s', Some (Err x)) => (s', Some (Err x)) | (s', None) => (s', None) end.
Proof. intros H e s. unfold expand. now rewrite H. Qed.
Context (same input : G -> G -> Prop) (Rp : repeatable run input) (Eq : equivalence same) (Si : forall a b, same a b -> input a b).
Context (Ask : forall e a b, same a b -> snd (ask e a) = snd (ask e b)).
Lemma asked_same e (s s' : process G A) : same (p_world s) (p_world s') -> snd (asked ask e s) = snd (asked ask e s').
Proof. intros H. unfold asked. specialize (Ask e _ _ H). destruct (ask e (p_world s)), (ask e (p_world s')). cbn in *. now subst. Qed.
Theorem expand_forget es g0 i content extra skip e : allocated [] [] es -> harmless same es -> skip = false \/ extra <> None ->
  let s := steps run es (mk_process g0 None []) in
  snd (expand run ask i content extra skip e s) = snd (expand run ask i content extra skip e (forget s)).
Proof.
  intros Al Ha Sk s. assert (C : negb skip || match extra with Some _ => true | None => false end = true) by (destruct Sk as [->|N]; [reflexivity|]; destruct extra; [apply orb_true_r|congruence]).
  rewrite !parses_or_not by exact C. destruct (transparent run same input Rp Eq Si es g0 i content extra Al Ha) as (R & W & _). fold s in R, W.
  destruct (parse run i content extra s) as [s1 r1]. destruct (parse run i content extra (forget s)) as [s2 r2]. cbn in R, W. subst r2. destruct r1 as [[u|x]|]; auto. now apply asked_same.
Qed.
(** It does not matter what was done before. *)
Theorem expand_independent es es' g0 g0' i i' content extra skip e p p' : anonymous run -> allocated [] [] es -> harmless same es -> allocated [] [] es' -> harmless same es' -> skip = false \/ extra <> None ->
  let s := steps run es (mk_process g0 None []) in let s' := steps run es' (mk_process g0' None []) in
  input (p_world s) (p_world s') -> get_parser i (p_parsers s) = Some p -> get_parser i' (p_parsers s') = Some p' -> p_spec p <> None -> p_spec p' <> None ->
  p_sourcedir p = p_sourcedir p' -> p_macros p = p_macros p' -> p_force p = p_force p' ->
  snd (expand run ask i content extra skip e s) = snd (expand run ask i' content extra skip e s').
Proof.
  intros An Al Ha Al' Ha' Sk s s' I P P' Sp Sp' D M F.
  pose proof (expand_forget es g0 i content extra skip e Al Ha Sk) as E1. pose proof (expand_forget es' g0' i' content extra skip e Al' Ha' Sk) as E2. cbv zeta in E1, E2. fold s in E1. fold s' in E2. rewrite E1, E2.
  assert (C : negb skip || match extra with Some _ => true | None => false end = true) by (destruct Sk as [->|N]; [reflexivity|]; destruct extra; [apply orb_true_r|congruence]).
  rewrite !parses_or_not by exact C. unfold parse. cbn [forget p_parsers p_last p_world]. rewrite P, P'. destruct (p_spec p) as [o|]; [|congruence]. destruct (p_spec p') as [o'|]; [|congruence].
  unfold key_of. rewrite D, M, F, (An i i'), (r_run _ _ Rp _ _ _ I).
  destruct (run (mk_key i' (p_sourcedir p') (p_macros p') (p_force p') content extra) (p_world s')) as [g [[[sp t]|x]|]]; [apply asked_same; cbn; apply (proj1 Eq)|destruct x; reflexivity|reflexivity].
Qed.
End Expand.
(** What an expression defines stays. *)
Theorem expand_stays {G A B} (run : key -> G -> G * option (result (A * bool))) (ask : str -> G -> G * result B) i content e1 e2 s r :
  snd (expand run ask i content None false e1 s) = Some (Ok r) ->
  exists s1, parse run i content None s = (s1, Some (Ok tt)) /\ snd (ask e1 (p_world s1)) = Ok r /\
  snd (expand run ask i content None false e2 (fst (expand run ask i content None false e1 s))) = Some (snd (ask e2 (fst (ask e1 (p_world s1))))).
Proof.
  intros E. rewrite parses_or_not in E by reflexivity. destruct (parse run i content None s) as [s1 [[[]|x]|]] eqn:P; try discriminate E. exists s1. split; [reflexivity|].
  assert (P1 : snd (parse run i content None s) = Some (Ok tt)) by (rewrite P; reflexivity).
  destruct (changes_unnoticed run (fun _ => fst (ask e1 (p_world s1))) i content None s P1) as (_ & P2). rewrite P in P2. cbn [fst] in P2.
  assert (F : fst (expand run ask i content None false e1 s) = step run (Other (fun _ => fst (ask e1 (p_world s1)))) s1).
  { rewrite parses_or_not by reflexivity. rewrite P. unfold asked. now destruct (ask e1 (p_world s1)). }
  split. { unfold asked in E. destruct (ask e1 (p_world s1)). cbn in *. congruence. }
  rewrite F, parses_or_not by reflexivity. rewrite P2. unfold asked. cbn [p_world step]. now destruct (ask e2 (fst (ask e1 (p_world s1)))).
Qed.
Lemma active_expand {G A B} (run : key -> G -> G * option (result (A * bool))) (dump : G -> G * result B) i content s : get_active_macros run dump i content s = expand run (fun _ => dump) i content None false [] s.
Proof. reflexivity. Qed.
Theorem active_independent {G A B} (run : key -> G -> G * option (result (A * bool))) (dump : G -> G * result B) (same input : G -> G -> Prop) :
  repeatable run input -> equivalence same -> (forall a b, same a b -> input a b) -> (forall a b, same a b -> snd (dump a) = snd (dump b)) ->
  forall es es' g0 g0' i i' content p p', anonymous run -> allocated [] [] es -> harmless same es -> allocated [] [] es' -> harmless same es' ->
  let s := steps run es (mk_process g0 None []) in let s' := steps run es' (mk_process g0' None []) in
  input (p_world s) (p_world s') -> get_parser i (p_parsers s) = Some p -> get_parser i' (p_parsers s') = Some p' -> p_spec p <> None -> p_spec p' <> None ->
  p_sourcedir p = p_sourcedir p' -> p_macros p = p_macros p' -> p_force p = p_force p' ->
  snd (get_active_macros run dump i content s) = snd (get_active_macros run dump i' content s').
Proof.
  intros Rp Eq Si D es es' g0 g0' i i' content p p' An A1 H1 A2 H2 s s' I P P' S1 S2 E1 E2 E3. rewrite !active_expand.
  apply (expand_independent run (fun _ => dump) same input Rp Eq Si (fun _ => D) es es' g0 g0' i i' content None false [] p p'); auto.
Qed.
(** For the examples: [%global] adds to the macros, everything else is answered with the macros that there are. *)
Definition toy_ask (e : str) (w : world (list str)) : world (list str) * result (list str) :=
  (if startswith e (lit "%global ") then with_ctx (e :: ctx w) w else w, Ok (ctx w)).
