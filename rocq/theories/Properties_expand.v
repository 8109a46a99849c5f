(** Theorems about expansion in the context of a spec file (C216).  [forget s] is the process [s] without a memory of the last parse, so that a parse is really done in it;
    [allocated], [harmless] and [repeatable] are as in C42 ([Spec_spec_parser]), and [C42_repeatable] shows that the parse of this library is repeatable. *)
From Coq Require Import Ascii String.
From Coq Require Import NArith List Bool.
From Verif Require Import PyStr M_evr M_spec_parser Spec_spec_parser P_spec_parser5 M_expand Spec_expand P_expand.
From Verif Require Properties_spec_parser.
Import ListNotations.

(** * C216 *)
(** In every history, [expand] has the outcome that it has right after the spec file was really parsed. *)
Theorem C216_expand : forall (G A B : Type) (run : key -> G -> G * option (result (A * bool))) (ask : str -> G -> G * result B) (same input : G -> G -> Prop),
  repeatable run input -> equivalence same -> (forall a b, same a b -> input a b) -> (forall e a b, same a b -> snd (ask e a) = snd (ask e b)) ->
  forall es g0 i content extra skip e, allocated [] [] es -> harmless same es -> skip = false \/ extra <> None ->
  let s := steps run es (mk_process g0 None []) in
  snd (expand run ask i content extra skip e s) = snd (expand run ask i content extra skip e (forget s)).
Proof. exact @expand_forget. Qed.
Print Assumptions C216_expand.
(** Two spec files with the same content and parameters, in two processes with different histories, expand to the same. *)
Theorem C216_independent : forall (G A B : Type) (run : key -> G -> G * option (result (A * bool))) (ask : str -> G -> G * result B) (same input : G -> G -> Prop),
  repeatable run input -> equivalence same -> (forall a b, same a b -> input a b) -> (forall e a b, same a b -> snd (ask e a) = snd (ask e b)) ->
  forall es es' g0 g0' i i' content extra skip e p p', anonymous run -> allocated [] [] es -> harmless same es -> allocated [] [] es' -> harmless same es' -> skip = false \/ extra <> None ->
  let s := steps run es (mk_process g0 None []) in let s' := steps run es' (mk_process g0' None []) in
  input (p_world s) (p_world s') -> get_parser i (p_parsers s) = Some p -> get_parser i' (p_parsers s') = Some p' -> p_spec p <> None -> p_spec p' <> None ->
  p_sourcedir p = p_sourcedir p' -> p_macros p = p_macros p' -> p_force p = p_force p' ->
  snd (expand run ask i content extra skip e s) = snd (expand run ask i' content extra skip e s').
Proof. exact @expand_independent. Qed.
Print Assumptions C216_independent.
(** The same for [get_active_macros]. *)
Theorem C216_active_macros : forall (G A B : Type) (run : key -> G -> G * option (result (A * bool))) (dump : G -> G * result B) (same input : G -> G -> Prop),
  repeatable run input -> equivalence same -> (forall a b, same a b -> input a b) -> (forall a b, same a b -> snd (dump a) = snd (dump b)) ->
  forall es es' g0 g0' i i' content p p', anonymous run -> allocated [] [] es -> harmless same es -> allocated [] [] es' -> harmless same es' ->
  let s := steps run es (mk_process g0 None []) in let s' := steps run es' (mk_process g0' None []) in
  input (p_world s) (p_world s') -> get_parser i (p_parsers s) = Some p -> get_parser i' (p_parsers s') = Some p' -> p_spec p <> None -> p_spec p' <> None ->
  p_sourcedir p = p_sourcedir p' -> p_macros p = p_macros p' -> p_force p = p_force p' ->
  snd (get_active_macros run dump i content s) = snd (get_active_macros run dump i' content s').
Proof. exact @active_independent. Qed.
Print Assumptions C216_active_macros.
(** But what an expression defines stays: the next one, with the same content, is expanded in the macros that the first one left, and not in those of the spec file. *)
Theorem C216_refuted : forall (G A B : Type) (run : key -> G -> G * option (result (A * bool))) (ask : str -> G -> G * result B) i content e1 e2 s r,
  snd (expand run ask i content None false e1 s) = Some (Ok r) ->
  exists s1, parse run i content None s = (s1, Some (Ok tt)) /\ snd (ask e1 (p_world s1)) = Ok r /\
  snd (expand run ask i content None false e2 (fst (expand run ask i content None false e1 s))) = Some (snd (ask e2 (fst (ask e1 (p_world s1))))).
Proof. exact @expand_stays. Qed.
Print Assumptions C216_refuted.
(** The hypotheses hold for a small RPM; two histories, in which the spec file is not the same object. *)
Example C216_example :
  let input := fun g g' : world (list str) => files g = files g' /\ env g = env g' in
  let es := [New 0 dir [] false; Parse 0 (lit "a") None; Copy 0 1; Parse 1 (lit "b") None; Parse 1 (lit "a") None] in
  let es' := [New 0 dir [] false] in
  let s := steps toy_run es (mk_process start None []) in let s' := steps toy_run es' (mk_process start None []) in
  repeatable toy_run input /\ equivalence (@eq (world (list str))) /\ anonymous toy_run /\ allocated [] [] es /\ allocated [] [] es' /\ harmless eq es /\ harmless eq es' /\
  input (p_world s) (p_world s') /\ p_last s <> p_last s' /\
  snd (expand toy_run toy_ask 1 (lit "a") None false (lit "%x") s) = Some (Ok [dir]) /\
  snd (expand toy_run toy_ask 0 (lit "a") None false (lit "%x") s') = Some (Ok [dir]).
Proof.
  cbn zeta. split; [apply Properties_spec_parser.C42_repeatable; [exact toy_sound|exact toy_order|exact toy_quiet|reflexivity]|].
  split; [split; [|split]; [reflexivity|now symmetry|intros ? ? ? -> ->; reflexivity]|]. split; [intros i j d m f c x g; reflexivity|].
  split; [cbn; intuition discriminate|]. split; [cbn; intuition discriminate|]. split; [intros f H; cbn in H; intuition discriminate|]. split; [intros f H; cbn in H; intuition discriminate|].
  split; [vm_compute; auto|]. split; [vm_compute; discriminate|]. vm_compute. auto.
Qed.
(** [%global x] first: [%x] is then not what it is in the spec file. *)
Example C216_refuted_example :
  let s := steps toy_run [New 0 dir [] false] (mk_process start None []) in
  let s1 := fst (expand toy_run toy_ask 0 (lit "a") None false (lit "%global x 1") s) in
  snd (expand toy_run toy_ask 0 (lit "a") None false (lit "%global x 1") s) = Some (Ok [dir]) /\
  snd (expand toy_run toy_ask 0 (lit "a") None false (lit "%x") s1) = Some (Ok [lit "%global x 1"; dir]) /\
  snd (expand toy_run toy_ask 0 (lit "a") None false (lit "%x") (forget s1)) = Some (Ok [dir]).
Proof. vm_compute. auto. Qed.
