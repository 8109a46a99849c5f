(** Theorems about the parsed spec file and whether it is tainted (C231).  [allocated], [harmless] and [repeatable] are as in C42 ([Spec_spec_parser]), and
    [C42_repeatable] shows that the parse of this library is repeatable.  [run k g] is a real parse with the parameters and the content [k] in the world [g]. *)
From Coq Require Import Ascii String.
From Coq Require Import NArith List Bool.
From Verif Require Import PyStr M_evr M_spec_parser Spec_spec_parser P_spec_parser5 M_expand Spec_expand P_expand P_parsed.
From Verif Require Properties_spec_parser.
Import ListNotations.

(** * C231 *)
(** In every history, [rpm_spec] is what a real parse of the content with the present parameters returns, or it raises what that parse raises. *)
Theorem C231_rpm_spec : forall (G A : Type) (run : key -> G -> G * option (result (A * bool))) (same input : G -> G -> Prop),
  repeatable run input -> equivalence same -> (forall a b, same a b -> input a b) ->
  forall es g0 i content p, allocated [] [] es -> harmless same es ->
  let s := steps run es (mk_process g0 None []) in get_parser i (p_parsers s) = Some p -> p_spec p <> None ->
  snd (rpm_spec run i content s) =
  match snd (run (mk_key i (p_sourcedir p) (p_macros p) (p_force p) content None) (p_world s)) with
  | Some (Ok (spec, t)) => Some (Ok (Some spec)) | Some (Err x) => Some (Err x) | None => None end.
Proof. exact @rpm_spec_is. Qed.
Print Assumptions C231_rpm_spec.
(** And [tainted] says whether that parse needed dummy sources. *)
Theorem C231_tainted : forall (G A : Type) (run : key -> G -> G * option (result (A * bool))) (same input : G -> G -> Prop),
  repeatable run input -> equivalence same -> (forall a b, same a b -> input a b) ->
  forall es g0 i content p, allocated [] [] es -> harmless same es ->
  let s := steps run es (mk_process g0 None []) in get_parser i (p_parsers s) = Some p -> p_spec p <> None ->
  snd (tainted run i content s) =
  match snd (run (mk_key i (p_sourcedir p) (p_macros p) (p_force p) content None) (p_world s)) with
  | Some (Ok (spec, t)) => Some (Ok t) | Some (Err x) => Some (Err x) | None => None end.
Proof. exact @tainted_is. Qed.
Print Assumptions C231_tainted.
(** A source directory, macros or [force_parse] that were just set are the ones that are used, whatever was parsed before. *)
Theorem C231_set : forall (G A : Type) (run : key -> G -> G * option (result (A * bool))) (same input : G -> G -> Prop),
  repeatable run input -> equivalence same -> (forall a b, same a b -> input a b) ->
  forall es g0 i d m f content p, allocated [] [] (es ++ [Set_ i d m f]) -> harmless same (es ++ [Set_ i d m f]) ->
  get_parser i (p_parsers (steps run es (mk_process g0 None []))) = Some p -> p_spec p <> None ->
  let s' := steps run (es ++ [Set_ i d m f]) (mk_process g0 None []) in
  let r := snd (run (mk_key i d m f content None) (p_world (steps run es (mk_process g0 None [])))) in
  snd (rpm_spec run i content s') = match r with Some (Ok (spec, t)) => Some (Ok (Some spec)) | Some (Err x) => Some (Err x) | None => None end /\
  snd (tainted run i content s') = match r with Some (Ok (spec, t)) => Some (Ok t) | Some (Err x) => Some (Err x) | None => None end.
Proof. exact @set_used. Qed.
Print Assumptions C231_set.
(** But a copy that got the identity of a spec file that was parsed and then dropped has no parsed spec file, although the same content was parsed. *)
Theorem C231_refuted : forall (G A : Type) (run : key -> G -> G * option (result (A * bool))) d m f content g g' spec t,
  run (mk_key 0 d m f content None) g = (g', Some (Ok (spec, t))) ->
  let s := steps run [New 0 d m f; Parse 0 content None; Copy 0 1; Drop 0; Copy 1 0] (mk_process g None []) in
  snd (rpm_spec run 0 content s) = Some (Ok None) /\ snd (tainted run 0 content s) = Some (Ok false).
Proof. exact @copy_has_none. Qed.
Print Assumptions C231_refuted.
(** The hypotheses hold for a small RPM; the source directory is changed after two parses. *)
Example C231_example :
  let input := fun g g' : world (list str) => files g = files g' /\ env g = env g' in
  let es := [New 0 dir [] false; Parse 0 (lit "a") None; Copy 0 1; Parse 1 (lit "b") None; Parse 0 (lit "a") None] in
  let s := steps toy_run es (mk_process start None []) in
  repeatable toy_run input /\ equivalence (@eq (world (list str))) /\ allocated [] [] (es ++ [Set_ 0 (lit "other") [] true]) /\ harmless eq (es ++ [Set_ 0 (lit "other") [] true]) /\
  (exists p, get_parser 0 (p_parsers s) = Some p /\ p_spec p <> None) /\
  snd (rpm_spec toy_run 0 (lit "a") s) = Some (Ok (Some [url])) /\ snd (tainted toy_run 0 (lit "a") s) = Some (Ok false) /\
  toy_run (mk_key 0 dir [] false (lit "a") None) start = (mk_world [dir] (files start) (env start), Some (Ok ([url], false))).
Proof.
  cbn zeta. split; [apply Properties_spec_parser.C42_repeatable; [exact toy_sound|exact toy_order|exact toy_quiet|reflexivity]|].
  split; [split; [|split]; [reflexivity|now symmetry|intros ? ? ? -> ->; reflexivity]|].
  split; [cbn; intuition discriminate|]. split; [intros f H; cbn in H; intuition discriminate|].
  split; [eexists; split; [vm_compute; reflexivity|discriminate]|]. vm_compute. auto.
Qed.
