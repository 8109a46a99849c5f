(** The properties [tainted] and [rpm_spec] of a spec file. *)
From Coq Require Import Ascii String.
From Coq Require Import NArith List Bool Arith.
From Verif Require Import PyStr M_spec_parser Spec_spec_parser P_spec_parser M_expand Spec_expand P_expand.
Import ListNotations.

Section Parsed.
Context {G A B : Type} (run : key -> G -> G * option (result (A * bool))) (get : parser A -> result B).
Lemma parsed_forgotten i content (s : process G A) p : get_parser i (p_parsers s) = Some p -> p_spec p <> None ->
  snd (parsed get run i content (forget s)) =
  match snd (run (mk_key i (p_sourcedir p) (p_macros p) (p_force p) content None) (p_world s)) with
  | Some (Ok (spec, t)) => Some (get (mk_parser (p_sourcedir p) (p_macros p) (p_force p) (Some (Some spec)) t))
  | Some (Err x) => Some (Err x)
  | None => None
  end.
Proof.
  intros P N. unfold parsed, parse. cbn [forget p_parsers p_last p_world]. rewrite P. destruct (p_spec p) as [o|]; [|congruence]. unfold key_of.
  destruct (run _ (p_world s)) as [g [[[sp t]|x]|]]; [|destruct x; reflexivity|reflexivity].
  cbn [p_parsers snd]. rewrite get_set, Nat.eqb_refl, P. reflexivity.
Qed.
Context (same input : G -> G -> Prop) (Rp : repeatable run input) (Eq : equivalence same) (Si : forall a b, same a b -> input a b).
Lemma parsed_forget es g0 i content : allocated [] [] es -> harmless same es ->
  let s := steps run es (mk_process g0 None []) in snd (parsed get run i content s) = snd (parsed get run i content (forget s)).
Proof.
  intros Al Ha s. destruct (transparent run same input Rp Eq Si es g0 i content None Al Ha) as (R & _ & P). fold s in R, P. unfold parsed. specialize (P i).
  destruct (parse run i content None s) as [s1 r1]. destruct (parse run i content None (forget s)) as [s2 r2]. cbn in R, P. subst r2. destruct r1 as [[u|x]|]; auto. cbn. now rewrite P.
Qed.
Theorem parsed_is es g0 i content p : allocated [] [] es -> harmless same es ->
  let s := steps run es (mk_process g0 None []) in get_parser i (p_parsers s) = Some p -> p_spec p <> None ->
  snd (parsed get run i content s) =
  match snd (run (mk_key i (p_sourcedir p) (p_macros p) (p_force p) content None) (p_world s)) with
  | Some (Ok (spec, t)) => Some (get (mk_parser (p_sourcedir p) (p_macros p) (p_force p) (Some (Some spec)) t))
  | Some (Err x) => Some (Err x)
  | None => None
  end.
Proof. intros Al Ha s P N. pose proof (parsed_forget es g0 i content Al Ha) as E. cbv zeta in E. fold s in E. rewrite E. now apply parsed_forgotten. Qed.
End Parsed.

Section Both.
Context {G A : Type} (run : key -> G -> G * option (result (A * bool))).
Context (same input : G -> G -> Prop) (Rp : repeatable run input) (Eq : equivalence same) (Si : forall a b, same a b -> input a b).
Theorem rpm_spec_is es g0 i content p : allocated [] [] es -> harmless same es ->
  let s := steps run es (mk_process g0 None []) in get_parser i (p_parsers s) = Some p -> p_spec p <> None ->
  snd (rpm_spec run i content s) =
  match snd (run (mk_key i (p_sourcedir p) (p_macros p) (p_force p) content None) (p_world s)) with
  | Some (Ok (spec, t)) => Some (Ok (Some spec)) | Some (Err x) => Some (Err x) | None => None end.
Proof. intros Al Ha s P N. unfold rpm_spec. rewrite (parsed_is run _ same input Rp Eq Si es g0 i content p Al Ha P N). reflexivity. Qed.
Theorem tainted_is es g0 i content p : allocated [] [] es -> harmless same es ->
  let s := steps run es (mk_process g0 None []) in get_parser i (p_parsers s) = Some p -> p_spec p <> None ->
  snd (tainted run i content s) =
  match snd (run (mk_key i (p_sourcedir p) (p_macros p) (p_force p) content None) (p_world s)) with
  | Some (Ok (spec, t)) => Some (Ok t) | Some (Err x) => Some (Err x) | None => None end.
Proof. intros Al Ha s P N. unfold tainted. rewrite (parsed_is run _ same input Rp Eq Si es g0 i content p Al Ha P N). reflexivity. Qed.
Lemma steps_snoc es e (s : process G A) : steps run (es ++ [e]) s = step run e (steps run es s).
Proof. unfold steps. now rewrite fold_left_app. Qed.
Lemma steps_set es i d m f g0 p : get_parser i (p_parsers (steps run es (mk_process g0 None []))) = Some p ->
  let s' := steps run (es ++ [Set_ i d m f]) (mk_process g0 None []) in
  p_world s' = p_world (steps run es (mk_process g0 None [])) /\ get_parser i (p_parsers s') = Some (mk_parser d m f (p_spec p) (p_tainted p)).
Proof. intros P. cbv zeta. rewrite steps_snoc. cbn [step]. rewrite P. cbn [p_world p_parsers]. now rewrite get_set, Nat.eqb_refl, P. Qed.
(** After the parameters were set, they are the ones that are used. *)
Theorem set_used es g0 i d m f content p : allocated [] [] (es ++ [Set_ i d m f]) -> harmless same (es ++ [Set_ i d m f]) ->
  get_parser i (p_parsers (steps run es (mk_process g0 None []))) = Some p -> p_spec p <> None ->
  let s' := steps run (es ++ [Set_ i d m f]) (mk_process g0 None []) in
  let r := snd (run (mk_key i d m f content None) (p_world (steps run es (mk_process g0 None [])))) in
  snd (rpm_spec run i content s') = match r with Some (Ok (spec, t)) => Some (Ok (Some spec)) | Some (Err x) => Some (Err x) | None => None end /\
  snd (tainted run i content s') = match r with Some (Ok (spec, t)) => Some (Ok t) | Some (Err x) => Some (Err x) | None => None end.
Proof.
  intros Al Ha P N s' r. destruct (steps_set es i d m f g0 p P) as [W P']. fold s' in W, P'. unfold r. rewrite <- W. split.
  - exact (rpm_spec_is _ g0 i content _ Al Ha P' N).
  - exact (tainted_is _ g0 i content _ Al Ha P' N).
Qed.
End Both.
(** A copy at the place of a spec file that was parsed and dropped. *)
Theorem copy_has_none {G A} (run : key -> G -> G * option (result (A * bool))) d m f content g g' spec t :
  run (mk_key 0 d m f content None) g = (g', Some (Ok (spec, t))) ->
  let s := steps run [New 0 d m f; Parse 0 content None; Copy 0 1; Drop 0; Copy 1 0] (mk_process g None []) in
  snd (rpm_spec run 0 content s) = Some (Ok None) /\ snd (tainted run 0 content s) = Some (Ok false).
Proof.
  intros R s. destruct (copy_unparsed run d m f content None g g' spec t R) as (P & p & Gp & Sp). fold s in P, Gp.
  unfold rpm_spec, tainted, parsed. rewrite P, Gp, Sp. split; [reflexivity|]. cbn [snd].
  assert (E : s = mk_process g' (Some (mk_key 0 d m f content None)) [(0, mk_parser d m f (Some None) false); (1, mk_parser d m f (Some None) false)]).
  { unfold s, steps. cbn -[key_eqb]. unfold key_of. cbn -[key_eqb]. rewrite R. reflexivity. }
  assert (T : p_tainted p = false) by (rewrite E in Gp; cbn in Gp; now injection Gp as <-).
  now rewrite T.
Qed.
