(** Proofs about the options that sections take. *)
From Coq Require Import Ascii String.
From Coq Require Import NArith ZArith List Bool.
From Verif Require Import PyStr PyStrFacts M_constants M_options M_sections Spec_sections Spec_section_options.
Import ListNotations.
Open Scope N_scope.

Lemma table_some n o : SECTION_OPTIONS n = Some o <-> In (n, o) options_table.
Proof.
  split.
  - unfold SECTION_OPTIONS. repeat (match goal with |- context [if str_eqb ?a ?b then _ else _] => destruct (str_eqb a b) eqn:? end;
      [match goal with H : str_eqb _ _ = true |- _ => apply str_eqb_eq in H; subst end; intros X; injection X as <-; cbn; tauto|]).
    destruct (str_in n SCRIPT_SECTIONS) eqn:S; [|discriminate]. intros X. injection X as <-. unfold str_in in S. apply existsb_exists in S as (m & I & Q). apply str_eqb_eq in Q. subst m.
    unfold SCRIPT_SECTIONS in I. cbn [map In] in I. repeat destruct I as [<-|I]; try (cbn; tauto).
  - intros I. unfold options_table in I. cbn [map In fst snd] in I. repeat (destruct I as [I|I]; [injection I as <- <-; vm_compute; reflexivity|]). destruct I.
Qed.
Section Uni.
Context {U : Unicode}.
Theorem section_options_table name delimiter separator data s : make_section name None delimiter separator data = Ok s ->
  (forall o, In (lower name, o) options_table -> o_optstring (s_opts s) = o) /\ ((forall o, ~ In (lower name, o) options_table) -> o_optstring (s_opts s) = []).
Proof.
  unfold make_section. destruct (str_in (lower name) SECTION_NAMES); [|discriminate]. intros E. injection E as <-. cbn [s_opts o_optstring]. unfold section_options. split.
  - intros o I. apply table_some in I. rewrite I. reflexivity.
  - intros N. destruct (SECTION_OPTIONS (lower name)) as [o|] eqn:S; [|reflexivity]. exfalso. apply table_some in S. apply (N o S).
Qed.
Theorem section_options_parsed E b s : Spec_sections.made_from E b s ->
  (forall o, In (lower (s_name s), o) options_table -> o_optstring (s_opts s) = o) /\ ((forall o, ~ In (lower (s_name s), o) options_table) -> o_optstring (s_opts s) = []).
Proof.
  intros (delim & text & tail & _ & _ & _ & _ & _ & O & _). rewrite O. unfold section_options. split.
  - intros o I. apply table_some in I. rewrite I. reflexivity.
  - intros N. destruct (SECTION_OPTIONS (lower (s_name s))) as [o|] eqn:S; [|reflexivity]. exfalso. apply table_some in S. apply (N o S).
Qed.
End Uni.
