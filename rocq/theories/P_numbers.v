(** Proofs about options that are set to numbers. *)
From Coq Require Import Ascii String.
From Coq Require Import NArith ZArith List Bool Lia.
From Verif Require Import PyStr PyStrFacts M_value M_options Spec_options P_options P_options2 P_options3 P_options4.
Import ListNotations.
Open Scope N_scope.

Section Uni.
Context {U : Unicode}.
Theorem number_text z : exists d, oval_str (VInt z) = (if (z <? 0)%Z then [DASH] else []) ++ d /\ d <> [] /\ Forall (fun c => 48 <= c <= 57) d /\ int_of_str d = Some (Z.abs_N z).
Proof.
  assert (D : forall n, dec n <> [] /\ Forall (fun c => 48 <= c <= 57) (dec n) /\ int_of_str (dec n) = Some n).
  { intros n. split; [apply dec_nonempty|]. split; [|apply int_of_dec]. pose proof (dec_digits n) as F. rewrite forallb_forall in F. apply Forall_forall. intros c I.
    specialize (F c I). unfold ascii_digit in F. apply andb_true_iff in F. rewrite !N.leb_le in F. exact F. }
  cbn [oval_str]. destruct z as [|p|p].
  - exists (dec 0). split; [reflexivity|apply D].
  - exists (dec (Npos p)). split; [reflexivity|apply D].
  - exists (dec (Npos p)). split; [reflexivity|apply D].
Qed.
Theorem negative_set os ds l its c z : cmdline os l its -> takes_argument os c -> lookup_opt c its = None -> (z < 0)%Z ->
  exists o', opt_set (mk_opts l os ds) c (VInt z) = Ok o' /\ opt_get o' c = Ok (VStr (oval_str (VInt z))).
Proof.
  intros C Ta L Z. unfold opt_set, requires_argument. cbn [o_optstring o_tokens]. pose proof Ta as Ta'. apply takes_req in Ta'. rewrite Ta'. cbn [andb negb]. rewrite (find_absent os ds l its c C L).
  eexists. split; [reflexivity|]. unfold with_tokens. cbn [o_tokens o_optstring o_defaults].
  set (t := mk_token DEFAULT (DASH :: c :: zdec z)).
  assert (N : zdec z <> []) by (destruct z; discriminate).
  assert (C' : cmdline os (match l with [] => [] | _ => l ++ [space_token] end ++ [t]) (its ++ [IOpt c (Some (zdec z))])).
  { assert (Ct : cmdline os [t] [IOpt c (Some (zdec z))]) by (apply L_attached; auto using cmdline; discriminate).
    destruct l as [|x l]; [now apply (cmdline_app os [])|]. rewrite <- app_assoc. apply cmdline_app; auto. apply (L_space os space_token); auto. }
  rewrite (opt_get_spec os ds _ _ c C'). unfold get_meaning.
  assert (Lk : lookup_opt c (its ++ [IOpt c (Some (zdec z))]) = Some (Some (zdec z))) by (eapply set_lookup; apply (S_append c (Some (zdec z)) its L)).
  rewrite Lk. destruct z as [|p|p]; try lia. cbn [zdec oval_str]. unfold number_or_text. reflexivity.
Qed.
End Uni.
