(** Proofs about how values are quoted in options. *)
From Coq Require Import Ascii String.
From Coq Require Import NArith ZArith List Bool Lia.
From Verif Require Import PyStr PyStrFacts M_value M_options Spec_options Spec_quoting P_options P_options2 P_options3 P_options4.
Import ListNotations.
Open Scope N_scope.

Lemma escape_escaped (f : char -> bool) (p : char -> Prop) : (forall c, f c = true <-> p c) -> forall s, escaped p s (flat_map (fun c => if f c then [BSLASH; c] else [c]) s).
Proof.
  intros H s. induction s as [|c s IH]; cbn [flat_map]; [constructor|]. destruct (f c) eqn:E; cbn [app]; constructor; auto; [now apply H|]. intros Q. apply H in Q. congruence.
Qed.
Lemma blank_iff c : in_string_whitespace c = true <-> blank c.
Proof.
  unfold in_string_whitespace, blank. rewrite orb_true_iff, andb_true_iff, N.eqb_eq, !N.leb_le. unfold SPC, TAB, LF, CR. cbn [In]. lia.
Qed.
Lemma text_shown v : shown (oval_str v) (token_str (mk_token (text_type v) (oval_str v))).
Proof.
  unfold text_type, needs_quoting. destruct (existsb in_string_whitespace (oval_str v)) eqn:E; unfold token_str; cbn [t_type t_value].
  - left. split; [apply existsb_exists in E as (c & Hc & B); exists c; split; auto; now apply blank_iff|].
    eexists. split; [|reflexivity]. apply (escape_escaped (fun c => c =? DQUOTE)). intros c. apply N.eqb_eq.
  - right. split.
    + intros c Hc B. apply blank_iff in B. assert (Q : existsb in_string_whitespace (oval_str v) = true) by (apply existsb_exists; eauto). congruence.
    + apply (escape_escaped (fun c => is_quote c || is_space c)). intros c. unfold is_quote. rewrite !orb_true_iff, !N.eqb_eq. tauto.
Qed.
Lemma tokens_str_app a b : tokens_str (a ++ b) = tokens_str a ++ tokens_str b.
Proof. apply flat_map_app. Qed.
Definition apart (l : list token) : str := match l with [] => [] | _ => [SPC] end.
Theorem set_shown os ds l its c s : cmdline os l its -> takes_argument os c -> lookup_opt c its = None ->
  exists o' t, opt_set (mk_opts l os ds) c (VStr s) = Ok o' /\ shown s t /\
    tokens_str (o_tokens o') = tokens_str l ++ apart l ++ token_str (mk_token DEFAULT [DASH; c]) ++ SPC :: t.
Proof.
  intros C Ta L. unfold opt_set, requires_argument. cbn [o_optstring o_tokens]. apply takes_req in Ta. rewrite Ta. cbn [andb negb]. rewrite (find_absent os ds l its c C L).
  eexists _, _. split; [reflexivity|]. split; [apply (text_shown (VStr s))|]. cbn [with_tokens o_tokens]. rewrite tokens_str_app. cbn [oval_str].
  destruct l as [|x l]; cbn [apart]; [cbn [tokens_str flat_map app]|rewrite tokens_str_app, <- app_assoc; f_equal]; unfold tokens_str; cbn [flat_map]; rewrite ?app_nil_r; reflexivity.
Qed.
Theorem append_shown os ds l its i v : cmdline os l its -> (Z.of_nat (length (positionals its)) <= i)%Z ->
  exists o' t, pos_insert (mk_opts l os ds) i v = Ok o' /\ shown (oval_str v) t /\ tokens_str (o_tokens o') = tokens_str l ++ apart l ++ t.
Proof.
  intros C Hi. unfold pos_insert. cbn [o_tokens]. assert (Li : length (get_items (mk_opts l os ds)) = length (positionals its)) by apply (items_length os ds l l its C). rewrite Li.
  assert (A : forall x, insert_at (length l) x l = l ++ [x]) by (intros x; rewrite <- (app_nil_r l) at 2; apply insert_at_mid).
  match goal with |- exists _ _, bind ?e _ = _ /\ _ => assert (E : e = Ok (length l)) end.
  { destruct (get_items (mk_opts l os ds)); auto. match goal with |- (if ?b then _ else _) = _ => assert (b = false) as -> end; auto. apply Z.ltb_ge. destruct (Z.of_nat (length (positionals its)) <? i)%Z eqn:Q; lia. }
  rewrite E. cbn [bind]. rewrite A. eexists _, _. split; [reflexivity|]. split; [apply text_shown|]. cbn [with_tokens o_tokens].
  destruct l as [|x l]; [unfold tokens_str; cbn [length Nat.ltb Nat.leb flat_map app apart]; apply app_nil_r|]. cbn [length Nat.ltb Nat.leb]. change (S (length l)) with (length (x :: l)). rewrite insert_at_mid, tokens_str_app. f_equal. unfold tokens_str. cbn [flat_map apart app]. rewrite app_nil_r. reflexivity.
Qed.
Lemma escaped_one p s : forall t t', escaped p s t -> escaped p s t' -> t = t'.
Proof.
  induction s as [|c s IH]; intros t t' H H'; inversion H; inversion H'; subst; auto; try contradiction; f_equal; auto. f_equal. auto.
Qed.
Theorem shown_one s t t' : shown s t -> shown s t' -> t = t'.
Proof.
  intros [[(c & Hc & B) (x & E & ->)]|[N E]] [[(c' & Hc' & B') (x' & E' & ->)]|[N' E']].
  - f_equal. f_equal. apply (escaped_one _ _ _ _ E E').
  - exfalso. apply (N' c Hc B).
  - exfalso. apply (N c' Hc' B').
  - apply (escaped_one _ _ _ _ E E').
Qed.
