(** Options, %prep macros and sources that compare equal. *)
From Coq Require Import Ascii String.
From Coq Require Import NArith ZArith List Bool Lia.
From Verif Require Import PyStr PyStrFacts M_value M_tags M_sourcelist M_sources M_prep M_options M_options2 Spec_options Spec_options2 P_options2 P_options3 P_options4 P_options6 M_equality Spec_equality.
From Verif Require M_changelog M_inherited Spec_inherited P_inherited.
Import ListNotations.
Open Scope N_scope.

Lemma oval_eqb_same a b : oval_eqb a b = true <-> same_value a b.
Proof.
  split.
  - unfold oval_eqb. destruct a as [|x|x|x], b as [|y|y|y]; cbn [as_number]; try discriminate.
    + constructor.
    + destruct x, y; try discriminate; constructor.
    + destruct x; intros H; apply Z.eqb_eq in H; subst; constructor.
    + destruct y; intros H; apply Z.eqb_eq in H; subst; constructor.
    + intros H; apply Z.eqb_eq in H; subst; constructor.
    + rewrite str_eqb_eq. intros ->. constructor.
  - destruct 1; cbn; rewrite ?str_eqb_refl, ?Z.eqb_refl; auto.
Qed.

Section Uni.
Context {U : Unicode}.
Lemma read_all_keys o l d : read_all o l = Ok d -> map fst d = l /\ forall c, In c l -> exists v, lookup c d = Some v /\ opt_get o c = Ok v.
Proof.
  revert d. induction l as [|c l IH]; intros d; cbn [read_all]; [intros [= <-]; split; [reflexivity|intros c []]|].
  destruct (opt_get o c) as [v|] eqn:G; cbn [bind]; [|discriminate]. destruct (read_all o l) as [r|]; cbn [bind]; [|discriminate]. intros [= <-].
  destruct (IH r eq_refl) as [K L]. split; [cbn; now rewrite K|]. intros e [<-|I].
  - exists v. split; auto. unfold lookup. cbn. now rewrite N.eqb_refl.
  - unfold lookup. cbn. destruct (N.eqb_spec c e) as [->|N]; [now exists v|]. now apply L.
Qed.
Lemma lookup_none c (d : list (char * oval)) : ~ In c (map fst d) -> lookup c d = None.
Proof. unfold lookup. induction d as [|[k v] d IH]; intros N; auto. cbn in *. destruct (N.eqb_spec k c); [tauto|]. apply IH. tauto. Qed.
Lemma read_all_ok o l : (forall c, In c l -> exists v, opt_get o c = Ok v) -> exists d, read_all o l = Ok d.
Proof.
  induction l as [|c l IH]; intros H; [now exists []|]. cbn [read_all]. destruct (H c (or_introl eq_refl)) as [v ->]. cbn [bind].
  destruct (IH (fun c I => H c (or_intror I))) as [d ->]. cbn. now eexists.
Qed.
Lemma covered_iff o o' l l' d d' : read_all o l = Ok d -> read_all o' l' = Ok d' ->
  covered d d' = true <-> forall c, In c l -> In c l' /\ exists v w, opt_get o c = Ok v /\ opt_get o' c = Ok w /\ same_value v w.
Proof.
  intros R R'. destruct (read_all_keys _ _ _ R) as [K L]. destruct (read_all_keys _ _ _ R') as [K' L']. unfold covered. rewrite forallb_forall. split.
  - intros H c I. destruct (L c I) as (v & Lv & Gv). assert (P : In c (map fst d)) by now rewrite K. apply in_map_iff in P as ([k u] & E & I'). cbn in E. subst k.
    specialize (H _ I'). cbn [fst] in H. rewrite Lv in H. destruct (lookup c d') as [w|] eqn:Lw; [|discriminate].
    assert (I2 : In c l'). { rewrite <- K'. destruct (in_dec N.eq_dec c (map fst d')) as [?|N]; auto. now rewrite (lookup_none _ _ N) in Lw. }
    split; auto. destruct (L' c I2) as (w' & Lw' & Gw). rewrite Lw in Lw'. injection Lw' as <-. exists v, w. repeat split; auto. now apply oval_eqb_same.
  - intros H [k u] I. cbn [fst]. assert (Ik : In k l) by (rewrite <- K; apply in_map_iff; now exists (k, u)).
    destruct (H k Ik) as (I2 & v & w & Gv & Gw & S). destruct (L k Ik) as (v' & -> & Gv'). destruct (L' k I2) as (w' & -> & Gw'). replace v' with v by congruence. replace w' with w by congruence. now apply oval_eqb_same.
Qed.
Lemma same_value_sym a b : same_value a b -> same_value b a. Proof. destruct 1; constructor. Qed.
Lemma in_iter os ds l its c : cmdline os l its -> In c (opt_iter (mk_opts l os ds)) <-> known os c /\ lookup_opt c its <> None.
Proof.
  intros C. rewrite (iter_spec os ds l its C), filter_In, <- known_letters. unfold mentioned. destruct (lookup_opt c its); split; intros [K M]; split; auto; discriminate || congruence.
Qed.
Lemma get_occurrence os ds l its c a : cmdline os l its -> lookup_opt c its = Some a -> opt_get (mk_opts l os ds) c = occurrence a.
Proof. intros C L. rewrite (opt_get_spec os ds l its c C). unfold get_meaning, occurrence. now rewrite L. Qed.
Lemma items_ok os ds l its : cmdline os l its -> arguments_ok its -> exists d, opt_items (mk_opts l os ds) = Ok d.
Proof.
  intros C A. apply read_all_ok. intros c I. apply (in_iter os ds l its c C) in I as [K M]. destruct (lookup_opt c its) as [a|] eqn:L; [|congruence].
  rewrite (get_occurrence os ds l its c a C L). destruct a as [v|]; [|now eexists]. destruct (A c v (lookup_in _ _ _ L)) as [x E]. now exists x.
Qed.
(** Equality of options is about the options and their values only. *)
Theorem options_eq_spec os ds ds' l l' its its' : cmdline os l its -> cmdline os l' its' -> arguments_ok its -> arguments_ok its' ->
  exists b, options_eq (mk_opts l os ds) (mk_opts l' os ds') = Ok b /\ (b = true <-> same_options os its its').
Proof.
  intros C C' A A'. destruct (items_ok os ds l its C A) as [d D]. destruct (items_ok os ds' l' its' C' A') as [d' D']. unfold options_eq. rewrite D, D'. cbn [bind].
  eexists. split; [reflexivity|]. unfold dict_eqb. rewrite andb_true_iff. unfold opt_items in D, D'. rewrite (covered_iff _ _ _ _ _ _ D D'), (covered_iff _ _ _ _ _ _ D' D). split.
  - intros [H H'] c K. specialize (H c). specialize (H' c). rewrite (in_iter os ds l its c C), (in_iter os ds' l' its' c C') in H. rewrite (in_iter os ds l its c C), (in_iter os ds' l' its' c C') in H'.
    destruct (lookup_opt c its) as [a|] eqn:L, (lookup_opt c its') as [b|] eqn:L'; [| | |exact I].
    + assert (N0 : Some a <> None) by discriminate. destruct (H (conj K N0)) as (_ & v & w & Gv & Gw & S). rewrite (get_occurrence os ds l its c a C L) in Gv. rewrite (get_occurrence os ds' l' its' c b C' L') in Gw. exists v, w. exact (conj Gv (conj Gw S)).
    + assert (N0 : Some a <> None) by discriminate. destruct (H (conj K N0)) as ((_ & N) & _). exact (N eq_refl).
    + assert (N0 : Some b <> None) by discriminate. destruct (H' (conj K N0)) as ((_ & N) & _). exact (N eq_refl).
  - intros H. split; intros c I.
    + apply (in_iter os ds l its c C) in I as [K M]. rewrite (in_iter os ds' l' its' c C'). specialize (H c K).
      destruct (lookup_opt c its) as [a|] eqn:L; [|congruence]. destruct (lookup_opt c its') as [b|] eqn:L'; [|contradiction]. destruct H as (v & w & Gv & Gw & S).
      split; [split; [auto|discriminate]|]. exists v, w. rewrite (get_occurrence os ds l its c a C L), (get_occurrence os ds' l' its' c b C' L'). auto.
    + apply (in_iter os ds' l' its' c C') in I as [K M]. rewrite (in_iter os ds l its c C). specialize (H c K).
      destruct (lookup_opt c its') as [b|] eqn:L'; [|congruence]. destruct (lookup_opt c its) as [a|] eqn:L; [|contradiction]. destruct H as (v & w & Gv & Gw & S).
      split; [split; [auto|discriminate]|]. exists w, v. rewrite (get_occurrence os ds l its c a C L), (get_occurrence os ds' l' its' c b C' L'). split; [|split]; auto. now apply same_value_sym.
Qed.
Lemma same_value_refl v : same_value v v. Proof. destruct v; constructor. Qed.
(** So positional arguments do not matter. *)
Theorem positionals_ignored os ds ds' l l' its its' : cmdline os l its -> cmdline os l' its' -> arguments_ok its -> only_options its = only_options its' ->
  options_eq (mk_opts l os ds) (mk_opts l' os ds') = Ok true.
Proof.
  intros C C' A E.
  assert (L : forall c, lookup_opt c its = lookup_opt c its') by (intros c; rewrite <- (only_lookup c its), <- (only_lookup c its'); now rewrite E).
  assert (A' : arguments_ok its').
  { intros c v I. apply (A c v). assert (J : In (IOpt c (Some v)) (only_options its')) by (apply filter_In; auto). rewrite <- E in J. now apply filter_In in J. }
  destruct (options_eq_spec os ds ds' l l' its its' C C' A A') as (b & -> & B). f_equal. apply B. intros c K. rewrite <- L. destruct (lookup_opt c its) as [a|] eqn:La; auto.
  destruct a as [v|]; [|exists (VBool true), (VBool true); repeat split; constructor]. destruct (A c v (lookup_in _ _ _ La)) as [x X]. exists x, x. repeat split; auto. apply same_value_refl.
Qed.
End Uni.
