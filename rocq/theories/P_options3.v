(** Proofs about editing options and positional arguments. *)
From Coq Require Import Ascii String.
From Coq Require Import NArith ZArith List Bool Lia.
From Verif Require Import PyStr PyStrFacts M_options Spec_options P_options2.
Import ListNotations.
Open Scope N_scope.

Lemma set_lookup c a its its' : item_set c a its its' -> lookup_opt c its' = Some a.
Proof.
  destruct 1; rewrite lookup_app; cbn; rewrite ?H, N.eqb_refl; auto.
Qed.
Lemma set_lookup_other c a its its' d : item_set c a its its' -> d <> c -> lookup_opt d its' = lookup_opt d its.
Proof.
  intros S N. assert (E : (c =? d) = false) by (apply N.eqb_neq; congruence).
  destruct S; rewrite !lookup_app; cbn; rewrite E; auto.
Qed.
Lemma set_positionals c a its its' : item_set c a its its' -> positionals its' = positionals its.
Proof. destruct 1; rewrite !positionals_app; cbn; rewrite ?app_nil_r; auto. Qed.

Lemma dec_not_dashed n : ~ dashed (dec n).
Proof.
  intros [v E]. pose proof (dec_digits n) as D. rewrite E in D. discriminate.
Qed.
Lemma zdec_dec z : (0 <= z)%Z -> zdec z = dec (Z.to_N z).
Proof. destruct z; cbn; auto. lia. Qed.
Lemma digit_not_space c : ascii_digit c = true -> in_string_whitespace c = false.
Proof.
  intros D. unfold in_string_whitespace. unfold ascii_digit in D. apply andb_true_iff in D as [D1 D2]. apply N.leb_le in D1, D2.
  repeat match goal with |- context [?a =? ?b] => destruct (N.eqb_spec a b); [subst; lia|] end; auto.
  all: repeat match goal with |- context [?a <=? ?b] => destruct (N.leb_spec a b) end; try lia; auto.
Qed.
Lemma dec_plain n : existsb in_string_whitespace (dec n) = false.
Proof.
  pose proof (dec_digits n) as D. induction (dec n) as [|c s IH]; auto. cbn [forallb existsb] in *. apply andb_true_iff in D as [D1 D2].
  rewrite digit_not_space by auto. cbn. auto.
Qed.

Lemma update_at_mid1 {A} (f : A -> A) a x y b : update_at (length a + 1) f (a ++ x :: y :: b) = a ++ x :: f y :: b.
Proof.
  replace (a ++ x :: y :: b) with ((a ++ [x]) ++ y :: b) by now rewrite <- app_assoc.
  replace (length a + 1)%nat with (length (a ++ [x])) by now rewrite app_length.
  rewrite update_at_app, <- app_assoc. reflexivity.
Qed.
Lemma update_at_mid2 {A} (f : A -> A) a x y z b : update_at (length a + 2) f (a ++ x :: y :: z :: b) = a ++ x :: y :: f z :: b.
Proof.
  replace (a ++ x :: y :: z :: b) with ((a ++ [x; y]) ++ z :: b) by now rewrite <- app_assoc.
  replace (length a + 2)%nat with (length (a ++ [x; y])) by now rewrite app_length.
  rewrite update_at_app, <- app_assoc. reflexivity.
Qed.
Lemma insert_at_mid {A} (a : list A) x b : insert_at (length a) x (a ++ b) = a ++ x :: b.
Proof.
  unfold insert_at. rewrite firstn_app, skipn_app, Nat.sub_diag, firstn_all, skipn_all. cbn. now rewrite app_nil_r.
Qed.
Lemma insert_at_mid1 {A} (a : list A) x y b : insert_at (S (length a)) x (a ++ y :: b) = a ++ y :: x :: b.
Proof.
  replace (a ++ y :: b) with ((a ++ [y]) ++ b) by now rewrite <- app_assoc.
  replace (S (length a)) with (length (a ++ [y])) by (rewrite app_length; cbn; lia).
  rewrite insert_at_mid, <- app_assoc. reflexivity.
Qed.

(** A value with an argument, as in [settable]. *)
Definition text_value (v : oval) : Prop :=
  match v with VInt z => (0 <= z)%Z | VStr s => s <> [] /\ ~ dashed s | _ => False end.
Lemma text_value_str v : text_value v -> oval_str v <> [] /\ ~ dashed (oval_str v).
Proof.
  destruct v as [|b|z|s]; cbn; try tauto. intros E. rewrite zdec_dec by auto. split; [apply dec_nonempty|apply dec_not_dashed].
Qed.

Section Uni.
Context {U : Unicode}.
Theorem opt_set_spec os ds l its c v : cmdline os l its -> known os c -> settable os c v ->
  (v = VBool true -> lookup_opt c its = None) ->
  exists l' its', opt_set (mk_opts l os ds) c v = Ok (mk_opts l' os ds) /\ item_set c (arg_of v) its its' /\ cmdline os l' its'.
Proof.
  intros C K St Fl. unfold opt_set. unfold requires_argument. cbn [o_optstring o_tokens].
  assert (Sp : forall l its, cmdline os l its -> forall x i, cmdline os x i -> cmdline os ((match l with [] => [] | _ => l ++ [space_token] end) ++ x) (its ++ i)).
  { intros l0 its0 C0 x i Cx. destruct l0 as [|t l0]; [now apply (cmdline_app os [])|]. rewrite <- app_assoc. apply cmdline_app; auto.
    apply (L_space os space_token); auto. }
  assert (Nw : text_type v <> WHITESPACE) by (unfold text_type; destruct (needs_quoting v); discriminate).
  destruct v as [|b|z|s]; cbn [settable] in St; [destruct St| | |].
  - destruct St as [-> Nt]. specialize (Fl eq_refl). pose proof Nt as Nt'. apply not_takes in Nt'. rewrite Nt'. cbn [andb negb].
    rewrite (find_absent os ds l its c C Fl). eexists _, (its ++ [IOpt c None]). split; [reflexivity|].
    split; [now apply S_append|]. cbn [o_tokens with_tokens]. apply Sp; auto. apply L_flag; auto using cmdline; discriminate.
  - destruct St as [Hz Ta]. pose proof Ta as Ta'. apply takes_req in Ta'. rewrite Ta'. cbn [andb negb].
    assert (Tv : text_value (VInt z)) by auto. destruct (text_value_str _ Tv) as [V1 V2].
    assert (Nq : needs_quoting (VInt z) = false) by (unfold needs_quoting; cbn; rewrite zdec_dec by auto; apply dec_plain).
    destruct (lookup_opt c its) as [arg|] eqn:L.
    + destruct (locate os l its c arg C L) as (pre & m & post & i1 & i2 & -> & Sh & C1 & C2 & -> & N).
      rewrite (find_present os ds pre m post c arg i2 Sh C2 N). rewrite Nq. cbn [arg_of]. 
      destruct Sh as [t Tt Vt Nt|t v Tt Vt Nv|t a Tt Vt Kd Td Ta2 Va Na|t w a Tt Vt Kd Td Tw Sw Ta2 Va Na]; cbn [app length pred]; [tauto| | |].
      * rewrite Nat.add_0_r, Nat.ltb_irrefl, update_at_app. eexists _, _. split; [reflexivity|]. split; [now apply S_replace|].
        cbn [with_tokens o_tokens]. apply cmdline_app; auto. apply L_attached; auto. cbn [set_value t_value]. rewrite Vt. reflexivity.
      * assert ((length pre <? length pre + 1)%nat = true) as -> by (apply Nat.ltb_lt; lia). rewrite update_at_mid1.
        eexists _, _. split; [reflexivity|]. split; [now apply S_replace|]. apply cmdline_app; auto.
        apply (L_adjacent os t c (mk_token DEFAULT (oval_str (VInt z)))); auto. discriminate.
      * assert ((length pre <? length pre + 2)%nat = true) as -> by (apply Nat.ltb_lt; lia). rewrite update_at_mid2.
        eexists _, _. split; [reflexivity|]. split; [now apply S_replace|]. apply cmdline_app; auto.
        apply (L_separate os t c w (mk_token DEFAULT (oval_str (VInt z)))); auto. discriminate.
    + rewrite (find_absent os ds l its c C L). eexists _, (its ++ [IOpt c (Some (zdec z))]). split; [reflexivity|].
      split; [now apply S_append|]. cbn [o_tokens with_tokens]. apply Sp; auto. apply L_attached; auto using cmdline; discriminate.
  - destruct St as [V1 [V2 Ta]]. pose proof Ta as Ta'. apply takes_req in Ta'. rewrite Ta'. cbn [andb negb].
    destruct (lookup_opt c its) as [arg|] eqn:L.
    + destruct (locate os l its c arg C L) as (pre & m & post & i1 & i2 & -> & Sh & C1 & C2 & -> & N).
      rewrite (find_present os ds pre m post c arg i2 Sh C2 N). cbn [arg_of oval_str]. 
      destruct Sh as [t Tt Vt Nt|t v Tt Vt Nv|t a Tt Vt Kd Td Ta2 Va Na|t w a Tt Vt Kd Td Tw Sw Ta2 Va Na]; cbn [app length pred]; [tauto| | |].
      * rewrite Nat.add_0_r, Nat.ltb_irrefl. rewrite !update_at_app. destruct (needs_quoting (VStr s)) eqn:Nq.
        -- rewrite insert_at_mid1, insert_at_mid1. eexists _, _. split; [reflexivity|]. split; [now apply S_replace|].
           cbn [with_tokens o_tokens]. apply cmdline_app; auto.
           apply (L_separate os _ c space_token (mk_token DOUBLE_QUOTED s)); auto; [|discriminate]. cbn [set_value t_value]. rewrite Vt. reflexivity.
        -- eexists _, _. split; [reflexivity|]. split; [now apply S_replace|].
           cbn [with_tokens o_tokens]. apply cmdline_app; auto. apply L_attached; auto. cbn [set_value t_value]. rewrite Vt. reflexivity.
      * assert ((length pre <? length pre + 1)%nat = true) as -> by (apply Nat.ltb_lt; lia). rewrite update_at_mid1.
        eexists _, _. split; [reflexivity|]. split; [now apply S_replace|]. apply cmdline_app; auto.
        match goal with |- cmdline _ (t :: ?x :: _) _ => apply (L_adjacent os t c x) end; auto. cbn [t_type]. destruct (needs_quoting (VStr s)), (t_type a); discriminate.
      * assert ((length pre <? length pre + 2)%nat = true) as -> by (apply Nat.ltb_lt; lia). rewrite update_at_mid2.
        eexists _, _. split; [reflexivity|]. split; [now apply S_replace|]. apply cmdline_app; auto.
        match goal with |- cmdline _ (t :: w :: ?x :: _) _ => apply (L_separate os t c w x) end; auto. cbn [t_type]. destruct (needs_quoting (VStr s)), (t_type a); discriminate.
    + rewrite (find_absent os ds l its c C L). eexists _, (its ++ [IOpt c (Some s)]). split; [reflexivity|].
      split; [now apply S_append|]. cbn [o_tokens with_tokens]. apply Sp; auto.
      apply (L_separate os (mk_token DEFAULT [DASH; c]) c space_token (mk_token (text_type (VStr s)) s)); auto using cmdline; discriminate.
Qed.

(** Reading back. *)
Definition reads_back (v : oval) : Prop := match v with VStr s => str_isnumeric s = false | _ => True end.
Lemma numeric_dec n : str_isnumeric (dec n) = true.
Proof.
  pose proof (dec_nonempty n) as N. pose proof (dec_is_digits n) as D. unfold str_isnumeric. destruct (dec n); [congruence|].
  rewrite forallb_forall in *. intros x Hx. unfold is_numeric. now rewrite (D x Hx).
Qed.
Lemma readback v : text_value v -> reads_back v -> number_or_text (oval_str v) = Ok v.
Proof.
  destruct v as [|b|z|s]; cbn [text_value reads_back oval_str]; try tauto.
  - intros Hz _. unfold number_or_text. rewrite zdec_dec by auto. rewrite numeric_dec, int_of_dec. now rewrite Z2N.id.
  - intros _ E. unfold number_or_text. now rewrite E.
Qed.
Theorem set_then_get os ds l its c v : cmdline os l its -> known os c -> settable os c v -> reads_back v ->
  (v = VBool true -> lookup_opt c its = None) ->
  exists o', opt_set (mk_opts l os ds) c v = Ok o' /\ opt_get o' c = Ok v /\
    (forall d, d <> c -> opt_get o' d = opt_get (mk_opts l os ds) d) /\ pos_list o' = pos_list (mk_opts l os ds).
Proof.
  intros C K St R Fl. destruct (opt_set_spec os ds l its c v C K St Fl) as (l' & its' & E & Si & C').
  exists (mk_opts l' os ds). split; auto. split; [|split].
  - rewrite (opt_get_spec os ds l' its' c C'). unfold get_meaning. rewrite (set_lookup _ _ _ _ Si).
    destruct v as [|b|z|s]; cbn [arg_of settable] in *; try tauto.
    + destruct St as [-> _]. reflexivity.
    + apply (readback (VInt z)); tauto.
    + apply (readback (VStr s)); cbn; tauto.
  - intros d Nd. rewrite (opt_get_spec os ds l' its' d C'), (opt_get_spec os ds l its d C). unfold get_meaning.
    now rewrite (set_lookup_other _ _ _ _ d Si Nd).
  - rewrite (positionals_spec os ds l' its' C'), (positionals_spec os ds l its C). apply (set_positionals _ _ _ _ Si).
Qed.

(** Deleting an option that has an argument. *)
Lemma del_range_mid {A} (a x b : list A) n : length x = S n -> del_range (a ++ x ++ b) (length a) (length a + n) = a ++ b.
Proof.
  intros L. unfold del_range. rewrite firstn_app, Nat.sub_diag, firstn_all. cbn [firstn]. rewrite app_nil_r. f_equal.
  rewrite app_assoc. replace (S (length a + n))%nat with (length (a ++ x)) by (rewrite app_length; lia).
  now rewrite skipn_app, Nat.sub_diag, skipn_all.
Qed.
Lemma unsnoc {A} (l : list A) : l = [] \/ exists l' x, l = l' ++ [x].
Proof. destruct l as [|a l] using rev_ind; eauto. Qed.
Lemma shape_length os c m v : shape os c m (Some v) -> exists t m', m = t :: m' /\ length m = S (length m').
Proof. inversion 1; subst; eauto. Qed.

Theorem opt_del_spec os ds l its c v : cmdline os l its -> lookup_opt c its = Some (Some v) ->
  exists a x b i1 i2 w, l = a ++ x ++ b /\ opt_del (mk_opts l os ds) c = mk_opts (a ++ b) os ds /\
    its = i1 ++ IOpt c (Some v) :: i2 /\ lookup_opt c i2 = None /\ cmdline os (a ++ b) (i1 ++ i2) /\
    (exists m, shape os c m (Some v) /\ (x = m \/ x = w :: m \/ (a = [] /\ x = m ++ [w]))) /\ t_type w = WHITESPACE.
Proof.
  intros C L. destruct (locate os l its c (Some v) C L) as (pre & m & post & i1 & i2 & -> & Sh & C1 & C2 & -> & N).
  unfold opt_del. rewrite (find_present os ds pre m post c (Some v) i2 Sh C2 N). cbn [o_tokens].
  destruct (shape_length os c m v Sh) as (t & m' & Em & Lm). 
  assert (T : exists w, t_type w = WHITESPACE) by (now exists space_token). destruct T as [w0 Tw0].
  destruct (unsnoc pre) as [->|(pre' & w & ->)].
  - cbn [length app plus]. rewrite Lm. cbn [pred].
    destruct post as [|p post].
    + rewrite app_nil_r. rewrite Lm. rewrite Nat.ltb_irrefl. cbn [andb].
      exists [], m, [], i1, i2, w0. rewrite !app_nil_r. split; auto. split; [|split; [|split; [|split; [|split]]]]; auto.
      * rewrite Em. destruct m' as [|y m']; [reflexivity|]. assert ((0 <? length (y :: m'))%nat = true) as -> by reflexivity.
        pose proof (del_range_mid (@nil token) (t :: y :: m') [] (length (y :: m')) eq_refl) as D. cbn [app length plus] in D. rewrite app_nil_r in D.
        unfold with_tokens. cbn [length]. rewrite D. reflexivity.
      * apply (cmdline_app os [] [] i1 i2); auto.
      * exists m. auto.
    + assert ((S (length m') <? length (m ++ p :: post))%nat = true) as -> by (apply Nat.ltb_lt; rewrite app_length, Lm; cbn; lia).
      replace (S (length m')) with (length m). rewrite tok_at_mid. destruct (is_ws p) eqn:Wp; cbn [andb].
      * exists [], (m ++ [p]), post, i1, i2, p. split; [now rewrite <- app_assoc|].
        apply is_ws_true in Wp.
        assert (C2' : cmdline os post i2) by (inversion C2; subst; congruence || auto).
        split; [|split; [|split; [|split; [|split]]]]; auto.
        -- rewrite Lm at 1. cbn [Nat.ltb Nat.leb]. change (p :: post) with ([p] ++ post). rewrite app_assoc.
           pose proof (del_range_mid (@nil token) (m ++ [p]) post (length m) ltac:(rewrite app_length; cbn; lia)) as D. cbn [app length plus] in D.
           now rewrite D.
        -- inversion C1; subst. exact C2'.
        -- exists m. auto.
      * exists [], m, (p :: post), i1, i2, w0. split; auto. split; [|split; [|split; [|split; [|split]]]]; auto.
        -- rewrite Em. cbn [app]. destruct m' as [|y m']; [reflexivity|]. assert ((0 <? length (y :: m'))%nat = true) as -> by reflexivity.
           pose proof (del_range_mid (@nil token) (t :: y :: m') (p :: post) (length (y :: m')) eq_refl) as D. cbn [app length plus] in D.
           unfold with_tokens. cbn [length app]. rewrite D. reflexivity.
        -- inversion C1; subst. exact C2.
        -- exists m. auto.
  - rewrite app_length. cbn [length]. rewrite Nat.add_1_r.
    replace ((pre' ++ [w]) ++ m ++ post) with (pre' ++ w :: m ++ post) by now rewrite <- app_assoc. rewrite tok_at_mid.
    destruct (is_ws w) eqn:Ww.
    + exists pre', (w :: m), post, i1, i2, w. split; auto. apply is_ws_true in Ww.
      split; [|split; [|split; [|split; [|split]]]]; auto.
      * assert ((length pre' <? S (length pre') + pred (length m))%nat = true) as -> by (apply Nat.ltb_lt; lia).
        pose proof (del_range_mid pre' (w :: m) post (length m) eq_refl) as D. cbn [app] in D.
        replace (S (length pre') + pred (length m))%nat with (length pre' + length m)%nat by lia. now rewrite D.
      * apply cmdline_app; auto. clear -C1 Ww. 
        assert (G : forall l its, cmdline os l its -> forall a, l = a ++ [w] -> cmdline os a its).
        { induction 1 as [|w' l its Tw Sw C IH|t l its Tt Nd C IH|t d l its Tt Vt Nt C IH|t d v l its Tt Vt Nv C IH
            |t d a l its Tt Vt Kd Td Ta Va Na C IH|t d w' a l its Tt Vt Kd Td Tw Sw Ta Va Na C IH]; intros a0 E.
          - destruct a0; discriminate.
          - destruct a0 as [|y a0]; injection E as -> E; [subst; exact C|]. apply L_space; auto.
          - destruct a0 as [|y a0]; injection E as -> E; [congruence|]. apply L_positional; auto.
          - destruct a0 as [|y a0]; injection E as -> E; [congruence|]. apply L_flag; auto.
          - destruct a0 as [|y a0]; injection E as -> E; [congruence|]. apply L_attached; auto.
          - destruct a0 as [|y [|y2 a0]]; cbn [app] in E; inversion E; subst; try congruence. apply L_adjacent; auto.
          - destruct a0 as [|y [|y2 [|y3 a0]]]; cbn [app] in E; inversion E; subst; try congruence. apply L_separate; auto. }
        eapply G; eauto.
      * exists m. auto.
    + exists (pre' ++ [w]), m, post, i1, i2, w0. rewrite <- !app_assoc. split; auto. split; [|split; [|split; [|split; [|split]]]]; auto.
      * replace (pre' ++ w :: m ++ post) with ((pre' ++ [w]) ++ m ++ post) by now rewrite <- app_assoc.
        replace (S (length pre')) with (length (pre' ++ [w])) by (rewrite app_length; cbn; lia).
        rewrite Em. cbn [length pred]. destruct m' as [|y m'].
        -- cbn [length]. rewrite Nat.add_0_r, Nat.ltb_irrefl. cbn [app]. rewrite remove_at_app. unfold with_tokens. cbn. now rewrite <- app_assoc.
        -- assert ((length (pre' ++ [w]) <? length (pre' ++ [w]) + length (y :: m'))%nat = true) as -> by (apply Nat.ltb_lt; cbn; lia).
           rewrite del_range_mid by reflexivity. unfold with_tokens. cbn. now rewrite <- app_assoc.
      * rewrite app_assoc. apply cmdline_app; auto.
      * exists m. auto.
Qed.
Theorem del_then_get os ds l its c v : cmdline os l its -> lookup_opt c its = Some (Some v) ->
  let o := mk_opts l os ds in let o' := opt_del o c in
  (forall d, d <> c -> opt_get o' d = opt_get o d) /\ pos_list o' = pos_list o /\
  exists i1 i2, its = i1 ++ IOpt c (Some v) :: i2 /\ lookup_opt c i2 = None /\ cmdline os (o_tokens o') (i1 ++ i2).
Proof.
  intros C L o o'. destruct (opt_del_spec os ds l its c v C L) as (a & x & b & i1 & i2 & w & El & Ed & Ei & Ln & C' & _).
  unfold o', o. rewrite Ed. split; [|split].
  - intros d Nd. rewrite (opt_get_spec os ds _ _ d C'), (opt_get_spec os ds _ _ d C). unfold get_meaning. rewrite Ei.
    rewrite !lookup_app. cbn. assert ((c =? d) = false) as -> by (apply N.eqb_neq; congruence). destruct (lookup_opt d i2); auto.
  - rewrite (positionals_spec os ds _ _ C'), (positionals_spec os ds _ _ C), Ei, !positionals_app. reflexivity.
  - exists i1, i2. auto.
Qed.
End Uni.
