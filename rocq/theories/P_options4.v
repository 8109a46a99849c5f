(** Proofs about editing positional arguments. *)
From Coq Require Import Ascii String.
From Coq Require Import NArith ZArith List Bool Lia.
From Verif Require Import PyStr PyStrFacts M_options Spec_options P_options2 P_options3.
Import ListNotations.
Open Scope N_scope.

Lemma cmdline_unsnoc os w l its : cmdline os l its -> t_type w = WHITESPACE -> forall a, l = a ++ [w] -> cmdline os a its.
Proof.
  induction 1 as [|w' l its Tw Sw C IH|t l its Tt Nd C IH|t d l its Tt Vt Nt C IH|t d v l its Tt Vt Nv C IH
    |t d a l its Tt Vt Kd Td Ta Va Na C IH|t d w' a l its Tt Vt Kd Td Tw Sw Ta Va Na C IH]; intros Ww a0 E.
  - destruct a0; discriminate.
  - destruct a0 as [|y a0]; cbn [app] in E; inversion E; subst; [exact C|]. apply L_space; auto.
  - destruct a0 as [|y a0]; cbn [app] in E; inversion E; subst; [congruence|]. apply L_positional; auto.
  - destruct a0 as [|y a0]; cbn [app] in E; inversion E; subst; [congruence|]. apply L_flag; auto.
  - destruct a0 as [|y a0]; cbn [app] in E; inversion E; subst; [congruence|]. apply L_attached; auto.
  - destruct a0 as [|y [|y2 a0]]; cbn [app] in E; inversion E; subst; try congruence. apply L_adjacent; auto.
  - destruct a0 as [|y [|y2 [|y3 a0]]]; cbn [app] in E; inversion E; subst; try congruence. apply L_separate; auto.
Qed.

Section Uni.
Context {U : Unicode}.
Lemma items_length os ds toks l its : cmdline os l its -> forall n, length (items_from (mk_opts toks os ds) n l) = length (positionals its).
Proof.
  intros C n. rewrite items_shift, map_length. rewrite <- (positionals_spec os ds l its C). unfold pos_list, get_items. rewrite map_length. cbn [o_tokens].
  assert (K : forall k l, (length l <= k)%nat -> forall n toks', length (items_from (mk_opts toks os ds) n l) = length (items_from (mk_opts toks' os ds) n l)).
  2: now apply (K (length l)).
  clear. induction k as [|k IH]; intros [|t l] Hk n toks'; cbn [length] in Hk; auto; try lia. cbn [items_from].
  change (valid_option (mk_opts toks' os ds)) with (valid_option (mk_opts toks os ds)). change (requires_argument (mk_opts toks' os ds)) with (requires_argument (mk_opts toks os ds)).
  assert (I1 : forall n, length (items_from (mk_opts toks os ds) n l) = length (items_from (mk_opts toks' os ds) n l)) by (intros; apply IH; lia).
  destruct (is_ws t); auto. destruct (t_value t) as [|d x]; cbn [length]; auto. destruct (d =? DASH); cbn [length]; auto.
  destruct x as [|c x]; auto. destruct (_ && _ && _); auto. destruct l as [|u l]; auto. destruct (is_ws u).
  - destruct l as [|y l]; auto. apply IH. cbn in Hk. lia.
  - apply IH. cbn in Hk. lia.
Qed.
Lemma locate_pos os ds toks l its k : cmdline os l its -> (k < length (positionals its))%nat ->
  exists pre t post i1 i2, l = pre ++ t :: post /\ t_type t <> WHITESPACE /\ ~ dashed (t_value t) /\
    its = i1 ++ IPos (t_value t) :: i2 /\ cmdline os pre i1 /\ cmdline os post i2 /\ length (positionals i1) = k /\
    nth k (items_from (mk_opts toks os ds) 0 l) 0%nat = length pre.
Proof.
  remember (length l) as n eqn:Hn. revert l its k Hn. induction n as [n IH] using lt_wf_ind. intros l its k -> C Hk.
  destruct (cmdline_head os l its C) as [[-> ->]|(m & i & l' & i' & -> & -> & Hd & C')]; [cbn in Hk; lia|].
  assert (Lm : (0 < length m)%nat) by (destruct Hd as [| |c m arg Sh]; [cbn; lia..|destruct Sh; cbn; lia]).
  assert (IH' := fun k => IH (length l') ltac:(rewrite app_length; lia) l' i' k eq_refl C').
  assert (Sk : forall k pre, (k < length (positionals i'))%nat -> nth k (items_from (mk_opts toks os ds) 0 l') 0%nat = length pre ->
      nth k (items_from (mk_opts toks os ds) (length m) l') 0%nat = length (m ++ pre)).
  { intros k0 pre Hk0 E. rewrite items_shift. rewrite (nth_indep _ 0%nat (length m + 0)%nat) by (rewrite map_length, (items_length os ds toks l' i' C'); lia).
    rewrite (map_nth (Nat.add (length m))), E, app_length. reflexivity. }
  destruct Hd as [w Tw Sw|t Tt Nd|c m arg Sh].
  - cbn [app] in Hk. destruct (IH' k Hk) as (pre & t & post & i1 & i2 & -> & Tt & Nd & Ei & C1 & C2 & Lk & E).
    subst i'. exists (w :: pre), t, post, i1, i2. repeat split; auto; [now apply L_space|]. cbn [app]. rewrite items_space by auto.
    apply (Sk k pre); auto.
  - cbn [app positionals length] in Hk. destruct k as [|k].
    + exists [], t, l', [], i'. repeat split; auto; [constructor|]. cbn [app]. now rewrite items_pos.
    + destruct (IH' k ltac:(lia)) as (pre & t' & post & i1 & i2 & -> & Tt' & Nd' & Ei & C1 & C2 & Lk & E). subst i'.
      exists (t :: pre), t', post, (IPos (t_value t) :: i1), i2. repeat split; auto; [now apply L_positional|cbn; congruence|].
      cbn [app]. rewrite items_pos by auto. cbn [nth]. apply (Sk k pre); auto. lia.
  - cbn [app positionals] in Hk. destruct (IH' k Hk) as (pre & t & post & i1 & i2 & -> & Tt & Nd & Ei & C1 & C2 & Lk & E). subst i'.
    exists (m ++ pre), t, post, (IOpt c arg :: i1), i2. repeat split; auto; [now rewrite <- app_assoc| |].
    + apply (cmdline_app os m pre [IOpt c arg] i1); auto. now apply shape_cmdline.
    + rewrite (items_skip_opt os ds toks c m arg) by auto. rewrite Nat.add_0_r. apply (Sk k pre); auto.
Qed.
Lemma index_items os ds l its i : cmdline os l its -> py_index (get_items (mk_opts l os ds)) i = py_index (positionals its) i.
Proof. intros C. unfold py_index, get_items. cbn [o_tokens]. now rewrite (items_length os ds l l its C). Qed.
Lemma py_index_lt {A} (l : list A) i k : py_index l i = Some k -> (k < length l)%nat.
Proof.
  unfold py_index. destruct ((0 <=? i)%Z && (i <? Z.of_nat (length l))%Z) eqn:E.
  - intros Q; injection Q as <-. apply andb_true_iff in E as [E1 E2]. apply Z.leb_le in E1. apply Z.ltb_lt in E2. lia.
  - destruct ((i <? 0)%Z && (0 <=? Z.of_nat (length l) + i)%Z) eqn:E'; [|discriminate]. intros Q; injection Q as <-.
    apply andb_true_iff in E' as [E1 E2]. apply Z.ltb_lt in E1. apply Z.leb_le in E2. lia.
Qed.

Theorem pos_get_spec os ds l its i : cmdline os l its ->
  pos_get (mk_opts l os ds) i = match py_index (positionals its) i with
                                | None => Err IndexError
                                | Some k => number_or_text (nth k (positionals its) []) end.
Proof.
  intros C. unfold pos_get. rewrite (index_items os ds l its i C). destruct (py_index (positionals its) i) as [k|] eqn:E; auto.
  apply py_index_lt in E. unfold get_items. cbn [o_tokens].
  destruct (locate_pos os ds l l its k C E) as (pre & t & post & i1 & i2 & -> & Tt & Nd & -> & C1 & C2 & Lk & N).
  rewrite N, tok_at_mid, positionals_app. cbn [positionals]. rewrite <- Lk, app_nth2, Nat.sub_diag by auto. reflexivity.
Qed.

Theorem pos_set_spec os ds l its i v k : cmdline os l its -> py_index (positionals its) i = Some k -> ~ dashed (oval_str v) ->
  exists l' i1 old i2, pos_set (mk_opts l os ds) i v = Ok (mk_opts l' os ds) /\ its = i1 ++ IPos old :: i2 /\ length (positionals i1) = k /\
    cmdline os l' (i1 ++ IPos (oval_str v) :: i2).
Proof.
  intros C E Nv. pose proof (py_index_lt _ _ _ E) as Lk. unfold pos_set. rewrite (index_items os ds l its i C), E. unfold get_items. cbn [o_tokens].
  destruct (locate_pos os ds l l its k C Lk) as (pre & t & post & i1 & i2 & -> & Tt & Nd & -> & C1 & C2 & Lk' & N).
  rewrite N, update_at_app. exists (pre ++ set_value (oval_str v) t :: post), i1, (t_value t), i2. split; [reflexivity|]. split; auto. split; auto.
  apply cmdline_app; auto. apply (L_positional os (set_value (oval_str v) t)); auto.
Qed.

Theorem pos_del_spec os ds l its i k : cmdline os l its -> py_index (positionals its) i = Some k ->
  exists a x b i1 old i2, pos_del (mk_opts l os ds) i = Ok (mk_opts (a ++ b) os ds) /\ l = a ++ x ++ b /\
    its = i1 ++ IPos old :: i2 /\ length (positionals i1) = k /\ cmdline os (a ++ b) (i1 ++ i2) /\
    exists t w, t_value t = old /\ t_type w = WHITESPACE /\ (x = [t] \/ x = [w; t] \/ (a = [] /\ x = [t; w])).
Proof.
  intros C E. pose proof (py_index_lt _ _ _ E) as Lk. unfold pos_del. rewrite (index_items os ds l its i C), E. unfold get_items. cbn [o_tokens].
  destruct (locate_pos os ds l l its k C Lk) as (pre & t & post & i1 & i2 & -> & Tt & Nd & -> & C1 & C2 & Lk' & N).
  rewrite N. unfold pos_delete_token. destruct (unsnoc pre) as [->|(pre' & w & ->)].
  - cbn [length app]. destruct post as [|p post].
    + cbn. exists [], [t], [], i1, (t_value t), i2. split; [reflexivity|]. split; auto. split; auto. split; auto. split.
      * apply (cmdline_app os [] [] i1 i2); auto.
      * exists t, space_token. auto 8.
    + cbn [length Nat.ltb Nat.leb andb tok_at nth]. change (tok_at (t :: p :: post) 1) with p. destruct (is_ws p) eqn:Wp.
      * apply is_ws_true in Wp. exists [], [t; p], post, i1, (t_value t), i2. split; [reflexivity|]. split; auto. split; auto. split; auto. split.
        -- inversion C1; subst. cbn [app]. inversion C2; subst; (assumption || congruence).
        -- exists t, p. auto 8.
      * exists [], [t], (p :: post), i1, (t_value t), i2. split; [reflexivity|]. split; auto. split; auto. split; auto. split.
        -- inversion C1; subst. exact C2.
        -- exists t, space_token. auto 8.
  - rewrite app_length. cbn [length]. rewrite Nat.add_1_r. rewrite <- app_assoc. cbn [app]. rewrite tok_at_mid. destruct (is_ws w) eqn:Ww.
    + apply is_ws_true in Ww. rewrite remove_at_app, remove_at_app. exists pre', [w; t], post, i1, (t_value t), i2. split; [reflexivity|]. split; auto. split; auto. split; auto. split.
      * apply cmdline_app; auto. eapply cmdline_unsnoc; eauto.
      * exists t, w. auto 8.
    + exists (pre' ++ [w]), [t], post, i1, (t_value t), i2. repeat split; auto.
      * replace (S (length pre')) with (length (pre' ++ [w])) by (rewrite app_length; cbn; lia).
        replace (pre' ++ w :: t :: post) with ((pre' ++ [w]) ++ t :: post) by now rewrite <- app_assoc. now rewrite remove_at_app.
      * now rewrite <- app_assoc.
      * now apply cmdline_app.
      * exists t, space_token. auto 8.
Qed.

Theorem pos_insert_spec os ds l its i v k : cmdline os l its -> ~ dashed (oval_str v) ->
  (py_index (positionals its) i = Some k \/ (Z.of_nat (length (positionals its)) <= i)%Z /\ k = length (positionals its)) ->
  exists l' i1 i2, pos_insert (mk_opts l os ds) i v = Ok (mk_opts l' os ds) /\ its = i1 ++ i2 /\ length (positionals i1) = k /\
    cmdline os l' (i1 ++ IPos (oval_str v) :: i2).
Proof.
  intros C Nv Hk.
  assert (Nw : text_type v <> WHITESPACE) by (unfold text_type; destruct (needs_quoting v); discriminate).
  assert (Li : length (get_items (mk_opts l os ds)) = length (positionals its)) by apply (items_length os ds l l its C).
  assert (App : exists l', insert_at (length l) (mk_token (text_type v) (oval_str v)) l = l' /\
      cmdline os (if (0 <? length l)%nat then insert_at (length l) space_token l' else l') (its ++ [IPos (oval_str v)])).
  { eexists. split; [reflexivity|]. assert (I : forall x, insert_at (length l) x l = l ++ [x]) by (intros x; rewrite <- (app_nil_r l) at 2; apply insert_at_mid). rewrite I. destruct (0 <? length l)%nat eqn:E.
    - rewrite insert_at_mid. apply cmdline_app; auto. apply L_space; auto. apply (L_positional os (mk_token (text_type v) (oval_str v))); auto using cmdline.
    - apply cmdline_app; auto. apply (L_positional os (mk_token (text_type v) (oval_str v))); auto using cmdline. }
  destruct App as (la & Ela & Ca). unfold pos_insert. rewrite Li. cbn [o_tokens].
  set (n := length (positionals its)) in *.
  destruct Hk as [E|[Hi ->]].
  - pose proof (py_index_lt _ _ _ E) as Lk. fold n in Lk.
    assert ((Z.of_nat n <? i)%Z = false) as ->.
    { apply Z.ltb_ge. unfold py_index in E. fold n in E. destruct ((0 <=? i)%Z && (i <? Z.of_nat n)%Z) eqn:Q.
      - apply andb_true_iff in Q as [_ Q]. apply Z.ltb_lt in Q. lia.
      - destruct ((i <? 0)%Z) eqn:Q2; [apply Z.ltb_lt in Q2; lia|discriminate]. }
    assert ((i <? Z.of_nat n)%Z = true) as ->.
    { apply Z.ltb_lt. unfold py_index in E. fold n in E. destruct ((0 <=? i)%Z && (i <? Z.of_nat n)%Z) eqn:Q.
      - apply andb_true_iff in Q as [_ Q]. apply Z.ltb_lt in Q. lia.
      - destruct ((i <? 0)%Z) eqn:Q2; [apply Z.ltb_lt in Q2; lia|discriminate]. }
    destruct (get_items (mk_opts l os ds)) as [|it its'] eqn:G; [cbn in Li; lia|]. rewrite <- G in *.
    rewrite (index_items os ds l its i C), E. cbn [bind]. unfold get_items. cbn [o_tokens].
    destruct (locate_pos os ds l l its k C Lk) as (pre & t & post & i1 & i2 & -> & Tt & Nd & -> & C1 & C2 & Lk' & N).
    rewrite N. exists (let index := match length pre with S p => if is_ws (tok_at (pre ++ t :: post) p) then p else length pre | O => length pre end in
      let l1 := insert_at index (mk_token (text_type v) (oval_str v)) (pre ++ t :: post) in if (0 <? index)%nat then insert_at index space_token l1 else l1), i1, (IPos (t_value t) :: i2).
    split; [reflexivity|]. split; auto. split; auto.
    assert (Ct : cmdline os (t :: post) (IPos (t_value t) :: i2)) by now apply L_positional.
    assert (New : forall l its, cmdline os l its -> cmdline os (mk_token (text_type v) (oval_str v) :: l) (IPos (oval_str v) :: its)).
    { intros l0 i0 C0. apply (L_positional os (mk_token (text_type v) (oval_str v))); auto. }
    assert (Sp : forall l its, cmdline os l its -> cmdline os (space_token :: l) its) by (intros; now apply L_space).
    cbv zeta. destruct (unsnoc pre) as [->|(pre' & w & ->)].
    + cbn [length Nat.ltb Nat.leb app]. inversion C1; subst. cbn. auto.
    + rewrite app_length. cbn [length]. rewrite Nat.add_1_r. rewrite <- !app_assoc. cbn [app]. rewrite tok_at_mid. destruct (is_ws w) eqn:Ww.
      * apply is_ws_true in Ww. pose proof (cmdline_unsnoc os w _ _ C1 Ww pre' eq_refl) as C1'.
        assert (Cw : cmdline os (w :: t :: post) (IPos (t_value t) :: i2)).
        { apply L_space; auto. clear -C1 Ww. assert (G : forall l its, cmdline os l its -> forall a, l = a ++ [w] -> forallb is_space (t_value w) = true).
          { induction 1 as [|w' l its Tw Sw C IH|t l its Tt Nd C IH|t d l its Tt Vt Nt C IH|t d v l its Tt Vt Nv C IH
              |t d a l its Tt Vt Kd Td Ta Va Na C IH|t d w' a l its Tt Vt Kd Td Tw Sw Ta Va Na C IH]; intros a0 E.
            - destruct a0; discriminate.
            - destruct a0 as [|y a0]; cbn [app] in E; inversion E; subst; eauto.
            - destruct a0 as [|y a0]; cbn [app] in E; inversion E; subst; eauto; congruence.
            - destruct a0 as [|y a0]; cbn [app] in E; inversion E; subst; eauto; congruence.
            - destruct a0 as [|y a0]; cbn [app] in E; inversion E; subst; eauto; congruence.
            - destruct a0 as [|y [|y2 a0]]; cbn [app] in E; inversion E; subst; eauto; congruence.
            - destruct a0 as [|y [|y2 [|y3 a0]]]; cbn [app] in E; inversion E; subst; eauto; congruence. }
          eapply G; eauto. }
        rewrite insert_at_mid. destruct (0 <? length pre')%nat.
        -- rewrite insert_at_mid. apply cmdline_app; auto.
        -- apply cmdline_app; auto.
      * replace (S (length pre')) with (length (pre' ++ [w])) by (rewrite app_length; cbn; lia).
        replace (pre' ++ w :: t :: post) with ((pre' ++ [w]) ++ t :: post) by now rewrite <- app_assoc.
        assert ((0 <? length (pre' ++ [w]))%nat = true) as -> by (apply Nat.ltb_lt; rewrite app_length; cbn; lia).
        rewrite !insert_at_mid. apply cmdline_app; auto.
  - assert (Ei : forall i', (i' = i \/ i' = Z.of_nat n) -> (i' <? Z.of_nat n)%Z = false) by (intros i' [->| ->]; apply Z.ltb_ge; lia).
    rewrite Ei by (destruct (Z.of_nat n <? i)%Z; auto).
    assert (match get_items (mk_opts l os ds) with [] => Ok (length l) | _ => Ok (length l) end = Ok (length l)) as -> by (destruct (get_items _); auto).
    cbn [bind]. rewrite Ela. eexists _, its, []. split; [reflexivity|]. rewrite app_nil_r. split; auto.
Qed.
End Uni.
