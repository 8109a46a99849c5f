(** Proofs about options and positional arguments. *)
From Coq Require Import Ascii String.
From Coq Require Import NArith ZArith List Bool Lia.
From Verif Require Import PyStr PyStrFacts M_options Spec_options.
Import ListNotations.
Open Scope N_scope.

Lemma known_valid l os ds c : known os c <-> valid_option (mk_opts l os ds) c = true.
Proof.
  unfold known, valid_option, optchars. cbn [o_optstring]. rewrite char_in_iff, filter_In, negb_true_iff, N.eqb_neq. reflexivity.
Qed.
Lemma takes_req os c : takes_argument os c <-> requires_in os c = true.
Proof.
  split.
  - intros (a & b & -> & N). induction a as [|x a IH]; cbn [app requires_in].
    + now rewrite N.eqb_refl.
    + destruct (N.eqb_spec x c) as [->|_]; [exfalso; apply N; now left|]. apply IH. intros Hi; apply N; now right.
  - induction os as [|x os IH]; cbn [requires_in]; [discriminate|].
    destruct (N.eqb_spec x c) as [->|Hx].
    + destruct os as [|y os]; [discriminate|]. intros E. apply N.eqb_eq in E. subst. exists [], os. auto.
    + intros E. destruct (IH E) as (a & b & -> & N). exists (x :: a), b. split; auto. intros [->|Hi]; auto.
Qed.
Lemma not_takes os c : ~ takes_argument os c <-> requires_in os c = false.
Proof. rewrite takes_req. destruct (requires_in os c); split; congruence. Qed.
Lemma is_ws_true t : t_type t = WHITESPACE <-> is_ws t = true.
Proof. unfold is_ws. destruct (t_type t); split; congruence. Qed.
Lemma is_ws_false t : t_type t <> WHITESPACE <-> is_ws t = false.
Proof. rewrite is_ws_true. destruct (is_ws t); split; congruence. Qed.
Lemma not_dashed v : ~ dashed v -> forall p, startswith v (DASH :: p) = false.
Proof.
  intros N p. destruct (startswith v (DASH :: p)) eqn:E; auto. apply startswith_iff in E as [x ->]. exfalso. apply N. now eexists.
Qed.
Lemma space_not_dashed v : forallb is_space v = true -> ~ dashed v.
Proof. intros E [v' ->]. discriminate. Qed.

Lemma cmdline_app os a b i1 i2 : cmdline os a i1 -> cmdline os b i2 -> cmdline os (a ++ b) (i1 ++ i2).
Proof. induction 1; intros Hb; cbn [app]; eauto using cmdline. Qed.
Lemma lookup_app c a b : lookup_opt c (a ++ b) = match lookup_opt c b with Some x => Some x | None => lookup_opt c a end.
Proof.
  induction a as [|i a IH]; cbn; [destruct (lookup_opt c b); auto|]. rewrite IH. destruct (lookup_opt c b); auto.
Qed.
Lemma positionals_app a b : positionals (a ++ b) = positionals a ++ positionals b.
Proof. induction a as [|[]]; cbn; auto. now rewrite IHa. Qed.

Definition has (c : char) (t : token) : bool := startswith (t_value t) [DASH; c].
Lemma has_shape c t : has c t = true -> exists v, t_value t = DASH :: c :: v.
Proof. unfold has. intros E. apply startswith_iff in E as [v E]. exists v. exact E. Qed.
Lemma has_dash c d v t : t_value t = DASH :: d :: v -> has c t = (d =? c).
Proof. unfold has. intros ->. unfold startswith. cbn [strip_prefix]. rewrite N.eqb_refl, (N.eqb_sym c d). destruct (d =? c); auto. Qed.
Lemma has_not_dashed c t : ~ dashed (t_value t) -> has c t = false.
Proof. intros N. now apply not_dashed. Qed.
Lemma absent os l its c : cmdline os l its -> lookup_opt c its = None -> forallb (fun t => negb (has c t)) l = true.
Proof.
  induction 1; cbn [lookup_opt forallb]; auto; intros L.
  - rewrite has_not_dashed by now apply space_not_dashed. cbn. auto.
  - rewrite has_not_dashed by auto. cbn. apply IHcmdline. destruct (lookup_opt c its); auto.
  - destruct (lookup_opt c its); [discriminate|]. rewrite (has_dash c c0 []) by auto. destruct (c0 =? c); [discriminate|]. cbn. auto.
  - destruct (lookup_opt c its); [discriminate|]. rewrite (has_dash c c0 v) by auto. destruct (c0 =? c); [discriminate|]. cbn. auto.
  - destruct (lookup_opt c its); [discriminate|]. rewrite (has_dash c c0 []) by auto. destruct (c0 =? c); [discriminate|]. 
    rewrite has_not_dashed by auto. cbn. auto.
  - destruct (lookup_opt c its); [discriminate|]. rewrite (has_dash c c0 []) by auto. destruct (c0 =? c); [discriminate|]. 
    rewrite !has_not_dashed by auto using space_not_dashed. cbn. auto.
Qed.
Lemma find_last_none {A} (p : A -> bool) l : forallb (fun x => negb (p x)) l = true -> find_last p l = None.
Proof.
  induction l as [|x l IH]; cbn; auto. intros E. apply andb_true_iff in E as [E1 E2]. rewrite (IH E2). apply negb_true_iff in E1. now rewrite E1.
Qed.
Lemma find_last_mid {A} (p : A -> bool) a x b : p x = true -> forallb (fun x => negb (p x)) b = true -> find_last p (a ++ x :: b) = Some (length a).
Proof.
  intros Px Hb. induction a as [|y a IH]; cbn.
  - now rewrite find_last_none, Px.
  - now rewrite IH.
Qed.
Lemma tok_at_mid a x b : tok_at (a ++ x :: b) (length a) = x.
Proof. unfold tok_at. rewrite app_nth2, Nat.sub_diag; auto. Qed.
Lemma tok_at_mid1 a x y b : tok_at (a ++ x :: y :: b) (S (length a)) = y.
Proof. unfold tok_at. rewrite app_nth2 by lia. now replace (S (length a) - length a)%nat with 1%nat by lia. Qed.
Lemma tok_at_mid2 a x y z b : tok_at (a ++ x :: y :: z :: b) (S (S (length a))) = z.
Proof. unfold tok_at. rewrite app_nth2 by lia. now replace (S (S (length a)) - length a)%nat with 2%nat by lia. Qed.

(** Where the last occurrence of an option is. *)
Inductive shape (os : str) (c : char) : list token -> option str -> Prop :=
| Sh_flag t : t_type t <> WHITESPACE -> t_value t = [DASH; c] -> ~ takes_argument os c -> shape os c [t] None
| Sh_attached t v : t_type t <> WHITESPACE -> t_value t = DASH :: c :: v -> v <> [] -> shape os c [t] (Some v)
| Sh_adjacent t a : t_type t <> WHITESPACE -> t_value t = [DASH; c] -> known os c -> takes_argument os c ->
    t_type a <> WHITESPACE -> t_value a <> [] -> ~ dashed (t_value a) -> shape os c [t; a] (Some (t_value a))
| Sh_separate t w a : t_type t <> WHITESPACE -> t_value t = [DASH; c] -> known os c -> takes_argument os c ->
    t_type w = WHITESPACE -> forallb is_space (t_value w) = true ->
    t_type a <> WHITESPACE -> t_value a <> [] -> ~ dashed (t_value a) -> shape os c [t; w; a] (Some (t_value a)).
Lemma shape_cmdline os c m arg : shape os c m arg -> cmdline os m [IOpt c arg].
Proof. destruct 1; eauto using cmdline. Qed.
Definition arg_offset (m : list token) (arg : option str) : option nat :=
  match arg with None => None | Some _ => Some (pred (length m)) end.

Lemma locate os l its c arg : cmdline os l its -> lookup_opt c its = Some arg ->
  exists pre m post i1 i2, l = pre ++ m ++ post /\ shape os c m arg /\ cmdline os pre i1 /\ cmdline os post i2 /\
    its = i1 ++ IOpt c arg :: i2 /\ lookup_opt c i2 = None.
Proof.
  induction 1 as [|w l its Tw Sw C IH|t l its Tt Nd C IH|t d l its Tt Vt Nt C IH|t d v l its Tt Vt Nv C IH
    |t d a l its Tt Vt Kd Td Ta Va Na C IH|t d w a l its Tt Vt Kd Td Tw Sw Ta Va Na C IH]; cbn [lookup_opt]; intros L; try discriminate.
  - destruct (IH L) as (pre & m & post & i1 & i2 & -> & Sh & C1 & C2 & -> & N).
    exists (w :: pre), m, post, i1, i2. eauto 10 using cmdline.
  - destruct (lookup_opt c its) eqn:E; [|discriminate]. injection L as ->.
    destruct (IH eq_refl) as (pre & m & post & i1 & i2 & -> & Sh & C1 & C2 & -> & N).
    exists (t :: pre), m, post, (IPos (t_value t) :: i1), i2. eauto 10 using cmdline.
  - destruct (lookup_opt c its) eqn:E.
    + injection L as ->. destruct (IH eq_refl) as (pre & m & post & i1 & i2 & -> & Sh & C1 & C2 & -> & N).
      exists (t :: pre), m, post, (IOpt d None :: i1), i2. eauto 10 using cmdline.
    + destruct (N.eqb_spec d c) as [->|]; [|discriminate]. injection L as <-. exists [], [t], l, [], its.
      repeat split; auto; constructor; auto.
  - destruct (lookup_opt c its) eqn:E.
    + injection L as ->. destruct (IH eq_refl) as (pre & m & post & i1 & i2 & -> & Sh & C1 & C2 & -> & N).
      exists (t :: pre), m, post, (IOpt d (Some v) :: i1), i2. eauto 10 using cmdline.
    + destruct (N.eqb_spec d c) as [->|]; [|discriminate]. injection L as <-. exists [], [t], l, [], its.
      repeat split; auto; [now apply Sh_attached|constructor].
  - destruct (lookup_opt c its) eqn:E.
    + injection L as ->. destruct (IH eq_refl) as (pre & m & post & i1 & i2 & -> & Sh & C1 & C2 & -> & N).
      exists (t :: a :: pre), m, post, (IOpt d (Some (t_value a)) :: i1), i2. eauto 10 using cmdline.
    + destruct (N.eqb_spec d c) as [->|]; [|discriminate]. injection L as <-. exists [], [t; a], l, [], its.
      repeat split; auto; constructor; auto.
  - destruct (lookup_opt c its) eqn:E.
    + injection L as ->. destruct (IH eq_refl) as (pre & m & post & i1 & i2 & -> & Sh & C1 & C2 & -> & N).
      exists (t :: w :: a :: pre), m, post, (IOpt d (Some (t_value a)) :: i1), i2. eauto 10 using cmdline.
    + destruct (N.eqb_spec d c) as [->|]; [|discriminate]. injection L as <-. exists [], [t; w; a], l, [], its.
      repeat split; auto; constructor; auto.
Qed.

Lemma find_absent os ds l its c : cmdline os l its -> lookup_opt c its = None -> find_option (mk_opts l os ds) c = None.
Proof.
  intros C L. unfold find_option. cbn [o_tokens]. rewrite find_last_none; auto. apply (absent os l its c C L).
Qed.
Lemma find_present os ds pre m post c arg i2 : shape os c m arg -> cmdline os post i2 -> lookup_opt c i2 = None ->
  find_option (mk_opts (pre ++ m ++ post) os ds) c =
    Some (length pre, match arg with None => None | Some _ => Some (length pre + pred (length m))%nat end).
Proof.
  intros Sh Cp L. pose proof (absent os post i2 c Cp L) as Ab. unfold find_option. cbn [o_tokens].
  destruct Sh as [t Tt Vt Nt|t v Tt Vt Nv|t a Tt Vt Kd Td Ta Va Na|t w a Tt Vt Kd Td Tw Sw Ta Va Na]; cbn [app length pred].
  - rewrite find_last_mid; [|now apply (has_dash c c []), N.eqb_refl || (change (has c t = true); now rewrite (has_dash c c [] t Vt), N.eqb_refl)|exact Ab].
    rewrite tok_at_mid, Vt, str_eqb_refl. cbn [negb]. unfold requires_argument. cbn [o_optstring]. apply not_takes in Nt. now rewrite Nt.
  - rewrite find_last_mid; [|change (has c t = true); now rewrite (has_dash c c v t Vt), N.eqb_refl|exact Ab].
    rewrite tok_at_mid, Vt. assert (str_eqb (DASH :: c :: v) [DASH; c] = false) as -> by (apply str_eqb_neq; congruence).
    cbn [negb]. now rewrite Nat.add_0_r.
  - rewrite find_last_mid; [|change (has c t = true); now rewrite (has_dash c c [] t Vt), N.eqb_refl|].
    2: { cbn [forallb]. change (startswith (t_value a) [DASH; c]) with (has c a). rewrite has_not_dashed by auto. exact Ab. }
    rewrite tok_at_mid, tok_at_mid1, Vt, str_eqb_refl. cbn [negb]. unfold requires_argument. cbn [o_optstring]. apply takes_req in Td. rewrite Td. cbn [negb].
    apply is_ws_false in Ta. rewrite Ta. rewrite app_length. cbn [length].
    assert (Nat.eqb (S (length pre)) (length pre + S (S (length post))) = false) as -> by (apply Nat.eqb_neq; lia).
    rewrite tok_at_mid1, not_dashed by auto. now rewrite Nat.add_1_r.
  - rewrite find_last_mid; [|change (has c t = true); now rewrite (has_dash c c [] t Vt), N.eqb_refl|].
    2: { cbn [forallb]. change (startswith (t_value a) [DASH; c]) with (has c a). change (startswith (t_value w) [DASH; c]) with (has c w).
         rewrite !has_not_dashed by auto using space_not_dashed. exact Ab. }
    rewrite tok_at_mid, tok_at_mid1, Vt, str_eqb_refl. cbn [negb]. unfold requires_argument. cbn [o_optstring]. apply takes_req in Td. rewrite Td. cbn [negb].
    apply is_ws_true in Tw. rewrite Tw. rewrite app_length. cbn [length].
    assert (Nat.eqb (S (length pre)) (length pre + S (S (S (length post)))) = false) as -> by (apply Nat.eqb_neq; lia).
    assert (Nat.eqb (S (S (length pre))) (length pre + S (S (S (length post)))) = false) as -> by (apply Nat.eqb_neq; lia).
    rewrite tok_at_mid2, not_dashed by auto. do 2 f_equal. f_equal. lia.
Qed.

Section Uni.
Context {U : Unicode}.
Definition get_meaning (os : str) (ds : list (char * oval)) (c : char) (its : list item) : result oval :=
  match lookup_opt c its with
  | Some (Some v) => number_or_text v
  | Some None => Ok (VBool true)
  | None => if requires_in os c then Ok (match find (fun p => fst p =? c) ds with Some p => snd p | None => VNone end)
            else Ok (VBool false)
  end.
Theorem opt_get_spec os ds l its c : cmdline os l its -> opt_get (mk_opts l os ds) c = get_meaning os ds c its.
Proof.
  intros C. unfold opt_get, get_meaning. destruct (lookup_opt c its) as [arg|] eqn:L.
  - destruct (locate os l its c arg C L) as (pre & m & post & i1 & i2 & -> & Sh & C1 & C2 & -> & N).
    rewrite (find_present os ds pre m post c arg i2 Sh C2 N). cbn [o_tokens].
    destruct Sh as [t Tt Vt Nt|t v Tt Vt Nv|t a Tt Vt Kd Td Ta Va Na|t w a Tt Vt Kd Td Tw Sw Ta Va Na]; cbn [app length pred].
    + rewrite tok_at_mid, Vt. reflexivity.
    + rewrite Nat.add_0_r, Nat.ltb_irrefl, tok_at_mid, Vt. cbn [skipn]. destruct v; [congruence|reflexivity].
    + assert ((length pre <? length pre + 1)%nat = true) as -> by (apply Nat.ltb_lt; lia). rewrite Nat.add_1_r, tok_at_mid1.
      destruct (t_value a); [congruence|reflexivity].
    + assert ((length pre <? length pre + 2)%nat = true) as -> by (apply Nat.ltb_lt; lia).
      replace (length pre + 2)%nat with (S (S (length pre))) by lia. rewrite tok_at_mid2.
      destruct (t_value a); [congruence|reflexivity].
  - rewrite (find_absent os ds l its c C L). reflexivity.
Qed.

(** Positional arguments. *)
Lemma items_shift o n l : items_from o n l = map (Nat.add n) (items_from o 0 l).
Proof.
  revert n. assert (K : forall k l, (length l <= k)%nat -> forall n, items_from o n l = map (Nat.add n) (items_from o 0 l)).
  2: { intros n. apply (K (length l)). lia. }
  clear l. induction k as [|k IH]; intros [|t l] Hk n; cbn [length] in Hk; auto; try lia.
  assert (R : forall m l', (length l' <= k)%nat -> items_from o (m + n) l' = map (Nat.add n) (items_from o m l')).
  { intros m l' Hl. rewrite (IH l' Hl (m + n)%nat), (IH l' Hl m), map_map. apply map_ext. intros. lia. }
  cbn [items_from]. destruct (is_ws t).
  { apply (R 1%nat). lia. }
  assert (R1 : items_from o (S n) l = map (Nat.add n) (items_from o 1 l)) by (apply (R 1%nat); lia).
  destruct (t_value t) as [|d x].
  { rewrite R1. cbn [map]. now rewrite Nat.add_0_r. }
  destruct (d =? DASH).
  2: { rewrite R1. cbn [map]. now rewrite Nat.add_0_r. }
  destruct x as [|c x]; auto. destruct (valid_option o c && requires_argument o c && match x with [] => true | _ => false end); auto.
  destruct l as [|u l]; auto. cbn in Hk. destruct (is_ws u).
  - destruct l as [|y l]; auto. apply (R 3%nat). cbn in Hk. lia.
  - apply (R 2%nat). lia.
Qed.
Definition pos_vals (o : opts) (l : list token) : list str := map (fun k => t_value (tok_at l k)) (items_from o 0 l).
Lemma pos_vals_skip o a l n : n = length a -> map (fun k => t_value (tok_at (a ++ l) k)) (items_from o n l) = pos_vals o l.
Proof.
  intros ->. rewrite items_shift, map_map. apply map_ext. intros k. unfold tok_at. rewrite app_nth2 by lia. do 2 f_equal. lia.
Qed.

Inductive head_of (os : str) : list token -> list item -> Prop :=
| Hd_space w : t_type w = WHITESPACE -> forallb is_space (t_value w) = true -> head_of os [w] []
| Hd_pos t : t_type t <> WHITESPACE -> ~ dashed (t_value t) -> head_of os [t] [IPos (t_value t)]
| Hd_opt c m arg : shape os c m arg -> head_of os m [IOpt c arg].
Lemma cmdline_head os l its : cmdline os l its -> l = [] /\ its = [] \/
  exists m i l' i', l = m ++ l' /\ its = i ++ i' /\ head_of os m i /\ cmdline os l' i'.
Proof.
  destruct 1; [auto| | | | | |]; right.
  - exists [w], [], l, its. repeat split; auto. now constructor.
  - exists [t], [IPos (t_value t)], l, its. repeat split; auto. now constructor.
  - exists [t], [IOpt c None], l, its. repeat split; auto. constructor. now constructor.
  - exists [t], [IOpt c (Some v)], l, its. repeat split; auto. constructor. now apply Sh_attached.
  - exists [t; a], [IOpt c (Some (t_value a))], l, its. repeat split; auto. constructor. now constructor.
  - exists [t; w; a], [IOpt c (Some (t_value a))], l, its. repeat split; auto. constructor. now constructor.
Qed.
Lemma items_skip_opt os ds toks c m arg l n : shape os c m arg ->
  items_from (mk_opts toks os ds) n (m ++ l) = items_from (mk_opts toks os ds) (length m + n) l.
Proof.
  destruct 1 as [t Tt Vt Nt|t v Tt Vt Nv|t a Tt Vt Kd Td Ta Va Na|t w a Tt Vt Kd Td Tw Sw Ta Va Na]; cbn [app length plus items_from];
    apply is_ws_false in Tt; rewrite Tt, Vt, N.eqb_refl; unfold requires_argument; cbn [o_optstring].
  - apply not_takes in Nt. now rewrite Nt, andb_false_r.
  - destruct v; [congruence|]. now rewrite andb_false_r.
  - apply takes_req in Td. apply (known_valid toks os ds) in Kd. rewrite Td, Kd. cbn [andb]. apply is_ws_false in Ta. now rewrite Ta.
  - apply takes_req in Td. apply (known_valid toks os ds) in Kd. rewrite Td, Kd. cbn [andb]. apply is_ws_true in Tw. now rewrite Tw.
Qed.
Lemma items_pos os ds toks l n t : t_type t <> WHITESPACE -> ~ dashed (t_value t) ->
  items_from (mk_opts toks os ds) n (t :: l) = n :: items_from (mk_opts toks os ds) (S n) l.
Proof.
  intros Tt Nd. cbn [items_from]. apply is_ws_false in Tt. rewrite Tt. destruct (t_value t) as [|d x]; auto.
  destruct (N.eqb_spec d DASH) as [->|]; auto. exfalso. apply Nd. now eexists.
Qed.
Lemma items_space os ds toks l n w : t_type w = WHITESPACE -> items_from (mk_opts toks os ds) n (w :: l) = items_from (mk_opts toks os ds) (S n) l.
Proof. intros Tw. cbn [items_from]. apply is_ws_true in Tw. now rewrite Tw. Qed.

Lemma cmdline_items os ds toks l its : cmdline os l its -> forall n l2, items_from (mk_opts toks os ds) n (l ++ l2) =
  items_from (mk_opts toks os ds) n l ++ items_from (mk_opts toks os ds) (length l + n) l2.
Proof.
  remember (length l) as k eqn:Hk. revert l its Hk. induction k as [k IH] using lt_wf_ind. intros l its -> C n l2.
  destruct (cmdline_head os l its C) as [[-> ->]|(m & i & l' & i' & -> & -> & Hd & C')]; auto.
  assert (Lm : (0 < length m)%nat) by (destruct Hd as [| |c m arg Sh]; [cbn; lia..|destruct Sh; cbn; lia]).
  assert (IH' := fun n => IH (length l') ltac:(rewrite app_length; lia) l' i' eq_refl C' n l2). rewrite <- app_assoc, app_length.
  destruct Hd as [w Tw Sw|t Tt Nd|c m arg Sh].
  - cbn [app]. rewrite !items_space, IH' by auto. cbn [length]. do 2 f_equal. lia.
  - cbn [app]. rewrite !items_pos, IH' by auto. cbn [app length]. do 3 f_equal. lia.
  - rewrite !(items_skip_opt os ds toks c m arg) by auto. rewrite IH'. do 2 f_equal. lia.
Qed.
Theorem positionals_spec os ds l its : cmdline os l its -> pos_list (mk_opts l os ds) = positionals its.
Proof.
  intros C. unfold pos_list, get_items. cbn [o_tokens]. 
  enough (G : forall toks l its, cmdline os l its -> pos_vals (mk_opts toks os ds) l = positionals its) by (apply G; auto).
  clear l its C. intros toks l its. remember (length l) as k eqn:Hk. revert l its Hk. induction k as [k IH] using lt_wf_ind. intros l its -> C.
  destruct (cmdline_head os l its C) as [[-> ->]|(m & i & l' & i' & -> & -> & Hd & C')]; auto.
  assert (Lm : (0 < length m)%nat) by (destruct Hd as [| |c m arg Sh]; [cbn; lia..|destruct Sh; cbn; lia]).
  assert (IH' := IH (length l') ltac:(rewrite app_length; lia) l' i' eq_refl C').
  unfold pos_vals. destruct Hd as [w Tw Sw|t Tt Nd|c m arg Sh].
  - cbn [app]. rewrite items_space by auto. rewrite <- IH'. apply (pos_vals_skip (mk_opts toks os ds) [w] l' 1 eq_refl).
  - cbn [app]. rewrite items_pos by auto. cbn [map positionals]. rewrite <- IH'. f_equal. apply (pos_vals_skip (mk_opts toks os ds) [t] l' 1 eq_refl).
  - rewrite (items_skip_opt os ds toks c m arg) by auto. rewrite Nat.add_0_r. cbn [app positionals]. rewrite <- IH'. now apply pos_vals_skip.
Qed.
End Uni.
