(** Proofs about the macros of the %prep section. *)
From Coq Require Import Ascii String.
From Coq Require Import NArith ZArith List Bool Lia.
From Verif Require Import PyStr PyStrFacts Regex RegexFacts M_value M_options Spec_value Spec_options P_options P_options2 P_options3 P_options4 M_prep Spec_prep P_prep P_evr.
From Verif Require P_sources.
Import ListNotations.
Open Scope N_scope.

Section U.
Context {U : Unicode}.

(** * Numbers *)
Lemma split_number x c ds : is_digit c = false -> Forall (fun d => is_digit d = true) ds -> ds <> [] ->
  exists g, re_split1 digits_at_end (x ++ c :: ds) = Some (x ++ [c], g) /\ group_str 1 g = ds.
Proof.
  intros Hc Hd Nd. assert (Fd : forallb is_digit ds = true) by (apply forallb_forall; now apply Forall_forall).
  assert (NL : ~ In LF ds). { intros Q. rewrite Forall_forall in Hd. apply Hd in Q. discriminate. }
  unfold re_split1, re_search. replace (x ++ c :: ds) with ((x ++ [c]) ++ ds) by now rewrite <- app_assoc.
  rewrite (search_at digits_at_end (x ++ [c]) [] ds (mkst (rev ds ++ rev (x ++ [c]) ++ []) [] [(1%nat, ds)])).
  - eexists. split; [now rewrite app_nil_r, rev_involutive|reflexivity].
  - intros w1 w2 E N. apply results_nil. intros m M. apply P_sources.number_match in M as (v & e & E2 & Nv & Fv & De & _).
    destruct (exists_last N) as (w' & z & ->). rewrite app_assoc in E. apply app_inj_tail in E as [_ <-].
    rewrite <- app_assoc in E2. cbn [app] in E2.
    destruct e as [|y [|? ?]]; [| |discriminate].
    + rewrite app_nil_r in E2. rewrite <- E2, forallb_app in Fv. cbn [forallb] in Fv. rewrite Hc, andb_false_r in Fv. discriminate.
    + cbn in De. apply N.eqb_eq in De. subst y. destruct (exists_last Nd) as (ds' & q & ->). rewrite app_comm_cons, app_assoc in E2. apply app_inj_tail in E2 as [_ ->].
      apply NL, in_or_app. right. now left.
  - unfold digits_at_end. rewrite <- (app_nil_r ds) at 1. apply H_greedy; auto.
    + intros w2 rs' Q N2. destruct w2; [congruence|discriminate].
    + reflexivity.
Qed.
Lemma split_patch ds : Forall (fun d => is_digit d = true) ds -> ds <> [] ->
  exists g, re_split1 digits_at_end (lit "%patch" ++ ds) = Some (lit "%patch", g) /\ group_str 1 g = ds.
Proof. intros Hd Nd. apply (split_number (lit "%patc") 104 ds); auto. Qed.
Lemma split_patch_nil : re_split1 digits_at_end (lit "%patch") = None.
Proof. reflexivity. Qed.

Lemma dec_digit n : Forall (fun c => is_digit c = true) (dec n).
Proof. apply Forall_forall. intros c Hc. pose proof (dec_is_digits n) as D. rewrite forallb_forall in D. auto. Qed.
Lemma number_dec n : number_or_text (dec n) = Ok (VInt (Z.of_N n)).
Proof. unfold number_or_text. now rewrite numeric_dec, int_of_dec. Qed.
Lemma takes_P : takes_argument (lit "P:p:REb:z:F:d:o:Z") 80.
Proof. exists [], (lit "p:REb:z:F:d:o:Z"). split; [reflexivity|auto]. Qed.

Theorem number_spec m ds its n : patch_macro m ds its -> patch_number ds its n -> number m = Ok n.
Proof.
  destruct m as [k name [toks os dfl] d pf sf pl]. intros (_ & En & Hd & Eo & Ed & C). cbn [m_name m_opts o_optstring o_defaults o_tokens m_kind] in *. subst name os dfl.
  unfold number. cbn [m_name m_opts].
  intros [(Nd & k' & Ei & ->)|[(-> & k' & L & ->)|[(-> & L & k' & more & P & ->)|(-> & L & P & ->)]]].
  - destruct (split_patch ds Hd Nd) as (g & -> & ->). now rewrite Ei.
  - rewrite app_nil_r, split_patch_nil. unfold OPT_P. rewrite (opt_get_spec _ _ _ _ _ C). unfold get_meaning. rewrite L, number_dec. reflexivity.
  - rewrite app_nil_r, split_patch_nil. unfold OPT_P. rewrite (opt_get_spec _ _ _ _ _ C). unfold get_meaning. rewrite L. cbn [requires_in bind].
    change (requires_in (lit "P:p:REb:z:F:d:o:Z") 80) with true. cbn [List.find bind].
    rewrite (pos_get_spec _ _ _ _ _ C), P. pose proof (items_length _ [] toks _ _ C 0%nat) as Le. rewrite P in Le.
    unfold get_items. cbn [o_tokens]. destruct (items_from _ 0 toks); [discriminate|].
    cbn [length nth]. change (py_index (dec k' :: more) 0) with (Some 0%nat). cbv iota beta. cbn [nth]. rewrite number_dec. reflexivity.
  - rewrite app_nil_r, split_patch_nil. unfold OPT_P. rewrite (opt_get_spec _ _ _ _ _ C). unfold get_meaning. rewrite L.
    change (requires_in (lit "P:p:REb:z:F:d:o:Z") 80) with true. cbn [List.find bind].
    pose proof (items_length _ [] toks _ _ C 0%nat) as Le. rewrite P in Le.
    unfold get_items. cbn [o_tokens]. destruct (items_from _ 0 toks); [reflexivity|discriminate].
Qed.

Lemma cmdline_P os l its : cmdline os l its -> takes_argument os 80 -> forall a, lookup_opt 80 its = Some a -> exists v, a = Some v.
Proof.
  intros C T. induction C; cbn [lookup_opt]; intros x; auto.
  all: try (destruct (lookup_opt 80 its) as [y|]; [intros Q; injection Q as <-; eauto|]); try discriminate.
  all: destruct (N.eqb_spec c 80) as [->|]; try discriminate; intros Q; injection Q as <-; eauto.
  contradiction.
Qed.

(** Assigning a number. *)
Lemma head_pos i1 old i2 : length (positionals i1) = 0%nat -> positionals (i1 ++ IPos old :: i2) = old :: positionals i2.
Proof. intros H. rewrite positionals_app. destruct (positionals i1); [reflexivity|discriminate]. Qed.
Theorem set_number_spec m ds its n z : patch_macro m ds its -> patch_number ds its n -> (0 <= z)%Z ->
  exists m' ds' its', set_number m z = Ok m' /\ patch_macro m' ds' its' /\ patch_number ds' its' z /\
    (forall d, d <> 80 -> lookup_opt d its' = lookup_opt d its) /\
    tl (positionals its') = tl (positionals its) /\
    m_preceding m' = m_preceding m /\ m_prefix m' = m_prefix m /\ m_suffix m' = m_suffix m.
Proof.
  destruct m as [k name [toks os dfl] d pf sf pl]. intros (Ek & En & Hd & Eo & Ed & C) Pn Hz. cbn [m_name m_opts o_optstring o_defaults o_tokens m_kind] in *. subst name os dfl k.
  unfold set_number. cbn [m_name m_opts].
  assert (Ez : zdec z = dec (Z.to_N z)) by now apply zdec_dec.
  assert (Zz : z = Z.of_N (Z.to_N z)) by lia.
  assert (Nm : let m' := mk_macro Patch (lit "%patch" ++ zdec z) (mk_opts toks (lit "P:p:REb:z:F:d:o:Z") []) d pf sf pl in
     patch_macro m' (zdec z) its /\ patch_number (zdec z) its z).
  { split.
    - repeat split; auto. rewrite Ez. apply dec_digit.
    - left. rewrite Ez. split; [apply dec_nonempty|]. exists (Z.to_N z). now rewrite int_of_dec. }
  destruct Pn as [(Nd & k' & Ei & ->)|[(-> & k' & L & ->)|[(-> & L & k' & more & P & ->)|(-> & L & P & ->)]]].
  - destruct (split_patch ds Hd Nd) as (g & -> & _). eexists _, (zdec z), its. split; [reflexivity|]. destruct Nm as [N1 N2]. split; [exact N1|]. split; [exact N2|]. repeat split; auto.
  - rewrite app_nil_r, split_patch_nil. unfold OPT_P. rewrite (opt_get_spec _ _ _ _ _ C). unfold get_meaning. rewrite L, number_dec. cbn [bind].
    destruct (opt_set_spec _ [] _ _ 80 (VInt z) C) as (l' & its' & -> & S & C').
    { split; [now left|discriminate]. } { split; [auto|apply takes_P]. } { discriminate. }
    eexists _, [], its'. split; [reflexivity|]. cbn [arg_of oval_str] in S.
    split; [repeat split; auto|]. split.
    { right; left. split; auto. exists (Z.to_N z). rewrite (set_lookup _ _ _ _ S), Ez. auto. }
    split; [intros; now apply (set_lookup_other _ _ _ _ _ S)|]. now rewrite (set_positionals _ _ _ _ S).
  - rewrite app_nil_r, split_patch_nil. unfold OPT_P. rewrite (opt_get_spec _ _ _ _ _ C). unfold get_meaning. rewrite L.
    change (requires_in (lit "P:p:REb:z:F:d:o:Z") 80) with true. cbn [List.find bind].
    pose proof (items_length _ [] toks _ _ C 0%nat) as Le. rewrite P in Le. unfold get_items at 1. cbn [o_tokens].
    destruct (items_from _ 0 toks); [discriminate|]. cbv iota.
    destruct (pos_set_spec _ [] _ _ 0%Z (VInt z) 0%nat C) as (l' & i1 & old & i2 & -> & Ei & L1 & C').
    { now rewrite P. } { cbn [oval_str]. rewrite Ez. apply dec_not_dashed. }
    eexists _, [], _. split; [reflexivity|]. cbn [oval_str] in C'.
    assert (LO : forall q, lookup_opt q (i1 ++ IPos (zdec z) :: i2) = lookup_opt q its).
    { intros q. subst its. rewrite !lookup_app. cbn [lookup_opt]. now destruct (lookup_opt q i2). }
    split; [repeat split; eauto|]. split; [|split; [auto|split; [|auto]]].
    + right; right; left. rewrite LO. split; [auto|]. split; [auto|]. exists (Z.to_N z). rewrite head_pos, Ez by auto. eauto.
    + subst its. now rewrite !head_pos by auto.
  - rewrite app_nil_r, split_patch_nil. unfold OPT_P. rewrite (opt_get_spec _ _ _ _ _ C). unfold get_meaning. rewrite L.
    change (requires_in (lit "P:p:REb:z:F:d:o:Z") 80) with true. cbn [List.find bind].
    pose proof (items_length _ [] toks _ _ C 0%nat) as Le. rewrite P in Le. unfold get_items at 1. cbn [o_tokens].
    destruct (items_from _ 0 toks); [|discriminate]. eexists _, (zdec z), its. split; [reflexivity|]. destruct Nm as [N1 N2]. split; [exact N1|]. split; [exact N2|]. repeat split; auto.
Qed.

(** * New patch macros *)
Lemma lookup_none_set c a its its' d : item_set c a its its' -> d <> c -> lookup_opt d its = None -> lookup_opt d its' = None.
Proof. intros S N L. now rewrite (set_lookup_other _ _ _ _ _ S N). Qed.
Lemma set_all_spec kw : good_options kw -> forall l its, cmdline (lit "P:p:REb:z:F:d:o:Z") l its ->
  (forall c, In c (map fst kw) -> lookup_opt c its = None) ->
  exists l' its', set_all (mk_opts l (lit "P:p:REb:z:F:d:o:Z") []) kw = Ok (mk_opts l' (lit "P:p:REb:z:F:d:o:Z") []) /\
    cmdline (lit "P:p:REb:z:F:d:o:Z") l' its' /\ positionals its' = positionals its /\
    (forall d, ~ In d (map fst kw) -> lookup_opt d its' = lookup_opt d its) /\
    (forall c v, In (c, v) kw -> lookup_opt c its' = Some (arg_of v)).
Proof.
  intros [F N]. induction kw as [|[c v] kw IH]; intros l its C Nl.
  - exists l, its. cbn. intuition.
  - inversion F as [|? ? [K S] F']; subst. inversion N as [|? ? N1 N2]; subst. cbn [fst snd map] in *.
    destruct (opt_set_spec _ [] l its c v C K S) as (l1 & i1 & E & S1 & C1). { intros _. apply Nl. now left. }
    destruct (IH F' N2 l1 i1 C1) as (l' & its' & E' & C' & P' & L1 & L2).
    { intros d Hd. eapply lookup_none_set; eauto. { intros ->. auto. } apply Nl. now right. }
    exists l', its'. cbn [set_all]. rewrite (proj1 (known_valid _ _ _ _) K), E. cbn [bind]. split; [exact E'|]. split; [exact C'|].
    split; [now rewrite P', (set_positionals _ _ _ _ S1)|]. split.
    + intros d Hd. rewrite L1 by (intros Q; apply Hd; now right). apply (set_lookup_other _ _ _ _ _ S1). intros ->. apply Hd. now left.
    + intros d w [Q|Hi]; [|eauto]. injection Q as <- <-. rewrite L1 by auto. apply (set_lookup _ _ _ _ S1).
Qed.
Lemma in_keys (kw : list (char * oval)) c : In c (map fst kw) -> exists v, In (c, v) kw.
Proof. intros H. apply in_map_iff in H as ([d v] & <- & H). eauto. Qed.

(** The new macro has the requested number and options. *)
Theorem new_patch_spec n old kw : (0 <= n)%Z -> good_options kw -> (old = false -> ~ In 80 (map fst kw)) ->
  exists m ds its, new_patch (Some n) old kw = Ok m /\ patch_macro m ds its /\ patch_number ds its n /\
    ds = (if old then zdec n else []) /\ positionals its = (if old then [] else [zdec n]) /\
    m_preceding m = [] /\ m_prefix m = [] /\ m_suffix m = [] /\
    (forall c v, In (c, v) kw -> lookup_opt c its = Some (arg_of v)) /\
    (forall c, ~ In c (map fst kw) -> lookup_opt c its = None).
Proof.
  intros Hn G NP. unfold new_patch. change (optstring Patch) with (lit "P:p:REb:z:F:d:o:Z"). change (defaults Patch) with (@nil (char * oval)).
  assert (Ez : zdec n = dec (Z.to_N n)) by now apply zdec_dec.
  assert (Zz : n = Z.of_N (Z.to_N n)) by lia.
  destruct old.
  - cbn [bind]. destruct (set_all_spec kw G [] [] (L_nil _)) as (l' & its & -> & C & P & L1 & L2). { reflexivity. }
    cbn [bind]. eexists _, (zdec n), its. split; [reflexivity|]. cbn in P.
    split; [repeat split; auto; rewrite Ez; apply dec_digit|]. split.
    { left. rewrite Ez. split; [apply dec_nonempty|]. exists (Z.to_N n). now rewrite int_of_dec. }
    repeat split; auto.
  - destruct (pos_insert_spec _ [] [] [] 0%Z (VInt n) 0%nat (L_nil (lit "P:p:REb:z:F:d:o:Z"))) as (l1 & i1 & i2 & E & Ei & _ & C1).
    { cbn [oval_str]. rewrite Ez. apply dec_not_dashed. } { right. cbn. lia. }
    symmetry in Ei. apply app_eq_nil in Ei as [-> ->]. cbn [app oval_str] in C1.
    change (get_items (mk_opts [] (lit "P:p:REb:z:F:d:o:Z") [])) with (@nil nat). cbn [length Z.of_nat]. rewrite E. cbn [bind].
    destruct (set_all_spec kw G l1 _ C1) as (l' & its & -> & C & P & L1 & L2). { reflexivity. }
    cbn [bind]. eexists _, [], its. split; [reflexivity|]. cbn in P.
    split; [repeat split; auto|]. split.
    { right; right; left. split; auto. split. { rewrite L1 by auto. reflexivity. } exists (Z.to_N n). rewrite P, Ez. eauto. }
    repeat split; auto.
Qed.
(** Without options the text is known. *)
Lemma dec_escape n : escape_default (dec n) = dec n.
Proof.
  apply escape_default_none. eapply Forall_impl; [|apply dec_digit]. intros c Hc. split; [|now apply is_digit_not_space].
  destruct (is_quote c) eqn:Q; auto. apply orb_true_iff in Q as [Q|Q]; apply N.eqb_eq in Q; subst c; discriminate.
Qed.
Lemma first_positional os ds n : pos_insert (mk_opts [] os ds) 0 (VInt n) = Ok (mk_opts [mk_token (text_type (VInt n)) (zdec n)] os ds).
Proof. reflexivity. Qed.
Theorem new_patch_text n : (0 <= n)%Z ->
  (exists m, new_patch (Some n) false [] = Ok m /\ macro_line m = lit "%patch " ++ zdec n) /\
  (exists m, new_patch (Some n) true [] = Ok m /\ macro_line m = lit "%patch" ++ zdec n ++ [SPC]).
Proof.
  intros Hn. assert (Ez : zdec n = dec (Z.to_N n)) by now apply zdec_dec.
  split.
  - unfold new_patch. change (get_items (mk_opts [] (optstring Patch) (defaults Patch))) with (@nil nat). cbn [length Z.of_nat].
    rewrite first_positional. unfold text_type, needs_quoting. cbn [oval_str]. rewrite Ez, dec_plain.
    eexists. split; [reflexivity|]. unfold macro_line. cbn [m_opts o_tokens m_delim m_prefix m_name m_suffix].
    unfold tokens_str. cbn [flat_map token_str t_type t_value]. rewrite dec_escape, app_nil_r.
    destruct (dec (Z.to_N n)) eqn:E; [now apply dec_nonempty in E|]. cbn [app]; rewrite ?app_nil_r; reflexivity.
  - eexists. split; [reflexivity|]. unfold macro_line. cbn [m_opts o_tokens m_delim m_prefix m_name m_suffix]. cbn [tokens_str flat_map].
    cbn [app canonical_name]. now rewrite <- app_assoc.
Qed.

(** * Adding *)
Lemma numbered_spec l : forall ns i, patch_numbers l ns -> exists ix, numbered i l = Ok ix /\ map snd ix = ns /\
  (forall j k, In (j, k) ix -> (i <= j < i + length l)%nat).
Proof.
  unfold patch_numbers. induction l as [|m l IH]; intros ns i F; cbn [filter numbered] in *.
  - inversion F; subst. exists []. repeat split; auto; easy.
  - unfold is_patch. destruct (m_kind m).
    2: { inversion F as [|? ? ? ns' E F']; subst. rewrite E. cbn [bind]. destruct (IH ns' (S i) F') as (ix & -> & <- & B). cbn [bind].
         eexists. split; [reflexivity|]. split; [reflexivity|]. intros j q [Q|Q]; [injection Q as <- <-; cbn; lia|]. apply B in Q. cbn. lia. }
    all: destruct (IH ns (S i) F) as (ix & -> & <- & B); eexists; split; [reflexivity|]; split; [reflexivity|]; intros j q Q; apply B in Q; cbn; lia.
Qed.

Lemma nearest_in n l : forall b, nearest n b l = b \/ In (nearest n b l) l.
Proof.
  induction l as [|x l IH]; intros b; cbn [nearest]; [auto|]. destruct (_ <? _)%Z.
  - destruct (IH x) as [->|H]; [right; now left|right; now right].
  - destruct (IH b) as [->|H]; [now left|right; now right].
Qed.
Lemma nearest_best n l : forall b x, In x (b :: l) -> (Z.abs (snd (nearest n b l) - n) <= Z.abs (snd x - n))%Z.
Proof.
  induction l as [|y l IH]; intros b x; cbn [nearest]. { intros [->|[]]. lia. }
  intros H. destruct (Z.ltb_spec (Z.abs (snd y - n)) (Z.abs (snd b - n))).
  - destruct H as [->|H]; [|auto]. specialize (IH y y (or_introl eq_refl)). lia.
  - destruct H as [->|[->|H]]; [apply IH; now left| |apply IH; now right]. specialize (IH b b (or_introl eq_refl)). lia.
Qed.

Lemma patch_numbers_app a b ns : patch_numbers (a ++ b) ns <-> exists n1 n2, ns = n1 ++ n2 /\ patch_numbers a n1 /\ patch_numbers b n2.
Proof.
  unfold patch_numbers. rewrite filter_app. split.
  - intros F. apply Forall2_app_inv_l in F as (n1 & n2 & F1 & F2 & ->). eauto.
  - intros (n1 & n2 & -> & F1 & F2). now apply Forall2_app.
Qed.
Lemma numbered_split l : forall ns i ix, patch_numbers l ns -> numbered i l = Ok ix -> forall j k, In (j, k) ix ->
  exists a m b n1 n2, l = a ++ m :: b /\ j = (i + length a)%nat /\ m_kind m = Patch /\ number m = Ok k /\
    ns = n1 ++ k :: n2 /\ patch_numbers a n1 /\ patch_numbers b n2.
Proof.
  unfold patch_numbers. induction l as [|m l IH]; intros ns i ix F E j k Hj; cbn [filter numbered] in *.
  - injection E as <-. destruct Hj.
  - unfold is_patch in E. destruct (m_kind m) eqn:Ek.
    2: { inversion F as [|? q ? ns' E1 F']; subst. rewrite E1 in E. cbn [bind] in E. destruct (numbered (S i) l) as [ix'|] eqn:E2; [|discriminate].
         injection E as <-. destruct Hj as [Q|Hj].
         - injection Q as <- <-. exists [], m, l, [], ns'. cbn. rewrite Nat.add_0_r. repeat split; auto; constructor.
         - destruct (IH ns' (S i) ix' F' E2 j k Hj) as (a & m' & b & n1 & n2 & -> & -> & K & N & -> & A & B).
           exists (m :: a), m', b, (q :: n1), n2. cbn [filter app length]. rewrite Ek. repeat split; auto; try lia; constructor; auto. }
    all: destruct (IH ns (S i) ix F E j k Hj) as (a & m' & b & n1 & n2 & -> & -> & K & N & -> & A & B);
      exists (m :: a), m', b, n1, n2; cbn [filter app length]; rewrite Ek; repeat split; auto; try lia.
Qed.

Lemma growing_app a b : growing (a ++ b) <-> growing a /\ growing b /\ forall x y, In x a -> In y b -> (x < y)%Z.
Proof.
  induction a as [|x a IH]; cbn [app growing].
  - split; [intros G; repeat split; auto; easy|tauto].
  - rewrite Forall_app, IH, !Forall_forall. split.
    + intros ((F1 & F2) & G1 & G2 & L). repeat split; auto. intros ? y [<-|Ha] Hb; auto.
    + intros ((F1 & G1) & G2 & L). repeat split; auto; intros; auto; apply L; cbn; auto.
Qed.

(** Adding inserts one line; every other line is kept.  Growing numbers stay growing. *)
Theorem add_spec p num old kw m n ns : new_patch num old kw = Ok m -> number m = Ok n -> patch_numbers (p_macros p) ns ->
  exists a b n1 n2, p_macros p = a ++ b /\ add_patch_macro p num old kw = Ok (mk_prep (a ++ m :: b) (p_remainder p)) /\
    ns = n1 ++ n2 /\ patch_numbers a n1 /\ patch_numbers b n2 /\
    (ns = [] -> b = []) /\
    (growing ns -> ~ In n ns -> growing (n1 ++ n :: n2)).
Proof.
  intros Em En Pn. unfold add_patch_macro. rewrite Em. cbn [bind].
  destruct (numbered_spec _ _ 0%nat Pn) as (ix & E & <- & _). rewrite E. cbn [bind].
  destruct ix as [|x ix].
  - cbn [bind]. exists (p_macros p), [], [], []. rewrite firstn_all, skipn_all, app_nil_r. cbn. repeat split; auto; constructor.
  - rewrite En. cbn [bind]. destruct (nearest n x ix) as [j k] eqn:Ne. cbn [bind].
    assert (Hj : In (j, k) (x :: ix)). { destruct (nearest_in n ix x) as [Q|Q]; rewrite Ne in Q; [left; auto|now right]. }
    assert (Bst : forall y, In y (map snd (x :: ix)) -> (Z.abs (k - n) <= Z.abs (y - n))%Z).
    { intros y Hy. apply in_map_iff in Hy as (q & <- & Hq). pose proof (nearest_best n ix x q Hq) as B. rewrite Ne in B. exact B. }
    destruct (numbered_split _ _ _ _ Pn E j k Hj) as (a & m' & b & n1 & n2 & El & Ej & K & Nk & Es & Pa & Pb). cbn in Ej. subst j.
    cbv zeta. rewrite El. destruct (Z.leb_spec k n) as [Lk|Lk].
    + exists (a ++ [m']), b, (n1 ++ [k]), n2. repeat split.
      * now rewrite <- app_assoc.
      * cbn [bind]. change (S (length a)) with (1 + length a)%nat. replace (1 + length a)%nat with (length (a ++ [m'])) by (rewrite app_length; cbn; lia).
        replace (a ++ m' :: b) with ((a ++ [m']) ++ b) by now rewrite <- app_assoc.
        rewrite firstn_app, firstn_all, skipn_app, skipn_all, Nat.sub_diag. cbn [firstn skipn app]. now rewrite app_nil_r.
      * rewrite Es. now rewrite <- app_assoc.
      * apply patch_numbers_app. exists n1, [k]. repeat split; auto. unfold patch_numbers. cbn. rewrite K. auto.
      * exact Pb.
      * cbn. discriminate.
      * rewrite Es in *. intros G Nn. rewrite <- app_assoc. cbn [app]. apply growing_app in G as (G1 & G2 & L). cbn [growing] in G2. destruct G2 as [F2 G2].
        assert (Hn2 : forall y, In y n2 -> (n < y)%Z).
        { intros y Hy. rewrite Forall_forall in F2. pose proof (F2 y Hy). assert (Hb : In y (n1 ++ k :: n2)) by (apply in_or_app; right; now right). pose proof (Bst y Hb).
          assert (y <> n) by (intros ->; auto). lia. }
        assert (k <> n) by (intros ->; apply Nn; apply in_or_app; right; now left).
        apply growing_app. split; [auto|]. split.
        { cbn [growing]. split; [constructor; [lia|auto]|]. split; [apply Forall_forall; auto|auto]. }
        { intros u y Hu [<-|[<-|Hy]]; [apply L; [auto|now left]| |apply L; [auto|now right]].
          pose proof (L u k Hu (or_introl eq_refl)). lia. }
    + exists a, (m' :: b), n1, (k :: n2). repeat split.
      * cbn [bind]. rewrite firstn_app, firstn_all, skipn_app, skipn_all, Nat.sub_diag. cbn [firstn skipn app]. now rewrite app_nil_r.
      * exact Es.
      * exact Pa.
      * unfold patch_numbers. cbn. rewrite K. constructor; auto.
      * cbn. discriminate.
      * rewrite Es in *. intros G Nn. apply growing_app in G as (G1 & G2 & L). 
        apply growing_app. split; [auto|]. split.
        { cbn [growing]. cbn [growing] in G2. destruct G2 as [F2 G2]. split; [|auto]. constructor; [lia|]. eapply Forall_impl; [|exact F2]. cbn. intros; lia. }
        { intros u y Hu [<-|Hy]; [|now apply L]. pose proof (L u k Hu (or_introl eq_refl)).
          assert (Hb : In u (n1 ++ k :: n2)) by (apply in_or_app; now left). pose proof (Bst u Hb). assert (u <> n) by (intros ->; auto). lia. }
Qed.
Theorem add_lines p num old kw m n ns : new_patch num old kw = Ok m -> number m = Ok n -> patch_numbers (p_macros p) ns ->
  exists p' a b, add_patch_macro p num old kw = Ok p' /\ prep_raw p = a ++ b /\ prep_raw p' = a ++ [macro_line m] ++ b.
Proof.
  intros Em En Pn. destruct (add_spec p num old kw m n ns Em En Pn) as (a & b & _ & _ & Ep & E & _).
  eexists _, (flat_map macro_raw a), (flat_map macro_raw b ++ p_remainder p). split; [exact E|]. unfold prep_raw. cbn [p_macros p_remainder].
  rewrite Ep, !flat_map_app. cbn [flat_map]. 
  assert (macro_raw m = [macro_line m]) as ->. { unfold new_patch in Em. destruct (match num with Some _ => _ | None => _ end); [|discriminate]. cbn [bind] in Em.
    destruct (set_all _ kw); [|discriminate]. injection Em as <-. reflexivity. }
  split; repeat (rewrite <- ?app_assoc; cbn [app]); reflexivity.
Qed.

(** * Removing *)
Lemma index_first l : forall i a m b, l = a ++ m :: b -> m_kind m = Patch -> forall n, number m = Ok n ->
  (forall x, In x a -> m_kind x = Patch -> exists k, number x = Ok k /\ k <> n) -> index_of_patch n i l = Ok (Some (i + length a)%nat).
Proof.
  intros i a. revert i l. induction a as [|x a IH]; intros i l m b -> K n N F; cbn [app index_of_patch length].
  - unfold is_patch. rewrite K, N. cbn [bind]. rewrite Z.eqb_refl. f_equal. f_equal. lia.
  - assert (IH' : index_of_patch n (S i) (a ++ m :: b) = Ok (Some (i + S (length a))%nat)).
    { rewrite (IH (S i) _ m b eq_refl K n N). { do 2 f_equal. lia. } intros; apply F; cbn; auto. }
    unfold is_patch. destruct (m_kind x) eqn:Ex; auto. destruct (F x (or_introl eq_refl) Ex) as (k & -> & Nk). cbn [bind].
    rewrite (proj2 (Z.eqb_neq k n) Nk). exact IH'.
Qed.
Lemma index_absent n l : forall i, (forall x, In x l -> m_kind x = Patch -> exists k, number x = Ok k /\ k <> n) -> index_of_patch n i l = Ok None.
Proof.
  induction l as [|x l IH]; intros i F; cbn [index_of_patch]; [auto|].
  assert (IH' : index_of_patch n (S i) l = Ok None) by (apply IH; intros; apply F; cbn; auto).
  unfold is_patch. destruct (m_kind x) eqn:Ex; auto. destruct (F x (or_introl eq_refl) Ex) as (k & -> & Nk). cbn [bind].
  now rewrite (proj2 (Z.eqb_neq k n) Nk).
Qed.

Lemma delete_mid a m b r : delete (mk_prep (a ++ m :: b) r) (Z.of_nat (length a)) =
  Ok (match b with
      | [] => mk_prep a (m_preceding m ++ r)
      | x :: b' => mk_prep (a ++ with_preceding (m_preceding m ++ m_preceding x) x :: b') r
      end).
Proof.
  unfold delete. cbn [p_macros p_remainder]. rewrite (py_index_nonneg (a ++ m :: b) (length a)) by (rewrite app_length; cbn; lia).
  rewrite nth_error_mid, remove_at_app. destruct b as [|x b].
  - rewrite app_nil_r, Z.ltb_irrefl. reflexivity.
  - assert ((Z.of_nat (length a) <? Z.of_nat (length (a ++ x :: b)))%Z = true) as -> by (apply Z.ltb_lt; rewrite app_length; cbn; lia).
    rewrite (py_index_nonneg (a ++ x :: b) (length a)) by (rewrite app_length; cbn; lia).
    now rewrite update_at_app.
Qed.
(** Deleting a macro removes its line and nothing else. *)
Theorem delete_lines a m b r : exists p', delete (mk_prep (a ++ m :: b) r) (Z.of_nat (length a)) = Ok p' /\
  map macro_line (p_macros p') = map macro_line (a ++ b) /\
  prep_raw (mk_prep (a ++ m :: b) r) = (flat_map macro_raw a ++ m_preceding m) ++ [macro_line m] ++ (flat_map macro_raw b ++ r) /\
  prep_raw p' = (flat_map macro_raw a ++ m_preceding m) ++ (flat_map macro_raw b ++ r).
Proof.
  rewrite delete_mid. eexists. split; [reflexivity|]. unfold prep_raw. cbn [p_macros p_remainder]. rewrite flat_map_app. cbn [flat_map].
  destruct b as [|x b]; cbn [p_macros p_remainder flat_map app]; unfold macro_raw at 2; (split; [|split]);
    rewrite ?map_app, ?flat_map_app, ?app_nil_r; cbn [map flat_map]; unfold macro_raw; cbn [m_preceding with_preceding]; repeat (rewrite <- ?app_assoc; cbn [app]); auto.
Qed.

Theorem remove_first_spec p a m b n : p_macros p = a ++ m :: b -> a <> [] -> m_kind m = Patch -> number m = Ok n ->
  (forall x, In x a -> m_kind x = Patch -> exists k, number x = Ok k /\ k <> n) ->
  exists p' before after, remove_patch_macro p n = Ok p' /\ map macro_line (p_macros p') = map macro_line (a ++ b) /\
    prep_raw p = before ++ [macro_line m] ++ after /\ prep_raw p' = before ++ after /\
    before = flat_map macro_raw a ++ m_preceding m.
Proof.
  intros Ep Na K N F. unfold remove_patch_macro. rewrite (index_first _ 0%nat a m b Ep K n N F). cbn [bind Nat.add].
  destruct p as [ms r]. cbn in Ep. subst ms. destruct (delete_lines a m b r) as (p' & E & M & R1 & R2).
  destruct a as [|x a]; [congruence|]. cbn [length]. exists p'. eexists _, _. split; [exact E|]. split; [exact M|]. split; [exact R1|]. split; [exact R2|]. reflexivity.
Qed.
Theorem remove_absent p n : (forall x, In x (p_macros p) -> m_kind x = Patch -> exists k, number x = Ok k /\ k <> n) ->
  remove_patch_macro p n = Ok p.
Proof. intros F. unfold remove_patch_macro. now rewrite (index_absent n _ 0%nat F). Qed.
(** The first macro of the section is never removed. *)
Theorem remove_front p m b n : p_macros p = m :: b -> m_kind m = Patch -> number m = Ok n -> remove_patch_macro p n = Ok p.
Proof. intros E K N. unfold remove_patch_macro. rewrite (index_first _ 0%nat [] m b E K n N); [reflexivity|easy]. Qed.

(** [del prep.name] *)
Theorem delattr_spec p a m b name : p_macros p = a ++ m :: b -> m_name m = PCT :: name -> valid_prep_macro name = true ->
  Forall (fun x => m_name x <> PCT :: name) a ->
  exists p' before after, delattr p name = Some (Ok p') /\ map macro_line (p_macros p') = map macro_line (a ++ b) /\
    prep_raw p = before ++ [macro_line m] ++ after /\ prep_raw p' = before ++ after /\ before = flat_map macro_raw a ++ m_preceding m.
Proof.
  intros Ep En V F. unfold delattr. rewrite V. cbn [negb]. unfold find.
  assert (find_index (fun x => str_eqb (m_name x) (PCT :: name)) (p_macros p) = Some (length a)) as ->.
  { rewrite Ep. clear -En F. induction a as [|x a IH]; cbn [app find_index length].
    - now rewrite En, str_eqb_refl.
    - inversion F; subst. rewrite (proj2 (str_eqb_neq _ _) H1). now rewrite IH. }
  destruct p as [ms r]. cbn in Ep. subst ms. destruct (delete_lines a m b r) as (p' & E & M & R1 & R2).
  exists p'. eexists _, _. rewrite E. split; [reflexivity|]. split; [exact M|]. split; [exact R1|]. split; [exact R2|]. reflexivity.
Qed.

(** * For examples *)
Lemma no_brace_unwrapped line : ~ In LBRACE line -> unwrapped line.
Proof.
  intros N. split.
  - intros (a & p & w & b & -> & _). apply N. apply in_or_app. right. cbn; auto.
  - intros (x & ->). apply N. cbn; auto.
Qed.
Definition mentions_b (line : str) : bool :=
  existsb (fun k => existsb (fun w => startswith (skipn k line) w) prep_words) (seq 0 (S (length line))).
Lemma mentions_dec line : mentions_b line = false -> ~ mentions_macro line.
Proof.
  intros H (k & w & r & Hw & E). enough (mentions_b line = true) by congruence. unfold mentions_b. apply existsb_exists.
  exists k. split.
  - apply in_seq. destruct (Nat.le_gt_cases k (length line)); [lia|]. rewrite skipn_all2 in E by lia.
    destruct w; [|discriminate]. cbn in Hw. intuition discriminate.
  - apply existsb_exists. exists w. split; auto. rewrite E. apply startswith_iff; eauto.
Qed.
End U.
