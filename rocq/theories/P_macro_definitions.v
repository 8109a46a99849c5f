From Coq Require Import Ascii String.
From Coq Require Import NArith ZArith List Bool Lia.
From Verif Require Import PyStr PyStrFacts Regex RegexFacts M_value P_value M_macro_definitions Spec_macro_definitions.
Import ListNotations.
Open Scope N_scope.

Lemma blank_forallb s : forallb is_space s = true <-> blank s.
Proof. unfold blank. rewrite forallb_forall, Forall_forall. tauto. Qed.

Section U.
Context {U : Unicode}.

(** What a match of the line pattern says about the line. *)
Record shape (line : str) (m : st) (w0 dn sc k w1 nm w2 body w3 : str) : Prop := {
  sh_line : line = w0 ++ dn ++ sc ++ k ++ w1 ++ nm ++ w2 ++ body ++ w3;
  sh_1 : group_str 1 m = w0; sh_3 : group_str 3 m = sc; sh_4 : group_str 4 m = k; sh_5 : group_str 5 m = w1;
  sh_6 : group_str 6 m = nm; sh_7 : group_str 7 m = w2; sh_8 : group_str 8 m = body; sh_9 : group_str 9 m = w3;
  sh_w0 : blank w0; sh_k : keyword k; sh_w1 : blank w1; sh_w2 : blank w2; sh_w3 : blank w3 \/ w3 = [BSLASH];
  sh_sc : (dn = lit "%dnl" /\ group 2 m = Some (lit "%dnl") /\ exists x, sc = x ++ [PCT]) \/
          (dn = [] /\ group 2 m = None /\ (sc = [PCT] \/ sc = [HASH] \/ exists x, sc = HASH :: x ++ [PCT])) }.

Lemma md_match line m : ~ In LF line -> re_match md_regex line = Some m ->
  exists w0 dn sc k w1 nm w2 body w3, shape line m w0 dn sc k w1 nm w2 body w3.
Proof.
  intros HLF HM. apply re_match_sound in HM. unfold md_regex in HM.
  apply Match_Seq in HM as (s0 & HC & HM). apply Match_Caret in HC as [-> _].
  apply Match_Seq in HM as (s1 & H1 & HM). apply Match_Grp_Star in H1 as (w0 & E1 & B1 & _ & C1).
  cbn [rest caps] in E1, C1.
  apply Match_Seq in HM as (s2 & H2 & HM).
  apply Match_Seq in HM as (s3 & H3 & HM). apply Match_Grp_simple in H3 as (sc & t3 & H3 & E3 & _ & _ & ->); [|cbn; tauto].
  apply Match_Seq in HM as (s4 & H4 & HM). apply Match_Grp_simple in H4 as (k & t4 & H4 & E4 & _ & _ & ->); [|cbn; tauto].
  apply Match_Seq in HM as (s5 & H5 & HM). apply Match_Grp_Plus in H5 as (w1 & N5 & E5 & B5 & _ & C5).
  apply Match_Seq in HM as (s6 & H6 & HM). apply Match_Grp_simple in H6 as (nm & t6 & H6 & E6 & _ & _ & ->); [|cbn; tauto].
  apply Match_Seq in HM as (s7 & H7 & HM). apply Match_Grp_Plus in H7 as (w2 & N7 & E7 & B7 & _ & C7).
  apply Match_Seq in HM as (s8 & H8 & HM). apply Match_Grp_Star in H8 as (body & E8 & B8 & _ & C8).
  apply Match_Seq in HM as (s9 & H9 & HM). apply Match_Grp_simple in H9 as (w3 & t9 & H9 & E9 & _ & _ & ->); [|cbn; tauto].
  apply Match_Dollar in HM as [-> HD].
  cbn [rest caps pre] in *.
  apply at_dollar_noLF in HD.
  2:{ intros Q. apply HLF. rewrite E1. apply in_app_iff. right.
      apply Match_span in H2 as (dn & -> & _). apply in_app_iff. right. rewrite E3, E4, E5, E6, E7, E8, E9.
      rewrite !in_app_iff. tauto. }
  rewrite HD, app_nil_r in E9.
  assert (Hk : keyword k).
  { apply Match_Alt in H4 as [H4|H4]; apply Match_word in H4 as (H4 & _); rewrite E4 in H4; apply app_inv_tail in H4; [left|right]; auto. }
  assert (Hw3 : blank w3 \/ w3 = [BSLASH]).
  { apply Match_Alt in H9 as [H9|H9].
    - left. apply Match_Star in H9 as (w & Q & B & _). rewrite E9, HD, app_nil_r in Q. subst. now apply blank_forallb.
    - right. apply Match_Ch in H9 as (c & Q & B & _). rewrite E9, HD in Q. apply N.eqb_eq in B. now subst. }
  assert (Hdn : (exists dn, dn = lit "%dnl" /\ rest s1 = dn ++ rest s2 /\ caps s2 = (2%nat, dn) :: caps s1) \/ s2 = s1).
  { apply Match_Alt in H2 as [H2|H2].
    - left. apply Match_Grp_simple in H2 as (dn & t2 & H2 & E2 & _ & _ & ->); [|cbn; tauto].
      apply Match_word in H2 as (Q & _). exists dn. cbn [rest caps]. split; auto. rewrite E2 in Q. now apply app_inv_tail in Q.
    - right. now apply Match_Eps in H2. }
  assert (Hline : exists dn, line = w0 ++ dn ++ sc ++ k ++ w1 ++ nm ++ w2 ++ body ++ w3 /\
    ((dn = lit "%dnl" /\ caps s2 = (2%nat, dn) :: caps s1) \/ (dn = [] /\ caps s2 = caps s1))).
  { destruct Hdn as [(dn & Hd & Er & Ec)|Es].
    - exists dn. split; [|left; auto]. rewrite E1, Er, E3, E4, E5, E6, E7, E8, E9. reflexivity.
    - exists []. split; [|right; subst; auto]. subst s2. rewrite E1, E3, E4, E5, E6, E7, E8, E9. reflexivity. }
  destruct Hline as (dn & Hl & Hd).
  exists w0, dn, sc, k, w1, nm, w2, body, w3.
  rewrite blank_forallb in B1, B5, B7.
  assert (Hc : cap_get 2 (caps s2) = match dn with [] => None | _ => Some dn end).
  { destruct Hd as [[-> ->]|[-> ->]]; [reflexivity|]. rewrite C1. reflexivity. }
  constructor; auto; try (unfold group_str, group; cbn [caps]; rewrite ?C8, ?C7, ?C5; cbn; try reflexivity).
  - destruct Hd as [[-> ->]|[-> ->]]; rewrite C1; reflexivity.
  - unfold re_sc in H3. apply Match_IfGrp in H3. rewrite Hc in H3.
    assert (K : forall s, Match (Seq (Star false dot) (chr PCT)) s t3 -> exists x, rest s = (x ++ [PCT]) ++ rest t3).
    { intros s Q. apply Match_Seq in Q as (u & Q1 & Q2). apply Match_Star in Q1 as (x & Q1 & _).
      apply Match_Ch in Q2 as (c & Q2 & Q3 & _). apply N.eqb_eq in Q3. subst c.
      exists x. rewrite Q1, Q2, <- app_assoc. reflexivity. }
    destruct Hd as [[-> Hd]|[-> Hd]]; cbn [lit map list_ascii_of_string] in H3; cbn iota in H3.
    + left. split; [auto|]. split.
      * unfold group. cbn [caps]. rewrite ?C8, ?C7, ?C5. cbn [cap_get Nat.eqb caps]. rewrite ?C5; cbn [cap_get Nat.eqb caps]. rewrite Hc. reflexivity.
      * destruct (K _ H3) as (x & Q). rewrite E3 in Q. apply app_inv_tail in Q. eauto.
    + right. split; [auto|]. split.
      * unfold group. cbn [caps]. rewrite ?C8, ?C7, ?C5. cbn [cap_get Nat.eqb caps]. rewrite ?C5; cbn [cap_get Nat.eqb caps]. rewrite Hc. reflexivity.
      * apply Match_Alt in H3 as [H3|H3].
        -- apply Match_Ch in H3 as (c & Q & B & _). rewrite E3 in Q. apply N.eqb_eq in B. subst c.
           left. apply (app_inv_tail (rest t3)). exact Q.
        -- right. apply Match_Seq in H3 as (u & Q1 & Q2). apply Match_Ch in Q1 as (c & Q1 & B & _). apply N.eqb_eq in B. subst c.
           apply Match_Alt in Q2 as [Q2|Q2].
           ++ right. destruct (K _ Q2) as (x & Q). exists x. rewrite E3, Q in Q1. apply (app_inv_tail (rest t3)). rewrite Q1. reflexivity.
           ++ left. apply Match_Eps in Q2. subst u. rewrite E3 in Q1. apply (app_inv_tail (rest t3)). exact Q1.
Qed.

(** The trailing white space of a body. *)
Lemma split_trailing_noLF body w3 b w : split_trailing body w3 = (b, w) -> 
  (forall x y, body = x ++ y ++ [LF] -> y <> [] -> forallb space_not_lf y = true -> False) -> b ++ w = body ++ w3.
Proof.
  unfold split_trailing, re_split1, re_search. destruct (search_from re_trailing [] body) as [[pr m]|] eqn:E.
  - apply search_from_Some in E as (x & rs & -> & -> & Hm & _). rewrite app_nil_r in *. rewrite rev_involutive.
    intros Q; injection Q as <- <-. intros HN.
    assert (HM : Match re_trailing (mkst (rev x) rs []) m).
    { apply results_Match. destruct (results _ _); cbn in Hm; [discriminate|]. injection Hm as ->. now left. }
    unfold re_trailing in HM. apply Match_Seq in HM as (s1 & HM & HD). apply Match_Grp_Plus in HM as (y & Ny & E1 & B & _ & C).
    apply Match_Dollar in HD as [-> HD]. cbn [rest caps] in *. unfold group_str, group. rewrite C. cbn.
    rewrite E1. destruct (rest s1) as [|c [|? ?]]; cbn in HD; try discriminate.
    + now rewrite app_nil_r, <- app_assoc.
    + apply N.eqb_eq in HD. subst c. exfalso. apply (HN x y); auto. now rewrite E1.
  - intros Q; injection Q as <- <-. auto.
Qed.

(** Bodies with neither "%{" nor "%(" have no open bracket. *)
Lemma count_from_none : forall n s, (length s <= n)%nat -> (forall a b, s <> a ++ PCT :: LBRACE :: b) -> (forall a b, s <> a ++ PCT :: LPAR :: b) ->
  count_from 0 0 s = (0%nat, 0%nat).
Proof.
  induction n as [|n IH]; intros s L N1 N2; [destruct s; [reflexivity|cbn in L; lia]|].
  destruct s as [|c [|d s]]; [reflexivity| |].
  - cbn [count_from]. cbn. now rewrite !andb_false_r.
  - assert (T1 : forall t, (exists a, c :: d :: s = a ++ t) -> (length t <= n)%nat -> count_from 0 0 t = (0%nat, 0%nat)).
    { intros t (a & E) Lt. apply IH; auto; intros x y ->; [apply (N1 (a ++ x) y)|apply (N2 (a ++ x) y)]; rewrite E, <- app_assoc; reflexivity. }
    assert (A1 : count_from 0 0 (d :: s) = (0%nat, 0%nat)) by (apply T1; [exists [c]; reflexivity|cbn in *; lia]).
    assert (A2 : count_from 0 0 s = (0%nat, 0%nat)) by (apply T1; [exists [c; d]; reflexivity|cbn in *; lia]).
    remember (d :: s) as ds eqn:Eds. cbn [count_from]. rewrite Eds at 1. rewrite A1, A2. cbn [negb Nat.eqb]. rewrite !andb_false_r.
    destruct (c =? BSLASH); auto. destruct (N.eqb_spec c PCT) as [->|]; auto.
    destruct (N.eqb_spec d LBRACE) as [->|]; [exfalso; apply (N1 [] s); subst; reflexivity|].
    destruct (N.eqb_spec d LPAR) as [->|]; [exfalso; apply (N2 [] s); subst; reflexivity|]. auto.
Qed.

Lemma sub2_dec a b (s : str) : (exists x y, s = x ++ a :: b :: y) \/ (forall x y, s <> x ++ a :: b :: y).
Proof.
  induction s as [|c s [IH|IH]].
  - right. intros [|? ?] ? Q; discriminate.
  - left. destruct IH as (x & y & ->). exists (c :: x), y. reflexivity.
  - destruct (N.eq_dec c a) as [->|Na].
    + destruct s as [|d s]; [right; intros [|? [|? ?]] ? Q; discriminate|].
      destruct (N.eq_dec d b) as [->|Nb]; [left; exists [], s; reflexivity|].
      right. intros [|? x] y Q; injection Q as Q1 Q2; [congruence|]. subst. eapply IH; eauto.
    + right. intros [|? x] y Q; injection Q as Q1 Q2; [congruence|]. subst. eapply IH; eauto.
Qed.
Lemma Classical_or_count s : ((exists x y, s = x ++ PCT :: LBRACE :: y) \/ (exists x y, s = x ++ PCT :: LPAR :: y)) \/
  count_from 0 0 s = (0%nat, 0%nat).
Proof.
  destruct (sub2_dec PCT LBRACE s) as [?|N1]; auto. destruct (sub2_dec PCT LPAR s) as [?|N2]; auto.
  right. eapply count_from_none; eauto.
Qed.
Lemma endswith_char s c : endswith s [c] = true <-> exists a, s = a ++ [c].
Proof. apply endswith_iff. Qed.

Lemma split_on_app c a : forall cur s, ~ In c a -> split_on c cur (a ++ s) = split_on c (rev a ++ cur) s.
Proof.
  induction a as [|x a IH]; intros cur s N; cbn [app split_on rev]; auto.
  destruct (N.eqb_spec c x) as [->|]; [exfalso; apply N; now left|].
  rewrite IH by (intros Q; apply N; now right). now rewrite <- app_assoc.
Qed.
Lemma split_on_lines c : forall (ls : list (str * bool)) b, ~ In c b -> Forall (fun l => ~ In c (fst l)) ls ->
  split_on c [] (b ++ flat_map (fun l => c :: fst l) ls) = b :: map fst ls.
Proof.
  induction ls as [|l ls IH]; intros b N F; cbn [flat_map map].
  - rewrite split_on_app by auto. cbn. now rewrite app_nil_r, rev_involutive.
  - inversion F; subst. rewrite split_on_app by auto. cbn [app split_on]. rewrite N.eqb_refl, app_nil_r, rev_involutive.
    f_equal. apply IH; auto.
Qed.

Lemma extend_body_spec : forall lines b b' ls, extend_body b lines = (b', ls) ->
  exists taken, lines = taken ++ ls /\ b' = b ++ flat_map (fun l => LF :: fst l) taken /\
    (ls = [] \/ body_open b' = false) /\ (taken <> [] -> body_open b = true) /\
    (forall t l, taken = t ++ [l] -> body_open (b ++ flat_map (fun l => LF :: fst l) t) = true).
Proof.
  assert (K : forall t (l : str * bool), [] = t ++ [l] -> False) by (intros [|? ?] ? Q; discriminate).
  induction lines as [|[l v] lines IH]; intros b b' ls; cbn [extend_body].
  - intros Q; injection Q as <- <-. exists []. cbn [flat_map app]. rewrite app_nil_r.
    refine (conj eq_refl (conj eq_refl (conj (or_introl eq_refl) (conj _ _)))); [congruence|].
    intros t l Q. destruct (K _ _ Q).
  - destruct (body_open b) eqn:E.
    + intros Q. apply IH in Q as (taken & -> & -> & Hs & Hf & Hl). exists ((l, v) :: taken). cbn [flat_map fst].
      rewrite <- app_assoc in *. refine (conj _ (conj _ (conj _ (conj _ _)))); auto.
      intros [|x t] z Q; injection Q as <- Q; [cbn [flat_map]; now rewrite app_nil_r|].
      specialize (Hl t z Q). cbn [flat_map fst]. rewrite <- app_assoc in Hl. exact Hl.
    + intros Q; injection Q as <- <-. exists []. cbn [flat_map app]. rewrite app_nil_r.
      refine (conj eq_refl (conj eq_refl (conj (or_intror E) (conj _ _)))); [congruence|].
      intros t z Q. destruct (K _ _ Q).
Qed.

Lemma space_plain c : is_space c = true -> (c =? BSLASH) = false /\ (c =? PCT) = false /\ (c =? LBRACE) = false /\
  (c =? RBRACE) = false /\ (c =? LPAR) = false /\ (c =? RPAR) = false.
Proof.
  intros E. repeat split; destruct (N.eqb_spec c BSLASH), (N.eqb_spec c PCT), (N.eqb_spec c LBRACE), (N.eqb_spec c RBRACE),
    (N.eqb_spec c LPAR), (N.eqb_spec c RPAR); subst; try discriminate; auto.
Qed.
Lemma count_cons2 bc pc c d s : count_from bc pc (c :: d :: s) =
  if c =? BSLASH then count_from bc pc s
  else if c =? PCT then
    if d =? LBRACE then count_from (S bc) pc s
    else if d =? LPAR then count_from bc (S pc) s
    else count_from bc pc s
  else if (c =? LBRACE) && negb (Nat.eqb bc 0) then count_from (S bc) pc (d :: s)
  else if (c =? RBRACE) && negb (Nat.eqb bc 0) then count_from (pred bc) pc (d :: s)
  else if (c =? LPAR) && negb (Nat.eqb pc 0) then count_from bc (S pc) (d :: s)
  else if (c =? RPAR) && negb (Nat.eqb pc 0) then count_from bc (pred pc) (d :: s)
  else count_from bc pc (d :: s).
Proof. reflexivity. Qed.
Lemma count_one bc pc c : is_space c = true -> count_from bc pc [c] = (bc, pc).
Proof. intros E. apply space_plain in E as (E1 & E2 & E3 & E4 & E5 & E6). cbn [count_from]. now rewrite E3, E4, E5, E6. Qed.
Lemma count_snoc c : is_space c = true -> forall n s bc pc, (length s <= n)%nat ->
  count_from bc pc (s ++ [c; LF]) = count_from bc pc (s ++ [c]).
Proof.
  intros E. pose proof (space_plain c E) as (E1 & E2 & E3 & E4 & E5 & E6).
  induction n as [|n IH]; intros s bc pc L; destruct s as [|d [|e s]]; cbn [app].
  1,4: rewrite count_cons2, E1, E2, E3, E4, E5, E6; cbn [andb]; rewrite !count_one; auto.
  1,2: cbn in L; lia.
  - rewrite !count_cons2. rewrite ?E1, ?E2, ?E3, ?E4, ?E5, ?E6. cbn [andb]. rewrite !count_one by auto. reflexivity.
  - cbn in L. rewrite (count_cons2 _ _ d e (s ++ [c; LF])), (count_cons2 _ _ d e (s ++ [c])). change (e :: s ++ [c; LF]) with ((e :: s) ++ [c; LF]). change (e :: s ++ [c]) with ((e :: s) ++ [c]).
    rewrite !IH by (cbn; lia). reflexivity.
Qed.
Lemma body_open_space B c : is_space c = true -> body_open (B ++ [c; LF]) = body_open (B ++ [c]).
Proof.
  intros E. unfold body_open, count_brackets. rewrite (count_snoc c E _ B 0 0 (le_n _)).
  assert (forall s x, is_space x = true -> endswith (s ++ [x]) [BSLASH] = false).
  { intros s x Ex. destruct (endswith (s ++ [x]) [BSLASH]) eqn:Q; auto. apply endswith_char in Q as (a & Q).
    apply app_inj_tail in Q as [_ ->]. discriminate. }
  change (B ++ [c; LF]) with (B ++ [c] ++ [LF]). rewrite app_assoc. rewrite !H; auto.
Qed.

Lemma sc_prefix_snoc x c : sc_prefix (x ++ [c]) = x.
Proof.
  unfold sc_prefix. rewrite removelast_last. destruct (Nat.ltb 1 (length (x ++ [c]))) eqn:E; auto.
  apply Nat.ltb_ge in E. rewrite app_length in E. destruct x; auto. cbn in E. lia.
Qed.
Lemma sc_hashed_snoc x c : sc_hashed (x ++ [c]) = (c =? HASH).
Proof. unfold sc_hashed. now rewrite rev_app_distr. Qed.
Lemma keyword_global k : keyword k -> (if str_eqb k (lit "global") then lit "global" else lit "define") = k.
Proof. intros [->| ->]; reflexivity. Qed.

Lemma trailing_app a w : blank w -> w <> [] -> trailing_ws (a ++ w).
Proof.
  intros B N. destruct (exists_last N) as (w' & c & ->). exists (a ++ w'), c. rewrite app_assoc. split; auto.
  unfold blank in B. rewrite Forall_forall in B. apply B. apply in_app_iff. right. now left.
Qed.


Lemma make_def_raw line m v buffer lines d rest : clean (line :: map fst lines) ->
  re_match md_regex line = Some m -> make_def m v buffer lines = (d, rest) ->
  exists taken, lines = taken ++ rest /\ mdef_raw d = buffer ++ line :: map fst taken.
Proof.
  intros [HC HE] HM. inversion HC as [|? ? [HLF [Hdh Htr]] HF]; subst.
  destruct (md_match _ _ HLF HM) as (w0 & dn & sc & k & w1 & nm & w2 & body & w3 & S).
  destruct S as [SL S1 S3 S4 S5 S6 S7 S8 S9 B0 BK B1 B2 B3 BS].
  unfold make_def. rewrite S1, S3, S4, S5, S6, S7, S8, S9.
  set (dnl := match group 2 m with Some _ => true | None => false end).
  set (esc := sc_escaped sc). set (hsh := sc_hashed sc).
  destruct (if negb dnl && negb esc && negb hsh then _ else _) as [[bd w] ls] eqn:EB.
  destruct (split_trailing bd w) as [b' w'] eqn:ET.
  intros Q; injection Q as <- <-.
  assert (HLFs : ~ In LF body /\ ~ In LF w3).
  { rewrite SL in HLF. rewrite !in_app_iff in HLF. tauto. }
  destruct HLFs as [HLFb HLFw].
  assert (HFl : Forall (fun l => ~ In LF (fst l)) lines).
  { apply Forall_forall. intros l Hl. rewrite Forall_forall in HF. apply (HF (fst l)). apply in_map. auto. }
  assert (KB : exists taken, lines = taken ++ ls /\ b' ++ w' = (body ++ w3) ++ flat_map (fun l => LF :: fst l) taken).
  { destruct (negb dnl && negb esc && negb hsh).
    - destruct (if str_eqb w3 [BSLASH] then _ else _) as [b1 w_1] eqn:Ebw in EB.
      destruct (extend_body b1 lines) as [b2 ls2] eqn:EX. injection EB as -> -> ->.
      assert (Hb1 : (w3 = [BSLASH] /\ b1 = body ++ [BSLASH] /\ w = []) \/ (blank w3 /\ b1 = body /\ w = w3)).
      { destruct (str_eqb w3 [BSLASH]) eqn:Q; injection Ebw as <- <-.
        - apply str_eqb_eq in Q. auto.
        - destruct B3 as [B3|B3]; auto. rewrite B3, str_eqb_refl in Q. discriminate. }
      assert (Hb1e : b1 ++ w = body ++ w3 /\ ~ In LF b1).
      { destruct Hb1 as [(-> & -> & ->)|(_ & -> & ->)]; auto. rewrite app_nil_r. split; auto.
        rewrite in_app_iff. intros [?|[?|[]]]; auto. discriminate. }
      destruct Hb1e as [Hb1e Hb1LF].
      destruct (extend_body_spec _ _ _ _ EX) as (taken & -> & -> & Hs & Hf & Hl).
      exists taken. split; auto.
      assert (Hw : taken = [] \/ w = []).
      { destruct taken as [|t taken]; auto. right. destruct w as [|c w]; auto. exfalso.
        destruct Hb1 as [(_ & _ & Q)|(Hbl & -> & <-)]; [discriminate|].
        assert (Ht : trailing_ws line).
        { rewrite SL. rewrite !app_assoc. apply trailing_app; auto. discriminate. }
        assert (Hf2 : body_open body = true) by (apply Hf; discriminate). clear Hf. rename Hf2 into Hf.
        apply (Htr Ht). { exists (w0 ++ dn ++ sc), k, (w1 ++ nm ++ w2 ++ body ++ c :: w). split; auto. rewrite SL. now rewrite <- !app_assoc. }
        rewrite SL. unfold may_continue.
        unfold body_open in Hf. destruct (endswith body [BSLASH]) eqn:Qe.
        - right. right. apply endswith_char in Qe as (a & ->). exists (w0 ++ dn ++ sc ++ k ++ w1 ++ nm ++ w2 ++ a), (c :: w).
          split; auto. rewrite <- !app_assoc. reflexivity.
        - destruct (Classical_or_count body) as [[(x & y & ->)|(x & y & ->)]|Hz].
          + left. exists (w0 ++ dn ++ sc ++ k ++ w1 ++ nm ++ w2 ++ x), (y ++ c :: w). rewrite <- !app_assoc. reflexivity.
          + right. left. exists (w0 ++ dn ++ sc ++ k ++ w1 ++ nm ++ w2 ++ x), (y ++ c :: w). rewrite <- !app_assoc. reflexivity.
          + unfold count_brackets in Hf. rewrite Hz in Hf. discriminate. }
      assert (Hnd : forall x y, b1 ++ flat_map (fun l => LF :: fst l) taken = x ++ y ++ [LF] -> y <> [] -> forallb space_not_lf y = true -> False).
      { intros x y E Ny By. destruct (exists_last Ny) as (y' & c & ->).
        rewrite forallb_app in By. apply andb_true_iff in By as [_ By]. cbn in By. rewrite andb_true_r in By. unfold space_not_lf in By.
        apply andb_true_iff in By as [By1 By2]. apply negb_true_iff, N.eqb_neq in By2.
        assert (Ht : taken = [] \/ exists t z, taken = t ++ [z]).
        { destruct taken as [|t0 taken0]; auto. right. destruct (@exists_last _ (t0 :: taken0)) as (t & z & ->); [discriminate|eauto]. }
        destruct Ht as [->|(t & z & ->)].
        { cbn [flat_map] in E. rewrite app_nil_r in E. subst b1. apply Hb1LF. rewrite !in_app_iff. right. right. now left. }
        assert (Ez : fst z = []).
        { rewrite flat_map_app in E. cbn [flat_map] in E. rewrite app_nil_r in E. destruct (fst z) as [|q r] eqn:Ez; auto. exfalso.
          apply Forall_app in HFl as [HFl _]. apply Forall_app in HFl as [_ HFl]. inversion HFl as [|? ? Hz]; subst. apply Hz. rewrite Ez.
          destruct (@exists_last _ (q :: r)) as (q' & r' & Eq); [discriminate|]. rewrite Eq in E |- *.
          change (LF :: q' ++ [r']) with ((LF :: q') ++ [r']) in E.
          rewrite !app_assoc in E. apply app_inj_tail in E as [_ ->]. apply in_app_iff. right. now left. }
        assert (EB : b1 ++ flat_map (fun l => LF :: fst l) t = x ++ y' ++ [c]).
        { rewrite flat_map_app in E. cbn [flat_map] in E. rewrite Ez in E. cbn [app] in E. rewrite !app_assoc in E.
          apply app_inj_tail in E as [E _]. now rewrite <- !app_assoc in E. }
        specialize (Hl t z eq_refl). rewrite EB in Hl.
        assert (Hop : body_open (b1 ++ flat_map (fun l => LF :: fst l) (t ++ [z])) = true).
        { rewrite E. rewrite <- (body_open_space (x ++ y') c By1), <- !app_assoc in Hl || idtac. rewrite app_assoc in Hl. rewrite <- body_open_space in Hl by auto.
          rewrite <- Hl. f_equal. now rewrite <- !app_assoc. }
        destruct Hs as [->|Hs]; [|congruence].
        apply HE. rewrite app_nil_r. rewrite map_app. cbn [map]. rewrite Ez.
        assert (Ht : t = [] \/ exists t' z', t = t' ++ [z']).
        { destruct t as [|t0 t1]; auto. right. destruct (@exists_last _ (t0 :: t1)) as (t' & z' & ->); [discriminate|eauto]. }
        destruct Ht as [->|(t' & z' & ->)].
        - exists [], line. split; auto. cbn [flat_map] in EB. rewrite app_nil_r in EB.
          assert (Hw1 : w = []) by (destruct Hw as [Q|Q]; [discriminate|exact Q]).
          destruct Hb1 as [(_ & Q & _)|(_ & Q & Q2)].
          + rewrite Q in EB. rewrite !app_assoc in EB. apply app_inj_tail in EB as [_ <-]. discriminate.
          + rewrite Q in EB. assert (E3 : w3 = []) by congruence. rewrite E3, app_nil_r, EB in SL.
            exists (w0 ++ dn ++ sc ++ k ++ w1 ++ nm ++ w2 ++ x ++ y'), c. split; auto. rewrite SL. now rewrite <- !app_assoc.
        - exists (line :: map fst t'), (fst z'). rewrite map_app. cbn [map]. rewrite <- app_assoc. split; [reflexivity|].
          rewrite flat_map_app in EB. cbn [flat_map] in EB. rewrite app_nil_r in EB.
          destruct (fst z') as [|q r] eqn:Ez'.
          + exfalso. rewrite !app_assoc in EB. apply app_inj_tail in EB as [_ <-]. congruence.
          + destruct (@exists_last _ (q :: r)) as (q' & r' & Eq); [discriminate|]. rewrite Eq in EB |- *.
            change (LF :: q' ++ [r']) with ((LF :: q') ++ [r']) in EB.
            rewrite !app_assoc in EB. apply app_inj_tail in EB as [_ ->]. exists q', c. auto. }
      rewrite (split_trailing_noLF _ _ _ _ ET Hnd).
      destruct Hw as [->| ->].
      + cbn [flat_map]. rewrite !app_nil_r. exact Hb1e.
      + rewrite app_nil_r in *. now rewrite Hb1e.
    - injection EB as <- <- <-. exists []. split; auto. cbn [flat_map]. rewrite app_nil_r.
      apply (split_trailing_noLF _ _ _ _ ET). intros x y -> _ _. apply HLFb. rewrite !in_app_iff. right. right. now left. }
  destruct KB as (taken & -> & KB). exists taken. split; auto.
  unfold mdef_raw, own_lines, d_ws3. cbn [d_preceding d_body d_ws]. f_equal. rewrite KB.
  apply Forall_app in HFl as [HFl _].
  rewrite split_on_lines; auto.
  2:{ rewrite in_app_iff. tauto. }
  f_equal. rewrite SL. unfold d_head. cbn [d_ws d_commented_out d_style d_is_global d_prefix d_name].
  rewrite keyword_global by auto.
  assert (HH : (if dnl || hsh || esc && char_in HASH sc then match (if hsh then HASHED else if esc && char_in HASH sc then OTHER else DNL) with DNL => lit "%dnl" | _ => [] end else []) ++
     sc_prefix sc ++ (if dnl || hsh || esc && char_in HASH sc then match (if hsh then HASHED else if esc && char_in HASH sc then OTHER else DNL) with HASHED => [HASH] | _ => [PCT] end else [PCT]) = dn ++ sc).
  { subst dnl esc hsh. destruct BS as [(-> & -> & x & ->)|(-> & -> & [->|[->|(x & ->)]])].
    - rewrite sc_hashed_snoc, sc_prefix_snoc. change (PCT =? HASH) with false. cbn [orb].
      destruct (sc_escaped (x ++ [PCT]) && char_in HASH (x ++ [PCT])) eqn:Q; auto.
      exfalso. apply Hdh. apply andb_true_iff in Q as [Q1 Q2]. unfold sc_escaped in Q1. apply andb_true_iff in Q1 as [_ Q1].
      apply endswith_iff in Q1 as (z & Q1). apply char_in_iff in Q2. rewrite Q1 in Q2.
      exists w0, z, k, (w1 ++ nm ++ w2 ++ body ++ w3). split; [|split; [|split]]; auto.
      + rewrite in_app_iff in Q2. destruct Q2 as [Q2|[Q2|[Q2|[]]]]; [auto|discriminate|discriminate].
      + rewrite SL, Q1, <- !app_assoc. reflexivity.
    - reflexivity.
    - reflexivity.
    - change (HASH :: x ++ [PCT]) with ((HASH :: x) ++ [PCT]). rewrite sc_hashed_snoc, sc_prefix_snoc. change (PCT =? HASH) with false. cbn [orb].
      destruct (sc_escaped _ && char_in _ _); reflexivity. }
  rewrite (app_assoc dn). rewrite <- HH. rewrite <- !app_assoc. reflexivity.
Qed.

Lemma clean_tail a b : clean (a ++ b) -> clean b.
Proof.
  intros [F E]. apply Forall_app in F as [_ F]. split; auto.
  intros (x & l & -> & T). apply E. exists (a ++ x), l. rewrite app_assoc. auto.
Qed.

Lemma loop_raw : forall fuel lines data buffer, (length lines <= fuel)%nat -> clean (map fst lines) ->
  get_raw_data (parse_loop fuel lines data buffer) = flat_map mdef_raw data ++ buffer ++ map fst lines.
Proof.
  induction fuel as [|fuel IH]; intros lines data buffer L C.
  - destruct lines; [|cbn in L; lia]. cbn. now rewrite app_nil_r.
  - destruct lines as [|[line v] lines]; cbn [parse_loop map fst]; [unfold get_raw_data; cbn; now rewrite app_nil_r|].
    cbn in L. destruct (re_match md_regex line) as [m|] eqn:EM.
    + destruct (make_def m v buffer lines) as [d rest] eqn:ED.
      destruct (make_def_raw _ _ _ _ _ _ _ C EM ED) as (taken & -> & Hd).
      rewrite IH.
      * rewrite flat_map_app. cbn [flat_map]. rewrite Hd, app_nil_r, map_app, <- !app_assoc. reflexivity.
      * rewrite app_length in L. lia.
      * cbn [map fst] in C. rewrite map_app in C. apply (clean_tail (line :: map fst taken) _ C).
    + rewrite IH; [|lia|].
      * rewrite <- !app_assoc. reflexivity.
      * apply (clean_tail [line]). exact C.
Qed.
Theorem parse_tagged_raw lines : clean (map fst lines) -> get_raw_data (parse_tagged lines) = map fst lines.
Proof. intros C. unfold parse_tagged. rewrite loop_raw; auto. Qed.
Theorem parse_plain_raw lines : clean lines -> get_raw_data (parse_plain lines) = lines.
Proof.
  intros C. unfold parse_plain. assert (E : map fst (map (fun l : str => (l, true)) lines) = lines) by (rewrite map_map; apply map_id).
  rewrite parse_tagged_raw; rewrite E; auto.
Qed.
End U.
