(** Parsing what was printed. *)
From Coq Require Import NArith ZArith List Bool Lia.
From Verif Require Import PyStr PyStrFacts M_value Spec_value Spec_value2 P_value P_value2.
Import ListNotations.
Open Scope N_scope.

Section Uni.
Context {U : Unicode}.

(** * Steps of the loop *)
Lemma find_pct_app b r : ~ In PCT b -> find_pct (b ++ PCT :: r) = Some (length b).
Proof. intros N. rewrite split_pct_find, split_pct_app by exact N. reflexivity. Qed.
Lemma find_pct_none b : ~ In PCT b -> find_pct b = None.
Proof.
  intros N. rewrite split_pct_find. destruct (split_pct b) as [[x y]|] eqn:E; [|reflexivity]. apply split_pct_Some in E as [E _]. exfalso. apply N. rewrite E. apply in_or_app. right. left. reflexivity.
Qed.
Lemma skip_pre {A} (a b : list A) n : n = length a -> skipn n (a ++ b) = b.
Proof. intros ->. rewrite skipn_app, skipn_all, Nat.sub_diag. reflexivity. Qed.
Lemma step_end f pre v1 v2 : ~ In PCT v2 -> parse_loop (S f) (pre ++ v1 ++ v2) (length pre) (length v1) = Ok (lit_node (v1 ++ v2)).
Proof.
  intros N. cbn [parse_loop]. rewrite (skip_pre pre _ _ eq_refl). rewrite (app_assoc pre v1 v2) at 2. rewrite (skip_pre (pre ++ v1) v2) by (rewrite app_length; reflexivity).
  rewrite find_pct_none by exact N. unfold lit_node. destruct (_ <=? _)%nat; destruct (v1 ++ v2); reflexivity.
Qed.
Lemma step_escape f v1 x t : ~ In PCT x -> parse_loop (S f) (v1 ++ x ++ PCT :: PCT :: t) 0 (length v1) = parse_loop f (v1 ++ x ++ PCT :: PCT :: t) 0 (length (v1 ++ x ++ [PCT; PCT])).
Proof.
  intros N. cbn [parse_loop]. destruct (_ <=? 0)%nat eqn:E.
  { apply Nat.leb_le in E. rewrite !app_length in E. cbn in E. lia. }
  cbn [Nat.add]. rewrite (skip_pre v1 _ _ eq_refl), find_pct_app by exact N.
  replace (nth_error (v1 ++ x ++ PCT :: PCT :: t) (length v1 + length x + 1)) with (Some PCT).
  2: { rewrite app_assoc, nth_error_app2 by (rewrite app_length; lia). rewrite app_length. replace (length v1 + length x + 1 - (length v1 + length x))%nat with 1%nat by lia. reflexivity. }
  change (PCT =? PCT) with true. cbn iota. f_equal. rewrite !app_length. cbn. lia.
Qed.
Lemma step_macro f pre v1 v2 d m t nd : ~ In PCT v2 -> d <> PCT -> macro_len ((d :: m) ++ t) = Some (length (d :: m)) -> node_of f d ((d :: m) ++ t) (length (d :: m)) = Ok nd ->
  parse_loop (S f) (pre ++ (v1 ++ v2) ++ PCT :: (d :: m) ++ t) (length pre) (length v1) =
  let! rest := parse_loop f (pre ++ (v1 ++ v2) ++ PCT :: (d :: m) ++ t) (length (pre ++ (v1 ++ v2) ++ PCT :: d :: m)) 0 in Ok (lit_node (v1 ++ v2) ++ nd :: rest).
Proof.
  intros N Nd Ml No. cbn [parse_loop]. set (r := (d :: m) ++ t) in *. set (value := pre ++ (v1 ++ v2) ++ PCT :: r).
  destruct (length value <=? length pre)%nat eqn:E.
  { apply Nat.leb_le in E. unfold value in E. rewrite !app_length in E. cbn in E. lia. }
  assert (E0 : skipn (length pre + length v1) value = v2 ++ PCT :: r).
  { unfold value. rewrite <- !app_assoc, (app_assoc pre v1). apply skip_pre. rewrite app_length. reflexivity. }
  rewrite E0, find_pct_app by exact N. set (e := (length pre + length v1 + length v2)%nat).
  assert (E1 : skipn e value = PCT :: r).
  { unfold value, e. rewrite app_assoc. apply skip_pre. rewrite !app_length. lia. }
  assert (E2 : skipn (e + 1) value = r).
  { replace (e + 1)%nat with (1 + e)%nat by lia. rewrite <- skipn_skipn, E1. reflexivity. }
  assert (E3 : skipn (e + 2) value = tl r).
  { replace (e + 2)%nat with (2 + e)%nat by lia. rewrite <- skipn_skipn, E1. reflexivity. }
  assert (E4 : nth_error value (e + 1) = Some d).
  { rewrite <- (Nat.add_0_r (e + 1)), <- nth_error_skipn, E2. reflexivity. }
  rewrite E4. apply N.eqb_neq in Nd. rewrite Nd, E2, Ml. rewrite E3, E1.
  replace (e + 1 + length (d :: m) - e)%nat with (S (length (d :: m))) by lia.
  change (firstn (S (length (d :: m))) (PCT :: r)) with (PCT :: firstn (length (d :: m)) r). unfold node_of in No.
  assert (B : (if (length pre <? e)%nat then [StringLiteral (firstn (e - length pre) (skipn (length pre) value))] else []) = lit_node (v1 ++ v2)).
  { unfold value. rewrite (skip_pre pre _ _ eq_refl). unfold e. replace (length pre + length v1 + length v2 - length pre)%nat with (length (v1 ++ v2)) by (rewrite app_length; lia).
    rewrite firstn_app, firstn_all, Nat.sub_diag. cbn [firstn]. rewrite app_nil_r.
    replace (length pre + length v1 + length v2)%nat with (length pre + length (v1 ++ v2))%nat by (rewrite app_length; lia). destruct (v1 ++ v2) as [|c v]; cbn [length lit_node].
    - rewrite Nat.add_0_r, Nat.ltb_irrefl. reflexivity.
    - destruct (Nat.ltb_spec (length pre) (length pre + S (length v))); [reflexivity|lia]. }
  rewrite B. replace (length (pre ++ (v1 ++ v2) ++ PCT :: d :: m)) with (e + 1 + length (d :: m))%nat by (unfold e; rewrite !app_length; cbn [length]; lia).
  destruct (d =? LPAR); [injection No as <-; reflexivity|]. destruct (d =? LBRACK); [injection No as <-; reflexivity|].
  destruct (d =? LBRACE).
  - destruct (char_in COLON (PCT :: firstn (length (d :: m)) r)).
    + destruct (split_colon _) as [cond body]. destruct (split_prefix cond) as [p nm]. destruct (char_in QUESTION p); [|injection No as <-; reflexivity].
      destruct (parse_loop f body 0 0) as [b|x]; [|discriminate]. cbn [bind] in *. injection No as <-. reflexivity.
    + rewrite No. reflexivity.
  - destruct (split_prefix _) as [p nm]. injection No as <-. reflexivity.
Qed.

(** * Escapes *)
Lemma escaped_split v : escaped v -> ~ In PCT v \/ exists x y, v = x ++ PCT :: PCT :: y /\ ~ In PCT x /\ escaped y.
Proof.
  induction 1 as [|c t Nc E [IH|(x & y & -> & Nx & Ey)]|t E IH].
  - left. intros [].
  - left. intros [->|I]; [contradiction|auto].
  - right. exists (c :: x), y. split; [reflexivity|]. split; [|exact Ey]. intros [->|I]; [contradiction|auto].
  - right. exists [], t. split; [reflexivity|]. split; [intros []|exact E].
Qed.
Lemma escapes : forall n v2, (length v2 <= n)%nat -> escaped v2 -> forall v1 t f, (length v2 <= f)%nat ->
  exists v1' v2' f', v1 ++ v2 = v1' ++ v2' /\ ~ In PCT v2' /\ (f + length v2' <= f' + length v2)%nat /\
    parse_loop f (v1 ++ v2 ++ t) 0 (length v1) = parse_loop f' (v1 ++ v2 ++ t) 0 (length v1').
Proof.
  induction n as [|n IH]; intros v2 L E v1 t f F.
  - destruct v2; [|cbn in L; lia]. exists v1, [], f. cbn. repeat split; auto.
  - destruct (escaped_split v2 E) as [N|(x & y & -> & Nx & Ey)]; [exists v1, v2, f; repeat split; auto|].
    rewrite app_length in L, F. cbn [length] in L, F. destruct f as [|f]; [lia|].
    replace ((x ++ PCT :: PCT :: y) ++ t) with (x ++ PCT :: PCT :: (y ++ t)) by (rewrite <- app_assoc; reflexivity). rewrite step_escape by exact Nx.
    destruct (IH y ltac:(lia) Ey (v1 ++ x ++ [PCT; PCT]) t f ltac:(lia)) as (v1' & v2' & f' & H1 & H2 & H3 & H4).
    exists v1', v2', f'. split; [rewrite <- H1, <- !app_assoc; reflexivity|]. split; [exact H2|]. split; [rewrite app_length; cbn [length]; lia|].
    replace (v1 ++ x ++ PCT :: PCT :: y ++ t) with ((v1 ++ x ++ [PCT; PCT]) ++ y ++ t) by (rewrite <- !app_assoc; reflexivity). exact H4.
Qed.

(** * Lengths of macros *)
Lemma match_closed o c b : o <> BSLASH -> c <> BSLASH -> o <> c -> closed o c b -> forall l s, (1 <= l)%Z -> match_paren o c l (b ++ s) = option_map (Nat.add (length b)) (match_paren o c l s).
Proof.
  intros No Nc Noc C. assert (Sm : forall (x : option nat) n, option_map S (option_map (Nat.add n) x) = option_map (Nat.add (S n)) x) by (intros [x|] n; reflexivity).
  apply N.eqb_neq in No, Nc, Noc. induction C as [|d t Ndo Ndc C IH|x t C1 IH1 C2 IH2]; intros l s L.
  - cbn. destruct (match_paren o c l s); reflexivity.
  - cbn [app match_paren]. apply N.eqb_neq in Ndo, Ndc. rewrite Ndo, Ndc. rewrite IH by exact L. rewrite Sm. destruct (d =? BSLASH); reflexivity.
  - cbn [app match_paren]. rewrite No, Noc, N.eqb_refl. rewrite <- app_assoc. rewrite IH1 by lia. cbn [app match_paren]. rewrite Nc, N.eqb_refl.
    destruct (Z.leb_spec (l + 1 - 1) 0); [lia|]. replace (l + 1 - 1)%Z with l by lia. rewrite IH2 by exact L. rewrite Sm. 
    destruct (match_paren o c l s) as [k|]; [|reflexivity]. cbn. f_equal. rewrite app_length. cbn. lia.
Qed.
Lemma bracket_len o c b t : closing o = Some c -> closed o c b -> macro_len ((o :: b ++ [c]) ++ t) = Some (length (o :: b ++ [c])).
Proof.
  intros Ec C. destruct (closing_neq o c Ec) as [Noc No]. assert (Nc : c <> BSLASH).
  { revert Ec. unfold closing. destruct (o =? LPAR); [intros [= <-]; discriminate|]. destruct (o =? LBRACE); [intros [= <-]; discriminate|]. destruct (o =? LBRACK); [intros [= <-]; discriminate|discriminate]. }
  cbn [app macro_len]. rewrite Ec. cbn [match_paren]. rewrite No. rewrite (proj2 (N.eqb_neq o c) Noc), N.eqb_refl. rewrite <- app_assoc.
  rewrite (match_closed o c b) by (auto; try lia; apply N.eqb_neq; exact No). cbn [app match_paren]. rewrite (proj2 (N.eqb_neq c BSLASH) Nc), N.eqb_refl. cbn [Z.leb]. cbn.
  f_equal. rewrite app_length. cbn. lia.
Qed.
Lemma takewhile_app p (a t : str) : Forall (fun c => p c = true) a -> (forall c t', t = c :: t' -> p c = false) -> takewhile p (a ++ t) = a /\ dropwhile p (a ++ t) = t.
Proof.
  intros F S. induction F as [|c a Hc F [IH1 IH2]]; cbn [app takewhile dropwhile].
  - destruct t as [|c t]; [split; reflexivity|]. cbn. rewrite (S c t eq_refl). split; reflexivity.
  - rewrite Hc, IH1, IH2. split; reflexivity.
Qed.
Lemma conds_all p : conds p -> Forall (fun c => is_cond_char c = true) p.
Proof. intros C. eapply Forall_impl; [|exact C]. intros c [-> | ->]; reflexivity. Qed.
Lemma no_cond_stop n t : no_cond n -> n <> [] -> forall c t', n ++ t = c :: t' -> is_cond_char c = false.
Proof.
  intros N Nn c t' E. destruct n as [|d n]; [contradiction|]. injection E as <- _. destruct (N d n eq_refl) as [N1 N2]. unfold is_cond_char. rewrite (proj2 (N.eqb_neq _ _) N1), (proj2 (N.eqb_neq _ _) N2). reflexivity.
Qed.
Lemma split_prefix_app p n : conds p -> no_cond n -> split_prefix (p ++ n) = (p, n).
Proof.
  intros C N. unfold split_prefix. destruct (takewhile_app is_cond_char p n (conds_all p C)) as [-> ->]; [|reflexivity].
  intros c t' ->. destruct (N c t' eq_refl) as [N1 N2]. unfold is_cond_char. rewrite (proj2 (N.eqb_neq _ _) N1), (proj2 (N.eqb_neq _ _) N2). reflexivity.
Qed.
Lemma word_not c x : is_word c = true -> is_word x = false -> c <> x.
Proof. intros A B ->. congruence. Qed.
Lemma name_no_cond dash w star : dash = [] \/ dash = [DASH] -> Forall (fun c => is_word c = true) w -> star = [] \/ star = [STAR] \/ star = [HASH] -> no_cond (dash ++ w ++ star).
Proof.
  intros D W S c n' E. destruct D as [-> | ->]; [|injection E as <- _; split; discriminate]. cbn [app] in E. destruct W as [|d w Wd W].
  - destruct S as [-> |[-> | ->]]; [discriminate|injection E as <- _; split; discriminate..].
  - injection E as <- _. split; apply word_not; auto.
Qed.
Lemma substitution_len p dash w star t : conds p -> dash = [] \/ dash = [DASH] -> Forall (fun c => is_word c = true) w ->
  star = [] /\ stops t \/ star = [STAR] \/ star = [HASH] -> dash ++ w ++ star <> [] -> macro_len ((p ++ dash ++ w ++ star) ++ t) = Some (length (p ++ dash ++ w ++ star)).
Proof.
  intros C D Fw St Nn. assert (St' : star = [] \/ star = [STAR] \/ star = [HASH]) by tauto.
  pose proof (name_no_cond dash w star D Fw St') as NC. set (nm := dash ++ w ++ star) in *.
  assert (L : name_len ((p ++ nm) ++ t) = length (p ++ nm)).
  { unfold name_len. rewrite <- app_assoc. destruct (takewhile_app is_cond_char p (nm ++ t) (conds_all p C)) as [-> ->]; [intros c t' E; apply (no_cond_stop nm t NC Nn c t' E)|].
    assert (X : forall s2, s2 = w ++ star ++ t -> (length (takewhile is_word s2) + match dropwhile is_word s2 with c :: _ => if ((c =? STAR)%N || (c =? HASH)%N) then 1 else 0 | [] => 0 end)%nat = length (w ++ star)).
    { intros s2 ->. destruct (takewhile_app is_word w (star ++ t) Fw) as [-> ->].
      - intros c t' E. destruct St as [[-> St]|[-> | ->]]; [apply (St c t' E)|injection E as <- _; reflexivity..].
      - rewrite app_length. f_equal. destruct St as [[-> St]|[-> | ->]]; [|reflexivity..]. cbn [app length]. destruct t as [|c t]; [reflexivity|]. destruct (St c t eq_refl) as (_ & N1 & N2).
        rewrite (proj2 (N.eqb_neq _ _) N1), (proj2 (N.eqb_neq _ _) N2). reflexivity. }
    unfold nm. destruct D as [-> | ->].
    - cbn [app] in *. assert (Z : match (w ++ star) ++ t with [] => 0%nat | c :: _ => if c =? DASH then 1%nat else 0%nat end = 0%nat).
      { destruct Fw as [|c w Wc Fw]; [destruct St' as [-> |[-> | ->]]; [contradiction Nn; reflexivity|reflexivity..]|]. cbn [app]. rewrite (proj2 (N.eqb_neq _ _) (word_not c DASH Wc eq_refl)). reflexivity. }
      rewrite Z. cbn [skipn]. rewrite <- app_assoc. rewrite <- Nat.add_assoc, X by reflexivity. rewrite (app_length p). lia.
    - cbn [app]. change (DASH =? DASH) with true. cbn iota. cbn [skipn]. rewrite <- app_assoc. rewrite <- Nat.add_assoc, X by reflexivity. rewrite (app_length p). cbn [length]. lia. }
  unfold macro_len. destruct ((p ++ nm) ++ t) as [|o s] eqn:E; [destruct p; [|discriminate]; destruct nm; [contradiction|discriminate]|].
  assert (Co : closing o = None).
  { destruct p as [|c p].
    - cbn [app] in E. unfold nm in E. destruct D as [-> | ->]; [|injection E as <- _; reflexivity]. cbn [app] in E. destruct Fw as [|c w Wc Fw].
      + destruct St' as [-> |[-> | ->]]; [unfold nm in Nn; contradiction Nn; reflexivity|injection E as <- _; reflexivity..].
      + injection E as <- _. unfold closing. rewrite (proj2 (N.eqb_neq _ _) (word_not c LPAR Wc eq_refl)), (proj2 (N.eqb_neq _ _) (word_not c LBRACK Wc eq_refl)), (proj2 (N.eqb_neq _ _) (word_not c LBRACE Wc eq_refl)). reflexivity.
    - injection E as <- _. inversion C as [|? ? [-> | ->] _]; reflexivity. }
  rewrite Co. f_equal. exact L.
Qed.
Lemma not_colon_in s : ~ In COLON s -> char_in COLON s = false.
Proof. intros N. apply not_true_iff_false. intros E. apply N. unfold char_in in E. apply existsb_exists in E as (x & I & E). apply N.eqb_eq in E. subst x. exact I. Qed.
Lemma colon_in a b : char_in COLON (a ++ COLON :: b) = true.
Proof. unfold char_in. apply existsb_exists. exists COLON. split; [apply in_or_app; right; left; reflexivity|apply N.eqb_refl]. Qed.
Lemma split_colon_app a b : ~ In COLON a -> split_colon (a ++ COLON :: b) = (a, b).
Proof.
  induction a as [|c a IH]; intros N; [reflexivity|]. cbn [app split_colon]. destruct (N.eqb_spec c COLON) as [->|Nc]; [exfalso; apply N; left; reflexivity|].
  rewrite IH by (intros I; apply N; right; exact I). reflexivity.
Qed.
Lemma conds_closed p s : conds p -> closed LBRACE RBRACE s -> closed LBRACE RBRACE (p ++ s).
Proof. intros C Cs. induction C as [|c p [-> | ->] C IH]; [exact Cs| |]; cbn [app]; constructor; try discriminate; exact IH. Qed.
Lemma conds_no_colon p : conds p -> ~ In COLON p.
Proof. intros C I. unfold conds in C. rewrite Forall_forall in C. destruct (C _ I); discriminate. Qed.
Lemma whole_of {A} (b t : list A) : firstn (length b) (b ++ t) = b.
Proof. rewrite firstn_app, firstn_all, Nat.sub_diag. cbn. apply app_nil_r. Qed.
Lemma split_word w : Forall (fun c => is_space c = false) w -> forall cur t, split_ws_aux cur (w ++ t) = split_ws_aux (rev w ++ cur) t.
Proof. induction 1 as [|c w Hc F IH]; intros cur t; [reflexivity|]. cbn [app split_ws_aux rev]. rewrite Hc, IH, <- app_assoc. reflexivity. Qed.
Lemma split_join l : Forall solid l -> split_ws (join [SPC] l) = l.
Proof.
  unfold split_ws. induction 1 as [|w l [Nw Sw] F IH]; [reflexivity|]. destruct F as [|x l Sx F].
  - cbn [join]. rewrite <- (app_nil_r w) at 1. rewrite split_word by exact Sw. cbn. rewrite app_nil_r. destruct (rev w) eqn:E; [apply (f_equal (@rev _)) in E; rewrite rev_involutive in E; contradiction|]. rewrite <- E, rev_involutive. reflexivity.
  - replace (join [SPC] (w :: x :: l)) with (w ++ SPC :: join [SPC] (x :: l)) by reflexivity. rewrite split_word by exact Sw. cbn [split_ws_aux]. change (is_space SPC) with true. cbn iota. rewrite app_nil_r.
    rewrite IH. destruct (rev w) eqn:E; [apply (f_equal (@rev _)) in E; rewrite rev_involutive in E; contradiction|]. rewrite <- E, rev_involutive. reflexivity.
Qed.
Lemma enclosed_text n args : n ++ match args with [] => [] | _ :: _ => SPC :: join [SPC] args end = join [SPC] (n :: args).
Proof. destruct args; cbn; [apply app_nil_r|reflexivity]. Qed.
Lemma in_conds_question p : In QUESTION p -> char_in QUESTION p = true.
Proof. intros I. unfold char_in. apply existsb_exists. exists QUESTION. split; [exact I|apply N.eqb_refl]. Qed.

(** * The theorem *)
Definition pending (pre : str) (v1 v2 : str) : Prop := (v1 = [] /\ ~ In PCT v2) \/ (pre = [] /\ escaped v2).
Definition allowed (k : place) (pre v1 v2 : str) : Prop :=
  match k with At_start => pre = [] /\ v1 = [] /\ v2 = [] | After_macro => v1 = [] /\ v2 = [] | After_literal => pending pre v1 v2 end.
Lemma allowed_pending k pre v1 v2 : allowed k pre v1 v2 -> pending pre v1 v2.
Proof. destruct k; cbn; [intros (-> & -> & ->)|intros (-> & ->)|auto]; left; split; auto; intros []. Qed.
Lemma plain pre v1 v2 t f : pending pre v1 v2 -> (length (v2 ++ t) < f)%nat ->
  exists v1' v2' f', v1 ++ v2 = v1' ++ v2' /\ ~ In PCT v2' /\ (length (v2' ++ t) < f')%nat /\
    parse_loop f (pre ++ (v1 ++ v2) ++ t) (length pre) (length v1) = parse_loop f' (pre ++ (v1' ++ v2') ++ t) (length pre) (length v1').
Proof.
  intros [[-> N]|[-> E]] L; [exists [], v2, f; repeat split; auto|]. rewrite app_length in L.
  destruct (escapes _ v2 (le_n _) E v1 t f) as (v1' & v2' & f' & H1 & H2 & H3 & H4); [lia|]. exists v1', v2', f'. split; [exact H1|]. split; [exact H2|]. split; [rewrite app_length; lia|].
  cbn [app length]. rewrite <- H1, <- app_assoc. exact H4.
Qed.
(** One macro *)
Lemma one pre v1 v2 d m t nd ns f : pending pre v1 v2 -> d <> PCT -> macro_len ((d :: m) ++ t) = Some (length (d :: m)) ->
  (forall f, (length (d :: m) <= f)%nat -> node_of f d ((d :: m) ++ t) (length (d :: m)) = Ok nd) ->
  (forall pre f, (length t < f)%nat -> parse_loop f (pre ++ t) (length pre) 0 = Ok ns) ->
  (length (v2 ++ PCT :: (d :: m) ++ t) < f)%nat ->
  parse_loop f (pre ++ (v1 ++ v2) ++ PCT :: (d :: m) ++ t) (length pre) (length v1) = Ok (lit_node (v1 ++ v2) ++ nd :: ns).
Proof.
  intros P Nd Ml No R L. destruct (plain pre v1 v2 _ f P L) as (v1' & v2' & f' & H1 & H2 & H3 & ->). destruct f' as [|f']; [lia|].
  rewrite app_length in H3. cbn [length] in H3. rewrite app_length in H3. cbn [length] in H3.
  rewrite (step_macro f' pre v1' v2' d m t nd H2 Nd Ml); [|apply No; cbn [length]; lia].
  replace (pre ++ (v1' ++ v2') ++ PCT :: (d :: m) ++ t) with ((pre ++ (v1' ++ v2') ++ PCT :: d :: m) ++ t) by (rewrite <- !app_assoc; reflexivity).
  rewrite R by lia. cbn [bind]. rewrite H1. reflexivity.
Qed.
Lemma nodes_cons n ns : nodes_str (n :: ns) = node_str n ++ nodes_str ns.
Proof. reflexivity. Qed.
Theorem canonical_parsed k ns : canonical k ns -> forall pre v1 v2 f, allowed k pre v1 v2 -> (length (v2 ++ nodes_str ns) < f)%nat ->
  parse_loop f (pre ++ (v1 ++ v2) ++ nodes_str ns) (length pre) (length v1) = Ok (lit_node (v1 ++ v2) ++ ns).
Proof.
  assert (Inner : forall (o c : N) (b t : str), firstn (length (o :: b ++ [c]) - 2) (tl ((o :: b ++ [c]) ++ t)) = b).
  { intros o c b t. cbn [app tl]. replace (length (o :: b ++ [c]) - 2)%nat with (length b) by (cbn; rewrite app_length; cbn; lia). rewrite <- app_assoc. apply whole_of. }
  induction 1 as [k|v ns Nv E C IH|v ns Nv E C IH|k b ns Cb C IH|k b ns Cb C IH|k p dash w star ns Cp D W St Nn C IH|k p n args ns Cp Nc So Ncol Cl C IH|k p n body ns Cp Q Nc Ncol Cl C1 IH1 C2 IH2|k p n b ns Fp Nc Ncol Cl C IH];
    intros pre v1 v2 f A L; rewrite ?nodes_cons in *.
  - change (nodes_str []) with (@nil N) in *. destruct (plain pre v1 v2 [] f (allowed_pending _ _ _ _ A) L) as (v1' & v2' & f' & H1 & H2 & H3 & ->). destruct f' as [|f']; [lia|].
    rewrite app_nil_r, app_nil_r, H1, app_assoc. rewrite <- (app_assoc pre). apply step_end. exact H2.
  - cbn in A. destruct A as (-> & -> & ->). cbn [app node_str] in L |- *. replace (lit_node [] ++ StringLiteral v :: ns) with (lit_node v ++ ns) by (destruct v; [contradiction|reflexivity]). apply (IH [] [] v f); [right; auto|exact L].
  - cbn in A. destruct A as (-> & ->). cbn [app node_str] in L |- *. replace (lit_node [] ++ StringLiteral v :: ns) with (lit_node v ++ ns) by (destruct v; [contradiction|reflexivity]). apply (IH pre [] v f); [left; auto|exact L].
  - cbn [node_str] in *. change ((PCT :: LPAR :: b ++ [RPAR]) ++ nodes_str ns) with (PCT :: (LPAR :: b ++ [RPAR]) ++ nodes_str ns) in *.
    apply one; auto; [exact (allowed_pending _ _ _ _ A)|discriminate|apply bracket_len; [reflexivity|exact Cb]| |intros pre' f' L'; apply (IH pre' [] [] f'); [split; reflexivity|exact L']].
    intros f' _. unfold node_of. change (LPAR =? LPAR) with true. cbn iota. rewrite Inner. reflexivity.
  - cbn [node_str] in *. change ((PCT :: LBRACK :: b ++ [RBRACK]) ++ nodes_str ns) with (PCT :: (LBRACK :: b ++ [RBRACK]) ++ nodes_str ns) in *.
    apply one; auto; [exact (allowed_pending _ _ _ _ A)|discriminate|apply bracket_len; [reflexivity|exact Cb]| |intros pre' f' L'; apply (IH pre' [] [] f'); [split; reflexivity|exact L']].
    intros f' _. unfold node_of. change (LBRACK =? LPAR) with false. change (LBRACK =? LBRACK) with true. cbn iota. rewrite Inner. reflexivity.
  - cbn [node_str] in *. assert (St' : star = [] \/ star = [STAR] \/ star = [HASH]) by tauto. pose proof (name_no_cond dash w star D W St') as NC.
    pose proof (substitution_len p dash w star (nodes_str ns) Cp D W St Nn) as ML. set (nm := dash ++ w ++ star) in *.
    assert (X : exists d m, p ++ nm = d :: m /\ d <> PCT /\ (d =? LPAR) = false /\ (d =? LBRACK) = false /\ (d =? LBRACE) = false).
    { destruct p as [|c p].
      - cbn [app]. unfold nm. destruct D as [-> | ->]; [|eexists _, _; split; [reflexivity|]; repeat split; discriminate]. cbn [app]. destruct W as [|c w Wc W].
        + destruct St' as [-> |[-> | ->]]; [contradiction Nn; reflexivity|eexists _, _; split; [reflexivity|]; repeat split; discriminate..].
        + exists c, (w ++ star). split; [reflexivity|]. split; [apply word_not; auto|]. rewrite (proj2 (N.eqb_neq _ _) (word_not c LPAR Wc eq_refl)), (proj2 (N.eqb_neq _ _) (word_not c LBRACK Wc eq_refl)), (proj2 (N.eqb_neq _ _) (word_not c LBRACE Wc eq_refl)). auto.
      - exists c, (p ++ nm). split; [reflexivity|]. inversion Cp as [|? ? [-> | ->] _]; repeat split; discriminate. }
    destruct X as (d & m & E & Nd & E1 & E2 & E3). change ((PCT :: p ++ nm) ++ nodes_str ns) with (PCT :: (p ++ nm) ++ nodes_str ns) in *. rewrite E in *.
    apply one; auto; [exact (allowed_pending _ _ _ _ A)| |intros pre' f' L'; apply (IH pre' [] [] f'); [split; reflexivity|exact L']].
    intros f' _. unfold node_of. rewrite E1, E2, E3, whole_of, <- E, (split_prefix_app p nm Cp NC). reflexivity.
  - cbn [node_str] in *. unfold braced in *. rewrite enclosed_text in *. set (x := join [SPC] (n :: args)) in *.
    change ((PCT :: LBRACE :: (p ++ x) ++ [RBRACE]) ++ nodes_str ns) with (PCT :: (LBRACE :: (p ++ x) ++ [RBRACE]) ++ nodes_str ns) in *.
    apply one; auto; [exact (allowed_pending _ _ _ _ A)|discriminate|apply bracket_len; [reflexivity|apply conds_closed; assumption]| |intros pre' f' L'; apply (IH pre' [] [] f'); [split; reflexivity|exact L']].
    intros f' _. unfold node_of. change (LBRACE =? LPAR) with false. change (LBRACE =? LBRACK) with false. change (LBRACE =? LBRACE) with true. cbn iota.
    rewrite whole_of, Inner. rewrite not_colon_in.
    + unfold make_enclosed. rewrite (split_prefix_app p x Cp).
      * unfold x. rewrite (split_join _ So). reflexivity.
      * intros c x' E. unfold x in E. inversion So as [|? ? [Nn' _] _]; subst. destruct n as [|c0 n]; [contradiction|]. apply (Nc c n). destruct args; cbn in E; congruence.
    + intros [E|[E|I]]; [discriminate|discriminate|]. apply in_app_or in I. destruct I as [I|[E|[]]]; [|discriminate]. apply in_app_or in I. destruct I as [I|I]; [apply (conds_no_colon p Cp I)|contradiction].
  - cbn [node_str] in *. unfold braced in *. fold (nodes_str body) in *. set (x := n ++ COLON :: nodes_str body) in *.
    change ((PCT :: LBRACE :: (p ++ x) ++ [RBRACE]) ++ nodes_str ns) with (PCT :: (LBRACE :: (p ++ x) ++ [RBRACE]) ++ nodes_str ns) in *.
    apply one; auto; [exact (allowed_pending _ _ _ _ A)|discriminate|apply bracket_len; [reflexivity|apply conds_closed; assumption]| |intros pre' f' L'; apply (IH2 pre' [] [] f'); [split; reflexivity|exact L']].
    intros f' L'. unfold node_of. change (LBRACE =? LPAR) with false. change (LBRACE =? LBRACK) with false. change (LBRACE =? LBRACE) with true. cbn iota.
    rewrite whole_of, Inner. replace (PCT :: LBRACE :: (p ++ x) ++ [RBRACE]) with ((PCT :: LBRACE :: p ++ n) ++ COLON :: nodes_str body ++ [RBRACE]).
    2: { cbn [app]. unfold x. rewrite <- !app_assoc. reflexivity. }
    rewrite colon_in. unfold x. rewrite app_assoc, split_colon_app.
    + rewrite (split_prefix_app p n Cp Nc), (in_conds_question p Q). pose proof (IH1 [] [] [] f') as X. cbn [app length lit_node] in X. rewrite X.
      * reflexivity.
      * repeat split.
      * cbn [app]. cbn [length] in L'. rewrite !app_length in L'. unfold x in L'. rewrite app_length in L'. cbn [length] in L'. lia.
    + intros I. apply in_app_or in I. destruct I as [I|I]; [apply (conds_no_colon p Cp I)|contradiction].
  - cbn [node_str] in *. unfold braced in *. assert (Cp : conds p) by (eapply Forall_impl; [|exact Fp]; auto).
    replace ((p ++ n) ++ COLON :: b) with (p ++ n ++ COLON :: b) in * by (rewrite <- app_assoc; reflexivity). set (x := n ++ COLON :: b) in *.
    change ((PCT :: LBRACE :: (p ++ x) ++ [RBRACE]) ++ nodes_str ns) with (PCT :: (LBRACE :: (p ++ x) ++ [RBRACE]) ++ nodes_str ns) in *.
    apply one; auto; [exact (allowed_pending _ _ _ _ A)|discriminate|apply bracket_len; [reflexivity|apply conds_closed; assumption]| |intros pre' f' L'; apply (IH pre' [] [] f'); [split; reflexivity|exact L']].
    intros f' L'. unfold node_of. change (LBRACE =? LPAR) with false. change (LBRACE =? LBRACK) with false. change (LBRACE =? LBRACE) with true. cbn iota.
    rewrite whole_of, Inner. replace (PCT :: LBRACE :: (p ++ x) ++ [RBRACE]) with ((PCT :: LBRACE :: p ++ n) ++ COLON :: b ++ [RBRACE]).
    2: { cbn [app]. unfold x. rewrite <- !app_assoc. reflexivity. }
    rewrite colon_in. unfold x. rewrite app_assoc, split_colon_app.
    + rewrite (split_prefix_app p n Cp Nc). replace (char_in QUESTION p) with false; [reflexivity|]. symmetry. apply not_true_iff_false. intros E. unfold char_in in E. apply existsb_exists in E as (y & I & E). apply N.eqb_eq in E. subst y.
      rewrite Forall_forall in Fp. specialize (Fp _ I). discriminate.
    + intros I. apply in_app_or in I. destruct I as [I|I]; [apply (conds_no_colon p Cp I)|contradiction].
Qed.
Theorem parse_printed ns : canonical At_start ns -> parse (nodes_str ns) = Ok ns.
Proof. intros C. unfold parse. apply (canonical_parsed At_start ns C [] [] []); [repeat split|cbn; lia]. Qed.
End Uni.
