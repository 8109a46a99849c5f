(** Proofs about bumping release strings. *)
From Coq Require Import Ascii String.
From Coq Require Import NArith ZArith List Bool Lia.
From Verif Require Import PyStr PyStrFacts Regex RegexFacts M_value M_release Spec_release P_evr P_prep P_release.
From Verif Require P_value P_value2.
Import ListNotations.
Open Scope N_scope.

Section U.
Context {U : Unicode}.

Lemma is_substring_iff p s : is_substring p s = true <-> occurs p s.
Proof.
  unfold occurs. induction s as [|c s IH]; cbn [is_substring]; rewrite orb_true_iff, startswith_iff.
  - split; [intros [(t & H)|Q]; [exists [], t; auto|discriminate]|]. intros (a & b & H). left. exists b.
    symmetry in H. apply app_eq_nil in H as [-> H]. now rewrite H.
  - rewrite IH. split.
    + intros [(t & H)|(a & b & H)]; [exists [], t; auto|exists (c :: a), b; cbn; now rewrite H].
    + intros (a & b & H). destruct a as [|x a]; [left; eauto|right]. injection H as _ H. eauto.
Qed.
Lemma prerelease_b post : forallb (fun x => negb (is_substring x post)) [lit "alpha"; lit "beta"; lit "rc"] = true <-> ~ prerelease post.
Proof.
  cbn [forallb]. rewrite !andb_true_iff, !negb_true_iff, <- !not_true_iff_false, !is_substring_iff. unfold prerelease. tauto.
Qed.

Lemma occurs_tail (w p d : str) : Forall (fun c => ~ In c d) w -> w <> [] -> occurs w (p ++ d) -> occurs w p.
Proof.
  intros F N (a & b & E). destruct (exists_last N) as (w' & c & ->).
  assert (Hc : ~ In c d) by (rewrite Forall_forall in F; apply F; apply in_or_app; right; now left).
  assert (Q : exists b', p = (a ++ w' ++ [c]) ++ b').
  { assert (X : forall y b p d, ~ In c d -> p ++ d = (y ++ [c]) ++ b -> exists b', p = (y ++ [c]) ++ b').
    { clear. induction y as [|z y IH]; intros b p d Hc E; cbn [app] in *.
      - destruct p as [|u p]; cbn [app] in E.
        + subst d. exfalso. apply Hc. now left.
        + injection E as -> _. now exists p.
      - destruct p as [|u p]; cbn [app] in E.
        + exfalso. apply Hc. rewrite E. right. rewrite !in_app_iff. left; right. now left.
        + injection E as -> E. destruct (IH b p d Hc E) as (b' & ->). exists b'. reflexivity. }
    destruct (X (a ++ w') b p d Hc) as (b' & ->); [rewrite E; now rewrite <- !app_assoc|]. exists b'. now rewrite <- !app_assoc. }
  destruct Q as (b' & ->). exists a, b'. now rewrite <- app_assoc.
Qed.
Lemma prerelease_tail p d : Forall (fun c => is_digit c = true \/ c = DOT) d -> prerelease (p ++ d) -> prerelease p.
Proof.
  intros F. assert (W : forall w, In w [lit "alpha"; lit "beta"; lit "rc"] -> Forall (fun c => ~ In c d) w).
  { intros w Hw. apply Forall_forall. intros c Hc Q. rewrite Forall_forall in F. apply F in Q.
    destruct Hw as [<-|[<-|[<-|[]]]]; cbn in Hc; repeat (destruct Hc as [<-|Hc]; [destruct Q as [Q|Q]; discriminate|]); destruct Hc. }
  intros [Q|[Q|Q]]; apply occurs_tail in Q; try (apply W; cbn; auto); try discriminate; unfold prerelease; auto.
Qed.
Lemma prerelease_app p d : prerelease p -> prerelease (p ++ d).
Proof.
  intros [(a & b & ->)|[(a & b & ->)|(a & b & ->)]]; [left|right; left|right; right]; exists a, (b ++ d); now rewrite <- !app_assoc.
Qed.

(** * The first pattern *)
Lemma nolf_dot s : ~ In LF s -> forallb dot s = true.
Proof. intros N. apply forallb_forall. intros c Hc. unfold dot. apply negb_true_iff, N.eqb_neq. intros ->. auto. Qed.
Lemma front_first s f zero ds post : leading s f zero ds post -> ~ In LF s ->
  exists m, re_match bump_regex s = Some m /\ group_str 1 m = f /\ group_str 2 m = zero /\ group_str 3 m = ds /\ group_str 4 m = post.
Proof.
  intros (E & D & Hf & Hp & Hz) NL. apply digits_b in D as [Nd Fd].
  assert (NLp : forallb dot post = true). { apply nolf_dot. intros Q. apply NL. rewrite E, !in_app_iff. auto. }
  assert (Tail : forall pr cs, exists m, H (Seq (Grp 3 (Plus true is_digit)) (Seq (Grp 4 (Star true dot)) Dollar)) (mkst pr (ds ++ post) cs) m /\
     caps m = (4%nat, post) :: (3%nat, ds) :: cs).
  { intros pr cs. eexists. split.
    - eapply H_seq; [eapply H_grp; [apply H_plus; auto|reflexivity]|]. cbn [pre rest caps].
      eapply H_seq; [apply (H_grp 4 _ _ (mkst (rev post ++ rev ds ++ pr) [] ((3%nat, ds) :: cs)) post); [|reflexivity]|].
      + pose proof (H_star dot (rev ds ++ pr) post [] ((3%nat, ds) :: cs) NLp) as Q. rewrite app_nil_r in Q. apply Q. discriminate.
      + cbn [pre rest caps]. reflexivity.
    - reflexivity. }
  assert (Mid : forall pr cs, exists m, H (Seq (Opt (Grp 2 (word (lit "0.")))) (Seq (Grp 3 (Plus true is_digit)) (Seq (Grp 4 (Star true dot)) Dollar)))
      (mkst pr (zero ++ ds ++ post) cs) m /\ caps m = (4%nat, post) :: (3%nat, ds) :: match zero with [] => cs | _ => (2%nat, zero) :: cs end).
  { intros pr cs. destruct Hz as [->|[-> Nz]].
    - destruct (Tail (rev (lit "0.") ++ pr) ((2%nat, lit "0.") :: cs)) as (m & Hm & C). exists m. split; [|exact C].
      apply H_Seq_altl. eapply H_seq; [eapply H_grp; [apply H_word|reflexivity]|]. exact Hm.
    - destruct (Tail pr cs) as (m & Hm & C). exists m. split; [|exact C]. cbn [app].
      apply H_Seq_altr; [|now apply H_Seq_eps]. intros m' Q. apply Match_Seq in Q as (s1 & G & T). apply Match_Grp in G as (w & s2 & G & _ & G2 & _).
      apply Match_word in G as (G & _). cbn [rest] in G. apply Match_Seq in T as (s3 & T & _). apply Match_Grp_Plus in T as (u & Nu & T & Fu & _).
      rewrite G2, T in G. destruct u as [|c u]; [congruence|]. cbn [forallb] in Fu. apply andb_true_iff in Fu as [Fc _]. apply Nz.
      destruct ds as [|a ds]; [congruence|]. cbn [app lit list_ascii_of_string map] in G. injection G as -> G.
      destruct ds as [|b ds].
      + cbn [app] in G. split; [reflexivity|]. eexists c, _. split; [exact G|exact Fc].
      + exfalso. injection G as -> _. discriminate. }
  assert (All : exists m, H bump_regex (mkst [] s []) m /\ caps m = (4%nat, post) :: (3%nat, ds) :: match zero with [] => [] | _ => [(2%nat, zero)] end ++ match f with [] => [] | _ => [(1%nat, f)] end).
  { unfold bump_regex. rewrite E. destruct Hf as [->|(ws & -> & Nw & Fw)].
    - destruct (Mid [] []) as (m & Hm & C). exists m. split.
      + eapply H_seq; [reflexivity|]. apply H_Seq_altr; [|now apply H_Seq_eps]. intros m' Q. apply Match_Seq in Q as (s1 & G & _).
        apply Match_Grp in G as (w & s2 & G & _). apply Match_Seq in G as (s3 & G & _). apply Match_word in G as (G & _). cbn [rest app] in G.
        destruct Hz as [->|[-> _]]; [discriminate|]. destruct ds as [|a ds]; [congruence|]. cbn [app lit list_ascii_of_string map] in G. injection G as -> _.
        cbn [forallb] in Fd. discriminate.
      + rewrite C. now destruct zero.
    - assert (Fw' : forallb is_space ws = true) by (apply forallb_forall; now apply Forall_forall).
      destruct (Mid (rev (lit "%release_func" ++ ws) ++ []) [(1%nat, lit "%release_func" ++ ws)]) as (m & Hm & C). exists m. split.
      + eapply H_seq; [reflexivity|]. apply H_Seq_altl. rewrite rev_app_distr, app_nil_r in Hm. eapply H_seq; [|exact Hm].
        rewrite <- app_assoc. eapply (H_grp 1 _ _ (mkst (rev ws ++ rev (lit "%release_func")) (zero ++ ds ++ post) []) (lit "%release_func" ++ ws)).
        * eapply H_seq; [apply H_word|]. rewrite app_nil_r. apply H_plus; auto.
          intros c rs' Q. destruct Hz as [->|[-> _]]; [injection Q as <- _; reflexivity|].
          destruct ds as [|a ds]; [congruence|]. injection Q as <- _. cbn [forallb] in Fd. apply andb_true_iff in Fd as [Fd _]. now apply is_digit_not_space.
        * cbn [pre]. now rewrite rev_app_distr, app_nil_r.
      + rewrite C. now destruct zero. }
  destruct All as (m & Hm & C). exists m. split; [exact Hm|]. unfold group_str, group. rewrite C. cbn [cap_get Nat.eqb].
  destruct Hf as [->|(ws & -> & _)], Hz as [->|[-> _]]; cbn; auto.
Qed.

Lemma first_front s m : re_match bump_regex s = Some m -> exists f zero ds post, leading s f zero ds post.
Proof.
  intros R. apply re_match_sound in R. unfold bump_regex in R. apply Match_Seq in R as (s0 & C & R). apply Match_Caret in C as [-> _].
  apply Match_Seq in R as (s1 & F & R). apply Match_Seq in R as (s2 & Z & R). apply Match_Seq in R as (s3 & G & _).
  apply Match_Grp_Plus in G as (w & Nw & E & Fw & _).
  assert (Hf : exists f, s = f ++ rest s1 /\ (f = [] \/ exists ws, f = lit "%release_func" ++ ws /\ ws <> [] /\ Forall (fun c => is_space c = true) ws)).
  { apply Match_Alt in F as [F|F].
    - apply Match_Grp in F as (x & s4 & F & F1 & F2 & _). cbn [rest] in F1. exists x. split; [exact F1|]. right.
      apply Match_Seq in F as (s5 & W & P). apply Match_word in W as (W & _). apply Match_Plus in P as (ws & Nws & P & Fws & _).
      exists ws. split; [|split; [exact Nws|apply Forall_forall; now apply forallb_forall]].
      apply (app_inv_tail (rest s1)). rewrite <- F1. cbn [rest] in W. rewrite W, P, F2. now rewrite <- app_assoc.
    - apply Match_Eps in F. subst s1. exists []. cbn. auto. }
  destruct Hf as (f & Ef & Hf).
  assert (Hz : exists z, rest s1 = z ++ rest s2 /\ (z = lit "0." \/ z = [])).
  { apply Match_Alt in Z as [Z|Z].
    - apply Match_Grp in Z as (x & s4 & Z & F1 & F2 & _). apply Match_word in Z as (Z & _). exists (lit "0."). split; [|auto]. now rewrite Z, F2.
    - apply Match_Eps in Z. subst s2. exists []. auto. }
  destruct Hz as (z & Ez & Hz).
  set (ds := w ++ takewhile is_digit (rest s3)). set (post := dropwhile is_digit (rest s3)).
  assert (Ed : rest s2 = ds ++ post) by (unfold ds, post; rewrite <- app_assoc, takedrop; exact E).
  assert (Dd : digits ds).
  { apply b_digits; [unfold ds; destruct w; [congruence|discriminate]|]. unfold ds. rewrite forallb_app, Fw. apply P_value.takewhile_all. }
  assert (Dp : forall l (c : char) t, dropwhile is_digit l = c :: t -> is_digit c = false).
  { induction l as [|x l IH]; intros c t; cbn [dropwhile]; [discriminate|]. destruct (is_digit x) eqn:Q; [apply IH|]. intros X. injection X as <- _. exact Q. }
  destruct Hz as [->| ->].
  - exists f, (lit "0."), ds, post. repeat split; auto; try apply Dd; [now rewrite Ef, Ez, Ed|]. intros c t. apply Dp.
  - cbn [app] in Ez.
    destruct (str_eqb ds [ZERO]) eqn:E0.
    + apply str_eqb_eq in E0. destruct post as [|c [|d t]] eqn:Ep.
      * exists f, [], ds, []. repeat split; auto; try apply Dd; [now rewrite Ef, Ez, Ed|discriminate|]. right. split; auto. intros (_ & ? & ? & Q & _). discriminate.
      * exists f, [], ds, [c]. repeat split; auto; try apply Dd; [now rewrite Ef, Ez, Ed|intros ? ? X; injection X as <- <-; apply (Dp (rest s3) c []); exact Ep|].
        right. split; auto. intros (_ & ? & ? & Q & _). discriminate.
      * destruct ((c =? DOT) && is_digit d) eqn:Q.
        -- apply andb_true_iff in Q as [Qc Qd]. apply N.eqb_eq in Qc. subst c.
           exists f, (lit "0."), (takewhile is_digit (d :: t)), (dropwhile is_digit (d :: t)). split; [|split; [|split; [exact Hf|split; [intros c u; apply Dp|now left]]]].
           ++ rewrite takedrop, Ef, Ez, Ed, E0. reflexivity.
           ++ apply b_digits; [cbn [takewhile]; now rewrite Qd|apply P_value.takewhile_all].
        -- exists f, [], ds, (c :: d :: t). repeat split; auto; try apply Dd; [now rewrite Ef, Ez, Ed|intros ? ? X; injection X as <- <-; apply (Dp (rest s3) c (d :: t)); exact Ep|].
           right. split; auto. intros (_ & ? & ? & X & Y). injection X as -> <- <-. rewrite Y in Q. discriminate.
    + exists f, [], ds, post. repeat split; auto; try apply Dd; [now rewrite Ef, Ez, Ed|intros c t; apply Dp|]. right. split; auto. intros (Q & _). rewrite Q in E0. discriminate.
Qed.

(** * The second pattern *)
Lemma minor_match s a ds : ends_in_number s a ds -> ~ In LF s ->
  exists m, re_match minor_regex s = Some m /\ group_str 1 m = a ++ [DOT] /\ group_str 2 m = ds.
Proof.
  intros (E & Na & D) NL. pose proof (digits_b _ D) as [Nd Fd].
  assert (Ha : forallb dot a = true). { apply nolf_dot. intros Q. apply NL. rewrite E, in_app_iff. auto. }
  assert (Ex : exists cs, L (Seq (Grp 1 (Seq (Plus true dot) (chr DOT))) (Grp 2 (Plus true is_digit))) [] s cs).
  { eexists. rewrite E. replace (a ++ DOT :: ds) with ((a ++ [DOT]) ++ ds) by now rewrite <- app_assoc.
    eapply L_seq; [apply L_grp; eapply L_seq; [now apply L_plus|apply L_chr]|]. apply L_grp. now apply L_plus. }
  destruct Ex as (cs & Ex).
  assert (Mm : Match minor_regex (mkst [] s []) (mkst (rev s) [] cs)).
  { unfold minor_regex. apply (MSeq _ _ _ (mkst [] s [])); [constructor|]. apply Match_Seq_assoc. now apply match_whole. }
  destruct (re_match_exists _ _ _ Mm) as (m & R & M). exists m. split; [exact R|].
  unfold minor_regex in M. apply Match_Seq in M as (s0 & C & M). apply Match_Caret in C as [-> _].
  apply Match_Seq in M as (s1 & G & M). apply Match_Seq in M as (s2 & G2 & Do). apply Match_Dollar in Do as [-> Do].
  apply Match_Grp in G as (x & s3 & G & G0 & G1 & _ & _ & G3). apply Match_Seq in G as (s4 & P & Q).
  apply Match_Plus in P as (u & Nu & P & Fu & _ & P2). apply Match_Ch in Q as (c & Q & Qc & _ & Q2). apply N.eqb_eq in Qc. subst c.
  apply Match_Grp_Plus in G2 as (v & Nv & V & Fv & _ & V2). cbn [rest] in *.
  assert (En : rest s2 = []). { apply at_dollar_noLF; auto. intros X. apply NL. rewrite G0, V, !in_app_iff. auto. }
  rewrite En, app_nil_r in V.
  assert (Ex2 : x = u ++ [DOT]). { apply (app_inv_tail (rest s1)). rewrite <- G0, P, Q, G1, <- app_assoc. reflexivity. }
  assert (Es : a ++ DOT :: ds = u ++ DOT :: v). { rewrite <- E, G0, V, Ex2, <- app_assoc. reflexivity. }
  assert (Nodot : forall l, forallb is_digit l = true -> forallb (fun c => negb (DOT =? c)) l = true).
  { intros l Hl. rewrite forallb_forall in *. intros c Hc. apply Hl in Hc. apply negb_true_iff, N.eqb_neq. intros <-. discriminate. }
  apply (last_unique (N.eqb DOT)) in Es as (Ea & _ & Ev); try apply N.eqb_refl; auto.
  unfold group_str, group. rewrite V2, G3. cbn [cap_get Nat.eqb]. now rewrite Ex2, Ea, Ev.
Qed.
Lemma match_minor s m : re_match minor_regex s = Some m -> ~ In LF s -> exists a ds, ends_in_number s a ds.
Proof.
  intros R NL. apply re_match_sound in R.
  unfold minor_regex in R. apply Match_Seq in R as (s0 & C & M). apply Match_Caret in C as [-> _].
  apply Match_Seq in M as (s1 & G & M). apply Match_Seq in M as (s2 & G2 & Do). apply Match_Dollar in Do as [-> Do].
  apply Match_Grp in G as (x & s3 & G & G0 & G1 & _ & _ & G3). apply Match_Seq in G as (s4 & P & Q).
  apply Match_Plus in P as (u & Nu & P & Fu & _ & P2). apply Match_Ch in Q as (c & Q & Qc & _ & Q2). apply N.eqb_eq in Qc. subst c.
  apply Match_Grp_Plus in G2 as (v & Nv & V & Fv & _ & V2). cbn [rest] in *.
  assert (En : rest s2 = []). { apply at_dollar_noLF; auto. intros X. apply NL. rewrite G0, V, !in_app_iff. auto. }
  exists u, v. split; [|split; [exact Nu|now apply b_digits]]. rewrite P, Q, G1, V, En, app_nil_r. reflexivity.
Qed.

(** * The result *)
Theorem bump_front s f zero ds post n : counts_in_front s f zero ds post -> ~ In LF s -> int_of_str ds = Some n ->
  bump_release_string s = f ++ zero ++ dec (n + 1) ++ post.
Proof.
  intros [Ld Ok] NL En. destruct (front_first _ _ _ _ _ Ld NL) as (m & R & G1 & G2 & G3 & G4). unfold bump_release_string. rewrite R, G1, G2, G3, G4.
  assert (negb (str_eqb zero []) || forallb (fun x => negb (is_substring x post)) [lit "alpha"; lit "beta"; lit "rc"] = true) as ->.
  { destruct Ok as [Nz|Np]; apply orb_true_iff; [left|right; now apply prerelease_b]. destruct zero; [congruence|reflexivity]. }
  unfold incremented. now rewrite En.
Qed.
Lemma bump_not_front s : no_front_count s -> ~ In LF s -> bump_release_string s =
  match re_match minor_regex s with Some m => group_str 1 m ++ incremented (group_str 2 m) | None => s ++ lit ".1" end.
Proof.
  intros N NL. unfold bump_release_string. destruct (re_match bump_regex s) as [m|] eqn:R; [|reflexivity].
  destruct (first_front _ _ R) as (f & zero & ds & post & Ld). destruct (front_first _ _ _ _ _ Ld NL) as (m' & R' & G1 & G2 & G3 & G4).
  rewrite R in R'. injection R' as <-. rewrite G2, G4.
  assert (negb (str_eqb zero []) || forallb (fun x => negb (is_substring x post)) [lit "alpha"; lit "beta"; lit "rc"] = false) as ->; [|reflexivity].
  apply not_true_iff_false. intros Q. apply N. exists f, zero, ds, post. split; [exact Ld|]. apply orb_true_iff in Q as [Q|Q].
  - left. intros ->. discriminate.
  - right. now apply prerelease_b.
Qed.
Theorem bump_end s a ds n : no_front_count s -> ends_in_number s a ds -> ~ In LF s -> int_of_str ds = Some n ->
  bump_release_string s = a ++ DOT :: dec (n + 1).
Proof.
  intros N E NL En. rewrite (bump_not_front _ N NL). destruct (minor_match _ _ _ E NL) as (m & -> & -> & ->).
  unfold incremented. rewrite En. now rewrite <- app_assoc.
Qed.
Theorem bump_append s : no_front_count s -> ~ (exists a ds, ends_in_number s a ds) -> ~ In LF s ->
  bump_release_string s = s ++ lit ".1".
Proof.
  intros N E NL. rewrite (bump_not_front _ N NL). destruct (re_match minor_regex s) as [m|] eqn:R; [|reflexivity].
  exfalso. apply E. eapply match_minor; eauto.
Qed.
(** Every release is of one of the three kinds. *)
Theorem bump_kinds s : ~ In LF s ->
  (exists f zero ds post, counts_in_front s f zero ds post) \/
  (no_front_count s /\ exists a ds, ends_in_number s a ds) \/
  (no_front_count s /\ ~ exists a ds, ends_in_number s a ds).
Proof.
  intros NL.
  assert (Dec1 : (exists f zero ds post, counts_in_front s f zero ds post) \/ no_front_count s).
  { destruct (re_match bump_regex s) as [m|] eqn:R.
    - destruct (first_front _ _ R) as (f & zero & ds & post & Ld). destruct zero as [|z zero].
      + destruct (forallb (fun x => negb (is_substring x post)) [lit "alpha"; lit "beta"; lit "rc"]) eqn:Q.
        * left. exists f, [], ds, post. split; [exact Ld|right; now apply prerelease_b].
        * right. intros (f' & zero' & ds' & post' & Ld' & Ok). destruct (front_first _ _ _ _ _ Ld NL) as (m1 & R1 & _ & G2 & _ & G4).
          destruct (front_first _ _ _ _ _ Ld' NL) as (m2 & R2 & _ & H2 & _ & H4). rewrite R1 in R2. injection R2 as <-.
          rewrite G2 in H2. rewrite G4 in H4. subst. destruct Ok as [Ok|Ok]; [congruence|]. apply prerelease_b in Ok. congruence.
      + left. exists f, (z :: zero), ds, post. split; [exact Ld|left; discriminate].
    - right. intros (f & zero & ds & post & Ld & _). destruct (front_first _ _ _ _ _ Ld NL) as (m & R' & _). congruence. }
  destruct Dec1 as [D|D]; [auto|]. right. destruct (re_match minor_regex s) as [m|] eqn:R.
  - left. split; auto. eapply match_minor; eauto.
  - right. split; auto. intros (a & ds & E). destruct (minor_match _ _ _ E NL) as (m & R' & _). congruence.
Qed.

(** * Bumping again and again *)
Definition bumps (k : nat) (s : str) : str := Nat.iter k bump_release_string s.
Lemma dec_not_zero n : 0 < n -> dec n <> [ZERO].
Proof. intros P Q. assert (int_of_str (dec n) = Some 0) by now rewrite Q. rewrite int_of_dec in H. injection H as ->. lia. Qed.
Lemma nolf_dec n : ~ In LF (dec n).
Proof. intros Q. pose proof (dec_is_digits n) as D. rewrite forallb_forall in D. apply D in Q. discriminate. Qed.

Lemma front_again s f zero ds post k : counts_in_front s f zero ds post -> 0 < k ->
  counts_in_front (f ++ zero ++ dec k ++ post) f zero (dec k) post.
Proof.
  intros [(E & D & Hf & Hp & Hz) Ok] P. split; [|exact Ok]. split; [reflexivity|]. split; [apply digits_dec|]. split; [exact Hf|]. split; [exact Hp|].
  destruct Hz as [->|[-> Nz]]; [now left|right]. split; [reflexivity|]. intros [Q _]. now apply dec_not_zero in Q.
Qed.
Lemma bumps_front f zero post : forall k s ds n, counts_in_front s f zero ds post -> ~ In LF s -> int_of_str ds = Some n ->
  bumps (S k) s = f ++ zero ++ dec (n + 1 + N.of_nat k) ++ post.
Proof.
  induction k as [|k IH]; intros s ds n C NL En.
  - cbn. rewrite (bump_front _ _ _ _ _ _ C NL En). now rewrite N.add_0_r.
  - change (bumps (S (S k)) s) with (bump_release_string (bumps (S k) s)). rewrite (IH _ _ _ C NL En).
    erewrite bump_front; [|eapply front_again; [exact C|lia]| |apply int_of_dec].
    + do 3 f_equal. f_equal. lia.
    + destruct C as [(E & _) _]. intros Q. rewrite !in_app_iff in Q. apply NL. rewrite E, !in_app_iff. destruct Q as [Q|[Q|[Q|Q]]]; auto. now apply nolf_dec in Q.
Qed.

(** Changing the last number does not make the release count in front. *)
Lemma app_split {A} (a b c d : list A) : a ++ b = c ++ d -> (exists x, a = c ++ x /\ d = x ++ b) \/ (exists x, x <> [] /\ c = a ++ x /\ b = x ++ d).
Proof.
  revert c. induction a as [|x a IH]; intros c E.
  - destruct c as [|y c]; [left; exists []; cbn in *; auto|]. right. exists (y :: c). split; [discriminate|]. auto.
  - destruct c as [|y c]; [left; exists (x :: a); cbn in *; auto|]. injection E as -> E. destruct (IH _ E) as [(z & -> & ->)|(z & N & -> & ->)]; [left|right]; exists z; auto.
Qed.
Lemma front_other a ds ds' f zero e post : digits ds -> digits ds' ->
  counts_in_front (a ++ DOT :: ds') f zero e post -> a <> [] ->
  exists f zero e post, counts_in_front (a ++ DOT :: ds) f zero e post.
Proof.
  intros D D' [(E & De & Hf & Hp & Hz) Ok] Na.
  pose proof (digits_b _ D) as [Nd Fd]. pose proof (digits_b _ D') as [Nd' Fd']. pose proof (digits_b _ De) as [Ne Fe].
  assert (E2 : (a ++ [DOT]) ++ ds' = (f ++ zero ++ e) ++ post). { rewrite <- !app_assoc. cbn [app]. exact E. }
  destruct (app_split _ _ _ _ E2) as [(x & Ea & Ep)|(x & Nx & Ec & Ed)].
  - destruct x as [|c x].
    + exfalso. rewrite app_nil_r in Ea. rewrite !app_assoc in Ea. destruct (exists_last Ne) as (e' & c & ->).
      rewrite app_assoc in Ea. apply app_inj_tail in Ea as [_ <-]. rewrite forallb_app in Fe. cbn in Fe. rewrite andb_false_r in Fe. discriminate.
    + exists f, zero, e, ((c :: x) ++ ds). split.
      * split; [replace (a ++ DOT :: ds) with ((a ++ [DOT]) ++ ds) by (now rewrite <- app_assoc); rewrite Ea; now rewrite <- !app_assoc|].
        split; [exact De|]. split; [exact Hf|]. split. { intros d t Q. injection Q as <- _. apply (Hp c (x ++ ds')). exact Ep. }
        destruct Hz as [->|[-> Nz]]; [now left|right]. split; [reflexivity|]. intros (-> & d & t & Q & Qd). apply Nz. split; [reflexivity|]. rewrite Ep.
        destruct x as [|y x]; cbn [app] in *.
        -- injection Q as -> Q. destruct ds' as [|u ds']; [congruence|]. exists u, ds'. split; [reflexivity|]. cbn in Fd'. now apply andb_true_iff in Fd' as [? _].
        -- injection Q as -> -> _. exists d, (x ++ ds'). auto.
      * destruct Ok as [Ok|Ok]; [now left|right]. intros Q. apply Ok. rewrite Ep. apply prerelease_app. eapply prerelease_tail; [|exact Q].
        destruct D as [_ D]. eapply Forall_impl; [|exact D]. auto.
  - destruct post as [|c post].
    + rewrite app_nil_r in Ed. subst x. rewrite !app_assoc in Ec.
      assert (Hx : (f ++ zero) ++ e = (a ++ [DOT]) ++ ds') by exact Ec. clear Ec.
      destruct (app_split _ _ _ _ Hx) as [(x & Ex1 & Ex2)|(x & Nx' & Ex1 & Ex2)].
      * destruct x as [|c x]; cbn [app] in Ex2.
        -- rewrite app_nil_r in Ex1. exists f, zero, ds, []. subst e. split; [|destruct Ok as [Ok|Ok]; [now left|now right]].
           split. { rewrite app_nil_r. rewrite app_assoc, Ex1. now rewrite <- app_assoc. }
           split; [exact D|]. split; [exact Hf|]. split; [discriminate|]. destruct Hz as [->|[-> Nz]]; [now left|right]. split; [reflexivity|].
           intros (_ & ? & ? & Q & _). discriminate.
        -- exfalso. (* the zero part ends in a digit *)
           assert (Lst : exists y z, f ++ zero = y ++ [z] /\ is_digit z = true).
           { destruct (exists_last (l := c :: x)) as (x' & z & Ez); [discriminate|]. exists ((a ++ [DOT]) ++ x'), z. split; [rewrite Ex1, Ez; now rewrite app_assoc|].
             rewrite Ex2 in Fd'. change (c :: x ++ e) with ((c :: x) ++ e) in Fd'. rewrite Ez, forallb_app, forallb_app in Fd'. cbn in Fd'. rewrite andb_true_r in Fd'.
             apply andb_true_iff in Fd' as [Fd' _]. now apply andb_true_iff in Fd' as [_ ?]. }
           destruct Lst as (y & z & El & Hz'). destruct Hz as [->|[-> _]].
           ++ change (lit "0.") with ([ZERO] ++ [DOT]) in El. rewrite app_assoc in El. apply app_inj_tail in El as [_ <-]. discriminate.
           ++ rewrite app_nil_r in El. destruct Hf as [->|(ws & -> & Nw & Fw)]; [destruct y; discriminate|].
              destruct (exists_last Nw) as (ws' & q & ->). rewrite app_assoc in El. apply app_inj_tail in El as [_ <-].
              apply Forall_app in Fw as [_ Fw]. inversion Fw; subst. now rewrite (is_digit_not_space q Hz') in *.
      * exfalso. destruct (exists_last Nx') as (x' & z & ->). rewrite app_assoc in Ex1. apply app_inj_tail in Ex1 as [_ <-].
        rewrite Ex2, !forallb_app in Fe. cbn in Fe. rewrite andb_false_r in Fe. discriminate.
    + exfalso. pose proof (Hp c post eq_refl) as Q. rewrite Ed, forallb_app in Fd'. cbn in Fd'. rewrite Q, andb_false_l, andb_false_r in Fd'. discriminate.
Qed.
Lemma end_again a ds ds' : digits ds -> digits ds' -> a <> [] -> no_front_count (a ++ DOT :: ds) -> no_front_count (a ++ DOT :: ds').
Proof. intros D D' Na N (f & z & e & p & C). apply N. eapply front_other; [exact D|exact D'|exact C|exact Na]. Qed.
Lemma bumps_end a : forall k s ds n, no_front_count s -> ends_in_number s a ds -> ~ In LF s -> int_of_str ds = Some n ->
  bumps (S k) s = a ++ DOT :: dec (n + 1 + N.of_nat k).
Proof.
  induction k as [|k IH]; intros s ds n N E NL En.
  - cbn. rewrite (bump_end _ _ _ _ N E NL En). now rewrite N.add_0_r.
  - change (bumps (S (S k)) s) with (bump_release_string (bumps (S k) s)). rewrite (IH _ _ _ N E NL En). destruct E as (E & Na & D). subst s.
    erewrite bump_end; [| |split; [reflexivity|split; [exact Na|apply digits_dec]]| |apply int_of_dec].
    + do 3 f_equal. lia.
    + eapply end_again; [exact D|apply digits_dec|exact Na|exact N].
    + intros Q. apply in_app_iff in Q as [Q|[Q|Q]]; [apply NL, in_app_iff; auto|discriminate|now apply nolf_dec in Q].
Qed.
Lemma append_again s : s <> [] -> no_front_count s -> ~ In LF s -> no_front_count (s ++ lit ".1").
Proof.
  intros Ns N NL (f & zero & e & post & C). 
  pose proof C as [(E & De & Hf & Hp & Hz) Ok].
  pose proof (digits_b _ De) as [Ne Fe].
  assert (E2 : s ++ lit ".1" = (f ++ zero ++ e) ++ post) by (rewrite E; now rewrite <- !app_assoc).
  destruct (app_split _ _ _ _ E2) as [(x & Ea & Ep)|(x & Nx & Ec & Ed)].
  - apply N. exists f, zero, e, x. split.
    + split; [rewrite Ea; now rewrite <- !app_assoc|]. split; [exact De|]. split; [exact Hf|]. split.
      { intros c t ->. apply (Hp c (t ++ lit ".1")). exact Ep. }
      destruct Hz as [->|[-> Nz]]; [now left|right]. split; [reflexivity|]. intros (-> & c & t & -> & Qc). apply Nz. split; [reflexivity|].
      exists c, (t ++ lit ".1"). split; [exact Ep|exact Qc].
    + destruct Ok as [Ok|Ok]; [now left|right]. intros Q. apply Ok. rewrite Ep. now apply prerelease_app.
  - (* the dot belongs to f ++ zero ++ e *)
    destruct x as [|c x]; [congruence|]. injection Ed as <- Ed.
    assert (Hd : exists e1 e2, e = e1 ++ e2 /\ f ++ zero ++ e1 = s ++ [DOT] /\ x = e2 \/ f ++ zero = s ++ DOT :: x ++ [] /\ False).
    { assert (H1 : (f ++ zero) ++ e = (s ++ [DOT]) ++ x) by (rewrite <- !app_assoc; exact Ec).
      destruct (app_split _ _ _ _ H1) as [(y & Y1 & Y2)|(y & Ny & Y1 & Y2)].
      - destruct y as [|u y]; cbn [app] in Y2.
        + rewrite app_nil_r in Y1. exists [], e. left. rewrite app_nil_r. auto.
        + exfalso. (* x = u :: y ++ e is a prefix of "1" *)
          subst x. destruct e as [|e0 e]; [congruence|]. cbn in Ed. injection Ed as _ Ed. destruct y; discriminate.
      - exfalso. destruct (exists_last Ny) as (y' & z & ->). rewrite app_assoc in Y1. apply app_inj_tail in Y1 as [_ <-].
        rewrite Y2, !forallb_app in Fe. cbn in Fe. rewrite andb_false_r in Fe. discriminate. }
    destruct Hd as (e1 & e2 & [(Ee & Es & Ex)|[_ []]]).
    assert (Z0 : zero = lit "0." /\ e1 = []).
    { destruct e1 as [|u e1].
      - rewrite app_nil_r in Es. destruct Hz as [->|[-> _]]; [auto|]. exfalso. rewrite app_nil_r in Es. destruct Hf as [->|(ws & -> & Nw & Fw)]; [destruct s; discriminate|].
        destruct (exists_last Nw) as (ws' & q & ->). rewrite app_assoc in Es. apply app_inj_tail in Es as [_ ->]. apply Forall_app in Fw as [_ Fw]. inversion Fw; subst. discriminate.
      - exfalso. destruct (exists_last (l := u :: e1)) as (y & z & Ez); [discriminate|]. rewrite Ez in *. rewrite !app_assoc in Es. apply app_inj_tail in Es as [_ ->].
        rewrite Ee, !forallb_app in Fe. cbn in Fe. rewrite andb_false_r in Fe. discriminate. }
    destruct Z0 as [-> ->]. rewrite app_nil_r in Es. change (lit "0.") with ([ZERO] ++ [DOT]) in Es. rewrite app_assoc in Es. apply app_inj_tail in Es as [Es _].
    apply N. exists f, [], [ZERO], []. split.
    + split; [now rewrite <- Es|]. split; [now apply b_digits|]. split; [exact Hf|]. split; [discriminate|]. right. split; [reflexivity|].
      intros (_ & ? & ? & Q & _). discriminate.
    + right. intros [(a & b & Q)|[(a & b & Q)|(a & b & Q)]]; destruct a; discriminate.
Qed.

Lemma bumps_S k s : bumps (S k) s = bumps k (bump_release_string s).
Proof. induction k as [|k IH]; [reflexivity|]. change (bump_release_string (bumps (S k) s) = bump_release_string (bumps k (bump_release_string s))). now rewrite IH. Qed.
Lemma bumps_add k i s : bumps (k + i) s = bumps k (bumps i s).
Proof. induction k as [|k IH]; [reflexivity|]. change (bump_release_string (bumps (k + i) s) = bump_release_string (bumps k (bumps i s))). now rewrite IH. Qed.
Lemma bump_nonempty s : ~ In LF s -> bump_release_string s <> [] /\ ~ In LF (bump_release_string s).
Proof.
  intros NL. destruct (bump_kinds s NL) as [(f & z & ds & p & C)|[(N & a & ds & E)|(N & E)]].
  - pose proof C as [(Es & D & _) _]. destruct (digits_int _ D) as (n & En). rewrite (bump_front _ _ _ _ _ _ C NL En). split.
    + intros Q. apply app_eq_nil in Q as [_ Q]. apply app_eq_nil in Q as [_ Q]. apply app_eq_nil in Q as [Q _]. now apply dec_nonempty in Q.
    + intros Q. rewrite !in_app_iff in Q. apply NL. rewrite Es, !in_app_iff. destruct Q as [Q|[Q|[Q|Q]]]; auto. now apply nolf_dec in Q.
  - pose proof E as (Es & Na & D). destruct (digits_int _ D) as (n & En). rewrite (bump_end _ _ _ _ N E NL En). split; [destruct a; discriminate|].
    intros Q. apply in_app_iff in Q as [Q|[Q|Q]]; [apply NL; rewrite Es; apply in_app_iff; auto|discriminate|now apply nolf_dec in Q].
  - rewrite (bump_append _ N E NL). split; [destruct s; discriminate|]. intros Q. apply in_app_iff in Q as [Q|[Q|[Q|[]]]]; [auto|discriminate|discriminate].
Qed.
Lemma bumps_nolf k : forall s, ~ In LF s -> ~ In LF (bumps k s).
Proof. induction k as [|k IH]; intros s NL; [exact NL|]. rewrite bumps_S. apply IH. now apply bump_nonempty. Qed.
Lemma never_back k s : ~ In LF s -> bumps (S k) s <> s.
Proof.
  intros NL Q. destruct (bump_kinds s NL) as [(f & z & ds & p & C)|[(N & a & ds & E)|(N & E)]].
  - pose proof C as [(Es & D & _) _]. destruct (digits_int _ D) as (n & En). rewrite (bumps_front f z p k s ds n C NL En) in Q. rewrite Es in Q.
    apply app_inv_head in Q. apply app_inv_head in Q. apply app_inv_tail in Q. rewrite <- Q, int_of_dec in En. injection En. lia.
  - pose proof E as (Es & Na & D). destruct (digits_int _ D) as (n & En). rewrite (bumps_end a k s ds n N E NL En) in Q. rewrite Es in Q.
    apply app_inv_head in Q. injection Q as Q. rewrite <- Q, int_of_dec in En. injection En. lia.
  - destruct s as [|c s].
    + destruct k as [|k]; [discriminate|]. change (bumps (S (S k)) []) with (bump_release_string (bumps (S k) [])) in Q.
      now apply (bump_nonempty (bumps (S k) [])) in Q; [|apply bumps_nolf].
    + rewrite bumps_S, (bump_append _ N E NL) in Q. destruct k as [|k].
      * cbn in Q. apply (f_equal (@length _)) in Q. cbn in Q. rewrite app_length in Q. cbn in Q. lia.
      * assert (Nc : c :: s <> []) by discriminate.
        assert (NL' : ~ In LF ((c :: s) ++ lit ".1")). { intros X. apply in_app_iff in X as [X|[X|[X|[]]]]; [auto|discriminate|discriminate]. }
        rewrite (bumps_end (c :: s) k ((c :: s) ++ lit ".1") (lit "1") 1) in Q.
        -- apply (f_equal (@length _)) in Q. rewrite app_length in Q. cbn in Q. lia.
        -- now apply append_again.
        -- split; [reflexivity|]. split; [discriminate|]. now apply b_digits.
        -- exact NL'.
        -- reflexivity.
Qed.
Theorem never_repeats s i j : ~ In LF s -> (i < j)%nat -> bumps i s <> bumps j s.
Proof.
  intros NL L Q. replace j with ((S (j - i - 1)) + i)%nat in Q by lia. rewrite bumps_add in Q.
  symmetry in Q. revert Q. apply (never_back (j - i - 1) (bumps i s)). now apply bumps_nolf.
Qed.

(** * References *)
(** Induction on nodes that goes into the bodies of conditional expansions. *)
Lemma node_ind2 (P : node -> Prop) :
  (forall v, P (StringLiteral v)) -> (forall b, P (ShellExpansion b)) -> (forall b, P (ExpressionExpansion b)) ->
  (forall p n, P (MacroSubstitution p n)) -> (forall p n a, P (EnclosedMacroSubstitution p n a)) ->
  (forall p n body, Forall P body -> P (ConditionalMacroExpansion p n body)) -> (forall n b, P (BuiltinMacro n b)) -> forall n, P n.
Proof.
  intros H1 H2 H3 H4 H5 H6 H7. fix IH 1. intros [v|b|b|p n|p n a|p n body|n b]; [apply H1|apply H2|apply H3|apply H4|apply H5| |apply H7].
  apply H6. induction body as [|x body IHb]; constructor; [apply IH|exact IHb].
Qed.
Definition hit (name : str) (n : node) : bool :=
  match n with MacroSubstitution _ x | EnclosedMacroSubstitution _ x _ => str_eqb x name | _ => false end.
Lemma hits_sound name : forall n, existsb (hit name) (flatten_node n) = true -> forall ns, refers name (n :: ns).
Proof.
  intros n. induction n as [v|b|b|p x|p x a|p x body IH|x b] using node_ind2; cbn [flatten_node existsb hit orb]; try discriminate; intros Q ns.
  - rewrite orb_false_r in Q. apply str_eqb_eq in Q. subst x. constructor.
  - rewrite orb_false_r in Q. apply str_eqb_eq in Q. subst x. constructor.
  - apply F_inside. induction IH as [|m body Hm _ IHb]; [discriminate|]. cbn [flat_map] in Q. rewrite existsb_app in Q. apply orb_true_iff in Q as [Q|Q].
    + now apply Hm.
    + apply F_later. now apply IHb.
Qed.
Theorem refers_iff name ns : refers_to name ns = true <-> refers name ns.
Proof.
  unfold refers_to. fold (hit name). split.
  - unfold flatten. induction ns as [|n ns IH]; cbn [flat_map]; [discriminate|]. rewrite existsb_app, orb_true_iff. intros [Q|Q].
    + now apply hits_sound.
    + apply F_later. auto.
  - unfold flatten. induction 1 as [p ns|p args ns|p n body ns _ IH|n ns _ IH]; cbn [flat_map flatten_node app existsb hit].
    + now rewrite str_eqb_refl.
    + now rewrite str_eqb_refl.
    + rewrite existsb_app, IH. reflexivity.
    + rewrite existsb_app, IH. now rewrite orb_true_r.
Qed.
Theorem autorelease_iff raw : has_autorelease raw = Ok true <-> exists nodes, parse raw = Ok nodes /\ refers (lit "autorelease") nodes.
Proof.
  unfold has_autorelease. destruct (parse raw) as [nodes|e]; cbn [bind].
  - split; [intros Q; injection Q as Q; apply refers_iff in Q; eauto|intros (n & Q & R); injection Q as <-; apply refers_iff in R; now rewrite R].
  - split; [discriminate|]. intros (n & Q & _). discriminate.
Qed.
Theorem autochangelog_iff section : (forall l e, In l section -> parse l = Err e -> e = UnterminatedMacroException) ->
  (contains_autochangelog section = Ok true <->
   exists l nodes, In l section /\ startswith (lstrip l) [HASH] = false /\ parse l = Ok nodes /\ refers (lit "autochangelog") nodes) /\
  exists b, contains_autochangelog section = Ok b.
Proof.
  induction section as [|l ls IH]; intros Ok'.
  - split; [|now exists false]. split; [discriminate|]. intros (x & _ & [] & _).
  - destruct IH as [IH [b Hb]]; [intros; eapply Ok'; [right|]; eauto|]. cbn [contains_autochangelog].
    assert (Skip : (startswith (lstrip l) [HASH] = true \/ (exists nodes, parse l = Ok nodes /\ refers_to (lit "autochangelog") nodes = false) \/ exists e, parse l = Err e) ->
      (contains_autochangelog ls = Ok true <->
       exists x nodes, In x (l :: ls) /\ startswith (lstrip x) [HASH] = false /\ parse x = Ok nodes /\ refers (lit "autochangelog") nodes)).
    { intros Hs. rewrite IH. split.
      - intros (x & n & A & B). exists x, n. split; [now right|exact B].
      - intros (x & n & [->|A] & B & C & D); [|exists x, n; auto]. exfalso. destruct Hs as [Hs|[(n' & Hs & Q)|(e & Hs)]]; [congruence| |congruence].
        rewrite C in Hs. injection Hs as <-. apply refers_iff in D. congruence. }
    destruct (startswith (lstrip l) [HASH]) eqn:Eh; [split; [apply Skip; auto|eauto]|].
    destruct (parse l) as [nodes|e] eqn:Ep.
    + destruct (refers_to (lit "autochangelog") nodes) eqn:Er.
      * split; [|eauto]. split; [|reflexivity]. intros _. exists l, nodes. repeat split; auto; [now left|now apply refers_iff].
      * split; [apply Skip; eauto|eauto].
    + rewrite (Ok' l e (or_introl eq_refl) Ep). split; [apply Skip; eauto|eauto].
Qed.
(** Flattening keeps the leaves, in order. *)
Theorem flatten_leaves ns out : flatten ns = out <-> leaves ns out.
Proof.
  assert (F : forall ns, leaves ns (flatten ns)).
  { assert (G : forall n ns, leaves ns (flatten ns) -> leaves (n :: ns) (flatten_node n ++ flatten ns)).
    { intros n. induction n as [v|b|b|p x|p x a|p x body IH|x b] using node_ind2; intros ms Hm; cbn [flatten_node app]; try (apply L_leaf; [discriminate|exact Hm]).
      apply L_inside; [|exact Hm]. clear Hm. change (flat_map flatten_node body) with (flatten body). induction IH as [|m body H _ IHb]; [constructor|]. now apply H. }
    induction ns0 as [|n l IH]; [constructor|]. now apply G. }
  split; [intros <-; apply F|]. induction 1 as [|n ns out N _ IH|p x body ns o1 o2 _ IH1 _ IH2]; [reflexivity| |].
  - unfold flatten in *. cbn [flat_map]. rewrite IH. destruct n; try reflexivity. now exfalso; eapply N.
  - unfold flatten in *. cbn [flat_map flatten_node]. now rewrite IH1, IH2.
Qed.
End U.
