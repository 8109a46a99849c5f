(** Facts about the regular expression matcher. *)
From Coq Require Import NArith List Bool Lia Arith.
From Verif Require Import PyStr Regex.
Import ListNotations.
Open Scope N_scope.

Lemma Match_span r s s' : Match r s s' ->
  exists w, rest s = w ++ rest s' /\ pre s' = rev w ++ pre s.
Proof.
  induction 1; cbn [pre rest] in *.
  - exists []; auto.
  - exists [c]; auto.
  - destruct IHMatch1 as (w1 & E1 & F1), IHMatch2 as (w2 & E2 & F2).
    exists (w1 ++ w2). rewrite E1, E2, F2, F1, rev_app_distr, !app_assoc. auto.
  - assumption.
  - assumption.
  - exists w; auto.
  - assumption.
  - assumption.
  - assumption.
  - exists []; auto.
  - exists []; auto.
  - exists []; auto.
  - exists []; auto.
  - exists w; auto.
Qed.

Lemma consumed_eq s s' w : pre s' = rev w ++ pre s -> consumed s s' = w.
Proof.
  intros E. unfold consumed. rewrite E, app_length.
  replace (length (rev w) + length (pre s) - length (pre s))%nat with (length (rev w)) by lia.
  rewrite firstn_app, firstn_all, Nat.sub_diag, app_nil_r. apply rev_involutive.
Qed.

Lemma star_results_spec g p rs : forall pr cs s',
  In s' (star_results g p pr rs cs) <->
  exists w rs', rs = w ++ rs' /\ forallb p w = true /\ s' = mkst (rev w ++ pr) rs' cs.
Proof.
  induction rs as [|c rs IH]; intros pr cs s'; cbn [star_results].
  - split.
    + intros [<-|[]]. exists [], []; auto.
    + intros (w & rs' & E & _ & ->). symmetry in E; apply app_eq_nil in E as [-> ->]. now left.
  - assert (R : In s' (star_results g p (c :: pr) rs cs) <->
       exists w rs', rs = w ++ rs' /\ forallb p w = true /\ s' = mkst (rev (c :: w) ++ pr) rs' cs).
    { rewrite IH. split; intros (w & rs' & E & F & G); exists w, rs'; repeat split; auto;
        rewrite G; cbn; now rewrite <- app_assoc. }
    destruct (p c) eqn:Pc.
    + assert (Q : (s' = mkst pr (c :: rs) cs \/ In s' (star_results g p (c :: pr) rs cs)) <->
        exists w rs', c :: rs = w ++ rs' /\ forallb p w = true /\ s' = mkst (rev w ++ pr) rs' cs).
      { rewrite R. split.
        - intros [->|(w & rs' & -> & F & ->)].
          + exists [], (c :: rs); auto.
          + exists (c :: w), rs'; cbn [forallb]; rewrite Pc, F; auto.
        - intros (w & rs' & E & F & ->). destruct w as [|d w].
          + left. cbn in E; now subst.
          + right. cbn in E; injection E as <- ->. cbn in F. rewrite Pc in F. exists w, rs'; auto. }
      destruct g.
      * rewrite in_app_iff. rewrite <- Q. cbn. intuition congruence.
      * rewrite <- Q. cbn. intuition congruence.
    + split.
      * intros [<-|[]]. exists [], (c :: rs); auto.
      * intros (w & rs' & E & F & ->). destruct w as [|d w].
        -- left. cbn in E; now subst.
        -- cbn in E; injection E as <- ->. cbn in F. rewrite Pc in F; discriminate.
Qed.

Lemma strip_prefix_Some p : forall s t, strip_prefix p s = Some t <-> s = p ++ t.
Proof.
  induction p as [|x p IH]; intros s t; cbn.
  - split; congruence.
  - destruct s as [|y s].
    + split; discriminate.
    + destruct (N.eqb_spec x y) as [->|N].
      * rewrite IH. split; congruence.
      * split; [discriminate|]. intros E; injection E as -> _; congruence.
Qed.

Theorem results_Match r : forall s s', In s' (results r s) <-> Match r s s'.
Proof.
  induction r as [|p|a IHa b IHb|a IHa b IHb|g p|n a IHa|n a IHa b IHb| | |p|n];
    intros s s'; cbn [results].
  - split; [intros [<-|[]]; constructor | inversion 1; now left].
  - destruct s as [pr rs cs]; cbn [rest pre caps]. destruct rs as [|c rs].
    + split; [intros []|inversion 1].
    + destruct (p c) eqn:Pc.
      * split; [intros [<-|[]]; now constructor | inversion 1; now left].
      * split; [intros [] | inversion 1; congruence].
  - rewrite in_flat_map. split.
    + intros (s1 & H1 & H2). apply IHa in H1; apply IHb in H2. econstructor; eauto.
    + inversion 1 as [| |? ? ? s1| | | | | | | | | | |]; subst. exists s1. now rewrite IHa, IHb.
  - rewrite in_app_iff, IHa, IHb. split.
    + intros [H|H]; [now apply MAltL | now apply MAltR].
    + inversion 1; auto.
  - destruct s as [pr rs cs]; cbn [rest pre caps]. rewrite star_results_spec. split.
    + intros (w & rs' & -> & F & ->). now constructor.
    + inversion 1; subst. eexists _, _; eauto.
  - rewrite in_map_iff. split.
    + intros (s1 & <- & H). apply IHa in H. destruct (Match_span _ _ _ H) as (w & E & F).
      rewrite (consumed_eq _ _ _ F). now constructor.
    + inversion 1 as [| | | | | |? ? ? w s1 H1 F| | | | | | |]; subst. exists s1.
      rewrite (consumed_eq _ _ _ F). rewrite IHa. auto.
  - destruct (cap_get n (caps s)) as [w|] eqn:E.
    + rewrite IHa. split; [intros; eapply MIfT; eauto|inversion 1; auto; congruence].
    + rewrite IHb. split; [intros; now apply MIfF|inversion 1; auto; congruence].
  - destruct s as [[|c pr] rs cs]; cbn [pre].
    + split; [intros [<-|[]]; constructor | inversion 1; now left].
    + split; [intros [] | inversion 1].
  - destruct (at_dollar (rest s)) eqn:E.
    + split; [intros [<-|[]]; now constructor | inversion 1; now left].
    + split; [intros [] | inversion 1; congruence].
  - destruct s as [[|c pr] rs cs]; cbn [pre].
    + split; [intros [<-|[]]; constructor | inversion 1; now left].
    + destruct (p c) eqn:Pc.
      * split; [intros [] | inversion 1; congruence].
      * split; [intros [<-|[]]; now constructor | inversion 1; now left].
  - destruct s as [pr rs cs]; cbn [rest pre caps].
    destruct (cap_get n cs) as [w|] eqn:E.
    + destruct (strip_prefix w rs) as [rs'|] eqn:F.
      * apply strip_prefix_Some in F. subst rs. split.
        -- intros [<-|[]]. now constructor.
        -- inversion 1; subst. replace w0 with w in * by congruence.
           match goal with Q : _ ++ _ = _ ++ _ |- _ => apply app_inv_head in Q; subst end. now left.
      * split; [intros []|]. inversion 1; subst. replace w0 with w in * by congruence.
        assert (strip_prefix w (w ++ rs0) = Some rs0) by now apply strip_prefix_Some. congruence.
    + split; [intros []|inversion 1; congruence].
Qed.

Lemma re_match_sound r s m : re_match r s = Some m -> Match r (mkst [] s []) m.
Proof.
  unfold re_match. intros H. apply results_Match.
  destruct (results r _) as [|x l]; cbn in H; [discriminate|]. injection H as ->. now left.
Qed.

Lemma re_match_None r s : re_match r s = None <-> forall m, ~ Match r (mkst [] s []) m.
Proof.
  unfold re_match. split.
  - intros H m Hm. apply results_Match in Hm. destruct (results r _); [destruct Hm|discriminate].
  - intros H. destruct (results r _) as [|x l] eqn:E; [reflexivity|].
    exfalso. apply (H x). apply results_Match. rewrite E. now left.
Qed.

Lemma re_match_exists r s m : Match r (mkst [] s []) m ->
  exists m', re_match r s = Some m' /\ Match r (mkst [] s []) m'.
Proof.
  intros H. destruct (re_match r s) as [m'|] eqn:E.
  - exists m'. split; auto. now apply re_match_sound.
  - exfalso. eapply re_match_None; eauto.
Qed.

(** Inversion principles, in equational form. *)
Lemma Match_Seq a b s s2 : Match (Seq a b) s s2 <-> exists s1, Match a s s1 /\ Match b s1 s2.
Proof.
  split.
  - inversion 1; subst; eauto.
  - intros (s1 & H1 & H2). econstructor; eauto.
Qed.
Lemma Match_Alt a b s s2 : Match (Alt a b) s s2 <-> Match a s s2 \/ Match b s s2.
Proof.
  split.
  - inversion 1; subst; eauto.
  - intros [H|H]; [now apply MAltL|now apply MAltR].
Qed.
Lemma Match_Eps s s' : Match Eps s s' <-> s' = s.
Proof. split; [inversion 1; auto | intros ->; constructor]. Qed.
Lemma Match_Ch p s s' : Match (Ch p) s s' <->
  exists c, rest s = c :: rest s' /\ p c = true /\ pre s' = c :: pre s /\ caps s' = caps s.
Proof.
  split.
  - inversion 1; subst; cbn; eauto.
  - destruct s as [pr rs cs], s' as [pr' rs' cs']; cbn. intros (c & -> & H & -> & ->). now constructor.
Qed.
Lemma Match_Star g p s s' : Match (Star g p) s s' <->
  exists w, rest s = w ++ rest s' /\ forallb p w = true /\ pre s' = rev w ++ pre s /\ caps s' = caps s.
Proof.
  split.
  - inversion 1; subst; cbn; eauto.
  - destruct s as [pr rs cs], s' as [pr' rs' cs']; cbn. intros (c & -> & H & -> & ->). now constructor.
Qed.
Lemma Match_Plus g p s s' : Match (Plus g p) s s' <->
  exists w, w <> [] /\ rest s = w ++ rest s' /\ forallb p w = true /\ pre s' = rev w ++ pre s /\ caps s' = caps s.
Proof.
  unfold Plus. rewrite Match_Seq. split.
  - intros (s1 & H1 & H2). apply Match_Ch in H1 as (c & E & F & G & I).
    apply Match_Star in H2 as (w & E2 & F2 & G2 & I2). exists (c :: w).
    rewrite E, E2. cbn [forallb]. rewrite F, F2, G2, G, I2, I. cbn.
    rewrite <- app_assoc. repeat split; auto. discriminate.
  - intros (w & N & E & F & G & I). destruct w as [|c w]; [congruence|].
    cbn in F. apply andb_true_iff in F as [F1 F2].
    exists (mkst (c :: pre s) (w ++ rest s') (caps s)). split.
    + apply Match_Ch. exists c. cbn. auto.
    + apply Match_Star. exists w. cbn. rewrite G. cbn. now rewrite <- app_assoc.
Qed.
Lemma Match_Grp n a s s' : Match (Grp n a) s s' <->
  exists w s1, Match a s s1 /\ rest s = w ++ rest s' /\ rest s1 = rest s' /\ pre s1 = pre s' /\
     pre s' = rev w ++ pre s /\ caps s' = (n, w) :: caps s1.
Proof.
  split.
  - inversion 1 as [| | | | | |? ? ? w s1 H1 F| | | | | | |]; subst; cbn.
    exists w, s1. repeat split; auto.
    destruct (Match_span _ _ _ H1) as (w' & E' & F'). rewrite F' in F.
    apply app_inv_tail in F. assert (w' = w) by (rewrite <- (rev_involutive w'), F; apply rev_involutive).
    now subst.
  - destruct s' as [pr' rs' cs']; cbn. intros (w & s1 & H & E & F & G & I & ->).
    rewrite <- G, <- F. constructor; auto. congruence.
Qed.
Lemma Match_Dollar s s' : Match Dollar s s' <-> s' = s /\ at_dollar (rest s) = true.
Proof. split; [inversion 1; auto | intros [-> H]; now constructor]. Qed.
Lemma Match_Caret s s' : Match Caret s s' <-> s' = s /\ pre s = [].
Proof.
  split; [inversion 1; auto | intros [-> H]; destruct s; cbn in *; subst; constructor].
Qed.
Lemma Match_NotBehind p s s' : Match (NotBehind p) s s' <->
  s' = s /\ (forall c pr, pre s = c :: pr -> p c = false).
Proof.
  split.
  - inversion 1; subst; split; auto; intros ? ? E; cbn in E; congruence.
  - intros [-> H]. destruct s as [[|c pr] rs cs]; constructor. eapply H; reflexivity.
Qed.
Lemma Match_IfGrp n a b s s' : Match (IfGrp n a b) s s' <->
  match cap_get n (caps s) with Some _ => Match a s s' | None => Match b s s' end.
Proof.
  split.
  - inversion 1; subst; match goal with H : cap_get _ _ = _ |- _ => now rewrite H end.
  - destruct (cap_get n (caps s)) eqn:E; intros H; [eapply MIfT|eapply MIfF]; eauto.
Qed.

Lemma Match_word t : forall s s', Match (word t) s s' <->
  rest s = t ++ rest s' /\ pre s' = rev t ++ pre s /\ caps s' = caps s.
Proof.
  unfold word. induction t as [|c t IH]; intros s s'.
  - cbn. rewrite Match_Eps. destruct s, s'; cbn. split.
    + intros E; injection E as -> -> ->; auto.
    + intros (-> & -> & ->); auto.
  - destruct t as [|d t].
    + cbn. unfold chr. rewrite Match_Ch. split.
      * intros (x & E & F & G & I). apply N.eqb_eq in F. subst x. auto.
      * intros (E & G & I). exists c. rewrite N.eqb_refl. auto.
    + change (seqs (map chr (c :: d :: t))) with (Seq (chr c) (seqs (map chr (d :: t)))).
      rewrite Match_Seq. split.
      * intros (s1 & H1 & H2). apply Match_Ch in H1 as (x & E & F & G & I).
        apply N.eqb_eq in F. subst x. apply IH in H2 as (E2 & G2 & I2).
        rewrite E, E2, G2, G, I2, I. cbn. rewrite <- !app_assoc. auto.
      * intros (E & G & I). exists (mkst (c :: pre s) ((d :: t) ++ rest s') (caps s)). split.
        -- apply Match_Ch. exists c. rewrite N.eqb_refl. cbn. auto.
        -- apply IH. cbn in *. rewrite G. rewrite <- !app_assoc in *. auto.
Qed.

Lemma at_dollar_noLF s : ~ In LF s -> at_dollar s = true -> s = [].
Proof.
  destruct s as [|c [|d s]]; cbn; auto; try discriminate.
  intros H E. apply N.eqb_eq in E. subst. exfalso; auto.
Qed.

(** Search. *)
Lemma search_from_Some r : forall rs pr q m, search_from r pr rs = Some (q, m) ->
  exists w rs', rs = w ++ rs' /\ q = rev w ++ pr /\ hd_error (results r (mkst q rs' [])) = Some m /\
   forall w1 w2, w = w1 ++ w2 -> w2 <> [] -> results r (mkst (rev w1 ++ pr) (w2 ++ rs') []) = [].
Proof.
  induction rs as [|c rs IH]; intros pr q m; cbn [search_from].
  - destruct (hd_error _) as [m'|] eqn:E; [|discriminate]. intros H; injection H as <- <-.
    exists [], []. cbn. repeat split; auto. intros w1 w2 H N. symmetry in H.
    apply app_eq_nil in H as [_ ->]. congruence.
  - destruct (hd_error _) as [m'|] eqn:E.
    + intros H; injection H as <- <-. exists [], (c :: rs). cbn. repeat split; auto.
      intros w1 w2 H N. symmetry in H. apply app_eq_nil in H as [_ ->]. congruence.
    + intros H. destruct (IH _ _ _ H) as (w & rs' & -> & -> & Hm & Hn).
      exists (c :: w), rs'. cbn [rev]. rewrite <- app_assoc. repeat split; auto.
      intros w1 w2 E2 N. destruct w1 as [|d w1].
      * cbn in E2. subst w2. cbn [rev app]. destruct (results r _); [reflexivity|discriminate].
      * cbn in E2. injection E2 as <- ->. cbn [rev]. rewrite <- app_assoc. apply (Hn w1 w2); auto.
Qed.

Lemma search_from_None r : forall rs pr, search_from r pr rs = None ->
  forall w rs', rs = w ++ rs' -> results r (mkst (rev w ++ pr) rs' []) = [].
Proof.
  induction rs as [|c rs IH]; intros pr; cbn [search_from].
  - destruct (hd_error _) as [m'|] eqn:E; [discriminate|]. intros _ w rs' H. symmetry in H.
    apply app_eq_nil in H as [-> ->]. cbn. destruct (results r _); [reflexivity|discriminate].
  - destruct (hd_error _) as [m'|] eqn:E; [discriminate|]. intros H w rs' E2.
    destruct w as [|d w].
    + cbn in *. subst. destruct (results r _); [reflexivity|discriminate].
    + cbn in E2. injection E2 as <- ->. cbn [rev]. rewrite <- app_assoc. now apply IH.
Qed.

(** Forward construction of matches of anchor-free patterns: [L r cs w cs'] says [r]
    matches the text [w] in any surroundings. *)
Definition L (r : re) (cs : list (nat * str)) (w : str) (cs' : list (nat * str)) : Prop :=
  forall pr rs, Match r (mkst pr (w ++ rs) cs) (mkst (rev w ++ pr) rs cs').
Lemma L_eps cs : L Eps cs [] cs.
Proof. intros pr rs. constructor. Qed.
Lemma L_ch (p : char -> bool) c cs : p c = true -> L (Ch p) cs [c] cs.
Proof. intros H pr rs. now constructor. Qed.
Lemma L_chr c cs : L (chr c) cs [c] cs.
Proof. apply L_ch, N.eqb_refl. Qed.
Lemma L_seq a b cs w1 cs1 w2 cs2 : L a cs w1 cs1 -> L b cs1 w2 cs2 -> L (Seq a b) cs (w1 ++ w2) cs2.
Proof.
  intros H1 H2 pr rs. econstructor.
  - rewrite <- app_assoc. apply H1.
  - rewrite rev_app_distr, <- app_assoc. apply H2.
Qed.
Lemma L_altl a b cs w cs' : L a cs w cs' -> L (Alt a b) cs w cs'.
Proof. intros H pr rs. apply MAltL, H. Qed.
Lemma L_altr a b cs w cs' : L b cs w cs' -> L (Alt a b) cs w cs'.
Proof. intros H pr rs. apply MAltR, H. Qed.
Lemma L_star g p cs w : forallb p w = true -> L (Star g p) cs w cs.
Proof. intros H pr rs. now constructor. Qed.
Lemma L_plus g p cs w : forallb p w = true -> w <> [] -> L (Plus g p) cs w cs.
Proof.
  intros H N pr rs. apply Match_Plus. exists w. cbn. auto.
Qed.
Lemma L_grp n a cs w cs1 : L a cs w cs1 -> L (Grp n a) cs w ((n, w) :: cs1).
Proof. intros H pr rs. exact (MGrp n a _ w _ (H pr rs) eq_refl). Qed.
Lemma L_word t cs : L (word t) cs t cs.
Proof. intros pr rs. apply Match_word. auto. Qed.
Lemma L_ift n a b cs w0 w cs' : cap_get n cs = Some w0 -> L a cs w cs' -> L (IfGrp n a b) cs w cs'.
Proof. intros E H pr rs. eapply MIfT; [exact E|]. apply H. Qed.
Lemma L_iff n a b cs w cs' : cap_get n cs = None -> L b cs w cs' -> L (IfGrp n a b) cs w cs'.
Proof. intros E H pr rs. eapply MIfF; [exact E|]. apply H. Qed.
Lemma L_alts_in l r cs w cs' : In r l -> L r cs w cs' -> L (alts l) cs w cs'.
Proof.
  induction l as [|a l IH]; [intros []|]. intros [->|H] HL.
  - destruct l; [exact HL | now apply L_altl].
  - destruct l as [|b l]; [destruct H|]. apply L_altr. auto.
Qed.

(** Whole-string matches. *)
Lemma match_whole r w cs' : L r [] w cs' -> Match (Seq r Dollar) (mkst [] w []) (mkst (rev w) [] cs').
Proof.
  intros H. econstructor.
  - rewrite <- (app_nil_r w) at 1. apply H.
  - rewrite app_nil_r. now constructor.
Qed.
Lemma match_whole_caret r w cs' : L r [] w cs' ->
  Match (Seq Caret (Seq r Dollar)) (mkst [] w []) (mkst (rev w) [] cs').
Proof. intros H. econstructor; [constructor|]. now apply match_whole. Qed.

Lemma search_exists r w t rs cs' : L r [] t cs' -> exists x, re_search r (w ++ t ++ rs) = Some x.
Proof.
  intros H. destruct (re_search r (w ++ t ++ rs)) as [x|] eqn:E; [eauto|exfalso].
  pose proof (search_from_None _ _ _ E w (t ++ rs) eq_refl) as N.
  specialize (H (rev w ++ []) rs). apply results_Match in H. rewrite N in H. destruct H.
Qed.

(** Unique first / last occurrences. *)
Lemma first_unique (p : char -> bool) : forall A x v B y T,
  A ++ x :: v = B ++ y :: T -> p x = true -> p y = true ->
  forallb (fun c => negb (p c)) A = true -> forallb (fun c => negb (p c)) B = true ->
  A = B /\ x = y /\ v = T.
Proof.
  induction A as [|a A IH]; intros x v [|b B] y T E Px Py HA HB; cbn in *; injection E as E1 E2; subst.
  - auto.
  - rewrite Px in HB. discriminate.
  - rewrite Py in HA. discriminate.
  - apply andb_true_iff in HA as [_ HA]; apply andb_true_iff in HB as [_ HB].
    destruct (IH _ _ _ _ _ E2 Px Py HA HB) as (-> & -> & ->). auto.
Qed.
Lemma last_unique (p : char -> bool) : forall A x v B y T,
  A ++ x :: v = B ++ y :: T -> p x = true -> p y = true ->
  forallb (fun c => negb (p c)) v = true -> forallb (fun c => negb (p c)) T = true ->
  A = B /\ x = y /\ v = T.
Proof.
  induction A as [|a A IH]; intros x v [|b B] y T E Px Py Hv HT; cbn in *; injection E as E1 E2; subst.
  - auto.
  - rewrite forallb_forall in Hv. exfalso. specialize (Hv y). rewrite Py in Hv. cbn in Hv.
    assert (Hf : false = true) by (apply Hv, in_or_app; right; now left). discriminate Hf.
  - rewrite forallb_forall in HT. exfalso. specialize (HT x). rewrite Px in HT. cbn in HT.
    assert (Hf : false = true) by (apply HT, in_or_app; right; now left). discriminate Hf.
  - destruct (IH _ _ _ _ _ E2 Px Py Hv HT) as (-> & -> & ->). auto.
Qed.

Lemma hd_app {A} (l l' : list A) x : hd_error l = Some x -> hd_error (l ++ l') = Some x.
Proof. destruct l; cbn; congruence. Qed.
(** The first result of a greedy star. *)
Lemma star_greedy_hd p w : forall pr rs cs, forallb p w = true ->
  (forall c rs', rs = c :: rs' -> p c = false) ->
  hd_error (star_results true p pr (w ++ rs) cs) = Some (mkst (rev w ++ pr) rs cs).
Proof.
  induction w as [|c w IH]; intros pr rs cs Hw Hr.
  - cbn [app]. destruct rs as [|d rs]; cbn; auto. now rewrite (Hr d rs).
  - cbn [forallb] in Hw. apply andb_true_iff in Hw as [Hc Hw]. cbn [app star_results]. rewrite Hc.
    specialize (IH (c :: pr) rs cs Hw Hr).
    etransitivity; [apply (hd_app _ _ _ IH)|]. cbn. rewrite <- app_assoc. reflexivity.
Qed.
Lemma hd_flat_map {A B} (f : A -> list B) l x y :
  hd_error l = Some x -> hd_error (f x) = Some y -> hd_error (flat_map f l) = Some y.
Proof.
  destruct l as [|z l]; cbn; [discriminate|]. intros E; injection E as ->.
  destruct (f x); cbn; [discriminate|auto].
Qed.
Lemma hd_map {A B} (f : A -> B) l x : hd_error l = Some x -> hd_error (map f l) = Some (f x).
Proof. destruct l; cbn; congruence. Qed.

(** All characters a pattern may consume satisfy [q]; least number of them. *)
Fixpoint re_all (q : char -> bool) (r : re) : Prop :=
  match r with
  | Ch p | Star _ p => forall c, p c = true -> q c = true
  | Seq a b | Alt a b | IfGrp _ a b => re_all q a /\ re_all q b
  | Grp _ a => re_all q a
  | BackRef _ => False
  | _ => True
  end.
Fixpoint re_min (r : re) : nat :=
  match r with
  | Ch _ => 1
  | Seq a b => re_min a + re_min b
  | Alt a b | IfGrp _ a b => Nat.min (re_min a) (re_min b)
  | Grp _ a => re_min a
  | _ => 0
  end.
Lemma Match_text q r s s' : Match r s s' -> re_all q r ->
  exists w, rest s = w ++ rest s' /\ pre s' = rev w ++ pre s /\ forallb q w = true /\ (re_min r <= length w)%nat.
Proof.
  induction 1; cbn [re_all re_min pre rest]; intros A.
  - exists []; repeat split; auto.
  - exists [c]. cbn. rewrite (A c) by auto. auto.
  - destruct A as [A1 A2]. destruct (IHMatch1 A1) as (w1 & E1 & P1 & F1 & N1).
    destruct (IHMatch2 A2) as (w2 & E2 & P2 & F2 & N2). exists (w1 ++ w2).
    rewrite E1, E2, P2, P1, rev_app_distr, forallb_app, F1, F2, app_length, !app_assoc. repeat split; auto. lia.
  - destruct A as [A1 A2]. destruct (IHMatch A1) as (w & E & P & F & N). exists w. repeat split; auto. lia.
  - destruct A as [A1 A2]. destruct (IHMatch A2) as (w & E & P & F & N). exists w. repeat split; auto. lia.
  - exists w. repeat split; auto; [|lia]. rewrite forallb_forall in *. auto.
  - destruct (IHMatch A) as (w' & E' & P' & F' & N'). exists w'. auto.
  - destruct A as [A1 A2]. destruct (IHMatch A1) as (w' & E' & P' & F' & N'). exists w'. repeat split; auto. lia.
  - destruct A as [A1 A2]. destruct (IHMatch A2) as (w' & E' & P' & F' & N'). exists w'. repeat split; auto. lia.
  - exists []; repeat split; auto.
  - exists []; repeat split; auto.
  - exists []; repeat split; auto.
  - exists []; repeat split; auto.
  - destruct A.
Qed.

(** First-match forward reasoning. *)
Definition H (r : re) (s s' : st) : Prop := hd_error (results r s) = Some s'.
Lemma H_seq a b s s1 s2 : H a s s1 -> H b s1 s2 -> H (Seq a b) s s2.
Proof. unfold H. intros H1 H2. cbn [results]. eapply hd_flat_map; eauto. Qed.
Lemma H_grp n a s s1 w : H a s s1 -> pre s1 = rev w ++ pre s ->
  H (Grp n a) s (mkst (pre s1) (rest s1) ((n, w) :: caps s1)).
Proof.
  unfold H. intros H1 E. cbn [results]. erewrite hd_map by eauto. now rewrite (consumed_eq _ _ _ E).
Qed.
Lemma H_star p pr w rs cs : forallb p w = true -> (forall c rs', rs = c :: rs' -> p c = false) ->
  H (Star true p) (mkst pr (w ++ rs) cs) (mkst (rev w ++ pr) rs cs).
Proof. intros. unfold H. cbn [results pre rest caps]. now apply star_greedy_hd. Qed.
Lemma H_ch (p : char -> bool) pr c rs cs : p c = true -> H (Ch p) (mkst pr (c :: rs) cs) (mkst (c :: pr) rs cs).
Proof. intros E. unfold H. cbn [results rest]. now rewrite E. Qed.
Lemma H_chr pr c rs cs : H (chr c) (mkst pr (c :: rs) cs) (mkst (c :: pr) rs cs).
Proof. apply H_ch, N.eqb_refl. Qed.
Lemma H_altl a b s s1 : H a s s1 -> H (Alt a b) s s1.
Proof. unfold H. cbn [results]. apply hd_app. Qed.
Lemma H_altr a b s s1 : results a s = [] -> H b s s1 -> H (Alt a b) s s1.
Proof. unfold H. cbn [results]. now intros ->. Qed.
Lemma H_eps s : H Eps s s.
Proof. reflexivity. Qed.
Lemma seq_nil a b s : results a s = [] -> results (Seq a b) s = [].
Proof. cbn [results]. now intros ->. Qed.
Lemma search_skip r pr c rs : results r (mkst pr (c :: rs) []) = [] -> search_from r pr (c :: rs) = search_from r (c :: pr) rs.
Proof. cbn [search_from]. now intros ->. Qed.
Lemma search_here r pr rs m : H r (mkst pr rs []) m -> search_from r pr rs = Some (pr, m).
Proof. unfold H. destruct rs; cbn [search_from]; now intros ->. Qed.
Lemma re_match_H r s m : re_match r s = Some m <-> H r (mkst [] s []) m.
Proof. reflexivity. Qed.

(** First result of a group around a lazy or greedy plus, with its continuation. *)
Lemma hd_flat_map_first {A B} (f : A -> list B) l1 x l2 y :
  (forall z, In z l1 -> f z = []) -> hd_error (f x) = Some y ->
  hd_error (flat_map f (l1 ++ x :: l2)) = Some y.
Proof.
  induction l1 as [|z l1 IH]; cbn [app flat_map]; intros N E.
  - now apply hd_app.
  - rewrite (N z) by now left. cbn. apply IH; auto. intros u Hu. apply N. now right.
Qed.
Lemma results_nil r s : (forall m, ~ Match r s m) -> results r s = [].
Proof.
  intros N. destruct (results r s) as [|m l] eqn:E; auto.
  exfalso. apply (N m). apply results_Match. rewrite E. now left.
Qed.
Lemma results_Seq_assoc a b c s : results (Seq (Seq a b) c) s = results (Seq a (Seq b c)) s.
Proof.
  cbn [results]. induction (results a s) as [|x l IH]; cbn [flat_map]; auto.
  now rewrite flat_map_app, IH.
Qed.
Lemma results_Seq_Alt a b c s : results (Seq (Alt a b) c) s = results (Seq a c) s ++ results (Seq b c) s.
Proof. cbn [results]. now rewrite flat_map_app. Qed.
Lemma Match_Seq_assoc a b c s s' : Match (Seq (Seq a b) c) s s' <-> Match (Seq a (Seq b c)) s s'.
Proof. rewrite <- !results_Match. now rewrite results_Seq_assoc. Qed.

Lemma star_lazy_split p w : forall pr rs cs, forallb p w = true ->
  exists l2, star_results false p pr (w ++ rs) cs =
   map (fun k => mkst (rev (firstn k w) ++ pr) (skipn k w ++ rs) cs) (seq 0 (length w)) ++ mkst (rev w ++ pr) rs cs :: l2.
Proof.
  induction w as [|c w IH]; intros pr rs cs Hw.
  - cbn [app rev length seq map]. destruct rs as [|d rs]; cbn [star_results]; [eexists; reflexivity|].
    destruct (p d); eexists; reflexivity.
  - cbn [forallb] in Hw. apply andb_true_iff in Hw as [Hc Hw].
    cbn [app star_results]. rewrite Hc. destruct (IH (c :: pr) rs cs Hw) as [l2 E]. exists l2.
    rewrite E. cbn [length seq map firstn skipn rev app]. f_equal.
    rewrite <- seq_shift, map_map. cbn [firstn skipn rev]. rewrite <- app_assoc. cbn [app].
    f_equal. apply map_ext. intros k. cbn [firstn skipn rev]. now rewrite <- app_assoc.
Qed.
Lemma star_greedy_split p w : forall pr rs cs, forallb p w = true ->
  exists l1 l2, star_results true p pr (w ++ rs) cs = l1 ++ mkst (rev w ++ pr) rs cs :: l2 /\
   forall z, In z l1 -> exists w2 rs', w2 <> [] /\ rs = w2 ++ rs' /\ forallb p w2 = true /\ z = mkst (rev w2 ++ rev w ++ pr) rs' cs.
Proof.
  induction w as [|c w IH]; intros pr rs cs Hw.
  - cbn [app rev]. destruct rs as [|d rs]; cbn [star_results].
    + exists [], []. split; [reflexivity|intros z []].
    + destruct (p d) eqn:Pd.
      * exists (star_results true p (d :: pr) rs cs), []. split; auto. intros z Hz.
        apply star_results_spec in Hz as (w2 & rs' & -> & F & ->).
        exists (d :: w2), rs'. cbn [forallb rev]. rewrite Pd, F, <- app_assoc. repeat split; auto. discriminate.
      * exists [], []. split; [reflexivity|intros z []].
  - cbn [forallb] in Hw. apply andb_true_iff in Hw as [Hc Hw].
    cbn [app star_results]. rewrite Hc. destruct (IH (c :: pr) rs cs Hw) as (l1 & l2 & E & Hz).
    rewrite E. exists l1, (l2 ++ [mkst pr (c :: w ++ rs) cs]). cbn [rev].
    rewrite <- !app_assoc. cbn [app]. split; auto.
Qed.

Lemma H_Seq_first a b s s1 m l1 l2 : results a s = l1 ++ s1 :: l2 ->
  (forall z, In z l1 -> forall m', ~ Match b z m') -> H b s1 m -> H (Seq a b) s m.
Proof.
  unfold H. intros E N E2. cbn [results]. rewrite E. apply hd_flat_map_first; auto.
  intros z Hz. apply results_nil. auto.
Qed.
Lemma H_Seq_assoc a b c s m : H (Seq a (Seq b c)) s m -> H (Seq (Seq a b) c) s m.
Proof. unfold H. now rewrite results_Seq_assoc. Qed.
Lemma H_Seq_altl a b c s m : H (Seq a c) s m -> H (Seq (Alt a b) c) s m.
Proof. unfold H. rewrite results_Seq_Alt. apply hd_app. Qed.
Lemma H_Seq_altr a b c s m : (forall m', ~ Match (Seq a c) s m') -> H (Seq b c) s m -> H (Seq (Alt a b) c) s m.
Proof. unfold H. rewrite results_Seq_Alt. intros N E. now rewrite (results_nil _ _ N). Qed.
Lemma H_Seq_eps c s m : H c s m -> H (Seq Eps c) s m.
Proof. unfold H. cbn. now rewrite app_nil_r. Qed.

Lemma H_lazy n p w b pr rs cs m : w <> [] -> forallb p w = true ->
  (forall w1 w2, w = w1 ++ w2 -> w1 <> [] -> w2 <> [] ->
     forall m', ~ Match b (mkst (rev w1 ++ pr) (w2 ++ rs) ((n, w1) :: cs)) m') ->
  H b (mkst (rev w ++ pr) rs ((n, w) :: cs)) m ->
  H (Seq (Grp n (Plus false p)) b) (mkst pr (w ++ rs) cs) m.
Proof.
  intros Nw Hw N Hb. destruct w as [|c w]; [congruence|].
  cbn [forallb] in Hw. apply andb_true_iff in Hw as [Hc Hw].
  destruct (star_lazy_split p w (c :: pr) rs cs Hw) as [l2 E].
  eapply (H_Seq_first (Grp n (Plus false p)) b (mkst pr ((c :: w) ++ rs) cs)).
  - cbn [results Plus app rest]. unfold Plus. cbn [results rest]. rewrite Hc. cbn [flat_map pre rest caps].
    rewrite app_nil_r, E, map_app. cbn [map pre rest caps]. reflexivity.
  - intros z Hz. apply in_map_iff in Hz as (y & <- & Hy). apply in_map_iff in Hy as (k & <- & Hk).
    apply in_seq in Hk. cbn [pre rest caps]. intros m'.
    rewrite (consumed_eq _ _ (c :: firstn k w)) by (cbn [pre rev]; now rewrite <- app_assoc).
    replace (rev (firstn k w) ++ c :: pr) with (rev (c :: firstn k w) ++ pr) by (cbn [rev]; now rewrite <- app_assoc).
    apply N.
    + cbn [app]. now rewrite firstn_skipn.
    + discriminate.
    + intros E2. apply (f_equal (@length _)) in E2. rewrite skipn_length in E2. cbn in E2. lia.
  - rewrite (consumed_eq _ _ (c :: w)) by (cbn [pre rev]; now rewrite <- app_assoc).
    cbn [rev] in Hb. rewrite <- app_assoc in Hb. exact Hb.
Qed.

Lemma H_greedy n p w b pr rs cs m : w <> [] -> forallb p w = true ->
  (forall w2 rs', rs = w2 ++ rs' -> w2 <> [] -> forallb p w2 = true ->
     forall m', ~ Match b (mkst (rev (w ++ w2) ++ pr) rs' ((n, w ++ w2) :: cs)) m') ->
  H b (mkst (rev w ++ pr) rs ((n, w) :: cs)) m ->
  H (Seq (Grp n (Plus true p)) b) (mkst pr (w ++ rs) cs) m.
Proof.
  intros Nw Hw N Hb. destruct w as [|c w]; [congruence|].
  cbn [forallb] in Hw. apply andb_true_iff in Hw as [Hc Hw].
  destruct (star_greedy_split p w (c :: pr) rs cs Hw) as (l1 & l2 & E & Hz).
  eapply (H_Seq_first (Grp n (Plus true p)) b (mkst pr ((c :: w) ++ rs) cs)).
  - cbn [results Plus app rest]. unfold Plus. cbn [results rest]. rewrite Hc. cbn [flat_map pre rest caps].
    rewrite app_nil_r, E, map_app. cbn [map pre rest caps]. reflexivity.
  - intros z Hin. apply in_map_iff in Hin as (y & <- & Hy).
    destruct (Hz y Hy) as (w2 & rs' & N2 & -> & F2 & ->). cbn [pre rest caps]. intros m'.
    assert (Q : rev w2 ++ rev w ++ c :: pr = rev ((c :: w) ++ w2) ++ pr).
    { rewrite rev_app_distr. cbn [rev]. now rewrite <- !app_assoc. }
    rewrite (consumed_eq _ _ ((c :: w) ++ w2)) by (cbn [pre]; exact Q).
    rewrite Q. eapply N; eauto.
  - rewrite (consumed_eq _ _ (c :: w)) by (cbn [pre rev]; now rewrite <- app_assoc).
    cbn [rev] in Hb. rewrite <- app_assoc in Hb. exact Hb.
Qed.

(** Patterns without groups keep the captures. *)
Fixpoint no_grp (r : re) : Prop :=
  match r with
  | Seq a b | Alt a b | IfGrp _ a b => no_grp a /\ no_grp b
  | Grp _ _ => False
  | _ => True
  end.
Lemma Match_caps r s s' : Match r s s' -> no_grp r -> caps s' = caps s.
Proof.
  induction 1; cbn [no_grp caps]; intros N; try tauto.
  rewrite IHMatch2, IHMatch1; tauto.
Qed.
(** A group around such a pattern. *)
Lemma Match_Grp_simple n r s s' : no_grp r -> Match (Grp n r) s s' ->
  exists w s1, Match r s s1 /\ rest s = w ++ rest s1 /\ pre s1 = rev w ++ pre s /\ caps s1 = caps s /\
    s' = mkst (pre s1) (rest s1) ((n, w) :: caps s).
Proof.
  intros N HM. inversion HM as [| | | | | |n' a s0 w s1 HR HP| | | | | | |]; subst.
  pose proof (Match_caps _ _ _ HR N) as C.
  exists w, s1. rewrite C. repeat split; auto.
  destruct (Match_span _ _ _ HR) as (w' & E1 & E2).
  rewrite HP in E2. apply app_inv_tail in E2. apply (f_equal (@rev _)) in E2. rewrite !rev_involutive in E2. now subst.
Qed.
Lemma Match_Grp_Star n g p s s' : Match (Grp n (Star g p)) s s' ->
  exists w, rest s = w ++ rest s' /\ forallb p w = true /\ pre s' = rev w ++ pre s /\ caps s' = (n, w) :: caps s.
Proof.
  intros HM. apply Match_Grp_simple in HM as (w & s1 & HR & E & P & C & ->); [|exact I].
  apply Match_Star in HR as (w' & E' & F & _). rewrite E in E'. apply app_inv_tail in E'. subst w'.
  exists w. cbn. auto.
Qed.
Lemma Match_Grp_Plus n g p s s' : Match (Grp n (Plus g p)) s s' ->
  exists w, w <> [] /\ rest s = w ++ rest s' /\ forallb p w = true /\ pre s' = rev w ++ pre s /\ caps s' = (n, w) :: caps s.
Proof.
  intros HM. apply Match_Grp_simple in HM as (w & s1 & HR & E & P & C & ->); [|cbn; auto].
  apply Match_Plus in HR as (w' & N & E' & F & _). rewrite E in E'. apply app_inv_tail in E'. subst w'.
  exists w. cbn. auto.
Qed.

(** First results of greedy plus, lazy star up to a character, and a group around a lazy star. *)
Lemma H_plus p pr w rs cs : w <> [] -> forallb p w = true -> (forall c rs', rs = c :: rs' -> p c = false) ->
  H (Plus true p) (mkst pr (w ++ rs) cs) (mkst (rev w ++ pr) rs cs).
Proof.
  intros N B E. destruct w as [|c w]; [congruence|]. cbn [forallb] in B. apply andb_true_iff in B as [B1 B2].
  unfold Plus. cbn [app rev]. rewrite <- app_assoc. eapply H_seq; [apply H_ch; exact B1|]. apply (H_star p (c :: pr)); auto.
Qed.
Lemma H_lazy_until p c pr w rs cs : forallb p w = true -> ~ In c w ->
  H (Seq (Star false p) (chr c)) (mkst pr (w ++ c :: rs) cs) (mkst (c :: rev w ++ pr) rs cs).
Proof.
  intros B N. destruct (star_lazy_split p w pr (c :: rs) cs B) as (l2 & E).
  eapply H_Seq_first; [cbn [results pre rest caps]; exact E| |apply H_chr].
  intros z Hz m' HM. apply in_map_iff in Hz as (k & <- & Hk). apply in_seq in Hk.
  apply Match_Ch in HM as (d & E1 & E2 & _). cbn [rest] in E1. apply N.eqb_eq in E2. subst d.
  apply N. rewrite <- (firstn_skipn k w). apply in_app_iff. right.
  destruct (skipn k w) as [|q r] eqn:Q; [|injection E1 as -> _; now left].
  apply (f_equal (@length _)) in Q. rewrite skipn_length in Q. cbn in Q. lia.
Qed.
Lemma H_lazy_star n p w b pr rs cs m : forallb p w = true ->
  (forall w1 w2, w = w1 ++ w2 -> w2 <> [] ->
     forall m', ~ Match b (mkst (rev w1 ++ pr) (w2 ++ rs) ((n, w1) :: cs)) m') ->
  H b (mkst (rev w ++ pr) rs ((n, w) :: cs)) m ->
  H (Seq (Grp n (Star false p)) b) (mkst pr (w ++ rs) cs) m.
Proof.
  intros B N E2. destruct (star_lazy_split p w pr rs cs B) as (l2 & E).
  eapply (H_Seq_first _ _ _ (mkst (rev w ++ pr) rs ((n, w) :: cs))); [|clear E|exact E2].
  - cbn [results pre rest caps]. rewrite E, map_app. cbn [map pre rest caps]. do 2 f_equal. f_equal. f_equal.
    f_equal. apply consumed_eq. reflexivity.
  - intros z Hz m' HM. apply in_map_iff in Hz as (s1 & <- & Hs). apply in_map_iff in Hs as (k & <- & Hk). apply in_seq in Hk.
    cbn [pre rest caps] in HM. rewrite (consumed_eq _ _ (firstn k w)) in HM by reflexivity.
    apply (N (firstn k w) (skipn k w)) in HM; auto.
    + now rewrite firstn_skipn.
    + intros Q. apply (f_equal (@length _)) in Q. rewrite skipn_length in Q. cbn in Q. lia.
Qed.
