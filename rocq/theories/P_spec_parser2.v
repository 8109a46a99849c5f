(** Proofs about dummy sources and the environment. *)
From Coq Require Import Ascii String.
From Coq Require Import NArith ZArith List Bool Lia.
From Verif Require Import PyStr PyStrFacts M_value M_tags M_evr M_spec_parser Spec_spec_parser.
Import ListNotations.
Open Scope nat_scope.

Lemma path_eqb_eq p q : path_eqb p q = true <-> p = q.
Proof. destruct p, q. unfold path_eqb. cbn. rewrite andb_true_iff, !str_eqb_eq. split; [intros [-> ->]; reflexivity|]. intros E. injection E as -> ->. auto. Qed.
Lemma path_eqb_refl p : path_eqb p p = true.
Proof. apply path_eqb_eq. reflexivity. Qed.
Lemma path_dec (p q : str * str) : {p = q} + {p <> q}.
Proof. destruct (path_eqb p q) eqn:E; [left; apply path_eqb_eq; exact E|right; intros X; apply path_eqb_eq in X; congruence]. Qed.
Lemma content_cons p q b l : content_of p ((q, b) :: l) = if path_eqb p q then Some b else content_of p l.
Proof. reflexivity. Qed.
Lemma content_None p l : content_of p l = None <-> ~ In p (map fst l).
Proof.
  induction l as [|[q b] l IH]; [cbn; split; auto|]. cbn [content_of map fst]. destruct (path_eqb p q) eqn:E.
  - apply path_eqb_eq in E. subst q. split; [discriminate|]. intros N. exfalso. apply N. left. reflexivity.
  - rewrite IH. split; [|intros N I; apply N; right; exact I]. intros N [X|I]; [subst q; rewrite path_eqb_refl in E; discriminate|contradiction].
Qed.
Lemma unlink_app p a b : unlink p (a ++ b) = unlink p a ++ unlink p b.
Proof. apply filter_app. Qed.
Lemma unlink_absent p l : ~ In p (map fst l) -> unlink p l = l.
Proof.
  induction l as [|[q b] l IH]; intros N; [reflexivity|]. cbn [unlink filter fst map] in *. destruct (path_eqb p q) eqn:E.
  - apply path_eqb_eq in E. exfalso. apply N. left. congruence.
  - cbn [negb]. f_equal. apply IH. intros I. apply N. right. exact I.
Qed.
Lemma unlink_in p q l : In q (map fst (unlink p l)) <-> In q (map fst l) /\ q <> p.
Proof.
  unfold unlink. rewrite !in_map_iff. split.
  - intros ([r b] & <- & I). apply filter_In in I. destruct I as [I E]. cbn in *. apply negb_true_iff in E. split; [exists (r, b); auto|]. intros ->. rewrite path_eqb_refl in E. discriminate.
  - intros [([r b] & <- & I) N]. cbn in *. exists (r, b). split; [reflexivity|]. apply filter_In. split; [exact I|]. cbn. apply negb_true_iff. destruct (path_eqb p r) eqn:E; [apply path_eqb_eq in E; congruence|reflexivity].
Qed.

Lemma NoDup_app {T} (a b : list T) : NoDup a -> NoDup b -> (forall x, In x a -> In x b -> False) -> NoDup (a ++ b).
Proof.
  induction 1 as [|x a N ND IH]; intros Nb D; [exact Nb|]. cbn. constructor; [|apply IH; [exact Nb|intros y Y; apply D; right; exact Y]].
  intros I. apply in_app_or in I. destruct I as [I|I]; [contradiction|]. apply (D x); [left; reflexivity|exact I].
Qed.
Section Files.
Context {W : Type}.
Context (stat_fault : world W -> str * str -> option exn) (write_outcome : world W -> str * str -> list N -> attempt) (unlink_fault : world W -> str * str -> option exn).
Context (order : list str -> list str).
Notation fake := (fake stat_fault write_outcome).
Notation unlink_all := (unlink_all unlink_fault).
Notation with_dummy_sources := (with_dummy_sources stat_fault write_outcome unlink_fault order).

(** * Creation *)
Section Sound.
Context (S0 : sound_files stat_fault write_outcome unlink_fault).
Lemma fake_spec d contents sources : forall made w, exists w' new, fake d contents sources made w = (w', made ++ map fst new, Ok tt) /\
  files w' = rev new ++ files w /\ env w' = env w /\ ctx w' = ctx w /\ NoDup (map fst new) /\ (forall p, In p (map fst new) -> content_of p (files w) = None) /\
  (forall p b, In (p, b) new -> fst p = d /\ names sources (snd p) /\ b = contents (snd p)).
Proof.
  induction sources as [|s sources IH]; intros made w.
  - exists w, []. cbn. rewrite app_nil_r. repeat split; auto; try constructor; contradiction.
  - cbn [M_spec_parser.fake]. destruct (get_filename_from_location s) as [|c f] eqn:Ef.
    + destruct (IH made w) as (w' & new & H1 & H2 & H3 & H4 & H5 & H6 & H7). exists w', new. repeat (split; [assumption|]). intros p b I. destruct (H7 p b I) as (A1 & [A2 [s' [A3 A4]]] & A5).
      split; [exact A1|]. split; [|exact A5]. split; [exact A2|]. exists s'. split; [right; exact A3|exact A4].
    + set (n := c :: f) in *. rewrite (s_stat _ _ _ S0).
      assert (Keep : exists w' new, fake d contents sources made w = (w', made ++ map fst new, Ok tt) /\
        files w' = rev new ++ files w /\ env w' = env w /\ ctx w' = ctx w /\ NoDup (map fst new) /\ (forall p, In p (map fst new) -> content_of p (files w) = None) /\
        (forall p b, In (p, b) new -> fst p = d /\ names (s :: sources) (snd p) /\ b = contents (snd p))).
      { destruct (IH made w) as (w' & new & H1 & H2 & H3 & H4 & H5 & H6 & H7). exists w', new. repeat (split; [assumption|]). intros p b I. destruct (H7 p b I) as (A1 & [A2 [s' [A3 A4]]] & A5).
        split; [exact A1|]. split; [|exact A5]. split; [exact A2|]. exists s'. split; [right; exact A3|exact A4]. }
      destruct (content_of (d, n) (files w)) as [b0|] eqn:C; [exact Keep|].
      destruct (s_write _ _ _ S0 w (d, n) (contents n)) as [-> | ->]; [|exact Keep].
      destruct (IH (made ++ [(d, n)]) (mk_world (ctx w) (((d, n), contents n) :: files w) (env w))) as (w' & new & H1 & H2 & H3 & H4 & H5 & H6 & H7). cbn [files env ctx] in *.
      exists w', (((d, n), contents n) :: new). split; [rewrite H1, <- app_assoc; reflexivity|]. split; [cbn [rev]; rewrite <- app_assoc; exact H2|]. split; [exact H3|]. split; [exact H4|]. split; [|split].
      * cbn [map fst]. constructor; [|exact H5]. intros I. specialize (H6 _ I). rewrite content_cons, path_eqb_refl in H6. discriminate.
      * intros p [<-|I]; [exact C|]. specialize (H6 _ I). rewrite content_cons in H6. destruct (path_eqb p (d, n)); [discriminate|exact H6].
      * intros p b [E|I].
        -- injection E as <- <-. split; [reflexivity|]. split; [|reflexivity]. split; [discriminate|]. exists s. split; [left; reflexivity|exact Ef].
        -- destruct (H7 p b I) as (A1 & [A2 [s' [A3 A4]]] & A5). split; [exact A1|]. split; [|exact A5]. split; [exact A2|]. exists s'. split; [right; exact A3|exact A4].
Qed.
(** Every source has a file afterwards when files can be written. *)
Lemma fake_complete d contents : writable write_outcome -> forall sources made w w' made' r, fake d contents sources made w = (w', made', r) ->
  (forall n, names sources n -> content_of (d, n) (files w') <> None) /\ (forall p, content_of p (files w) <> None -> content_of p (files w') <> None).
Proof.
  intros Wr. induction sources as [|s sources IH]; intros made w w' made' r E.
  - cbn in E. injection E as <- <- <-. split; [intros n [_ [x [[] _]]]|auto].
  - cbn [M_spec_parser.fake] in E. destruct (get_filename_from_location s) as [|c f] eqn:Ef.
    + destruct (IH _ _ _ _ _ E) as [H1 H2]. split; [|exact H2]. intros n [Nn [x [[<-|I] X]]]; [congruence|]. apply H1. split; [exact Nn|]. exists x. auto.
    + set (n := c :: f) in *. rewrite (s_stat _ _ _ S0), Wr in E.
      assert (Fin : forall w1, content_of (d, n) (files w1) <> None -> (forall p, content_of p (files w) <> None -> content_of p (files w1) <> None) ->
        forall m1, fake d contents sources m1 w1 = (w', made', r) -> (forall n, names (s :: sources) n -> content_of (d, n) (files w') <> None) /\ (forall p, content_of p (files w) <> None -> content_of p (files w') <> None)).
      { intros w1 C1 C2 m1 E1. destruct (IH _ _ _ _ _ E1) as [H1 H2]. split; [|intros p C; apply H2, C2, C].
        intros n0 [Nn [x [[<-|I] X]]]; [rewrite Ef in X; subst n0; apply H2, C1|]. apply H1. split; [exact Nn|]. exists x. auto. }
      destruct (content_of (d, n) (files w)) as [b0|] eqn:C.
      * apply (Fin w) with (3 := E); [rewrite C; discriminate|auto].
      * apply (Fin _) with (3 := E); cbn [files].
        -- rewrite content_cons, path_eqb_refl. discriminate.
        -- intros p Cp. rewrite content_cons. destruct (path_eqb p (d, n)); [discriminate|exact Cp].
Qed.

(** * Removal *)
Lemma unlink_spec l : forall X F w, files w = X ++ F -> (forall p, In p (map fst X) <-> In p l) -> NoDup l -> (forall p, In p l -> ~ In p (map fst F)) ->
  unlink_all l w = (mk_world (ctx w) F (env w), Ok tt).
Proof.
  induction l as [|p l IH]; intros X F w E EX ND D.
  - destruct X as [|x X]; [|exfalso; apply (EX (fst x)); left; reflexivity]. cbn in E. cbn. rewrite <- E. destruct w; reflexivity.
  - cbn [M_spec_parser.unlink_all]. rewrite (s_unlink _ _ _ S0). destruct (content_of p (files w)) eqn:C.
    2: { exfalso. apply content_None in C. apply C. rewrite E, map_app. apply in_or_app. left. apply EX. left. reflexivity. }
    inversion ND as [|? ? Np ND']; subst. rewrite (IH (unlink p X) F); cbn [files ctx env]; auto.
    + rewrite E, unlink_app. f_equal. apply unlink_absent. apply D. left. reflexivity.
    + intros q. rewrite unlink_in, EX. split; [intros [[->|I] N]; [contradiction|exact I]|]. intros I. split; [right; exact I|]. intros ->. contradiction.
    + intros q I. apply D. right. exact I.
Qed.

Lemma with_dummy_spec {B} d sources non_empty (body : list (str * str) -> world W -> world W * result B) w :
  set_order order -> (forall made w, files (fst (body made w)) = files w) ->
  exists made w1, env w1 = env w /\ ctx w1 = ctx w /\
    with_dummy_sources d sources non_empty body w = (mk_world (ctx (fst (body made w1))) (files w) (env (fst (body made w1))), snd (body made w1)) /\
    (made = [] -> w1 = w) /\
    (forall p b, content_of p (files w) = Some b -> content_of p (files w1) = Some b) /\
    (forall p b, content_of p (files w) = None -> content_of p (files w1) = Some b ->
       In p made /\ fst p = d /\ ((names sources (snd p) /\ b = magic_bytes (snd p)) \/ (names non_empty (snd p) /\ b = lit "DUMMY"))) /\
    (writable write_outcome -> seen d sources non_empty (files w) (files w1)) /\
    (forall p, In p made -> fst p = d /\ (names sources (snd p) \/ names non_empty (snd p)) /\ content_of p (files w) = None).
Proof.
  intros O Q.
  destruct (fake_spec d magic_bytes (order sources) [] w) as (wa & new & A1 & A2 & A3 & A4 & A5 & A6 & A7).
  destruct (fake_spec d dummy_bytes (order non_empty) ([] ++ map fst new) wa) as (w1 & new' & B1 & B2 & B3 & B4 & B5 & B6 & B7).
  set (made := ([] ++ map fst new) ++ map fst new'). exists made, w1.
  assert (NO : forall l n, names (order l) n <-> names l n).
  { intros l n. unfold names. split; intros [N [s [I E]]]; (split; [exact N|]; exists s; split; [apply (O l); exact I|exact E]). }
  assert (Disj : forall p, In p (map fst new') -> ~ In p (map fst new) /\ ~ In p (map fst (files w))).
  { intros p I. specialize (B6 p I). apply content_None in B6. rewrite A2, map_app in B6. split; intros J; apply B6, in_or_app; [left|right; exact J]. rewrite map_rev. apply in_rev in J. exact J. }
  assert (F1 : files w1 = (rev new' ++ rev new) ++ files w) by (rewrite B2, A2, app_assoc; reflexivity).
  split; [congruence|]. split; [congruence|]. split; [|split; [|split; [|split; [|split]]]].
  - unfold M_spec_parser.with_dummy_sources. rewrite A1, B1. fold made. specialize (Q made w1). destruct (body made w1) as [w2 r]. cbn [fst snd] in *.
    rewrite (unlink_spec made (rev new' ++ rev new) (files w) w2).
    + reflexivity.
    + rewrite Q. exact F1.
    + intros p. unfold made. rewrite map_app, !map_rev, !in_app_iff, <- !in_rev. cbn [In]. tauto.
    + unfold made. cbn [app]. apply NoDup_app; [exact A5|exact B5|]. intros p I J. apply (proj1 (Disj p J)). exact I.
    + unfold made. cbn [app]. intros p I. apply in_app_or in I. destruct I as [I|I]; [apply content_None; apply A6; exact I|apply Disj; exact I].
  - unfold made. cbn [app]. intros M. apply app_eq_nil in M. destruct M as [M1 M2]. apply map_eq_nil in M1, M2. subst new new'. cbn in F1, A2. destruct w, w1, wa. cbn in *. congruence.
  - intros p b C. rewrite F1. assert (N : content_of p (rev new' ++ rev new) = None).
    { apply content_None. rewrite map_app, !map_rev, in_app_iff, <- !in_rev. intros [I|I]; [apply Disj in I; destruct I as [_ I]; apply I|apply A6 in I; congruence].
      destruct (in_dec path_dec p (map fst (files w))) as [Y|Y]; [exact Y|]. apply content_None in Y. congruence. }
    clear - N C. induction (rev new' ++ rev new) as [|[q x] l IH]; [exact C|]. cbn in *. destruct (path_eqb p q); [discriminate|auto].
  - intros p b C C1.
    assert (I : In (p, b) (rev new' ++ rev new)).
    { rewrite F1 in C1. clear - C C1. induction (rev new' ++ rev new) as [|[q x] l IH]; cbn in *; [congruence|]. destruct (path_eqb p q) eqn:E; [apply path_eqb_eq in E; left; congruence|right; auto]. }
    apply in_app_or in I. rewrite <- !in_rev in I. unfold made. cbn [app]. destruct I as [I|I].
    + destruct (B7 p b I) as (X1 & X2 & X3). split; [apply in_or_app; right; apply in_map_iff; exists (p, b); auto|]. split; [exact X1|]. right. apply (proj1 (NO _ _)) in X2. split; [exact X2|exact X3].
    + destruct (A7 p b I) as (X1 & X2 & X3). split; [apply in_or_app; left; apply in_map_iff; exists (p, b); auto|]. split; [exact X1|]. left. apply (proj1 (NO _ _)) in X2. auto.
  - intros Wr d' n.
    destruct (fake_complete d magic_bytes Wr _ _ _ _ _ _ A1) as [Ca1 Ca2]. destruct (fake_complete d dummy_bytes Wr _ _ _ _ _ _ B1) as [Cb1 Cb2].
    destruct (content_of (d', n) (files w)) as [b|] eqn:C.
    + assert (N : content_of (d', n) (rev new' ++ rev new) = None).
      { apply content_None. rewrite map_app, !map_rev, in_app_iff, <- !in_rev. intros [I|I]; [apply Disj in I; destruct I as [_ I]; apply I|apply A6 in I; congruence].
        destruct (in_dec path_dec (d', n) (map fst (files w))) as [Y|Y]; [exact Y|]. apply content_None in Y. congruence. }
      rewrite F1. clear - N C. induction (rev new' ++ rev new) as [|[q x] l IH]; [exact C|]. rewrite <- app_comm_cons. rewrite content_cons in *. destruct (path_eqb (d', n) q); [discriminate|auto].
    + assert (Src : forall x, content_of (d', n) (files w1) = Some x -> d' = d /\ ((names sources n /\ In ((d', n), x) new) \/ (names non_empty n /\ In ((d', n), x) new'))).
      { intros x Cx. assert (I : In ((d', n), x) (rev new' ++ rev new)).
        { rewrite F1 in Cx. clear - C Cx. induction (rev new' ++ rev new) as [|[q y] l IH]; [cbn in Cx; congruence|]. rewrite <- app_comm_cons, content_cons in Cx. destruct (path_eqb (d', n) q) eqn:E; [apply path_eqb_eq in E; left; congruence|right; auto]. }
        apply in_app_or in I. rewrite <- !in_rev in I. destruct I as [I|I].
        - destruct (B7 _ _ I) as (X1 & X2 & X3). split; [exact X1|]. right. split; [apply NO; exact X2|exact I].
        - destruct (A7 _ _ I) as (X1 & X2 & X3). split; [exact X1|]. left. split; [apply NO; exact X2|exact I]. }
      split; [|split].
      * intros [-> Nm]. apply NO in Nm. pose proof (Ca1 n Nm) as Ne. destruct (content_of (d, n) (files wa)) as [x|] eqn:Cx; [|contradiction].
        assert (I : In (d, n) (map fst new)).
        { apply content_None in C. destruct (in_dec path_dec (d, n) (map fst (rev new))) as [Y|Y]; [rewrite map_rev in Y; apply in_rev; exact Y|]. exfalso.
          assert (content_of (d, n) (files wa) = None) by (apply content_None; rewrite A2, map_app, in_app_iff; tauto). congruence. }
        pose proof (Cb2 (d, n)) as Cb. rewrite Cx in Cb. specialize (Cb ltac:(discriminate)). destruct (content_of (d, n) (files w1)) as [y|] eqn:Cy; [|contradiction].
        destruct (Src y eq_refl) as [_ [[_ J]|[_ J]]]; [destruct (A7 _ _ J) as (_ & _ & ->); reflexivity|].
        exfalso. apply (proj1 (Disj (d, n) ltac:(apply in_map_iff; exists ((d, n), y); auto))). exact I.
      * intros [-> [Nn Nm]]. apply NO in Nm. pose proof (Cb1 n Nm) as Ne. destruct (content_of (d, n) (files w1)) as [y|] eqn:Cy; [|contradiction].
        destruct (Src y eq_refl) as [_ [[J _]|[_ J]]]; [contradiction|]. destruct (B7 _ _ J) as (_ & _ & ->). reflexivity.
      * intros Nx. destruct (content_of (d', n) (files w1)) as [y|] eqn:Cy; [|reflexivity]. exfalso. apply Nx. destruct (Src y eq_refl) as [-> [[J _]|[J _]]]; auto.
  - intros p I. unfold made in I. cbn [app] in I. apply in_app_or in I. destruct I as [I|I].
    + split; [|split; [|apply A6; exact I]]; apply in_map_iff in I; destruct I as ([q b] & <- & I); destruct (A7 _ _ I) as (X1 & X2 & _); [exact X1|left; apply NO; exact X2].
    + split; [|split; [|apply content_None; apply Disj; exact I]]; apply in_map_iff in I; destruct I as ([q b] & <- & I); destruct (B7 _ _ I) as (X1 & X2 & _); [exact X1|right; apply NO; exact X2].
Qed.
End Sound.
End Files.
