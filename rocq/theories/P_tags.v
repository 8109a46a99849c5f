(** Proofs about tags: recognition of tag lines. *)
From Coq Require Import Ascii String.
From Coq Require Import NArith ZArith List Bool Lia.
From Verif Require Import PyStr PyStrFacts Regex RegexFacts M_constants M_value P_value P_value2 Spec_sections P_sections M_macro_definitions P_macro_definitions M_tags Spec_tags.
Import ListNotations.
Open Scope N_scope.

Lemma tag_names_lower n a : In n TAG_NAMES -> In a n -> 97 <= a <= 122.
Proof.
  assert (K : forallb (forallb (fun a => (97 <=? a) && (a <=? 122))) TAG_NAMES = true) by (vm_compute; reflexivity).
  intros Hn Ha. rewrite forallb_forall in K. specialize (K n Hn). rewrite forallb_forall in K. specialize (K a Ha).
  apply andb_true_iff in K as [K1 K2]. apply N.leb_le in K1, K2. lia.
Qed.
Lemma tag_ci_letters n w : In n TAG_NAMES -> Forall2 (fun a c => ci a c = true) n w <-> Forall2 same_letter n w.
Proof.
  intros Hn. assert (Hn' : forall a, In a n -> 97 <= a <= 122) by (intros; eapply tag_names_lower; eauto). clear Hn.
  split; induction 1 as [|a c n' w' P F IH]; constructor; try (apply IH; intros; apply Hn'; now right);
    (apply ci_letter; [left; apply Hn'; now left|assumption]).
Qed.
Lemma same_letter_inj a b c : 97 <= a <= 122 -> 97 <= b <= 122 -> same_letter a c -> same_letter b c -> a = b.
Proof. unfold same_letter. lia. Qed.
Lemma letters_unique n1 : forall n2 w, (forall a, In a n1 -> 97 <= a <= 122) -> (forall a, In a n2 -> 97 <= a <= 122) ->
  Forall2 same_letter n1 w -> Forall2 same_letter n2 w -> n1 = n2.
Proof.
  induction n1 as [|a n1 IH]; intros n2 w H1 H2 F1 F2; inversion F1; subst; inversion F2; subst; auto.
  f_equal; [eapply same_letter_inj; eauto; [apply H1|apply H2]; now left|]. eapply IH; eauto; intros; [apply H1|apply H2]; now right.
Qed.
Lemma letter_class a c : 97 <= a <= 122 -> same_letter a c -> is_space c = false /\ c <> COLON /\ c <> LPAR /\ c <> RPAR.
Proof.
  unfold same_letter, is_space, COLON, LPAR, RPAR. intros Ha Hc.
  split; [|lia]. apply not_true_iff_false. rewrite !orb_true_iff, !andb_true_iff, !N.leb_le, !N.eqb_eq. lia.
Qed.
(** A known name continued by a letter: not after "source" or "patch" by anything that is a digit. *)
Lemma longer_name n a y : (n = lit "source" \/ n = lit "patch") -> In (n ++ a :: y) TAG_NAMES -> a = 108.
Proof.
  assert (K : forallb (fun m => forallb (fun n => match strip_prefix n m with Some (a :: _) => a =? 108 | _ => true end) [lit "source"; lit "patch"]) TAG_NAMES = true)
    by (vm_compute; reflexivity).
  intros Hn Hm. rewrite forallb_forall in K. specialize (K _ Hm). rewrite forallb_forall in K. specialize (K n).
  assert (strip_prefix n (n ++ a :: y) = Some (a :: y)) as E by now apply strip_prefix_Some. rewrite E in K. apply N.eqb_eq, K. cbn. intuition.
Qed.

Section Uni.
Context {U : Unicode}.
Lemma ascii_letter_digit c : c = 108 \/ c = 76 -> is_digit c = false.
Proof. intros [->| ->]; reflexivity. Qed.

(** The class of the character after the letters of a name. *)
Definition after_name (n : str) (c : char) : Prop :=
  is_space c = true \/ c = COLON \/ c = LPAR \/ ((n = lit "source" \/ n = lit "patch") /\ is_digit c = true).
Lemma after_not_letter n a y c : In n TAG_NAMES -> In (n ++ a :: y) TAG_NAMES -> same_letter a c -> after_name n c -> False.
Proof.
  intros Hn Hm Hs Ha. assert (La : 97 <= a <= 122) by (eapply tag_names_lower; [exact Hm|]; apply in_elt).
  destruct (letter_class a c La Hs) as (S & C & P & _). destruct Ha as [Ha|[Ha|[Ha|[Hn' Ha]]]]; try congruence.
  pose proof (longer_name n a y Hn' Hm) as ->. assert (c = 108 \/ c = 76) by (unfold same_letter in Hs; lia).
  rewrite ascii_letter_digit in Ha by auto. discriminate.
Qed.
Lemma prefix_letters n1 : forall n2 l1 l2 f1 f2, Forall2 same_letter n1 l1 -> Forall2 same_letter n2 l2 ->
  (forall a, In a n1 -> 97 <= a <= 122) -> (forall a, In a n2 -> 97 <= a <= 122) ->
  l1 ++ f1 = l2 ++ f2 ->
  (n1 = n2 /\ l1 = l2 /\ f1 = f2) \/ (exists a y c g, n2 = n1 ++ a :: y /\ f1 = c :: g /\ same_letter a c) \/
  (exists a y c g, n1 = n2 ++ a :: y /\ f2 = c :: g /\ same_letter a c).
Proof.
  induction n1 as [|a n1 IH]; intros n2 l1 l2 f1 f2 F1 F2 A1 A2 E; inversion F1 as [|? c ? l1' S1 F1']; subst; cbn [app] in E.
  - inversion F2 as [|b c ? l2' S2 F2']; subst; cbn [app] in *; auto. right. left. exists b, l, c, (l2' ++ f2). auto.
  - inversion F2 as [|b d ? l2' S2 F2']; subst; cbn [app] in *.
    + right. right. exists a, n1, c, (l1' ++ f1). auto.
    + injection E as <- E. assert (a = b) by (eapply same_letter_inj; eauto; [apply A1|apply A2]; now left). subst b.
      destruct (IH l l1' l2' f1 f2) as [(-> & -> & ->)|[(x & y & c' & g & -> & -> & S)|(x & y & c' & g & -> & -> & S)]]; auto.
      * intros; apply A1; now right.
      * intros; apply A2; now right.
      * right. left. exists x, y, c', g. auto.
      * right. right. exists x, y, c', g. auto.
Qed.
Lemma name_unique n1 n2 l1 l2 f1 f2 : In n1 TAG_NAMES -> In n2 TAG_NAMES ->
  Forall2 same_letter n1 l1 -> Forall2 same_letter n2 l2 -> l1 ++ f1 = l2 ++ f2 ->
  (forall c g, f1 = c :: g -> after_name n1 c) -> (forall c g, f2 = c :: g -> after_name n2 c) ->
  n1 = n2 /\ l1 = l2 /\ f1 = f2.
Proof.
  intros H1 H2 F1 F2 E A1 A2.
  destruct (prefix_letters n1 n2 l1 l2 f1 f2) as [K|[(a & y & c & g & -> & -> & S)|(a & y & c & g & -> & -> & S)]]; auto.
  - intros a Ha. exact (tag_names_lower n1 a H1 Ha).
  - intros a Ha. exact (tag_names_lower n2 a H2 Ha).
  - exfalso. exact (after_not_letter n1 a y c H1 H2 S (A1 c g eq_refl)).
  - exfalso. exact (after_not_letter n2 a y c H2 H1 S (A2 c g eq_refl)).
Qed.

(** Shape of a match of a name. *)
Lemma name_match n s s' : In n TAG_NAMES -> Match (tag_name_regex n) s s' ->
  exists letters arg, rest s = (letters ++ arg) ++ rest s' /\ Forall2 same_letter n letters /\ name_argument n arg /\
    pre s' = rev (letters ++ arg) ++ pre s /\ caps s' = caps s.
Proof.
  intros Hn. unfold tag_name_regex. destruct (str_in n TAGS_WITH_ARG) eqn:E1; [|destruct (str_in n [lit "source"; lit "patch"]) eqn:E2].
  - intros M. apply Match_Seq in M as (s1 & M1 & M2). apply Match_ci_word in M1 as (l & R1 & F & P1 & C1). apply tag_ci_letters in F; auto.
    unfold Opt in M2. apply Match_Alt in M2 as [M2|M2].
    + apply Match_Seq in M2 as (s2 & M2 & M3). apply Match_Star in M2 as (w1 & R2 & S2 & P2 & C2).
      apply Match_Seq in M3 as (s3 & M3 & M4). unfold chr in M3. apply Match_Ch in M3 as (c & R3 & S3 & P3 & C3). apply N.eqb_eq in S3. subst c.
      apply Match_Seq in M4 as (s4 & M4 & M5). apply Match_Star in M4 as (w2 & R4 & S4 & P4 & C4).
      apply Match_Seq in M5 as (s5 & M5 & M6). apply Match_Star in M5 as (x & R5 & S5 & P5 & C5).
      apply Match_Seq in M6 as (s6 & M6 & M7). apply Match_Star in M6 as (w3 & R6 & S6 & P6 & C6).
      unfold chr in M7. apply Match_Ch in M7 as (c & R7 & S7 & P7 & C7). apply N.eqb_eq in S7. subst c.
      exists l, (w1 ++ LPAR :: w2 ++ x ++ w3 ++ [RPAR]). split; [|split; [|split; [|split]]]; auto.
      * rewrite R1, R2, R3, R4, R5, R6, R7. repeat (rewrite <- ?app_assoc; cbn [app]). reflexivity.
      * right. left. split; [now apply str_in_iff|]. exists w1, w2, x, w3. split; auto. unfold space_text. rewrite !Forall_forall.
        rewrite forallb_forall in S2, S4, S5, S6. repeat split; auto.
        -- apply S5 in H. apply andb_true_iff in H as [Q _]. now apply negb_true_iff in Q.
        -- apply S5 in H. apply andb_true_iff in H as [_ Q]. apply negb_true_iff in Q. now apply N.eqb_neq in Q.
      * rewrite P7, P6, P5, P4, P3, P2, P1. repeat (rewrite ?rev_app_distr, <- ?app_assoc; cbn [rev app]). reflexivity.
      * congruence.
    + apply Match_Eps in M2. subst s'. exists l, []. rewrite app_nil_r. repeat split; auto. now left.
  - intros M. apply Match_Seq in M as (s1 & M1 & M2). apply Match_ci_word in M1 as (l & R1 & F & P1 & C1). apply tag_ci_letters in F; auto.
    apply Match_Star in M2 as (w & R2 & S2 & P2 & C2). exists l, w. split; [|split; [|split; [|split]]]; auto.
    + rewrite R1, R2. now rewrite <- app_assoc.
    + right. right. split; [apply str_in_iff in E2; cbn in E2; intuition|]. apply Forall_forall. now apply forallb_forall.
    + rewrite P2, P1, rev_app_distr. now rewrite <- app_assoc.
    + congruence.
  - intros M. apply Match_ci_word in M as (l & R1 & F & P1 & C1). apply tag_ci_letters in F; auto.
    exists l, []. rewrite app_nil_r. repeat split; auto. now left.
Qed.
(** Building a match of a name. *)
Lemma name_build n letters arg cs : In n TAG_NAMES -> Forall2 same_letter n letters -> name_argument n arg -> L (tag_name_regex n) cs (letters ++ arg) cs.
Proof.
  intros Hn F A. apply tag_ci_letters in F; auto.
  assert (Lw : L (ci_word n) cs letters cs) by (intros pr rs; apply Match_ci_word; exists letters; repeat split; auto).
  unfold tag_name_regex. destruct (str_in n TAGS_WITH_ARG) eqn:E1; [|destruct (str_in n [lit "source"; lit "patch"]) eqn:E2].
  - apply (L_seq _ _ _ _ cs); auto. destruct A as [->|[(_ & s1 & s2 & x & s3 & -> & B1 & B2 & B3 & Bx)|(Q & _)]].
    + apply L_altr, L_eps.
    + apply L_altl. apply (L_seq _ _ _ s1 cs); [apply L_star; now apply forallb_forall, Forall_forall|].
      apply (L_seq (chr LPAR) _ _ [LPAR] cs); [apply L_chr|].
      apply (L_seq _ _ _ s2 cs); [apply L_star; now apply forallb_forall, Forall_forall|].
      apply (L_seq _ _ _ x cs). { apply L_star. apply forallb_forall. intros c Hc. rewrite Forall_forall in Bx. destruct (Bx c Hc) as [B4 B5]. rewrite B4. cbn. apply negb_true_iff. now apply N.eqb_neq. }
      apply (L_seq _ _ _ s3 cs); [apply L_star; now apply forallb_forall, Forall_forall|apply L_chr].
    + exfalso. destruct Q as [->| ->]; vm_compute in E1; discriminate.
  - apply (L_seq _ _ _ _ cs); auto. apply L_star. destruct A as [->|[(Q & _)|(_ & B)]]; auto.
    + apply str_in_iff in Q. congruence.
    + apply forallb_forall. now apply Forall_forall.
  - destruct A as [->|[(Q & _)|(Q & _)]].
    + now rewrite app_nil_r.
    + apply str_in_iff in Q. congruence.
    + exfalso. assert (Q2 : In n [lit "source"; lit "patch"]) by (cbn; intuition). apply str_in_iff in Q2. congruence.
Qed.
(** Shape of a match. *)
Definition shape (line name sep value : str) (tail : str) (n : str) : Prop :=
  line = name ++ sep ++ value ++ tail /\
  (exists letters arg, Forall2 same_letter n letters /\ name_argument n arg /\ name = letters ++ arg) /\
  (exists s1 s2, sep = s1 ++ COLON :: s2 /\ space_text s1 /\ space_text s2) /\ value <> [] /\ forallb dot value = true.
Lemma tag_match n s pr m : In n TAG_NAMES -> Match (Seq (Grp 1 (tag_name_regex n))
    (Seq (Grp 2 (Seq (Star true is_space) (Seq (chr COLON) (Star true is_space)))) (Grp 3 (Plus true dot)))) (mkst pr s []) m ->
  shape s (group_str 1 m) (group_str 2 m) (group_str 3 m) (rest m) n.
Proof.
  intros Hn M. apply Match_Seq in M as (s1 & M1 & M2). apply Match_Grp in M1 as (w1 & s1' & M1 & R1 & E1 & E2 & P1 & C1).
  apply (name_match n _ _ Hn) in M1 as (l & arg & R & F & A & P & C). cbn [rest pre caps] in *.
  apply Match_Seq in M2 as (s2 & M2 & M3). apply Match_Grp in M2 as (w2 & s2' & M2 & R2 & E3 & E4 & P2 & C2).
  apply Match_Seq in M2 as (a1 & Ma & Mb). apply Match_Star in Ma as (x1 & Ra & Sa & Pa & Ca).
  apply Match_Seq in Mb as (a2 & Mb & Mc). unfold chr in Mb. apply Match_Ch in Mb as (c & Rb & Sb & Pb & Cb). apply N.eqb_eq in Sb. subst c.
  apply Match_Star in Mc as (x2 & Rc & Sc & Pc & Cc).
  apply Match_Grp in M3 as (w3 & s3' & M3 & R3 & E5 & E6 & P3 & C3). apply Match_Plus in M3 as (v & Nv & Rv & Sv & Pv & Cv).
  assert (w1 = l ++ arg) as ->.
  { apply (app_inv_tail (rest s1)). now rewrite <- R1, R, E1. }
  assert (w2 = x1 ++ COLON :: x2) as ->.
  { apply (app_inv_tail (rest s2)). rewrite <- R2, <- E3, Ra, Rb, Rc. repeat (rewrite <- ?app_assoc; cbn [app]). reflexivity. }
  assert (w3 = v) as ->.
  { apply (app_inv_tail (rest m)). now rewrite <- R3, Rv, E5. }
  unfold group_str, group. rewrite C3, Cv, C2, Cc, Cb, Ca, C1, C. cbn [cap_get Nat.eqb]. split; [|split; [|split]].
  - rewrite R1, R2, R3. reflexivity.
  - exists l, arg. auto.
  - exists x1, x2. unfold space_text. rewrite !Forall_forall. rewrite forallb_forall in Sa, Sc. auto.
  - auto.
Qed.
Lemma shape_after n (letters arg sep s1 s2 rest : str) : name_argument n arg -> sep = s1 ++ COLON :: s2 -> space_text s1 ->
  forall c g, arg ++ sep ++ rest = c :: g -> after_name n c.
Proof.
  intros A -> S1 c g E. unfold after_name. destruct A as [->|[(_ & p1 & p2 & x & p3 & -> & B1 & _)|(Hn & D)]]; cbn [app] in E.
  - destruct S1 as [|y s1 Sy]; cbn in E; injection E as -> _; auto.
  - destruct B1 as [|y p1 Sy]; cbn in E; injection E as -> _; auto.
  - destruct D as [|y a Dy]; cbn [app] in E; [|injection E as -> _; auto]. destruct S1 as [|y s1 Sy]; cbn in E; injection E as -> _; auto.
Qed.
Lemma space_run : forall s1 s2 f1 f2, space_text s1 -> space_text s2 ->
  (forall c g, f1 = c :: g -> is_space c = false) -> (forall c g, f2 = c :: g -> is_space c = false) -> s1 ++ f1 = s2 ++ f2 -> s1 = s2 /\ f1 = f2.
Proof.
  induction s1 as [|c s1 IH]; intros s2 f1 f2 S1 S2 N1 N2 E; inversion S1; subst; destruct s2 as [|d s2]; inversion S2; subst; cbn [app] in E; auto.
  - rewrite (N1 d (s2 ++ f2) E) in *. discriminate.
  - rewrite (N2 c (s1 ++ f1) (eq_sym E)) in *. discriminate.
  - injection E as <- E. destruct (IH s2 f1 f2) as [-> ->]; auto.
Qed.
Lemma space_not c : is_space c = true -> c <> COLON /\ c <> LPAR /\ c <> RPAR /\ is_digit c = false.
Proof.
  intros S. repeat split; try (intros ->; vm_compute in S; discriminate). destruct (is_digit c) eqn:D; auto. apply is_digit_not_space in D. congruence.
Qed.
Lemma until_char (p : char) x : forall y f g, ~ In p x -> ~ In p y -> x ++ p :: f = y ++ p :: g -> x = y /\ f = g.
Proof.
  induction x as [|c x IH]; intros [|d y] f g N1 N2 E; cbn [app] in E.
  - injection E as ->. auto.
  - injection E as -> _. exfalso. apply N2. now left.
  - injection E as <- _. exfalso. apply N1. now left.
  - injection E as -> E. destruct (IH y f g) as [-> ->]; auto; intros Q; [apply N1|apply N2]; now right.
Qed.
Lemma digits_run : forall d1 d2 f1 f2, Forall (fun c => is_digit c = true) d1 -> Forall (fun c => is_digit c = true) d2 ->
  (forall c g, f1 = c :: g -> is_digit c = false) -> (forall c g, f2 = c :: g -> is_digit c = false) -> d1 ++ f1 = d2 ++ f2 -> d1 = d2 /\ f1 = f2.
Proof.
  induction d1 as [|c s1 IH]; intros s2 f1 f2 S1 S2 N1 N2 E; inversion S1; subst; destruct s2 as [|d s2]; inversion S2; subst; cbn [app] in E; auto.
  - rewrite (N1 d (s2 ++ f2) E) in *. discriminate.
  - rewrite (N2 c (s1 ++ f1) (eq_sym E)) in *. discriminate.
  - injection E as <- E. destruct (IH s2 f1 f2) as [-> ->]; auto.
Qed.
Lemma sep_start s1 s2 f : space_text s1 -> forall c g, (s1 ++ COLON :: s2) ++ f = c :: g -> is_space c = true \/ c = COLON.
Proof. intros S c g E. destruct S as [|y s1 Sy]; cbn in E; injection E as -> _; auto. Qed.
(** Arguments and separators are determined by the text. *)
Lemma arg_unique n a1 a2 s1 s2 t1 t2 f1 f2 : name_argument n a1 -> name_argument n a2 -> space_text s1 -> space_text s2 ->
  a1 ++ (s1 ++ COLON :: t1) ++ f1 = a2 ++ (s2 ++ COLON :: t2) ++ f2 ->
  a1 = a2 /\ (s1 ++ COLON :: t1) ++ f1 = (s2 ++ COLON :: t2) ++ f2.
Proof.
  assert (NC : forall w x y s, space_text w -> space_text s -> w ++ LPAR :: x = s ++ COLON :: y -> False).
  { intros w x y s W S E. apply space_run in E as [_ E]; auto; [discriminate| |];
      intros c g Q; injection Q as <- _; reflexivity. }
  assert (ND : forall s t f c g, space_text s -> (s ++ COLON :: t) ++ f = c :: g -> is_digit c = false).
  { intros s t f c g S E. destruct (sep_start s t f S c g E) as [Q| ->]; [now apply space_not|reflexivity]. }
  assert (NP : forall p1 p2 x p3, space_text p1 -> space_text p2 -> space_text p3 -> Forall (fun c => is_space c = false /\ c <> RPAR) x -> ~ In RPAR (p1 ++ LPAR :: p2 ++ x ++ p3)).
  { intros p1 p2 x p3 B1 B2 B3 Bx Hi. unfold space_text in *. rewrite Forall_forall in *. rewrite in_app_iff in Hi. cbn in Hi. rewrite !in_app_iff in Hi.
    destruct Hi as [Q|[Q|[Q|[Q|Q]]]]; [apply B1 in Q|discriminate|apply B2 in Q|apply Bx in Q; tauto|apply B3 in Q]; vm_compute in Q; discriminate. }
  assert (Excl : In n TAGS_WITH_ARG -> n = lit "source" \/ n = lit "patch" -> False).
  { intros Q [->| ->]; apply str_in_iff in Q; vm_compute in Q; discriminate. }
  intros A1 A2 S1 S2 E. destruct A1 as [->|[(T1 & p1 & p2 & x & p3 & -> & B1 & B2 & B3 & Bx)|(H1 & D1)]];
    destruct A2 as [->|[(T2 & q1 & q2 & y & q3 & -> & G1 & G2 & G3 & Gy)|(H2 & D2)]]; cbn [app] in E; auto; try (exfalso; eauto; fail).
  - exfalso. symmetry in E. repeat (rewrite <- ?app_assoc in E; cbn [app] in E). exact (NC _ _ _ _ G1 S1 E).
  - destruct (digits_run [] a2 ((s1 ++ COLON :: t1) ++ f1) ((s2 ++ COLON :: t2) ++ f2)) as [Q1 Q2]; eauto.
  - exfalso. repeat (rewrite <- ?app_assoc in E; cbn [app] in E). exact (NC _ _ _ _ B1 S2 E).
  - assert (E' : (p1 ++ LPAR :: p2 ++ x ++ p3) ++ RPAR :: (s1 ++ COLON :: t1) ++ f1 = (q1 ++ LPAR :: q2 ++ y ++ q3) ++ RPAR :: (s2 ++ COLON :: t2) ++ f2).
    { repeat (rewrite <- ?app_assoc in E; cbn [app] in E). repeat (rewrite <- ?app_assoc; cbn [app]). exact E. }
    apply until_char in E' as [E1 E2]; auto. split; auto.
    replace (p1 ++ LPAR :: p2 ++ x ++ p3 ++ [RPAR]) with ((p1 ++ LPAR :: p2 ++ x ++ p3) ++ [RPAR]) by (repeat (rewrite <- ?app_assoc; cbn [app]); reflexivity).
    rewrite E1. repeat (rewrite <- ?app_assoc; cbn [app]). reflexivity.
  - destruct (digits_run a1 [] ((s1 ++ COLON :: t1) ++ f1) ((s2 ++ COLON :: t2) ++ f2)) as [Q1 Q2]; eauto.
  - destruct (digits_run a1 a2 ((s1 ++ COLON :: t1) ++ f1) ((s2 ++ COLON :: t2) ++ f2)) as [Q1 Q2]; eauto.
Qed.
Lemma shape_unique line n1 n2 a1 a2 b1 b2 v1 v2 : In n1 TAG_NAMES -> In n2 TAG_NAMES ->
  (exists letters arg, Forall2 same_letter n1 letters /\ name_argument n1 arg /\ a1 = letters ++ arg) ->
  (exists letters arg, Forall2 same_letter n2 letters /\ name_argument n2 arg /\ a2 = letters ++ arg) ->
  (exists s1 s2, b1 = s1 ++ COLON :: s2 /\ space_text s1 /\ space_text s2) ->
  (exists s1 s2, b2 = s1 ++ COLON :: s2 /\ space_text s1 /\ space_text s2) ->
  line = a1 ++ b1 ++ v1 -> line = a2 ++ b2 ++ v2 ->
  n1 = n2 /\ a1 = a2 /\ exists s t1 t2, b1 = s ++ COLON :: t1 /\ b2 = s ++ COLON :: t2 /\ space_text t1 /\ space_text t2 /\ t1 ++ v1 = t2 ++ v2.
Proof.
  intros H1 H2 (l1 & g1 & F1 & A1 & ->) (l2 & g2 & F2 & A2 & ->) (s1 & t1 & -> & S1 & T1) (s2 & t2 & -> & S2 & T2) E1 E2.
  rewrite E1 in E2. rewrite <- !(app_assoc l1), <- !(app_assoc l2) in E2.
  destruct (name_unique n1 n2 l1 l2 _ _ H1 H2 F1 F2 E2) as (-> & -> & E3).
  - eapply (shape_after n1 l1 g1); eauto.
  - eapply (shape_after n2 l2 g2); eauto.
  - destruct (arg_unique n2 g1 g2 s1 s2 t1 t2 v1 v2 A1 A2 S1 S2 E3) as [-> E4]. split; auto. split; auto.
    rewrite <- !app_assoc in E4. cbn [app] in E4.
    apply until_char in E4 as [-> E5].
    + exists s2, t1, t2. auto.
    + intros Q. unfold space_text in S1. rewrite Forall_forall in S1. apply S1 in Q. discriminate.
    + intros Q. unfold space_text in S2. rewrite Forall_forall in S2. apply S2 in Q. discriminate.
Qed.
Theorem tag_line_unique line n s v n' s' v' : tag_line line n s v -> tag_line line n' s' v' -> n = n' /\ s = s' /\ v = v'.
Proof.
  intros (E1 & (m1 & l1 & g1 & H1 & F1 & A1 & Q1) & B1 & c1 & v1 & Ev1 & W1) (E2 & (m2 & l2 & g2 & H2 & F2 & A2 & Q2) & B2 & c2 & v2 & Ev2 & W2).
  destruct (shape_unique line m1 m2 n n' s s' v v') as (-> & -> & p & t1 & t2 & -> & -> & T1 & T2 & E); eauto 8.
  assert (t1 = t2 /\ v = v') as [-> ->]; auto. subst v v'.
  destruct (is_space c1) eqn:K1; destruct (is_space c2) eqn:K2.
  - rewrite W1, W2 in * by auto. apply app_inj_tail in E as [-> ->]. auto.
  - rewrite W1 in * by auto. exfalso. assert (Q : In c2 (t1 ++ [c1])) by (rewrite E; apply in_elt). apply in_app_iff in Q as [Q|[->|[]]]; [|congruence].
    unfold space_text in T1. rewrite Forall_forall in T1. apply T1 in Q. congruence.
  - rewrite W2 in * by auto. exfalso. assert (Q : In c1 (t2 ++ [c2])) by (rewrite <- E; apply in_elt). apply in_app_iff in Q as [Q|[->|[]]]; [|congruence].
    unfold space_text in T2. rewrite Forall_forall in T2. apply T2 in Q. congruence.
  - apply space_run in E as [-> E]; [auto|auto|auto| |]; intros c g Q; injection Q as <- _; auto.
Qed.
End Uni.
