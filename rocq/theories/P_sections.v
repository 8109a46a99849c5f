(** Proofs about sections. *)
From Coq Require Import Ascii String.
From Coq Require Import NArith ZArith List Bool Lia.
From Verif Require Import PyStr PyStrFacts Regex RegexFacts M_constants M_options Spec_options P_options M_macro_definitions
  Spec_macro_definitions P_macro_definitions P_macro_definitions2 M_sections Spec_sections.
Import ListNotations.
Open Scope N_scope.

(** Headers. *)
Lemma Match_ci_word t : forall s s', Match (ci_word t) s s' <->
  exists w, rest s = w ++ rest s' /\ Forall2 (fun a c => ci a c = true) t w /\ pre s' = rev w ++ pre s /\ caps s' = caps s.
Proof.
  unfold ci_word. induction t as [|a t IH]; intros s s'; cbn [map seqs].
  - rewrite Match_Eps. split.
    + intros ->. exists []. repeat split; auto.
    + intros (w & E & F & G & C). inversion F; subst. destruct s, s'; cbn in *; subst; auto.
  - assert (K : Match (match map (fun a => Ch (ci a)) t with [] => Ch (ci a) | _ => Seq (Ch (ci a)) (seqs (map (fun a => Ch (ci a)) t)) end) s s' <->
        Match (Seq (Ch (ci a)) (seqs (map (fun a => Ch (ci a)) t))) s s').
    { destruct t as [|b t]; [|reflexivity]. cbn [map seqs]. rewrite Match_Seq. split.
      - intros M. exists s'. split; auto. now apply Match_Eps.
      - intros (s1 & M1 & M2). apply Match_Eps in M2. now subst. }
    rewrite K, Match_Seq. clear K. split.
    + intros (s1 & M1 & M2). apply Match_Ch in M1 as (c & E & P & Q & C). apply IH in M2 as (w & E2 & F & Q2 & C2).
      exists (c :: w). rewrite E, E2, Q2, Q, C2, C. cbn. rewrite <- app_assoc. repeat split; auto.
    + intros (w & E & F & Q & C). inversion F as [|x y t' w' P F']; subst.
      exists (mkst (y :: pre s) (w' ++ rest s') (caps s)). split.
      * apply Match_Ch. exists y. cbn. auto.
      * apply IH. exists w'. cbn. rewrite Q. cbn. rewrite <- app_assoc. auto.
Qed.
Lemma names_lower n a : In n SECTION_NAMES -> In a n -> (97 <= a <= 122) \/ a = 95.
Proof.
  assert (K : forallb (forallb (fun a => ((97 <=? a) && (a <=? 122)) || (a =? 95))) SECTION_NAMES = true) by (vm_compute; reflexivity).
  intros Hn Ha. rewrite forallb_forall in K. specialize (K n Hn). rewrite forallb_forall in K. specialize (K a Ha).
  apply orb_true_iff in K as [K|K]; [|right; now apply N.eqb_eq]. apply andb_true_iff in K as [K1 K2]. apply N.leb_le in K1, K2. lia.
Qed.
Lemma ci_letter a c : (97 <= a <= 122) \/ a = 95 -> ci a c = true <-> same_letter a c.
Proof.
  intros Ha. unfold ci, same_letter, ascii_lower, ascii_upper.
  rewrite !orb_true_iff, !andb_true_iff, !orb_true_iff, !N.eqb_eq, !N.leb_le. split; intros K; intuition lia.
Qed.
Lemma ci_letters n w : In n SECTION_NAMES -> Forall2 (fun a c => ci a c = true) n w <-> Forall2 same_letter n w.
Proof.
  intros Hn. assert (Hn' : forall a, In a n -> (97 <= a <= 122) \/ a = 95) by (intros; eapply names_lower; eauto). clear Hn.
  split; induction 1 as [|a c n' w' P F IH]; constructor; try (apply IH; intros; apply Hn'; now right); apply ci_letter; auto; apply Hn'; now left.
Qed.
Lemma header_spec line : ~ In LF line -> is_header line = true <-> header_line line.
Proof.
  intros NL. unfold is_header. rewrite andb_true_iff, existsb_exists. split.
  - intros (_ & n & Hn & M). destruct (re_match (section_regex n) line) as [m|] eqn:E; [|discriminate]. apply re_match_sound in E.
    unfold section_regex in E. apply Match_Seq in E as (s1 & M1 & M2). apply Match_Caret in M1 as [-> _].
    apply Match_Seq in M2 as (s2 & M2 & M3). unfold chr in M2. apply Match_Ch in M2 as (c & E & Pc & Q & C). cbn in E, Q, C.
    apply N.eqb_eq in Pc. subst c.
    apply Match_Seq in M3 as (s3 & M3 & M4). apply Match_ci_word in M3 as (w & E3 & F & Q3 & C3). rewrite E3 in E. clear E3.
    exists n, w, (rest s3). split; auto. split; [now apply ci_letters|].
    split; auto. apply Match_Grp in M4 as (w4 & s4 & M4 & _ & _ & _). apply Match_Alt in M4 as [M4|M4].
    + right. apply Match_Seq in M4 as (s5 & M5 & M6). apply Match_Plus in M5 as (w1 & N1 & E5 & P1 & Q5 & _).
      apply Match_Seq in M6 as (s6 & M6 & M7). apply Match_Star in M6 as (w2 & E6 & P2 & Q6 & _).
      apply Match_Seq in M7 as (s7 & M7 & M8). apply Match_NotBehind in M7 as [-> Hb]. apply Match_Dollar in M8 as [-> D].
      apply at_dollar_noLF in D.
      2: { intros Hi. apply NL. rewrite E. right. apply in_or_app. right. rewrite E5, E6. apply in_or_app. right. apply in_or_app. now right. }
      rewrite D, app_nil_r in E6. rewrite E6 in E5. destruct w1 as [|c w1]; [congruence|]. exists c, (w1 ++ w2). split; auto.
      cbn in P1. apply andb_true_iff in P1 as [P1 _]. split; auto. intros L. rewrite E5 in L.
      destruct (exists_last (l := (c :: w1) ++ w2)) as (x & y & Exy); [discriminate|]. rewrite Exy, last_last in L. subst y.
      rewrite Q6, Q5, app_assoc, <- rev_app_distr, Exy, rev_app_distr in Hb. specialize (Hb _ _ eq_refl). discriminate.
    + left. apply Match_Dollar in M4 as [-> D]. apply at_dollar_noLF in D; auto. intros Hi. apply NL. rewrite E. right. apply in_or_app. now right.
  - intros (n & name & rs & Hn & F & -> & R). split; [reflexivity|]. exists n. split; auto.
    destruct (re_match (section_regex n) (PCT :: name ++ rs)) as [m|] eqn:E; auto. rewrite re_match_None in E. exfalso.
    apply ci_letters in F; auto.
    assert (Cut : forall w rs' cs', Match (Alt (Seq (Plus true is_space) (Seq (Star true dot) (Seq (NotBehind (N.eqb BSLASH)) Dollar))) Dollar)
        (mkst (rev name ++ [PCT]) rs []) (mkst (rev w ++ rev name ++ [PCT]) rs' cs') -> rs = w ++ rs' -> False).
    { intros w rs' cs' M Er. apply (E (mkst (rev w ++ rev name ++ [PCT]) rs' ((1%nat, w) :: cs'))).
      unfold section_regex. apply Match_Seq. exists (mkst [] (PCT :: name ++ rs) []). split; [apply Match_Caret; split; reflexivity|].
      apply Match_Seq. exists (mkst [PCT] (name ++ rs) []). split; [unfold chr; apply Match_Ch; exists PCT; repeat split; apply N.eqb_refl|].
      apply Match_Seq. exists (mkst (rev name ++ [PCT]) rs []). split; [apply Match_ci_word; exists name; repeat split; auto|].
      apply Match_Grp. exists w. eexists. split; [exact M|]. repeat split; auto. }
    destruct R as [->|(c & rs' & -> & Sc & Lb)].
    + apply (Cut [] [] []); auto. apply Match_Alt. right. apply Match_Dollar. split; reflexivity.
    + apply (Cut (c :: rs') [] []); [|now rewrite app_nil_r]. apply Match_Alt. left.
      apply Match_Seq. exists (mkst (c :: rev name ++ [PCT]) rs' []). split.
      { apply Match_Plus. exists [c]. repeat split; [discriminate|cbn; now rewrite Sc]. }
      apply Match_Seq. exists (mkst (rev (c :: rs') ++ rev name ++ [PCT]) [] []). split.
      { apply Match_Star. exists rs'. cbn [rest pre caps]. rewrite app_nil_r. repeat split.
        - apply forallb_forall. intros x Hx. unfold dot. apply negb_true_iff, N.eqb_neq. intros ->. apply NL. right. apply in_or_app. right. now right.
        - cbn. now rewrite <- app_assoc. }
      apply Match_Seq. eexists. split; [apply Match_NotBehind; split; [reflexivity|]|apply Match_Dollar; split; reflexivity].
      intros d pr E1. cbn [pre] in E1. destruct (exists_last (l := c :: rs')) as (x & y & Exy); [discriminate|]. rewrite Exy in E1, Lb.
      rewrite rev_app_distr in E1. cbn in E1. injection E1 as <- _. rewrite last_last in Lb. apply N.eqb_neq. congruence.
Qed.

(** Macro definition bodies. *)
Lemma excluded_iff m l a : md_data m = a ++ l -> (forall a' d b, md_data m = a' ++ d :: b -> forall x, In x a' -> ~ same_def x d) ->
  exists rs, excluded_ranges m l = Ok rs /\ forall i, excluded rs i = true <->
    exists b d c k, l = b ++ d :: c /\ (k < length (split_on LF [] (d_body d)))%nat /\
      i = (length (flat_map mdef_raw (a ++ b)) + length (d_preceding d) + k)%nat.
Proof.
  revert a. induction l as [|d l IH]; intros a E D.
  - exists []. split; auto. intros i. split; [discriminate|]. intros (b & d & c & k & E' & _). destruct b; discriminate.
  - cbn [excluded_ranges]. unfold get_position at 1. rewrite E, (find_index_first (fun x => mdef_eqb x d) a d l).
    2: { intros y Hy. destruct (mdef_eqb y d) eqn:Q; auto. apply mdef_eqb_eq in Q. destruct (D a d l E y Hy Q). }
    2: { now apply mdef_eqb_eq. }
    cbn [bind]. destruct (IH (a ++ [d])) as (rs & Er & Hr); [now rewrite <- app_assoc|auto|]. rewrite Er. cbn [bind].
    eexists. split; [reflexivity|]. intros i. cbn [excluded existsb fst snd]. rewrite orb_true_iff. fold (excluded rs i). rewrite Hr.
    rewrite firstn_app, Nat.sub_diag, firstn_all. cbn [firstn]. rewrite app_nil_r, andb_true_iff, Nat.leb_le, Nat.ltb_lt. split.
    + intros [[H1 H2]|(b & d' & c & k & El & Hk & Ei)].
      * exists [], d, l, (i - (length (flat_map mdef_raw a) + length (d_preceding d)))%nat. rewrite app_nil_r. repeat split; auto; lia.
      * exists (d :: b), d', c, k. rewrite <- app_assoc in Ei. subst l. repeat split; auto.
    + intros (b & d' & c & k & El & Hk & Ei). destruct b as [|d0 b]; injection El as -> ->.
      * left. rewrite app_nil_r in Ei. lia.
      * right. exists b, d', c, k. rewrite <- app_assoc. auto.
Qed.
Lemma excluded_body m : distinct m -> exists rs, excluded_ranges m (md_data m) = Ok rs /\ forall i, excluded rs i = true <-> body_line m i.
Proof. intros D. destruct (excluded_iff m (md_data m) [] eq_refl D) as (rs & E & Hr). exists rs. split; auto. Qed.

(** Blocks. *)
Fixpoint blocks_of (hdr : nat -> str -> bool) (i : nat) (lines : list str) : list str * list (str * list str) :=
  match lines with
  | [] => ([], [])
  | l :: ls => let (p, bs) := blocks_of hdr (S i) ls in if hdr i l then ([], (l, p) :: bs) else (l :: p, bs)
  end.
Lemma blocks_lines hdr lines : forall i p bs, blocks_of hdr i lines = (p, bs) -> lines = p ++ block_lines bs.
Proof.
  induction lines as [|l ls IH]; intros i p bs; cbn [blocks_of].
  - intros E; injection E as <- <-. reflexivity.
  - destruct (blocks_of hdr (S i) ls) as [p' bs'] eqn:E. specialize (IH _ _ _ E). subst ls. destruct (hdr i l); intros Q; injection Q as <- <-; reflexivity.
Qed.
Definition header_at (rs : list (nat * nat)) (i : nat) (line : str) : bool := negb (excluded rs i) && is_header line.
Lemma starts_blocks rs lines : forall i p bs, blocks_of (header_at rs) i lines = (p, bs) -> starts_from rs i lines = block_starts (i + length p) bs.
Proof.
  induction lines as [|l ls IH]; intros i p bs; cbn [blocks_of starts_from].
  - intros E; injection E as <- <-. reflexivity.
  - destruct (blocks_of (header_at rs) (S i) ls) as [p' bs'] eqn:E. rewrite (IH _ _ _ E). fold (header_at rs i l).
    destruct (header_at rs i l); intros Q; injection Q as <- <-; cbn [length block_starts snd].
    + rewrite Nat.add_0_r. reflexivity.
    + f_equal. lia.
Qed.
Lemma starts_iff rs lines : forall i0 i, In i (starts_from rs i0 lines) <->
  exists k line, i = (i0 + k)%nat /\ nth_error lines k = Some line /\ header_at rs i line = true.
Proof.
  induction lines as [|l ls IH]; intros i0 i; cbn [starts_from].
  - split; [intros []|]. intros (k & line & _ & E & _). destruct k; discriminate.
  - fold (header_at rs i0 l). assert (K : In i (starts_from rs (S i0) ls) <-> exists k line, i = (i0 + S k)%nat /\ nth_error (l :: ls) (S k) = Some line /\ header_at rs i line = true).
    { rewrite IH. cbn [nth_error]. split; intros (k & line & -> & E); exists k, line; split; auto; lia. }
    destruct (header_at rs i0 l) eqn:Hh; cbn [In]; rewrite K.
    + split.
      * intros [<-|(k & line & E)]; [exists 0%nat, l; rewrite Nat.add_0_r; auto|exists (S k), line; auto].
      * intros ([|k] & line & -> & E & Hl); [left; lia|right; eauto 6].
    + split.
      * intros (k & line & E). exists (S k), line; auto.
      * intros ([|k] & line & -> & E & Hl); [|eauto 6]. cbn in E. injection E as <-. rewrite Nat.add_0_r in Hl. congruence.
Qed.
