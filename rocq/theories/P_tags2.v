(** Proofs about tags: tag lines are recognised, whatever the order of the names; comments. *)
From Coq Require Import Ascii String.
From Coq Require Import NArith ZArith List Bool Lia.
From Verif Require Import PyStr PyStrFacts Regex RegexFacts M_constants M_value P_value P_value2 Spec_sections P_sections M_macro_definitions P_macro_definitions M_conditions M_tags Spec_tags P_tags.
Import ListNotations.
Open Scope N_scope.

Lemma H_Seq_unique a b s s1 m : (forall z, Match a s z -> (exists m', Match b z m') -> z = s1) -> Match a s s1 -> H b s1 m -> H (Seq a b) s m.
Proof.
  intros Un Ma Hb. apply results_Match in Ma. unfold H in *. cbn [results].
  assert (K : forall z, In z (results a s) -> z = s1 \/ results b z = []).
  { intros z Hz. destruct (results b z) as [|m' l] eqn:E; auto. left. apply Un; [now apply results_Match|]. exists m'. apply results_Match. rewrite E. now left. }
  induction (results a s) as [|z l IH]; [destruct Ma|]. cbn [flat_map]. destruct (K z) as [->|E]; [now left| |].
  - now apply hd_app.
  - rewrite E. cbn [app]. destruct Ma as [->|Ma]; [rewrite E in Hb; discriminate|]. apply IH; auto. intros y Hy. apply K. now right.
Qed.

Section Uni.
Context {U : Unicode}.
Definition sep_re : re := Grp 2 (Seq (Star true is_space) (Seq (chr COLON) (Star true is_space))).
Definition val_re : re := Grp 3 (Plus true dot).
Lemma sep_H s1 t c v pr cs : space_text s1 -> space_text t -> (is_space c = true -> v = []) -> forallb dot (c :: v) = true ->
  H (Seq sep_re val_re) (mkst pr ((s1 ++ COLON :: t) ++ c :: v) cs)
    (mkst (rev (c :: v) ++ rev (s1 ++ COLON :: t) ++ pr) [] ((3%nat, c :: v) :: (2%nat, s1 ++ COLON :: t) :: cs)).
Proof.
  intros S1 T Sc Dv.
  assert (Hs1 : forallb is_space s1 = true) by now apply forallb_forall, Forall_forall.
  assert (Ht : forallb is_space t = true) by now apply forallb_forall, Forall_forall.
  assert (Hv : H val_re (mkst (rev (s1 ++ COLON :: t) ++ pr) (c :: v) ((2%nat, s1 ++ COLON :: t) :: cs))
     (mkst (rev (c :: v) ++ rev (s1 ++ COLON :: t) ++ pr) [] ((3%nat, c :: v) :: (2%nat, s1 ++ COLON :: t) :: cs))).
  { unfold val_re.
    pose proof (H_plus dot (rev (s1 ++ COLON :: t) ++ pr) (c :: v) [] ((2%nat, s1 ++ COLON :: t) :: cs)) as Hp. rewrite app_nil_r in Hp.
    refine (H_grp 3 _ _ _ (c :: v) (Hp _ Dv _) eq_refl); [discriminate|]. intros; discriminate. }
  rewrite <- app_assoc. cbn [app].
  destruct (star_greedy_split is_space s1 pr (COLON :: t ++ c :: v) cs Hs1) as (l1 & l2 & E & Hl1).
  assert (l1 = []) as ->.
  { destruct l1 as [|z l1]; auto. exfalso. destruct (Hl1 z (or_introl eq_refl)) as (w2 & rs' & N2 & Ew & F2 & _).
    destruct w2 as [|x w2]; [congruence|]. injection Ew as <- _. cbn in F2. discriminate. }
  cbn [app] in E.
  assert (R : exists k1 k2, results sep_re (mkst pr (s1 ++ COLON :: t ++ c :: v) cs) =
      k1 ++ mkst (rev (s1 ++ COLON :: t) ++ pr) (c :: v) ((2%nat, s1 ++ COLON :: t) :: cs) :: k2 /\
      forall z, In z k1 -> forall m', ~ Match val_re z m').
  { destruct (star_greedy_split is_space t (COLON :: rev s1 ++ pr) (c :: v) cs Ht) as (j1 & j2 & Ej & Hj1).
    unfold sep_re. cbn [results rest pre caps]. rewrite E. cbn [flat_map results rest pre caps chr]. rewrite N.eqb_refl. cbn [flat_map app pre rest caps].
    rewrite app_nil_r, Ej. rewrite <- app_assoc. cbn [app]. rewrite map_app. cbn [map pre rest caps].
    assert (Eq0 : rev t ++ COLON :: rev s1 ++ pr = rev (s1 ++ COLON :: t) ++ pr) by (rewrite rev_app_distr; cbn [rev]; now rewrite <- !app_assoc).
    rewrite (consumed_eq _ _ (s1 ++ COLON :: t)) by (cbn [pre]; exact Eq0). rewrite Eq0.
    eexists. eexists. split; [reflexivity|]. intros z Hz m' M. apply in_map_iff in Hz as (y & <- & Hy). destruct (Hj1 y Hy) as (w2 & rs' & N2 & Ew & F2 & ->).
    destruct w2 as [|x w2]; [congruence|]. cbn [app] in Ew. injection Ew as <- Ew. cbn in F2. apply andb_true_iff in F2 as [F2 _].
    rewrite (Sc F2) in Ew. symmetry in Ew. apply app_eq_nil in Ew as [-> ->].
    unfold val_re in M. apply Match_Grp in M as (w & s' & M & _). apply Match_Plus in M as (w' & N' & Er & _). cbn [rest] in Er. destruct w'; [congruence|discriminate]. }
  destruct R as (k1 & k2 & Ek & Hk). eapply H_Seq_first; eauto.
Qed.
Lemma tag_line_H n line name sep value : In n TAG_NAMES ->
  (exists letters arg, Forall2 same_letter n letters /\ name_argument n arg /\ name = letters ++ arg) ->
  (exists s1 s2, sep = s1 ++ COLON :: s2 /\ space_text s1 /\ space_text s2) ->
  (exists c v, value = c :: v /\ (is_space c = true -> v = [])) -> ~ In LF value -> line = name ++ sep ++ value ->
  re_match (tag_regex n) line = Some (mkst (rev (name ++ sep ++ value)) [] [(3%nat, value); (2%nat, sep); (1%nat, name)]).
Proof.
  intros Hn (letters & arg & F & A & ->) (s1 & t & -> & S1 & T) (c & v & -> & Sc) NL ->.
  assert (Dv : forallb dot (c :: v) = true).
  { apply forallb_forall. intros x Hx. unfold dot. apply negb_true_iff, N.eqb_neq. intros ->. auto. }
  unfold re_match, tag_regex. fold sep_re val_re. change (H (Seq Caret (Seq (Grp 1 (tag_name_regex n)) (Seq sep_re val_re)))
    (mkst [] ((letters ++ arg) ++ (s1 ++ COLON :: t) ++ c :: v) [])
    (mkst (rev ((letters ++ arg) ++ (s1 ++ COLON :: t) ++ c :: v)) [] [(3%nat, c :: v); (2%nat, s1 ++ COLON :: t); (1%nat, letters ++ arg)])).
  eapply H_seq; [reflexivity|].
  apply (H_Seq_unique _ _ _ (mkst (rev (letters ++ arg) ++ []) ((s1 ++ COLON :: t) ++ c :: v) [(1%nat, letters ++ arg)])).
  - intros z M1 (m' & M2).
    assert (M : Match (Seq (Grp 1 (tag_name_regex n)) (Seq sep_re val_re)) (mkst [] ((letters ++ arg) ++ (s1 ++ COLON :: t) ++ c :: v) []) m') by (apply Match_Seq; eauto).
    pose proof (tag_match n _ [] m' Hn M) as (E & K1 & K2 & K3 & _).
    apply Match_Grp in M1 as (w & z' & M1 & R1 & E1 & E2 & P1 & C1). cbn [rest pre] in *.
    apply (name_match n _ _ Hn) in M1 as (l' & a' & _ & _ & _ & _ & Cz). cbn [caps] in Cz. rewrite Cz in C1.
    assert (W : group_str 1 m' = w).
    { apply Match_Seq in M2 as (y & Ma & Mb). apply Match_Grp in Ma as (wa & ya & Ma & _ & _ & _ & _ & Ca).
      apply Match_caps in Ma; [|repeat split; discriminate]. rewrite Ma in Ca.
      apply Match_Grp in Mb as (wb & yb & Mb & _ & _ & _ & _ & Cb). apply Match_Plus in Mb as (? & _ & _ & _ & _ & Mb).
      unfold group_str, group. rewrite Cb, Mb, Ca, C1. reflexivity. }
    rewrite W in *.
    destruct (shape_unique ((letters ++ arg) ++ (s1 ++ COLON :: t) ++ c :: v) n n (letters ++ arg) w (s1 ++ COLON :: t) (group_str 2 m') (c :: v) (group_str 3 m' ++ rest m') Hn Hn) as (_ & Ew & _); eauto 8.
    rewrite <- Ew in *. destruct z as [zp zr zc]. cbn [pre rest caps] in *. f_equal; auto. now apply app_inv_head in R1.
  - apply (L_grp 1 (tag_name_regex n) [] (letters ++ arg) []). now apply name_build.
  - replace (rev ((letters ++ arg) ++ (s1 ++ COLON :: t) ++ c :: v)) with (rev (c :: v) ++ rev (s1 ++ COLON :: t) ++ rev (letters ++ arg) ++ [])
      by (rewrite !(rev_app_distr (letters ++ arg)), !(rev_app_distr (s1 ++ COLON :: t)), app_nil_r, <- !app_assoc; reflexivity).
    now apply sep_H.
Qed.
Lemma spaces_dec r : r <> [] -> exists t c v, r = t ++ c :: v /\ space_text t /\ (is_space c = true -> v = []).
Proof.
  induction r as [|x r IH]; [congruence|]. intros _. destruct (is_space x) eqn:E.
  - destruct r as [|y r].
    + exists [], x, []. repeat split; auto. constructor.
    + destruct IH as (t & c & v & -> & T & S); [discriminate|]. exists (x :: t), c, v. repeat split; auto. now constructor.
  - exists [], x, r. repeat split; auto; [constructor|congruence].
Qed.
Theorem tag_regex_sound n line m : In n TAG_NAMES -> ~ In LF line -> re_match (tag_regex n) line = Some m ->
  tag_line line (group_str 1 m) (group_str 2 m) (group_str 3 m).
Proof.
  intros Hn NL E. pose proof (re_match_sound _ _ _ E) as M. unfold tag_regex in M. apply Match_Seq in M as (s0 & M0 & M). apply Match_Caret in M0 as [-> _].
  pose proof (tag_match n line [] m Hn M) as (El & K1 & (s1 & s2 & Es & S1 & S2) & Nv & _).
  destruct (spaces_dec (s2 ++ group_str 3 m ++ rest m)) as (t & c & v & Er & T & Sc).
  { intros Q. apply app_eq_nil in Q as [_ Q]. now apply app_eq_nil in Q as [Q _]. }
  assert (El2 : line = group_str 1 m ++ (s1 ++ COLON :: t) ++ c :: v).
  { rewrite El, Es. f_equal. rewrite <- !app_assoc. f_equal. cbn [app]. f_equal. exact Er. }
  assert (NLv : ~ In LF (c :: v)) by (intros Q; apply NL; rewrite El2, !in_app_iff; auto).
  assert (Em := tag_line_H n line (group_str 1 m) (s1 ++ COLON :: t) (c :: v) Hn K1).
  rewrite E in Em. specialize (Em (ex_intro _ s1 (ex_intro _ t (conj eq_refl (conj S1 T)))) (ex_intro _ c (ex_intro _ v (conj eq_refl Sc))) NLv El2).
  injection Em as Em. rewrite Em at 2 3. unfold group_str at 2 3. cbn [group caps cap_get Nat.eqb].
  split; [exact El2|]. split; [|split].
  - destruct K1 as (letters & arg & A & B & C). exists n, letters, arg. auto.
  - exists s1, t. auto.
  - exists c, v. auto.
Qed.
Lemma tag_regex_name n n' line m m' : In n TAG_NAMES -> In n' TAG_NAMES ->
  re_match (tag_regex n) line = Some m -> re_match (tag_regex n') line = Some m' -> n = n'.
Proof.
  intros Hn Hn' E E'. apply re_match_sound in E, E'. unfold tag_regex in E, E'.
  apply Match_Seq in E as (s0 & M0 & M). apply Match_Caret in M0 as [-> _]. apply Match_Seq in E' as (s0 & M0 & M'). apply Match_Caret in M0 as [-> _].
  apply (tag_match n line [] m Hn) in M as (E & K1 & K2 & _). apply (tag_match n' line [] m' Hn') in M' as (E' & K1' & K2' & _).
  now destruct (shape_unique line n n' _ _ _ _ _ _ Hn Hn' K1 K1' K2 K2' E E') as (Q & _).
Qed.
Lemma first_match_in names line m : first_match names line = Some m -> exists n, In n names /\ re_match (tag_regex n) line = Some m.
Proof.
  induction names as [|n names IH]; cbn [first_match]; [discriminate|]. destruct (re_match (tag_regex n) line) eqn:E.
  - intros Q; injection Q as <-. exists n. split; auto. now left.
  - intros Q. destruct (IH Q) as (x & Hx & Ex). exists x. split; auto. now right.
Qed.
Lemma first_match_none names line : first_match names line = None <-> forall n, In n names -> re_match (tag_regex n) line = None.
Proof.
  induction names as [|n names IH]; cbn [first_match]; [split; auto; intros _ n []|]. destruct (re_match (tag_regex n) line) eqn:E.
  - split; [discriminate|]. intros K. specialize (K n (or_introl eq_refl)). congruence.
  - rewrite IH. split; [intros K x [<-|Hx]; auto|intros K x Hx; apply K; now right].
Qed.
Theorem first_match_order names names' line : (forall n, In n names <-> In n TAG_NAMES) -> (forall n, In n names' <-> In n TAG_NAMES) ->
  first_match names line = first_match names' line.
Proof.
  intros H1 H2. destruct (first_match names line) as [m|] eqn:E; symmetry.
  - apply first_match_in in E as (n & Hn & E). apply H1 in Hn. destruct (first_match names' line) as [m'|] eqn:E'.
    + apply first_match_in in E' as (n' & Hn' & E'). apply H2 in Hn'. rewrite (tag_regex_name n n' line m m' Hn Hn' E E') in E. congruence.
    + rewrite first_match_none in E'. rewrite (E' n) in E by now apply H2. discriminate.
  - rewrite first_match_none in *. intros n Hn. apply E. now apply H1, H2.
Qed.
(** Recognition. *)
Theorem first_match_tag_line line : ~ In LF line ->
  match first_match TAG_NAMES line with
  | Some m => tag_line line (group_str 1 m) (group_str 2 m) (group_str 3 m)
  | None => forall name sep value, ~ tag_line line name sep value
  end.
Proof.
  intros NL. destruct (first_match TAG_NAMES line) as [m|] eqn:E.
  - apply first_match_in in E as (n & Hn & E). now apply (tag_regex_sound n).
  - rewrite first_match_none in E. intros name sep value (El & (n & letters & arg & Hn & F & A & Q) & B & C).
    specialize (E n Hn). rewrite (tag_line_H n line name sep value) in E; eauto 6; try discriminate.
    intros Q2. apply NL. rewrite El, !in_app_iff. auto.
Qed.
Corollary tag_line_found line name sep value : ~ In LF line -> tag_line line name sep value ->
  exists m, first_match TAG_NAMES line = Some m /\ group_str 1 m = name /\ group_str 2 m = sep /\ group_str 3 m = value.
Proof.
  intros NL T. pose proof (first_match_tag_line line NL) as K. destruct (first_match TAG_NAMES line) as [m|].
  - exists m. split; auto. exact (tag_line_unique _ _ _ _ _ _ _ K T).
  - exfalso. eapply K. eauto.
Qed.
Section Parse.
Context {W : Type} (expand : bool -> W -> str -> result str * W).
Lemma tags_loop_order names names' : (forall n, In n names <-> In n TAG_NAMES) -> (forall n, In n names' <-> In n TAG_NAMES) ->
  forall fuel lines data buffer, tags_loop names fuel lines data buffer = tags_loop names' fuel lines data buffer.
Proof.
  intros H1 H2. induction fuel as [|fuel IH]; intros lines data buffer; cbn [tags_loop]; auto.
  destruct lines as [|[line0 valid] lines]; auto. destruct (split_trailing line0 []) as [line ws].
  destruct (split_conditional_macro_expansion line) as [[[line1 prefix] suffix]|e]; cbn [bind]; auto.
  rewrite (first_match_order names names' line1 H1 H2). destruct (first_match names' line1); auto.
  destruct (if str_eqb suffix [] then _ else _) as [[value ws'] rest]. apply IH.
Qed.
Theorem tags_parse_order names names' w lines : (forall n, In n names <-> In n TAG_NAMES) -> (forall n, In n names' <-> In n TAG_NAMES) ->
  tags_parse expand names w lines = tags_parse expand names' w lines.
Proof.
  intros H1 H2. unfold tags_parse. destruct (process_conditions expand w lines _) as [[tagged|e] w']; auto. f_equal. now apply tags_loop_order.
Qed.
End Parse.
End Uni.
