(** Proofs about operations on a whole spec file: lines of tags and of macro definitions. *)
From Coq Require Import Ascii String.
From Coq Require Import NArith ZArith List Bool Lia.
From Verif Require P_value.
From Verif Require Import PyStr PyStrFacts Regex RegexFacts M_constants M_options M_value M_macro_definitions Spec_macro_definitions P_macro_definitions P_macro_definitions2
  P_macro_definitions3 M_conditions M_sections Spec_sections P_sections P_sections2 P_sections4 M_tags Spec_tags P_tags P_tags2 P_tags3 P_tags4 P_tags5 P_context
  M_release M_update M_specfile Spec_specfile Spec_update Spec_specfile2 P_specfile P_specfile2 P_specfile5 P_specfile6 P_specfile7 P_specfile10.
Import ListNotations.
Open Scope N_scope.

Section Uni.
Context {U : Unicode}.
Definition sane (l : str) : Prop := tidy_line l /\ clean_line l.
Lemma no_trailing l : rstrip l = l -> ~ trailing_ws l.
Proof. intros R (a & c & E & Sc). rewrite (rstrip_end _ R _ _ E) in Sc. discriminate. Qed.
Lemma sane_clean lines : Forall sane lines -> clean lines.
Proof.
  intros S. split; [eapply Forall_impl; [|exact S]; now intros ? []|]. intros (a & l & -> & T). apply Forall_app in S as [_ S]. inversion S as [|? ? ((_ & R & _) & _) _]; subst. now apply (no_trailing l).
Qed.
Lemma sane_tidy lines : Forall sane lines -> Forall tidy_line lines.
Proof. intros S. eapply Forall_impl; [|exact S]. now intros ? []. Qed.
Lemma tag_sane l n s v : tag_line l n s v -> no_break l -> rstrip l = l -> sane l.
Proof.
  intros T B R. assert (NL : ~ In LF l) by now apply no_break_LF.
  assert (Fst : forall c r, l = c :: r -> c <> PCT /\ is_space c = false).
  { intros c r E. apply tag_line_letter in T as (a & c' & r' & E' & La & Sc). rewrite E in E'. injection E' as <- <-. destruct (letter_other a c La Sc), (letter_class a c La Sc); auto. }
  split.
  - split; [exact B|]. split; [exact R|]. split; [apply regular_not_braced; eapply tag_line_not_braced; eauto|]. split.
    + intros H. apply (header_spec l NL) in H. rewrite (tag_line_no_header _ _ _ _ T) in H. discriminate.
    + intros (x & r & E & _). destruct (Fst _ _ E) as (Q & _). now apply Q.
  - split; [exact NL|]. split; [|intros Q; now apply no_trailing in Q]. intros (w & x & k & y & Bw & _ & _ & E). destruct w as [|c w].
    + destruct (Fst _ _ E) as (Q & _). now apply Q.
    + destruct (Fst _ _ E) as (_ & Q). inversion Bw; subst. congruence.
Qed.

(** The beginning of the line of a definition. *)
Definition def_line (l : str) : Prop := exists w r, blank w /\ l = w ++ r /\ (exists r', r = lit "%dnl" ++ r' \/ r = HASH :: r' \/ exists k, keyword k /\ r = PCT :: k ++ r').
Lemma def_start d : ordinary d -> blank (d_prefix d) -> def_line (mdef_str d).
Proof.
  unfold ordinary. destruct d as [n b g co sty [[[w0 w1] w2] w3] pf vl pl]. cbn [d_ws d_prefix]. intros (B0 & _) Bp. unfold mdef_str, d_head, d_ws3. cbn [d_ws d_name d_prefix d_body d_commented_out d_style d_is_global].
  set (k := if g then _ else _). assert (Hk : keyword k) by (subst k; apply kw).
  set (tail := w1 ++ n ++ w2 ++ b ++ w3).
  assert (Bw : blank (w0 ++ pf)) by (apply Forall_app; auto).
  assert (Plain : def_line ((w0 ++ pf) ++ PCT :: k ++ tail)) by (exists (w0 ++ pf), (PCT :: k ++ tail); split; [exact Bw|]; split; [reflexivity|]; exists tail; eauto).
  destruct co; [destruct sty|].
  - exists w0, (lit "%dnl" ++ pf ++ PCT :: k ++ tail). split; [exact B0|]. split; [unfold tail; repeat (rewrite <- ?app_assoc; cbn [app]); reflexivity|]. eexists. left. reflexivity.
  - exists (w0 ++ pf), (HASH :: k ++ tail). split; [exact Bw|]. split; [unfold tail; repeat (rewrite <- ?app_assoc; cbn [app]); reflexivity|]. eexists. right. left. reflexivity.
  - match goal with |- def_line ?x => replace x with ((w0 ++ pf) ++ PCT :: k ++ tail); [exact Plain|unfold tail; repeat (rewrite <- ?app_assoc; cbn [app]); reflexivity] end.
  - match goal with |- def_line ?x => replace x with ((w0 ++ pf) ++ PCT :: k ++ tail); [exact Plain|unfold tail; repeat (rewrite <- ?app_assoc; cbn [app]); reflexivity] end.
Qed.
Lemma def_line_first l c r : def_line l -> l = c :: r -> is_space c = true \/ c = HASH \/ c = PCT /\ exists y, r = lit "dnl" ++ y \/ r = lit "global" ++ y \/ r = lit "define" ++ y.
Proof.
  intros (w & r0 & B & -> & r' & H) E. destruct w as [|x w].
  - cbn [app] in E. right. destruct H as [->|[->|(k & [->| ->] & ->)]]; injection E as <- <-; auto; right; (split; [reflexivity|]); exists r'; auto.
  - injection E as -> _. left. now inversion B.
Qed.
Lemma def_line_no_tag l n s v : def_line l -> ~ tag_line l n s v.
Proof.
  intros D T. apply tag_line_letter in T as (a & c & r & E & La & Sc). destruct (letter_other a c La Sc) as (NP & NH). destruct (letter_class a c La Sc) as (NS & _).
  destruct (def_line_first _ _ _ D E) as [Q|[Q|(Q & _)]]; congruence.
Qed.
Lemma def_line_not_braced l : def_line l -> forall x, l <> PCT :: LBRACE :: x.
Proof.
  intros D x E. destruct (def_line_first _ _ _ D E) as [Q|[Q|(_ & y & [Q|[Q|Q]])]]; discriminate.
Qed.
Lemma same_start wd : forall n letters rest r, Forall (fun c => 97 <= c <= 122) wd -> Forall2 same_letter n letters ->
  letters ++ rest = wd ++ r -> (rest = [] \/ exists c t, rest = c :: t /\ is_space c = true) -> exists n', n = wd ++ n'.
Proof.
  induction wd as [|c wd IH]; intros n letters rest r Fw F2 E Hr; [now exists n|]. inversion Fw as [|? ? Hc Fw']; subst.
  destruct F2 as [|a c' n letters S F2].
  - exfalso. cbn [app] in E. destruct Hr as [->|(x & t & -> & Sx)]; [discriminate|]. injection E as -> _. revert Sx. apply not_true_iff_false.
    unfold is_space. apply not_true_iff_false. rewrite !orb_true_iff, !andb_true_iff, !N.leb_le, !N.eqb_eq. lia.
  - cbn [app] in E. injection E as -> E. destruct (IH n letters rest r Fw' F2 E Hr) as (n' & ->). exists n'. cbn [app]. f_equal.
    unfold same_letter in S. lia.
Qed.
Lemma def_line_no_header l : ~ In LF l -> def_line l -> is_header l = false.
Proof.
  intros NL D. destruct (is_header l) eqn:E; auto. exfalso. apply (header_spec l NL) in E. unfold header_line in E.
  destruct E as (n & letters & rest & Hn & F2 & El & Hr).
  assert (Bd : forallb (fun n => negb (startswith n (lit "dnl")) && negb (startswith n (lit "global")) && negb (startswith n (lit "define"))) SECTION_NAMES = true) by (vm_compute; reflexivity).
  rewrite forallb_forall in Bd. specialize (Bd n Hn). rewrite !andb_true_iff, !negb_true_iff in Bd. destruct Bd as ((B1 & B2) & B3).
  assert (Fw : forall wd, forallb (fun c => (97 <=? c) && (c <=? 122)) wd = true -> Forall (fun c => 97 <= c <= 122) wd).
  { intros wd H. rewrite forallb_forall in H. apply Forall_forall. intros c Hc. apply H in Hc. rewrite andb_true_iff, !N.leb_le in Hc. exact Hc. }
  destruct (def_line_first _ _ _ D El) as [Q|[Q|(_ & y & Q)]]; try discriminate.
  assert (K : forall wd, forallb (fun c => (97 <=? c) && (c <=? 122)) wd = true -> letters ++ rest = wd ++ y -> startswith n wd = true).
  { intros wd H Q'. apply startswith_iff. eapply (same_start wd n letters rest y); eauto. destruct Hr as [Hr|(c & t & Hr & Sc & _)]; eauto. }
  destruct Q as [Q|[Q|Q]]; apply K in Q; try congruence; reflexivity.
Qed.
Lemma file_value_fits v : file_value v -> fits v.
Proof.
  intros (B & (c & r & -> & Sc) & R & Cb & Nb). split; [now apply no_break_LF|]. split; [eauto|]. destruct (exists_last (l := c :: r)) as (b & x & E); [discriminate|]. split.
  - exists b, x. split; [exact E|]. split; [eapply rstrip_end; eauto|]. intros ->. apply Nb. now exists b.
  - unfold body_open. rewrite Cb. cbn [Nat.ltb Nat.leb orb]. destruct (endswith (c :: r) [BSLASH]) eqn:Q; auto. exfalso. apply Nb. apply endswith_iff in Q as (y & Q). now exists y.
Qed.
Lemma file_value_line v : file_value v -> line_value v.
Proof. intros (B & H & R & Cb & _). split; [now apply no_break_LF|]. auto. Qed.
(** The line of a definition with a new body. *)
Lemma in_def_str (d : mdef) c : ordinary d -> let '(w0, w1, w2, w3) := d_ws d in In c (w0 ++ d_prefix d ++ w1 ++ d_name d ++ w2 ++ w3) -> In c (mdef_str d).
Proof.
  intros _. unfold mdef_str, d_head, d_ws3. destruct (d_ws d) as [[[w0 w1] w2] w3]. repeat (rewrite in_app_iff; cbn [In]). tauto.
Qed.
Lemma renewed_str v d : let '(w0, w1, w2, w3) := d_ws d in
  mdef_str (renewed v d) = (w0 ++ d_prefix d) ++ PCT :: (if d_is_global d then lit "global" else lit "define") ++ w1 ++ d_name d ++ w2 ++ v ++ w3.
Proof.
  destruct d as [n b g co sty [[[w0 w1] w2] w3] pf vl pl]. cbn [d_ws]. unfold mdef_str, d_head, d_ws3. cbn. repeat (rewrite <- ?app_assoc; cbn [app]). reflexivity.
Qed.
Lemma renewed_def_line v d : ordinary d -> blank (d_prefix d) -> def_line (mdef_str (renewed v d)).
Proof.
  intros O B. pose proof (renewed_str v d) as E. unfold ordinary in O. destruct (d_ws d) as [[[w0 w1] w2] w3]. rewrite E. destruct O as (B0 & _).
  eexists _, _. split; [|split; [reflexivity|]]; [apply Forall_app; auto|]. eexists. right. right. eexists. split; [apply kw|reflexivity].
Qed.
Lemma renewed_sane v d : ordinary d -> blank (d_prefix d) -> file_value v -> sane (mdef_str d) -> sane (mdef_str (renewed v d)).
Proof.
  intros O B V ((Nb & R & _) & _). pose proof (renewed_def_line v d O B) as D. pose proof (in_def_str d) as I. pose proof (renewed_str v d) as E.
  assert (W3 : d_ws3 d = []).
  { destruct (d_ws3 d) as [|c w3] eqn:Ew; auto. exfalso. destruct (exists_last (l := c :: w3)) as (y & x & Ey); [discriminate|].
    assert (is_space x = true).
    { unfold ordinary in O. unfold d_ws3 in Ew. destruct (d_ws d) as [[[w0 w1] w2] w3']. destruct O as (_ & _ & _ & _ & _ & B3 & _). subst w3'. rewrite Ey in B3. apply Forall_app in B3 as [_ B3]. now inversion B3. }
    assert (Q : is_space x = false); [|congruence]. eapply rstrip_end; [exact R|]. unfold mdef_str. rewrite Ew, Ey, !app_assoc. reflexivity. }
  unfold d_ws3 in W3. pose proof O as O'. unfold ordinary in O'. destruct (d_ws d) as [[[w0 w1] w2] w3]. subst w3. rewrite app_nil_r in E.
  assert (Nb' : no_break (mdef_str (renewed v d))).
  { unfold no_break in *. rewrite Forall_forall in Nb. apply Forall_forall. intros c Hc. rewrite E in Hc. repeat (rewrite in_app_iff in Hc; cbn [In] in Hc).
    assert (K : In c (w0 ++ d_prefix d ++ w1 ++ d_name d ++ w2 ++ []) -> is_linebreak c = false) by (intros Q; apply Nb, (I c O), Q).
    repeat (rewrite in_app_iff in K; cbn [In] in K).
    destruct Hc as [[Hc|Hc]|[Hc|[Hc|[Hc|[Hc|[Hc|Hc]]]]]]; try (apply K; tauto).
    - now subst c.
    - assert (Z : forallb (fun c => negb (is_linebreak c)) (if d_is_global d then lit "global" else lit "define") = true) by (destruct (d_is_global d); vm_compute; reflexivity).
      rewrite forallb_forall in Z. apply Z in Hc. now apply negb_true_iff.
    - destruct V as (V & _). unfold no_break in V. rewrite Forall_forall in V. auto. }
  assert (R' : rstrip (mdef_str (renewed v d)) = mdef_str (renewed v d)).
  { rewrite E. destruct V as (_ & (c & r & -> & _) & Rv & _).
    match goal with |- rstrip (?a ++ PCT :: ?b ++ ?c1 ++ ?d1 ++ ?e ++ ?f) = _ => replace (a ++ PCT :: b ++ c1 ++ d1 ++ e ++ f) with ((a ++ PCT :: b ++ c1 ++ d1 ++ e) ++ f) end.
    - apply rstrip_tail; [discriminate|exact Rv].
    - repeat (rewrite <- ?app_assoc; cbn [app]). reflexivity. }
  assert (NL : ~ In LF (mdef_str (renewed v d))) by now apply no_break_LF.
  split.
  - split; [exact Nb'|]. split; [exact R'|]. split; [apply regular_not_braced; now apply def_line_not_braced|]. split.
    + intros H. apply (header_spec _ NL) in H. rewrite (def_line_no_header _ NL D) in H. discriminate.
    + intros (n & rest & En & Ln & _). rewrite E in En. destruct (w0 ++ d_prefix d) as [|c w] eqn:Ew.
      * cbn [app] in En. injection En as En. destruct n as [|x n]; [discriminate|]. destruct (d_is_global d); injection En as <- _; vm_compute in Ln; discriminate.
      * assert (Bw : blank (c :: w)) by (rewrite <- Ew; apply Forall_app; split; [apply O'|exact B]). injection En as -> _. inversion Bw; subst. discriminate.
  - split; [exact NL|]. split; [|intros Q; now apply no_trailing in Q]. intros (w & x & k & y & Bw & _ & _ & Q). rewrite E in Q.
    assert (S : forall a b (p q : str), blank a -> blank b -> a ++ PCT :: p = b ++ PCT :: q -> p = q).
    { induction a as [|c a IHa]; intros [|c' b] p q Ba Bb Eq; cbn [app] in Eq.
      - now injection Eq.
      - injection Eq as <- _. inversion Bb; subst. discriminate.
      - injection Eq as -> _. inversion Ba; subst. discriminate.
      - injection Eq as _ Eq. inversion Ba; inversion Bb; subst. eapply IHa; eauto. }
    assert (Bp : blank (w0 ++ d_prefix d)) by (apply Forall_app; split; [apply O'|exact B]).
    change (lit "%dnl" ++ x ++ lit "%%" ++ k ++ y) with (PCT :: lit "dnl" ++ x ++ lit "%%" ++ k ++ y) in Q. apply (S _ _ _ _ Bp Bw) in Q. destruct (d_is_global d); discriminate.
Qed.

(** The tag on a line, if there is one: what is around it, its name, separator and value. *)
Definition core : Type := str * str * str * str * str.
Definition tcore (t : tag) : core := (t_prefix t, t_name t, t_separator t, t_value t, t_suffix t).
Definition line_tag (l : str) : list core :=
  match split_conditional_macro_expansion l with
  | Ok (b, p, s) => match first_match TAG_NAMES b with Some m => [(p, group_str 1 m, group_str 2 m, group_str 3 m, s)] | None => [] end
  | Err _ => []
  end.
Lemma line_tag_tag l n s v : plain l -> tag_line l n s v -> line_tag l = [([], n, s, v, [])] \/ line_tag l = [].
Proof.
  intros (NL & _) T. unfold line_tag. destruct (split_conditional_macro_expansion l) as [[[b p] x]|] eqn:E; auto.
  apply (split_not_braced _ _ (tag_line_not_braced _ _ _ _ T)) in E. injection E as -> -> ->.
  pose proof (first_match_tag_line l NL) as K. destruct (first_match TAG_NAMES l) as [m|]; [|exfalso; eapply K; eauto].
  destruct (tag_line_unique _ _ _ _ _ _ _ K T) as (-> & -> & ->). now left.
Qed.
Lemma line_tag_def l : ~ In LF l -> def_line l -> line_tag l = [].
Proof.
  intros NL D. unfold line_tag. destruct (split_conditional_macro_expansion l) as [[[b p] x]|] eqn:E; auto.
  apply (split_not_braced _ _ (def_line_not_braced _ D)) in E. injection E as -> -> ->.
  pose proof (first_match_tag_line l NL) as K. destruct (first_match TAG_NAMES l) as [m|]; auto. now apply (def_line_no_tag l) in K.
Qed.
End Uni.
