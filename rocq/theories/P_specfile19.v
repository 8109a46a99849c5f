(** Proofs about operations on a whole spec file: a new tag, and renumbered ones. *)
From Coq Require Import Ascii String.
From Coq Require Import NArith ZArith List Bool Lia.
From Verif Require P_value.
From Verif Require Import PyStr PyStrFacts Regex RegexFacts M_constants M_options M_value M_macro_definitions Spec_macro_definitions P_macro_definitions P_macro_definitions2
  P_macro_definitions3 M_conditions M_sections Spec_sections P_sections P_sections2 P_sections4 M_tags Spec_tags P_tags P_tags2 P_tags3 P_tags4 P_tags5 P_context
  M_sourcelist M_sources Spec_sources
  M_release M_update M_specfile Spec_specfile Spec_update Spec_specfile2 Spec_specfile3 P_specfile P_specfile2 P_specfile5 P_specfile6 P_specfile7 P_specfile10 P_specfile11 P_specfile12 P_specfile13 P_specfile18.
Import ListNotations.
Open Scope N_scope.
Open Scope nat_scope.

Section Uni.
Context {U : Unicode}.
Notation readable := P_specfile12.readable.
(** Tags that are read back as they are written. *)
Definition quiet (t : tag) : Prop :=
  Forall no_tag (comments_raw (t_comments t)) /\ ~ In LF (tag_text t) /\ rstrip (tag_text t) = tag_text t /\
  (line_tag (tag_text t) = [tcore t] \/ (tag_line (tag_text t) (t_name t) (t_separator t) (t_value t) /\ t_prefix t = [] /\ t_suffix t = [])).
Lemma settled_quiet t : settled t -> quiet t.
Proof. intros (A & B & (C & D) & _). repeat split; auto. Qed.
Lemma quiet_line t : quiet t -> readable (tag_text t) -> line_tag (tag_text t) = [tcore t].
Proof.
  intros (_ & N & R & [H|(T & Pr & Su)]) (r & Rd); auto. destruct (line_tag_tag _ _ _ _ (conj N R) T) as [Q|Q].
  - rewrite Q. unfold tcore. now rewrite Pr, Su.
  - exfalso. unfold line_tag in Q. pose proof (split_not_braced _ _ (tag_line_not_braced _ _ _ _ T) Rd) as ->. rewrite Rd in Q.
    pose proof (first_match_tag_line _ N) as K. destruct (first_match TAG_NAMES _); [discriminate|]. eapply K; eauto.
Qed.
Lemma quiet_cores data rem : Forall quiet data -> Forall no_tag rem -> Forall readable (flat_map tag_raw data ++ rem) -> flat_map line_tag (flat_map tag_raw data ++ rem) = map tcore data.
Proof.
  intros Q N. induction Q as [|t data Ht _ IH]; cbn [flat_map map app]; [intros _; now apply flat_no_tag|]. intros R.
  rewrite <- app_assoc in R |- *. apply Forall_app in R as (R0 & R). rewrite flat_map_app, IH by auto. change (tcore t :: map tcore data) with ([tcore t] ++ map tcore data). f_equal.
  unfold tag_raw in *. pose proof Ht as (A & B & _). rewrite (split_on_none _ B) in *. apply Forall_app in R0 as (_ & R0). inversion R0; subst.
  rewrite flat_map_app, (flat_no_tag _ A). cbn. rewrite (quiet_line t); auto.
Qed.
Lemma quiet_closed data rem : Forall quiet data -> Forall simple_tag data -> Forall no_tag rem -> Forall closed_line (flat_map tag_raw data ++ rem).
Proof.
  assert (Z : forall l, Forall no_tag l -> Forall closed_line l) by (intros l H; eapply Forall_impl; [|exact H]; intros x Hx; unfold closed_line; rewrite Hx; constructor).
  intros Q S N. apply Forall_app. split; [|now apply Z]. induction Q as [|t data (A & B & R & H) _ IH]; [constructor|]. inversion S as [|? ? S0 S']; subst. cbn [flat_map]. apply Forall_app. split; auto.
  unfold tag_raw. rewrite (split_on_none _ B). apply Forall_app. split; [now apply Z|]. constructor; [|constructor]. unfold closed_line. destruct H as [->|(T & Pr & Su)].
  - constructor; [|constructor]. apply S0.
  - destruct (line_tag_tag _ _ _ _ (conj B R) T) as [-> | ->]; repeat constructor. apply S0.
Qed.

Section World.
Context {W : Type} (expand : list str -> bool -> W -> str -> result str * W).
Lemma opens_front lines w ts w1 rest : Forall sane lines -> opens expand lines w ts w1 rest -> exists bs, front lines (tags_raw ts) bs /\ rest = block_lines bs.
Proof.
  intros S O. destruct (opens_facts expand _ _ _ _ _ S O) as (rs & bs & Er & Eb & El & _). exists bs. split; [exists rs; auto|].
  pose proof (blocks_lines _ _ _ _ _ Eb) as Q. rewrite El in Q. now apply app_inv_head in Q.
Qed.
Lemma front_read lines p bs w ts w1 rest : good_file lines -> front lines p bs -> opens expand lines w ts w1 rest -> Forall closed_line p ->
  tags_raw ts = p /\ rest = block_lines bs /\ Forall simple_tag (ts_data ts) /\ Forall readable p /\ map tcore (ts_data ts) = flat_map line_tag p.
Proof.
  intros (S & _) (rs & Er & Eb) O C. destruct (opens_facts expand _ _ _ _ _ S O) as (rs' & bs' & Er' & Eb' & El & _). rewrite Er in Er'. injection Er' as <-. rewrite Eb in Eb'. injection Eb' as -> ->.
  split; auto. split; [pose proof (blocks_lines _ _ _ _ _ Eb) as Q; rewrite El in Q; now apply app_inv_head in Q|].
  destruct (opens_simple expand _ _ _ _ _ S O (or_intror C)) as (A & _ & _ & R & E). auto.
Qed.
(** What the tags of a file have in common. *)
Lemma front_settled lines w ts w1 rest : good_file lines -> opens expand lines w ts w1 rest -> Forall simple_tag (ts_data ts) -> 
  Forall settled (ts_data ts) /\ Forall no_tag (ts_remainder ts) /\ Forall sane (tags_raw ts) /\ Forall (fun t => sane (tag_text t)) (ts_data ts).
Proof.
  intros (S & _) O Sm. destruct (opens_simple expand _ _ _ _ _ S O (or_introl Sm)) as (_ & Se & Nr & _). destruct (opens_facts expand _ _ _ _ _ S O) as (_ & _ & _ & _ & Eo & _).
  assert (Se' : Forall settled (ts_data ts)) by (apply Forall_forall; intros t Ht; rewrite Forall_forall in Se; apply (Se (unflagged t)), in_map, Ht).
  assert (Sf : Forall sane (tags_raw ts)) by (rewrite Eo in S; now apply Forall_app in S). repeat split; auto.
  apply Forall_forall. intros t Ht. rewrite Forall_forall in Sf, Se'. apply Sf. unfold tags_raw. apply in_or_app. left. apply in_flat_map. exists t. split; auto. unfold tag_raw. apply in_or_app. right.
  destruct (Se' t Ht) as (_ & _ & (N & _) & _). rewrite (split_on_none _ N). now left.
Qed.

(** Source tags that are written on one line, with the colon right after the name. *)
Lemma all_repeat (P : char -> Prop) n : P SPC -> Forall P (repeat SPC n).
Proof. intros H. apply Forall_forall. intros x Hx. now apply repeat_spec in Hx as ->. Qed.
Lemma aligned_colon r new : colon_sep r -> space_text (tl (t_separator r)) -> no_break (t_separator r) -> aligned r new -> colon_sep new /\ space_text (tl (t_separator new)) /\ no_break (t_separator new).
Proof.
  intros (x & E) S N H. rewrite E in *. cbn [tl] in S. inversion N as [|? ? N0 N']; subst. unfold colon_sep. destruct H as [(_ & n & H)|[(_ & Ne & cut & H)|(_ & H)]].
  - rewrite H, E. cbn [app tl]. split; [eauto|]. split; [apply Forall_app; split; [exact S|now apply all_repeat]|]. constructor; [exact N0|]. apply Forall_app. split; [exact N'|now apply all_repeat].
  - rewrite E in H. destruct (t_separator new) as [|c y] eqn:En; [congruence|]. cbn [app] in H. injection H as <- H. rewrite H in S, N'. cbn [tl]. split; [eauto|]. apply Forall_app in S as (S & _). apply Forall_app in N' as (N1 & _). split; [exact S|]. constructor; [exact N0|exact N1].
  - rewrite H. cbn [tl]. split; [eauto|]. split; [constructor|repeat constructor].
Qed.
Lemma digit_break c : is_digit c = true -> is_linebreak c = false.
Proof. intros D. apply is_digit_not_space in D. destruct (is_linebreak c) eqn:L; auto. exfalso. revert D. apply not_false_iff_true. revert L. unfold is_linebreak, is_space. rewrite !orb_true_iff, !andb_true_iff, !N.leb_le, !N.eqb_eq. lia. Qed.
Lemma prefix_line (s : sources) ds sep v l t : l = tag_text t -> t_name t = s_prefix s ++ ds -> t_separator t = sep -> t_value t = v -> t_prefix t = [] -> t_suffix t = [] ->
  Forall (fun c => is_digit c = true) ds -> colon_sep t -> space_text (tl sep) -> no_break sep -> no_break v -> rstrip v = v -> (exists c r, v = c :: r /\ is_space c = false) ->
  tag_line l (t_name t) sep v /\ sane l.
Proof.
  intros -> En Es Ev Pr Su D (x & C) Sp Ns Nv R (c & r & E0 & Hc).
  assert (El : tag_text t = t_name t ++ sep ++ v) by (unfold tag_text; rewrite Pr, Su, Es, Ev; cbn [app]; now rewrite app_nil_r).
  assert (T : tag_line (tag_text t) (t_name t) sep v).
  { split; [exact El|]. split; [|split].
    - exists (source_word s), (s_prefix s), ds. unfold source_word, s_prefix in *. destruct (s_patches s); (split; [vm_compute; tauto|]); (split; [repeat (constructor; [unfold same_letter; cbn; lia|]); constructor|]); split; auto; right; right; auto.
    - exists [], x. rewrite <- Es, C. rewrite <- Es, C in Sp. repeat split; auto. constructor.
    - exists c, r. split; auto. congruence. }
  split; [exact T|]. apply (tag_sane _ _ _ _ T).
  - rewrite El, En. unfold no_break in *. repeat (apply Forall_app; split; auto).
    + unfold s_prefix. destruct (s_patches s); repeat constructor.
    + eapply Forall_impl; [|exact D]. intros; now apply digit_break.
  - rewrite El, app_assoc. apply rstrip_tail; auto. rewrite E0. discriminate.
Qed.
Lemma source_neat s t ds : neat t -> source_name (source_word s) (t_name t) ds -> one_line t /\ colon_sep t.
Proof.
  intros N H. apply N. unfold source_word in H. destruct (s_patches s); [right; eauto|left]. destruct H as (l & E & F & _). exists l, ds. auto.
Qed.
Lemma rstrip_part x v : rstrip (x ++ v) = x ++ v -> rstrip v = v.
Proof.
  intros R. destruct v as [|c v]; [reflexivity|]. destruct (exists_last (l := c :: v)) as (y & z & E); [discriminate|]. rewrite E in *. rewrite <- (app_nil_r (y ++ [z])) at 1. apply rstrip_app; [reflexivity|].
  intros a c' Q. eapply rstrip_end; [exact R|]. rewrite Q, app_assoc. reflexivity.
Qed.
Lemma renumbered_tag s t t' : settled t -> simple_tag t -> sane (tag_text t) -> neat t -> renumbered s t t' ->
  quiet t' /\ simple_tag t' /\ Forall2 (fun l l' => redo l l' /\ renumbered_line s l l') (tag_raw t) (tag_raw t').
Proof.
  intros Se Sm Sn Ne H. assert (Rf : forall ls, Forall2 (fun l l' => redo l l' /\ renumbered_line s l l') ls ls) by (intros ls; induction ls; constructor; auto; split; now left).
  destruct H as [->|(ds & ds' & sep & Hn & Nd & Nd' & Dg & -> & Al)]; [split; [now apply settled_quiet|auto]|].
  destruct (source_neat s t ds Ne Hn) as (O & C). destruct (settled_line t Se O) as (E & T). destruct O as (Pr & Su & Nv). destruct Sn as ((Nb & R & _) & _).
  rewrite E in Nb, R. unfold no_break in Nb. apply Forall_app in Nb as (_ & Nb). apply Forall_app in Nb as (Ns & Nv').
  assert (St : space_text (tl (t_separator t))).
  { destruct T as (_ & _ & (s1 & s2 & Q & S1 & S2) & _). destruct C as (x & C). rewrite C in *. cbn [tl]. destruct s1 as [|c s1]; [injection Q as ->; exact S2|]. injection Q as <- Q. apply Forall_inv in S1. vm_compute in S1. discriminate. }
  match goal with |- quiet ?x /\ _ => set (t' := x) in * end.
  destruct (aligned_colon t t' C St Ns Al) as (C' & St' & Ns'). 
  assert (Rv : rstrip (t_value t) = t_value t) by (rewrite app_assoc in R; eapply rstrip_part; eauto).
  destruct T as (T0 & T1 & T2 & c & v & Ev & Hc).
  assert (Sc : is_space c = false).
  { destruct (is_space c) eqn:Q; auto. specialize (Hc eq_refl). subst v. rewrite Ev in Rv. pose proof (rstrip_end _ Rv [] c eq_refl). congruence. }
  destruct (prefix_line s ds' sep (t_value t) (tag_text t') t') as (T' & Sn'); auto.
  { exists c, v. auto. }
  split; [|split].
  - split; [apply Se|]. destruct Sn' as ((B' & R' & _) & _). split; [now apply no_break_LF|]. split; [exact R'|]. right. split; [exact T'|]. split; [exact Pr|exact Su].
  - split; [exact Nv|apply Sm].
  - unfold tag_raw. change (t_comments t') with (t_comments t). apply Forall2_app; [apply Rf|]. rewrite !split_on_none; [|apply no_break_LF, Sn'|apply Se]. constructor; [|constructor]. split.
    + right. exists (t_name t), (t_separator t), (t_value t), (t_name t'), sep, (t_value t). split; auto. split; [exact E|]. split; auto. split; auto. exists c, v. auto.
    + right. exists (t_name t), ds, (t_separator t), ds', sep, (t_value t). repeat split; auto. destruct T' as (-> & _). reflexivity.
Qed.
Lemma renumbered_tags s b b' : Forall settled b -> Forall simple_tag b -> Forall (fun t => sane (tag_text t)) b -> Forall neat b -> Forall2 (renumbered s) b b' ->
  Forall quiet b' /\ Forall simple_tag b' /\ Forall2 (fun l l' => redo l l' /\ renumbered_line s l l') (flat_map tag_raw b) (flat_map tag_raw b').
Proof.
  intros A B C D H. revert A B C D. induction H as [|t t' b b' H _ IH]; intros A B C D; [cbn; auto|]. inversion A; inversion B; inversion C; inversion D; subst.
  destruct (renumbered_tag s t t') as (I1 & I2 & I3); auto. destruct IH as (J1 & J2 & J3); auto. cbn [flat_map]. repeat split; auto. apply Forall2_app; auto.
Qed.
Lemma given_tags b rem moved b1 rem1 : gives_lines b rem moved b1 rem1 -> Forall settled b -> Forall simple_tag b -> Forall (fun t => sane (tag_text t)) b -> Forall neat b -> Forall no_tag rem ->
  flat_map tag_raw b ++ rem = moved ++ flat_map tag_raw b1 ++ rem1 /\ Forall settled b1 /\ Forall simple_tag b1 /\ Forall (fun t => sane (tag_text t)) b1 /\ Forall neat b1 /\ Forall no_tag rem1 /\ Forall no_tag moved.
Proof.
  intros G A B C D N. destruct b as [|u b]; cbn [gives_lines] in G.
  - destruct G as (-> & -> & _). apply Forall_app in N as (N1 & N2). cbn. repeat split; auto.
  - destruct G as (-> & kept & E & _ & ->). inversion A as [|? ? (A0 & A1) A']; inversion B; inversion C; inversion D; subst.
    unfold comments_raw in A0. unfold t_preceding in E. rewrite E in A0. apply Forall_app in A0 as (A0 & A2). apply Forall_app in A0 as (A0 & A3).
    split; [|split; [|repeat split; auto]].
    + cbn [flat_map]. unfold tag_raw at 1 3. unfold comments_raw at 1. rewrite E. unfold with_preceding. cbn [t_comments]. unfold comments_raw. cbn [cs_preceding cs_data]. rewrite <- !app_assoc. reflexivity.
    + constructor; auto. split; [|exact A1]. unfold with_preceding, comments_raw. cbn [t_comments cs_preceding cs_data]. apply Forall_app. auto.
Qed.
Theorem add_step s a b loc new s' lines w w1 rest : good_file lines -> opens expand lines w (s_tags s) w1 rest -> Forall simple_tag (ts_data (s_tags s)) -> Forall neat (ts_data (s_tags s)) ->
  tag_added s a b loc new s' -> file_value loc -> (exists ds, t_name new = s_prefix s ++ ds /\ Forall (fun c => is_digit c = true) ds) ->
  colon_sep new -> space_text (tl (t_separator new)) -> no_break (t_separator new) ->
  let x := flat_map tag_raw a ++ t_preceding new in let lines' := tags_raw (s_tags s') ++ rest in
  exists y y', tags_raw (s_tags s) = x ++ y /\ tags_raw (s_tags s') = x ++ (t_name new ++ t_separator new ++ loc) :: y' /\ Forall2 (renumbered_line s) y y' /\
    (between_definitions lines (length x) -> good_file lines' /\ Forall2 shifted (md_data (parse_plain lines)) (md_data (parse_plain lines')) /\
      (exists bs, front lines (tags_raw (s_tags s)) bs /\ front lines' (tags_raw (s_tags s')) bs) /\
      forall w' ts' w1' rest', opens expand lines' w' ts' w1' rest' -> tags_raw ts' = tags_raw (s_tags s') /\ rest' = rest /\ Forall simple_tag (ts_data ts') /\ map tcore (ts_data ts') = map tcore (ts_data (s_tags s'))).
Proof.
  intros G O Sm Ne (Ed & El & (Ev & Ec & Pr & Su) & b1 & b' & Gv & Rn & Ed') V (ds & En & Dg) C Sp Nb. cbn zeta.
  destruct (front_settled lines w (s_tags s) w1 rest G O Sm) as (Se & Nr & Sf & Sx). destruct (opens_front lines w (s_tags s) w1 rest (proj1 G) O) as (bs & Fr & ->).
  rewrite Ed in Se, Sm, Ne, Sx. apply Forall_app in Se as (Sea & Seb). apply Forall_app in Sm as (Sma & Smb). apply Forall_app in Ne as (Nea & Neb). apply Forall_app in Sx as (Sxa & Sxb).
  destruct (given_tags _ _ _ _ _ Gv Seb Smb Sxb Neb Nr) as (Eg & Se1 & Sm1 & Sx1 & Ne1 & Nr1 & Nm). destruct (renumbered_tags s b1 b' Se1 Sm1 Sx1 Ne1 Rn) as (Qb & Sb & Rl).
  destruct (prefix_line s ds (t_separator new) loc (tag_text new) new) as (Tn & Sn); auto; try apply V.
  assert (Et : tag_text new = t_name new ++ t_separator new ++ loc) by apply Tn.
  assert (Raw : tag_raw new = t_preceding new ++ [tag_text new]).
  { unfold tag_raw, comments_raw. rewrite Ec. cbn [map]. rewrite app_nil_r, split_on_none by apply no_break_LF, Sn. reflexivity. }
  set (x := flat_map tag_raw a ++ t_preceding new). set (y := flat_map tag_raw b1 ++ ts_remainder (s_tags s')). set (y' := flat_map tag_raw b' ++ ts_remainder (s_tags s')).
  assert (E1 : tags_raw (s_tags s) = x ++ y). { unfold tags_raw, x, y. rewrite Ed, flat_map_app, <- !app_assoc, Eg. reflexivity. }
  assert (E2 : tags_raw (s_tags s') = x ++ tag_text new :: y'). { unfold tags_raw, x, y'. rewrite Ed', flat_map_app. cbn [flat_map]. rewrite Raw, <- !app_assoc. reflexivity. }
  assert (Rf : forall ls, Forall2 (fun l l' => redo l l' /\ renumbered_line s l l') ls ls) by (intros ls; induction ls; constructor; auto; split; now left).
  assert (R : Forall2 (fun l l' => redo l l' /\ renumbered_line s l l') y y') by (apply Forall2_app; auto).
  exists y, y'. split; [exact E1|]. split; [now rewrite E2, Et|]. split; [clear - R; induction R as [|? ? ? ? (_ & H) _ IH]; constructor; auto|]. intros Bt.
  assert (Fr0 := Fr). rewrite E1 in Fr. assert (R' : Forall2 redo (x ++ y) (x ++ y')) by (apply Forall2_app; [apply redo_refl|]; clear - R; induction R as [|? ? ? ? (H & _) _ IH]; constructor; auto).
  destruct (redo_front lines (x ++ y) (x ++ y') bs G Fr R') as (G1 & Fr1 & Sh1 & Bt1).
  destruct (insert_front _ x y' bs (tag_text new) _ _ _ G1 Fr1 Tn Sn (Bt1 _ Bt)) as (G2 & Fr2 & Sh2). rewrite E2.
  split; [exact G2|]. split.
  { clear - Sh1 Sh2. revert Sh2. generalize (md_data (parse_plain ((x ++ tag_text new :: y') ++ block_lines bs))). induction Sh1 as [|d d1 l1 l2 H _ IH]; intros l3 H3; inversion H3 as [|? d2 ? l4 H4 H5]; subst; constructor; auto.
    unfold shifted in *. rewrite H4 at 1. rewrite H at 1. reflexivity. }
  split; [exists bs; split; [exact Fr0|exact Fr2]|].
  intros w' ts' w1' rest' O'.
  assert (Qn : quiet new).
  { split; [unfold comments_raw; rewrite Ec; cbn [map]; now rewrite app_nil_r|]. destruct Sn as ((B' & R0 & _) & _). split; [now apply no_break_LF|]. split; auto. right. rewrite Ev. auto. }
  assert (Q : Forall quiet (a ++ new :: b')). { apply Forall_app. split; [eapply Forall_impl; [|exact Sea]; intros; now apply settled_quiet|constructor; auto]. }
  assert (S' : Forall simple_tag (a ++ new :: b')). { apply Forall_app. split; auto. constructor; auto. split; rewrite Ev; [apply no_break_LF, V|apply V]. }
  assert (Ex : x ++ tag_text new :: y' = flat_map tag_raw (a ++ new :: b') ++ ts_remainder (s_tags s')). { rewrite <- E2. unfold tags_raw. now rewrite Ed'. }
  destruct (front_read _ _ _ _ _ _ _ G2 Fr2 O') as (I1 & I2 & I3 & I4 & I5).
  { rewrite Ex. now apply quiet_closed. }
  split; [now rewrite I1|]. split; [exact I2|]. split; [exact I3|]. rewrite I5, Ed', Ex. apply quiet_cores; auto. now rewrite <- Ex.
Qed.
End World.
End Uni.
