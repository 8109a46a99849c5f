(** Proofs about operations on a whole spec file: sources that are changed; reading sources. *)
From Coq Require Import Ascii String.
From Coq Require Import NArith ZArith List Bool Lia Sorting.Sorted.
From Verif Require P_value.
From Verif Require Import PyStr PyStrFacts Regex RegexFacts M_constants M_options M_value M_macro_definitions Spec_macro_definitions P_macro_definitions P_macro_definitions2
  P_macro_definitions3 M_conditions P_conditions2 M_sections Spec_sections P_sections P_sections2 P_sections4 M_tags Spec_tags P_tags P_tags2 P_tags3 P_tags4 P_tags5 P_context
  M_sourcelist P_sourcelist M_sources Spec_sources P_sources P_sources2 P_sources3 P_sources4 P_sources5 P_sources6 P_sources7 P_sources8 P_sources9
  M_release M_update M_specfile M_specfile2 Spec_specfile Spec_update Spec_specfile2 Spec_specfile3 P_specfile P_specfile2 P_specfile5 P_specfile6 P_specfile7 P_specfile10 P_specfile11 P_specfile12 P_specfile13 P_specfile18 P_specfile19 P_specfile20 P_specfile21.
Import ListNotations.
Open Scope N_scope.
Open Scope nat_scope.

Section Uni.
Context {U : Unicode}.
Notation readable := Spec_sources.readable.
Section World.
Context {W : Type} (expand : list str -> bool -> W -> str -> result str * W).
Lemma app_split_len {A} (a a' b b' : list A) : length a = length a' -> a ++ b = a' ++ b' -> a = a' /\ b = b'.
Proof. revert a'. induction a as [|x a IH]; intros [|x' a'] L E; try discriminate; auto. cbn [app] in E. injection E as -> E. destruct (IH a') as (-> & ->); auto. Qed.
Lemma redone_redo p p' : Forall2 redone p p' -> Forall2 redo p p'.
Proof. intros H. induction H as [|l l' p p' H _ IH]; constructor; auto. destruct H as [H|(n & s & v & v' & T & T' & Sn & _)]; [now left|right]. eauto 10. Qed.
Theorem set_location_file pt dups imp dg lines w w1 s k j loc lines' w2 : regular_file lines -> plain_lists pt lines ->
  read_sources expand pt dups imp dg lines w = (lines, w1, Ok s) -> Forall simple_tag (ts_data (s_tags s)) -> Forall neat (ts_data (s_tags s)) -> caseless_digits ->
  file_value loc -> (exists n, nth_error (get_items s) k = Some (mk_item n (InTags j))) -> edit_sources expand pt dups imp dg (fun s => set_location s (Z.of_nat k) loc) lines w = (lines', w2, Ok tt) ->
  exists x y name ds sep v, source_name (source_word s) name ds /\ lines = x ++ (name ++ sep ++ v) :: y /\ lines' = x ++ (name ++ sep ++ loc) :: y /\ nth_error (locations s) k = Some v /\
  regular_file lines' /\ same_macros (parse_plain lines) (parse_plain lines') /\
  forall w' l2 w2' s2, read_sources expand pt dups imp dg lines' w' = (l2, w2', Ok s2) -> l2 = lines' /\ same_other_tags s s2 /\
    locations s2 = update_at k (fun _ => loc) (locations s) /\ numbers s2 = numbers s.
Proof.
  intros Rg Pl Rs Sm Ne Cd V (num & Hx) Ed. pose proof (proj1 (regular_good lines) Rg) as G. destruct (read_opens _ _ _ _ _ _ _ _ _ (proj1 Rg) Rs Cd) as (_ & Rd & _).
  destruct (edit_Ok _ _ _ _ _ _ _ _ _ _ _ _ (proj1 Rg) Rs Cd Ed) as (s' & F & ->).
  assert (Lk : k < length (locations s)) by (unfold locations; rewrite map_length; apply nth_error_Some; congruence).
  destruct (set_location_semantics s k loc Rd Lk) as (s0 & F0 & Lo & Nu & Ko). rewrite F in F0. injection F0 as <-.
  pose proof (set_location_keeps s k loc s' _ Rd F Hx) as (Kl & Kr & a & t & b & La & Da & Db).
  assert (Sn : exists ds, source_name (source_word s) (t_name t) ds).
  { destruct (items_nth s _ _ Hx) as [(a0 & t0 & b0 & kd & E & K & _ & Q)|(l1 & sl & l2 & i & _ & _ & Q & _)]; [|discriminate]. injection Q as _ Q.
    rewrite Da in E. destruct (app_split_len a a0 (t :: b) (t0 :: b0)) as (_ & E'); [lia|exact E|]. injection E' as -> _.
    destruct (kind_source (s_patches s) (t_name t0) kd Cd) as (ds & Hs & _); [|exact K|now exists ds]. destruct Rd as (_ & Rd). rewrite Forall_forall in Rd. apply Rd. rewrite Da. apply in_map. rewrite in_app_iff. cbn. auto. }
  destruct Sn as (ds & Sn).
  assert (Ol : one_line t). { rewrite Forall_forall in Ne. apply (Ne t); [rewrite Da, in_app_iff; cbn; auto|eapply word_like; eauto]. }
  destruct (view_sopens_inv expand _ _ _ _ _ _ _ _ _ _ _ Rs) as (p & ss & ts & ls & w1' & So). unfold read_sources in Rs. rewrite (view_sopens _ _ _ _ _ _ _ _ _ _ _ _ _ _ So) in Rs. injection Rs as Rl -> Es.
  unfold edit_sources in Ed. rewrite (view_sopens _ _ _ _ _ _ _ _ _ _ _ _ _ _ So), Es, F in Ed. injection Ed as Vl.
  assert (Ts : ts = s_tags s) by now subst s. assert (Ls : ls = s_lists s) by now subst s. assert (Pt : s_patches s = pt) by now subst s. clear Rl.
  destruct (sopens_write expand _ _ _ _ _ _ _ _ (proj1 Rg) So) as (Wr & El). rewrite Kl, <- Ls, Wr in Vl.
  destruct (sopens_opens expand _ _ _ _ _ _ _ _ So) as (wa & O). rewrite Ts in O, El.
  destruct (front_settled expand _ _ _ _ _ G O Sm) as (Se & Nr & Sa & Sx).
  assert (Te : Forall2 tedit (ts_data (s_tags s)) (ts_data (s_tags s'))).
  { rewrite Da, Db. assert (Rf : forall l, Forall2 tedit l l) by (intros l; induction l; constructor; auto; now left). apply Forall2_app; [apply Rf|]. constructor; [|apply Rf]. right. exists loc. auto. }
  assert (Er : tags_raw (s_tags s') = tags_raw (mk_tags (ts_data (s_tags s')) (ts_remainder (s_tags s)))) by (unfold tags_raw; cbn [ts_data ts_remainder]; now rewrite Kr).
  assert (El' : lines' = tags_raw (mk_tags (ts_data (s_tags s')) (ts_remainder (s_tags s))) ++ sections_raw ss) by now rewrite <- Er, Vl.
  destruct (tag_step expand _ _ _ _ _ _ _ G O Sm Te El') as (G' & _ & Re).
  destruct (opens_front expand _ _ _ _ _ (proj1 G) O) as (bs & Fr & Eb).
  assert (Rr : Forall2 redo (tags_raw (s_tags s)) (tags_raw (s_tags s'))).
  { apply redone_redo. unfold tags_raw. rewrite Kr. apply Forall2_app; [|clear; induction (ts_remainder (s_tags s)); constructor; auto; now left]. apply tedit_raws; auto.
    eapply Forall_impl; [|exact Sx]. intros u Su. apply Su. }
  destruct (redo_front lines _ _ bs G Fr Rr) as (_ & Fr' & Sh & _). cbn zeta in *. rewrite <- Eb, Vl in Fr', Sh.
  assert (It : In t (ts_data (s_tags s))) by (rewrite Da, in_app_iff; cbn; auto).
  assert (Stl : settled t) by (rewrite Forall_forall in Se; auto). assert (Snt : sane (tag_text t)) by (rewrite Forall_forall in Sx; auto).
  destruct (settled_line t Stl Ol) as (E1 & T1). destruct (with_value_line t loc Stl Ol V) as (E2 & T2 & S2); [apply Snt|].
  assert (R1 : tag_raw t = comments_raw (t_comments t) ++ [t_name t ++ t_separator t ++ t_value t]).
  { unfold tag_raw. rewrite split_on_none by apply Stl. cbn [rev app]. now rewrite E1. }
  assert (R2 : tag_raw (with_value loc t) = comments_raw (t_comments t) ++ [t_name t ++ t_separator t ++ loc]).
  { unfold tag_raw. rewrite split_on_none by (apply no_break_LF, S2). cbn [rev app with_value t_comments]. now rewrite E2. }
  exists (flat_map tag_raw a ++ comments_raw (t_comments t)), (flat_map tag_raw b ++ ts_remainder (s_tags s) ++ sections_raw ss), (t_name t), ds, (t_separator t), (t_value t).
  split; [exact Sn|]. split.
  { rewrite <- El. unfold tags_raw. rewrite Da, flat_map_app. cbn [flat_map]. rewrite R1, <- !app_assoc. reflexivity. }
  split.
  { rewrite <- Vl. unfold tags_raw. rewrite Db, flat_map_app, Kr. cbn [flat_map].
    change (mk_tag (t_name t) loc (t_separator t) (t_comments t) (t_valid t) (t_prefix t) (t_suffix t)) with (with_value loc t). rewrite R2, <- !app_assoc. reflexivity. }
  split.
  { unfold locations. rewrite nth_error_map, Hx. cbn [option_map location_at i_place]. rewrite Da, nth_error_app2, <- La, Nat.sub_diag by lia. reflexivity. }
  split; [now apply regular_good|]. split; [now apply shifted_same|]. intros w' l2 w2' s2 Rd2.
  destruct (view_sopens_inv expand _ _ _ _ _ _ _ _ _ _ _ Rd2) as (p2 & ss2 & ts2 & ls2 & w3 & So2). unfold read_sources in Rd2. rewrite (view_sopens _ _ _ _ _ _ _ _ _ _ _ _ _ _ So2) in Rd2. injection Rd2 as Rl2 -> Es2.
  pose proof (proj1 (proj2 (regular_good lines') G')) as Td2. destruct (sopens_write expand _ _ _ _ _ _ _ _ Td2 So2) as (Wr2 & El2). cbn [s_lists s_tags] in Rl2. rewrite Wr2, El2 in Rl2. split; [now symmetry|].
  destruct (sopens_opens expand _ _ _ _ _ _ _ _ So2) as (wb & O2). destruct (Re _ _ _ _ O2) as (I3 & I4). assert (Et2 : s_tags s2 = ts2) by now subst s2.
  split.
  { intros o Ho. eapply other_same; [rewrite Et2; symmetry; exact I4|]. now apply Ko. }
  destruct (same_reading s2 s') as (Q1 & Q2); [now rewrite Et2| | |rewrite Q1, Q2; auto].
  - unfold entries. rewrite Kl, <- Ls. assert (s_lists s2 = ls2) as -> by now subst s2. symmetry. eapply same_entries; [exact (proj1 Rg)|exact Td2|exact Pl|exact Fr|exact Fr'|exact So|exact So2].
  - subst s2. cbn [s_patches]. clear - F Pt Hx. unfold set_location in F. destruct (py_index _ _) as [k0|]; [|discriminate]. destruct (nth_error (get_items s) k0) as [y|]; [|discriminate]. injection F as <-. destruct (i_place y); now rewrite <- Pt.
Qed.
(** Reading changes nothing. *)
Theorem read_keeps pt dups imp dg lines w lines' w' r : Forall tidy_line lines -> read_sources expand pt dups imp dg lines w = (lines', w', r) -> lines' = lines.
Proof.
  intros T E. unfold read_sources in E.
  destruct r as [s|x]; [destruct (view_sopens_inv expand _ _ _ _ _ _ _ _ _ _ _ E) as (p & ss & ts & ls & w1 & So); rewrite (view_sopens _ _ _ _ _ _ _ _ _ _ _ _ _ _ So) in E; destruct (sopens_write expand _ _ _ _ _ _ _ _ T So) as (Wr & El); injection E as <- _ _; cbn [s_lists s_tags]; now rewrite Wr, El|].
  unfold view_sources in E. destruct (M_sections.parse (expand lines) w lines) as [[secs|e] w0] eqn:P; [|congruence]. pose proof (tidy_sections _ _ _ _ _ P T) as R.
  destruct (parse_blocks _ _ _ _ _ P) as (rs & p & bs & ss & _ & _ & _ & -> & _). rewrite find_preamble in E. cbn [nth_error] in E. change (M_sections.s_data (preamble p)) with p in E.
  destruct (tags_parse (expand lines) TAG_NAMES w0 p) as [[ts|e] w1] eqn:Tp; [|congruence].
  destruct (parse_lists (expand lines) pt w1 (preamble p :: ss)) as [[ls|e] w2]; [discriminate|]. injection E as <- _ _. cbn [update_at].
  change (with_data (tags_raw ts) (preamble p)) with (preamble (tags_raw ts)). change (sections_raw (preamble (tags_raw ts) :: ss) = lines). rewrite raw_preamble. refine (tidy_opens expand lines w ts w1 (sections_raw ss) T _). exists p, ss, w0. auto.
Qed.
End World.
End Uni.
