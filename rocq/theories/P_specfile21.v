(** Proofs about operations on a whole spec file: sources that are added. *)
From Coq Require Import Ascii String.
From Coq Require Import NArith ZArith List Bool Lia Sorting.Sorted.
From Verif Require P_value.
From Verif Require Import PyStr PyStrFacts Regex RegexFacts M_constants M_options M_value M_macro_definitions Spec_macro_definitions P_macro_definitions P_macro_definitions2
  P_macro_definitions3 M_conditions P_conditions2 M_sections Spec_sections P_sections P_sections2 P_sections4 M_tags Spec_tags P_tags P_tags2 P_tags3 P_tags4 P_tags5 P_context
  M_sourcelist P_sourcelist M_sources Spec_sources P_sources P_sources2 P_sources3 P_sources4 P_sources5 P_sources6 P_sources7 P_sources8 P_sources9
  M_release M_update M_specfile M_specfile2 Spec_specfile Spec_update Spec_specfile2 Spec_specfile3 P_specfile P_specfile2 P_specfile5 P_specfile6 P_specfile7 P_specfile10 P_specfile11 P_specfile12 P_specfile13 P_specfile18 P_specfile19 P_specfile20.
Import ListNotations.
Open Scope N_scope.
Open Scope nat_scope.

Section Uni.
Context {U : Unicode}.
Notation readable := Spec_sources.readable.
(** What is read depends on the texts of tags and entries only. *)
Definition entries (s : sources) : list (list str) := map (fun l => map e_location (sl_data l)) (s_lists s).
Lemma same_items s1 s2 : map tcore (ts_data (s_tags s1)) = map tcore (ts_data (s_tags s2)) -> entries s1 = entries s2 -> s_patches s1 = s_patches s2 -> get_items s1 = get_items s2.
Proof.
  intros T L P. unfold get_items. assert (N : map t_name (ts_data (s_tags s1)) = map t_name (ts_data (s_tags s2))).
  { assert (K : forall l, map t_name l = map (fun c : core => let '(_, n, _, _, _) := c in n) (map tcore l)) by (intros l; rewrite map_map; reflexivity). now rewrite !K, T. }
  assert (G : get_tags s1 = get_tags s2) by (unfold get_tags, s_prefix; now rewrite N, P). rewrite G. cbn zeta. f_equal.
  match goal with |- lists_items ?a _ _ = _ => generalize a end. revert L. unfold entries. generalize 0. generalize (s_lists s2). induction (s_lists s1) as [|a l IH]; intros [|b l2] k E z; try discriminate; [reflexivity|].
  cbn [map] in E. injection E as E1 E2. cbn [lists_items]. rewrite (IH l2 (S k) E2 z). f_equal. unfold list_items. apply (f_equal (@length _)) in E1. rewrite !map_length in E1. now rewrite E1.
Qed.
Lemma same_reading s1 s2 : map tcore (ts_data (s_tags s1)) = map tcore (ts_data (s_tags s2)) -> entries s1 = entries s2 -> s_patches s1 = s_patches s2 -> locations s1 = locations s2 /\ numbers s1 = numbers s2.
Proof.
  intros T L P. pose proof (same_items s1 s2 T L P) as G. unfold locations, numbers. rewrite <- G. split; [|reflexivity]. apply map_ext. intros [n p]. cbn [i_place]. destruct p as [i|k i]; cbn [location_at].
  - assert (K : forall l, option_map t_value (nth_error l i) = option_map (fun c : core => let '(_, _, _, v, _) := c in v) (nth_error (map tcore l) i)) by (intros l; rewrite nth_error_map; now destruct (nth_error l i)).
    pose proof (K (ts_data (s_tags s1))) as K1. rewrite T, <- K in K1. destruct (nth_error (ts_data (s_tags s1)) i), (nth_error (ts_data (s_tags s2)) i); cbn in K1; congruence.
  - unfold entries in L. assert (K : option_map (fun l => map e_location (sl_data l)) (nth_error (s_lists s1) k) = option_map (fun l => map e_location (sl_data l)) (nth_error (s_lists s2) k)) by (rewrite <- !nth_error_map; now rewrite L).
    destruct (nth_error (s_lists s1) k) as [a|], (nth_error (s_lists s2) k) as [b|]; cbn in K; try congruence. injection K as K.
    assert (Q : option_map e_location (nth_error (sl_data a) i) = option_map e_location (nth_error (sl_data b) i)) by (rewrite <- !nth_error_map; now rewrite K).
    destruct (nth_error (sl_data a) i), (nth_error (sl_data b) i); cbn in Q; congruence.
Qed.
Lemma other_same p l1 : forall l2 o, map tcore l1 = map tcore l2 -> other_tags p l1 o -> exists o', other_tags p l2 o' /\ map shown o' = map shown o.
Proof.
  intros l2 o E H. revert l2 E. induction H as [|t l o ds Hs _ IH|t l o Hn _ IH]; intros [|t2 l2] E; try discriminate; cbn [map] in E.
  - exists []. split; [constructor|reflexivity].
  - injection E as E1 E2 E3 E4 E5 E. destruct (IH l2 E) as (o' & H & Q). exists o'. split; auto. apply (O_source _ _ _ _ ds); auto. congruence.
  - injection E as E1 E2 E3 E4 E5 E. destruct (IH l2 E) as (o' & H & Q). exists (with_preceding [] t2 :: o'). split; [apply O_other; auto; intros ds; rewrite <- E2; auto|].
    cbn [map]. rewrite Q. f_equal. unfold shown, with_preceding. cbn. congruence.
Qed.
Lemma shifted_same m m' : Forall2 shifted (md_data m) (md_data m') -> same_macros m m'.
Proof.
  intros H. split; [symmetry; eapply Forall2_len; eauto|]. intros i d d' Hd Hd'. pose proof (Forall2_nth _ _ _ H i d d' Hd Hd') as ->. unfold M_macro_definitions.with_preceding. cbn. auto.
Qed.
Lemma regular_good lines : regular_file lines <-> good_file lines.
Proof.
  unfold regular_file, good_file. split.
  - intros (A & B & C & D). repeat split; auto. apply Forall_forall. intros l Hl. rewrite Forall_forall in A, B. split; auto.
  - intros (A & C & D). repeat split; auto; eapply Forall_impl; try exact A; now intros l [].
Qed.

Section World.
Context {W : Type} (expand : list str -> bool -> W -> str -> result str * W).
(** The entries of list sections stay when only what is above the sections changes. *)
Lemma same_entries pt lines lines' w w' p p' q q' ss ss' ts ts' ls ls' w1 w1' bs : Forall tidy_line lines -> Forall tidy_line lines' -> plain_lists pt lines -> front lines q bs -> front lines' q' bs ->
  sopens expand pt lines w p ss ts ls w1 -> sopens expand pt lines' w' p' ss' ts' ls' w1' -> map (fun l => map e_location (sl_data l)) ls = map (fun l => map e_location (sl_data l)) ls'.
Proof.
  intros T T' Pl (rs & Er & Eb) (rs' & Er' & Eb') (w0 & wa & P & _ & L) (w0' & wa' & P' & _ & L').
  destruct (parse_blocks _ _ _ _ _ P) as (r1 & q1 & bs1 & ss1 & E1 & E2 & _ & E3 & Fb). rewrite Er in E1. injection E1 as <-. rewrite Eb in E2. injection E2 as <- <-. injection E3 as -> <-.
  destruct (parse_blocks _ _ _ _ _ P') as (r2 & q2 & bs2 & ss2 & E1' & E2' & _ & E3' & Fb'). rewrite Er' in E1'. injection E1' as <-. rewrite Eb' in E2'. injection E2' as <- <-. injection E3' as -> <-.
  pose proof (blocks_lines _ _ _ _ _ Eb) as El. pose proof (blocks_headers _ _ _ _ _ Eb) as Hh.
  assert (I : forall b l, In b bs -> l = fst b \/ In l (snd b) -> In l lines).
  { intros b l Hb Hl. rewrite El. apply in_or_app. right. unfold block_lines. apply in_flat_map. exists b. split; auto. destruct Hl as [->|Hl]; [now left|now right]. }
  assert (H1 : Forall (fun b => exists r, fst b = PCT :: r) bs) by (eapply Forall_impl; [|exact Hh]; intros b; apply is_header_pct).
  assert (H2 : Forall (fun b => forall sp t, blank sp -> fst b <> PCT :: list_name pt ++ sp ++ PCT :: t) bs).
  { apply Forall_forall. intros b Hb sp t Bs. apply (Pl (fst b) sp t); auto. eapply I; eauto. }
  assert (H3 : Forall (fun b => Forall (fun l => ~ In LF l) (snd b)) bs).
  { apply Forall_forall. intros b Hb. apply Forall_forall. intros l Hl. rewrite Forall_forall in T. apply no_break_LF, (T l). eapply I; eauto. }
  rewrite (lists_of (expand lines) pt (expand lines) bs _ _ _ _ _ _ _ Fb H1 H2 H3 L). symmetry. eapply lists_of; eauto.
Qed.
(** A new source tag in a file. *)
Theorem source_added pt dups imp dg lines w w1 s a b loc new s' lines' : regular_file lines -> plain_lists pt lines ->
  read_sources expand pt dups imp dg lines w = (lines, w1, Ok s) -> Forall simple_tag (ts_data (s_tags s)) -> Forall neat (ts_data (s_tags s)) ->
  tag_added s a b loc new s' -> file_value loc -> (exists ds, t_name new = s_prefix s ++ ds /\ Forall (fun c => is_digit c = true) ds) ->
  colon_sep new -> space_text (tl (t_separator new)) -> no_break (t_separator new) ->
  forall A (body : sources -> W -> sources * W * result A) w2 r, body s w1 = (s', w2, r) -> view_sources expand pt dups imp dg body lines w = (lines', w2, r) ->
  let x := flat_map tag_raw a ++ t_preceding new in
  exists y y', lines = x ++ y /\ lines' = x ++ (t_name new ++ t_separator new ++ loc) :: y' /\ Forall2 (renumbered_line s) y y' /\
    (between_definitions lines (length x) -> regular_file lines' /\ plain_lists pt lines' /\ same_macros (parse_plain lines) (parse_plain lines') /\
      forall w' l2 w2' s2, read_sources expand pt dups imp dg lines' w' = (l2, w2', Ok s2) -> l2 = lines' /\
        Forall simple_tag (ts_data (s_tags s2)) /\ map shown (ts_data (s_tags s2)) = map shown (ts_data (s_tags s')) /\
        locations s2 = locations s' /\ numbers s2 = numbers s').
Proof.
  intros Rg Pl Rs Sm Ne Ad V Nm Co Sp Nb A body w2 r Bd Vw. cbn zeta.
  destruct (view_sopens_inv expand _ _ _ _ _ _ _ _ _ _ _ Rs) as (p & ss & ts & ls & w1' & So). unfold read_sources in Rs. rewrite (view_sopens _ _ _ _ _ _ _ _ _ _ _ _ _ _ So) in Rs. injection Rs as Rl -> Es.
  rewrite (view_sopens _ _ _ _ _ _ _ _ _ _ _ _ _ _ So), Es, Bd in Vw. injection Vw as Vl.
  assert (Ts : ts = s_tags s) by now subst s. assert (Ls : ls = s_lists s) by now subst s. assert (Pt : s_patches s = pt) by now subst s. clear Rl.
  pose proof (proj1 (regular_good lines) Rg) as G. destruct Rg as (Td & _). destruct (sopens_write expand _ _ _ _ _ _ _ _ Td So) as (Wr & El).
  destruct Ad as (Ed & Ell & Ad'). assert (Ad : tag_added s a b loc new s') by (split; [exact Ed|split; [exact Ell|exact Ad']]).
  assert (Ell' : s_lists s' = s_lists s) by (rewrite Ell; reflexivity). rewrite Ell', <- Ls, Wr in Vl. destruct (sopens_opens expand _ _ _ _ _ _ _ _ So) as (wa & O). rewrite Ts in O.
  destruct (add_step expand s a b loc new s' lines w wa (sections_raw ss) G O Sm Ne Ad V Nm Co Sp Nb) as (y & y' & E1 & E2 & R & K). cbn zeta in *. set (x := flat_map tag_raw a ++ t_preceding new) in *.
  exists (y ++ sections_raw ss), (y' ++ sections_raw ss). rewrite Ts, E1, <- app_assoc in El. split; [now symmetry|]. rewrite E2, <- app_assoc in Vl. split; [now rewrite <- Vl|].
  assert (Rr : Forall2 (renumbered_line s) (y ++ sections_raw ss) (y' ++ sections_raw ss)) by (apply Forall2_app; auto; clear; induction (sections_raw ss); constructor; auto; now left).
  split; [exact Rr|]. intros Bt. rewrite E2, <- app_assoc in K. cbn [app] in Vl, K. rewrite Vl in K. destruct (K Bt) as (G' & Sh & (bs & Fr1 & Fr2) & Re).
  assert (Pl' : plain_lists pt lines').
  { intros l sp t Hl Bs. rewrite <- Vl in Hl. apply in_app_or in Hl as [Hl|[<-|Hl]].
    - apply Pl; auto. rewrite <- El. apply in_or_app. auto.
    - destruct Nm as (ds & -> & _). unfold s_prefix. destruct (s_patches s); discriminate.
    - apply In_nth_error in Hl as (j & Hl). destruct (Forall2_nth_l _ _ _ Rr j l Hl) as (l0 & Hl0 & [->|(nm & d1 & s1 & d2 & s2 & v & _ & _ & _ & _ & _ & ->)]).
      + apply Pl; auto. rewrite <- El. apply in_or_app. right. now apply nth_error_In in Hl0.
      + unfold s_prefix. destruct (s_patches s); discriminate. }
  split; [now apply regular_good|]. split; [exact Pl'|]. split; [now apply shifted_same|]. intros w' l2 w2' s2 Rd.
  destruct (view_sopens_inv expand _ _ _ _ _ _ _ _ _ _ _ Rd) as (p2 & ss2 & ts2 & ls2 & w3 & So2). unfold read_sources in Rd. rewrite (view_sopens _ _ _ _ _ _ _ _ _ _ _ _ _ _ So2) in Rd. injection Rd as Rl2 -> Es2.
  pose proof (proj1 (proj2 (regular_good lines') G')) as Td2. destruct (sopens_write expand _ _ _ _ _ _ _ _ Td2 So2) as (Wr2 & El2). cbn [s_lists s_tags] in Rl2. rewrite Wr2, El2 in Rl2. split; [now symmetry|].
  destruct (sopens_opens expand _ _ _ _ _ _ _ _ So2) as (wb & O2). destruct (Re _ _ _ _ O2) as (I1 & I2 & I3 & I4).
  assert (Et2 : s_tags s2 = ts2) by now subst s2. rewrite Et2. split; [exact I3|]. split; [exact I4|].
  apply same_reading; [now rewrite Et2| |].
  - unfold entries. rewrite Ell', <- Ls. assert (s_lists s2 = ls2) as -> by now subst s2. symmetry. eapply same_entries; [exact Td|exact Td2|exact Pl|exact Fr1|exact Fr2|exact So|exact So2].
  - rewrite Ell. subst s2. cbn [s_patches with_tags]. now rewrite Pt.
Qed.
(** The names and separators of new tags. *)
Definition fits_new (s : sources) (new : tag) : Prop :=
  (exists ds, t_name new = s_prefix s ++ ds /\ Forall (fun c => is_digit c = true) ds) /\ colon_sep new /\ space_text (tl (t_separator new)) /\ no_break (t_separator new).
Lemma neat_sep lines w ts w1 rest r new : good_file lines -> opens expand lines w ts w1 rest -> Forall simple_tag (ts_data ts) -> Forall neat (ts_data ts) -> In r (ts_data ts) -> source_like r -> aligned r new ->
  colon_sep new /\ space_text (tl (t_separator new)) /\ no_break (t_separator new).
Proof.
  intros G O Sm Ne Hr Sl Al. destruct (front_settled expand lines w ts w1 rest G O Sm) as (Se & _ & _ & Sx). rewrite Forall_forall in *. destruct (Ne r Hr Sl) as (O1 & C). destruct (settled_line r (Se r Hr) O1) as (E & T).
  destruct (Sx r Hr) as ((Nb & _) & _). rewrite E in Nb. unfold no_break in Nb. apply Forall_app in Nb as (_ & Nb). apply Forall_app in Nb as (Nb & _).
  apply (aligned_colon r new); auto. destruct T as (_ & _ & (s1 & s2 & Q & S1 & S2) & _). destruct C as (x & C). rewrite C in *. cbn [tl]. destruct s1 as [|c s1]; [injection Q as ->; exact S2|]. injection Q as <- Q. apply Forall_inv in S1. vm_compute in S1. discriminate.
Qed.
Lemma word_like s t ds : source_name (source_word s) (t_name t) ds -> source_like t.
Proof. intros H. unfold source_word in H. destruct (s_patches s); [right; eauto|left]. destruct H as (l & E & F & _). exists l, ds. auto. Qed.
Lemma named_fits lines w s w1 rest r new num : good_file lines -> opens expand lines w (s_tags s) w1 rest -> Forall simple_tag (ts_data (s_tags s)) -> Forall neat (ts_data (s_tags s)) -> In r (ts_data (s_tags s)) ->
  named_after s r new num -> fits_new s new.
Proof.
  intros G O Sm Ne Hr (ds & Sn & _ & Al & En). split; [|eapply neat_sep; eauto using word_like]. destruct ds as [|c ds]; eexists; (split; [exact En|]); [constructor|apply int_pad].
Qed.
Lemma first_fits lines w s w1 rest loc num s' : good_file lines -> opens expand lines w (s_tags s) w1 rest -> Forall simple_tag (ts_data (s_tags s)) -> Forall neat (ts_data (s_tags s)) ->
  first_added s loc num s' -> exists a b new, tag_added s a b loc new s' /\ fits_new s new.
Proof.
  intros G O Sm Ne (a & b & new & Ad & En & _ & H). exists a, b, new. split; [exact Ad|]. split.
  - unfold first_name in En. destruct (s_implicit s || Nat.eqb (s_digits s) 0); eexists; (split; [exact En|]); [constructor|apply int_pad].
  - destruct H as [(_ & Es & _)|(_ & _ & a0 & r & -> & Nr & Al)].
    + unfold colon_sep. rewrite Es. split; [eexists; reflexivity|]. split; repeat constructor.
    + eapply (neat_sep lines w _ w1 rest r); eauto; [|now left]. destruct Ad as (-> & _). rewrite !in_app_iff. cbn. auto.
Qed.
Lemma read_opens pt dups imp dg lines w w1 s : Forall tidy_line lines -> read_sources expand pt dups imp dg lines w = (lines, w1, Ok s) -> caseless_digits ->
  (exists wa rest, opens expand lines w (s_tags s) wa rest) /\ readable s /\ forall A (body : sources -> W -> sources * W * result A) l2 w2 x, view_sources expand pt dups imp dg body lines w = (l2, w2, x) ->
    exists s', body s w1 = (s', w2, x).
Proof.
  intros Td Rs Cd. destruct (view_sopens_inv expand _ _ _ _ _ _ _ _ _ _ _ Rs) as (p & ss & ts & ls & w1' & So). unfold read_sources in Rs. rewrite (view_sopens _ _ _ _ _ _ _ _ _ _ _ _ _ _ So) in Rs. injection Rs as _ -> <-.
  split; [destruct (sopens_opens expand _ _ _ _ _ _ _ _ So) as (wa & O); eauto|]. split.
  - destruct So as (w0 & wa & _ & T & _). split; [exact Cd|]. eapply parsed_names; eauto.
  - intros A body l2 w2 x V. rewrite (view_sopens _ _ _ _ _ _ _ _ _ _ _ _ _ _ So) in V. destruct (body _ w1) as [[s' w3] r]. injection V as _ -> ->. eauto.
Qed.
Lemma fits_source s new : fits_new s new -> exists ds, source_name (source_word s) (t_name new) ds.
Proof.
  intros ((ds & -> & D) & _). exists ds, (s_prefix s). split; auto. split; auto. unfold source_word, s_prefix. destruct (s_patches s); repeat (constructor; [unfold same_letter; cbn; lia|]); constructor.
Qed.
Lemma edit_Ok pt dups imp dg f lines w w1 s lines' w2 : Forall tidy_line lines -> read_sources expand pt dups imp dg lines w = (lines, w1, Ok s) -> caseless_digits ->
  edit_sources expand pt dups imp dg f lines w = (lines', w2, Ok tt) -> exists s', f s = Ok s' /\ w2 = w1.
Proof.
  intros Td Rs Cd V. destruct (read_opens _ _ _ _ _ _ _ _ Td Rs Cd) as (_ & _ & B). destruct (B _ _ _ _ _ V) as (s' & Q). destruct (f s) as [s0|]; [|discriminate]. injection Q as <- <-. eauto.
Qed.
Lemma added_file pt dups imp dg lines w w1 s a b loc new s' lines' f w2 : regular_file lines -> plain_lists pt lines ->
  read_sources expand pt dups imp dg lines w = (lines, w1, Ok s) -> Forall simple_tag (ts_data (s_tags s)) -> Forall neat (ts_data (s_tags s)) -> caseless_digits ->
  tag_added s a b loc new s' -> file_value loc -> fits_new s new -> f s = Ok s' -> edit_sources expand pt dups imp dg f lines w = (lines', w2, Ok tt) -> keeps_other_tags s s' ->
  forall good : sources -> Prop, (forall s2, locations s2 = locations s' -> numbers s2 = numbers s' -> good s2) -> file_inserted expand pt dups imp dg lines s loc lines' good.
Proof.
  intros Rg Pl Rs Sm Ne Cd Ad V Ft F Ed Ko good Gd. destruct (fits_source s new Ft) as (ds & Sn). destruct Ft as (Nm & Co & Sp & Nb).
  destruct (edit_Ok _ _ _ _ _ _ _ _ _ _ _ (proj1 Rg) Rs Cd Ed) as (s0 & F0 & ->). rewrite F in F0. injection F0 as <-.
  destruct (source_added pt dups imp dg lines w w1 s a b loc new s' lines' Rg Pl Rs Sm Ne Ad V Nm Co Sp Nb unit (fun s w => match f s with Ok s' => (s', w, Ok tt) | Err e => (s, w, Err e) end) w1 (Ok tt)) as (y & y' & E1 & E2 & R & K); [cbv beta; now rewrite F|exact Ed|].
  exists (flat_map tag_raw a ++ t_preceding new), y, y', (t_name new), ds, (t_separator new). split; [exact E1|]. split; [exact E2|]. split; [exact Sn|]. split; [exact R|]. intros Bt. destruct (K Bt) as (K1 & _ & K2 & K3).
  split; [exact K1|]. split; [exact K2|]. intros w' l2 w2' s2 Rd. destruct (K3 _ _ _ _ Rd) as (J1 & _ & J2 & J3 & J4). split; [exact J1|]. split; [|auto].
  intros o Ho. eapply other_same; [symmetry; exact J2|]. now apply Ko.
Qed.
Theorem insert_file pt dups imp dg lines w w1 s i loc lines' w2 : regular_file lines -> plain_lists pt lines ->
  read_sources expand pt dups imp dg lines w = (lines, w1, Ok s) -> Forall simple_tag (ts_data (s_tags s)) -> Forall neat (ts_data (s_tags s)) -> caseless_digits ->
  file_value loc -> into_tags s i -> edit_sources expand pt dups imp dg (fun s => insert s (Z.of_nat i) loc) lines w = (lines', w2, Ok tt) ->
  file_inserted expand pt dups imp dg lines s loc lines' (fun s2 => locations s2 = inserted (Nat.min i (length (locations s))) loc (locations s) /\ (increasing (numbers s) -> increasing (numbers s2))).
Proof.
  intros Rg Pl Rs Sm Ne Cd V (It & Il) Ed. pose proof (proj1 (regular_good lines) Rg) as G. destruct (read_opens _ _ _ _ _ _ _ _ (proj1 Rg) Rs Cd) as ((wa & rest & O) & Rd & _).
  destruct (edit_Ok _ _ _ _ _ _ _ _ _ _ _ (proj1 Rg) Rs Cd Ed) as (s' & F & _).
  assert (Nd : s_dups s = true \/ ~ In loc (locations s)).
  { destruct (s_dups s) eqn:D; [now left|right]. intros Q. rewrite (insert_duplicate s (Z.of_nat i) loc D Q) in F. discriminate. }
  destruct (insert_semantics s i loc Rd Nd) as (s0 & F0 & _ & Lo & Ko & Nu). rewrite F in F0. injection F0 as <-.
  assert (Ad : exists a b new, tag_added s a b loc new s' /\ fits_new s new).
  { destruct (get_items s) as [|x0 l0] eqn:Gi.
    - assert (L0 : locations s = []) by (unfold locations; now rewrite Gi). destruct (insert_first s i loc s' Rd L0 F) as (Q & _). eapply first_fits; eauto.
    - rewrite <- Gi in *. assert (Lg : 0 < length (get_items s)) by (rewrite Gi; cbn; lia).
      assert (Fin : forall a b r new num, tag_added s a b loc new s' -> In r (a ++ b) -> named_after s r new num -> exists a b new, tag_added s a b loc new s' /\ fits_new s new).
      { intros a b r new num Ad Hr Na. exists a, b, new. split; auto. eapply named_fits; eauto. destruct Ad as (-> & _). exact Hr. }
      destruct (Nat.lt_ge_cases i (length (get_items s))) as [Li|Li].
      + destruct (nth_error (get_items s) i) as [x|] eqn:Hx; [|apply nth_error_None in Hx; lia]. pose proof (insert_below s i loc s' x Rd F Hx) as Q.
        destruct (It x) as (j & Ej); [replace (Nat.min i (length (get_items s) - 1)) with i by lia; exact Hx|]. rewrite Ej in Q. destruct Q as (a & r & b & new & _ & Ad & Na). eapply Fin; eauto. rewrite in_app_iff. cbn. auto.
      + destruct (nth_error (get_items s) (length (get_items s) - 1)) as [x|] eqn:Hx; [|apply nth_error_None in Hx; lia]. pose proof (insert_last s i loc s' x Rd F Li Hx) as Q.
        destruct (It x) as (j & Ej); [replace (Nat.min i (length (get_items s) - 1)) with (length (get_items s) - 1) by lia; exact Hx|]. rewrite Ej in Q. destruct Q as (a & r & b & new & _ & Ad & Na). eapply Fin; eauto. rewrite !in_app_iff. cbn. auto. }
  destruct Ad as (a & b & new & Ad & Ft). refine (added_file pt dups imp dg lines w w1 s a b loc new s' lines' _ w2 Rg Pl Rs Sm Ne Cd Ad V Ft _ Ed Ko _ _); [exact F|]. intros s2 L2 N2. rewrite L2, N2. auto.
Qed.
Lemma numbered_added lines w s wa rest number loc s' k : good_file lines -> opens expand lines w (s_tags s) wa rest -> Forall simple_tag (ts_data (s_tags s)) -> Forall neat (ts_data (s_tags s)) -> readable s -> (0 <= number)%Z ->
  insert_numbered s number loc = Ok (s', k) -> exists a b new, tag_added s a b loc new s' /\ fits_new s new.
Proof.
  intros G O Sm Ne Rd N F. destruct (insert_numbered_keeps s number loc s' k Rd N F) as [(Fa & _)|(a & r & b & new & Ad & Na)]; [eapply first_fits; eauto|].
  destruct Ad as [Ad|Ad]; [exists a, (r :: b), new|exists (a ++ [r]), b, new]; (split; [exact Ad|]); eapply named_fits; eauto; destruct Ad as (-> & _); rewrite !in_app_iff; cbn; auto.
Qed.
Lemma numbered_duplicate s number loc : s_dups s = false -> In loc (locations s) -> insert_numbered s number loc = Err DuplicateSourceException.
Proof. intros D H. unfold insert_numbered. rewrite D. cbn [negb andb]. unfold contains. now rewrite (proj2 (str_in_iff _ _) H). Qed.
Theorem insert_numbered_file pt dups imp dg lines w w1 s number loc lines' w2 : regular_file lines -> plain_lists pt lines ->
  read_sources expand pt dups imp dg lines w = (lines, w1, Ok s) -> Forall simple_tag (ts_data (s_tags s)) -> Forall neat (ts_data (s_tags s)) -> caseless_digits ->
  file_value loc -> (0 <= number)%Z -> edit_sources expand pt dups imp dg (fun s => let! r := insert_numbered s number loc in Ok (fst r)) lines w = (lines', w2, Ok tt) ->
  file_inserted expand pt dups imp dg lines s loc lines' (fun s2 => exists k, locations s2 = inserted k loc (locations s) /\
    (increasing (numbers s) -> increasing (numbers s2) /\ (all_numbered s -> no_list_entries s -> locations s <> [] -> nth_error (numbers s2) k = Some number))).
Proof.
  intros Rg Pl Rs Sm Ne Cd V N Ed. pose proof (proj1 (regular_good lines) Rg) as G. destruct (read_opens _ _ _ _ _ _ _ _ (proj1 Rg) Rs Cd) as ((wa & rest & O) & Rd & _).
  destruct (edit_Ok _ _ _ _ _ _ _ _ _ _ _ (proj1 Rg) Rs Cd Ed) as (s0 & F & _). destruct (insert_numbered s number loc) as [[s' k]|] eqn:Fi; [|discriminate]. cbn [bind fst] in F. injection F as <-.
  assert (Nd : s_dups s = true \/ ~ In loc (locations s)).
  { destruct (s_dups s) eqn:D; [now left|right]. intros Q. rewrite (numbered_duplicate s number loc D Q) in Fi. discriminate. }
  destruct (insert_numbered_semantics s number loc Rd Nd N) as (s1 & k1 & F1 & _ & Lo & Ko & Nu). rewrite Fi in F1. injection F1 as <- <-.
  destruct (numbered_added lines w s wa rest number loc s' k G O Sm Ne Rd N Fi) as (a & b & new & Ad & Ft).
  refine (added_file pt dups imp dg lines w w1 s a b loc new s' lines' _ w2 Rg Pl Rs Sm Ne Cd Ad V Ft _ Ed Ko _ _); [cbv beta; now rewrite Fi|]. intros s2 L2 N2. exists k. rewrite L2, N2. auto.
Qed.
Lemma update_id {A} (f : A -> A) l : forall k, (forall x, f x = x) -> update_at k f l = l.
Proof. induction l as [|x l IH]; intros [|k] H; cbn; auto; [now rewrite H|now rewrite IH]. Qed.
Lemma add_no_comments c : add_comments [] c = c.
Proof. unfold add_comments. cbn [map]. rewrite app_nil_r. now destruct c. Qed.
Lemma extend_none s k : extend_comments s k [] = s.
Proof.
  unfold extend_comments. destruct (nth_error (get_items s) k) as [[n [j|l j]]|]; auto; cbn [i_place].
  - rewrite update_id by (intros t; rewrite add_no_comments; now destruct t). destruct s as [[d r] ? ? ? ? ?]. reflexivity.
  - rewrite update_id; [destruct s; reflexivity|]. intros [d r]. cbn. rewrite update_id; auto. intros [a b c]. cbn. now rewrite add_no_comments.
Qed.
Theorem add_patch_file lines w w1 s loc number initial dg lines' w2 : regular_file lines -> plain_lists true lines ->
  read_sources expand true false false dg lines w = (lines, w1, Ok s) -> Forall simple_tag (ts_data (s_tags s)) -> Forall neat (ts_data (s_tags s)) -> caseless_digits ->
  file_value loc -> no_list_entries s -> NoDup (numbers s) -> (forall n, number = Some n -> 0 <= n)%Z -> spec_add_patch expand loc number [] initial dg lines w = (lines', w2, Ok tt) ->
  file_inserted expand true false false dg lines s loc lines' (fun s2 => exists k m h, locations s2 = inserted k loc (locations s) /\ numbers s2 = inserted k m (numbers s) /\
    (forall x, In x (numbers s) -> x <= h)%Z /\ (locations s <> [] -> In h (numbers s)) /\ (locations s = [] -> h = -1)%Z /\
    let n := match number with Some n => n | None => Z.max (h + 1) initial end in
    (all_numbered s -> locations s <> [] -> m = n) /\ (locations s = [] -> dg <> 0%nat -> m = n) /\ (n = (h + 1)%Z -> m = n)).
Proof.
  intros Rg Pl Rs Sm Ne Cd V Nl Nn Np Ed. pose proof (proj1 (regular_good lines) Rg) as G. destruct (read_opens _ _ _ _ _ _ _ _ (proj1 Rg) Rs Cd) as ((wa & rest & O) & Rd & Bo).
  assert (Cfg : s_dups s = false /\ s_implicit s = false /\ s_digits s = dg).
  { destruct (view_sopens_inv expand _ _ _ _ _ _ _ _ _ _ _ Rs) as (p & ss & ts & ls & w1' & So). unfold read_sources in Rs. rewrite (view_sopens _ _ _ _ _ _ _ _ _ _ _ _ _ _ So) in Rs. injection Rs as _ _ <-. auto. }
  destruct Cfg as (Cf1 & Cf2 & Cf3).
  unfold spec_add_patch in Ed. destruct (edit_Ok _ _ _ _ _ _ _ _ _ _ _ (proj1 Rg) Rs Cd Ed) as (s0 & F & _). destruct (add_patch s loc number initial) as [[s' k]|] eqn:Fi; [|discriminate]. cbn [bind fst snd] in F. injection F as <-.
  assert (Nd : s_dups s = true \/ ~ In loc (locations s)).
  { right. intros Q. unfold add_patch in Fi. destruct (match number with Some n => _ | None => _ end) as [n|]; [|discriminate]. cbn [bind] in Fi. rewrite (numbered_duplicate s n loc Cf1 Q) in Fi. discriminate. }
  assert (Hn : forall n, number = Some n -> forall x, In x (numbers s) -> (x < n)%Z).
  { intros n -> x Hx. unfold add_patch in Fi. destruct (Z.leb_spec n (max_number s)) as [L|L]; [discriminate|]. assert (x <= max_number s)%Z; [|lia]. unfold max_number. clear - Hx.
    assert (K : forall l a, (a <= fold_left Z.max l a)%Z /\ (In x l -> x <= fold_left Z.max l a)%Z).
    { induction l as [|y l IH]; intros a; cbn [fold_left In]; [split; [lia|tauto]|]. destruct (IH (Z.max a y)) as (I1 & I2). split; [lia|]. intros [->|H]; [lia|auto]. }
    now apply K. }
  destruct (add_patch_semantics s loc number initial Rd Nd Nl Nn Hn Np) as (s1 & k1 & m & h & F1 & Lo & Nu & Ko & H1 & H2 & H3 & H4). rewrite Fi in F1. injection F1 as <- <-.
  assert (Ad : exists a b new, tag_added s a b loc new s' /\ fits_new s new).
  { unfold add_patch in Fi. destruct number as [n|]; [destruct (Z.leb n (max_number s)); [discriminate|]|]; cbn [bind] in Fi; eapply numbered_added; eauto.
    assert (K : forall l a, (a <= fold_left Z.max l a)%Z) by (induction l as [|y l IH]; intros a; cbn [fold_left]; [lia|]; specialize (IH (Z.max a y)); lia). specialize (K (numbers s) (-1)%Z). unfold max_number. lia. }
  destruct Ad as (a & b & new & Ad & Ft).
  refine (added_file true false false dg lines w w1 s a b loc new s' lines' _ w2 Rg Pl Rs Sm Ne Cd Ad V Ft _ Ed Ko _ _); [cbv beta; rewrite Fi; cbn [bind fst snd]; change (splitlines []) with (@nil str); now rewrite extend_none|].
  intros s2 L2 N2. exists k, m, h. rewrite L2, N2. split; [exact Lo|]. split; [exact Nu|]. split; [exact H1|]. split; [exact H2|]. split; [exact H3|]. cbn zeta in *. destruct H4 as (H5 & H6 & H7). split; [exact H5|]. split; [|exact H7]. intros L0 Dg. apply H6; auto. congruence.
Qed.
End World.
End Uni.
