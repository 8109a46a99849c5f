(** Proofs about operations on a whole spec file: a new patch with a comment. *)
From Coq Require Import Ascii String.
From Coq Require Import NArith ZArith List Bool Lia Sorting.Sorted.
From Verif Require P_value.
From Verif Require Import PyStr PyStrFacts Regex RegexFacts M_constants M_options M_value M_macro_definitions Spec_macro_definitions P_macro_definitions P_macro_definitions2
  P_macro_definitions3 M_conditions P_conditions2 M_sections Spec_sections P_sections P_sections2 P_sections4 M_tags Spec_tags P_tags P_tags2 P_tags3 P_tags4 P_tags5 P_context
  M_sourcelist P_sourcelist M_sources Spec_sources P_sources P_sources2 P_sources3 P_sources4 P_sources5 P_sources6 P_sources7 P_sources8 P_sources9
  M_release M_update M_specfile M_specfile2 Spec_specfile Spec_update Spec_specfile2 Spec_specfile3 Spec_specfile4 P_specfile P_specfile2 P_specfile5 P_specfile6 P_specfile7 P_specfile10 P_specfile11 P_specfile12 P_specfile13 P_specfile18 P_specfile19 P_specfile20 P_specfile21 P_specfile22 P_specfile24.
Import ListNotations.
Open Scope N_scope.
Open Scope nat_scope.

Section Uni.
Context {U : Unicode}.
Notation hashed := (fun c : str => lit "# " ++ c).
Lemma splitlines_no_break s : Forall no_break (splitlines s).
Proof.
  assert (K : forall n s cur, length s <= n -> no_break cur -> Forall no_break (splitlines_aux cur s)); [|apply (K (length s)); [lia|constructor]].
  induction n as [|n IH]; intros [|c t] cur L H; cbn [splitlines_aux length] in *; try lia; try (destruct cur as [|d cur]; constructor; [|constructor]; apply Forall_rev; exact H).
  destruct (is_linebreak c) eqn:E; [|apply IH; [lia|constructor; auto]]. constructor; [now apply Forall_rev|]. destruct (c =? CR)%N; [|apply IH; [lia|constructor]].
  destruct t as [|d t]; [constructor|]. cbn [length] in L. destruct (d =? LF)%N; apply IH; cbn [length]; try lia; constructor.
Qed.
Lemma comment_facts c : quiet_comment c -> no_break c -> let l := lit "# " ++ c in re_match md_regex l = None /\ is_header l = false /\ sane l /\ no_tag l.
Proof.
  intros (Ne & R & K) Nb l.
  assert (Bl : no_break l) by (unfold l, no_break in *; apply Forall_app; split; auto; repeat constructor). assert (NL : ~ In LF l) by now apply no_break_LF.
  assert (Kl : ~ mentions_keyword l).
  { intros (a & k & b & Hk & E). apply K. unfold l in E. destruct a as [|c1 a].
    - destruct Hk as [->| ->]; discriminate.
    - injection E as <- E. destruct a as [|c2 a]; [destruct Hk as [->| ->]; discriminate|]. injection E as <- E. exists a, k, b. auto. }
  assert (Rl : rstrip l = l) by (unfold l; now apply rstrip_tail).
  assert (Hh : is_header l = false) by reflexivity.
  split.
  { destruct (re_match md_regex l) as [m|] eqn:M; auto. exfalso. apply Kl. destruct (md_match _ _ NL M) as (w0 & dn & sc & k & w1 & nm & w2 & body & w3 & S). exists (w0 ++ dn ++ sc), k, (w1 ++ nm ++ w2 ++ body ++ w3).
    split; [apply (sh_k _ _ _ _ _ _ _ _ _ _ _ S)|]. rewrite (sh_line _ _ _ _ _ _ _ _ _ _ _ S), <- !app_assoc. reflexivity. }
  split; [exact Hh|].
  assert (Br : forall x, l <> PCT :: LBRACE :: x) by discriminate.
  split; [split|].
  - split; [exact Bl|]. split; [exact Rl|]. split; [now apply regular_not_braced|]. split; [intros H; apply (header_spec l NL) in H; congruence|]. intros (x & r & E & _). discriminate.
  - split; [exact NL|]. split; [|intros T; exfalso; now apply (no_trailing l)]. intros (w & x & k & y & Bw & _ & _ & E). destruct w as [|d w]; [discriminate|]. injection E as <- _. inversion Bw as [|? ? Q]; subst. vm_compute in Q. discriminate.
  - unfold no_tag, line_tag. destruct (split_conditional_macro_expansion l) as [[[b p] s]|e] eqn:E; auto. apply (split_not_braced _ _ Br) in E. injection E as -> -> ->.
    pose proof (first_match_tag_line l NL) as T. destruct (first_match TAG_NAMES l) as [m|]; auto. exfalso. apply tag_line_letter in T as (a & c' & r' & E' & La & Sc). unfold l in E'. injection E' as <- _. destruct (letter_other a _ La Sc) as (_ & Q). now apply Q.
Qed.
Theorem insert_comments cs : Forall quiet_comment cs -> Forall no_break cs -> forall lines x y bs, good_file lines -> front lines (x ++ y) bs -> y <> [] -> ~ in_definition (parse_plain lines) (length x) ->
  let lines' := (x ++ map hashed cs ++ y) ++ block_lines bs in
  good_file lines' /\ front lines' (x ++ map hashed cs ++ y) bs /\ Forall2 shifted (md_data (parse_plain lines)) (md_data (parse_plain lines')).
Proof.
  induction cs as [|c cs IH] using rev_ind; intros Q N lines x y bs G Fr Ny D lines'.
  - unfold lines'. cbn [map app] in *. rewrite <- (front_lines _ _ _ Fr). split; auto. split; auto. apply shifted_refl.
  - apply Forall_app in Q as (Q & Qc). apply Forall_inv in Qc. apply Forall_app in N as (N & Nc). apply Forall_inv in Nc. destruct (comment_facts c Qc Nc) as (M & H & S & _). cbv zeta in *.
    destruct (insert_line lines x y bs (lit "# " ++ c) G Fr M H S) as (G1 & Fr1 & Sh1 & D1).
    { split; [intros (a & d & b & j & E & Hj & Ei); apply D; exists a, d, b, j; repeat split; auto; lia|]. intros L. exfalso. pose proof (front_lines _ _ _ Fr) as El. rewrite El, !app_length in L. destruct y; [congruence|]. cbn [length] in L. lia. }
    destruct (IH Q N _ x ((lit "# " ++ c) :: y) bs G1 Fr1) as (G2 & Fr2 & Sh2); [discriminate|exact D1|].
    assert (E : map hashed (cs ++ [c]) ++ y = map hashed cs ++ (lit "# " ++ c) :: y) by (rewrite map_app, <- app_assoc; reflexivity).
    unfold lines'. rewrite E. split; auto. split; auto. eapply shifted_trans; eauto.
Qed.
(** Where the new patch is. *)
Lemma new_place s' k loc l a new b : caseless_digits -> locations s' = inserted k loc l -> ~ In loc l -> k <= length l -> ts_data (s_tags s') = a ++ new :: b -> t_value new = loc ->
  (exists ds, t_name new = s_prefix s' ++ ds /\ Forall (fun c => is_digit c = true) ds) -> exists x, nth_error (get_items s') k = Some x /\ i_place x = InTags (length a).
Proof.
  intros Cd Lo Ni Hk Ed Ev (ds & En & Dg).
  assert (Kn : kind (s_prefix s') (t_name new) <> None).
  { rewrite prefix_eq. intros Q. apply (kind_other (s_patches s') (t_name new) Cd) with (ds := ds) in Q; [apply Q| ].
    2:{ exists (lower_prefix (s_patches s')), (s_prefix s'), ds. split; [apply lower_prefix_in|]. split; [unfold s_prefix, lower_prefix; destruct (s_patches s'); repeat (constructor; [unfold same_letter; cbn; lia|]); constructor|].
      split; auto. right. right. split; auto. unfold lower_prefix. destruct (s_patches s'); auto. }
    exists (s_prefix s'). split; auto. split; auto. unfold s_prefix, lower_prefix; destruct (s_patches s'); repeat (constructor; [unfold same_letter; cbn; lia|]); constructor. }
  assert (Ip : In (InTags (length a)) (places s')).
  { rewrite places_view. apply in_or_app. left. unfold names. rewrite Ed, map_app, tag_places_app. apply in_or_app. right. cbn [map]. unfold tag_places. cbn [length seq combine flat_map fst snd]. rewrite map_length. destruct (kind (s_prefix s') (t_name new)); [now left|congruence]. }
  unfold places in Ip. apply in_map_iff in Ip as (x & Px & Hx). apply In_nth_error in Hx as (k' & Hx). exists x. split; [|exact Px].
  assert (Lx : nth_error (locations s') k' = Some loc). { unfold locations. rewrite nth_error_map, Hx. cbn [option_map]. rewrite Px. cbn [location_at]. rewrite Ed, nth_error_app2, Nat.sub_diag by lia. cbn. now rewrite Ev. }
  replace k with k'; [exact Hx|]. rewrite Lo in Lx. unfold inserted in Lx. destruct (Nat.lt_trichotomy k' k) as [H|[H|H]]; [|exact H|]; exfalso; apply Ni.
  - rewrite nth_error_app1 in Lx by (rewrite firstn_length; lia). apply nth_error_In in Lx. rewrite <- (firstn_skipn k l). apply in_or_app. now left.
  - rewrite nth_error_app2 in Lx by (rewrite firstn_length; lia). rewrite firstn_length in Lx. destruct (k' - Nat.min k (length l)) as [|j] eqn:Ej; [lia|]. cbn in Lx. apply nth_error_In in Lx. rewrite <- (firstn_skipn k l). apply in_or_app. now right.
Qed.
Lemma numbered_bound s number loc s' k : insert_numbered s number loc = Ok (s', k) -> k <= length (locations s).
Proof.
  unfold insert_numbered. destruct (_ && _); [discriminate|]. destruct (get_tags s) as [|t0 l] eqn:G.
  - destruct (initial_setup s number) as [[index name] sep]. destruct (insert_tag _ _ _ _ _ _); [|discriminate]. cbn [bind]. destruct (dedup _ _); [|discriminate]. cbn [bind]. intros E. injection E as _ <-. lia.
  - pose proof (nearest_first number t0 l) as (N1 & _). destruct (nearest number (0, t0) 1 l) as [i src]. cbn [fst snd] in *. rewrite <- G in N1.
    assert (Hi : i < length (get_items s)). { apply Nat.lt_le_trans with (length (get_tags s)); [apply nth_error_Some; congruence|]. unfold get_items. rewrite app_length, map_length. lia. }
    rewrite items_length in Hi. destruct (nth_error (ts_data (s_tags s)) (ts_index src)); [|discriminate]. destruct (tag_format _ _ _ _ _ _). destruct (insert_tag _ _ _ _ _ _); [|discriminate]. cbn [bind]. destruct (dedup _ _); [|discriminate]. cbn [bind].
    intros E. injection E as _ <-. destruct (_ <? _)%Z; lia.
Qed.
Section World.
Context {W : Type} (expand : list str -> bool -> W -> str -> result str * W).
Definition commented (l : list str) (t : tag) : tag := mk_tag (t_name t) (t_value t) (t_separator t) (add_comments l (t_comments t)) (t_valid t) (t_prefix t) (t_suffix t).
Theorem commented_file pt dups imp dg lines w w1 s a b loc new s' s'' cs lines' f w2 : regular_file lines -> plain_lists pt lines ->
  read_sources expand pt dups imp dg lines w = (lines, w1, Ok s) -> Forall simple_tag (ts_data (s_tags s)) -> Forall neat (ts_data (s_tags s)) -> caseless_digits ->
  tag_added s a b loc new s' -> file_value loc -> fits_new s new -> Forall no_break cs ->
  s'' = with_tags (mk_tags (update_at (length a) (commented cs) (ts_data (s_tags s'))) (ts_remainder (s_tags s'))) s' ->
  f s = Ok s'' -> edit_sources expand pt dups imp dg f lines w = (lines', w2, Ok tt) -> keeps_other_tags s s' ->
  forall good : sources -> Prop, (forall s2, locations s2 = locations s' -> numbers s2 = numbers s' -> good s2) -> file_inserted_below expand pt dups imp dg lines s cs loc lines' good.
Proof.
  intros Rg Pl Rs Sm Ne Cd Ad V Ft Nb Es'' F Ed Ko good Gd. destruct (fits_source s new Ft) as (ds & Sn). destruct Ft as (Nm & Co & Sp & Nbs). pose proof Rs as Rs0.
  pose proof (proj1 (regular_good lines) Rg) as G.
  destruct (view_sopens_inv expand _ _ _ _ _ _ _ _ _ _ _ Rs) as (p & ss & ts & ls & w1' & So). unfold read_sources in Rs. rewrite (view_sopens _ _ _ _ _ _ _ _ _ _ _ _ _ _ So) in Rs. injection Rs as Rl -> Es.
  unfold edit_sources in Ed. rewrite (view_sopens _ _ _ _ _ _ _ _ _ _ _ _ _ _ So), Es, F in Ed. injection Ed as Vl _.
  assert (Ts : ts = s_tags s) by now subst s. assert (Ls : ls = s_lists s) by now subst s. assert (Pt : s_patches s = pt) by now subst s. clear Rl.
  destruct (sopens_write expand _ _ _ _ _ _ _ _ (proj1 Rg) So) as (Wr & El). rewrite Ts in El.
  pose proof Ad as (Da & Ell & (Ev & Ec & Pr & Su) & b1 & b' & Gv & Rn & Ed').
  assert (Ell' : s_lists s'' = s_lists s) by (rewrite Es''; cbn [with_tags s_lists]; rewrite Ell; reflexivity). rewrite Ell', <- Ls, Wr in Vl.
  destruct (sopens_opens expand _ _ _ _ _ _ _ _ So) as (wa & O). rewrite Ts in O.
  destruct (add_step expand s a b loc new s' lines w wa (sections_raw ss) G O Sm Ne Ad V Nm Co Sp Nbs) as (y & y' & E1 & E2 & R & K). cbn zeta in *. set (x := flat_map tag_raw a ++ t_preceding new) in *.
  destruct (front_settled expand _ _ _ _ _ G O Sm) as (Se & Nr & _ & Sx).
  pose proof Nm as (dg0 & En & Dg). destruct (prefix_line s dg0 (t_separator new) loc (tag_text new) new) as (Tn & Sn'); auto; try apply V.
  assert (Et : tag_text new = t_name new ++ t_separator new ++ loc) by apply Tn. assert (NLn : ~ In LF (tag_text new)) by apply no_break_LF, Sn'.
  assert (Ets : s_tags s'' = mk_tags (a ++ commented cs new :: b') (ts_remainder (s_tags s'))) by (rewrite Es''; cbn [with_tags s_tags]; now rewrite Ed', update_at_app).
  assert (Rn1 : tag_raw (commented cs new) = t_preceding new ++ map hashed cs ++ [tag_text new]).
  { unfold tag_raw. change (tag_text (commented cs new)) with (tag_text new). rewrite (split_on_none _ NLn). unfold commented, add_comments, comments_raw. cbn [t_comments cs_data cs_preceding]. rewrite Ec. cbn [app]. rewrite map_map, <- app_assoc. reflexivity. }
  assert (Rn0 : tag_raw new = t_preceding new ++ [tag_text new]).
  { unfold tag_raw, comments_raw. rewrite Ec. cbn [map]. rewrite app_nil_r, split_on_none by auto. reflexivity. }
  assert (Ey : y' = flat_map tag_raw b' ++ ts_remainder (s_tags s')).
  { unfold tags_raw in E2. rewrite Ed', flat_map_app in E2. cbn [flat_map] in E2. rewrite Rn0 in E2. unfold x in E2. rewrite <- !app_assoc in E2. apply app_inv_head, app_inv_head in E2. cbn [app] in E2. now injection E2. }
  assert (E3 : tags_raw (s_tags s'') = x ++ map hashed cs ++ (t_name new ++ t_separator new ++ loc) :: y').
  { rewrite Ets. unfold tags_raw. cbn [ts_data ts_remainder]. rewrite flat_map_app. cbn [flat_map]. rewrite Rn1, Et, Ey. unfold x. rewrite <- !app_assoc. reflexivity. }
  exists x, (y ++ sections_raw ss), (y' ++ sections_raw ss), (t_name new), ds, (t_separator new). rewrite E1, <- app_assoc in El. split; [now symmetry|].
  split; [rewrite <- Vl, E3, <- !app_assoc; reflexivity|]. split; [exact Sn|].
  split; [apply Forall2_app; auto; clear; induction (sections_raw ss); constructor; auto; now left|]. intros Bt Qc.
  destruct (K Bt) as (G1 & Sh1 & (bs & Fr & Fr1) & _).
  assert (Eb : sections_raw ss = block_lines bs). { pose proof (front_lines _ _ _ Fr) as Q. rewrite E1, <- app_assoc, <- El in Q. now apply app_inv_head, app_inv_head in Q. }
  rewrite E2 in G1, Sh1, Fr1.
  assert (D1 : ~ in_definition (parse_plain ((x ++ (t_name new ++ t_separator new ++ loc) :: y') ++ sections_raw ss)) (length x)).
  { intros D. destruct G1 as (_ & _ & TO). refine (TO (length x) (tag_text new) _ _ _ _ D Tn). rewrite <- app_assoc, nth_error_app2, Nat.sub_diag by lia. rewrite Et. reflexivity. }
  destruct (insert_comments cs Qc Nb _ x _ bs G1 Fr1) as (G2 & Fr2 & Sh2); [discriminate|exact D1|]. rewrite <- E3, <- Eb in G2, Fr2, Sh2. rewrite Eb in Sh1, Sh2. cbv zeta in *.
  rewrite Da in Se, Sm, Ne, Sx. apply Forall_app in Se as (Sea & Seb). apply Forall_app in Sm as (Sma & Smb). apply Forall_app in Ne as (Nea & Neb). apply Forall_app in Sx as (Sxa & Sxb).
  destruct (given_tags _ _ _ _ _ Gv Seb Smb Sxb Neb Nr) as (_ & Se1 & Sm1 & Sx1 & Ne1 & Nr1 & Nmv). destruct (renumbered_tags s b1 b' Se1 Sm1 Sx1 Ne1 Rn) as (Qb & Sb & _).
  assert (Nc : Forall no_tag (map hashed cs)).
  { apply Forall_forall. intros l Hl. apply in_map_iff in Hl as (c & <- & Hc). rewrite Forall_forall in Qc, Nb. apply (comment_facts c); auto. }
  assert (Qn : quiet (commented cs new)).
  { split; [|destruct Sn' as ((B' & R0 & _) & _); split; [exact NLn|]; split; [exact R0|]; right; cbn [commented t_value]; rewrite Ev; auto].
    unfold commented, add_comments, comments_raw. cbn [t_comments cs_data cs_preceding]. rewrite Ec. cbn [app]. rewrite map_map. apply Forall_app. split; [exact Nmv|exact Nc]. }
  assert (Q : Forall quiet (ts_data (s_tags s''))). { rewrite Ets. cbn [ts_data]. apply Forall_app. split; [eapply Forall_impl; [|exact Sea]; intros; now apply settled_quiet|constructor; auto]. }
  assert (S'' : Forall simple_tag (ts_data (s_tags s''))). { rewrite Ets. cbn [ts_data]. apply Forall_app. split; auto. constructor; auto. split; cbn [commented t_value]; rewrite Ev; [apply no_break_LF, V|apply V]. }
  assert (Nr'' : Forall no_tag (ts_remainder (s_tags s''))) by (rewrite Ets; exact Nr1).
  assert (Pp : s_patches s'' = s_patches s) by (rewrite Es''; cbn [with_tags s_patches]; rewrite Ell; reflexivity).
  pose proof (reread expand pt dups imp dg lines w w1 s s'' bs Rg Pl Rs0 Fr Ell' Pp Q S'' Nr'') as Rr. cbv zeta in Rr. rewrite <- Eb, Vl in Rr. rewrite Vl in G2, Fr2. rewrite <- Eb in Sh1, Sh2. rewrite Vl in Sh2.
  split; [now apply regular_good|]. split; [apply shifted_same; eapply shifted_trans; eauto|]. intros w' l2 w2' s2 Rd2. destruct (Rr G2 Fr2 _ _ _ _ Rd2) as (J1 & _ & J3 & _ & J4 & J5). split; [exact J1|].
  assert (Tc : map tcore (ts_data (s_tags s'')) = map tcore (ts_data (s_tags s'))) by (rewrite Ets, Ed'; cbn [ts_data]; rewrite !map_app; reflexivity).
  destruct (same_reading s'' s') as (Q1 & Q2); [exact Tc|unfold entries; rewrite Ell'; now rewrite Ell|rewrite Pp, Ell; reflexivity|].
  split; [|apply Gd; congruence]. intros o Ho. eapply other_same; [symmetry; rewrite J3; exact Tc|]. now apply Ko.
Qed.
Theorem add_commented_patch_file lines w w1 s loc number comment initial dg lines' w2 : regular_file lines -> plain_lists true lines ->
  read_sources expand true false false dg lines w = (lines, w1, Ok s) -> Forall simple_tag (ts_data (s_tags s)) -> Forall neat (ts_data (s_tags s)) -> caseless_digits ->
  file_value loc -> no_list_entries s -> NoDup (numbers s) -> (forall n, number = Some n -> 0 <= n)%Z -> spec_add_patch expand loc number comment initial dg lines w = (lines', w2, Ok tt) ->
  file_inserted_below expand true false false dg lines s (splitlines comment) loc lines' (fun s2 => exists k m h, locations s2 = inserted k loc (locations s) /\ numbers s2 = inserted k m (numbers s) /\
    (forall x, In x (numbers s) -> x <= h)%Z /\ (locations s <> [] -> In h (numbers s)) /\ (locations s = [] -> h = -1)%Z /\
    let n := match number with Some n => n | None => Z.max (h + 1) initial end in
    (all_numbered s -> locations s <> [] -> m = n) /\ (locations s = [] -> dg <> 0%nat -> m = n) /\ (n = (h + 1)%Z -> m = n)).
Proof.
  intros Rg Pl Rs Sm Ne Cd V Nl Nn Np Ed. pose proof (proj1 (regular_good lines) Rg) as G. destruct (read_opens expand _ _ _ _ _ _ _ _ (proj1 Rg) Rs Cd) as ((wa & rest & O) & Rd & Bo).
  assert (Cfg : s_dups s = false /\ s_implicit s = false /\ s_digits s = dg).
  { destruct (view_sopens_inv expand _ _ _ _ _ _ _ _ _ _ _ Rs) as (p & ss & ts & ls & w1' & So). unfold read_sources in Rs. rewrite (view_sopens _ _ _ _ _ _ _ _ _ _ _ _ _ _ So) in Rs. injection Rs as _ _ <-. auto. }
  destruct Cfg as (Cf1 & Cf2 & Cf3).
  unfold spec_add_patch in Ed. destruct (edit_Ok expand _ _ _ _ _ _ _ _ _ _ _ (proj1 Rg) Rs Cd Ed) as (s0 & F & _). destruct (add_patch s loc number initial) as [[s' k]|] eqn:Fi; [|discriminate]. cbn [bind fst snd] in F. injection F as <-.
  assert (Nd : ~ In loc (locations s)).
  { intros Q. unfold add_patch in Fi. destruct (match number with Some n => _ | None => _ end) as [n|]; [|discriminate]. cbn [bind] in Fi. rewrite (numbered_duplicate s n loc Cf1 Q) in Fi. discriminate. }
  assert (Hn : forall n, number = Some n -> forall x, In x (numbers s) -> (x < n)%Z).
  { intros n -> x Hx. unfold add_patch in Fi. destruct (Z.leb_spec n (max_number s)) as [L|L]; [discriminate|]. assert (x <= max_number s)%Z; [|lia]. unfold max_number. clear - Hx.
    assert (K : forall l a, (a <= fold_left Z.max l a)%Z /\ (In x l -> x <= fold_left Z.max l a)%Z).
    { induction l as [|y l IH]; intros a; cbn [fold_left In]; [split; [lia|tauto]|]. destruct (IH (Z.max a y)) as (I1 & I2). split; [lia|]. intros [->|H]; [lia|auto]. }
    now apply K. }
  destruct (add_patch_semantics s loc number initial Rd (or_intror Nd) Nl Nn Hn Np) as (s1 & k1 & m & h & F1 & Lo & Nu & Ko & H1 & H2 & H3 & H4). rewrite Fi in F1. injection F1 as <- <-.
  assert (Ad : exists a b new, tag_added s a b loc new s' /\ fits_new s new).
  { unfold add_patch in Fi. destruct number as [n|]; [destruct (Z.leb n (max_number s)); [discriminate|]|]; cbn [bind] in Fi; eapply (numbered_added expand); eauto.
    assert (K : forall l a, (a <= fold_left Z.max l a)%Z) by (induction l as [|y l IH]; intros a; cbn [fold_left]; [lia|]; specialize (IH (Z.max a y)); lia). specialize (K (numbers s) (-1)%Z). unfold max_number. lia. }
  destruct Ad as (a & b & new & Ad & Ft). pose proof Ad as (Da & Ell & (Ev & _) & b1 & b' & _ & _ & Ed').
  destruct (new_place s' k loc (locations s) a new b' Cd Lo Nd) as (it & Hi & Hp); auto.
  { unfold add_patch in Fi. destruct (match number with Some n => _ | None => _ end) as [n|]; [|discriminate]. cbn [bind] in Fi. now apply numbered_bound in Fi. }
  { destruct Ft as (Nm & _). unfold s_prefix in *. rewrite Ell. exact Nm. }
  refine (commented_file true false false dg lines w w1 s a b loc new s' _ (splitlines comment) lines' _ w2 Rg Pl Rs Sm Ne Cd Ad V Ft (splitlines_no_break _) eq_refl _ Ed Ko _ _).
  - cbv beta. rewrite Fi. cbn [bind fst snd]. unfold extend_comments. rewrite Hi, Hp. reflexivity.
  - intros s2 L2 N2. exists k, m, h. rewrite L2, N2. split; [exact Lo|]. split; [exact Nu|]. split; [exact H1|]. split; [exact H2|]. split; [exact H3|]. cbn zeta in *. destruct H4 as (H5 & H6 & H7). split; [exact H5|]. split; [|exact H7]. intros L0 Dg. apply H6; auto. congruence.
Qed.
End World.
End Uni.
