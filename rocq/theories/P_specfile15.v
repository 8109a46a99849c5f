(** Proofs about operations on a whole spec file: updating a tag. *)
From Coq Require Import Ascii String.
From Coq Require Import NArith ZArith List Bool Lia.
From Verif Require P_value P_update4.
From Verif Require Import PyStr PyStrFacts Regex RegexFacts M_constants M_options M_value M_macro_definitions Spec_macro_definitions P_macro_definitions P_macro_definitions2
  P_macro_definitions3 M_conditions M_sections Spec_sections P_sections P_sections2 P_sections4 M_tags Spec_tags P_tags P_tags2 P_tags3 P_tags4 P_tags5 P_context
  M_release M_update M_specfile Spec_specfile Spec_update Spec_specfile2 P_specfile P_specfile2 P_specfile5 P_specfile6 P_specfile7 P_specfile10 P_specfile11 P_specfile12 P_specfile13 P_specfile14 P_specfile3 P_specfile4 P_conditions2.
Import ListNotations.
Open Scope N_scope.
Open Scope nat_scope.

Section Uni.
Context {U : Unicode}.
Notation F := (map (fun l : str => (l, true))).
Definition readable (l : str) : Prop := exists r, split_conditional_macro_expansion l = Ok r.
(** * Counting *)
Lemma sort_filter (p : entity -> bool) l : length (List.filter p (sort_entities l)) = length (List.filter p l).
Proof.
  induction l as [|e l IH]; auto. cbn [sort_entities fold_right]. fold (sort_entities l). cbn [List.filter].
  assert (Q : forall l', length (List.filter p (insert_entity e l')) = length (List.filter p (e :: l'))).
  { induction l' as [|x l' IH']; auto. cbn [insert_entity]. destruct (Nat.leb (e_position e) (e_position x)); auto. cbn [List.filter] in *. destruct (p x), (p e); cbn [length] in *; rewrite IH'; auto. }
  rewrite Q. cbn [List.filter]. destruct (p e); cbn [length]; auto.
Qed.
Lemma filter_app_length {A} (p : A -> bool) l l' : length (List.filter p (l ++ l')) = length (List.filter p l) + length (List.filter p l').
Proof. induction l as [|x l IH]; cbn; auto. destruct (p x); cbn; lia. Qed.
Lemma filter_none {A} (p : A -> bool) l : (forall x, In x l -> p x = false) -> length (List.filter p l) = 0.
Proof. induction l as [|x l IH]; intros H; cbn; auto. rewrite (H x (or_introl eq_refl)). apply IH. intros; apply H; now right. Qed.
Lemma only_one_length {A} (p : A -> bool) : forall l, (forall i j d u, nth_error l i = Some d -> nth_error l j = Some u -> p d = true -> p u = true -> i = j) -> length (List.filter p l) <= 1.
Proof.
  induction l as [|x l IH]; intros H; cbn; auto. destruct (p x) eqn:E.
  - cbn [length]. rewrite filter_none; auto. intros y Hy. destruct (p y) eqn:Ey; auto. apply In_nth_error in Hy as (j & Hj). discriminate (H 0 (S j) x y eq_refl Hj E Ey).
  - apply IH. intros i j d u Hi Hj Pd Pu. specialize (H (S i) (S j) d u Hi Hj Pd Pu). lia.
Qed.
Lemma skeleton_counted b n es es' : same_skeleton es es' -> counted b n es' = counted b n es /\ tcounted n es' = tcounted n es.
Proof.
  unfold counted, tcounted. induction 1 as [|e e' es es' (N & T & _) _ (IH1 & IH2)]; auto. cbn [List.filter]. rewrite <- N, <- T. destruct (Bool.eqb (e_tag e) b && _), (e_tag e && _); cbn [length]; auto.
Qed.
Section Pure.
Context (expand : list str -> bool -> unit -> str -> result str * unit).
Lemma macro_entities_counted protected lines m n : forall l skip w w' es, macro_entities expand protected lines m skip l w = (w', Ok es) ->
  counted false n es <= length (List.filter (fun d => str_eqb (d_name d) n) l) /\ tcounted n es = 0.
Proof.
  induction l as [|d l IH]; intros skip w w' es; cbn [macro_entities].
  - intros Q; injection Q as <- <-. auto.
  - destruct (_ && _ && _).
    + destruct (get_position d m) as [p|]; [|discriminate]. cbv zeta. assert (K : forall sk w0 w1 es1 dis, macro_entities expand protected lines m sk l w0 = (w1, Ok es1) ->
        counted false n (mk_entity (d_name d) (d_body d) false p dis false false false :: es1) <= length (List.filter (fun d => str_eqb (d_name d) n) (d :: l)) /\
        tcounted n (mk_entity (d_name d) (d_body d) false p dis false false false :: es1) = 0).
      { intros sk w0 w1 es1 dis Q. apply IH in Q as (Q1 & Q2). unfold counted, tcounted in *. cbn [List.filter e_tag e_name Bool.eqb andb]. destruct (str_eqb (d_name d) n); cbn [length]; lia. }
      destruct (d_commented_out d).
      * destruct (macro_entities expand protected lines m skip l w) as [w1 [es1|]] eqn:E; [|discriminate]. intros Q; injection Q as <- <-. eauto.
      * destruct (expand lines skip w (d_body d)) as [[x|] w1]; [|discriminate].
        destruct (macro_entities expand protected lines m true l w1) as [w2 [es1|]] eqn:E; [|discriminate]. intros Q; injection Q as <- <-. eauto.
    + intros Q. apply IH in Q as (Q1 & Q2). split; auto. cbn [List.filter]. destruct (str_eqb (d_name d) n); cbn [length]; lia.
Qed.
Lemma tag_entities_counted protected ts n : forall l es, (forall t, In t l -> Forall (fun c => (c < 128)%N) (t_name t)) -> tag_entities protected ts l = Ok es ->
  tcounted n es <= length (List.filter (fun t => str_eqb (capitalize (t_name t)) (capitalize n)) l) /\ counted false n es = 0.
Proof.
  induction l as [|t l IH]; intros es A; cbn [tag_entities].
  - intros Q; injection Q as <-. auto.
  - pose proof (IH) as IH'. destruct (_ && _).
    + unfold bind. destruct (tag_position t ts) as [p|]; [|discriminate]. destruct (tag_entities protected ts l) as [es1|] eqn:E; [|discriminate]. intros Q; injection Q as <-.
      destruct (IH es1 (fun x H => A x (or_intror H)) eq_refl) as (Q1 & Q2). unfold counted, tcounted in *. cbn [List.filter e_tag e_name Bool.eqb andb]. rewrite capitalize_lower by (apply A; now left).
      destruct (str_eqb (capitalize (t_name t)) (capitalize n)); cbn [length]; lia.
    + intros Q. apply IH in Q as (Q1 & Q2); [|intros; apply A; now right]. split; auto. cbn [List.filter]. destruct (str_eqb _ _); cbn [length]; lia.
Qed.
Lemma collected_counted protected lines m ts es n : collected expand protected lines m ts es -> (forall t, In t (ts_data ts) -> Forall (fun c => (c < 128)%N) (t_name t)) ->
  counted false n es <= length (List.filter (fun d => str_eqb (d_name d) n) (md_data m)) /\
  tcounted n es <= length (List.filter (fun t => str_eqb (capitalize (t_name t)) (capitalize n)) (ts_data ts)).
Proof.
  intros (es1 & es2 & E1 & E2 & ->) A. destruct (macro_entities_counted _ _ _ n _ _ _ _ _ E1) as (A1 & B1). destruct (tag_entities_counted _ _ n _ _ A E2) as (A2 & B2).
  unfold counted, tcounted in *. rewrite !sort_filter, !filter_app_length. lia.
Qed.
Lemma collected_fresh protected lines m ts es e : collected expand protected lines m ts es -> In e es -> e_updated e = false /\ e_flip e = false /\
  (e_tag e = true -> exists t, In t (ts_data ts) /\ e_name e = lower (t_name t)).
Proof.
  intros (es1 & es2 & E1 & E2 & ->) H. apply sort_perm in H. apply in_app_or in H as [H|H].
  - apply (macro_entities_free expand) with (1 := E1) in H. destruct H as (T & _ & U1 & F1). repeat split; auto. congruence.
  - pose proof (tag_entities_free _ _ _ _ E2 e H) as (_ & _ & U1 & F1). repeat split; auto. intros _. destruct (tag_entities_ok protected ts (ts_data ts) (fun _ h => h)) as (es3 & E3 & K). rewrite E2 in E3. injection E3 as <-.
    destruct (K e H) as (_ & _ & _ & t & Ht & Nt & _). eauto.
Qed.

(** * The steps of an update *)
Lemma update_tag_unfold isid protected name requested lines lines' ts m k t pos es : read_tags expand lines tt = (lines, tt, Ok ts) -> read_macros expand lines tt = (lines, tt, Ok m) ->
  tag_index ts name = Ok k -> nth_error (ts_data ts) k = Some t -> tag_position t ts = Ok pos -> collected expand protected lines m ts es ->
  update_tag expand isid protected name requested lines tt = (lines', tt, Ok tt) ->
  exists es' r m' ts5 rest5 ts6 ts7 rest7 k7,
    update (fun s w => let (x, w) := expand lines false w s in (w, x)) isid (S pos) (t_value t) requested pos es tt = (tt, Ok (es', r)) /\
    sync_macros es' m = (m', Ok tt) /\ opens expand (get_raw_data m') tt ts5 tt rest5 /\ sync_tags es' ts5 = (ts6, Ok tt) /\
    opens expand (tags_raw ts6 ++ rest5) tt ts7 tt rest7 /\ tag_index ts7 name = Ok k7 /\ lines' = tags_raw (set_value_at k7 r ts7) ++ rest7.
Proof.
  intros R M I Hk Hp (es1 & es2 & E1 & E2 & ->) E. destruct (read_opens _ _ _ _ _ _ R) as (rest & O & El). destruct (macros_opens _ _ _ M) as (P & G).
  assert (VT : forall A (body : tags -> unit -> tags * unit * result A), view_tags expand body lines tt = let '(ts', w, r) := body ts tt in (tags_raw ts' ++ rest, w, r)) by (intros; apply (view_opens _ _ _ _ _ _ _ _ O)).
  assert (VM : forall A (body : list str -> mdefs -> unit -> mdefs * unit * result A), view_macros expand body lines tt = let '(m', w, r) := body lines m tt in (get_raw_data m', w, r)).
  { intros. unfold view_macros. now rewrite P. }
  unfold update_tag in E. unfold andthen at 1 in E. rewrite VT in E. rewrite I in E. cbn [bind] in E. rewrite Hk in E. cbn [bind] in E. rewrite Hp in E. cbn [bind] in E. rewrite <- El in E.
  unfold andthen at 1 in E. unfold update_value in E. unfold andthen at 1 in E. rewrite VM, E1, G in E. unfold andthen at 1 in E. rewrite VT, E2, <- El in E. unfold andthen at 1 in E.
  destruct (update _ isid (S pos) (t_value t) requested pos (sort_entities (es1 ++ es2)) tt) as [[] [[es' r]|]] eqn:Eu; [|discriminate].
  unfold andthen at 1 in E. rewrite VM in E. destruct (sync_macros es' m) as [m' [[]|]] eqn:Es; [|discriminate]. unfold andthen at 1 in E.
  destruct (view_cases expand (get_raw_data m') tt) as [(ts5 & [] & rest5 & O5)|(x & w' & e & V)]; [|rewrite V in E; discriminate].
  rewrite (view_opens _ _ _ _ _ _ _ _ O5) in E. destruct (sync_tags es' ts5) as [ts6 [[]|]] eqn:Et; [|discriminate]. cbn [done] in E. unfold done, set_tag in E.
  destruct (view_cases expand (tags_raw ts6 ++ rest5) tt) as [(ts7 & [] & rest7 & O7)|(x & w' & e & V)]; [|rewrite V in E; discriminate].
  rewrite (view_opens _ _ _ _ _ _ _ _ O7) in E. destruct (tag_index ts7 name) as [k7|] eqn:E7; [|discriminate]. injection E as <-.
  exists es', r, m', ts5, rest5, ts6, ts7, rest7, k7. repeat split; auto.
Qed.

(** * What is read after an update *)
Lemma macros_plain lines m w w' : parse_with_conditions (expand lines) w lines true = (Ok m, w') -> parse_plain lines = mk_mdefs (map unvalid (md_data m)) (md_remainder m).
Proof.
  unfold parse_with_conditions. cbn [negb]. destruct (process_conditions (expand lines) w lines (Some (parse_plain lines))) as [[tagged|] w1] eqn:E; [|discriminate]. intros Q. injection Q as <- _.
  apply process_lines in E. rewrite <- E at 1. apply parse_fst.
Qed.
Lemma regular_good lines : regular_file lines <-> good_file lines.
Proof.
  unfold regular_file, good_file. split.
  - intros (A & B & C & D). repeat split; auto. apply Forall_forall. intros l Hl. rewrite Forall_forall in A, B. split; auto.
  - intros (A & C & D). repeat split; auto; eapply Forall_impl; try exact A; intros l Hl; apply Hl.
Qed.
Lemma cores_nth l l' i (t : tag) : map tcore l = map tcore l' -> nth_error l i = Some t -> exists t', nth_error l' i = Some t' /\ tcore t' = tcore t.
Proof.
  intros E H. apply (map_nth_error tcore) in H. rewrite E in H. destruct (nth_error l' i) as [t'|] eqn:Et.
  - exists t'. split; auto. apply (map_nth_error tcore) in Et. congruence.
  - apply nth_error_None in Et. rewrite <- (map_length tcore) in Et. apply nth_error_None in Et. congruence.
Qed.
Lemma core_fields (t t' : tag) : tcore t' = tcore t -> t_prefix t' = t_prefix t /\ t_name t' = t_name t /\ t_separator t' = t_separator t /\ t_value t' = t_value t /\ t_suffix t' = t_suffix t.
Proof. unfold tcore. intros Q. injection Q as -> -> -> -> ->. auto. Qed.
Lemma became_none vs ds ds' : Forall (fun o => o = None) vs -> became_all vs ds ds' -> Forall2 (fun d d' => d_name d' = d_name d /\ d_is_global d' = d_is_global d /\ d_body d' = d_body d) ds ds'.
Proof. intros N B. induction B as [|o d d' vs ds ds' B _ IH]; [constructor|]. inversion N; subst. constructor; auto. destruct B as (_ & B). rewrite B. auto. Qed.
Lemma became_bodies es vs ds ds' : became_all vs ds ds' -> Forall2 (fun o d => match o with
    | Some v => exists e, In e es /\ e_tag e = false /\ e_updated e = true /\ e_name e = d_name d /\ v = e_value e
    | None => forall e, In e es -> e_tag e = false -> e_name e = d_name d -> e_updated e = false end) vs ds ->
  Forall2 (fun d d' => d_name d' = d_name d /\ d_is_global d' = d_is_global d /\ updated_to es false (d_name d) (d_body d) (d_body d')) ds ds'.
Proof.
  induction 1 as [|o d d' vs ds ds' B _ IH]; intros H; inversion H as [|? ? ? ? H0 H']; subst; constructor; auto. destruct o as [v|].
  - destruct B as (_ & _ & _ & _ & B). assert (Q : d_name d' = d_name d /\ d_is_global d' = d_is_global d /\ d_body d' = v) by (rewrite B; unfold reread; destruct (d_ws d) as [[[? ?] ?] ?]; auto). destruct Q as (-> & -> & ->).
    destruct H0 as (e & H1 & H2 & H3 & H4 & ->). split; [reflexivity|]. split; [reflexivity|]. left. exists e. repeat split; auto.
  - destruct B as (_ & B). assert (Q : d_name d' = d_name d /\ d_is_global d' = d_is_global d /\ d_body d' = d_body d) by (rewrite B; auto). destruct Q as (-> & -> & ->).
    split; [reflexivity|]. split; [reflexivity|]. right. split; auto.
Qed.
Lemma plain_nth m i d : nth_error (md_data m) i = Some d -> nth_error (map unvalid (md_data m)) i = Some (unvalid d).
Proof. apply map_nth_error. Qed.
Theorem update_tag_effect isid protected name requested lines lines' ts m k t pos es :
  let ex s := fst (expand lines false tt s) in
  regular_file lines -> read_tags expand lines tt = (lines, tt, Ok ts) -> read_macros expand lines tt = (lines, tt, Ok m) ->
  Forall simple_tag (ts_data ts) -> (forall u, In u (ts_data ts) -> Forall (fun c => (c < 128)%N) (t_name u)) ->
  only_tag ts name k t -> lower (t_name t) = lower name -> one_line t -> tag_position t ts = Ok pos ->
  collected expand protected lines m ts es -> entities_ok es -> separate ex es pos (t_value t) ->
  (forall j e, nth_error es j = Some e -> on_own_line m ts e \/ ~ reaches es pos (t_value t) j) ->
  requested <> [] -> ~ In PCT requested -> ~ In LF requested ->
  update_tag expand isid protected name requested lines tt = (lines', tt, Ok tt) ->
  exists es' r, same_skeleton es es' /\ (forall j, ~ reaches es pos (t_value t) j -> nth_error es' j = nth_error es j) /\ text_evaluates ex es' pos r requested /\
    ((forall e, In e es' -> e_updated e = true -> file_value (e_value e)) -> file_value r ->
     regular_file lines' /\
     (forall l2 w2 ts2, read_tags expand lines' tt = (l2, w2, Ok ts2) -> l2 = lines' /\ tags_updated es' k r ts ts2) /\
     (forall l2 w2 m2, read_macros expand lines' tt = (l2, w2, Ok m2) -> l2 = lines' /\ macros_updated es' m m2)).
Proof.
  intros ex Rf Rt Rm Sm As Ot Ln Ol Hp Co Oe Sp Own N1 N2 N3 E.
  assert (I : tag_index ts name = Ok k).
  { apply (designates_index ts name k t); auto. destruct Ot as (H1 & H2 & H3). split; auto. split; auto. destruct (t_valid t) eqn:V; [left|right].
    - split; auto. intros j u Lj Hj Nu. pose proof (H3 j u Hj Nu). lia.
    - split; [intros u Hu Nu; apply In_nth_error in Hu as (j & Hj); pose proof (H3 j u Hj Nu); subst j; congruence|]. intros j u Lj Hj Nu. pose proof (H3 j u Hj Nu). lia. }
  destruct (update_tag_unfold isid protected name requested lines lines' ts m k t pos es Rt Rm I (proj1 Ot) Hp Co E) as (es' & r & m' & ts5 & rest5 & ts6 & ts7 & rest7 & k7 & Eu & Es & O5 & Et & O7 & I7 & El).
  assert (Pu : forall s w, True -> exists w', (let (x, w) := expand lines false w s in (w, x)) = (w', ex s) /\ True).
  { intros s []. intros _. unfold ex. destruct (expand lines false tt s) as [x []]. exists tt. auto. }
  destruct (P_update4.update_sound (fun s w => let (x, w) := expand lines false w s in (w, x)) isid ex (fun _ => True) Pu _ _ _ _ _ _ _ _ _ Logic.I Oe Sp (conj N1 (conj N2 N3)) Eu) as (_ & Sk & Un & Ev & _).
  exists es', r. split; [exact Sk|]. split; [exact Un|]. split; [exact Ev|]. intros Fe Fr.
  apply regular_good in Rf. destruct (macros_opens _ _ _ Rm) as (Pm & _). apply macros_plain in Pm.
  destruct (read_opens _ _ _ _ _ _ Rt) as (rest & O & _).
  (* the updated ones *)
  assert (Up : forall e', In e' es' -> e_updated e' = true -> exists e, In e es /\ e_name e' = e_name e /\ e_tag e' = e_tag e /\ on_own_line m ts e).
  { intros e' He' U'. apply In_nth_error in He' as (j & Hj). destruct (Forall2_nth_l _ _ _ Sk j e' Hj) as (e & He & Nn & Tt & _). exists e. split; [eapply nth_error_In; eauto|]. split; auto. split; auto.
    destruct (Own j e He) as [Q|Q]; auto. apply Un in Q. rewrite Hj, He in Q. injection Q as <-. destruct (collected_fresh _ _ _ _ _ _ Co (nth_error_In _ _ He)) as (Q & _). congruence. }
  assert (Fl : forall e', In e' es' -> e_flip e' = false).
  { intros e' He'. apply In_nth_error in He' as (j & Hj). destruct (Forall2_nth_l _ _ _ Sk j e' Hj) as (e & He & _ & _ & _ & _ & <-). destruct Oe as (Q & _). apply Q. eapply nth_error_In; eauto. }
  (* definitions *)
  assert (Um : forall e', In e' es' -> e_tag e' = false -> e_updated e' = true -> exists i d, only_macro m (e_name e') i d /\ ordinary d /\ blank (d_prefix d)).
  { intros e' He' T' U'. destruct (Up e' He' U') as (e & _ & Nn & Tt & Q). unfold on_own_line in Q. rewrite <- Tt, T' in Q. rewrite Nn. exact Q. }
  destruct (synced_all es' m m' Fl Es) as (Er & Sy).
  { intros e' He' T' U'. destruct (Um e' He' T' U') as (i & d & (_ & _ & H3) & _).
    assert (On : only_named (e_name e') (md_data m)) by (intros a b x y Hx Hy Nx Ny; rewrite (H3 a x Hx Nx), (H3 b y Hy Ny); reflexivity). split; [|exact On].
    rewrite (proj1 (skeleton_counted false (e_name e') _ _ Sk)). etransitivity; [apply (collected_counted _ _ _ _ _ _ Co As)|]. apply only_one_length. intros a b x y Hx Hy Px Py. apply str_eqb_eq in Px, Py. eauto. }
  assert (Sy' : Forall2 (synced es') (md_data (parse_plain lines)) (map unvalid (md_data m'))).
  { rewrite Pm. cbn [md_data]. clear - Sy. induction Sy as [|d d' ds ds' S _ IH]; cbn [map]; constructor; auto. destruct S as [(e & H1 & H2 & H3 & H4 & ->)|(Q & ->)]; [left|right]; [|auto]. exists e. repeat split; auto. }
  destruct (synced_edited _ _ _ Sy') as (vs & Ed & Fv & Lk).
  { intros d e' Hd He' T' U' Nn. rewrite Pm in Hd. cbn [md_data] in Hd. apply in_map_iff in Hd as (d0 & <- & Hd). cbn [unvalid d_name] in Nn. destruct (Um e' He' T' U') as (i & d1 & (H1 & H2 & H3) & H4 & H5).
    apply In_nth_error in Hd as (j & Hj). pose proof (H3 j d0 Hj (eq_sym Nn)). subst j. rewrite H1 in Hj. injection Hj as <-. split; [exact H4|]. split; [exact H5|]. now apply Fe. }
  assert (Oo : only_one vs (md_data (parse_plain lines))).
  { intros i v d j u Hv Hd Hu Nn. pose proof (Forall2_nth _ _ _ Lk i _ _ Hv Hd) as (e' & He' & T' & U' & Ne & _). destruct (Um e' He' T' U') as (i1 & d1 & (_ & _ & H3) & _).
    rewrite Pm in Hd, Hu. cbn [md_data] in Hd, Hu. rewrite nth_error_map in Hd, Hu. destruct (nth_error (md_data m) i) as [d0|] eqn:Hd0; [|discriminate]. destruct (nth_error (md_data m) j) as [u0|] eqn:Hu0; [|discriminate].
    injection Hd as <-. injection Hu as <-. cbn [unvalid d_name] in *. rewrite (H3 j u0 Hu0), (H3 i d0 Hd0); congruence. }
  set (lines5 := get_raw_data m') in *.
  assert (E5 : lines5 = get_raw_data (mk_mdefs (map unvalid (md_data m')) (md_remainder (parse_plain lines)))).
  { unfold lines5, get_raw_data. rewrite Pm. cbn [md_data md_remainder]. now rewrite unvalid_raw, Er. }
  destruct (def_step expand lines vs _ lines5 Rf Ed Fv Oo E5) as (G5 & B5 & K5). destruct (K5 _ _ _ _ _ _ _ _ O Sm O5) as (Sm5 & C5). clear K5.
  (* tags *)
  assert (Ut : forall e', In e' es' -> e_tag e' = true -> e_updated e' = true -> exists i u, only_tag ts (e_name e') i u /\ one_line u).
  { intros e' He' T' U'. destruct (Up e' He' U') as (e & _ & Nn & Tt & Q). unfold on_own_line in Q. rewrite <- Tt, T' in Q. rewrite Nn. exact Q. }
  assert (Ut5 : forall e' i u, In e' es' -> e_tag e' = true -> e_updated e' = true -> nth_error (ts_data ts5) i = Some u -> named (e_name e') u ->
     exists u0, only_tag ts (e_name e') i u0 /\ one_line u).
  { intros e' i u He' T' U' Hu Nu. destruct (Ut e' He' T' U') as (i0 & u0 & Q & O0). destruct (cores_nth _ _ _ _ C5 Hu) as (u1 & Hu1 & Ec). apply core_fields in Ec as (F1 & F2 & F3 & F4 & F5).
    pose proof Q as (H1 & _ & H3). assert (i = i0) by (apply (H3 i u1); auto; unfold named in *; congruence). subst i0. exists u0. split; [exact Q|]. rewrite H1 in Hu1. injection Hu1 as <-.
    destruct O0 as (A1 & A2 & A3). unfold one_line. rewrite <- F1, <- F4, <- F5. auto. }
  destruct (tsynced_all es' ts5 ts6 Et) as (Etr & Ts).
  { intros e' He' T' U'. split.
    - rewrite (proj2 (skeleton_counted false (e_name e') _ _ Sk)). etransitivity; [apply (collected_counted _ _ _ _ _ _ Co As)|]. destruct (Ut e' He' T' U') as (i & u & (_ & _ & H3) & _).
      apply only_one_length. intros a b x y Hx Hy Px Py. apply str_eqb_eq in Px, Py. rewrite (H3 a x Hx Px), (H3 b y Hy Py). reflexivity.
    - intros a b x y Hx Hy Nx Ny. destruct (Ut5 e' a x He' T' U' Hx Nx) as (u0 & (_ & _ & H3) & _). destruct (Ut5 e' b y He' T' U' Hy Ny) as (u1 & (Hb & Nb & _) & _). symmetry. eauto. }
  assert (Te : Forall2 tedit (ts_data ts5) (ts_data ts6)).
  { apply Forall2_nth_iff in Ts as (L & Ts). apply Forall2_nth_iff. split; auto. intros i u u' Hu Hu'. destruct (Ts i u u' Hu Hu') as [(e' & He' & T' & U' & Nu & ->)|(_ & ->)]; [right|now left].
    destruct (Ut5 e' i u He' T' U' Hu Nu) as (_ & _ & O1). exists (e_value e'). split; auto. }
  assert (E6 : tags_raw ts6 ++ rest5 = tags_raw (mk_tags (ts_data ts6) (ts_remainder ts5)) ++ rest5) by (rewrite <- Etr; now destruct ts6).
  destruct (tag_step expand _ _ _ _ _ _ _ G5 O5 Sm5 Te E6) as (G6 & (vs6 & N6 & B6) & K6). destruct (K6 _ _ _ _ O7) as (Sm7 & C7). clear K6.
  (* the names of tags are the same *)
  assert (Nm6 : forall i u, nth_error (ts_data ts7) i = Some u -> exists u5 u6 u0, nth_error (ts_data ts) i = Some u0 /\ nth_error (ts_data ts5) i = Some u5 /\ nth_error (ts_data ts6) i = Some u6 /\ tcore u5 = tcore u0 /\ tcore u = tcore u6 /\ tsynced es' u5 u6).
  { intros i u Hu. destruct (cores_nth _ _ _ _ C7 Hu) as (u6 & Hu6 & Q6). destruct (Forall2_nth_l _ _ _ Ts i u6 Hu6) as (u5 & Hu5 & Q5). destruct (cores_nth _ _ _ _ C5 Hu5) as (u0 & Hu0 & Q0).
    exists u5, u6, u0. repeat split; auto. }
  assert (Nm7 : forall i u, nth_error (ts_data ts7) i = Some u -> exists u0, nth_error (ts_data ts) i = Some u0 /\ t_name u = t_name u0 /\ t_prefix u = t_prefix u0 /\ t_suffix u = t_suffix u0 /\ t_separator u = t_separator u0).
  { intros i u Hu. destruct (Nm6 i u Hu) as (u5 & u6 & u0 & H0 & _ & _ & Q5 & Q6 & Ty). exists u0. split; auto. apply core_fields in Q5 as (A1 & A2 & A3 & A4 & A5), Q6 as (B1 & B2 & B3 & B4 & B5').
    destruct Ty as [(e' & _ & _ & _ & _ & ->)|(_ & ->)]; cbn [with_value t_prefix t_name t_separator t_suffix] in *; repeat split; congruence. }
  destruct (index_designates _ _ _ I7) as (t7 & (H7 & N7 & _)). destruct (Nm7 k7 t7 H7) as (u0 & Hu0 & Nn7 & Pr7 & Su7 & Se7).
  assert (k7 = k) by (destruct Ot as (_ & _ & H3); apply (H3 k7 u0 Hu0); unfold named in *; congruence). subst k7. destruct Ot as (Hk & Nk & H3). rewrite Hk in Hu0. injection Hu0 as <-.
  assert (Ol7 : one_line t7). { destruct Ol as (A1 & A2 & A3). rewrite Forall_forall in Sm7. split; [congruence|]. split; [congruence|]. apply (Sm7 t7). eapply nth_error_In; eauto. }
  assert (Te7 : Forall2 tedit (ts_data ts7) (update_at k (with_value r) (ts_data ts7))).
  { apply Forall2_nth_iff. split; [now rewrite update_at_length|]. intros i u u' Hu Hu'. rewrite update_at_nth, Hu in Hu'. destruct (Nat.eqb i k) eqn:Ek.
    - apply Nat.eqb_eq in Ek. subst i. rewrite H7 in Hu. injection Hu as <-. cbn in Hu'. injection Hu' as <-. right. eauto.
    - left. congruence. }
  destruct (tag_step expand _ _ _ _ _ _ _ G6 O7 Sm7 Te7 El) as (G8 & (vs8 & N8 & B8) & K8).
  split; [now apply regular_good|]. split.
  - intros l2 w2 ts2 R2. destruct (read_opens _ _ _ _ _ _ R2) as (rest8 & O8 & ->). destruct (K8 _ _ _ _ O8) as (_ & C8). split; [eapply tidy_opens; eauto; apply sane_tidy, G8|].
    assert (L8 : length (ts_data ts2) = length (ts_data ts)).
    { apply (f_equal (@length _)) in C8, C7, C5. rewrite !map_length in C8, C7, C5. rewrite update_at_length in C8. apply Forall2_len in Te. congruence. }
    split; [exact L8|]. intros i u u8 Hu Hu8. destruct (cores_nth _ _ _ _ C8 Hu8) as (u7 & Hu7 & Q8). apply core_fields in Q8 as (D1 & D2 & D3 & D4 & D5).
    rewrite update_at_nth in Hu7. destruct (nth_error (ts_data ts7) i) as [v7|] eqn:Hv7; [|destruct (Nat.eqb i k); discriminate]. destruct (Nm7 i v7 Hv7) as (v0 & Hv0 & Nv & Pv & Sv & Sev). rewrite Hu in Hv0. injection Hv0 as <-.
    destruct (Nat.eqb i k) eqn:Ek.
    + apply Nat.eqb_eq in Ek. subst i. cbn [option_map] in Hu7. injection Hu7 as <-. cbn [with_value t_prefix t_name t_separator t_value t_suffix] in *. repeat split; try congruence. all: intros; exfalso; auto.
    + apply Nat.eqb_neq in Ek. injection Hu7 as <-. repeat split; try congruence. intros _. destruct (Nm6 i v7 Hv7) as (u5 & u6 & v0 & Hv0 & Hu5 & _ & Q5 & Q6 & Ty). rewrite Hu in Hv0. injection Hv0 as <-.
      apply core_fields in Q5 as (A1 & A2 & A3 & A4 & A5), Q6 as (B1 & B2 & B3 & B4 & B5').
      destruct Ty as [(e' & He' & T' & U' & Nu & ->)|(Q & ->)].
      * left. exists e'. repeat split; auto; [|cbn [with_value t_value] in B4; congruence]. destruct (Up e' He' U') as (e & He & Ne & Te' & _). destruct (collected_fresh _ _ _ _ _ _ Co He) as (_ & _ & Q). destruct Q as (tq & Htq & Etq); [congruence|].
        destruct (Ut e' He' T' U') as (i0 & q0 & (Hq0 & Nq0 & H0) & _). apply In_nth_error in Htq as (jq & Hjq).
        assert (jq = i0). { apply (H0 jq tq Hjq). unfold named. rewrite Ne, Etq. symmetry. apply capitalize_lower. apply As. eapply nth_error_In; eauto. }
        assert (i = i0). { apply (H0 i u Hu). unfold named in *. congruence. }
        subst jq i0. congruence.
      * right. split; [|congruence]. intros e' He' T' Ne. apply Q; auto. unfold named. rewrite Ne, A2. symmetry. apply capitalize_lower. apply As. eapply nth_error_In; eauto.
  - intros l2 w2 m2 R2. assert (P2 : parse_with_conditions (expand lines') tt lines' true = (Ok m2, w2) /\ l2 = get_raw_data m2).
    { unfold read_macros, view_macros in R2. destruct (parse_with_conditions (expand lines') tt lines' true) as [[m0|] w0]; [|discriminate]. injection R2 as <- <- <-. auto. }
    destruct P2 as (P2 & ->). apply macros_plain in P2. split.
    { rewrite <- (parse_plain_raw lines') by (apply sane_clean, G8). rewrite P2. unfold get_raw_data. cbn [md_data md_remainder]. now rewrite unvalid_raw. }
    pose proof (became_bodies es' _ _ _ B5 Lk) as D5. pose proof (became_none _ _ _ N6 B6) as D6. pose proof (became_none _ _ _ N8 B8) as D8. rewrite Pm in D5. rewrite P2 in D8. cbn [md_data] in D5, D8.
    apply Forall2_nth_iff in D5 as (L5 & D5), D6 as (L6 & D6), D8 as (L8 & D8). rewrite map_length in L5, L8. split; [congruence|]. intros i d d2 Hd Hd2.
    pose proof (plain_nth _ _ _ Hd) as Hd'. pose proof (plain_nth _ _ _ Hd2) as Hd2'.
    destruct (nth_same_len (md_data m) (md_data (parse_plain lines5)) i d L5 Hd) as (d5 & Hd5). destruct (nth_same_len _ _ i d5 L6 Hd5) as (d6 & Hd6).
    destruct (D5 i _ _ Hd' Hd5) as (A1 & A2 & A3). destruct (D6 i _ _ Hd5 Hd6) as (B1 & B2 & B3). destruct (D8 i _ _ Hd6 Hd2') as (F1 & F2 & F3).
    cbn [unvalid d_name d_body d_is_global] in *. split; [congruence|]. split; [congruence|]. rewrite F3, B3. exact A3.
Qed.
End Pure.
End Uni.
