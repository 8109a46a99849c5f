(** Proofs about operations on a whole spec file: updating a tag. *)
From Coq Require Import Ascii String.
From Coq Require Import NArith ZArith List Bool Lia.
From Verif Require P_value P_update4.
From Verif Require Import PyStr PyStrFacts Regex RegexFacts M_constants M_options M_value M_macro_definitions Spec_macro_definitions P_macro_definitions P_macro_definitions2
  P_macro_definitions3 M_conditions M_sections Spec_sections P_sections P_sections2 P_sections4 M_tags Spec_tags P_tags P_tags2 P_tags3 P_tags4 P_tags5 P_context
  M_release M_update M_specfile Spec_specfile Spec_update Spec_specfile2 P_specfile P_specfile2 P_specfile5 P_specfile6 P_specfile7 P_specfile10 P_specfile11 P_specfile12 P_specfile13 P_specfile3 P_specfile4 P_conditions2.
Import ListNotations.
Open Scope N_scope.
Open Scope nat_scope.

Section Uni.
Context {U : Unicode}.
Notation F := (map (fun l : str => (l, true))).
Definition readable (l : str) : Prop := exists r, split_conditional_macro_expansion l = Ok r.
(** * Validity does not matter for what is read *)
Definition unvalid (d : mdef) : mdef := mk_mdef (d_name d) (d_body d) (d_is_global d) (d_commented_out d) (d_style d) (d_ws d) (d_prefix d) true (d_preceding d).
Lemma extend_body_fst : forall lines b b' rest, extend_body b lines = (b', rest) -> extend_body b (F (map fst lines)) = (b', F (map fst rest)).
Proof.
  induction lines as [|[l v] lines IH]; intros b b' rest; cbn [extend_body map fst].
  - intros Q. injection Q as <- <-. reflexivity.
  - destruct (body_open b); intros Q; [now apply IH|injection Q as <- <-; reflexivity].
Qed.
Lemma make_def_fst m v buffer lines d rest : make_def m v buffer lines = (d, rest) -> make_def m true buffer (F (map fst lines)) = (unvalid d, F (map fst rest)).
Proof.
  unfold make_def. destruct (_ && _ && _).
  - destruct (str_eqb (group_str 9 m) [BSLASH]).
    + destruct (extend_body (group_str 8 m ++ [BSLASH]) lines) as [b ls] eqn:E. rewrite (extend_body_fst _ _ _ _ E). destruct (split_trailing b _). intros Q; injection Q as <- <-. reflexivity.
    + destruct (extend_body (group_str 8 m) lines) as [b ls] eqn:E. rewrite (extend_body_fst _ _ _ _ E). destruct (split_trailing b _). intros Q; injection Q as <- <-. reflexivity.
  - destruct (split_trailing _ _). intros Q; injection Q as <- <-. reflexivity.
Qed.
Lemma loop_fst : forall fuel lines data buffer, parse_loop fuel (F (map fst lines)) (map unvalid data) buffer =
  let m := parse_loop fuel lines data buffer in mk_mdefs (map unvalid (md_data m)) (md_remainder m).
Proof.
  induction fuel as [|fuel IH]; intros lines data buffer; cbn [parse_loop]; auto. destruct lines as [|[l v] lines]; cbn [map fst]; auto.
  destruct (re_match md_regex l) as [m|]; [|apply IH]. destruct (make_def m v buffer lines) as [d rest] eqn:D. rewrite (make_def_fst _ _ _ _ _ _ D), <- IH, map_app. reflexivity.
Qed.
Lemma parse_fst lines : parse_plain (map fst lines) = mk_mdefs (map unvalid (md_data (parse_tagged lines))) (md_remainder (parse_tagged lines)).
Proof. unfold parse_plain, parse_tagged. rewrite !map_length. apply (loop_fst (length lines) lines [] []). Qed.
Lemma unvalid_raw l : flat_map mdef_raw (map unvalid l) = flat_map mdef_raw l.
Proof. induction l as [|d l IH]; cbn [map flat_map]; auto. now rewrite IH. Qed.

(** * Giving the macros and tags of a file the values of entities *)
Definition counted (is_tag : bool) (n : str) (es : list entity) : nat := length (List.filter (fun e => Bool.eqb (e_tag e) is_tag && str_eqb (e_name e) n) es).
Lemma counted_none is_tag n es : counted is_tag n es = 0 -> forall e, In e es -> e_tag e = is_tag -> e_name e <> n.
Proof.
  unfold counted. intros H e He <- <-. assert (Q : In e (List.filter (fun x => Bool.eqb (e_tag x) (e_tag e) && str_eqb (e_name x) (e_name e)) es)) by (apply filter_In; split; auto; now rewrite Bool.eqb_reflx, str_eqb_refl).
  destruct (List.filter _ es); [destruct Q|discriminate].
Qed.
Definition synced (es : list entity) (d d' : mdef) : Prop :=
  (exists e, In e es /\ e_tag e = false /\ e_updated e = true /\ e_name e = d_name d /\ d' = renewed (e_value e) d) \/
  (forall e, In e es -> e_tag e = false -> e_name e = d_name d -> e_updated e = false) /\ d' = d.
Definition only_named (n : str) (l : list mdef) : Prop := forall i j d u, nth_error l i = Some d -> nth_error l j = Some u -> d_name d = n -> d_name u = n -> i = j.
Lemma update_at_nth {A} (f : A -> A) : forall k l i, nth_error (update_at k f l) i = if Nat.eqb i k then option_map f (nth_error l i) else nth_error l i.
Proof. induction k as [|k IH]; intros [|x l] [|i]; cbn; auto; try apply IH; now destruct (Nat.eqb i k). Qed.
Lemma Forall2_impl {A B} (R S : A -> B -> Prop) l l' : (forall x y, R x y -> S x y) -> Forall2 R l l' -> Forall2 S l l'.
Proof. intros H. induction 1; constructor; auto. Qed.
Lemma update_at_length {A} (f : A -> A) : forall k l, length (update_at k f l) = length l.
Proof. induction k as [|k IH]; intros [|x l]; cbn; auto. Qed.
Lemma Forall2_nth_iff {A B} (R : A -> B -> Prop) : forall l l', Forall2 R l l' <-> length l = length l' /\ forall i x x', nth_error l i = Some x -> nth_error l' i = Some x' -> R x x'.
Proof.
  split; [intros H; split; [now apply Forall2_len in H|apply Forall2_nth, H]|]. revert l'. induction l as [|x l IH]; intros [|x' l'] (L & H); try discriminate; constructor.
  - now apply (H 0).
  - apply IH. split; [cbn in L; lia|]. intros i. apply (H (S i)).
Qed.
Lemma nth_same_len {A B} (l : list A) (l' : list B) i x : length l = length l' -> nth_error l i = Some x -> exists x', nth_error l' i = Some x'.
Proof. intros L H. assert (i < length l') by (rewrite <- L; apply nth_error_Some; congruence). destruct (nth_error l' i) eqn:E; eauto. apply nth_error_None in E. lia. Qed.
Lemma synced_all : forall es m m', (forall e, In e es -> e_flip e = false) -> sync_macros es m = (m', Ok tt) ->
  (forall e, In e es -> e_tag e = false -> e_updated e = true -> counted false (e_name e) es <= 1 /\ only_named (e_name e) (md_data m)) ->
  md_remainder m' = md_remainder m /\ Forall2 (synced es) (md_data m) (md_data m').
Proof.
  induction es as [|e es IH]; intros m m' Fl E H; cbn [sync_macros] in E.
  { injection E as <-. split; auto. apply Forall2_nth_iff. split; auto. intros i x x' Hx Hx'. right. split; [intros ? []|congruence]. }
  assert (Hc : forall e', In e' es -> e_tag e' = false -> e_updated e' = true -> counted false (e_name e') es <= 1 /\ only_named (e_name e') (md_data m)).
  { intros e' He' T' U'. destruct (H e' (or_intror He') T' U') as (C & O). split; auto. unfold counted in *. cbn [List.filter] in C. destruct (_ && _); cbn [length] in C; lia. }
  destruct (e_tag e) eqn:T.
  - destruct (IH m m' (fun e' He' => Fl e' (or_intror He')) E Hc) as (R1 & R2). split; [exact R1|]. eapply Forall2_impl; [|exact R2]. intros d d' [(x & Hx & Q)|(Q & ->)]; [left; exists x; split; [now right|exact Q]|].
    right. split; auto. intros e' [<-|He'] T' N'; [congruence|auto].
  - unfold sync_macro, bind in E. pose proof (P_macro_definitions2.find_at_spec m (e_name e) (e_position e)) as Fs. destruct (find_at m (e_name e) (e_position e)) as [k|]; [|discriminate].
    destruct Fs as (dk & Hk & Nk & _). rewrite (Fl e (or_introl eq_refl)) in E. destruct (e_updated e) eqn:Up.
    + destruct (H e (or_introl eq_refl) T Up) as (C & O).
      assert (C0 : counted false (e_name e) es = 0). { unfold counted in *. cbn [List.filter] in C. rewrite T, str_eqb_refl in C. cbn in C. lia. }
      pose proof (counted_none _ _ _ C0) as Nn.
      set (m1 := mk_mdefs (update_at k (fun d => with_commented_out false (with_body (e_value e) d)) (md_data m)) (md_remainder m)) in *.
      assert (Nm : forall i d1, nth_error (md_data m1) i = Some d1 -> exists d, nth_error (md_data m) i = Some d /\ d_name d1 = d_name d).
      { intros i d1 Hi. unfold m1 in Hi. cbn [md_data] in Hi. rewrite update_at_nth in Hi. destruct (Nat.eqb i k); [|eauto]. destruct (nth_error (md_data m) i) as [d|]; [|discriminate]. injection Hi as <-. eexists; split; reflexivity. }
      destruct (IH m1 m' (fun e' He' => Fl e' (or_intror He')) E) as (R1 & R2).
      { intros e' He' T' U'. destruct (Hc e' He' T' U') as (C' & O'). split; auto. intros i j d u Hi Hj N1 N2. apply Nm in Hi as (d0 & Hi & Ed), Hj as (u0 & Hj & Eu). apply (O' i j d0 u0); congruence. }
      split; [exact R1|]. apply Forall2_nth_iff in R2 as (L & R2). assert (L1 : length (md_data m1) = length (md_data m)) by (unfold m1; cbn [md_data]; apply update_at_length).
      apply Forall2_nth_iff. split; [congruence|]. intros i d d' Hd Hd'. destruct (nth_same_len (md_data m) (md_data m1) i d (eq_sym L1) Hd) as (d1 & Hd1).
      specialize (R2 i d1 d' Hd1 Hd'). pose proof Hd1 as Hd1'. unfold m1 in Hd1'. cbn [md_data] in Hd1'. rewrite update_at_nth, Hd in Hd1'. destruct (Nat.eqb i k) eqn:Ek.
      * apply Nat.eqb_eq in Ek. subst i. cbn [option_map] in Hd1'. injection Hd1' as <-. rewrite Hk in Hd. injection Hd as <-. destruct R2 as [(x & Hx & Tx & _ & Nx & _)|(_ & ->)].
        -- exfalso. apply (Nn x Hx Tx). rewrite Nx. exact Nk.
        -- left. exists e. repeat split; auto. now left.
      * injection Hd1' as <-. destruct R2 as [(x & Hx & Q)|(Q & ->)]; [left; exists x; split; [now right|exact Q]|]. right. split; auto. intros e' [<-|He'] T' N'; [|auto].
        apply Nat.eqb_neq in Ek. exfalso. apply Ek. apply (O i k d dk); auto.
    + rewrite update_at_id in E by reflexivity. replace (mk_mdefs (md_data m) (md_remainder m)) with m in E by now destruct m.
      destruct (IH m m' (fun e' He' => Fl e' (or_intror He')) E Hc) as (R1 & R2). split; [exact R1|]. eapply Forall2_impl; [|exact R2]. intros d d' [(x & Hx & Q)|(Q & ->)]; [left; exists x; split; [now right|exact Q]|].
      right. split; auto. intros e' [<-|He'] T' N'; auto.
Qed.
(** The same for tags *)
Definition tsynced (es : list entity) (t t' : tag) : Prop :=
  (exists e, In e es /\ e_tag e = true /\ e_updated e = true /\ named (e_name e) t /\ t' = with_value (e_value e) t) \/
  (forall e, In e es -> e_tag e = true -> named (e_name e) t -> e_updated e = false) /\ t' = t.
Definition tcounted (n : str) (es : list entity) : nat := length (List.filter (fun e => e_tag e && str_eqb (capitalize (e_name e)) (capitalize n)) es).
Lemma tcounted_none n es : tcounted n es = 0 -> forall e, In e es -> e_tag e = true -> capitalize (e_name e) <> capitalize n.
Proof.
  unfold tcounted. intros H e He T N. assert (Q : In e (List.filter (fun x => e_tag x && str_eqb (capitalize (e_name x)) (capitalize n)) es)) by (apply filter_In; split; auto; rewrite T, N; apply str_eqb_refl).
  destruct (List.filter _ es); [destruct Q|discriminate].
Qed.
Definition tonly_named (n : str) (l : list tag) : Prop := forall i j d u, nth_error l i = Some d -> nth_error l j = Some u -> named n d -> named n u -> i = j.
Lemma tsynced_all : forall es m m', sync_tags es m = (m', Ok tt) ->
  (forall e, In e es -> e_tag e = true -> e_updated e = true -> tcounted (e_name e) es <= 1 /\ tonly_named (e_name e) (ts_data m)) ->
  ts_remainder m' = ts_remainder m /\ Forall2 (tsynced es) (ts_data m) (ts_data m').
Proof.
  induction es as [|e es IH]; intros m m' E H; cbn [sync_tags] in E.
  { injection E as <-. split; auto. apply Forall2_nth_iff. split; auto. intros i x x' Hx Hx'. right. split; [intros ? []|congruence]. }
  assert (Hc : forall e', In e' es -> e_tag e' = true -> e_updated e' = true -> tcounted (e_name e') es <= 1 /\ tonly_named (e_name e') (ts_data m)).
  { intros e' He' T' U'. destruct (H e' (or_intror He') T' U') as (C & O). split; auto. unfold tcounted in *. cbn [List.filter] in C. destruct (_ && _); cbn [length] in C; lia. }
  destruct (e_tag e) eqn:T; cbn [negb] in E.
  - pose proof (P_tags4.find_at_spec m (e_name e) (e_position e)) as Fs. destruct (tag_find_at m (e_name e) (e_position e)) as [k|]; [|discriminate].
    destruct Fs as (dk & Hk & Nk & _). destruct (e_updated e) eqn:Up.
    + destruct (H e (or_introl eq_refl) T Up) as (C & O).
      assert (C0 : tcounted (e_name e) es = 0). { unfold tcounted in *. cbn [List.filter] in C. rewrite T, str_eqb_refl in C. cbn in C. lia. }
      pose proof (tcounted_none _ _ C0) as Nn.
      set (m1 := set_value_at k (e_value e) m) in *.
      assert (Nm : forall i d1, nth_error (ts_data m1) i = Some d1 -> exists d, nth_error (ts_data m) i = Some d /\ t_name d1 = t_name d).
      { intros i d1 Hi. unfold m1, set_value_at in Hi. cbn [ts_data] in Hi. rewrite update_at_nth in Hi. destruct (Nat.eqb i k); [|eauto]. destruct (nth_error (ts_data m) i) as [d|]; [|discriminate]. injection Hi as <-. eexists; split; reflexivity. }
      destruct (IH m1 m' E) as (R1 & R2).
      { intros e' He' T' U'. destruct (Hc e' He' T' U') as (C' & O'). split; auto. intros i j d u Hi Hj N1 N2. apply Nm in Hi as (d0 & Hi & Ed), Hj as (u0 & Hj & Eu). unfold named in *. apply (O' i j d0 u0); unfold named; congruence. }
      split; [exact R1|]. apply Forall2_nth_iff in R2 as (L & R2). assert (L1 : length (ts_data m1) = length (ts_data m)) by (unfold m1, set_value_at; cbn [ts_data]; apply update_at_length).
      apply Forall2_nth_iff. split; [congruence|]. intros i d d' Hd Hd'. destruct (nth_same_len (ts_data m) (ts_data m1) i d (eq_sym L1) Hd) as (d1 & Hd1).
      specialize (R2 i d1 d' Hd1 Hd'). pose proof Hd1 as Hd1'. unfold m1, set_value_at in Hd1'. cbn [ts_data] in Hd1'. rewrite update_at_nth, Hd in Hd1'. destruct (Nat.eqb i k) eqn:Ek.
      * apply Nat.eqb_eq in Ek. subst i. cbn [option_map] in Hd1'. injection Hd1' as <-. rewrite Hk in Hd. injection Hd as <-. destruct R2 as [(x & Hx & Tx & _ & Nx & _)|(_ & ->)].
        -- exfalso. apply (Nn x Hx Tx). unfold named in Nx. cbn [with_value t_name] in Nx. congruence.
        -- left. exists e. repeat split; auto. now left.
      * injection Hd1' as <-. destruct R2 as [(x & Hx & Q)|(Q & ->)]; [left; exists x; split; [now right|exact Q]|]. right. split; auto. intros e' [<-|He'] T' N'; [|auto].
        apply Nat.eqb_neq in Ek. exfalso. apply Ek. apply (O i k d dk); auto.
    + destruct (IH m m' E Hc) as (R1 & R2). split; [exact R1|]. eapply Forall2_impl; [|exact R2]. intros d d' [(x & Hx & Q)|(Q & ->)]; [left; exists x; split; [now right|exact Q]|].
      right. split; auto. intros e' [<-|He'] T' N'; auto.
  - destruct (IH m m' E Hc) as (R1 & R2). split; [exact R1|]. eapply Forall2_impl; [|exact R2]. intros d d' [(x & Hx & Q)|(Q & ->)]; [left; exists x; split; [now right|exact Q]|].
    right. split; auto. intros e' [<-|He'] T' N'; [congruence|auto].
Qed.
(** What is to be written for each definition *)
Lemma synced_edited es ds ds' : Forall2 (synced es) ds ds' ->
  (forall d e, In d ds -> In e es -> e_tag e = false -> e_updated e = true -> e_name e = d_name d -> ordinary d /\ blank (d_prefix d) /\ file_value (e_value e)) ->
  exists vs, edited_all vs ds ds' /\ Forall file_option vs /\ Forall2 (fun o d => match o with
    | Some v => exists e, In e es /\ e_tag e = false /\ e_updated e = true /\ e_name e = d_name d /\ v = e_value e
    | None => forall e, In e es -> e_tag e = false -> e_name e = d_name d -> e_updated e = false end) vs ds.
Proof.
  induction 1 as [|d d' ds ds' S _ IH]; intros H; [exists []; repeat split; constructor|]. destruct IH as (vs & I1 & I2 & I3); [intros x e Hx; apply H; now right|].
  destruct S as [(e & He & T & Up & N & ->)|(Q & ->)].
  - destruct (H d e (or_introl eq_refl) He T Up N) as (O & B & V). exists (Some (e_value e) :: vs). split; [constructor; auto; now apply file_value_fits|]. split; constructor; auto. exists e. auto.
  - exists (None :: vs). split; [constructor; auto|]. split; constructor; cbn; auto.
Qed.
End Uni.
