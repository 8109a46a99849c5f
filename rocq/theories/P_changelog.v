From Coq Require Import NArith ZArith List Bool Lia Arith.
From Verif Require Import PyStr PyStrFacts Regex RegexFacts M_evr M_changelog Spec_changelog.
Import ListNotations.
Open Scope N_scope.

Lemma header_line_iff l : header_line l <-> startswith l [STAR] = true.
Proof. rewrite startswith_iff. unfold header_line. split; intros (t & ->); exists t; auto. Qed.
Lemma blank_line_iff l : blank_line l <-> isblank l = true.
Proof. unfold blank_line, isblank. rewrite forallb_forall, Forall_forall. tauto. Qed.
Lemma blank_lines_iff l : Forall blank_line l <-> isblank (concat l) = true.
Proof.
  rewrite isblank_concat, forallb_forall, Forall_forall. split; intros H x Hx; apply blank_line_iff; auto.
Qed.

Lemma extract_rev_spec rc : forall fl c fl', extract_rev rc fl = (c, fl') ->
  c ++ fl' = rev rc ++ fl /\
  (Forall blank_line fl -> Forall blank_line fl') /\
  (forall a l, c = a ++ [l] -> isblank l = false).
Proof.
  induction rc as [|l rc IH]; intros fl c fl'; cbn [extract_rev].
  - intros H; injection H as <- <-. repeat split; auto.
    intros a l H. symmetry in H. now apply app_eq_nil in H as [_ ?].
  - destruct (isblank l) eqn:B.
    + intros H. destruct (IH _ _ _ H) as (E & F & G). cbn [rev]. rewrite <- app_assoc. cbn.
      repeat split; auto. intros Hf. apply F. constructor; auto. now apply blank_line_iff.
    + intros H; injection H as <- <-. repeat split; auto.
      intros a x E. cbn [rev] in E. apply app_inj_tail in E as [_ <-]. auto.
Qed.
Lemma extract_spec c0 c fl : extract_following_lines c0 = (c, fl) ->
  c ++ fl = c0 /\ Forall blank_line fl /\ (forall a l, c = a ++ [l] -> isblank l = false).
Proof.
  unfold extract_following_lines. intros H. apply extract_rev_spec in H as (E & F & G).
  rewrite rev_involutive, app_nil_r in E. auto.
Qed.
Lemma extract_unique c fl : Forall blank_line fl -> (forall a l, c = a ++ [l] -> isblank l = false) ->
  extract_following_lines (c ++ fl) = (c, fl).
Proof.
  unfold extract_following_lines. rewrite rev_app_distr. intros F G.
  assert (H : forall x y, Forall blank_line x -> extract_rev (x ++ rev c) y = (c, rev x ++ y)).
  { induction x as [|l x IH]; intros y Hx; cbn [app extract_rev rev].
    - destruct (rev c) as [|l rc] eqn:E.
      + cbn. apply (f_equal (@rev _)) in E. rewrite rev_involutive in E. cbn in E. now subst.
      + cbn [extract_rev]. assert (E' : c = rev rc ++ [l]).
        { rewrite <- (rev_involutive c), E. reflexivity. }
        rewrite (G _ _ E'). rewrite E'. reflexivity.
    - inversion Hx as [|? ? Hl Hx']; subst. apply blank_line_iff in Hl. rewrite Hl.
      rewrite IH by auto. now rewrite <- app_assoc. }
  rewrite H by (apply Forall_rev; auto). now rewrite rev_involutive, app_nil_r.
Qed.

(** Serialisation of parser state. *)
Definition st_lines (data : list entry) (pred : list str) (hdr : option str) (c : list str) :=
  pred ++ flat_map entry_lines (rev data) ++ match hdr with Some h => h :: c | None => c end.

Lemma close_entry_lines h c data :
  flat_map entry_lines (rev (close_entry h c data)) = flat_map entry_lines (rev data) ++ h :: c.
Proof.
  unfold close_entry. destruct (extract_following_lines c) as [c' fl] eqn:E.
  apply extract_spec in E as (E & _). cbn [rev]. rewrite flat_map_app. cbn.
  unfold entry_lines. cbn. now rewrite E, app_nil_r.
Qed.

Lemma parse_loop_raw lines : forall data pred hdr c,
  (hdr = None -> data = [] /\ c = []) ->
  get_raw_section_data (parse_loop lines data pred hdr c) = st_lines data pred hdr c ++ lines.
Proof.
  unfold st_lines.
  induction lines as [|line lines IH]; intros data pred hdr c Hn; cbn [parse_loop].
  - rewrite app_nil_r. destruct hdr as [h|]; unfold get_raw_section_data; cbn [predecessor entries].
    + now rewrite close_entry_lines.
    + destruct (Hn eq_refl) as [-> ->]. cbn. now rewrite !app_nil_r.
  - destruct (startswith line [STAR]).
    + destruct hdr as [h|].
      * destruct (negb _).
        -- rewrite IH by discriminate. rewrite close_entry_lines.
           rewrite <- !app_assoc. cbn. rewrite <- ?app_assoc. reflexivity.
        -- rewrite IH by discriminate. rewrite <- !app_assoc. cbn. now rewrite <- app_assoc.
      * destruct (Hn eq_refl) as [-> ->]. rewrite IH by discriminate. cbn. now rewrite <- !app_assoc.
    + destruct hdr as [h|].
      * rewrite IH by discriminate. rewrite <- !app_assoc. cbn. now rewrite <- app_assoc.
      * destruct (Hn eq_refl) as [-> ->]. rewrite IH by auto. cbn. now rewrite <- !app_assoc.
Qed.

Lemma parse_raw lines : get_raw_section_data (parse lines) = lines.
Proof. unfold parse. now rewrite parse_loop_raw by auto. Qed.

(** Well-formedness of the parser state. *)
Definition wf_content (c : list str) : Prop :=
  forall a l b, c = a ++ l :: b -> header_line l -> Forall blank_line a.

Lemma wf_content_snoc c l : wf_content c -> (header_line l -> Forall blank_line c) -> wf_content (c ++ [l]).
Proof.
  intros W H a x b E Hx. destruct b as [|y b].
  - apply app_inj_tail in E as [<- <-]. auto.
  - destruct (@exists_last _ (y :: b)) as (b' & z & Eb); [discriminate|].
    rewrite Eb in E. replace (a ++ x :: b' ++ [z]) with ((a ++ x :: b') ++ [z]) in E
      by now rewrite <- app_assoc.
    apply app_inj_tail in E as [E _]. eapply W; eauto.
Qed.

Lemma close_wf h c data : header_line h -> wf_content c ->
  Forall wf_entry data -> Forall wf_entry (close_entry h c data).
Proof.
  intros Hh Hc Hd. unfold close_entry. destruct (extract_following_lines c) as [c' fl] eqn:E.
  apply extract_spec in E as (E & F & G). constructor; auto. repeat split; cbn; auto.
  - intros a l El Hb. apply blank_line_iff in Hb. rewrite (G _ _ El) in Hb. discriminate.
  - intros a l b Eb Hl. apply (Hc a l (b ++ fl)); auto. rewrite <- E, Eb, <- app_assoc. auto.
Qed.

Lemma close_content h c data : isblank (concat c) = false ->
  Forall (fun e => content e <> []) data -> Forall (fun e => content e <> []) (close_entry h c data).
Proof.
  intros Hb Hd. unfold close_entry. destruct (extract_following_lines c) as [c' fl] eqn:E.
  apply extract_spec in E as (E & F & G). constructor; auto. cbn. intros ->. cbn in E. subst fl.
  apply blank_lines_iff in F. congruence.
Qed.
Lemma close_tl h c data : tl (close_entry h c data) = data.
Proof. unfold close_entry. now destruct (extract_following_lines c). Qed.

Lemma parse_loop_wf lines : forall data pred hdr c,
  Forall (fun l => ~ header_line l) pred -> Forall wf_entry data ->
  Forall (fun e => content e <> []) data ->
  (forall h, hdr = Some h -> header_line h) -> wf_content c ->
  (hdr = None -> data = [] /\ c = []) ->
  wf_changelog (parse_loop lines data pred hdr c).
Proof.
  induction lines as [|line lines IH]; intros data pred hdr c Hp Hd Hc Hh Hw Hn; cbn [parse_loop].
  - destruct hdr as [h|].
    + split; [auto|]. cbn [entries]. rewrite close_tl. split; auto. apply close_wf; auto.
    + destruct (Hn eq_refl) as [-> ->]. repeat split; cbn; auto.
  - destruct (startswith line [STAR]) eqn:S.
    + apply header_line_iff in S. destruct hdr as [h|].
      * destruct (isblank (concat c)) eqn:B; cbn [negb].
        -- apply IH; auto; try discriminate. apply wf_content_snoc; auto.
           intros _. now apply blank_lines_iff.
        -- apply IH; auto; try discriminate.
           ++ apply close_wf; auto.
           ++ apply close_content; auto.
           ++ intros h' E; now injection E as <-.
           ++ intros a l b E. symmetry in E. now apply app_eq_nil in E as [_ ?].
      * destruct (Hn eq_refl) as [-> ->]. apply IH; auto; try discriminate.
        intros h' E; now injection E as <-.
    + assert (Nh : ~ header_line line) by (rewrite header_line_iff; congruence).
      destruct hdr as [h|].
      * apply IH; auto; try discriminate. apply wf_content_snoc; tauto.
      * destruct (Hn eq_refl) as [-> ->]. apply IH; auto. apply Forall_app; auto.
Qed.

Lemma parse_wf lines : wf_changelog (parse lines).
Proof.
  unfold parse. apply parse_loop_wf; auto; try discriminate.
  intros a l b E. symmetry in E. now apply app_eq_nil in E as [_ ?].
Qed.

(** Parsing the text of a well-formed changelog gives it back. *)
Lemma loop_content ls : forall tail data pred h acc,
  wf_content (acc ++ ls) ->
  parse_loop (ls ++ tail) data pred (Some h) acc = parse_loop tail data pred (Some h) (acc ++ ls).
Proof.
  induction ls as [|l ls IH]; intros tail data pred h acc W; cbn [app].
  - now rewrite app_nil_r.
  - cbn [parse_loop]. assert (E : acc ++ l :: ls = (acc ++ [l]) ++ ls) by now rewrite <- app_assoc.
    rewrite E in W. destruct (startswith l [STAR]) eqn:S.
    + apply header_line_iff in S.
      assert (B : Forall blank_line acc).
      { apply (W acc l ls); auto. }
      apply blank_lines_iff in B. rewrite B. cbn [negb]. rewrite IH by auto. now rewrite E.
    + rewrite IH by auto. now rewrite E.
Qed.

Lemma wf_entry_content e : wf_entry e -> wf_content (content e ++ following e).
Proof.
  intros (Hh & Hf & Hl & Hs) a l b E Hhl.
  assert (Q : exists k, a = firstn (length a) (content e ++ following e) /\ k = length a).
  { exists (length a). split; auto. rewrite E, firstn_app, firstn_all, Nat.sub_diag. cbn. now rewrite app_nil_r. }
  destruct (Nat.lt_ge_cases (length a) (length (content e))) as [L|L].
  - pose proof (f_equal (firstn (length (content e))) E) as E1.
    rewrite firstn_app, firstn_all, Nat.sub_diag in E1. cbn in E1. rewrite app_nil_r in E1.
    rewrite firstn_app in E1. rewrite firstn_all2 in E1 by lia.
    destruct (length (content e) - length a)%nat as [|n] eqn:En; [lia|]. cbn in E1.
    eapply Hs; eauto.
  - exfalso. pose proof (f_equal (skipn (length (content e))) E) as E1.
    rewrite skipn_app, skipn_all, Nat.sub_diag in E1. cbn in E1.
    rewrite skipn_app in E1. replace (length (content e) - length a)%nat with 0%nat in E1 by lia.
    cbn in E1. rewrite E1 in Hf. apply Forall_app in Hf as [_ Hf]. inversion Hf as [|? ? Hb _]; subst.
    destruct Hhl as (t & ->). inversion Hb as [|? ? Hc _]; subst. discriminate Hc.
Qed.

Lemma wf_close e data : wf_entry e ->
  close_entry (header e) (content e ++ following e) data = e :: data.
Proof.
  intros (Hh & Hf & Hl & Hs). unfold close_entry. rewrite extract_unique; auto.
  - now destruct e.
  - intros a l E. apply not_true_iff_false. intros B. apply blank_line_iff in B. eapply Hl; eauto.
Qed.

Lemma wf_nonblank e : wf_entry e -> content e <> [] -> isblank (concat (content e ++ following e)) = false.
Proof.
  intros (Hh & Hf & Hl & Hs) N. destruct (exists_last N) as (a & l & E).
  apply not_true_iff_false. intros B. apply blank_lines_iff in B. rewrite E in B.
  rewrite <- app_assoc in B. apply Forall_app in B as [_ B]. inversion B; subst. eapply Hl; eauto.
Qed.

Lemma parse_entries es : forall data pred e,
  Forall wf_entry (e :: es) -> Forall (fun e => content e <> []) (removelast (e :: es)) ->
  parse_loop (content e ++ following e ++ flat_map entry_lines es) data pred (Some (header e)) [] =
  mk_changelog (rev (e :: es) ++ data) pred.
Proof.
  induction es as [|e2 es IH]; intros data pred e W C; inversion W as [|? ? We Wes]; subst.
  - cbn [flat_map]. rewrite app_nil_r.
    rewrite <- (app_nil_r (content e ++ following e)).
    rewrite loop_content by (cbn; apply wf_entry_content; auto).
    cbn [app parse_loop]. rewrite wf_close by auto. reflexivity.
  - rewrite app_assoc. rewrite loop_content by (cbn; apply wf_entry_content; auto).
    cbn [app flat_map]. unfold entry_lines at 1. cbn [app parse_loop].
    inversion Wes as [|? ? We2 Wes2]; subst. destruct We2 as (Hh2 & R2). pose proof Hh2 as Hh2'.
    apply header_line_iff in Hh2'. rewrite Hh2'.
    change (removelast (e :: e2 :: es)) with (e :: removelast (e2 :: es)) in C.
    inversion C as [|? ? Ce Ces]; subst.
    rewrite wf_nonblank by auto. cbn [negb]. rewrite wf_close by auto.
    rewrite <- app_assoc, IH by (auto; constructor; auto; split; auto).
    cbn [rev]. now rewrite <- !app_assoc.
Qed.

Lemma parse_pred p : forall tail data q,
  Forall (fun l => ~ header_line l) p ->
  parse_loop (p ++ tail) data q None [] = parse_loop tail data (q ++ p) None [].
Proof.
  induction p as [|l p IH]; intros tail data q H; cbn [app].
  - now rewrite app_nil_r.
  - inversion H; subst. cbn [parse_loop]. destruct (startswith l [STAR]) eqn:S.
    + apply header_line_iff in S. tauto.
    + rewrite IH by auto. now rewrite <- app_assoc.
Qed.

Lemma removelast_rev {A} (l : list A) : removelast (rev l) = rev (tl l).
Proof. destruct l as [|x l]; cbn; auto. apply removelast_last. Qed.

Lemma raw_parse c : wf_changelog c -> parse (get_raw_section_data c) = c.
Proof.
  intros (Hp & He & Hc). unfold parse, get_raw_section_data. rewrite parse_pred by auto. cbn [app].
  apply Forall_rev in He. apply Forall_rev in Hc. rewrite <- removelast_rev in Hc.
  destruct (rev (entries c)) as [|e es] eqn:E.
  - cbn. apply (f_equal (@rev _)) in E. rewrite rev_involutive in E. cbn in E. destruct c; cbn in *; congruence.
  - cbn [flat_map]. unfold entry_lines at 1. cbn [app parse_loop].
    inversion He as [|? ? We _]; subst. pose proof We as (Hh & _). apply header_line_iff in Hh. rewrite Hh.
    rewrite <- app_assoc. rewrite parse_entries by auto. rewrite app_nil_r.
    rewrite <- E, rev_involutive. now destruct c.
Qed.

(** Appending an entry. *)
Lemma parse_predecessor lines :
  predecessor (parse lines) = firstn (length (predecessor (parse lines))) lines /\
  flat_map entry_lines (rev (entries (parse lines))) = skipn (length (predecessor (parse lines))) lines.
Proof.
  pose proof (parse_raw lines) as E. unfold get_raw_section_data in E.
  set (p := predecessor (parse lines)) in *. set (r := flat_map _ _) in *. rewrite <- E.
  rewrite firstn_app, firstn_all, Nat.sub_diag, skipn_app, skipn_all, Nat.sub_diag.
  cbn. now rewrite app_nil_r.
Qed.

Lemma append_lines lines e :
  exists before after, lines = before ++ after /\
    Forall (fun l => ~ header_line l) before /\
    (after = [] \/ exists l r, after = l :: r /\ header_line l) /\
    get_raw_section_data (append (parse lines) e) = before ++ entry_lines e ++ after.
Proof.
  destruct (parse_wf lines) as (Hp & He & _).
  exists (predecessor (parse lines)), (flat_map entry_lines (rev (entries (parse lines)))).
  split; [symmetry; apply (parse_raw lines)|]. split; [auto|]. split.
  - apply Forall_rev in He. destruct (rev (entries (parse lines))) as [|x l]; [now left|right].
    inversion He as [|? ? (Hh & _) _]; subst. cbn. eauto.
  - unfold get_raw_section_data, append. cbn. rewrite rev_app_distr. cbn. reflexivity.
Qed.

(** Deleting an entry. *)
Lemma delete_lines a e b p :
  exists c', delete (mk_changelog (a ++ e :: b) p) (Z.of_nat (length a)) = Ok c' /\
    get_raw_section_data c' =
      p ++ flat_map entry_lines (rev b) ++ tl (following e) ++ flat_map entry_lines (rev a) /\
    get_raw_section_data (mk_changelog (a ++ e :: b) p) =
      p ++ flat_map entry_lines (rev b) ++ entry_lines e ++ flat_map entry_lines (rev a).
Proof.
  unfold delete. cbn [entries predecessor].
  rewrite py_index_nonneg by (rewrite app_length; cbn; lia). rewrite nth_error_mid, remove_at_app.
  assert (R : get_raw_section_data (mk_changelog (a ++ e :: b) p) =
      p ++ flat_map entry_lines (rev b) ++ entry_lines e ++ flat_map entry_lines (rev a)).
  { unfold get_raw_section_data. cbn [entries predecessor]. rewrite rev_app_distr. cbn [rev].
    rewrite !flat_map_app. cbn [flat_map]. rewrite app_nil_r, <- !app_assoc. reflexivity. }
  destruct b as [|x b].
  - rewrite app_nil_r. destruct (Z.ltb_spec (Z.of_nat (length a)) (Z.of_nat (length a))); [lia|].
    eexists; split; [reflexivity|]. split; auto. unfold get_raw_section_data.
    cbn [entries predecessor rev flat_map app]. rewrite <- app_assoc. reflexivity.
  - destruct (Z.ltb_spec (Z.of_nat (length a)) (Z.of_nat (length (a ++ x :: b)))) as [L|L];
      rewrite app_length in L; cbn in L; [|lia].
    rewrite py_index_nonneg by (rewrite app_length; cbn; lia). rewrite update_at_app.
    eexists; split; [reflexivity|]. split; auto. unfold get_raw_section_data.
    cbn [entries predecessor]. rewrite rev_app_distr. cbn [rev]. rewrite !flat_map_app. cbn [flat_map].
    unfold entry_lines at 2 5. cbn [header content following].
    repeat (rewrite ?app_nil_r, <- ?app_assoc; cbn [app]). reflexivity.
Qed.
