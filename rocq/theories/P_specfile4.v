(** Proofs about operations on a whole spec file: an update that asks for the present value. *)
From Coq Require Import Ascii String.
From Coq Require Import NArith ZArith List Bool Lia.
From Verif Require Import PyStr PyStrFacts M_constants M_options M_value M_macro_definitions Spec_macro_definitions P_macro_definitions P_macro_definitions2
  M_conditions M_sections Spec_sections M_tags Spec_tags P_tags P_tags4 P_tags5 P_context
  M_release M_update M_specfile Spec_specfile P_specfile P_specfile2 P_specfile3.
Import ListNotations.
Open Scope N_scope.

Section Uni.
Context {U : Unicode} (expand : list str -> bool -> unit -> str -> result str * unit).
Lemma lower_ascii c : (c < 128)%N -> exists c', lower_c c = [c'] /\ (c' < 128)%N /\ lower_c c' = [c'] /\ title_c c' = title_c c.
Proof.
  intros H.
  assert (F : forallb (fun c => match lower_c c with [c'] => N.ltb c' 128 && str_eqb (lower_c c') [c'] && str_eqb (title_c c') (title_c c) | _ => false end) (map N.of_nat (seq 0 128)) = true).
  { clear. assert (Q : forall c, (c < 128)%N -> lower_c c = lower_c (U:=unicode_none) c /\ title_c c = title_c (U:=unicode_none) c).
    { intros c H. apply N.ltb_lt in H. unfold lower_c, title_c. rewrite H. destruct (ascii_upper c), (ascii_lower c); auto. }
    apply forallb_forall. intros c Hc. assert (L : (c < 128)%N) by (apply in_map_iff in Hc as (n & <- & Hn); apply in_seq in Hn; lia).
    assert (G : forallb (fun c => match lower_c (U:=unicode_none) c with [c'] => N.ltb c' 128 && str_eqb (lower_c (U:=unicode_none) c') [c'] && str_eqb (title_c (U:=unicode_none) c') (title_c (U:=unicode_none) c) | _ => false end) (map N.of_nat (seq 0 128)) = true) by (vm_compute; reflexivity).
    rewrite forallb_forall in G. specialize (G c Hc). destruct (Q c L) as (-> & ->).
    destruct (lower_c (U:=unicode_none) c) as [|c' [|]]; try discriminate. destruct (N.ltb c' 128) eqn:L'; [|discriminate]. apply N.ltb_lt in L'. destruct (Q c' L') as (-> & ->). exact G. }
  rewrite forallb_forall in F. assert (I : In c (map N.of_nat (seq 0 128))) by (apply in_map_iff; exists (N.to_nat c); split; [lia|apply in_seq; lia]). specialize (F c I). cbv beta in F.
  destruct (lower_c c) as [|c' [|]]; try discriminate F.
  rename F into G.
    apply andb_true_iff in G as [G G3]. apply andb_true_iff in G as [G1 G2]. exists c'. apply N.ltb_lt in G1. apply str_eqb_eq in G2, G3. auto.
Qed.
Lemma lower_lower s : Forall (fun c => (c < 128)%N) s -> lower (lower s) = lower s.
Proof.
  induction 1 as [|c s H _ IH]; auto. unfold lower in *. cbn [flat_map]. rewrite flat_map_app, IH. f_equal.
  destruct (lower_ascii c H) as (c' & -> & _ & E & _). cbn [flat_map]. now rewrite E.
Qed.
Lemma capitalize_lower s : Forall (fun c => (c < 128)%N) s -> capitalize (lower s) = capitalize s.
Proof.
  intros F. destruct F as [|c s H F]; auto. unfold lower at 1. cbn [flat_map]. destruct (lower_ascii c H) as (c' & -> & _ & _ & E).
  cbn [app capitalize]. rewrite E. f_equal. now apply lower_lower.
Qed.
Lemma macro_entities_ok protected lines m : (forall skip s, exists x, expand lines skip tt s = (Ok x, tt)) -> forall l skip, (forall d, In d l -> In d (md_data m)) ->
  exists es, macro_entities expand protected lines m skip l tt = (tt, Ok es) /\
    forall e, In e es -> e_tag e = false /\ e_updated e = false /\ e_flip e = false /\ exists d, In d (md_data m) /\ d_name d = e_name e /\ get_position d m = Ok (e_position e).
Proof.
  intros X. induction l as [|d l IH]; intros skip H; cbn [macro_entities]; [exists []; split; auto; intros e []|].
  destruct (d_valid d && negb (protected (d_name d)) && negb (endswith (d_name d) [RPAR])); [|apply IH; intros; apply H; now right].
  destruct (get_position_total m d (H d (or_introl eq_refl))) as (p & Hp). rewrite Hp. cbv zeta.
  destruct (d_commented_out d).
  - destruct (IH skip) as (es & -> & He); [intros; apply H; now right|]. eexists; split; [reflexivity|]. intros e [<-|Hi]; [|auto]. cbn. repeat split; auto. exists d. repeat split; auto. apply H; now left.
  - destruct (X skip (d_body d)) as (x & ->). destruct (IH true) as (es & -> & He); [intros; apply H; now right|]. eexists; split; [reflexivity|]. intros e [<-|Hi]; [|auto]. cbn. repeat split; auto. exists d. repeat split; auto. apply H; now left.
Qed.
Lemma tag_entities_ok protected ts : forall l, (forall t, In t l -> In t (ts_data ts)) ->
  exists es, tag_entities protected ts l = Ok es /\
    forall e, In e es -> e_tag e = true /\ e_updated e = false /\ e_flip e = false /\ exists t, In t (ts_data ts) /\ lower (t_name t) = e_name e /\ tag_position t ts = Ok (e_position e).
Proof.
  induction l as [|d l IH]; intros H; cbn [tag_entities]; [exists []; split; auto; intros e []|].
  destruct (t_valid d && negb (protected (t_name d))); [|apply IH; intros; apply H; now right].
  destruct (position_total ts d (H d (or_introl eq_refl))) as (p & Hp). unfold bind. rewrite Hp.
  destruct IH as (es & -> & He); [intros; apply H; now right|]. eexists; split; [reflexivity|]. intros e [<-|Hi]; [|auto]. cbn. repeat split; auto. exists d. repeat split; auto. apply H; now left.
Qed.
Lemma update_at_id {A} (f : A -> A) (Hf : forall x, f x = x) : forall k l, update_at k f l = l.
Proof. induction k as [|k IH]; intros [|x l]; cbn; auto; now rewrite ?Hf, ?IH. Qed.
Lemma sync_macros_id m : forall es, (forall e, In e es -> e_updated e = false /\ e_flip e = false /\ (e_tag e = false -> exists d, In d (md_data m) /\ d_name d = e_name e /\ get_position d m = Ok (e_position e))) ->
  sync_macros es m = (m, Ok tt).
Proof.
  induction es as [|e es IH]; intros H; cbn [sync_macros]; auto. destruct (H e (or_introl eq_refl)) as (Hu & Hf & Hd).
  destruct (e_tag e) eqn:Et; [apply IH; intros; apply H; now right|]. destruct (Hd eq_refl) as (d & Hi & Hn & Hp).
  unfold sync_macro, bind. pose proof (P_macro_definitions2.find_at_spec m (e_name e) (e_position e)) as F. destruct (find_at m (e_name e) (e_position e)) as [k|]; [|destruct F as (_ & F); destruct (F d Hi Hn Hp)].
  rewrite update_at_id by (intros x; rewrite Hu, Hf; reflexivity). replace (mk_mdefs (md_data m) (md_remainder m)) with m by now destruct m. apply IH; intros; apply H; now right.
Qed.
Lemma sync_tags_id ts : forall es, (forall e, In e es -> e_updated e = false /\ (e_tag e = true -> exists t, In t (ts_data ts) /\ capitalize (t_name t) = capitalize (e_name e) /\ tag_position t ts = Ok (e_position e))) ->
  sync_tags es ts = (ts, Ok tt).
Proof.
  induction es as [|e es IH]; intros H; cbn [sync_tags]; auto. destruct (H e (or_introl eq_refl)) as (Hu & Hd).
  destruct (e_tag e) eqn:Et; cbn [negb]; [|apply IH; intros; apply H; now right]. destruct (Hd eq_refl) as (d & Hi & Hn & Hp).
  pose proof (P_tags4.find_at_spec ts (e_name e) (e_position e)) as F. destruct (tag_find_at ts (e_name e) (e_position e)) as [k|]; [|destruct F as (_ & F); destruct (F d Hi Hn Hp)].
  rewrite Hu. apply IH; intros; apply H; now right.
Qed.

(** Asking for the value that the tag has changes nothing, and succeeds. *)
Theorem update_same isid protected name lines ts m k t : read_tags expand lines tt = (lines, tt, Ok ts) -> read_macros expand lines tt = (lines, tt, Ok m) ->
  (forall skip s, exists x, expand lines skip tt s = (Ok x, tt)) ->
  (forall u, In u (ts_data ts) -> Forall (fun c => c < 128) (t_name u)) ->
  designates ts name k t -> lower (t_name t) = lower name ->
  update_tag expand isid protected name (t_value t) lines tt = (lines, tt, Ok tt).
Proof.
  intros R M X N D L. pose proof (designates_index _ _ _ _ D L) as I. destruct D as (Hk & _).
  destruct (read_opens _ _ _ _ _ _ R) as (rest & O & El). destruct (macros_opens _ _ _ M) as (P & G).
  destruct (position_total ts t) as (p & Hp); [eapply nth_error_In; eauto|].
  assert (VT : forall A (body : tags -> unit -> tags * unit * result A), view_tags expand body lines tt = let '(ts', w, r) := body ts tt in (tags_raw ts' ++ rest, w, r)) by (intros; apply (view_opens _ _ _ _ _ _ _ _ O)).
  assert (VM : forall A (body : list str -> mdefs -> unit -> mdefs * unit * result A), view_macros expand body lines tt = let '(m', w, r) := body lines m tt in (get_raw_data m', w, r)).
  { intros. unfold view_macros. now rewrite P. }
  unfold update_tag at 1. unfold andthen at 1. rewrite VT. rewrite I. cbn [bind]. rewrite Hk. cbn [bind]. rewrite Hp. cbn [bind]. rewrite <- El.
  assert (UV : update_value expand isid protected (t_value t) (t_value t) p lines tt = (lines, tt, Ok (t_value t))).
  { unfold update_value. unfold andthen at 1. rewrite VM.
    destruct (macro_entities_ok protected lines m X (md_data m) false (fun _ H => H)) as (es1 & -> & H1). rewrite G.
    unfold andthen at 1. rewrite VT. destruct (tag_entities_ok protected ts (ts_data ts) (fun _ H => H)) as (es2 & -> & H2). rewrite <- El.
    unfold andthen at 1. cbn [update]. rewrite str_eqb_refl.
    assert (H : forall e, In e (sort_entities (es1 ++ es2)) -> In e es1 \/ In e es2) by (intros e He; apply sort_perm in He; now apply in_app_or).
    unfold andthen at 1. rewrite VM, sync_macros_id, G.
    - unfold andthen at 1. rewrite VT, sync_tags_id, <- El; [reflexivity|]. intros e He. destruct (H e He) as [Q|Q].
      + destruct (H1 e Q) as (A & B & _). split; auto. congruence.
      + destruct (H2 e Q) as (A & B & _ & u & Hu & Hn & Hq). split; auto. intros _. exists u. rewrite <- Hn, capitalize_lower; auto.
    - intros e He. destruct (H e He) as [Q|Q].
      + destruct (H1 e Q) as (A & B & C & Hd). auto.
      + destruct (H2 e Q) as (A & B & C & _). repeat split; auto. congruence. }
  unfold andthen. rewrite UV. unfold set_tag. rewrite VT, I. f_equal. f_equal.
  replace (set_value_at k (t_value t) ts) with ts; [auto|]. unfold set_value_at. destruct ts as [data rem]. cbn [ts_data ts_remainder] in *. f_equal.
  apply nth_error_split in Hk as (a & b & -> & <-). rewrite update_at_app. destruct t; reflexivity.
Qed.
End Uni.
