(** Proofs about operations on a whole spec file: the tags of a file whose tags are on one line each. *)
From Coq Require Import Ascii String.
From Coq Require Import NArith ZArith List Bool Lia.
From Verif Require P_value.
From Verif Require Import PyStr PyStrFacts Regex RegexFacts M_constants M_options M_value M_macro_definitions Spec_macro_definitions P_macro_definitions P_macro_definitions2
  P_macro_definitions3 M_conditions M_sections Spec_sections P_sections P_sections2 P_sections4 M_tags Spec_tags P_tags P_tags2 P_tags3 P_tags4 P_tags5 P_context
  M_release M_update M_specfile Spec_specfile Spec_update Spec_specfile2 P_specfile P_specfile2 P_specfile5 P_specfile6 P_specfile7 P_specfile10 P_specfile11.
Import ListNotations.
Open Scope N_scope.
Open Scope nat_scope.

Section Uni.
Context {U : Unicode}.
Notation F := (map (fun l : str => (l, true))).
Definition readable (l : str) : Prop := exists r, split_conditional_macro_expansion l = Ok r.
Definition no_tag (l : str) : Prop := line_tag l = [].
Definition core_value (c : core) : str := let '(_, _, _, v, _) := c in v.
Definition closed_line (l : str) : Prop := Forall (fun c => count_brackets (core_value c) = (0, 0)) (line_tag l).
(** A tag as it comes from single lines. *)
Definition settled (t : tag) : Prop := Forall no_tag (comments_raw (t_comments t)) /\ line_tag (tag_text t) = [tcore t] /\ plain (tag_text t) /\ regular (tag_text t).
Lemma simple_unflagged t : simple_tag t -> simple_tag (unflagged t).
Proof. auto. Qed.
Lemma loop_lines : forall fuel lines data buffer T, length lines <= fuel -> Forall plain lines -> Forall regular lines -> Forall (fun l => ~ In LF l) buffer -> Forall no_tag buffer ->
  Forall settled data -> tags_loop TAG_NAMES fuel (F lines) data buffer = Ok T -> Forall simple_tag (ts_data T) \/ (Forall simple_tag data /\ Forall closed_line lines) ->
  Forall settled (ts_data T) /\ Forall no_tag (ts_remainder T) /\ Forall readable lines /\ map tcore (ts_data T) = map tcore data ++ flat_map line_tag lines /\ Forall simple_tag (ts_data T).
Proof.
  induction fuel as [|fuel IH]; intros lines data buffer T L P X Fb Nb Sd E H.
  { destruct lines; [|cbn in L; lia]. cbn in E. injection E as <-. cbn. rewrite app_nil_r. repeat split; auto. destruct H as [H|[H _]]; exact H. }
  destruct lines as [|line lines].
  { cbn in E. injection E as <-. cbn. rewrite app_nil_r. repeat split; auto. destruct H as [H|[H _]]; exact H. }
  cbn [length] in L. inversion P as [|? ? P0 P']; inversion X as [|? ? X0 X']; subst. cbn [map tags_loop] in E. rewrite (plain_trailing _ P0) in E.
  destruct (split_conditional_macro_expansion line) as [[[l1 p] s]|e] eqn:Sp; cbn [bind] in E; [|discriminate].
  assert (Rl : readable line) by (eexists; exact Sp). pose proof (split_exact _ _ _ _ X0 Sp) as El.
  assert (NL1 : ~ In LF l1) by (intros Q; apply (proj1 P0); rewrite <- El, !in_app_iff; auto).
  pose proof (first_match_tag_line l1 NL1) as TL.
  assert (Lt : line_tag line = match first_match TAG_NAMES l1 with Some m => [(p, group_str 1 m, group_str 2 m, group_str 3 m, s)] | None => [] end) by (unfold line_tag; now rewrite Sp).
  destruct (first_match TAG_NAMES l1) as [m|] eqn:M.
  - destruct TL as (E1 & _).
    assert (NLv : ~ In LF (group_str 3 m)) by (intros Q; apply NL1; rewrite E1, !in_app_iff; auto).
    destruct (if str_eqb s [] then extend_value (group_str 3 m) [] (F lines) else (group_str 3 m, [], F lines)) as [[v ws] ls] eqn:Tk.
    assert (K : v = group_str 3 m /\ ws = [] /\ ls = F lines).
    { destruct (str_eqb s []); [|now injection Tk as <- <- <-]. destruct H as [H|(_ & H)].
      - apply extend_value_spec in Tk; [destruct Tk as [Q|(Q & _)]; [exact Q|]|].
        + exfalso. rewrite loop_front in E. destruct (tags_loop TAG_NAMES fuel ls [] []) as [ts1|]; [|discriminate]. injection E as <-. cbn [ts_data] in H.
          apply Forall_app in H as [H _]. apply Forall_app in H as [_ H]. inversion H as [|? ? (H1 & _) _]; subst. cbn [t_value] in H1. contradiction.
        + apply Forall_forall. intros z Hz. apply in_map_iff in Hz as (y & <- & Hy). rewrite Forall_forall in P'. apply (P' y Hy).
      - inversion H as [|? ? Hc _]; subst. unfold closed_line in Hc. rewrite Lt in Hc. inversion Hc as [|? ? Hv _]; subst. cbn [core_value] in Hv.
        destruct lines as [|y lines]; cbn [map extend_value] in Tk; [now injection Tk as <- <- <-|]. unfold value_open in Tk. rewrite Hv in Tk. cbn in Tk. now injection Tk as <- <- <-. }
    destruct K as (-> & -> & ->). rewrite app_nil_r in E.
    set (t := mk_tag (group_str 1 m) (group_str 3 m) (group_str 2 m) (comments_parse buffer) true p s) in *.
    assert (Tt : tag_text t = line). { unfold tag_text, t. cbn [t_prefix t_name t_separator t_value t_suffix]. rewrite <- El, E1, <- !app_assoc. reflexivity. }
    assert (St : settled t).
    { split; [|rewrite Tt; auto]. cbn [t t_comments]. destruct (comments_parse_spec buffer Fb) as (Cb & _). now rewrite Cb. }
    assert (H' : Forall simple_tag (ts_data T) \/ Forall simple_tag (data ++ [t]) /\ Forall closed_line lines).
    { destruct H as [H|(Hd & H)]; [now left|right]. inversion H as [|? ? Hc H']; subst. split; [|exact H']. apply Forall_app. split; [exact Hd|]. constructor; [|constructor].
      unfold closed_line in Hc. rewrite Lt in Hc. inversion Hc as [|? ? Hv _]; subst. split; [exact NLv|exact Hv]. }
    edestruct (IH lines (data ++ [t]) [] T) as (I1 & I2 & I3 & I4 & I5); auto; [lia|apply Forall_app; auto|].
    repeat split; auto. rewrite I4, map_app, <- app_assoc. cbn [flat_map map]. rewrite Lt. reflexivity.
  - rewrite app_nil_r, El in E. 
    edestruct (IH lines data (buffer ++ [line]) T) as (I1 & I2 & I3 & I4 & I5); auto.
    + lia.
    + apply Forall_app. split; auto. constructor; [apply P0|constructor].
    + apply Forall_app. split; auto.
    + destruct H as [H|(Hd & H)]; [now left|right]. inversion H; subst. auto.
    + repeat split; auto. cbn [flat_map]. rewrite Lt. exact I4.
Qed.

(** Giving tags on one line new values. *)
Definition tedit (t t' : tag) : Prop := t' = t \/ exists v, one_line t /\ file_value v /\ t' = with_value v t.
Definition redone (l l' : str) : Prop :=
  l = l' \/ exists n s v v', tag_line l n s v /\ tag_line l' n s v' /\ sane l' /\ file_value v'.
Lemma settled_line t : settled t -> one_line t -> tag_text t = t_name t ++ t_separator t ++ t_value t /\ tag_line (tag_text t) (t_name t) (t_separator t) (t_value t).
Proof.
  intros (_ & L & (NL & _) & X) (Pr & Su & _).
  assert (E : tag_text t = t_name t ++ t_separator t ++ t_value t) by (unfold tag_text; rewrite Pr, Su; cbn [app]; now rewrite app_nil_r).
  split; [exact E|]. unfold line_tag in L. destruct (split_conditional_macro_expansion (tag_text t)) as [[[b p] s]|] eqn:Sp; [|discriminate]. apply (split_exact _ _ _ _ X) in Sp.
  destruct (first_match TAG_NAMES b) as [m|] eqn:M; [|discriminate]. unfold tcore in L. injection L as L1 L2 L3 L4 L5. subst p s. rewrite Pr, Su, app_nil_r in Sp. cbn [app] in Sp. subst b.
  pose proof (first_match_tag_line (tag_text t) NL) as K. rewrite M, L2, L3, L4 in K. exact K.
Qed.
Lemma with_value_line t v : settled t -> one_line t -> file_value v -> no_break (tag_text t) ->
  tag_text (with_value v t) = t_name t ++ t_separator t ++ v /\ tag_line (tag_text (with_value v t)) (t_name t) (t_separator t) v /\ sane (tag_text (with_value v t)).
Proof.
  intros S O V B. destruct (settled_line t S O) as (E & T). destruct O as (Pr & Su & _).
  assert (E' : tag_text (with_value v t) = t_name t ++ t_separator t ++ v) by (unfold tag_text; cbn [with_value t_prefix t_name t_separator t_value t_suffix]; rewrite Pr, Su; cbn [app]; now rewrite app_nil_r).
  assert (T' : tag_line (tag_text (with_value v t)) (t_name t) (t_separator t) v).
  { destruct T as (_ & T1 & T2 & _). split; [exact E'|]. split; [exact T1|]. split; [exact T2|]. destruct V as (_ & (c & r & -> & Hc) & _). exists c, r. split; auto. congruence. }
  split; [exact E'|]. split; [exact T'|]. apply (tag_sane _ _ _ _ T').
  - rewrite E'. rewrite E in B. unfold no_break in *. apply Forall_app in B as (B1 & B2). apply Forall_app in B2 as (B2 & _). repeat (apply Forall_app; split; auto). apply V.
  - rewrite E', app_assoc. destruct V as (_ & (c & r & -> & Hc) & R & _). apply rstrip_tail; [discriminate|exact R].
Qed.
Lemma tedit_raw t t' : settled t -> no_break (tag_text t) -> tedit t t' -> Forall2 redone (tag_raw t) (tag_raw t').
Proof.
  intros S B H. assert (Rf : forall l, Forall2 redone l l) by (intros l; induction l; constructor; auto; now left).
  destruct H as [->|(v & O & V & ->)]; [apply Rf|]. destruct (settled_line t S O) as (E & T). destruct (with_value_line t v S O V B) as (E' & T' & Sn).
  unfold tag_raw. apply Forall2_app; [apply Rf|]. rewrite !split_on_none; [|destruct Sn as ((Nb & _) & _); now apply no_break_LF|apply S].
  constructor; [|constructor]. right. exists (t_name t), (t_separator t), (t_value t), v. auto.
Qed.
Lemma tedit_raws data data' : Forall settled data -> Forall (fun t => no_break (tag_text t)) data -> Forall2 tedit data data' -> Forall2 redone (flat_map tag_raw data) (flat_map tag_raw data').
Proof.
  intros S B H. induction H as [|t t' data data' H _ IH]; [constructor|]. inversion S; inversion B; subst. cbn [flat_map]. apply Forall2_app; [now apply tedit_raw|auto].
Qed.
Lemma flat_no_tag ls : Forall no_tag ls -> flat_map line_tag ls = [].
Proof. induction 1 as [|l ls H _ IH]; cbn; auto. now rewrite H, IH. Qed.
Lemma tedit_cores data data' rem : Forall settled data -> Forall (fun t => no_break (tag_text t)) data -> Forall2 tedit data data' -> Forall no_tag rem ->
  Forall readable (flat_map tag_raw data' ++ rem) -> flat_map line_tag (flat_map tag_raw data' ++ rem) = map tcore data'.
Proof.
  intros S B H N. induction H as [|t t' data data' H _ IH]; cbn [flat_map map app]; [intros _; now apply flat_no_tag|]. intros R.
  inversion S as [|? ? S0 S']; inversion B as [|? ? B0 B']; subst. rewrite <- app_assoc in R |- *. apply Forall_app in R as (R0 & R). rewrite flat_map_app, IH; auto.
  change (tcore t' :: map tcore data') with ([tcore t'] ++ map tcore data'). f_equal.
  unfold tag_raw in *. rewrite flat_map_app. destruct H as [->|(v & O & V & ->)].
  - destruct S0 as (S1 & S2 & (S3 & _) & _). rewrite (flat_no_tag _ S1), (split_on_none _ S3). cbn. now rewrite S2.
  - destruct (with_value_line t v S0 O V B0) as (E' & T' & Sn). cbn [with_value t_comments] in *. destruct S0 as (S1 & _). rewrite (flat_no_tag _ S1).
    destruct Sn as ((Nb & Rs & _) & _). apply no_break_LF in Nb. rewrite (split_on_none _ Nb) in *. apply Forall_app in R0 as (_ & R0). inversion R0 as [|? ? (r & Rd) _]; subst.
    cbn [flat_map app]. rewrite app_nil_r. destruct (line_tag_tag _ _ _ _ (conj Nb Rs) T') as [Q|Q].
    + rewrite Q. unfold tcore. cbn [with_value t_prefix t_name t_separator t_value t_suffix]. destruct O as (-> & -> & _). reflexivity.
    + exfalso. unfold line_tag in Q. pose proof (split_not_braced _ _ (tag_line_not_braced _ _ _ _ T') Rd) as ->. rewrite Rd in Q.
      pose proof (first_match_tag_line _ Nb) as K. destruct (first_match TAG_NAMES _); [discriminate|]. eapply K; eauto.
Qed.
Lemma redone_closed ls ls' : Forall2 redone ls ls' -> Forall closed_line ls -> Forall plain ls' -> Forall closed_line ls'.
Proof.
  induction 1 as [|l l' ls ls' H _ IH]; intros C P; [constructor|]. inversion C; inversion P as [|? ? P0 P']; subst. constructor; auto. destruct H as [->|(n & s & v & v' & _ & T' & _ & V)]; auto.
  unfold closed_line. destruct (line_tag_tag _ _ _ _ P0 T') as [-> | ->]; repeat constructor. apply V.
Qed.

Section World.
Context {W : Type} (expand : list str -> bool -> W -> str -> result str * W).
Lemma unflagged_raw ts : tags_raw (mk_tags (map unflagged (ts_data ts)) (ts_remainder ts)) = tags_raw ts.
Proof. unfold tags_raw. cbn [ts_data ts_remainder]. f_equal. induction (ts_data ts) as [|t l IH]; cbn; auto. now rewrite IH. Qed.
Lemma sane_line l : sane l -> plain l /\ regular l.
Proof. intros ((B & R & X & _) & _). split; auto. split; auto. now apply no_break_LF. Qed.
Lemma opens_facts lines w ts w1 rest : Forall sane lines -> opens expand lines w ts w1 rest -> exists rs bs,
  excluded_ranges (parse_plain lines) (md_data (parse_plain lines)) = Ok rs /\ blocks_of (header_at rs) 0 lines = (tags_raw ts, bs) /\ lines = tags_raw ts ++ rest /\
  tags_loop TAG_NAMES (length (tags_raw ts)) (F (tags_raw ts)) [] [] = Ok (mk_tags (map unflagged (ts_data ts)) (ts_remainder ts)).
Proof.
  intros S O. destruct (opens_loop _ _ _ _ _ _ O) as (rs & p & bs & Er & Eb & Lp & Tl).
  assert (Pp : Forall plain p /\ Forall regular p).
  { rewrite Lp in S. apply Forall_app in S as [S _]. split; eapply Forall_impl; try exact S; intros l Hl; now apply sane_line in Hl. }
  destruct Pp as (Pp & Xp).
  assert (Fp : Forall (fun l => ~ In LF (fst l) /\ rstrip (fst l) = fst l) (F p)).
  { apply Forall_forall. intros z Hz. apply in_map_iff in Hz as (y & <- & Hy). rewrite Forall_forall in Pp. apply (Pp y Hy). }
  assert (Fr : Forall (fun l => regular (rstrip (fst l))) (F p)).
  { apply Forall_forall. intros z Hz. apply in_map_iff in Hz as (y & <- & Hy). rewrite Forall_forall in Pp, Xp. cbn [fst]. destruct (Pp y Hy) as [_ ->]. auto. }
  assert (Tm : Forall tame (ts_data (mk_tags (map unflagged (ts_data ts)) (ts_remainder ts)))) by (eapply tags_loop_tame; eauto).
  assert (RT : tags_raw ts = p).
  { rewrite <- unflagged_raw. destruct (tags_loop_raw (length p) (F p) [] [] _ (ltac:(now rewrite map_length)) (Forall_impl _ (fun a H => proj1 H) Fp) Fr (Forall_nil _) Tl Tm) as [Q _].
    rewrite Q. cbn. rewrite map_map. apply map_id. }
  exists rs, bs. rewrite RT. repeat split; auto. rewrite <- RT. symmetry. eapply tidy_opens; eauto. now apply sane_tidy.
Qed.
(** The tags of a file with one tag on a line. *)
Lemma opens_simple lines w ts w1 rest : Forall sane lines -> opens expand lines w ts w1 rest -> Forall simple_tag (ts_data ts) \/ Forall closed_line (tags_raw ts) ->
  Forall simple_tag (ts_data ts) /\ Forall settled (map unflagged (ts_data ts)) /\ Forall no_tag (ts_remainder ts) /\ Forall readable (tags_raw ts) /\ map tcore (ts_data ts) = flat_map line_tag (tags_raw ts).
Proof.
  intros S O H. destruct (opens_facts _ _ _ _ _ S O) as (rs & bs & _ & _ & El & Tl). rewrite El in S. apply Forall_app in S as [S _].
  destruct (loop_lines _ _ _ _ _ (le_n _) (Forall_impl _ (fun a H => proj1 (sane_line a H)) S) (Forall_impl _ (fun a H => proj2 (sane_line a H)) S) (Forall_nil _) (Forall_nil _) (Forall_nil _) Tl) as (A & B & C & D & E).
  - destruct H as [H|H]; [left|right; split; auto]. cbn [ts_data]. apply Forall_forall. intros t Ht. apply in_map_iff in Ht as (t0 & <- & Ht). rewrite Forall_forall in H. apply simple_unflagged. auto.
  - cbn [ts_data ts_remainder map app] in *. split; [|split; [exact A|split; [exact B|split; [exact C|]]]].
    + apply Forall_forall. intros t Ht. rewrite Forall_forall in E. assert (Q : simple_tag (unflagged t)) by (apply E, in_map, Ht). exact Q.
    + rewrite <- D, map_map. reflexivity.
Qed.
Lemma simple_closed ts : Forall simple_tag (ts_data ts) -> map tcore (ts_data ts) = flat_map line_tag (tags_raw ts) -> Forall closed_line (tags_raw ts).
Proof.
  intros S E. apply Forall_forall. intros l Hl. apply Forall_forall. intros c Hc. assert (Q : In c (map tcore (ts_data ts))) by (rewrite E; apply in_flat_map; eauto).
  apply in_map_iff in Q as (t & <- & Ht). rewrite Forall_forall in S. apply (S t Ht).
Qed.
(** Files with the same headers, the same lines in definitions and the same number of lines have preambles of the same length. *)
Lemma same_front lines lines' w w' ts ts' w1 w1' rest rest' : Forall sane lines -> Forall sane lines' -> opens expand lines w ts w1 rest -> opens expand lines' w' ts' w1' rest' ->
  length lines = length lines' -> (forall i, body_line (parse_plain lines) i <-> body_line (parse_plain lines') i) -> defined_apart (parse_plain lines) -> defined_apart (parse_plain lines') ->
  (forall j x x', nth_error lines j = Some x -> nth_error lines' j = Some x' -> is_header x = is_header x') -> length (tags_raw ts) = length (tags_raw ts').
Proof.
  intros S S' O O' L B A A' H. destruct (opens_facts _ _ _ _ _ S O) as (rs & bs & Er & Eb & _). destruct (opens_facts _ _ _ _ _ S' O') as (rs' & bs' & Er' & Eb' & _).
  assert (Ex : forall i, excluded rs i = excluded rs' i).
  { destruct (excluded_body _ (apart_distinct _ A)) as (r1 & Q1 & H1). destruct (excluded_body _ (apart_distinct _ A')) as (r2 & Q2 & H2). rewrite Er in Q1. rewrite Er' in Q2. injection Q1 as <-. injection Q2 as <-.
    intros i. apply eq_true_iff_eq. rewrite H1, H2. apply B. }
  pose proof (blocks_length rs rs' lines lines' 0 L) as K. rewrite Eb, Eb' in K. cbn [fst] in K. apply K. intros j x x' Hx Hx'. cbn [Nat.add]. unfold header_at. rewrite Ex. f_equal. eauto.
Qed.
End World.
End Uni.
