From Coq Require Import Ascii String.
From Coq Require Import NArith ZArith List Bool Lia.
From Verif Require Import PyStr PyStrFacts Regex RegexFacts M_constants M_value M_macro_definitions M_conditions M_tags M_sourcelist Spec_tags Spec_sources P_value P_conditions P_conditions2 P_tags3.
Import ListNotations.
Open Scope N_scope.

Lemma lstrip_hash line : startswith (lstrip line) [HASH] = true <-> comment_line line.
Proof.
  unfold comment_line. rewrite startswith_iff. split.
  - intros [t E]. destruct (lstrip_split line) as (a & Ea & Ha). exists a, t. split; [rewrite Ea at 1; now rewrite E|].
    unfold space_text. apply Forall_forall. intros c Hc. unfold isblank in *. rewrite ?forallb_forall in Ha. now apply Ha.
  - intros (a & b & -> & Ha). exists b. induction Ha as [|c a Hc Ha IH]; cbn; auto.
    unfold lstrip in *. cbn [dropwhile]. now rewrite Hc.
Qed.
Lemma is_entry_spec line : is_entry line = true <-> source_line line.
Proof.
  unfold is_entry, source_line. rewrite andb_true_iff, !negb_true_iff, <- lstrip_hash.
  destruct (str_eqb line []) eqn:E; [apply str_eqb_eq in E|apply str_eqb_neq in E]; destruct (startswith (lstrip line) [HASH]); intuition congruence.
Qed.
Lemma slist_loop_raw : forall lines data buffer, Forall (fun l => ~ In LF (fst l)) lines -> Forall (fun l => ~ In LF l) buffer ->
  let s := slist_loop lines data buffer in
  slist_raw s = flat_map entry_raw data ++ buffer ++ map fst lines /\
  (exists more, sl_data s = data ++ more /\ map (fun e => (e_location e, e_valid e)) more = filter (fun l => is_entry (fst l)) lines).
Proof.
  induction lines as [|[line valid] lines IH]; intros data buffer F Fb s; subst s; cbn [slist_loop].
  - split; [unfold slist_raw; cbn; now rewrite app_nil_r|]. exists []. cbn. now rewrite app_nil_r.
  - inversion F as [|? ? NL F']; subst. cbn [fst] in NL. cbn [filter fst]. destruct (is_entry line).
    + destruct (IH (data ++ [mk_entry line (comments_parse buffer) valid]) [] F' (Forall_nil _)) as (R & more & Em & Ef). split.
      * rewrite R, flat_map_app. cbn [flat_map map fst app]. unfold entry_raw at 2. cbn [e_comments e_location]. destruct (comments_parse_spec buffer Fb) as (-> & _). rewrite app_nil_r. now rewrite <- !app_assoc.
      * exists (mk_entry line (comments_parse buffer) valid :: more). rewrite Em, <- app_assoc. split; auto. cbn. now rewrite Ef.
    + destruct (IH data (buffer ++ [line]) F') as (R & more & Em & Ef); [apply Forall_app; auto|]. split; [|exists more; auto].
      rewrite R. cbn [map fst]. now rewrite <- app_assoc.
Qed.
Section Parse.
Context {U : Unicode} {W : Type} (expand : bool -> W -> str -> result str * W).
Theorem slist_round_trip w lines s w' : Forall (fun l => ~ In LF l) lines -> slist_parse expand w lines = (Ok s, w') -> slist_raw s = lines.
Proof.
  intros F. unfold slist_parse. destruct (process_conditions _ _ _ _) as [[tagged|e] w1] eqn:E; [|discriminate]. intros Q; injection Q as <- <-.
  apply process_lines in E. destruct (slist_loop_raw tagged [] []) as (R & _); auto; [|now rewrite R, E].
  apply Forall_forall. intros x Hx. rewrite Forall_forall in F. apply F. rewrite <- E. now apply in_map.
Qed.
Theorem slist_entries w lines s w' : Forall (fun l => ~ In LF l) lines -> slist_parse expand w lines = (Ok s, w') ->
  map e_location (sl_data s) = filter is_entry lines.
Proof.
  intros F. unfold slist_parse. destruct (process_conditions _ _ _ _) as [[tagged|e] w1] eqn:E; [|discriminate]. intros Q; injection Q as <- <-.
  apply process_lines in E. destruct (slist_loop_raw tagged [] []) as (_ & more & Em & Ef); auto.
  - apply Forall_forall. intros x Hx. rewrite Forall_forall in F. apply F. rewrite <- E. now apply in_map.
  - rewrite Em. cbn [app]. rewrite <- E. clear -Ef. revert more Ef. induction tagged as [|[l v] tg IH]; cbn [filter map fst]; intros more Ef.
    + now destruct more.
    + destruct (is_entry l); auto. destruct more as [|e more]; cbn in *; [discriminate|]. injection Ef as -> _ Ef. f_equal. auto.
Qed.
End Parse.
