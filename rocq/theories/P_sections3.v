(** Proofs about sections: editing, lookup, examples of stable headers. *)
From Coq Require Import Ascii String.
From Coq Require Import NArith ZArith List Bool Lia.
From Verif Require Import PyStr PyStrFacts M_constants M_value P_value M_options Spec_options P_options M_macro_definitions
  Spec_macro_definitions P_macro_definitions P_macro_definitions2 M_sections Spec_sections P_sections P_sections2.
Import ListNotations.
Open Scope N_scope.

Section Uni.
Context {U : Unicode}.
Lemma canonical_chars s : Forall (fun c => is_quote c = false /\ c <> BSLASH) s -> canonical (chars s).
Proof.
  induction 1 as [|c s [Q B] F IH]; cbn; [constructor|]. destruct (is_space c) eqn:S.
  - now constructor.
  - apply C_plain; auto; [discriminate|congruence].
Qed.
Lemma plain_stable s : Forall (fun c => is_quote c = false /\ c <> BSLASH /\ c <> PCT) s -> stable s.
Proof.
  intros F. assert (Np : ~ In PCT s) by (rewrite Forall_forall in F; intros I; now apply F in I).
  assert (C : canonical_text s).
  { exists (match s with [] => [] | _ => [StringLiteral s] end). split; [now apply parse_no_percent|].
    destruct s as [|c s]; [split; [reflexivity|constructor]|]. split; [cbn; now rewrite ?app_nil_r|].
    cbn. rewrite app_nil_r. apply (canonical_chars (c :: s)). eapply Forall_impl; [|exact F]. intros a (A & B & _); auto. }
  destruct (canonical_round_trip s C) as (l & T & E). intros l' T'. congruence.
Qed.
Lemma plain_header l : Forall (fun c => is_quote c = false /\ c <> BSLASH /\ c <> PCT) (tl l) -> stable_header l.
Proof.
  intros F n d t tail -> _ _ _ _. apply plain_stable. cbn [tl] in F. apply Forall_app in F as [_ F]. apply Forall_app in F as [_ F]. now apply Forall_app in F as [F _].
Qed.

Lemma lower_app a b : lower (a ++ b) = lower a ++ lower b.
Proof. apply flat_map_app. Qed.
Lemma sections_str_app a b : sections_str (a ++ b) = sections_str a ++ sections_str b.
Proof. apply flat_map_app. Qed.
Lemma sections_raw_app a b : sections_raw (a ++ b) = sections_raw a ++ sections_raw b.
Proof. apply flat_map_app. Qed.

(** The first section with a given identifier. *)
Lemma find_first l id k : sec_find l id = Ok k ->
  exists a s b, l = a ++ s :: b /\ length a = k /\ s_nid s = lower id /\ Forall (fun x => s_nid x <> lower id) a.
Proof.
  unfold sec_find. destruct (find_index _ l) as [j|] eqn:E; [|discriminate]. intros Q; injection Q as <-.
  apply find_index_Some in E as (a & s & b & -> & La & Hs & Ha). exists a, s, b. apply str_eqb_eq in Hs. repeat split; auto.
  rewrite forallb_forall in Ha. apply Forall_forall. intros x Hx. specialize (Ha x Hx). apply negb_true_iff in Ha. now apply str_eqb_neq.
Qed.
Lemma find_split a s b id : s_nid s = lower id -> Forall (fun x => s_nid x <> lower id) a -> sec_find (a ++ s :: b) id = Ok (length a) /\ sec_contains (a ++ s :: b) id = true.
Proof.
  intros Hs Ha. unfold sec_find, sec_contains. split.
  - induction Ha as [|x a Nx Ha IH]; cbn [app find_index].
    + now rewrite Hs, str_eqb_refl.
    + apply str_eqb_neq in Nx. rewrite Nx. destruct (find_index _ (a ++ s :: b)) as [j|]; cbn; [|discriminate]. injection IH as ->. reflexivity.
  - apply existsb_exists. exists s. split; [apply in_elt|]. rewrite Hs. apply str_eqb_refl.
Qed.
Theorem set_first a s b id d : s_nid s = lower id -> Forall (fun x => s_nid x <> lower id) a ->
  sec_set_data (a ++ s :: b) id d = Some (a ++ with_data d s :: b) /\
  sec_del (a ++ s :: b) id = Some (a ++ b) /\ sec_get (a ++ s :: b) id = Ok s /\ sec_contains (a ++ s :: b) id = true.
Proof.
  intros Hs Ha. destruct (find_split a s b id Hs Ha) as [F C]. unfold sec_set_data, sec_del, sec_get. rewrite F, C. cbn [bind].
  rewrite update_at_app, remove_at_app, nth_error_mid. auto.
Qed.
Theorem none_found l id : Forall (fun x => s_nid x <> lower id) l <-> sec_contains l id = false.
Proof.
  unfold sec_contains. rewrite <- not_true_iff_false, existsb_exists, Forall_forall. split.
  - intros F (x & Hx & E). apply str_eqb_eq in E. now apply (F x).
  - intros N x Hx E. apply N. exists x. split; auto. now apply str_eqb_eq.
Qed.
(** A section is found by its own identifier if the part after the name has no upper case. *)
Lemma own_id s : lower (s_delim s ++ tokens_str (o_tokens (s_opts s))) = s_delim s ++ tokens_str (o_tokens (s_opts s)) -> s_nid s = lower (s_id s).
Proof. intros E. unfold s_nid, s_id. now rewrite lower_app, E. Qed.
Lemma other_case s id : s_nid s = lower (s_id s) -> lower id = lower (s_id s) -> s_nid s = lower id.
Proof. congruence. Qed.
End Uni.

Section Edit.
Context {U : Unicode} {W : Type} (expand : bool -> W -> str -> result str * W).
Lemma with_data_nid d s : s_nid (with_data d s) = s_nid s.
Proof. reflexivity. Qed.
Lemma str_with_data s : exists header, forall d, section_str (with_data d s) = header ++ lines_text d.
Proof.
  unfold section_str. destruct (str_eqb (s_nid s) PREAMBLE) eqn:E.
  - exists []. intros d. rewrite with_data_nid, E. reflexivity.
  - exists (PCT :: s_id s ++ s_separator s). intros d. rewrite with_data_nid, E. change (s_id (with_data d s)) with (s_id s). cbn [app with_data s_separator s_data]. now rewrite <- app_assoc.
Qed.
Theorem edit_local w lines secs w' a s b : parse expand w lines = (Ok secs, w') ->
  Forall (fun l => is_header l = true -> stable_header l) lines -> Forall (fun x => s_nid x <> PREAMBLE) (tl secs) ->
  secs = a ++ s :: b ->
  exists before after, lines_text lines = before ++ lines_text (s_data s) ++ after /\
    forall d, sections_str (a ++ with_data d s :: b) = before ++ lines_text d ++ after.
Proof.
  intros E St Np Es. destruct (round_trip expand w lines secs w' E St Np) as [Rt _]. destruct (str_with_data s) as [h Hh].
  exists (sections_str a ++ h), (sections_str b). split.
  - rewrite <- Rt, Es, sections_str_app. change (sections_str (s :: b)) with (section_str s ++ sections_str b).
    assert (Hs : section_str s = h ++ lines_text (s_data s)) by (rewrite <- Hh; now destruct s). rewrite Hs. now rewrite <- !app_assoc.
  - intros d. rewrite sections_str_app. change (sections_str (with_data d s :: b)) with (section_str (with_data d s) ++ sections_str b).
    rewrite Hh. now rewrite <- !app_assoc.
Qed.
Theorem delete_local w lines secs w' a s b : parse expand w lines = (Ok secs, w') -> Forall no_break lines ->
  Forall (fun l => is_header l = true -> stable_header l) lines -> Forall (fun x => s_nid x <> PREAMBLE) (tl secs) ->
  secs = a ++ s :: b ->
  lines = sections_raw a ++ section_raw s ++ sections_raw b /\ sections_raw (a ++ b) = sections_raw a ++ sections_raw b /\
  (a <> [] -> exists h body, section_raw s = h :: body /\ header_line h).
Proof.
  intros E Nb St Np Es. destruct (round_trip expand w lines secs w' E St Np) as [_ Rt]. specialize (Rt Nb). split; [|split].
  - rewrite <- Rt, Es, sections_raw_app. reflexivity.
  - apply sections_raw_app.
  - intros Na. destruct (parse_blocks expand w lines secs w' E) as (rs & p & bs & ss & Er & Eb & El & Esec & Ef).
    destruct a as [|p' a]; [congruence|]. rewrite Es in Esec. cbn in Esec. injection Esec as _ Esec.
    pose proof (blocks_headers _ _ _ _ _ Eb) as Hh. clear Rt.
    assert (Nbb : Forall no_break (block_lines bs)) by (rewrite El in Nb; now apply Forall_app in Nb).
    assert (Fs : Forall (fun b => stable_header (fst b)) bs).
    { rewrite Forall_forall in *. intros x Hx. apply St; auto. rewrite El. apply in_or_app. right. unfold block_lines. apply in_flat_map. exists x. split; auto. now left. }
    rewrite Es in Np. cbn [app tl] in Np. clear Es E St El Eb Er Nb Na p' p rs. revert Ef Np. generalize false as sk. intros sk Ef Np. rewrite <- Esec in Ef. clear Esec ss.
    revert sk w a Ef Np. induction bs as [|[h body] bs IH]; intros sk w0 a Ef Np; cbn [from_blocks fst snd] in Ef; [destruct a; discriminate|].
    inversion Hh as [|? ? Eh Fh']; subst. inversion Fs as [|? ? Est Fs']; subst. cbn in Eh, Est.
    change (block_lines ((h, body) :: bs)) with ((h :: body) ++ block_lines bs) in Nbb. apply Forall_app in Nbb as [Nb1 Nb2].
    pose proof Eh as Eh'. apply is_header_pct in Eh' as [r ->]. cbn [tl] in Ef.
    destruct (split_id expand sk w0 r) as [[[[[[[n o] d] sep] content]|e] skip'] w1] eqn:Ei; [|discriminate].
    destruct (make_section n o d sep (content ++ body)) as [s0|e] eqn:Em; [|discriminate].
    destruct (from_blocks expand skip' w1 bs) as [[l|e] w2] eqn:Eb; [|discriminate].
    destruct a as [|x a]; cbn [app] in Ef, Np.
    + injection Ef as -> _ _. inversion Np as [|? ? Np1 _]; subst. exists (PCT :: r), body. split.
      * unfold section_raw. pose proof (raw_of_block expand _ _ _ _ _ _ _ _ _ _ _ _ Ei Em Est Np1) as Er. apply str_eqb_neq in Np1. rewrite Np1, Er. now apply splitlines_lines.
      * apply header_spec; auto. inversion Nb1 as [|? ? Nl _]; subst. unfold no_break in Nl. rewrite Forall_forall in Nl. intros I. now apply Nl in I.
    + injection Ef as -> -> Ew. subst w2. inversion Np; subst. eapply IH; eauto.
Qed.
End Edit.
