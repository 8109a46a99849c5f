(** Adding a changelog entry in terms of bytes: proofs. *)
From Coq Require Import Ascii String.
From Coq Require Import NArith ZArith List Bool Arith Lia.
From Verif Require P_sections3 P_add_entry.
From Verif Require Import PyStr PyStrFacts M_value M_macro_definitions Spec_macro_definitions M_sections Spec_sections P_sections P_sections2 M_changelog Spec_changelog M_release M_add_entry Spec_add_entry
  M_specfile Spec_specfile P_specfile P_sections4 M_file Spec_file P_file M_bytes Spec_bytes P_bytes.
Import ListNotations.
Open Scope N_scope.

Section Uni.
Context {U : Unicode}.
(** * The lines of a section *)
Lemma section_text {W} (e : bool -> W -> str -> result str * W) bs : Forall (fun b => is_header (fst b) = true) bs -> Forall (fun b => stable_header (fst b)) bs ->
  Forall no_break (block_lines bs) -> forall skip w ss w' a c b, from_blocks e skip w bs = (Ok ss, w') -> ss = a ++ c :: b -> s_nid c <> PREAMBLE ->
  exists h body, section_str c = lines_text (h :: body) /\ Forall no_break (h :: body).
Proof.
  induction bs as [|[h body] bs IH]; intros Hh Fs Nb skip w ss w' a c b E Es Np; cbn [from_blocks fst snd] in E; [injection E as <- _; destruct a; discriminate|].
  inversion Hh as [|? ? Eh Fh']; subst. inversion Fs as [|? ? Est Fs']; subst. cbn [fst] in Eh, Est.
  change (block_lines ((h, body) :: bs)) with ((h :: body) ++ block_lines bs) in Nb. apply Forall_app in Nb as [Nb1 Nb2].
  apply is_header_pct in Eh as [r ->]. cbn [tl] in E.
  destruct (split_id e skip w r) as [[[[[[[n o] d] sep] content]|x] skip'] w1] eqn:Ei; [|discriminate].
  destruct (make_section n o d sep (content ++ body)) as [s0|x] eqn:Em; [|discriminate].
  destruct (from_blocks e skip' w1 bs) as [[l|x] w2] eqn:Eb; [|discriminate]. injection E as E _. destruct a as [|s1 a]; cbn [app] in E.
  - injection E as -> _. exists (PCT :: r), body. split; [|exact Nb1]. exact (raw_of_block e _ _ _ _ _ _ _ _ _ _ _ _ Ei Em Est Np).
  - injection E as _ E. exact (IH Fh' Fs' Nb2 _ _ _ _ _ _ _ Eb E Np).
Qed.
Lemma with_data_raw {W} (e : bool -> W -> str -> result str * W) w lines a c b w' hl d : M_sections.parse e w lines = (Ok (a ++ c :: b), w') -> Forall tidy_line lines ->
  s_nid c <> PREAMBLE -> section_raw c = hl :: s_data c -> Forall no_break d -> section_raw (with_data d c) = hl :: d.
Proof.
  intros E T Np Hl Nd. destruct (parse_blocks e w lines _ _ E) as (rs & p & bs & ss & Er & Eb & El & Es & Ef).
  assert (Hh := blocks_headers _ _ _ _ _ Eb). rewrite El in T. apply Forall_app in T as [_ T].
  assert (Nb : Forall no_break (block_lines bs)) by (eapply Forall_impl; [|exact T]; intros l H; apply H).
  assert (Fs : Forall (fun b => stable_header (fst b)) bs).
  { rewrite Forall_forall in *. intros x Hx. assert (I : In (fst x) (block_lines bs)) by (apply in_flat_map; exists x; split; auto; now left).
    destruct (T _ I) as (N1 & _ & _ & St & _). apply St. apply header_spec; [now apply no_break_LF|auto]. }
  destruct a as [|s0 a]; [cbn [app] in Es; injection Es as -> _; exfalso; apply Np; apply preamble_nid|].
  cbn [app] in Es. injection Es as _ Es. destruct (section_text e bs Hh Fs Nb _ _ _ _ a c b Ef (eq_sym Es) Np) as (h & body & Et & Nh).
  assert (R : section_raw c = h :: body). { unfold section_raw. rewrite (proj2 (str_eqb_neq _ _) Np), Et. now apply splitlines_lines. }
  rewrite Hl in R. injection R as <- <-. destruct (P_sections3.str_with_data c) as (hd & Hd). assert (Hc := Hd (s_data c)).
  assert (Wc : with_data (s_data c) c = c) by now destruct c. rewrite Wc, Et in Hc. change (lines_text (hl :: s_data c)) with ((hl ++ [LF]) ++ lines_text (s_data c)) in Hc. apply app_inv_tail in Hc.
  unfold section_raw. change (s_nid (with_data d c)) with (s_nid c). rewrite (proj2 (str_eqb_neq _ _) Np), Hd, <- Hc.
  change ((hl ++ [LF]) ++ lines_text d) with (lines_text (hl :: d)). apply splitlines_lines. constructor; [now inversion Nh|exact Nd].
Qed.
(** * The place of the entry *)
Lemma first_header a : forall b pre l older, pre ++ l :: older = a ++ b -> Forall (fun l => ~ Spec_changelog.header_line l) a -> Forall (fun l => ~ Spec_changelog.header_line l) pre ->
  Spec_changelog.header_line l -> (b = [] \/ exists x y, b = x :: y /\ Spec_changelog.header_line x) -> a = pre /\ b = l :: older.
Proof.
  induction a as [|x a IH]; intros b pre l older E Fa Fp Hl Hb.
  - destruct Hb as [->|(x & y & -> & Hx)]; [destruct pre; discriminate|]. destruct pre as [|z pre]; [split; auto; now rewrite <- E|]. cbn [app] in E. injection E as -> _. inversion Fp; contradiction.
  - inversion Fa; subst. destruct pre as [|z pre]; cbn [app] in E; injection E as -> E; [contradiction|]. inversion Fp; subst. destruct (IH b pre l older E) as [-> ->]; auto.
Qed.
Lemma inserted_at h entry pre l older d : inserted h entry (pre ++ l :: older) d -> Forall (fun l => ~ Spec_changelog.header_line l) pre -> Spec_changelog.header_line l ->
  d = pre ++ h :: entry ++ [] :: l :: older.
Proof.
  intros (a & b & E & Fa & H) Fp Hl. destruct (first_header a b pre l older E Fa Fp Hl) as [-> ->].
  - destruct H as [[-> _]|[(x & y & -> & Hx) _]]; eauto.
  - destruct H as [[X _]|[_ ->]]; [discriminate|reflexivity].
Qed.
Lemma inserted_first h entry pre d : inserted h entry pre d -> Forall (fun l => ~ Spec_changelog.header_line l) pre -> d = pre ++ h :: entry.
Proof.
  intros (a & b & -> & Fa & H) Fp. destruct H as [[-> ->]|[(x & y & -> & Hx) _]]; [now rewrite app_nil_r|]. apply Forall_app in Fp as [_ Fp]. inversion Fp; contradiction.
Qed.
Lemma others_same good entry x c y secs' : Forall2 (extended_by good entry) (x ++ c :: y) secs' -> manual c -> Forall (fun s => ~ manual s) (x ++ y) ->
  exists h d, secs' = x ++ with_data d c :: y /\ good c h /\ inserted h entry (s_data c) d.
Proof.
  intros F M N. apply Forall_app in N as [Nx Ny]. apply Forall2_app_inv_l in F as (x' & r & Fx & Fr & ->). inversion Fr as [|? c' ? y' Hc Fy]; subst.
  assert (Q : forall u u', Forall2 (extended_by good entry) u u' -> Forall (fun s => ~ manual s) u -> u' = u).
  { clear. induction 1 as [|s s' u u' H _ IH]; intros N; auto. inversion N; subst. f_equal; auto. now apply H. }
  rewrite (Q _ _ Fx Nx), (Q _ _ Fy Ny). destruct (proj1 Hc M) as (h & d & G & -> & I). exists h, d. auto.
Qed.
Lemma only_one x c y : Forall (fun s => ~ manual s) (x ++ y) -> at_most_one (x ++ c :: y).
Proof.
  intros N u s1 v s2 z E M1 M2. apply Forall_app in N as [Nx Ny]. rewrite Forall_forall in Nx, Ny.
  assert (L : In s1 (x ++ y) \/ In s2 (x ++ y)).
  { revert x E Nx. induction u as [|a u IH]; intros [|b x] E Nx; cbn [app] in *.
    - injection E as -> ->. right. apply in_or_app. right. now left.
    - injection E as -> _. left. now left.
    - injection E as -> ->. left. apply in_or_app. right. now left.
    - injection E as -> E. destruct (IH x E) as [I|I]; [intros q Hq; apply Nx; now right|left; now right|right; now right]. }
  destruct L as [L|L]; apply in_app_or in L as [L|L]; [eapply Nx|eapply Ny|eapply Nx|eapply Ny]; eauto.
Qed.
(** * The bytes *)
Section Add.
Context {W : Type} (expand : str -> W -> W * result str) (surround : W -> surroundings) (now : bool -> W -> timestamp) (parse_expand : bool -> W -> str -> result str * W).
Context (entry : list str) (author email : option str) (ts : option timestamp) (evr : option str).
Lemma add_block b s w w1 x c y hl a v : plain_file b -> read_lines b = Ok s -> Forall tidy_line (sp_lines s) ->
  M_sections.parse parse_expand w (sp_lines s) = (Ok (x ++ c :: y), w1) -> manual c -> Forall (fun s => ~ manual s) (x ++ y) -> Forall examined (x ++ c :: y) -> section_raw c = hl :: s_data c ->
  expand (match evr with Some v => v | None => DEFAULT_EVR end) w1 = (w1, Ok v) -> expand v w1 = (w1, Ok v) -> signed (guess_packager (surround w1)) author email a ->
  exists t p d, chosen_padding (M_changelog.parse (s_data c)) p /\ (forall t0, ts = Some t0 -> t = t0) /\ (ts = None -> t = now (newest_extended c) w1) /\
    inserted (header_text t p a v) entry (s_data c) d /\
    add_changelog_entry expand surround now parse_expand entry author email ts evr (sp_lines s) w = (sections_raw x ++ section_raw (with_data d c) ++ sections_raw y, w1, Ok tt) /\
    sp_lines s = sections_raw x ++ (hl :: s_data c) ++ sections_raw y /\ Forall no_break (s_data c).
Proof.
  intros Pf R T E M N Ex Hl Ev1 Ev2 Sg.
  destruct (P_add_entry.all_alike expand surround now w1 v Ev2 entry email author evr ts a (x ++ c :: y) Ev1 Sg Ex (or_intror (only_one x c y N))) as (t & secs' & A & F & T1 & T2).
  destruct (others_same _ _ _ _ _ _ F M N) as (h & d & -> & (p & Cp & ->) & I). exists t, p, d. split; [exact Cp|]. split; [exact T1|]. split.
  - intros X. apply (T2 X). exists x, y. split; auto. split; auto. now apply Forall_app in N.
  - split; [exact I|]. assert (Rt := tidy_sections _ _ _ _ _ E T). rewrite P_sections3.sections_raw_app in Rt. change (sections_raw (c :: y)) with (section_raw c ++ sections_raw y) in Rt. rewrite Hl in Rt.
    split; [|split; [now symmetry|]].
    + unfold add_changelog_entry. rewrite E, A, P_sections3.sections_raw_app. reflexivity.
    + rewrite <- Rt in T. apply Forall_app in T as [_ T]. apply Forall_app in T as [T _]. inversion T as [|? ? _ T']; subst. eapply Forall_impl; [|exact T']. intros q H. apply H.
Qed.
Theorem add_bytes b s w w1 x c y hl pre l older a v : plain_file b -> read_lines b = Ok s -> Forall tidy_line (sp_lines s) ->
  M_sections.parse parse_expand w (sp_lines s) = (Ok (x ++ c :: y), w1) -> manual c -> Forall (fun s => ~ manual s) (x ++ y) -> Forall examined (x ++ c :: y) -> section_raw c = hl :: s_data c ->
  s_data c = pre ++ l :: older -> Forall (fun l => ~ Spec_changelog.header_line l) pre -> Spec_changelog.header_line l ->
  expand (match evr with Some v => v | None => DEFAULT_EVR end) w1 = (w1, Ok v) -> expand v w1 = (w1, Ok v) -> signed (guess_packager (surround w1)) author email a ->
  exists t p, chosen_padding (M_changelog.parse (s_data c)) p /\ (forall t0, ts = Some t0 -> t = t0) /\ (ts = None -> t = now (newest_extended c) w1) /\
    forall nb, Forall no_break (header_text t p a v :: entry) -> encode (text_of_lines (header_text t p a v :: entry ++ [[]])) = Some nb ->
    exists b', with_file (add_changelog_entry expand surround now parse_expand entry author email ts evr) b w = (b', w1, Ok tt) /\
      bytes_replaced (text_of_lines (sections_raw x ++ hl :: pre)) [] (text_of_lines (header_text t p a v :: entry ++ [[]])) b b'.
Proof.
  intros Pf R T E M N Ex Hl D Fp Hh Ev1 Ev2 Sg. destruct (add_block _ _ _ _ _ _ _ _ _ _ Pf R T E M N Ex Hl Ev1 Ev2 Sg) as (t & p & d & Cp & T1 & T2 & I & A & L & Nd).
  exists t, p. split; [exact Cp|]. split; [exact T1|]. split; [exact T2|]. intros nb Nn En. rewrite D in I. apply inserted_at in I; auto.
  assert (Np : s_nid c <> PREAMBLE) by (destruct M as [-> _]; discriminate).
  rewrite (with_data_raw parse_expand w (sp_lines s) x c y w1 hl d E T Np Hl) in A.
  2: { subst d. rewrite D in Nd. apply Forall_app in Nd as [N1 N2]. inversion Nn; subst. apply Forall_app. split; auto. constructor; auto. apply Forall_app. split; auto. constructor; auto. constructor. }
  apply (block_bytes _ b s w w1 (Ok tt) (sections_raw x ++ hl :: pre) [] (header_text t p a v :: entry ++ [[]]) (l :: older ++ sections_raw y) nb Pf R); auto; try discriminate.
  - rewrite L, D. do 4 (cbn [app]; rewrite <- ?app_assoc). reflexivity.
  - rewrite A. subst d. f_equal. f_equal. do 4 (cbn [app]; rewrite <- ?app_assoc). reflexivity.
Qed.
(** The first entry of a changelog that is not the last section *)
Theorem add_first_bytes b s w w1 x c y hl a v : plain_file b -> read_lines b = Ok s -> Forall tidy_line (sp_lines s) ->
  M_sections.parse parse_expand w (sp_lines s) = (Ok (x ++ c :: y), w1) -> manual c -> Forall (fun s => ~ manual s) (x ++ y) -> Forall examined (x ++ c :: y) -> section_raw c = hl :: s_data c ->
  Forall (fun l => ~ Spec_changelog.header_line l) (s_data c) -> sections_raw y <> [] ->
  expand (match evr with Some v => v | None => DEFAULT_EVR end) w1 = (w1, Ok v) -> expand v w1 = (w1, Ok v) -> signed (guess_packager (surround w1)) author email a ->
  exists t p, chosen_padding (M_changelog.parse (s_data c)) p /\ (forall t0, ts = Some t0 -> t = t0) /\ (ts = None -> t = now (newest_extended c) w1) /\
    forall nb, Forall no_break (header_text t p a v :: entry) -> encode (text_of_lines (header_text t p a v :: entry)) = Some nb ->
    exists b', with_file (add_changelog_entry expand surround now parse_expand entry author email ts evr) b w = (b', w1, Ok tt) /\
      bytes_replaced (text_of_lines (sections_raw x ++ hl :: s_data c)) [] (text_of_lines (header_text t p a v :: entry)) b b'.
Proof.
  intros Pf R T E M N Ex Hl Fp Ny Ev1 Ev2 Sg. destruct (add_block _ _ _ _ _ _ _ _ _ _ Pf R T E M N Ex Hl Ev1 Ev2 Sg) as (t & p & d & Cp & T1 & T2 & I & A & L & Nd).
  exists t, p. split; [exact Cp|]. split; [exact T1|]. split; [exact T2|]. intros nb Nn En. apply inserted_first in I; auto.
  assert (Np : s_nid c <> PREAMBLE) by (destruct M as [-> _]; discriminate).
  rewrite (with_data_raw parse_expand w (sp_lines s) x c y w1 hl d E T Np Hl) in A.
  2: { subst d. apply Forall_app. split; auto. }
  apply (block_bytes _ b s w w1 (Ok tt) (sections_raw x ++ hl :: s_data c) [] (header_text t p a v :: entry) (sections_raw y) nb Pf R); auto.
  - rewrite L. do 4 (cbn [app]; rewrite <- ?app_assoc). reflexivity.
  - rewrite A. subst d. f_equal. f_equal. do 4 (cbn [app]; rewrite <- ?app_assoc). reflexivity.
Qed.
Theorem add_none_bytes b s w w1 secs : plain_file b -> read_lines b = Ok s -> Forall tidy_line (sp_lines s) ->
  M_sections.parse parse_expand w (sp_lines s) = (Ok secs, w1) -> Forall (fun s => ~ manual s) secs -> Forall examined secs ->
  with_file (add_changelog_entry expand surround now parse_expand entry author email ts evr) b w = (b, w1, Ok tt).
Proof.
  intros Pf R T E N Ex. apply (same_lines_bytes _ b s); auto. unfold add_changelog_entry. rewrite E, (P_add_entry.nothing_to_do expand surround now w1 entry email author evr ts secs Ex N).
  now rewrite (tidy_sections _ _ _ _ _ E T).
Qed.
End Add.
End Uni.
