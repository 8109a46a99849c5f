(** Proofs about operations on a whole spec file: what is read after a line of a tag was put in, or other lines of tags were replaced. *)
From Coq Require Import Ascii String.
From Coq Require Import NArith ZArith List Bool Lia.
From Verif Require P_value.
From Verif Require Import PyStr PyStrFacts Regex RegexFacts M_constants M_options M_value M_macro_definitions Spec_macro_definitions P_macro_definitions P_macro_definitions2
  P_macro_definitions3 M_conditions M_sections Spec_sections P_sections P_sections2 P_sections4 M_tags Spec_tags P_tags P_tags2 P_tags3 P_tags4 P_tags5 P_context
  M_release M_update M_specfile Spec_specfile Spec_update Spec_specfile2 Spec_specfile3 P_specfile P_specfile2 P_specfile5 P_specfile6 P_specfile7 P_specfile10 P_specfile11 P_specfile12 P_specfile13.
Import ListNotations.
Open Scope N_scope.
Open Scope nat_scope.

Section Uni.
Context {U : Unicode}.
Notation F := (map (fun l : str => (l, true))).
Notation own := M_macro_definitions.own_lines.
(** Lines covered by definitions, of each [nb] lines after those above. *)
Definition cover (nb : mdef -> nat) (ds : list mdef) (i : nat) : Prop :=
  exists a d b k, ds = a ++ d :: b /\ k < nb d /\ i = length (flat_map mdef_raw a) + length (d_preceding d) + k.
Lemma cover_cons nb d ds i : cover nb (d :: ds) i <->
  (length (d_preceding d) <= i < length (d_preceding d) + nb d) \/ (length (mdef_raw d) <= i /\ cover nb ds (i - length (mdef_raw d))).
Proof.
  split.
  - intros (a & x & b & k & E & Hk & Hi). destruct a as [|y a]; injection E as -> ->.
    + left. cbn in Hi. lia.
    + right. cbn [flat_map] in Hi. rewrite app_length in Hi. split; [lia|]. exists a, x, b, k. repeat split; auto. lia.
  - intros [H|(H & a & x & b & k & -> & Hk & Hi)].
    + exists [], d, ds, (i - length (d_preceding d)). repeat split; cbn; lia.
    + exists (d :: a), x, b, k. repeat split; auto. cbn [flat_map]. rewrite app_length. lia.
Qed.
Lemma cover_nil nb i : ~ cover nb [] i.
Proof. intros (a & d & b & k & E & _). destruct a; discriminate. Qed.
Lemma cover_app nb ds1 : forall ds2 i, (forall d, nb d <= length (own d)) -> (cover nb (ds1 ++ ds2) i <->
  (i < length (flat_map mdef_raw ds1) /\ cover nb ds1 i) \/ (length (flat_map mdef_raw ds1) <= i /\ cover nb ds2 (i - length (flat_map mdef_raw ds1)))).
Proof.
  induction ds1 as [|d ds1 IH]; intros ds2 i N; cbn [app flat_map].
  - cbn [length]. rewrite Nat.sub_0_r. split; [intros H; right; split; auto; lia|]. intros [(H & _)|(_ & H)]; auto. lia.
  - assert (Lr : length (mdef_raw d) = length (d_preceding d) + length (own d)) by (unfold mdef_raw; now rewrite app_length).
    pose proof (N d) as Nd. rewrite !cover_cons, IH, app_length by auto.
    replace (i - (length (mdef_raw d) + length (flat_map mdef_raw ds1))) with (i - length (mdef_raw d) - length (flat_map mdef_raw ds1)) by lia.
    split.
    + intros [H|(H & [(H1 & H2)|(H1 & H2)])]; [left; split; [lia|now left]|left; split; [lia|right; auto]|right; split; [lia|auto]].
    + intros [(H & [H1|(H1 & H2)])|(H & H1)]; [now left|right; split; auto; left; split; auto; lia|right; split; [lia|right; split; auto; lia]].
Qed.

(** Below the line that is put in, nothing changes but the lines above the next definition. *)
Lemma loop_buffer : forall fuel lines data b0 b1 buf, 
  (exists z, parse_loop fuel lines data (b0 ++ buf) = mk_mdefs data (b0 ++ z) /\ parse_loop fuel lines data (b1 ++ buf) = mk_mdefs data (b1 ++ z)) \/
  (exists z d fs rem, parse_loop fuel lines data (b0 ++ buf) = mk_mdefs (data ++ M_macro_definitions.with_preceding (b0 ++ z) d :: fs) rem /\
                      parse_loop fuel lines data (b1 ++ buf) = mk_mdefs (data ++ M_macro_definitions.with_preceding (b1 ++ z) d :: fs) rem).
Proof.
  induction fuel as [|fuel IH]; intros lines data b0 b1 buf; [left; exists buf; auto|]. destruct lines as [|[line v] lines]; [left; exists buf; auto|].
  cbn [parse_loop]. destruct (re_match md_regex line) as [m|].
  - right. destruct (make_def m v (b0 ++ buf) lines) as [d rest] eqn:D. pose proof (preceding_buffer _ _ _ _ _ _ D) as Ep.
    pose proof (make_def_buffer _ _ _ (b1 ++ buf) _ _ _ D) as D'. rewrite D'.
    assert (E : d = M_macro_definitions.with_preceding (b0 ++ buf) d) by (rewrite <- Ep; now destruct d).
    assert (K : exists fs rem, forall x', parse_loop fuel rest (data ++ [x']) [] = mk_mdefs (data ++ x' :: fs) rem).
    { clear. assert (G : forall fuel lines d0 buffer, exists fs rem, forall dt, parse_loop fuel lines (dt ++ d0) buffer = mk_mdefs (dt ++ d0 ++ fs) rem).
      { clear. induction fuel as [|fuel IH]; intros lines d0 buffer; [exists [], buffer; intros; cbn; now rewrite app_nil_r|]. destruct lines as [|[line v] lines]; [exists [], buffer; intros; cbn; now rewrite app_nil_r|].
        cbn [parse_loop]. destruct (re_match md_regex line) as [m|]; [|apply IH]. destruct (make_def m v buffer lines) as [d rest].
        destruct (IH rest (d0 ++ [d]) []) as (fs & rem & H). exists (d :: fs), rem. intros dt. rewrite <- app_assoc, H, <- app_assoc. reflexivity. }
      destruct (G fuel rest [] []) as (fs & rem & H). exists fs, rem. intros x'. specialize (H (data ++ [x'])). rewrite app_nil_r in H. rewrite H. cbn [app]. now rewrite <- app_assoc. }
    destruct K as (fs & rem & H). exists buf, d, fs, rem. rewrite E at 1. rewrite !H. auto.
  - rewrite <- !app_assoc. apply IH.
Qed.

(** The loop comes to the place. *)
Lemma insert_loop : forall fuel x y data buffer, length (x ++ y) <= fuel -> clean (x ++ y) ->
  let m := parse_loop fuel (F (x ++ y)) data buffer in let base := length (flat_map mdef_raw data) + length buffer in
  (forall a d b k, md_data m = a ++ d :: b -> 0 < k < length (own d) -> base + length x <> length (flat_map mdef_raw a) + length (d_preceding d) + k) ->
  (y = [] -> forall a d b k, md_data m = a ++ d :: b -> k < length (own d) -> base + length x <> S (length (flat_map mdef_raw a) + length (d_preceding d) + k)) ->
  exists data' buffer', reach (F (x ++ y)) data buffer (F y) data' buffer' /\ (forall l, reach (F (x ++ l :: y)) data buffer (F (l :: y)) data' buffer') /\
    length (flat_map mdef_raw data') + length buffer' = base + length x.
Proof.
  induction fuel as [|fuel IH]; intros x y data buffer L C m base H1 H2.
  { destruct x; [|cbn in L; lia]. exists data, buffer. split; [constructor|]. split; [intros; constructor|]. unfold base. cbn. lia. }
  destruct x as [|line x]; [exists data, buffer; split; [constructor|]; split; [intros; constructor|]; unfold base; cbn; lia|].
  cbn [app length] in L. cbn [app] in C, m. unfold m in H1, H2. cbn [map parse_loop] in H1, H2. clear m. destruct (re_match md_regex line) as [m|] eqn:M.
  - destruct (make_def m true buffer (F (x ++ y))) as [d rest] eqn:D.
    assert (Em : map fst (F (x ++ y)) = x ++ y) by (rewrite map_map; apply map_id).
    destruct (make_def_raw line m true buffer (F (x ++ y)) d rest) as (taken & Et & Er); auto; [now rewrite Em|].
    apply F_cut in Et as (t & r & Exy & -> & ->). assert (Eft : map fst (F t) = t) by (rewrite map_map; apply map_id). rewrite Eft in Er. clear Em Eft.
    pose proof (preceding_buffer _ _ _ _ _ _ D) as Ep.
    assert (Eo : own d = line :: t) by (unfold mdef_raw in Er; rewrite Ep in Er; now apply app_inv_head in Er).
    destruct (P_specfile5.loop_data fuel (F r) (data ++ [d]) []) as (more & Hm).
    assert (Lt : length t <= length x).
    { destruct (Nat.le_gt_cases (length t) (length x)) as [|Q]; auto. exfalso. eapply (H1 data d more (S (length x))); [rewrite Hm, <- app_assoc; reflexivity|rewrite Eo; cbn; lia|].
      rewrite Ep. unfold base. cbn. lia. }
    assert (exists x1, x = t ++ x1) as (x1 & ->).
    { exists (skipn (length t) x). pose proof (f_equal (firstn (length t)) Exy) as Q. rewrite !firstn_app, Nat.sub_diag, firstn_all in Q. cbn [firstn] in Q. rewrite app_nil_r in Q.
      replace (length t - length x) with 0 in Q by lia. cbn [firstn] in Q. rewrite app_nil_r in Q. rewrite <- Q at 1. now rewrite firstn_skipn. }
    rewrite <- app_assoc in Exy. apply app_inv_head in Exy. subst r.
    assert (Nx : x1 ++ y <> []).
    { intros Q. apply app_eq_nil in Q as [-> ->]. eapply (H2 eq_refl data d more (length t)); [rewrite Hm, <- app_assoc; reflexivity|rewrite Eo; cbn; lia|].
      rewrite Ep, app_nil_r. unfold base. cbn. lia. }
    rewrite <- app_assoc in *.
    assert (Rb : length (flat_map mdef_raw (data ++ [d])) + 0 = base + S (length t)).
    { rewrite flat_map_app, app_length. cbn [flat_map]. rewrite app_nil_r, Er, app_length. unfold base. cbn [length]. lia. }
    destruct (IH x1 y (data ++ [d]) []) as (data' & buffer' & R1 & R2 & R3).
    + rewrite app_length in L. rewrite !app_length in *. lia.
    + apply (clean_tail (line :: t)). exact C.
    + cbn [length] in *. intros a u b k Hu Hk Q. apply (H1 a u b k Hu Hk). rewrite <- Q, app_length. lia.
    + cbn [length] in *. intros Ey a u b k Hu Hk Q. apply (H2 Ey a u b k Hu Hk). rewrite <- Q, app_length. lia.
    + exists data', buffer'. split; [|split].
      * cbn [app]. rewrite <- app_assoc. cbn [map]. eapply R_def; [exact M|exact D|exact R1].
      * intros l. cbn [app map]. rewrite <- app_assoc. eapply R_def; [exact M| |apply R2]. rewrite map_app in D |- *.
        eapply make_def_stop; [| |exact D]; intros Q; apply map_eq_nil in Q; [now apply Nx|]. destruct x1; discriminate.
      * rewrite R3. cbn [length] in *. rewrite !app_length. lia.
  - destruct (IH x y data (buffer ++ [line])) as (data' & buffer' & R1 & R2 & R3).
    + lia.
    + apply (clean_tail [line]). exact C.
    + intros a u b k Hu Hk Q. apply (H1 a u b k Hu Hk). rewrite <- Q, app_length. unfold base. cbn. lia.
    + intros Ey a u b k Hu Hk Q. apply (H2 Ey a u b k Hu Hk). rewrite <- Q, app_length. unfold base. cbn. lia.
    + exists data', buffer'. split; [|split].
      * cbn [app map]. now apply R_other.
      * intros l. cbn [app map]. apply R_other; auto. apply R2.
      * rewrite R3, app_length. unfold base. cbn. lia.
Qed.

(** The same definitions, with other lines above them. *)
Definition shifted (d d' : mdef) : Prop := d' = M_macro_definitions.with_preceding (d_preceding d') d.
Lemma shifted_refl ds : Forall2 shifted ds ds.
Proof. induction ds as [|d ds IH]; constructor; auto. unfold shifted. now destruct d. Qed.
Lemma reach_parse x y l data buffer : reach (F (x ++ y)) [] [] (F y) data buffer -> reach (F (x ++ l :: y)) [] [] (F (l :: y)) data buffer ->
  length (flat_map mdef_raw data) + length buffer = length x -> re_match md_regex l = None ->
  let m := parse_plain (x ++ y) in let m' := parse_plain (x ++ l :: y) in
  Forall2 shifted (md_data m) (md_data m') /\
  forall nb, (forall d, nb d <= length (own d)) -> (forall p d, nb (M_macro_definitions.with_preceding p d) = nb d) ->
    ~ cover nb (md_data m') (length x) /\
    forall i, (i < length x -> (cover nb (md_data m) i <-> cover nb (md_data m') i)) /\ (length x <= i -> (cover nb (md_data m) i <-> cover nb (md_data m') (S i))).
Proof.
  intros R1 R2 R3 M m m'. subst m m'. unfold parse_plain, parse_tagged in *. rewrite !map_length in *.
  apply reach_loop in R1, R2. rewrite !map_length in R1, R2. rewrite R1, R2. cbn [length map parse_loop] in *. rewrite M.
  destruct (loop_buffer (length y) (F y) data buffer (buffer ++ [l]) []) as [(z & E1 & E2)|(z & d & fs & rem & E1 & E2)]; rewrite app_nil_r in E1, E2; rewrite E1, E2; cbn [md_data].
  - split; [apply shifted_refl|]. intros nb N1 N2.
    assert (K : forall i, cover nb data i -> i < length x).
    { intros i (a & d & b & k & -> & Hk & Hi). specialize (N1 d). rewrite flat_map_app, app_length in R3. cbn [flat_map] in R3. assert (Q : length (mdef_raw d) = length (d_preceding d) + length (own d)) by (unfold mdef_raw; now rewrite app_length). rewrite !app_length in R3. lia. }
    split; [intros Q; apply K in Q; lia|]. intros i. split; [reflexivity|]. intros Hi. split; intros Q; apply K in Q; lia.
  - split.
    { apply Forall2_app; [apply shifted_refl|]. constructor; [reflexivity|apply shifted_refl]. }
    intros nb N1 N2. rewrite !cover_app by auto.
    assert (Lp : forall p, length (mdef_raw (M_macro_definitions.with_preceding p d)) = length p + length (own d)) by (intros p; unfold mdef_raw; now rewrite app_length).
    split.
    { rewrite cover_cons, Lp, N2. cbn [M_macro_definitions.with_preceding d_preceding]. rewrite !app_length. cbn [length]. lia. }
    intros i. rewrite !cover_app by auto. rewrite !cover_cons, !Lp, !N2. cbn [M_macro_definitions.with_preceding d_preceding]. rewrite !app_length. cbn [length]. split; intros Hi.
    + split; (intros [Q|(Q1 & [Q2|(Q2 & _)])]; [now left|exfalso; lia|exfalso; lia]).
    + split.
      * intros [(Q & _)|(Q1 & [Q2|(Q2 & Q3)])]; [exfalso; lia| |]; right; (split; [lia|]).
        -- left. lia.
        -- right. split; [lia|]. match goal with |- cover _ _ ?j => match type of Q3 with cover _ _ ?k => replace j with k by lia end end. exact Q3.
      * intros [(Q & _)|(Q1 & [Q2|(Q2 & Q3)])]; [exfalso; lia| |]; right; (split; [lia|]).
        -- left. lia.
        -- right. split; [lia|]. match goal with |- cover _ _ ?j => match type of Q3 with cover _ _ ?k => replace j with k by lia end end. exact Q3.
Qed.
Theorem insert_parse x y l : clean (x ++ y) -> re_match md_regex l = None -> between_definitions (x ++ y) (length x) ->
  let m := parse_plain (x ++ y) in let m' := parse_plain (x ++ l :: y) in
  Forall2 shifted (md_data m) (md_data m') /\
  forall nb, (forall d, nb d <= length (own d)) -> (forall p d, nb (M_macro_definitions.with_preceding p d) = nb d) ->
    ~ cover nb (md_data m') (length x) /\
    forall i, (i < length x -> (cover nb (md_data m) i <-> cover nb (md_data m') i)) /\ (length x <= i -> (cover nb (md_data m) i <-> cover nb (md_data m') (S i))).
Proof.
  intros C M (B1 & B2) m m'. 
  assert (Q : exists data buffer, reach (F (x ++ y)) [] [] (F y) data buffer /\ (forall l, reach (F (x ++ l :: y)) [] [] (F (l :: y)) data buffer) /\ length (flat_map mdef_raw data) + length buffer = length x).
  { subst m m'. unfold parse_plain, parse_tagged in *. rewrite !map_length in *. destruct (insert_loop (length (x ++ y)) x y [] [] (le_n _) C) as (data & buffer & R1 & R2 & R3); [| |exists data, buffer; auto].
    - cbn [flat_map length Nat.add]. intros a d b k E Hk Q. apply B1. exists a, d, b, k. auto.
    - cbn [flat_map length Nat.add]. intros -> a d b k E Hk Q. rewrite app_nil_r in *. eapply (B2 eq_refl); [exact Q|]. exists a, d, b, k. auto. }
  destruct Q as (data & buffer & R1 & R2 & R3). exact (reach_parse x y l data buffer R1 (R2 l) R3 M).
Qed.

(** The beginning of a file, up to the first section, and the sections. *)
Definition front (lines p : list str) (bs : list (str * list str)) : Prop :=
  exists rs, excluded_ranges (parse_plain lines) (md_data (parse_plain lines)) = Ok rs /\ blocks_of (header_at rs) 0 lines = (p, bs).
Lemma front_lines lines p bs : front lines p bs -> lines = p ++ block_lines bs.
Proof. intros (rs & _ & B). now apply blocks_lines in B. Qed.
Lemma blocks_keep hdr hdr' : forall r i i', (forall j l, nth_error r j = Some l -> hdr' (i' + j) l = hdr (i + j) l) -> blocks_of hdr' i' r = blocks_of hdr i r.
Proof.
  induction r as [|l r IH]; intros i i' H; auto. cbn [blocks_of]. rewrite (IH (S i) (S i')).
  - pose proof (H 0 l eq_refl) as Q. rewrite !Nat.add_0_r in Q. now rewrite Q.
  - intros j x Hx. specialize (H (S j) x Hx). now rewrite !Nat.add_succ_r in H.
Qed.
Lemma blocks_skip hdr : forall p r i q bs, (forall j l, nth_error p j = Some l -> hdr (i + j) l = false) -> blocks_of hdr (i + length p) r = (q, bs) -> blocks_of hdr i (p ++ r) = (p ++ q, bs).
Proof.
  induction p as [|l p IH]; intros r i q bs H E; cbn [app length] in *; [now rewrite Nat.add_0_r in E|]. cbn [blocks_of]. rewrite (IH r (S i) q bs).
  - pose proof (H 0 l eq_refl) as Q. rewrite Nat.add_0_r in Q. now rewrite Q.
  - intros j x Hx. specialize (H (S j) x Hx). now rewrite Nat.add_succ_r in H.
  - replace (S i + length p) with (i + S (length p)) by lia. exact E.
Qed.
Lemma blocks_split hdr : forall lines i p bs, blocks_of hdr i lines = (p, bs) -> (forall j l, nth_error p j = Some l -> hdr (i + j) l = false) /\ blocks_of hdr (i + length p) (block_lines bs) = ([], bs).
Proof.
  induction lines as [|l lines IH]; intros i p bs; cbn [blocks_of].
  - intros E; injection E as <- <-. split; [intros [|j]; discriminate|reflexivity].
  - destruct (blocks_of hdr (S i) lines) as [p' bs'] eqn:E. pose proof (blocks_lines _ _ _ _ _ E) as El. destruct (hdr i l) eqn:Hh; intros Q; injection Q as <- <-.
    + split; [intros [|j]; discriminate|]. cbn [length]. rewrite Nat.add_0_r. unfold block_lines. cbn [flat_map fst snd app]. fold (block_lines bs'). rewrite <- El. cbn [blocks_of]. now rewrite E, Hh.
    + destruct (IH _ _ _ E) as (H1 & H2). split.
      * intros [|j] x Hx; cbn in Hx; [injection Hx as <-; now rewrite Nat.add_0_r|]. rewrite Nat.add_succ_r. now apply (H1 j).
      * cbn [length]. now replace (i + S (length p')) with (S i + length p') by lia.
Qed.
Lemma body_cover m i : body_line m i <-> cover (fun d => length (split_on LF [] (d_body d))) (md_data m) i.
Proof. reflexivity. Qed.
Lemma defn_cover m i : in_definition m i <-> cover (fun d => length (own d)) (md_data m) i.
Proof. reflexivity. Qed.
(** Headers at the same distance from the end. *)
Lemma front_change lines p bs lines' p' : front lines p bs -> defined_apart (parse_plain lines) -> defined_apart (parse_plain lines') -> lines' = p' ++ block_lines bs ->
  (forall j l, nth_error p' j = Some l -> is_header l = true -> body_line (parse_plain lines') j) ->
  (forall j, body_line (parse_plain lines) (length p + j) <-> body_line (parse_plain lines') (length p' + j)) -> front lines' p' bs.
Proof.
  intros (rs & Er & Eb) A A' El H1 H2. destruct (excluded_body _ (apart_distinct _ A)) as (r1 & Q1 & X1). rewrite Er in Q1. injection Q1 as <-.
  destruct (excluded_body _ (apart_distinct _ A')) as (rs' & Er' & X2). exists rs'. split; [exact Er'|]. rewrite El. apply blocks_split in Eb as (Hp & Hb). rewrite <- (app_nil_r p') at 2. apply blocks_skip.
  - intros j l Hl. cbn [Nat.add]. unfold header_at. destruct (is_header l) eqn:Hh; [|apply andb_false_r]. specialize (H1 j l Hl Hh). apply X2 in H1. now rewrite H1.
  - cbn [Nat.add] in *. rewrite <- Hb. apply blocks_keep. intros j l _. unfold header_at. f_equal. f_equal. apply eq_true_iff_eq. rewrite X1, X2. symmetry. apply H2.
Qed.
Lemma front_headers lines p bs : front lines p bs -> defined_apart (parse_plain lines) -> forall j l, nth_error p j = Some l -> is_header l = true -> body_line (parse_plain lines) j.
Proof.
  intros (rs & Er & Eb) A j l Hl Hh. destruct (excluded_body _ (apart_distinct _ A)) as (r1 & Q1 & X1). rewrite Er in Q1. injection Q1 as <-. apply blocks_split in Eb as (Hp & _).
  specialize (Hp j l Hl). unfold header_at in Hp. rewrite Hh, andb_true_r in Hp. apply X1. now apply negb_false_iff.
Qed.
Lemma shifted_apart m m' : Forall2 shifted (md_data m) (md_data m') -> defined_apart m -> defined_apart m'.
Proof.
  intros S A a d b x E Hx N. rewrite E in S. apply Forall2_app_inv_r in S as (a0 & r & Sa & Sr & E0). inversion Sr as [|d0 ? b0 ? Sd Sb]; subst.
  apply in_split in Hx as (a1 & a2 & ->). apply Forall2_app_inv_r in Sa as (a3 & r' & S1 & S2 & ->). inversion S2 as [|x0 ? a4 ? Sx S4]; subst.
  unfold shifted in Sd, Sx. rewrite Sd, Sx in N |- *. cbn [M_macro_definitions.with_preceding d_name d_body] in *. apply (A (a3 ++ x0 :: a4) d0 b0 x0); auto. apply in_or_app. right. now left.
Qed.
Lemma body_own d : length (split_on LF [] (d_body d)) <= length (own d).
Proof.
  unfold M_macro_definitions.own_lines.
  assert (P : forall (t cur : str), 1 <= length (split_on LF cur t)).
  { induction t as [|c t IH]; intros cur; cbn [split_on]; [cbn [length]; lia|]. destruct (LF =? c)%N; [cbn [length]; lia|apply IH]. }
  assert (G : forall s t cur, length (split_on LF cur s) <= length (split_on LF cur (s ++ t))).
  { induction s as [|c s IH]; intros t cur; cbn [app]; [apply P|]. cbn [split_on]. destruct (LF =? c)%N; cbn [length]; [specialize (IH t []); lia|apply IH]. }
  specialize (G (d_body d) (d_ws3 d) []). revert G. specialize (P (d_body d ++ d_ws3 d) []). revert P. destruct (split_on LF [] (d_body d ++ d_ws3 d)); cbn [length]; lia.
Qed.

(** A line is put in. *)
Theorem insert_line lines x y bs l : good_file lines -> front lines (x ++ y) bs -> re_match md_regex l = None -> is_header l = false -> sane l -> between_definitions lines (length x) ->
  let lines' := (x ++ l :: y) ++ block_lines bs in
  good_file lines' /\ front lines' (x ++ l :: y) bs /\ Forall2 shifted (md_data (parse_plain lines)) (md_data (parse_plain lines')) /\ ~ in_definition (parse_plain lines') (length x).
Proof.
  intros (Sa & A & TO) Fr Mn Hn Sl B lines'. pose proof (front_lines _ _ _ Fr) as El.
  assert (E1 : lines = x ++ (y ++ block_lines bs)) by (rewrite El; now rewrite <- app_assoc).
  assert (E2 : lines' = x ++ l :: (y ++ block_lines bs)) by (unfold lines'; now rewrite <- app_assoc). clearbody lines'.
  assert (NL : ~ In LF l) by (destruct Sl as ((Nb & _) & _); now apply no_break_LF).
  destruct (insert_parse x (y ++ block_lines bs) l) as (Sh & Cv).
  { rewrite <- E1. now apply sane_clean. }
  { exact Mn. }
  { now rewrite <- E1. }
  rewrite <- E1, <- E2 in Sh, Cv.
  destruct (Cv (fun d => length (own d))) as (D0 & D1); [auto|auto|]. destruct (Cv (fun d => length (split_on LF [] (d_body d)))) as (C0 & C1); [apply body_own|auto|]. clear Cv.
  pose proof (shifted_apart _ _ Sh A) as A'.
  assert (TO' : tags_outside lines').
  { intros j z n' s' v' Hz D Tz. apply defn_cover in D. rewrite E2 in Hz. destruct (Nat.lt_trichotomy j (length x)) as [Hj|[->|Hj]].
    - rewrite nth_error_app1 in Hz by lia. apply D1 in D; [|lia]. eapply (TO j z); eauto. rewrite E1, nth_error_app1 by lia. exact Hz.
    - contradiction.
    - destruct j as [|j]; [lia|]. apply (proj2 (D1 j)) in D; [|lia]. eapply (TO j z); eauto. rewrite E1, nth_error_app2 in * by lia. replace (S j - length x) with (S (j - length x)) in Hz by lia. exact Hz. }
  split; [|split; [|split; [exact Sh|exact D0]]].
  - split; [|split; auto]. rewrite E2. rewrite E1 in Sa. apply Forall_app in Sa as (S1 & S2). apply Forall_app. split; auto.
  - eapply front_change; [exact Fr|exact A|exact A'|rewrite E2, <- app_assoc; reflexivity| |].
    + intros j z Hz Hh. pose proof (front_headers _ _ _ Fr A) as K. destruct (Nat.lt_trichotomy j (length x)) as [Hj|[->|Hj]].
      * rewrite nth_error_app1 in Hz by lia. apply body_cover, (proj1 (C1 j)); [lia|]. apply body_cover, (K j z); auto. rewrite nth_error_app1 by lia. exact Hz.
      * rewrite nth_error_app2, Nat.sub_diag in Hz by lia. cbn in Hz. injection Hz as <-. congruence.
      * destruct j as [|j]; [lia|]. apply body_cover, (proj2 (C1 j)); [lia|]. apply body_cover, (K j z); auto. rewrite nth_error_app2 in * by lia. replace (S j - length x) with (S (j - length x)) in Hz by lia. exact Hz.
    + intros j. rewrite !body_cover. rewrite !app_length. cbn [length]. replace (length x + Datatypes.S (length y) + j) with (S (length x + length y + j)) by lia. apply C1. lia.
Qed.

(** A line of a tag is put in. *)
Theorem insert_front lines x y bs l n s v : good_file lines -> front lines (x ++ y) bs -> tag_line l n s v -> sane l -> between_definitions lines (length x) ->
  let lines' := (x ++ l :: y) ++ block_lines bs in
  good_file lines' /\ front lines' (x ++ l :: y) bs /\ Forall2 shifted (md_data (parse_plain lines)) (md_data (parse_plain lines')).
Proof.
  intros G Fr T Sl B lines'. assert (NL : ~ In LF l) by (destruct Sl as ((Nb & _) & _); now apply no_break_LF).
  destruct (insert_line lines x y bs l G Fr) as (A1 & A2 & A3 & _); auto; [eapply tag_line_no_macro; eauto|eapply tag_line_no_header; eauto].
Qed.

(** Lines of tags are replaced. *)
Definition redo (l l' : str) : Prop := l = l' \/ exists n s v n' s' v', tag_line l n s v /\ tag_line l' n' s' v' /\ sane l'.
Lemma redo_refl p : Forall2 redo p p.
Proof. induction p; constructor; auto. now left. Qed.
Theorem redo_front lines p p' bs : good_file lines -> front lines p bs -> Forall2 redo p p' ->
  let lines' := p' ++ block_lines bs in
  good_file lines' /\ front lines' p' bs /\ Forall2 shifted (md_data (parse_plain lines)) (md_data (parse_plain lines')) /\
  (forall q, between_definitions lines q -> between_definitions lines' q).
Proof.
  intros (Sa & A & TO) Fr Rp lines'. pose proof (front_lines _ _ _ Fr) as El.
  assert (R : Forall2 redo lines lines') by (unfold lines'; rewrite El; apply Forall2_app; [exact Rp|apply redo_refl]).
  assert (Sn : Forall sane lines').
  { apply Forall_forall. intros l' H. apply In_nth_error in H as (j & H). destruct (P_specfile13.Forall2_nth_l _ _ _ R j l' H) as (l & Hl & [->|(n & s & v & n' & s' & v' & _ & _ & Q)]); auto.
    rewrite Forall_forall in Sa. apply Sa. now apply nth_error_In in Hl. }
  assert (Ll : length lines = length lines') by now apply Forall2_len in R.
  destruct (lines_like lines lines' (sane_clean _ Sa) (eq_sym Ll)) as (vs & K & N).
  { intros j l l' Hl Hl'. destruct (P_specfile13.Forall2_nth _ _ _ R j l l' Hl Hl') as [->|(n & s & v & n' & s' & v' & T & T' & Q)]; [now left|right].
    assert (P : ~ In LF l) by (rewrite Forall_forall in Sa; apply no_break_LF, (Sa l); now apply nth_error_In in Hl).
    split; [eapply tag_line_no_macro; eauto|]. split; [eapply tag_line_no_macro; [apply no_break_LF, Q|eauto]|]. intros D. eapply TO; eauto. }
  apply like_parse in K.
  assert (A' : defined_apart (parse_plain lines')) by (eapply became_apart; eauto; eapply same_like; eauto).
  assert (Sh : Forall2 (fun d d' => shifted d d' /\ length (d_preceding d) = length (d_preceding d')) (md_data (parse_plain lines)) (md_data (parse_plain lines'))).
  { clear - K N. induction K as [|o d d' vs ds ds' (B1 & B2) _ IH]; constructor; [|apply IH; now inversion N]. inversion N as [|? ? No _]; subst. split; [exact B2|exact B1]. }
  split; [|split; [|split]].
  - split; auto. split; auto. intros j l' n s v Hl' D T. apply (became_body_line vs _ _ j K) in D.
    destruct (P_specfile13.Forall2_nth_l _ _ _ R j l' Hl') as (l & Hl & [->|(n0 & s0 & v0 & n1 & s1 & v1 & T0 & _)]); eapply TO; eauto.
  - eapply front_change; [exact Fr|exact A|exact A'|reflexivity| |].
    + intros j l' Hl' Hh. apply (became_body_line vs _ _ j K). destruct (P_specfile13.Forall2_nth_l _ _ _ Rp j l' Hl') as (l & Hl & [->|(n0 & s0 & v0 & n1 & s1 & v1 & _ & T0 & _)]).
      * eapply front_headers; eauto.
      * rewrite (tag_line_no_header _ _ _ _ T0) in Hh. discriminate.
    + intros j. rewrite (Forall2_len _ _ _ Rp). apply (became_body_line vs _ _ _ K).
  - clear - Sh. induction Sh as [|d d' ds ds' (H & _) _ IH]; constructor; auto.
  - intros q (B1 & B2). split.
    + intros (a & d & b & j & E & Hj & Hq). apply B1. destruct (became_split' _ _ _ K _ _ _ E) as (v1 & o & v2 & a' & d' & b' & _ & E' & K1 & Bd & _).
      apply became_sizes in Bd as (Z1 & Z2 & _). apply became_len in K1 as (K1 & _). exists a', d', b', j. rewrite Z1, Z2, K1. auto.
    + intros Hq q' Eq D. apply (became_body_line vs _ _ _ K) in D. revert D. apply B2; auto. congruence.
Qed.
End Uni.
