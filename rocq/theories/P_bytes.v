(** Changes of the bytes of a file: proofs. *)
From Coq Require Import NArith ZArith List Bool Lia.
From Verif Require Import PyStr PyStrFacts M_macro_definitions M_tags M_file Spec_file P_file M_bytes Spec_bytes Spec_specfile.
Import ListNotations.
Open Scope N_scope.

Lemma lt_text l : lt l = text_of_lines l.
Proof. unfold lt, text_of_lines. now rewrite flat_map_concat_map. Qed.
Lemma text_app a b : text_of_lines (a ++ b) = text_of_lines a ++ text_of_lines b.
Proof. apply flat_map_app. Qed.
Lemma spec_text s : sp_lines s <> [] -> spec_str s ++ (if sp_newline s then [] else [LF]) = text_of_lines (sp_lines s).
Proof. intros N. rewrite <- lt_text, <- join_lt by exact N. unfold spec_str. destruct (sp_newline s); rewrite <- app_assoc; reflexivity. Qed.
Lemma text_nonempty l : text_of_lines l <> [] -> l <> [].
Proof. intros H ->. auto. Qed.
Lemma tail_nonempty (a b : str) c : a ++ b ++ [c] <> [].
Proof. destruct a; [destruct b; discriminate|discriminate]. Qed.
Lemma text_split s cur : text_of_lines (split_on LF cur s) = rev cur ++ s ++ [LF].
Proof.
  revert cur. induction s as [|c s IH]; intros cur; cbn [split_on].
  - cbn. now rewrite app_nil_r.
  - destruct (N.eqb_spec LF c) as [<-|D].
    + change (text_of_lines (rev cur :: split_on LF [] s)) with ((rev cur ++ [LF]) ++ text_of_lines (split_on LF [] s)). rewrite IH. cbn. now rewrite <- app_assoc.
    + rewrite IH. cbn [rev]. now rewrite <- app_assoc.
Qed.
Lemma saved_file (l : list str) n b : encode (spec_str (mkSpec l n)) = Some b -> save (mkSpec l n) = (b, Ok tt).
Proof. unfold save. now intros ->. Qed.
Theorem replaced_text b s lines' X old new Y nb : plain_file b -> read_lines b = Ok s ->
  text_of_lines (sp_lines s) = X ++ old ++ Y ++ [LF] -> text_of_lines lines' = X ++ new ++ Y ++ [LF] -> encode new = Some nb ->
  exists b', save (mkSpec lines' (sp_newline s)) = (b', Ok tt) /\ bytes_replaced X old new b b'.
Proof.
  intros (B & N & P) R E E' En. destruct (unchanged b B N P) as (s0 & R0 & T & _). rewrite R in R0. injection R0 as <-.
  assert (L : sp_lines s <> []) by (apply text_nonempty; rewrite E, !app_assoc, <- app_assoc; apply tail_nonempty).
  assert (L' : lines' <> []) by (apply text_nonempty; rewrite E', !app_assoc, <- app_assoc; apply tail_nonempty).
  pose proof (spec_text s L) as Q. pose proof (spec_text (mkSpec lines' (sp_newline s)) L') as Q'. cbn [sp_lines sp_newline] in Q'.
  rewrite E, T in Q. rewrite E' in Q'. pose proof (encode_decode b B) as D.
  set (Z := Y ++ (if sp_newline s then [LF] else [])).
  assert (A : decode b = X ++ old ++ Z /\ spec_str (mkSpec lines' (sp_newline s)) = X ++ new ++ Z).
  { unfold Z. destruct (sp_newline s); [rewrite app_nil_r in Q, Q'; auto|]. rewrite app_nil_r.
    rewrite !app_assoc in Q, Q'. apply app_inj_tail in Q as [Q _]. apply app_inj_tail in Q' as [Q' _]. rewrite !app_assoc. auto. }
  destruct A as [A A']. rewrite A, !encode_app in D.
  destruct (encode X) as [pre|] eqn:E1; [|discriminate]. destruct (encode old) as [x|] eqn:E2; [|discriminate]. destruct (encode Z) as [post|] eqn:E3; [|discriminate].
  injection D as D. exists (pre ++ nb ++ post). split.
  - apply saved_file. now rewrite A', !encode_app, E1, En, E3.
  - exists pre, x, nb, post. auto.
Qed.
Lemma value_text ts k v lines lines' t : value_replaced ts k v lines lines' -> nth_error (ts_data ts) k = Some t ->
  exists Y, let X := text_of_lines (flat_map tag_raw (firstn k (ts_data ts)) ++ comments_raw (t_comments t)) ++ t_prefix t ++ t_name t ++ t_separator t in
  text_of_lines lines = X ++ t_value t ++ Y ++ [LF] /\ text_of_lines lines' = X ++ v ++ Y ++ [LF].
Proof.
  intros (t' & after & K & H) K2. rewrite K in K2. injection K2 as ->. destruct H as [-> ->]. rewrite !text_app. unfold text_lines. rewrite !text_split. cbn [rev app].
  destruct (exists_last (l := t_suffix t ++ [LF] ++ text_of_lines after)) as (Y & c & E); [rewrite !app_assoc; destruct (t_suffix t); discriminate|].
  assert (c = LF) as ->.
  { destruct after as [|x after] using rev_ind.
    - cbn [text_of_lines flat_map] in E. rewrite app_nil_r in E. apply app_inj_tail in E as [_ E]. auto.
    - rewrite text_app in E. change (text_of_lines [x]) with ((x ++ [LF]) ++ []) in E. rewrite app_nil_r in E. rewrite !app_assoc in E. apply app_inj_tail in E as [_ E]. auto. }
  exists Y. cbv zeta. rewrite <- !app_assoc, <- E. cbn [app]. split; reflexivity.
Qed.
Lemma lines_of_own d : text_of_lines (M_macro_definitions.own_lines d) = d_head d ++ d_body d ++ d_ws3 d ++ [LF].
Proof.
  unfold M_macro_definitions.own_lines. destruct (split_on LF [] (d_body d ++ d_ws3 d)) as [|b0 bs] eqn:E.
  - pose proof (text_split (d_body d ++ d_ws3 d) []) as Q. rewrite E in Q. cbn in Q. destruct (d_body d ++ d_ws3 d); discriminate.
  - pose proof (text_split (d_body d ++ d_ws3 d) []) as Q. rewrite E in Q. cbn [rev app] in Q. rewrite <- app_assoc in Q. rewrite <- Q.
    unfold text_of_lines. cbn [flat_map]. now rewrite <- !app_assoc.
Qed.
Lemma body_text m k v lines lines' d : body_replaced m k v lines lines' -> nth_error (md_data m) k = Some d ->
  exists Y, let X := text_of_lines (flat_map mdef_raw (firstn k (md_data m)) ++ d_preceding d) ++ d_head d in
  text_of_lines lines = X ++ d_body d ++ Y ++ [LF] /\ text_of_lines lines' = X ++ v ++ Y ++ [LF].
Proof.
  intros (t' & after & K & H) K2. rewrite K in K2. injection K2 as ->. destruct H as [-> ->]. rewrite !text_app, !lines_of_own.
  change (d_body (with_body v d)) with v. change (d_head (with_body v d)) with (d_head d). change (d_ws3 (with_body v d)) with (d_ws3 d).
  destruct (exists_last (l := d_ws3 d ++ [LF] ++ text_of_lines after)) as (Y & c & E); [rewrite !app_assoc; destruct (d_ws3 d); discriminate|].
  assert (c = LF) as ->.
  { destruct after as [|x after] using rev_ind.
    - cbn [text_of_lines flat_map] in E. rewrite app_nil_r in E. apply app_inj_tail in E as [_ E]. auto.
    - rewrite text_app in E. change (text_of_lines [x]) with ((x ++ [LF]) ++ []) in E. rewrite app_nil_r in E. rewrite !app_assoc in E. apply app_inj_tail in E as [_ E]. auto. }
  exists Y. cbv zeta. rewrite <- !app_assoc, <- E. cbn [app]. split; reflexivity.
Qed.

Theorem value_bytes {W A} (o : list str -> W -> list str * W * result A) b s w lines' w' r ts k t v nb : plain_file b -> read_lines b = Ok s ->
  o (sp_lines s) w = (lines', w', r) -> value_replaced ts k v (sp_lines s) lines' -> nth_error (ts_data ts) k = Some t -> encode v = Some nb ->
  exists b', with_file o b w = (b', w', r) /\
    bytes_replaced (text_of_lines (flat_map tag_raw (firstn k (ts_data ts)) ++ comments_raw (t_comments t)) ++ t_prefix t ++ t_name t ++ t_separator t) (t_value t) v b b'.
Proof.
  intros P R O V K En. destruct (value_text ts k v _ _ t V K) as (Y & E & E'). destruct (replaced_text b s lines' _ _ _ Y nb P R E E' En) as (b' & S' & H).
  exists b'. split; [|exact H]. unfold with_file. now rewrite R, O, S'.
Qed.
Theorem body_bytes {W A} (o : list str -> W -> list str * W * result A) b s w lines' w' r m k d v nb : plain_file b -> read_lines b = Ok s ->
  o (sp_lines s) w = (lines', w', r) -> body_replaced m k v (sp_lines s) lines' -> nth_error (md_data m) k = Some d -> encode v = Some nb ->
  exists b', with_file o b w = (b', w', r) /\
    bytes_replaced (text_of_lines (flat_map mdef_raw (firstn k (md_data m)) ++ d_preceding d) ++ d_head d) (d_body d) v b b'.
Proof.
  intros P R O V K En. destruct (body_text m k v _ _ d V K) as (Y & E & E'). destruct (replaced_text b s lines' _ _ _ Y nb P R E E' En) as (b' & S' & H).
  exists b'. split; [|exact H]. unfold with_file. now rewrite R, O, S'.
Qed.
Theorem same_lines_bytes {W A} (o : list str -> W -> list str * W * result A) b s w w' r : plain_file b -> read_lines b = Ok s ->
  o (sp_lines s) w = (sp_lines s, w', r) -> with_file o b w = (b, w', r).
Proof.
  intros (B & N & P) R O. destruct (unchanged b B N P) as (s0 & R0 & _ & S'). rewrite R in R0. injection R0 as <-.
  unfold with_file. rewrite R, O. destruct s as [l n]. cbn [sp_lines sp_newline]. now rewrite S'.
Qed.
Theorem block_bytes {W A} (o : list str -> W -> list str * W * result A) b s w w' r u old new v nb : plain_file b -> read_lines b = Ok s ->
  sp_lines s = u ++ old ++ v -> o (sp_lines s) w = (u ++ new ++ v, w', r) -> encode (text_of_lines new) = Some nb -> v <> [] ->
  exists b', with_file o b w = (b', w', r) /\ bytes_replaced (text_of_lines u) (text_of_lines old) (text_of_lines new) b b'.
Proof.
  intros P R E O En V. destruct (exists_last V) as (v0 & x & ->).
  destruct (replaced_text b s (u ++ new ++ v0 ++ [x]) (text_of_lines u) (text_of_lines old) (text_of_lines new) (text_of_lines v0 ++ x) nb P R) as (b' & S' & H); auto.
  1,2: try rewrite E; rewrite !text_app; change (text_of_lines [x]) with ((x ++ [LF]) ++ []); rewrite app_nil_r, <- !app_assoc; reflexivity.
  exists b'. split; [|exact H]. unfold with_file. now rewrite R, O, S'.
Qed.
