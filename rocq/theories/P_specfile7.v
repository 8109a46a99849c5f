(** Proofs about operations on a whole spec file: a value that was set is read again. *)
From Coq Require Import Ascii String.
From Coq Require Import NArith ZArith List Bool Lia.
From Verif Require P_value.
From Verif Require Import PyStr PyStrFacts Regex RegexFacts M_constants M_options M_value Spec_value M_macro_definitions Spec_macro_definitions P_macro_definitions P_macro_definitions2
  M_conditions P_conditions P_conditions2 P_conditions3 M_sections Spec_sections P_sections P_sections2 P_sections4 M_tags Spec_tags P_tags P_tags2 P_tags3 P_tags4 P_tags5 P_context
  M_release M_update M_specfile Spec_specfile P_specfile P_specfile2 P_specfile5 P_specfile6.
Import ListNotations.
Open Scope N_scope.

Section Uni.
Context {U : Unicode}.
(** A line with a tag starts with a letter. *)
Lemma tag_line_letter line n sep v : tag_line line n sep v -> exists a c r, line = c :: r /\ 97 <= a <= 122 /\ same_letter a c.
Proof.
  intros (-> & (m & letters & arg & Hm & F & _ & ->) & _). destruct F as [|a c m' r S F].
  - exfalso. assert (B : forallb (fun n => match n with [] => false | _ => true end) TAG_NAMES = true) by (vm_compute; reflexivity).
    rewrite forallb_forall in B. apply B in Hm. discriminate.
  - exists a, c. eexists. split; [reflexivity|]. split; auto. apply (tag_names_lower (a :: m')); auto. now left.
Qed.
Lemma letter_other a c : 97 <= a <= 122 -> same_letter a c -> c <> PCT /\ c <> HASH.
Proof. unfold same_letter. unfold PCT, HASH. intros L [->|[(_ & ->)|[(_ & [->| ->])|[(_ & ->)|(_ & ->)]]]]; lia. Qed.
Lemma tag_line_no_macro line n sep v : ~ In LF line -> tag_line line n sep v -> re_match md_regex line = None.
Proof.
  intros NL T. destruct (re_match md_regex line) as [m|] eqn:M; auto. exfalso. apply tag_line_letter in T as (a & c & r & E & La & Sc).
  destruct (letter_class a c La Sc) as (Nsp & _). destruct (letter_other a c La Sc) as (NP & NH).
  destruct (md_match _ _ NL M) as (w0 & dn & sc & k & w1 & nm & w2 & body & w3 & S). destruct S as [SL S1 S3 S4 S5 S6 S7 S8 S9 B0 BK B1 B2 B3 BS].
  rewrite E in SL. destruct w0 as [|x w0].
  - destruct BS as [(-> & _)|(-> & _ & [->|[->|(x & ->)]])]; cbn in SL; injection SL as SL _; (apply NP; exact SL) || (apply NH; exact SL).
  - cbn in SL. injection SL as -> _. unfold blank in B0. inversion B0; subst. congruence.
Qed.
Lemma tag_line_no_header line n sep v : tag_line line n sep v -> is_header line = false.
Proof.
  intros T. apply tag_line_letter in T as (a & c & r & -> & La & Sc). destruct (letter_other a c La Sc) as (NP & _).
  destruct (is_header (c :: r)) eqn:E; auto. apply is_header_pct in E as (x & Q). congruence.
Qed.
Lemma tag_line_not_braced line n sep v : tag_line line n sep v -> forall x, line <> PCT :: LBRACE :: x.
Proof. intros T x Q. apply tag_line_letter in T as (a & c & r & E & La & Sc). destruct (letter_other a c La Sc) as (NP & _). congruence. Qed.
Lemma split_not_braced line r : (forall x, line <> PCT :: LBRACE :: x) -> split_conditional_macro_expansion line = Ok r -> r = (line, [], []).
Proof.
  intros N. unfold split_conditional_macro_expansion. destruct (M_value.parse line) as [ns|e] eqn:E.
  - destruct ns as [|n [|n2 ns]]; [intros Q; now injection Q as <-| |destruct n; intros Q; now injection Q as <-].
    destruct n as [| | | | |cp cn cb|]; intros Q; try (now injection Q as <-). exfalso. apply P_value.parse_reads in E. inversion E; subst. eapply N. reflexivity.
  - destruct e; try discriminate. intros Q; now injection Q as <-.
Qed.
Lemma rstrip_end s : rstrip s = s -> forall a c, s = a ++ [c] -> is_space c = false.
Proof.
  intros R a c ->. unfold rstrip in R. rewrite rev_app_distr in R. cbn [rev app dropwhile] in R. destruct (is_space c) eqn:E; auto. exfalso.
  apply (f_equal (@length _)) in R. rewrite rev_length, app_length in R. cbn in R.
  assert (L : forall x : str, (length (dropwhile is_space x) <= length x)%nat) by (induction x as [|y x IH]; cbn; [lia|destruct (is_space y); cbn; lia]).
  specialize (L (rev a)). rewrite rev_length in L. lia.
Qed.
Lemma rstrip_tail x v : v <> [] -> rstrip v = v -> rstrip (x ++ v) = x ++ v.
Proof.
  intros N R. rewrite <- (app_nil_r (x ++ v)) at 1. apply rstrip_app; auto. intros a c Q. destruct (exists_last N) as (v' & c' & ->).
  rewrite app_assoc in Q. apply app_inj_tail in Q as [_ <-]. eapply rstrip_end; eauto.
Qed.
Lemma split_on_none l : ~ In LF l -> split_on LF [] l = [l].
Proof. intros N. pose proof (split_on_lines LF [] l N (Forall_nil _)) as Q. cbn in Q. now rewrite app_nil_r in Q. Qed.
(** The same lines are headers, so the preamble is as long as before. *)
Lemma blocks_length rs rs' : forall L L' i, length L = length L' ->
  (forall j x x', nth_error L j = Some x -> nth_error L' j = Some x' -> header_at rs (i + j) x = header_at rs' (i + j) x') ->
  length (fst (blocks_of (header_at rs) i L)) = length (fst (blocks_of (header_at rs') i L')).
Proof.
  induction L as [|x L IH]; intros [|x' L'] i Len H; cbn [length] in Len; try discriminate; auto. cbn [blocks_of].
  specialize (IH L' (S i)). destruct (blocks_of (header_at rs) (S i) L) as [p bs], (blocks_of (header_at rs') (S i) L') as [p' bs']. cbn [fst] in IH.
  pose proof (H O x x' eq_refl eq_refl) as H0. rewrite Nat.add_0_r in H0. rewrite <- H0. destruct (header_at rs i x); cbn [fst length]; auto. f_equal. apply IH; [lia|].
  intros j y y' Hy Hy'. replace (S i + j)%nat with (i + S j)%nat by lia. now apply H.
Qed.
Lemma line_value_closed v : line_value v -> value_open v = false.
Proof. intros (_ & _ & _ & B). unfold value_open. now rewrite B. Qed.

Section World.
Context {W : Type} (expand : list str -> bool -> W -> str -> result str * W).
Notation F := (map (fun l : str => (l, true))).
(** What reading tags amounts to, up to the validity flags. *)
Lemma opens_loop lines w ts w1 rest : opens expand lines w ts w1 rest -> exists rs p bs,
  excluded_ranges (parse_plain lines) (md_data (parse_plain lines)) = Ok rs /\ blocks_of (header_at rs) 0 lines = (p, bs) /\ lines = p ++ block_lines bs /\
  tags_loop TAG_NAMES (length p) (F p) [] [] = Ok (mk_tags (map unflagged (ts_data ts)) (ts_remainder ts)).
Proof.
  intros (p & ss & w0 & E & T & _). destruct (parse_blocks _ _ _ _ _ E) as (rs & p' & bs & ss' & R & B & L & Q & _). injection Q as Q1 Q2. subst p' ss'.
  exists rs, p, bs. repeat split; auto.
  unfold tags_parse in T. destruct (process_conditions (expand lines) w0 p (Some (parse_plain p))) as [[tagged|e] w2] eqn:P; [|discriminate]. injection T as T _.
  apply process_lines in P. pose proof (loop_flags TAG_NAMES (length tagged) tagged [] []) as K. rewrite T in K. cbn [map] in K.
  rewrite <- K, <- P, map_length, map_map. reflexivity.
Qed.
Theorem set_then_read name v lines w w' ts k t lines' w1 w2 l2 w3 ts2 :
  Forall tidy_line lines -> clean lines -> defined_apart (parse_plain lines) ->
  read_tags expand lines w = (lines, w', Ok ts) -> designates ts name k t -> lower (t_name t) = lower name -> one_line t ->
  ~ in_definition (parse_plain lines) (tag_line_number ts k t) -> line_value v ->
  set_tag expand name v lines w = (lines', w1, Ok tt) -> read_tags expand lines' w2 = (l2, w3, Ok ts2) ->
  map unflagged (ts_data ts2) = map unflagged (ts_data (set_value_at k v ts)) /\ ts_remainder ts2 = ts_remainder ts.
Proof.
  intros Ty C A R D Hn O1 Ni V St R2.
  destruct (read_opens _ _ _ _ _ _ R) as (rest & O & El). destruct (read_opens _ _ _ _ _ _ R2) as (rest2 & O2 & _).
  pose proof (designates_index _ _ _ _ D Hn) as Ix. destruct D as (Hk & _).
  unfold set_tag in St. rewrite (view_opens _ _ _ _ _ _ _ _ O), Ix in St. injection St as <- _.
  destruct (opens_loop _ _ _ _ _ O) as (rs & p & bs & Er & Eb & Lp & Tl). destruct (opens_loop _ _ _ _ _ O2) as (rs2 & p2 & bs2 & Er2 & Eb2 & Lp2 & Tl2).
  assert (Tyl : forall l, In l lines -> plain l /\ regular l).
  { intros l Hl. rewrite Forall_forall in Ty. destruct (Ty l Hl) as (H1 & H2 & H3 & _). split; [split; auto; now apply no_break_LF|auto]. }
  assert (Pp : Forall plain p) by (apply Forall_forall; intros l Hl; apply Tyl; rewrite Lp; apply in_or_app; auto).
  assert (Xp : Forall regular p) by (apply Forall_forall; intros l Hl; apply Tyl; rewrite Lp; apply in_or_app; auto).
  (* where the tag is *)
  assert (Hk' : nth_error (map unflagged (ts_data ts)) k = Some (unflagged t)) by now rewrite nth_error_map, Hk.
  destruct (treach_tag _ _ _ _ _ k (unflagged t) (le_n _) Pp Tl Hk' (Nat.le_0_l _)) as (l & b & data & buffer & x1 & x2 & x3 & m & v0 & ws & b1 & Tr & Ld & Pl & Sp & M & Tk & Et).
  destruct O1 as (Pre & Suf & NLv). unfold unflagged in Et. injection Et as En Ev Es Ec Epx Esx. rewrite Pre in Epx. subst x2. rewrite Suf in Esx.
  symmetry in Esx. apply app_eq_nil in Esx as [-> ->].
  destruct (treach_shorter _ _ _ _ _ _ Tr) as (a & Ea).
  assert (Xl : regular l) by (rewrite Forall_forall in Xp; apply Xp; rewrite Ea; apply in_or_app; right; now left).
  assert (x1 = l) as -> by (apply (split_exact _ _ _ _ Xl) in Sp; cbn [app] in Sp; now rewrite app_nil_r in Sp).
  cbn [str_eqb] in Tk.
  assert (v0 = group_str 3 m /\ b1 = b) as [-> ->].
  { apply extend_value_spec in Tk.
    - destruct Tk as [(-> & _ & Q)|(Q & _)]; [split; auto; now apply F_inj in Q|]. rewrite <- Ev in Q. contradiction.
    - apply Forall_forall. intros z Hz. apply in_map_iff in Hz as (y & <- & Hy). rewrite Forall_forall in Pp. apply (Pp y). rewrite Ea. apply in_or_app. right. now right. }
  pose proof (first_match_tag_line l (proj1 Pl)) as TL. rewrite M in TL. rewrite <- En, <- Es, <- Ev in TL.
  set (l' := t_name t ++ t_separator t ++ v).
  assert (TL' : tag_line l' (t_name t) (t_separator t) v).
  { destruct TL as (_ & T1 & T2 & _). split; [reflexivity|]. split; [exact T1|]. split; [exact T2|]. destruct V as (_ & (c & r & -> & Hc) & _). exists c, r. split; auto. congruence. }
  assert (Pl' : plain l').
  { destruct V as (V1 & (c & r & Ev' & _) & V3 & _). split.
    - unfold l'. rewrite !in_app_iff. intros [Q|[Q|Q]]; [| |auto]; apply (proj1 Pl); destruct TL as (-> & _); rewrite !in_app_iff; auto.
    - unfold l'. rewrite app_assoc. apply rstrip_tail; auto. rewrite Ev'. discriminate. }
  (* the raw text *)
  destruct (set_replaced ts k v t rest Hk) as (t' & after & Hk2 & E1 & E2). rewrite Hk in Hk2. injection Hk2 as <-. cbv zeta in E1, E2. rewrite Pre, Suf in E1, E2. cbn [app] in E1, E2.
  rewrite !app_nil_r in E1, E2. fold l' in E2.
  assert (Ell : t_name t ++ t_separator t ++ t_value t = l) by (destruct TL as (-> & _); reflexivity). rewrite Ell in E1.
  unfold text_lines in E1, E2. rewrite (split_on_none l (proj1 Pl)) in E1. rewrite (split_on_none l' (proj1 Pl')) in E2. cbn [app] in E1, E2.
  set (before := flat_map tag_raw (firstn k (ts_data ts)) ++ comments_raw (t_comments t)) in *.
  (* the tag is at the line of that number *)
  set (T := mk_tags (map unflagged (ts_data ts)) (ts_remainder ts)) in *.
  assert (Fp : forall q, Forall plain q -> Forall (fun l => ~ In LF (fst l) /\ rstrip (fst l) = fst l) (F q)).
  { intros q Hq. apply Forall_forall. intros z Hz. apply in_map_iff in Hz as (y & <- & Hy). rewrite Forall_forall in Hq. apply (Hq y Hy). }
  assert (Fr : forall q, Forall plain q -> Forall regular q -> Forall (fun l => regular (rstrip (fst l))) (F q)).
  { intros q Hq Hr. apply Forall_forall. intros z Hz. apply in_map_iff in Hz as (y & <- & Hy). rewrite Forall_forall in Hq, Hr. cbn [fst]. destruct (Hq y Hy) as [_ ->]. auto. }
  assert (Fl : forall q, Forall plain q -> Forall (fun l => ~ In LF (fst l)) (F q)).
  { intros q Hq. eapply Forall_impl; [|apply Fp, Hq]. now intros ? []. }
  assert (Tm : Forall tame (ts_data T)) by (eapply tags_loop_tame; [apply Fp, Pp|apply Fr; [exact Pp|exact Xp]|constructor|exact Tl]).
  assert (RT : tags_raw T = p).
  { destruct (tags_loop_raw (length p) (F p) [] [] T) as [Q _]; auto; [now rewrite map_length|]. rewrite Q. cbn. rewrite map_map. apply map_id. }
  assert (Plb : Forall plain (l :: b)) by (rewrite Ea in Pp; now apply Forall_app in Pp).
  assert (Xlb : Forall regular (l :: b)) by (rewrite Ea in Xp; now apply Forall_app in Xp).
  assert (Fb : Forall (fun l => ~ In LF l) buffer) by (eapply treach_buffer; eauto).
  pose proof (treach_loop _ _ _ _ _ _ Tr Pp) as TL2. rewrite Tl in TL2. symmetry in TL2.
  change (tag_line_number ts k t) with (length before) in Ni.
  assert (a = before) as <-.
  { destruct (tags_loop_raw (length (l :: b)) (F (l :: b)) data buffer T) as [Q (more & Qd)]; auto; [now rewrite map_length|].
    rewrite RT, Ea in Q. assert (Q' : a ++ l :: b = (flat_map tag_raw data ++ buffer) ++ l :: b) by (rewrite Q, <- app_assoc; do 2 f_equal; rewrite map_map; apply map_id).
    apply app_inv_tail in Q'. rewrite Q'. unfold before. f_equal.
    - assert (Ed : data = firstn k (ts_data T)) by (rewrite Qd, firstn_app, Ld, Nat.sub_diag, <- Ld, firstn_all; cbn; now rewrite app_nil_r).
      rewrite Ed. unfold T. cbn [ts_data]. rewrite firstn_map. clear. induction (firstn k (ts_data ts)) as [|x q IH]; cbn; auto. now rewrite IH.
    - rewrite Ec. symmetry. now apply comments_parse_spec. }
  rewrite E2 in *. rewrite <- El in E1.
  assert (Ni' : ~ in_definition (parse_plain (a ++ l :: after)) (length a)) by (rewrite <- E1; exact Ni).
  assert (Mv : Forall2 moved (md_data (parse_plain (a ++ l :: after))) (md_data (parse_plain (a ++ l' :: after)))).
  { apply replace_body; [rewrite <- E1; exact C|exact Ni'|eapply tag_line_no_macro; [apply Pl|exact TL]|eapply tag_line_no_macro; [apply Pl'|exact TL']]. }
  (* the same preamble *)
  assert (Ex : forall i, excluded rs i = excluded rs2 i).
  { pose proof (apart_distinct _ A) as D1. rewrite E1 in D1. rewrite E1 in A. pose proof (apart_distinct _ (moved_apart _ _ Mv A)) as D2.
    rewrite E1 in Er. destruct (excluded_body _ D1) as (r1 & Q1 & H1). destruct (excluded_body _ D2) as (r2 & Q2 & H2). rewrite Er in Q1. rewrite Er2 in Q2. injection Q1 as <-. injection Q2 as <-.
    intros i. apply eq_true_iff_eq. rewrite H1, H2. split; apply moved_body; [exact Mv|apply moved_sym, Mv]. }
  assert (Lpp : length p = length p2).
  { pose proof (blocks_length rs rs2 (a ++ l :: after) (a ++ l' :: after) 0) as K. rewrite <- E1, Eb, Eb2 in K. cbn [fst] in K. apply K.
    - rewrite E1, !app_length. reflexivity.
    - cbn [Nat.add]. intros j x x' Hx Hx'. unfold header_at. rewrite Ex. f_equal. rewrite E1 in Hx. destruct (Nat.lt_trichotomy j (length a)) as [Hj|[->|Hj]].
      + rewrite nth_error_app1 in Hx, Hx' by lia. congruence.
      + rewrite nth_error_app2, Nat.sub_diag in Hx, Hx' by lia. cbn in Hx, Hx'. injection Hx as <-. injection Hx' as <-. now rewrite (tag_line_no_header _ _ _ _ TL), (tag_line_no_header _ _ _ _ TL').
      + rewrite nth_error_app2 in Hx, Hx' by lia. destruct (j - length a)%nat eqn:Q; [lia|]. cbn in Hx, Hx'. congruence. }
  assert (Ep2 : p2 = a ++ l' :: b).
  { assert (K : p2 = firstn (length p2) (a ++ l' :: after)) by (rewrite Lp2, firstn_app, Nat.sub_diag, firstn_all; cbn; now rewrite app_nil_r).
    rewrite <- Lpp in K. assert (Eaf : after = b ++ block_lines bs). { rewrite E1, Ea, <- app_assoc in Lp. apply app_inv_head in Lp. cbn [app] in Lp. now injection Lp. }
    rewrite K, Ea, Eaf. rewrite app_length. cbn [length]. change (a ++ l' :: b ++ block_lines bs) with (a ++ (l' :: b) ++ block_lines bs).
    rewrite app_assoc, firstn_app. replace (length (a ++ l' :: b)) with (length a + S (length b))%nat by (rewrite app_length; reflexivity). rewrite Nat.sub_diag. cbn [firstn]. rewrite app_nil_r.
    replace (length a + S (length b))%nat with (length (a ++ l' :: b)) by (rewrite app_length; reflexivity). apply firstn_all. }
  (* the loop on it *)
  assert (Pp2 : Forall plain p2).
  { rewrite Ep2. rewrite Ea in Pp. apply Forall_app in Pp as [Pa Pb]. apply Forall_app. split; auto. constructor; auto. now inversion Pb. }
  assert (Tr2 : treach p2 [] [] (l' :: b) data buffer).
  { rewrite Ep2. eapply treach_swap; [exact Tr|exact Ea|discriminate|discriminate]. }
  rewrite (treach_loop _ _ _ _ _ _ Tr2 Pp2) in Tl2.
  cbn [length map tags_loop] in TL2, Tl2. rewrite (plain_trailing _ Pl), Sp in TL2. cbn [bind] in TL2. rewrite M in TL2. cbn [str_eqb] in TL2. rewrite Tk in TL2.
  rewrite (plain_trailing _ Pl') in Tl2. destruct (split_conditional_macro_expansion l') as [r|e] eqn:Sp2; [|discriminate].
  apply split_not_braced in Sp2; [|eapply tag_line_not_braced; exact TL']. subst r. cbn [bind] in Tl2.
  destruct (tag_line_found l' _ _ _ (proj1 Pl') TL') as (m' & M' & G1 & G2 & G3). rewrite M', G1, G2, G3 in Tl2. cbn [str_eqb] in Tl2.
  replace (extend_value v [] (F b)) with (v, @nil char, F b) in Tl2 by (destruct b; cbn; [reflexivity|now rewrite (line_value_closed v V)]).
  rewrite loop_front in TL2, Tl2. destruct (tags_loop TAG_NAMES (length b) (F b) [] []) as [tb|]; [|discriminate].
  injection TL2 as Q1 Q2. injection Tl2 as Q3 Q4. cbn [app] in *. split; [|congruence].
  unfold set_value_at. cbn [ts_data]. rewrite <- Q3.
  assert (Q5 : map unflagged (update_at k (with_value v) (ts_data ts)) = update_at k (with_value v) (map unflagged (ts_data ts))).
  { clear. revert k. induction (ts_data ts) as [|x q IH]; intros [|k]; cbn; auto. now rewrite IH. }
  rewrite Q5, <- Q1, <- !app_assoc. cbn [app]. rewrite <- Ld, update_at_app. unfold with_value. cbn [t_name t_separator t_comments t_valid t_prefix t_suffix].
  now rewrite En, Es.
Qed.
Lemma unflagged_eq (t u : tag) : unflagged t = unflagged u -> t_valid t = t_valid u -> t = u.
Proof. destruct t, u. unfold unflagged. cbn. intros Q E; injection Q as -> -> -> -> -> ->. now subst. Qed.
Lemma unflagged_all : forall l l', map unflagged l = map unflagged l' -> map t_valid l = map t_valid l' -> l = l'.
Proof.
  induction l as [|t l IH]; intros [|u l']; cbn [map]; try discriminate; auto. intros Q E. injection Q as Q1 Q2. injection E as E1 E2. f_equal; auto.
  apply unflagged_eq; auto. unfold unflagged. congruence.
Qed.
(** If the conditions come out as before, the value set is the value read. *)
Theorem set_then_get name v lines w w' ts k t lines' w1 w2 l2 w3 ts2 :
  Forall tidy_line lines -> clean lines -> defined_apart (parse_plain lines) ->
  read_tags expand lines w = (lines, w', Ok ts) -> designates ts name k t -> lower (t_name t) = lower name -> one_line t ->
  ~ in_definition (parse_plain lines) (tag_line_number ts k t) -> line_value v ->
  set_tag expand name v lines w = (lines', w1, Ok tt) -> read_tags expand lines' w2 = (l2, w3, Ok ts2) ->
  map t_valid (ts_data ts2) = map t_valid (ts_data ts) ->
  ts2 = set_value_at k v ts /\ get_tag expand name lines' w2 = (l2, w3, Ok (Some v)).
Proof.
  intros Ty C A R D Hn O1 Ni V St R2 Vf. destruct (set_then_read _ _ _ _ _ _ _ _ _ _ _ _ _ _ Ty C A R D Hn O1 Ni V St R2) as (E1 & E2).
  assert (E : ts2 = set_value_at k v ts).
  { destruct ts2 as [d2 r2]. cbn [ts_data ts_remainder] in *. subst r2. unfold set_value_at in *. cbn [ts_data] in *. f_equal. apply unflagged_all; auto. rewrite Vf.
    clear. revert k. induction (ts_data ts) as [|x l IH]; intros [|k]; cbn; auto. now rewrite <- IH. }
  split; auto. destruct (read_opens _ _ _ _ _ _ R2) as (rest & O & El). unfold get_tag. rewrite (view_opens _ _ _ _ _ _ _ _ O), E, index_set, (designates_index _ _ _ _ D Hn), <- E, <- El.
  unfold value_at. rewrite E. unfold set_value_at. cbn [ts_data]. destruct D as (Hk & _). apply nth_error_split in Hk as (a & b & -> & <-). rewrite update_at_app, nth_error_app2, Nat.sub_diag by auto. reflexivity.
Qed.
End World.
End Uni.
