(** Methods inherited from [UserList]: proofs. *)
From Coq Require Import NArith ZArith List Bool Lia Arith.
From Verif Require Import PyStr PyStrFacts M_tags M_macro_definitions M_sections M_changelog M_prep M_file M_inherited Spec_inherited Spec_file P_file P_macro_definitions2.
From Verif Require P_changelog2 P_options4.
Import ListNotations.
Open Scope nat_scope.

Lemma remove_mid {A} (a : list A) x b : remove_at (length a) (a ++ x :: b) = a ++ b.
Proof. induction a as [|y a IH]; cbn; auto. now rewrite IH. Qed.
Lemma nth_mid {A} (a : list A) x b : nth_error (a ++ x :: b) (length a) = Some x.
Proof. rewrite nth_error_app2, Nat.sub_diag by lia. reflexivity. Qed.
Lemma pop_spec {A} (l : list A) i : match py_index l i with
  | Some k => exists a x b, l = a ++ x :: b /\ length a = k /\ list_pop i l = Ok (x, a ++ b)
  | None => list_pop i l = Err IndexError end.
Proof.
  unfold list_pop. destruct (py_index l i) as [k|] eqn:P; [|reflexivity].
  pose proof (P_options4.py_index_lt l i k P) as L.
  destruct (nth_error l k) as [x|] eqn:N; [|apply nth_error_None in N; lia].
  destruct (nth_error_split l k N) as (a & b & -> & <-). exists a, x, b. repeat split; auto. now rewrite remove_mid.
Qed.
Lemma remove_spec {A} (eqb : A -> A -> bool) x l :
  (exists a y b, l = a ++ y :: b /\ eqb y x = true /\ (forall z, In z a -> eqb z x = false) /\ list_index eqb x l = Ok (length a) /\ list_remove eqb x l = Ok (a ++ b)) \/
  ((forall z, In z l -> eqb z x = false) /\ list_index eqb x l = Err ValueError /\ list_remove eqb x l = Err ValueError).
Proof.
  unfold list_remove, list_index. induction l as [|y l IH]; cbn [find_index].
  - right. repeat split; auto. intros z [].
  - destruct (eqb y x) eqn:E.
    + left. exists [], y, l. repeat split; auto. intros z [].
    + destruct IH as [(a & z & b & -> & Ez & Na & Hi & Hr)|(N & Hi & Hr)].
      * left. exists (y :: a), z, b. destruct (find_index _ (a ++ z :: b)) as [k|] eqn:F; [|discriminate]. cbn [bind option_map] in *. injection Hi as ->. injection Hr as Hr.
        repeat split; auto. { intros w [<-|I]; auto. } cbn [length remove_at]. now rewrite Hr.
      * right. destruct (find_index _ l) as [k|] eqn:F; [discriminate|]. repeat split; auto. intros w [<-|I]; auto.
Qed.

Theorem sections_removed l s : In s l ->
  exists a t b, l = a ++ t :: b /\ s_data t = s_data s /\ (forall u, In u a -> s_data u <> s_data s) /\ sections_index l s = Ok (length a) /\ sections_remove l s = Ok (a ++ b).
Proof.
  intros I. destruct (remove_spec section_eqb s l) as [(a & y & b & -> & E & N & Hi & Hr)|(N & _)].
  - exists a, y, b. apply strs_eqb_eq in E. repeat split; auto. intros u Iu Q. specialize (N u Iu). apply strs_eqb_eq in Q. unfold section_eqb in N. congruence.
  - exfalso. specialize (N s I). unfold section_eqb in N. assert (strs_eqb (s_data s) (s_data s) = true) by now apply strs_eqb_eq. congruence.
Qed.
Lemma comments_eqb_eq a b : comments_eqb a b = true <-> a = b.
Proof.
  revert b. induction a as [|[t p] a IH]; intros [|[t' p'] b]; cbn [comments_eqb]; try (split; intros; discriminate); [now split|].
  unfold comment_eqb. cbn [c_text c_prefix]. rewrite !andb_true_iff, IH, !str_eqb_eq. split; [intros [[-> ->] ->]; reflexivity|]. intros Q. now injection Q as -> -> ->.
Qed.
Lemma tag_eqb_same a b : tag_eqb a b = true <-> same_tag a b.
Proof. unfold tag_eqb, same_tag. rewrite !andb_true_iff, comments_eqb_eq, !str_eqb_eq. tauto. Qed.
Lemma tag_raw_parts t : tag_raw t = t_preceding t ++ map comment_str (cs_data (t_comments t)) ++ split_on LF [] (tag_text t).
Proof. unfold tag_raw, comments_raw, t_preceding. now rewrite <- app_assoc. Qed.
Theorem tags_popped ts i k : py_index (ts_data ts) i = Some k -> exists a t b, ts_data ts = a ++ t :: b /\ length a = k /\
  tags_pop ts i = Ok (t, mk_tags (a ++ b) (ts_remainder ts)) /\
  tags_raw ts = flat_map tag_raw a ++ t_preceding t ++ (map comment_str (cs_data (t_comments t)) ++ split_on LF [] (tag_text t)) ++ flat_map tag_raw b ++ ts_remainder ts /\
  tags_raw (mk_tags (a ++ b) (ts_remainder ts)) = flat_map tag_raw a ++ flat_map tag_raw b ++ ts_remainder ts.
Proof.
  intros P. pose proof (pop_spec (ts_data ts) i) as Q. rewrite P in Q. destruct Q as (a & t & b & E & L & Q). exists a, t, b. repeat split; auto.
  - unfold tags_pop. now rewrite Q.
  - unfold tags_raw. rewrite E, flat_map_app. cbn [flat_map]. rewrite tag_raw_parts, <- !app_assoc. reflexivity.
  - unfold tags_raw. cbn [ts_data ts_remainder]. rewrite flat_map_app, <- app_assoc. reflexivity.
Qed.
Theorem tags_removed ts t : In t (ts_data ts) -> exists a u b, ts_data ts = a ++ u :: b /\ same_tag u t /\ (forall v, In v a -> ~ same_tag v t) /\
  tags_remove ts t = Ok (mk_tags (a ++ b) (ts_remainder ts)).
Proof.
  intros I. destruct (remove_spec tag_eqb t (ts_data ts)) as [(a & y & b & E & Q & N & Hi & Hr)|(N & _)].
  - exists a, y, b. repeat split; auto; try (apply tag_eqb_same in Q; unfold same_tag in Q; tauto).
    + intros v Iv S'. apply tag_eqb_same in S'. rewrite (N v Iv) in S'. discriminate.
    + unfold tags_remove. now rewrite Hr.
  - exfalso. specialize (N t I). assert (tag_eqb t t = true) by (apply tag_eqb_same; unfold same_tag; tauto). congruence.
Qed.
Theorem mdefs_popped m i k : py_index (md_data m) i = Some k -> exists a d b, md_data m = a ++ d :: b /\ length a = k /\
  mdefs_pop m i = Ok (d, mk_mdefs (a ++ b) (md_remainder m)) /\
  get_raw_data m = flat_map mdef_raw a ++ d_preceding d ++ own_lines d ++ flat_map mdef_raw b ++ md_remainder m /\
  get_raw_data (mk_mdefs (a ++ b) (md_remainder m)) = flat_map mdef_raw a ++ flat_map mdef_raw b ++ md_remainder m.
Proof.
  intros P. pose proof (pop_spec (md_data m) i) as Q. rewrite P in Q. destruct Q as (a & t & b & E & L & Q). exists a, t, b. repeat split; auto.
  - unfold mdefs_pop. now rewrite Q.
  - unfold get_raw_data. rewrite E, flat_map_app. cbn [flat_map]. unfold mdef_raw at 2. rewrite <- !app_assoc. reflexivity.
  - unfold get_raw_data. cbn [md_data md_remainder]. rewrite flat_map_app, <- app_assoc. reflexivity.
Qed.
Theorem prep_popped p i k : py_index (p_macros p) i = Some k -> exists a m b, p_macros p = a ++ m :: b /\ length a = k /\
  prep_pop p i = Ok (m, mk_prep (a ++ b) (p_remainder p)) /\
  prep_raw p = flat_map macro_raw a ++ m_preceding m ++ [macro_line m] ++ flat_map macro_raw b ++ p_remainder p /\
  prep_raw (mk_prep (a ++ b) (p_remainder p)) = flat_map macro_raw a ++ flat_map macro_raw b ++ p_remainder p.
Proof.
  intros P. pose proof (pop_spec (p_macros p) i) as Q. rewrite P in Q. destruct Q as (a & t & b & E & L & Q). exists a, t, b. repeat split; auto.
  - unfold prep_pop. now rewrite Q.
  - unfold prep_raw. rewrite E, flat_map_app. cbn [flat_map]. unfold macro_raw at 2. rewrite <- !app_assoc. reflexivity.
  - unfold prep_raw. cbn [p_macros p_remainder]. rewrite flat_map_app, <- app_assoc. reflexivity.
Qed.
Theorem log_popped c i k : py_index (entries c) i = Some k -> exists a e b, entries c = a ++ e :: b /\ length a = k /\
  log_pop c i = Ok (e, mk_changelog (a ++ b) (predecessor c)) /\
  get_raw_section_data c = predecessor c ++ flat_map entry_lines (rev b) ++ (header e :: content e) ++ following e ++ flat_map entry_lines (rev a) /\
  get_raw_section_data (mk_changelog (a ++ b) (predecessor c)) = predecessor c ++ flat_map entry_lines (rev b) ++ flat_map entry_lines (rev a).
Proof.
  intros P. pose proof (pop_spec (entries c) i) as Q. rewrite P in Q. destruct Q as (a & t & b & E & L & Q). exists a, t, b. repeat split; auto.
  - unfold log_pop. now rewrite Q.
  - unfold get_raw_section_data. rewrite E, rev_app_distr. cbn [rev]. rewrite !flat_map_app. cbn [flat_map]. rewrite app_nil_r, <- !app_assoc.
    assert (X : forall y, entry_lines t ++ y = (header t :: content t) ++ following t ++ y) by (intros; unfold entry_lines; rewrite app_assoc; reflexivity).
    now rewrite X.
  - unfold get_raw_section_data. cbn [entries predecessor]. rewrite rev_app_distr, flat_map_app. reflexivity.
Qed.

Lemma ws_eqb_eq a b : ws_eqb a b = true -> a = b.
Proof. destruct a as [[[? ?] ?] ?], b as [[[? ?] ?] ?]. cbn. rewrite !andb_true_iff, !str_eqb_eq. intros [[[-> ->] ->] ->]. reflexivity. Qed.
Theorem equal_mdefs a b : mdef_eqb a b = true -> mdef_raw a = mdef_raw b /\ mdef_str a = mdef_str b.
Proof.
  unfold mdef_eqb. rewrite !andb_true_iff, !str_eqb_eq, strs_eqb_eq. intros (((((((N & B) & G) & C) & St) & W) & P) & Pr).
  apply ws_eqb_eq in W. apply Bool.eqb_prop in G, C. assert (d_style a = d_style b) by (destruct (d_style a), (d_style b); cbn in St; congruence).
  destruct a, b. cbn in *. subst. split; reflexivity.
Qed.
Lemma list_eqb_raw {A} (eqb : A -> A -> bool) (raw : A -> list str) : (forall a b, eqb a b = true -> raw a = raw b) -> forall l m, list_eqb eqb l m = true -> flat_map raw l = flat_map raw m.
Proof. intros H. induction l as [|x l IH]; intros [|y m]; cbn; try discriminate; auto. rewrite andb_true_iff. intros [E Q]. now rewrite (H _ _ E), (IH _ Q). Qed.
Theorem equal_lists_of_mdefs a b : mdefs_eqb a b = true -> exists x, get_raw_data a = x ++ md_remainder a /\ get_raw_data b = x ++ md_remainder b.
Proof.
  intros E. exists (flat_map mdef_raw (md_data a)). split; [reflexivity|]. unfold get_raw_data. f_equal.
  symmetry. apply (list_eqb_raw mdef_eqb); auto. intros x y Q. now apply equal_mdefs.
Qed.
Theorem equal_tags a b : tag_eqb a b = true -> tag_text a = tag_text b /\ exists x, tag_raw a = t_preceding a ++ x /\ tag_raw b = t_preceding b ++ x.
Proof.
  intros E. apply tag_eqb_same in E as (N & V & Sp & C & P & Sf). assert (T : tag_text a = tag_text b) by (unfold tag_text; now rewrite N, V, Sp, P, Sf).
  split; auto. exists (map comment_str (cs_data (t_comments a)) ++ split_on LF [] (tag_text a)). split; [apply tag_raw_parts|]. rewrite C, T. apply tag_raw_parts.
Qed.
Theorem equal_entries a b : entry_eqb a b = true <-> a = b.
Proof.
  unfold entry_eqb. rewrite !andb_true_iff, !str_eqb_eq, !strs_eqb_eq. destruct a, b. cbn. split; [intros [[-> ->] ->]; reflexivity|]. intros Q. now injection Q as -> -> ->.
Qed.
Theorem equal_specs a b : spec_eqb a b = true <-> sp_lines a = sp_lines b.
Proof. apply strs_eqb_eq. Qed.

Open Scope N_scope.
Lemma cont_lf : cont 10 = false. Proof. reflexivity. Qed.
Lemma decode_lf_n : forall n s, (length s <= n)%nat -> decode (s ++ [10]) = decode s ++ [10].
Proof.
  induction n as [|n IH]; intros s L; [destruct s; [reflexivity|cbn in L; lia]|].
  destruct s as [|a s1]; [reflexivity|]. cbn in L. assert (E1 : decode (s1 ++ [10]) = decode s1 ++ [10]) by (apply IH; lia).
  change ((a :: s1) ++ [10]) with (a :: (s1 ++ [10])). rewrite !decode_cons, E1.
  destruct (a <? 128); [reflexivity|]. destruct ((194 <=? a) && (a <=? 223)).
  { destruct s1 as [|b s2]; [reflexivity|]. cbn [app]. destruct (cont b); [|reflexivity]. rewrite IH by (cbn in L; lia). reflexivity. }
  destruct ((224 <=? a) && (a <=? 239)).
  { destruct s1 as [|b [|c s3]]; [reflexivity| |].
    - cbn [app]. unfold ok3. rewrite cont_lf, andb_false_r. reflexivity.
    - cbn [app]. destruct (ok3 a b c); [|reflexivity]. rewrite IH by (cbn in L; lia). reflexivity. }
  destruct ((240 <=? a) && (a <=? 244)); [|reflexivity].
  destruct s1 as [|b [|c [|d s4]]]; [reflexivity|reflexivity| |].
  - cbn [app]. unfold ok4. rewrite cont_lf, andb_false_r. reflexivity.
  - cbn [app]. destruct (ok4 a b c d); [|reflexivity]. rewrite IH by (cbn in L; lia). reflexivity.
Qed.
Lemma decode_lf s : decode (s ++ [10]) = decode s ++ [10].
Proof. apply (decode_lf_n (length s)). lia. Qed.
Lemma universal_no_cr s : Forall (fun c => c <> CR) s -> universal_newlines s = s.
Proof. induction 1 as [|c s N F IH]; [reflexivity|]. cbn [universal_newlines]. apply N.eqb_neq in N. now rewrite N, IH. Qed.
Lemma splitlines_final t c : is_linebreak c = false -> Forall (fun x => x <> CR) t -> forall cur, splitlines_aux cur ((t ++ [c]) ++ [LF]) = splitlines_aux cur (t ++ [c]).
Proof.
  intros B F. induction F as [|x t N F IH]; intros cur.
  - cbn [app splitlines_aux]. rewrite B. reflexivity.
  - cbn [app splitlines_aux]. apply N.eqb_neq in N. rewrite N. destruct (is_linebreak x); now rewrite IH.
Qed.
Lemma plain_no_cr t : plain_breaks t -> Forall (fun c => c <> CR) t.
Proof. intros P. eapply Forall_impl; [|exact P]. cbv beta. intros c H -> . specialize (H eq_refl). discriminate. Qed.
Lemma read_plain_lines b t c : plain_breaks (decode b) -> decode b = t ++ [c] -> read_lines b = Ok (mkSpec (splitlines (decode b)) (c =? LF)).
Proof. intros P E. unfold read_lines. rewrite universal_no_cr by now apply plain_no_cr. now rewrite E, rev_unit. Qed.
Theorem equal_files b : bytes b -> b <> [] -> plain_breaks (decode b) -> last (decode b) 0 <> LF ->
  exists s s', read_lines b = Ok s /\ read_lines (b ++ [10]) = Ok s' /\ spec_eqb s s' = true /\ save s = (b, Ok tt) /\ save s' = (b ++ [10], Ok tt).
Proof.
  intros B N P L. assert (B' : bytes (b ++ [10])) by (apply Forall_app; split; [exact B|constructor; [reflexivity|constructor]]).
  assert (P' : plain_breaks (decode (b ++ [10]))) by (rewrite decode_lf; apply Forall_app; split; [exact P|constructor; [auto|constructor]]).
  destruct (unchanged b B N P) as (s & R & _ & W). destruct (unchanged (b ++ [10]) B') as (s' & R' & _ & W'); [destruct b; discriminate|exact P'|].
  exists s, s'. repeat split; auto. apply equal_specs.
  destruct (last_of _ (decode_nonempty b N)) as (t & c & E).
  rewrite (read_plain_lines b t c P E) in R. injection R as <-. rewrite (read_plain_lines (b ++ [10]) (decode b) 10 P' (decode_lf b)) in R'. injection R' as <-.
  cbn [sp_lines]. rewrite decode_lf, E. unfold splitlines. rewrite E in L. rewrite last_last in L. symmetry. apply splitlines_final.
  - rewrite E in P. apply Forall_app in P as [_ P]. inversion P; subst. destruct (is_linebreak c); auto. exfalso; auto.
  - rewrite E in P. apply Forall_app in P as [P _]. now apply plain_no_cr.
Qed.
From Verif Require P_macro_definitions P_changelog.
From Verif Require Import Spec_macro_definitions.
Theorem removed_first l a s b : l = a ++ s :: b -> (forall u, In u a -> s_data u <> s_data s) -> sections_remove l s = Ok (a ++ b).
Proof.
  intros -> N. unfold sections_remove, list_remove, list_index. rewrite (find_index_first _ a s b).
  - cbn [bind]. now rewrite remove_mid.
  - intros y I. specialize (N y I). destruct (section_eqb y s) eqn:E; auto. apply strs_eqb_eq in E. contradiction.
  - now apply strs_eqb_eq.
Qed.
Theorem removed_other l a t m s b : l = a ++ t :: m ++ s :: b -> s_data t = s_data s -> (forall u, In u a -> s_data u <> s_data s) ->
  sections_remove l s = Ok (a ++ m ++ s :: b) /\ sections_index l s = Ok (length a).
Proof.
  intros -> E N. unfold sections_remove, sections_index, list_remove, list_index. rewrite (find_index_first _ a t (m ++ s :: b)).
  - cbn [bind]. split; [now rewrite remove_mid|reflexivity].
  - intros y I. specialize (N y I). destruct (section_eqb y s) eqn:Q; auto. apply strs_eqb_eq in Q. contradiction.
  - now apply strs_eqb_eq.
Qed.
Theorem sum_of_mdefs (U : Unicode) lines other : clean lines ->
  exists x, lines = x ++ md_remainder (parse_plain lines) /\ get_raw_data (mdefs_add (parse_plain lines) other) = x ++ flat_map mdef_raw other.
Proof.
  intros C. exists (flat_map mdef_raw (md_data (parse_plain lines))). split.
  - rewrite <- (P_macro_definitions.parse_plain_raw lines C) at 1. reflexivity.
  - unfold get_raw_data, mdefs_add. cbn [md_data md_remainder]. now rewrite flat_map_app, app_nil_r.
Qed.
Theorem sum_of_logs lines other :
  exists x, lines = predecessor (M_changelog.parse lines) ++ x /\ get_raw_section_data (log_add (M_changelog.parse lines) other) = flat_map entry_lines (rev other) ++ x.
Proof.
  exists (flat_map entry_lines (rev (entries (M_changelog.parse lines)))). split.
  - rewrite <- (P_changelog.parse_raw lines) at 1. reflexivity.
  - unfold get_raw_section_data, log_add. cbn [entries predecessor]. now rewrite rev_app_distr, flat_map_app.
Qed.
Lemma mdef_eqb_self d : mdef_eqb d d = true.
Proof.
  unfold mdef_eqb. rewrite !andb_true_iff, !str_eqb_eq, strs_eqb_eq. repeat split; auto; try apply Bool.eqb_reflx; [destruct (d_style d); reflexivity|].
  destruct (d_ws d) as [[[? ?] ?] ?]. cbn. now rewrite !(proj2 (str_eqb_eq _ _) eq_refl).
Qed.
Theorem mdefs_removed m d : In d (md_data m) -> exists a u b, md_data m = a ++ u :: b /\ mdef_raw u = mdef_raw d /\ ~ In d a /\
  mdefs_remove m d = Ok (mk_mdefs (a ++ b) (md_remainder m)).
Proof.
  intros I. destruct (remove_spec mdef_eqb d (md_data m)) as [(a & y & b & E & Q & N & Hi & Hr)|(N & _)].
  - exists a, y, b. repeat split; auto.
    + now apply equal_mdefs.
    + intros Q'. specialize (N d Q'). rewrite mdef_eqb_self in N. discriminate.
    + unfold mdefs_remove. now rewrite Hr.
  - exfalso. specialize (N d I). rewrite mdef_eqb_self in N. discriminate.
Qed.
Theorem sum_of_tags ts other : tags_raw ts = flat_map tag_raw (ts_data ts) ++ ts_remainder ts /\ tags_raw (tags_add ts other) = flat_map tag_raw (ts_data ts) ++ flat_map tag_raw other.
Proof. split; [reflexivity|]. unfold tags_raw, tags_add. cbn [ts_data ts_remainder]. now rewrite flat_map_app, app_nil_r. Qed.
Theorem cleared_tags ts : tags_raw (tags_clear ts) = ts_remainder ts.
Proof. reflexivity. Qed.
Theorem equal_lists_of_tags a b : tags_eqb a b = true <-> Forall2 same_tag (ts_data a) (ts_data b).
Proof.
  unfold tags_eqb. generalize (ts_data a) (ts_data b). induction l as [|x l IH]; intros [|y m]; cbn; split; try discriminate; auto; try (now inversion 1).
  - rewrite andb_true_iff. intros [E Q]. constructor; [now apply tag_eqb_same|now apply IH].
  - inversion 1; subst. rewrite andb_true_iff. split; [now apply tag_eqb_same|now apply IH].
Qed.
