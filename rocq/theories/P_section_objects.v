(** Proofs about copies of sections and about comparing positional arguments. *)
From Coq Require Import NArith ZArith List Bool Lia.
From Verif Require Import PyStr PyStrFacts M_constants M_options M_sections M_slice M_equality M_section_objects Spec_section_objects.
From Verif Require M_changelog M_shared P_shared M_prep P_options6 P_sections3.
Import ListNotations.
Open Scope N_scope.

Lemma edit_other h i j e : i <> j -> (own e \/ so_opts (h_secs h j) <> so_opts (h_secs h i)) ->
  section_of (apply_edit j h e) i = section_of h i /\ h_secs (apply_edit j h e) i = h_secs h i /\ so_opts (h_secs (apply_edit j h e) j) = so_opts (h_secs h j).
Proof.
  intros N O. destruct e as [n|l|p]; unfold apply_edit, set_section, section_of; cbn [h_secs h_opts].
  - rewrite (P_shared.put_other _ _ _ _ N), P_shared.put_same. auto.
  - rewrite (P_shared.put_other _ _ _ _ N), P_shared.put_same. auto.
  - destruct O as [[]|O]. rewrite P_shared.put_other by auto. auto.
Qed.
Lemma edits_other i j es : i <> j -> forall h, (Forall own es \/ so_opts (h_secs h j) <> so_opts (h_secs h i)) ->
  section_of (apply_edits j es h) i = section_of h i.
Proof.
  intros N. induction es as [|e es IH]; intros h O; [reflexivity|]. unfold apply_edits in *. cbn [fold_left].
  assert (Q : own e \/ so_opts (h_secs h j) <> so_opts (h_secs h i)). { destruct O as [O|O]; [left; now inversion O|now right]. }
  destruct (edit_other h i j e N Q) as (E & Ei & Ej). rewrite IH; [exact E|]. destruct O as [O|O]; [left; now inversion O|right; now rewrite Ei, Ej].
Qed.
Theorem copied_same h i j : section_of (copy_section h i j) j = section_of h i /\ forall m, m <> j -> section_of (copy_section h i j) m = section_of h m.
Proof.
  unfold section_of, copy_section, set_section. cbn [h_secs h_opts]. rewrite P_shared.put_same. split; [reflexivity|]. intros m N. now rewrite (P_shared.put_other _ _ _ _ N).
Qed.
Theorem copied_own h i j es : i <> j -> Forall own es ->
  section_of (apply_edits j es (copy_section h i j)) i = section_of h i /\ section_of (apply_edits i es (copy_section h i j)) j = section_of h i.
Proof.
  intros N O. destruct (copied_same h i j) as [C1 C2]. split; rewrite edits_other; auto.
Qed.
Theorem copied_options h i j p : i <> j ->
  section_of (apply_edit j (copy_section h i j) (Options p)) i = mk_section (s_name (section_of h i)) p (s_delimiter (section_of h i)) (s_separator (section_of h i)) (s_data (section_of h i)).
Proof.
  intros N. unfold apply_edit, section_of, copy_section, set_section. cbn [h_secs h_opts]. rewrite P_shared.put_same, (P_shared.put_other _ _ _ _ N), P_shared.put_same. reflexivity.
Qed.

Section Uni.
Context {U : Unicode}.
Theorem sliced h i j k s h' : slice_section h i j k s = Ok h' -> i <> j -> so_opts (h_secs h i) <> k ->
  (exists l, get_slice s (s_data (section_of h i)) = Ok l /\ section_of h' j = with_data l (section_of h i)) /\
  (forall es, section_of (apply_edits j es h') i = section_of h i) /\
  (forall es, section_of (apply_edits i es h') j = section_of h' j).
Proof.
  unfold slice_section. intros E N K. destruct (get_slice s (so_data (h_secs h i))) as [l|e] eqn:El; cbn [bind] in E; [|discriminate].
  destruct (str_in _ _); [|discriminate]. injection E as <-. split; [|split].
  - exists l. split; [exact El|]. unfold section_of. cbn [h_secs h_opts]. rewrite P_shared.put_same. cbn. rewrite P_shared.put_same. reflexivity.
  - intros es. rewrite edits_other; auto.
    + unfold section_of. cbn [h_secs h_opts]. rewrite (P_shared.put_other _ _ _ _ N). now rewrite P_shared.put_other.
    + right. cbn [h_secs]. rewrite P_shared.put_same, (P_shared.put_other _ _ _ _ N). cbn. auto.
  - intros es. rewrite edits_other; auto. right. cbn [h_secs]. rewrite P_shared.put_same, (P_shared.put_other _ _ _ _ N). cbn. auto.
Qed.
Theorem slice_fails h i j k s e : slice_section h i j k s = Err e -> In (lower (s_name (section_of h i))) SECTION_NAMES -> sl_step s = Some 0%Z /\ e = ValueError.
Proof.
  unfold slice_section, get_slice, slice_range. intros E I. apply str_in_iff in I. unfold section_of in I. cbn [s_name] in I. rewrite I in E.
  destruct (Z.eqb (match sl_step s with Some k => k | None => 1%Z end) 0) eqn:Z0; cbn [bind] in E; [|discriminate].
  injection E as <-. apply Z.eqb_eq in Z0. destruct (sl_step s); [now subst|discriminate].
Qed.

Lemma find_index_nth {A} (p : A -> bool) : forall l k, find_index p l = Some k -> exists a x b, l = a ++ x :: b /\ length a = k /\ p x = true.
Proof.
  induction l as [|x l IH]; intros k E; cbn in E; [discriminate|]. destruct (p x) eqn:P.
  - injection E as <-. now exists [], x, l.
  - destruct (find_index p l) as [m|]; [|discriminate]. injection E as <-. destruct (IH m eq_refl) as (a & y & b & -> & L & Py). exists (x :: a), y, b. cbn. now rewrite L.
Qed.
Lemma find_split {B} (f : B -> section) (l : list B) id k : sec_find (map f l) id = Ok k -> exists a i b, l = a ++ i :: b /\ length a = k /\ sec_contains (map f l) id = true.
Proof.
  unfold sec_find. destruct (find_index _ _) as [m|] eqn:E; [|discriminate]. intros Q. injection Q as ->.
  destruct (find_index_nth _ _ _ E) as (a & x & b & El & L & P). assert (C : sec_contains (map f l) id = true).
  { unfold sec_contains. rewrite El, existsb_app. cbn [existsb]. rewrite P. rewrite orb_true_r. reflexivity. }
  apply map_eq_app in El as (a' & r & -> & Ea & Er). destruct r as [|i b']; [discriminate|]. exists a', i, b'. split; [reflexivity|]. split; [|exact C].
  now rewrite <- L, <- Ea, map_length.
Qed.
Theorem assigned_lines h l id d h' : assign_lines h (copy_sections l) id d = Some h' -> NoDup l ->
  sec_set_data (map (section_of h) l) id d = Some (map (section_of h') l).
Proof.
  unfold assign_lines, copy_sections, sec_set_data. intros E ND. destruct (sec_find (map (section_of h) l) id) as [k|e] eqn:F; [|discriminate].
  destruct (find_split _ _ _ _ F) as (a & i & b & -> & L & C). rewrite C. subst k. rewrite P_shared.nth_error_mid in E. injection E as <-.
  rewrite !map_app. cbn [map]. rewrite <- (map_length (section_of h) a). rewrite P_shared.update_mid. f_equal.
  pose proof (NoDup_remove_2 _ _ _ ND) as Ni. rewrite in_app_iff in Ni.
  assert (O : forall m, m <> i -> section_of (apply_edit i h (Content d)) m = section_of h m).
  { intros m N. apply edit_other; [exact N|left; exact I]. }
  f_equal; [apply map_ext_in; intros m Im; symmetry; apply O; intros ->; tauto|]. f_equal.
  - unfold section_of, apply_edit, set_section, with_data. cbn [h_secs h_opts]. rewrite P_shared.put_same. reflexivity.
  - apply map_ext_in. intros m Im. symmetry. apply O. intros ->. tauto.
Qed.
Theorem list_changed h l id j :
  (forall c, assign_section h (copy_sections l) id j = Some c -> exists k, sec_find (map (section_of h) l) id = Ok k /\ map (section_of h) c = update_at k (fun _ => section_of h j) (map (section_of h) l)) /\
  (forall c, delete_section h (copy_sections l) id = Some c -> sec_del (map (section_of h) l) id = Some (map (section_of h) c)).
Proof.
  unfold assign_section, delete_section, copy_sections, sec_del. split; intros c E; destruct (sec_find (map (section_of h) l) id) as [k|e] eqn:F; try discriminate; injection E as <-;
    destruct (find_split _ _ _ _ F) as (a & i & b & -> & L & C); subst k.
  - exists (length a). split; [reflexivity|]. rewrite P_shared.update_mid, !map_app. cbn [map]. rewrite <- (map_length (section_of h) a). now rewrite P_shared.update_mid.
  - rewrite C. f_equal. clear. induction a as [|x a IH]; cbn; [reflexivity|]. now rewrite IH.
Qed.

(** Sections that are not there *)
Theorem absent_section l id : ((forall s, In s l -> s_nid s <> lower id) <-> sec_contains l id = false) /\
  ((forall s, In s l -> s_nid s <> lower id) -> sec_get l id = Err ValueError /\ forall d, sec_set_data l id d = None /\ sec_del l id = None).
Proof.
  assert (Q : (forall s, In s l -> s_nid s <> lower id) <-> sec_contains l id = false) by (rewrite <- P_sections3.none_found, Forall_forall; reflexivity).
  split; [exact Q|]. intros N. unfold sec_get, sec_set_data, sec_del. rewrite (proj1 Q N). unfold sec_find.
  destruct (find_index (fun s => str_eqb (s_nid s) (lower id)) l) as [k|] eqn:E; [|now split].
  exfalso. destruct (find_index_nth _ _ _ E) as (a & x & b & -> & _ & P). apply str_eqb_eq in P. apply (N x); [apply in_elt|exact P].
Qed.
(** Positional arguments *)
Lemma read_arguments l : (Forall argument_ok l -> exists v, numbers_or_texts l = Ok v) /\ (~ Forall argument_ok l -> numbers_or_texts l = Err ValueError).
Proof.
  induction l as [|x l [IH1 IH2]]; cbn [numbers_or_texts]; [split; [eauto|intros N; now destruct N]|].
  unfold number_or_text. unfold argument_ok in *. split.
  - intros F. inversion F as [|? ? Fx Fl]; subst. destruct (IH1 Fl) as [v ->]. destruct (str_isnumeric x) eqn:B; [destruct (Fx eq_refl) as [n ->]|]; cbn [bind]; eauto.
  - intros F. destruct (str_isnumeric x) eqn:B; [destruct (int_of_str x) as [n|] eqn:E|]; cbn [bind].
    + rewrite IH2; [reflexivity|]. intros Q. apply F. constructor; [|exact Q]. intros _. now exists n.
    + reflexivity.
    + rewrite IH2; [reflexivity|]. intros Q. apply F. constructor; [|exact Q]. congruence.
Qed.
Lemma argument_eq x y v w : number_or_text x = Ok v -> number_or_text y = Ok w -> oval_eqb v w = true <-> same_argument x y.
Proof.
  unfold number_or_text, same_argument. intros Ex Ey. destruct (str_isnumeric x) eqn:Bx; [destruct (int_of_str x) as [n|] eqn:Nx; [|discriminate]|]; injection Ex as <-;
  destruct (str_isnumeric y) eqn:By; try (destruct (int_of_str y) as [m|] eqn:Ny; [|discriminate]); injection Ey as <-; cbn [oval_eqb as_number].
  - rewrite Z.eqb_eq. split.
    + intros Q. apply N2Z.inj in Q as ->. left. now exists m.
    + intros [(k & _ & _ & Q1 & Q2)|[Q _]]; [|discriminate]. congruence.
  - split; [discriminate|]. intros [(k & _ & Q & _)|[Q _]]; discriminate.
  - split; [discriminate|]. intros [(k & Q & _)|[_ ->]]; congruence.
  - rewrite str_eqb_eq. split; [intros ->; now right|]. intros [(k & Q & _)|[_ ->]]; [discriminate|reflexivity].
Qed.
Lemma arguments_eq : forall a b v w, numbers_or_texts a = Ok v -> numbers_or_texts b = Ok w -> M_changelog.list_eqb oval_eqb v w = true <-> Forall2 same_argument a b.
Proof.
  induction a as [|x a IH]; intros [|y b] v w Ea Eb; cbn [numbers_or_texts] in Ea, Eb.
  - injection Ea as <-. injection Eb as <-. cbn. split; auto.
  - injection Ea as <-. destruct (number_or_text y); cbn [bind] in Eb; [|discriminate]. destruct (numbers_or_texts b); cbn [bind] in Eb; [|discriminate]. injection Eb as <-. cbn. split; [discriminate|]. intros F. inversion F.
  - injection Eb as <-. destruct (number_or_text x); cbn [bind] in Ea; [|discriminate]. destruct (numbers_or_texts a); cbn [bind] in Ea; [|discriminate]. injection Ea as <-. cbn. split; [discriminate|]. intros F. inversion F.
  - destruct (number_or_text x) as [v0|] eqn:Ex; cbn [bind] in Ea; [|discriminate]. destruct (numbers_or_texts a) as [v'|] eqn:Ea'; cbn [bind] in Ea; [|discriminate].
    destruct (number_or_text y) as [w0|] eqn:Ey; cbn [bind] in Eb; [|discriminate]. destruct (numbers_or_texts b) as [w'|] eqn:Eb'; cbn [bind] in Eb; [|discriminate].
    injection Ea as <-. injection Eb as <-. cbn [M_changelog.list_eqb]. rewrite andb_true_iff, (argument_eq _ _ _ _ Ex Ey).
    fold (M_changelog.list_eqb oval_eqb). rewrite (IH b v' w' eq_refl Eb'). split; [intros [? ?]; now constructor|]. intros F. inversion F. now split.
Qed.
Theorem positionals_compared a b : Forall argument_ok (pos_list a) -> Forall argument_ok (pos_list b) ->
  exists r, positionals_eq a b = Ok r /\ (r = true <-> Forall2 same_argument (pos_list a) (pos_list b)).
Proof.
  intros Fa Fb. destruct (proj1 (read_arguments _) Fa) as [v Ev]. destruct (proj1 (read_arguments _) Fb) as [w Ew]. unfold positionals_eq. rewrite Ev, Ew. cbn [bind].
  eexists. split; [reflexivity|]. now apply arguments_eq.
Qed.
Theorem positionals_unreadable a b : ~ Forall argument_ok (pos_list a) \/ ~ Forall argument_ok (pos_list b) -> positionals_eq a b = Err ValueError.
Proof.
  intros N. unfold positionals_eq. destruct (numbers_or_texts (pos_list a)) as [v|e] eqn:Ea.
  - cbn [bind]. destruct N as [N|N]; [rewrite (proj2 (read_arguments _) N) in Ea; discriminate|]. now rewrite (proj2 (read_arguments _) N).
  - cbn [bind]. destruct (numbers_or_texts (pos_list a)) as [v|e'] eqn:E2; [discriminate|]. injection Ea as ->. f_equal.
    assert (Q : forall l e, numbers_or_texts l = Err e -> e = ValueError).
    { clear. induction l as [|x l IH]; intros e E; cbn [numbers_or_texts] in E; [discriminate|]. unfold number_or_text in E.
      destruct (str_isnumeric x); [destruct (int_of_str x)|]; cbn [bind] in E; try (injection E as <-; reflexivity);
        (destruct (numbers_or_texts l) eqn:El; cbn [bind] in E; [discriminate|]; injection E as <-; now apply IH). }
    now apply (Q _ _ E2).
Qed.
End Uni.

(** Identifiers and the delimiter *)
Lemma settled_delim s : s_delimiter (settled s) = s_delim s /\ s_name (settled s) = s_name s /\ s_opts (settled s) = s_opts s /\
  s_separator (settled s) = s_separator s /\ s_data (settled s) = s_data s.
Proof. unfold settled, s_delim. destruct (options_true (s_opts s)); destruct (s_delimiter s) eqn:E; cbn [andb s_delimiter s_name s_opts s_separator s_data]; rewrite ?E; auto. Qed.
Lemma settled_again s : s_delim (settled s) = s_delim s.
Proof. destruct (settled_delim s) as (D & _ & O & _). unfold s_delim at 1. rewrite O, D. unfold s_delim. destruct (options_true (s_opts s)); [|reflexivity]. now destruct (s_delimiter s). Qed.
Theorem reading_identifiers {U : Unicode} s :
  read_id s = (s_id s, settled s) /\ read_nid s = (s_nid s, settled s) /\ read_id (settled s) = read_id s /\ read_nid (settled s) = read_nid s /\
  section_str (settled s) = section_str s /\ section_raw (settled s) = section_raw s.
Proof.
  destruct (settled_delim s) as (D & N & O & Sp & Da). assert (I : s_id (settled s) = s_id s) by (unfold s_id; now rewrite settled_again, N, O).
  assert (NI : s_nid (settled s) = s_nid s) by (unfold s_nid; now rewrite settled_again, N, O).
  assert (R : read_id s = (s_id s, settled s)) by (unfold read_id, s_id; cbn zeta; now rewrite D, N, O).
  assert (RN : read_nid s = (s_nid s, settled s)) by (unfold read_nid, s_nid; cbn zeta; now rewrite D, N, O).
  assert (SS : settled (settled s) = settled s).
  { unfold settled at 1. rewrite O, D. unfold s_delim, settled. destruct (options_true (s_opts s)); cbn [andb]; [|reflexivity]. destruct (s_delimiter s) eqn:E; cbn [andb]; [reflexivity|]. reflexivity. }
  assert (T : section_str (settled s) = section_str s) by (unfold section_str; now rewrite NI, I, Sp, Da).
  split; [exact R|]. split; [exact RN|]. split; [unfold read_id; rewrite SS; reflexivity|]. split; [unfold read_nid; rewrite SS; reflexivity|].
  split; [exact T|]. unfold section_raw. now rewrite NI, T, Da.
Qed.
Lemma dash_text c : startswith [DASH; c] [DASH; c] = true.
Proof. apply startswith_iff. exists []. reflexivity. Qed.
Lemma set_delete o c v o' : o_tokens o = [] -> valid_option o c = true -> opt_set o c v = Ok o' -> v = VBool true \/ (exists t, v = VStr t /\ startswith t [DASH] = false) ->
  options_true o' = true /\ o_tokens (opt_del o' c) = [].
Proof.
  intros E V. unfold opt_set. destruct (requires_argument o c) eqn:R; intros Q H.
  - destruct H as [->|(t & -> & Nt)]; cbn [andb negb] in Q; [discriminate|]. unfold find_option in Q. rewrite E in Q. cbn [find_last] in Q. injection Q as <-. cbn [app]. split.
    + unfold options_true. cbn [with_tokens o_tokens existsb is_ws t_type t_value negb andb]. rewrite N.eqb_refl. change (optchars (with_tokens o _)) with (optchars o). unfold valid_option in V. now rewrite V.
    + unfold opt_del, find_option. cbn [with_tokens o_tokens find_last t_value space_token]. rewrite dash_text.
      assert (startswith t [DASH; c] = false) as ->.
      { destruct (startswith t [DASH; c]) eqn:B; [|reflexivity]. apply startswith_iff in B as (u & ->). cbn in Nt. discriminate. }
      change (startswith [SPC] [DASH; c]) with false. cbn [option_map tok_at nth t_value]. rewrite (proj2 (str_eqb_eq _ _) eq_refl). cbn [negb].
      change (requires_argument (with_tokens o _) c) with (requires_argument o c). rewrite R. cbn [negb Nat.eqb length is_ws t_type space_token nth tok_at t_value]. rewrite Nt. cbn. reflexivity.
  - destruct H as [->|(t & -> & Nt)]; cbn [andb negb] in Q; [|discriminate]. unfold find_option in Q. rewrite E in Q. cbn [find_last] in Q. injection Q as <-. cbn [app]. split.
    + unfold options_true. cbn [with_tokens o_tokens existsb is_ws t_type t_value negb andb]. rewrite N.eqb_refl. change (optchars (with_tokens o _)) with (optchars o). unfold valid_option in V. now rewrite V.
    + unfold opt_del, find_option. cbn [with_tokens o_tokens find_last t_value]. rewrite dash_text. cbn [tok_at nth t_value]. rewrite (proj2 (str_eqb_eq _ _) eq_refl). cbn [negb].
      change (requires_argument (with_tokens o _) c) with (requires_argument o c). rewrite R. cbn. reflexivity.
Qed.
Theorem option_and_back {U : Unicode} s c v o' : s_delimiter s = [] -> o_tokens (s_opts s) = [] -> valid_option (s_opts s) c = true -> opt_set (s_opts s) c v = Ok o' ->
  v = VBool true \/ (exists t, v = VStr t /\ startswith t [DASH] = false) ->
  s_id s = s_name s /\ s_id (with_options (opt_del o' c) (with_options o' s)) = s_name s /\
  s_id (with_options (opt_del o' c) (snd (read_nid (with_options o' s)))) = s_name s ++ [SPC] /\
  s_nid (with_options (opt_del o' c) (snd (read_nid (with_options o' s)))) = lower (s_name s) ++ [SPC].
Proof.
  intros D E V Q H. destruct (set_delete _ _ _ _ E V Q H) as [T E'].
  assert (F : forall o, o_tokens o = [] -> options_true o = false) by (intros o Eo; unfold options_true; now rewrite Eo).
  assert (X : snd (read_nid (with_options o' s)) = mk_section (s_name s) o' [SPC] (s_separator s) (s_data s)).
  { unfold read_nid, settled, with_options. cbn [s_opts s_delimiter s_name s_separator s_data snd]. now rewrite T, D. }
  rewrite X. unfold s_id, s_nid, s_delim, with_options. cbn [s_opts s_delimiter s_name]. rewrite !F by assumption. rewrite D, E, E'. cbn [tokens_str flat_map app]. rewrite !app_nil_r. auto.
Qed.
(** Copies of lists of [%prep] macros *)
Section Prep.
Import M_shared P_shared M_prep.
Local Open Scope nat_scope.
Theorem macros_copied h c a d n b : dl_ids c = a ++ d :: n :: b -> NoDup (dl_ids c) ->
  exists h' c', delete_macro h c (length a) = Ok (h', c') /\
    M_prep.delete (prep_of h c) (Z.of_nat (length a)) = Ok (prep_of h' c') /\
    prep_raw (prep_of h' c) = flat_map macro_raw (map h a) ++ macro_raw (h d) ++ m_preceding (h d) ++ macro_raw (h n) ++ flat_map macro_raw (map h b) ++ dl_rem c.
Proof.
  intros E ND. rewrite E in ND. destruct (nodup_mid a d n b ND) as (N1 & N2 & N3 & N4 & N5).
  unfold delete_macro. rewrite E, nth_error_mid, P_options6.remove_at_mid, nth_error_mid.
  do 2 eexists. split; [reflexivity|]. split.
  - unfold M_prep.delete, prep_of. cbn [p_macros p_remainder dl_ids dl_rem]. rewrite E, map_app. cbn [map].
    rewrite py_index_nat by (rewrite app_length, map_length; cbn; lia).
    rewrite <- (map_length h a). rewrite nth_error_mid, P_options6.remove_at_mid.
    assert ((Z.of_nat (length (map h a)) <? Z.of_nat (length (map h a ++ h n :: map h b)))%Z = true) as ->
      by (apply Z.ltb_lt; rewrite app_length; cbn [length]; lia).
    rewrite py_index_nat by (rewrite app_length; cbn [length]; lia). rewrite update_mid. rewrite map_app. cbn [map].
    rewrite !map_put by auto. now rewrite put_same.
  - unfold prep_raw, prep_of. cbn [p_macros p_remainder]. rewrite E, map_app, flat_map_app. cbn [map flat_map].
    rewrite !map_put by auto. rewrite put_same, put_other by auto.
    assert (macro_raw (M_prep.with_preceding (m_preceding (h d) ++ m_preceding (h n)) (h n)) = m_preceding (h d) ++ macro_raw (h n)) as ->
      by (unfold macro_raw; cbn [M_prep.with_preceding m_preceding]; rewrite <- app_assoc; reflexivity).
    rewrite <- !app_assoc. reflexivity.
Qed.
Theorem macros_copied_last h c a d : dl_ids c = a ++ [d] ->
  exists c', delete_macro h c (length a) = Ok (h, c') /\ M_prep.delete (prep_of h c) (Z.of_nat (length a)) = Ok (prep_of h c').
Proof.
  intros E. unfold delete_macro. rewrite E, nth_error_mid, P_options6.remove_at_mid, app_nil_r.
  assert (nth_error a (length a) = None) as -> by (apply nth_error_None; lia). eexists. split; [reflexivity|].
  unfold M_prep.delete, prep_of. cbn [p_macros p_remainder dl_ids dl_rem]. rewrite E, map_app. cbn [map].
  rewrite py_index_nat by (rewrite app_length, map_length; cbn; lia).
  rewrite <- (map_length h a). rewrite nth_error_mid, P_options6.remove_at_mid, app_nil_r. now rewrite Z.ltb_irrefl.
Qed.
End Prep.
