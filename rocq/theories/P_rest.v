(** Proofs that complete others: dummy sources, styles of commenting out, indices of sources, texts of slices. *)
From Coq Require Import Ascii String.
From Coq Require Import NArith ZArith List Bool Lia Arith.
From Verif Require Import PyStr PyStrFacts.
From Verif Require M_spec_parser P_spec_parser2 M_macro_definitions Spec_specfile M_specfile M_sources_seq M_slice M_options M_sections M_section_objects M_shared.
Import ListNotations.
Open Scope N_scope.

Section Dummy.
Import M_spec_parser P_spec_parser2.
Context {U : Unicode} {W B : Type}.
Context (stat_fault : world W -> str * str -> option exn) (write_outcome : world W -> str * str -> list N -> attempt) (unlink_fault : world W -> str * str -> option exn) (order : list str -> list str).
Lemma unlink_all_ok l : forall w w', unlink_all unlink_fault l w = (w', Ok tt) ->
  (forall p, In p l -> content_of p (files w) <> None) /\ (forall p, In p l -> content_of p (files w') = None) /\ (forall p, content_of p (files w) = None -> content_of p (files w') = None).
Proof.
  assert (K : forall p q f, content_of p f = None -> content_of p (unlink q f) = None).
  { intros p q f. rewrite !content_None, unlink_in. tauto. }
  induction l as [|p l IH]; intros w w' E; cbn [unlink_all] in E; [injection E as <-; split; [intros p []|split; [intros p []|auto]]|].
  destruct (unlink_fault w p); [discriminate|]. destruct (content_of p (files w)) as [b|] eqn:C; [|discriminate]. apply IH in E as (H1 & H2 & H3). cbn [files] in *. split; [|split].
  - intros q [<-|I]; [congruence|]. intros N. apply (H1 q I). apply K, N.
  - intros q [<-|I]; [|now apply H2]. apply H3. apply content_None. rewrite unlink_in. tauto.
  - intros q N. apply H3, K, N.
Qed.
Theorem dummies_there d sources non_empty (body : list (str * str) -> world W -> world W * result B) w w' r :
  with_dummy_sources stat_fault write_outcome unlink_fault order d sources non_empty body w = (w', Ok r) ->
  exists made w1 w2, body made w1 = (w2, Ok r) /\ (forall p, In p made -> content_of p (files w2) <> None /\ content_of p (files w') = None).
Proof.
  unfold with_dummy_sources. destruct (fake stat_fault write_outcome d magic_bytes (order sources) [] w) as [[wa made] [[]|e]]; [|discriminate].
  destruct (fake stat_fault write_outcome d dummy_bytes (order non_empty) made wa) as [[wb made'] [[]|e]]; [|discriminate].
  destruct (body made' wb) as [w2 r2] eqn:Eb. destruct (unlink_all unlink_fault made' w2) as [w3 [[]|e]] eqn:Eu; [|discriminate]. intros E. injection E as <- ->.
  exists made', wb, w2. split; [exact Eb|]. apply unlink_all_ok in Eu as (H1 & H2 & _). auto.
Qed.
End Dummy.

Section Style.
Import M_macro_definitions M_specfile Spec_specfile.
Theorem style_shown d : d_commented_out d = false -> exists blanks rest others,
  own_lines d = (blanks ++ d_prefix d ++ PCT :: rest) :: others /\
  own_lines (set_out DNL d) = (blanks ++ lit "%dnl" ++ d_prefix d ++ PCT :: rest) :: others /\
  own_lines (set_out HASHED d) = (blanks ++ d_prefix d ++ HASH :: rest) :: others.
Proof.
  intros C. destruct (d_ws d) as [[[w0 w1] w2] w3] eqn:Ew. unfold set_out. rewrite C.
  destruct (split_on LF [] (d_body d ++ w3)) as [|b0 bs] eqn:S.
  - exists w0, ((if d_is_global d then lit "global" else lit "define") ++ w1 ++ d_name d ++ w2), [].
    unfold own_lines, d_head, d_ws3, with_style, with_commented_out. cbn [d_ws d_body d_commented_out d_style d_is_global d_prefix d_name]. rewrite Ew, S, C. repeat split; reflexivity.
  - exists w0, ((if d_is_global d then lit "global" else lit "define") ++ w1 ++ d_name d ++ w2 ++ b0), bs.
    unfold own_lines, d_head, d_ws3, with_style, with_commented_out. cbn [d_ws d_body d_commented_out d_style d_is_global d_prefix d_name]. rewrite Ew, S, C.
    repeat split; f_equal; rewrite <- !app_assoc; cbn [app]; rewrite <- ?app_assoc; reflexivity.
Qed.
Theorem style_kept s d : d_commented_out d = true -> own_lines (set_out s d) = own_lines d.
Proof. intros C. unfold set_out. rewrite C. destruct d. cbn in C. subst. reflexivity. Qed.
End Style.

Section Index.
Import M_sources_seq.
Theorem index_object n k : index n (Object k) = if Nat.ltb k n then Ok k else Err ValueError.
Proof.
  unfold index. destruct (List.find (fun x => equals x (Object k)) (seq 0 n)) as [x|] eqn:E.
  - apply find_some in E as [I Q]. apply in_seq in I. cbn in Q. apply Nat.eqb_eq in Q. subst x. assert ((k <? n)%nat = true) as -> by (apply Nat.ltb_lt; lia). reflexivity.
  - destruct (k <? n)%nat eqn:L; [|reflexivity]. exfalso. apply Nat.ltb_lt in L. assert (Q : equals k (Object k) = false) by (apply (find_none _ _ E k), in_seq; lia). cbn in Q. rewrite Nat.eqb_refl in Q. discriminate.
Qed.
End Index.

Section Slices.
Import M_slice M_options M_sections M_section_objects.
Context {U : Unicode}.
Theorem slice_text h i j k s h' : slice_section h i j k s = Ok h' -> s_nid (section_of h i) <> PREAMBLE -> exists head l,
  get_slice s (so_data (h_secs h i)) = Ok l /\
  section_str (section_of h i) = head ++ so_sep (h_secs h i) ++ lines_text (so_data (h_secs h i)) /\
  section_str (section_of h' j) = head ++ so_sep (h_secs h i) ++ lines_text l.
Proof.
  intros E N. unfold slice_section in E. destruct (get_slice s (so_data (h_secs h i))) as [l|]; [|discriminate]. cbn [bind] in E.
  destruct (str_in (lower (so_name (h_secs h i))) M_constants.SECTION_NAMES); [|discriminate]. injection E as <-.
  assert (D : str_eqb (s_nid (section_of h i)) PREAMBLE = false) by (destruct (str_eqb _ _) eqn:Q; [apply str_eqb_eq in Q; contradiction|reflexivity]).
  exists (PCT :: s_id (section_of h i)), l. split; [reflexivity|]. unfold section_str. rewrite D. split; [reflexivity|].
  match goal with |- (if _ then lines_text (s_data ?x) else _) = _ => assert (S : x = mk_section (so_name (h_secs h i)) (h_opts h (so_opts (h_secs h i))) (so_delim (h_secs h i)) (so_sep (h_secs h i)) l) end.
  { unfold section_of. cbn [h_opts h_secs]. unfold M_shared.put. rewrite !Nat.eqb_refl. cbn [so_name so_opts so_delim so_sep so_data]. rewrite ?Nat.eqb_refl. reflexivity. }
  rewrite S. change (s_nid (mk_section (so_name (h_secs h i)) (h_opts h (so_opts (h_secs h i))) (so_delim (h_secs h i)) (so_sep (h_secs h i)) l)) with (s_nid (section_of h i)). rewrite D. reflexivity.
Qed.
End Slices.
