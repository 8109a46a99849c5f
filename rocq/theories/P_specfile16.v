(** A concrete spec file for updates through macros. *)
From Coq Require Import Ascii String.
From Coq Require Import NArith ZArith List Bool Arith Lia.
From Verif Require P_update4 P_update6.
From Verif Require Import PyStr PyStrFacts Regex M_constants M_options M_value Spec_value2 M_macro_definitions Spec_macro_definitions P_macro_definitions
  M_conditions M_sections Spec_sections P_sections M_tags Spec_tags P_tags3 M_release M_update Spec_update M_specfile Spec_specfile Spec_specfile2 P_specfile P_specfile2 P_specfile7 P_specfile9.
Import ListNotations.
Open Scope N_scope.
Open Scope nat_scope.

Lemma definition_line {U : Unicode} (m : mdefs) j l : in_definition m j -> nth_error (get_raw_data m) j = Some l -> exists d, In d (md_data m) /\ In l (M_macro_definitions.own_lines d).
Proof.
  intros (a & d & b & i & E & Hi & ->) H. exists d. split; [rewrite E; apply in_elt|]. unfold get_raw_data in H. rewrite E, flat_map_app in H. cbn [flat_map] in H. unfold mdef_raw at 2 in H. rewrite <- !app_assoc in H.
  rewrite <- Nat.add_assoc, nth_error_app2 in H by lia. replace (length (flat_map mdef_raw a) + (length (d_preceding d) + i) - length (flat_map mdef_raw a)) with (length (d_preceding d) + i) in H by lia.
  rewrite nth_error_app2 in H by lia. replace (length (d_preceding d) + i - length (d_preceding d)) with i in H by lia. rewrite nth_error_app1 in H by exact Hi. now apply nth_error_In in H.
Qed.
Lemma outside_by {U : Unicode} lines : clean lines -> forallb (fun d => forallb (fun l => match l with c :: _ => N.eqb c PCT | [] => false end) (M_macro_definitions.own_lines d)) (md_data (parse_plain lines)) = true -> tags_outside lines.
Proof.
  intros C F j l n s v Hl D T. rewrite <- (parse_plain_raw lines C) in Hl. destruct (definition_line _ _ _ D Hl) as (d & Hd & Hi). rewrite forallb_forall in F. apply F in Hd. rewrite forallb_forall in Hd. apply Hd in Hi.
  apply tag_line_letter in T as (a & c & r & -> & La & Sc). destruct (letter_other _ _ La Sc) as (Q & _). apply N.eqb_eq in Hi. contradiction.
Qed.

Lemma apart_by {U : Unicode} m : NoDup (map d_name (md_data m)) -> defined_apart m.
Proof.
  intros D a d b x E Hx N. exfalso. rewrite E, map_app in D. cbn [map] in D. apply NoDup_remove_2 in D. apply D. rewrite in_app_iff. left. rewrite <- N. now apply in_map.
Qed.

#[local] Existing Instance unicode_none.
Definition up_file : list str := file ["%global maj 1"; "%global min 2"; "Name: x"; "Version: %{maj}.%{min}"; "Release: 1%{?dist}"; "%description"; "Version: no"]%string.
Definition up_new : list str := file ["%global maj 20"; "%global min 5"; "Name: x"; "Version: %{maj}.%{min}"; "Release: 1%{?dist}"; "%description"; "Version: no"]%string.
Definition up_tags : tags := match read_tags ex_expand up_file tt with (_, _, Ok ts) => ts | _ => mk_tags [] [] end.
Definition up_macros : mdefs := match read_macros ex_expand up_file tt with (_, _, Ok m) => m | _ => mk_mdefs [] [] end.
Definition up_version : tag := nth 1 (ts_data up_tags) (mk_tag [] [] [] (mk_comments [] []) false [] []).
Definition entity_of (name value : string) (is_tag : bool) (p : nat) : entity := mk_entity (lit name) (lit value) is_tag p false false false false.
Definition up_es : list entity := [entity_of "maj" "1" false 0; entity_of "min" "2" false 1; entity_of "version" "%{maj}.%{min}" true 3; entity_of "release" "1%{?dist}" true 4].
Definition up_ex (s : str) : result str := fst (ex_expand up_file false tt s).
Lemma up_clean : Forall tidy_line up_file /\ clean up_file.
Proof. apply plain_file_ok. vm_compute. reflexivity. Qed.
Lemma up_read : read_tags ex_expand up_file tt = (up_file, tt, Ok up_tags) /\ read_macros ex_expand up_file tt = (up_file, tt, Ok up_macros).
Proof. split; vm_compute; reflexivity. Qed.
Lemma up_names : map d_name (md_data (parse_plain up_file)) = [lit "maj"; lit "min"].
Proof. vm_compute. reflexivity. Qed.
Lemma up_regular : regular_file up_file.
Proof.
  destruct up_clean as (T & C). split; [exact T|]. split; [apply C|]. split; [|apply outside_by; [exact C|vm_compute; reflexivity]].
  apply apart_by. rewrite up_names. repeat constructor; vm_compute; intuition discriminate.
Qed.
Lemma up_collected : collected ex_expand protected_default up_file up_macros up_tags up_es.
Proof. eexists _, _. split; [vm_compute; reflexivity|]. split; vm_compute; reflexivity. Qed.
Lemma up_update : update_tag ex_expand ex_id protected_default (lit "version") (lit "20.5") up_file tt = (up_new, tt, Ok tt).
Proof. vm_compute. reflexivity. Qed.

Ltac run := vm_compute; reflexivity.
Ltac entities := split; [intros e H; repeat destruct H as [<-|H]; try reflexivity; destruct H|split; [intros e H T; repeat destruct H as [<-|H]; try discriminate; try (split; reflexivity); destruct H|
  intros m t Hm Ht Tm Tt L; repeat destruct Hm as [<-|Hm]; repeat destruct Ht as [<-|Ht]; try discriminate; try destruct Hm; try destruct Ht]].
Lemma up_ok : entities_ok up_es.
Proof. entities. Qed.
Lemma up_separate : separate up_ex up_es 3 (t_value up_version).
Proof.
  apply (separate_intro (U:=unicode_none) _ _ _ _ [EnclosedMacroSubstitution [] (lit "maj") []; StringLiteral (lit "."); EnclosedMacroSubstitution [] (lit "min") []]).
  - run.
  - constructor; [constructor| | | | |constructor; [discriminate| |constructor; [constructor| | | | |constructor]]]; try (intros c n' Q; injection Q as <- _; split; discriminate); try (repeat constructor; discriminate); try (cbn; intuition discriminate); repeat (apply closed_char; [discriminate|discriminate|]); constructor.
  - cbn. intuition discriminate.
  - intros [|? [|? [|? [|? pre]]]] p x s post Q; discriminate.
  - intros p x b H. cbn in H. intuition discriminate.
  - intros name R K (t & ->). eapply P_update6.refers_name in R; [|run]. cbn in R. destruct R as [Q|[Q|[Q|[]]]]; discriminate.
  - intros name k e R C E. eapply P_update6.refers_name in R; [|run]. apply P_update6.closest_is in C. destruct R as [Q|[Q|[Q|[]]]]; try discriminate; injection Q as <-; vm_compute in C; injection C as <-; injection E as <-; apply P_update6.separate_plain; cbn; intuition discriminate.
  - intros n1 n2 k1 k2 j R1 R2 N C1 C2 B1 B2. eapply P_update6.refers_name in R1; [|run]. eapply P_update6.refers_name in R2; [|run]. apply P_update6.closest_is in C1. apply P_update6.closest_is in C2.
    destruct R1 as [Q|[Q|[Q|[]]]]; try discriminate; injection Q as <-; vm_compute in C1; injection C1 as <-; destruct R2 as [Q|[Q|[Q|[]]]]; try discriminate; injection Q as <-; vm_compute in C2; injection C2 as <-; try (exfalso; apply N; reflexivity).
    all: destruct B1 as [->|(e & E & H)]; [|injection E as <-; apply P_update4.plain_reaches in H; [exact H|discriminate|cbn; intuition discriminate]]; destruct B2 as [Q|(e & E & H)]; [discriminate|injection E as <-; apply P_update4.plain_reaches in H; [exact H|discriminate|cbn; intuition discriminate]].
Qed.
Lemma up_value : t_value up_version = lit "%{maj}.%{min}".
Proof. run. Qed.
Lemma up_first text name k : text = lit "%{maj}.%{min}" -> refers_to text name -> closest up_es 3 name k -> k = 0 \/ k = 1.
Proof.
  intros -> R C. eapply P_update6.refers_name in R; [|run]. apply P_update6.closest_is in C. destruct R as [Q|[Q|[Q|[]]]]; try discriminate; injection Q as <-; vm_compute in C; injection C as <-; auto.
Qed.
Lemma up_reaches text j : text = lit "%{maj}.%{min}" -> reaches up_es 3 text j -> j = 0 \/ j = 1.
Proof.
  intros Et H. inversion H as [? ? name k R C|? ? name k e ? R C E H']; subst pos; subst; [eapply up_first; eauto|].
  exfalso. destruct (up_first _ _ _ eq_refl R C) as [-> | ->]; injection E as <-; apply P_update4.plain_reaches in H'; [exact H'|discriminate|cbn; intuition discriminate|exact H'|discriminate|cbn; intuition discriminate].
Qed.
Definition one_def (name : str) (c : N) : mdef := mk_mdef name [c] true false DNL ([], lit " ", lit " ", []) [] true [].
Lemma up_defs : md_data up_macros = [one_def (lit "maj") 49; one_def (lit "min") 50].
Proof. run. Qed.
Lemma one_ordinary name c : is_space c = false -> c <> BSLASH -> c <> LF -> name <> [] -> forallb is_word name = true -> ordinary (one_def name c).
Proof.
  intros S B L N W. split; [constructor|]. split; [repeat constructor|]. split; [discriminate|]. split; [repeat constructor|]. split; [discriminate|]. split; [constructor|].
  split; [vm_compute; intuition discriminate|]. split; [exists name, []; split; [now rewrite app_nil_r|]; split; [exact N|]; split; [exact W|now left]|].
  split; [intros []|]. split; [intros [Q|[]]; now apply L|]. split; [exists c, []|exists [], c]; auto.
Qed.
Lemma up_only n k d : nth_error (md_data up_macros) k = Some d -> d_name d = n -> only_macro up_macros n k d /\ ordinary d /\ blank (d_prefix d).
Proof.
  intros H N. split.
  - split; [exact H|]. split; [exact N|]. intros j u Hj Nu. rewrite up_defs in *. destruct k as [|[|[|k]]], j as [|[|[|j]]]; try discriminate; auto; injection H as <-; injection Hj as <-; cbn [one_def d_name] in *; rewrite <- N in Nu; discriminate.
  - rewrite up_defs in H. destruct k as [|[|[|k]]]; try discriminate; injection H as <-; (split; [apply one_ordinary; try discriminate; reflexivity|constructor]).
Qed.
Lemma up_own : forall j e, nth_error up_es j = Some e -> on_own_line up_macros up_tags e \/ ~ reaches up_es 3 (t_value up_version) j.
Proof.
  intros [|[|j]] e H.
  - left. injection H as <-. exists 0, (one_def (lit "maj") 49). destruct (up_only (lit "maj") 0 (one_def (lit "maj") 49)) as (A & B & C); auto; now rewrite up_defs.
  - left. injection H as <-. exists 1, (one_def (lit "min") 50). destruct (up_only (lit "min") 1 (one_def (lit "min") 50)) as (A & B & C); auto; now rewrite up_defs.
  - right. intros R. rewrite up_value in R. apply up_reaches in R; [lia|reflexivity].
Qed.
Lemma up_target : only_tag up_tags (lit "version") 1 up_version /\ one_line up_version /\ tag_position up_version up_tags = Ok 3 /\ lower (t_name up_version) = lower (lit "version").
Proof.
  assert (Nm : map (fun t => str_eqb (capitalize (t_name t)) (capitalize (lit "version"))) (ts_data up_tags) = [false; true; false]) by (vm_compute; reflexivity).
  split; [|split; [|split; vm_compute; reflexivity]].
  - split; [vm_compute; reflexivity|]. split; [vm_compute; reflexivity|]. intros j u Hj Nu. apply (map_nth_error (fun t => str_eqb (capitalize (t_name t)) (capitalize (lit "version")))) in Hj. rewrite Nm in Hj.
    apply str_eqb_eq in Nu. rewrite Nu in Hj. clear - Hj. destruct j as [|[|[|[|j]]]]; cbn [nth_error] in Hj; congruence.
  - split; [vm_compute; reflexivity|]. split; [vm_compute; reflexivity|]. vm_compute. intuition discriminate.
Qed.
Lemma up_simple : Forall simple_tag (ts_data up_tags) /\ forall u, In u (ts_data up_tags) -> Forall (fun c => (c < 128)%N) (t_name u).
Proof.
  assert (F : forallb (fun u => forallb (fun c => N.ltb c 128) (t_name u) && forallb (fun c => negb (N.eqb c LF)) (t_value u) && (let (a, b) := count_brackets (t_value u) in Nat.eqb a 0 && Nat.eqb b 0)) (ts_data up_tags) = true) by (vm_compute; reflexivity).
  rewrite forallb_forall in F. split; [apply Forall_forall|]; intros u Hu; apply F in Hu; apply andb_true_iff in Hu as [Hu H3]; apply andb_true_iff in Hu as [H1 H2].
  - split; [rewrite forallb_forall in H2; intros Q; apply H2 in Q; discriminate|]. destruct (count_brackets (t_value u)) as [a b]. apply andb_true_iff in H3 as [A B]. apply Nat.eqb_eq in A, B. now subst.
  - rewrite forallb_forall in H1. apply Forall_forall. intros c Hc. now apply N.ltb_lt, H1.
Qed.
