(** Comments of tags as a list: proofs. *)
From Coq Require Import Ascii String.
From Coq Require Import NArith ZArith List Bool Lia.
From Verif Require Import PyStr PyStrFacts Regex RegexFacts M_tags Spec_tags P_tags3 M_comments Spec_comments.
From Verif Require P_evr.
Import ListNotations.
Open Scope N_scope.

Lemma space_forallb s : space_text s <-> forallb is_space s = true.
Proof. unfold space_text. now rewrite forallb_forall, Forall_forall. Qed.
Lemma comment_reads c : comment_ok c ->
  exists m, re_match comment_regex (comment_str c) = Some m /\ group_str 1 m = c_prefix c /\ group_str 2 m = c_text c.
Proof.
  destruct c as [t p]. intros ((a & b & Ep & Sa & Sb) & NL & Ht). cbn [c_text c_prefix comment_str] in *. subst p.
  unfold comment_str in *. cbn [c_text c_prefix] in *. apply space_forallb in Sa, Sb.
  eexists. split; [|split].
  - apply re_match_H. unfold comment_regex. eapply H_seq; [apply P_evr.H_caret|].
    rewrite <- app_assoc. cbn [app]. eapply H_seq.
    + eapply (H_grp 1 _ _ (mkst (rev b ++ HASH :: rev a ++ []) t []) (a ++ HASH :: b)).
      * eapply H_seq; [apply H_star; [exact Sa|intros c r [= <- _]; reflexivity]|].
        eapply H_seq; [apply H_chr|]. apply H_star; [exact Sb|intros; eapply Ht; eauto].
      * cbn [pre]. rewrite rev_app_distr. cbn [rev]. rewrite <- !app_assoc. reflexivity.
    + eapply H_seq.
      * eapply (H_grp 2 _ _ (mkst (rev t ++ rev b ++ HASH :: rev a ++ []) [] [(1%nat, a ++ HASH :: b)]) t); [|reflexivity]. cbn [pre rest caps].
        rewrite <- (app_nil_r t) at 1. apply H_star; [|discriminate]. apply forallb_forall. intros x I. unfold dot.
        apply negb_true_iff, N.eqb_neq. intros ->. apply NL. apply in_app_iff. auto.
      * cbn [pre rest caps]. apply P_evr.H_dollar.
  - reflexivity.
  - reflexivity.
Qed.
Lemma comment_eta c : mk_comment (c_text c) (c_prefix c) = c. Proof. destruct c; reflexivity. Qed.
Theorem read_back c : comments_ok c -> comments_parse (comments_raw c) = c.
Proof.
  destruct c as [data pl]. intros (F & Fp & Last). cbn [cs_data cs_preceding] in *. unfold comments_parse, comments_raw. cbn [cs_data cs_preceding].
  rewrite <- fold_left_rev_right, rev_involutive, fold_right_app.
  assert (K : fold_right (fun y x => comment_step x y) ([], []) (map comment_str data) = (data, [])).
  { induction F as [|c data Hc F IH]; auto. cbn [map fold_right]. rewrite IH. unfold comment_step.
    destruct (comment_reads c Hc) as (m & -> & -> & ->). now rewrite comment_eta. }
  rewrite K. clear K. assert (J : fold_right (fun y x => comment_step x y) (data, []) pl = (data, pl)); [|now rewrite J].
  destruct (rev pl) as [|l r] eqn:R; [apply (f_equal (@rev _)) in R; rewrite rev_involutive in R; subst; reflexivity|].
  apply (f_equal (@rev _)) in R. rewrite rev_involutive in R. cbn in R. specialize (Last _ _ R).
  assert (G : forall p, fold_right (fun y x => comment_step x y) (data, []) (p ++ [l]) = (data, p ++ [l])).
  { induction p as [|x p IH].
    - cbn [app fold_right]. unfold comment_step. destruct (re_match comment_regex l) as [m|] eqn:E; auto.
      exfalso. apply Last. apply (comment_match l m); auto. rewrite R in Fp. apply Forall_app in Fp as [_ Fp]. now inversion Fp.
    - cbn [app fold_right]. rewrite IH. unfold comment_step. destruct (re_match comment_regex x) as [m|]; auto. destruct p; auto. }
  rewrite R. apply G.
Qed.
(** What is read is in that form. *)
Lemma spaces_prefix (s : str) : exists b t, s = b ++ t /\ space_text b /\ (forall x r, t = x :: r -> is_space x = false).
Proof.
  induction s as [|c s (b & t & -> & Sb & Ht)]; [exists [], []; split; [reflexivity|split; [constructor|discriminate]]|].
  destruct (is_space c) eqn:E; [exists (c :: b), t; split; [reflexivity|split; [now constructor|auto]]|].
  exists [], (c :: b ++ t). split; [reflexivity|]. split; [constructor|]. now intros x r [= <- _].
Qed.
Lemma comment_line_ok line m : ~ In LF line -> re_match comment_regex line = Some m -> comment_ok (mk_comment (group_str 2 m) (group_str 1 m)).
Proof.
  intros NL E. destruct (comment_match line m NL E) as (Q & a & r & El & Sa). destruct (spaces_prefix r) as (b & t & -> & Sb & Ht).
  assert (O : comment_ok (mk_comment t (a ++ HASH :: b))).
  { split; [exists a, b; auto|]. unfold comment_str. cbn [c_text c_prefix]. split; auto. rewrite <- app_assoc. cbn [app]. now rewrite <- El. }
  destruct (comment_reads _ O) as (m' & E' & G1 & G2). unfold comment_str in E'. cbn [c_text c_prefix] in *. rewrite <- app_assoc in E'. cbn [app] in E'.
  rewrite <- El in E'. rewrite E in E'. injection E' as ->. now rewrite G1, G2.
Qed.
Theorem parse_ok lines : Forall (fun l => ~ In LF l) lines -> comments_ok (comments_parse lines).
Proof.
  intros F. destruct (comments_parse_spec lines F) as (R & _ & L). split; [|split; [|exact L]].
  - revert F. clear. unfold comments_parse. rewrite <- fold_left_rev_right, rev_involutive. intros F.
    assert (K : Forall comment_ok (fst (fold_right (fun y x => comment_step x y) ([], []) lines))).
    { induction F as [|l ls NL F IH]; [constructor|]. cbn [fold_right]. destruct (fold_right _ _ ls) as [cs pl]. cbn [fst] in IH. unfold comment_step.
      destruct (re_match comment_regex l) as [m|] eqn:E; [destruct pl|]; cbn [fst]; auto. constructor; auto. now apply (comment_line_ok l). }
    destruct (fold_right _ _ lines) as [cs pl]. exact K.
  - rewrite <- R in F. unfold comments_raw in F. now apply Forall_app in F.
Qed.

(** * Operations *)
Lemma new_ok s : comment_text s -> comment_ok (item_comment (AText s)).
Proof.
  intros (NL & Ht). split; [exists [], [SPC]; split; [reflexivity|split; [constructor|constructor; [reflexivity|constructor]]]|]. split; [|exact Ht].
  unfold comment_str. cbn [item_comment c_text c_prefix lit list_ascii_of_string map]. intros [Q|[Q|Q]]; [discriminate|discriminate|auto].
Qed.
Lemma firstn_skipn_map {A B} (f : A -> B) l i : map f (firstn (clamp_index l i) l ++ skipn (clamp_index l i) l) = map f l.
Proof. now rewrite firstn_skipn. Qed.
Lemma clamp_map {A B} (f : A -> B) l i : clamp_index (map f l) i = clamp_index l i.
Proof. unfold clamp_index. now rewrite map_length. Qed.
Lemma py_index_map {A B} (f : A -> B) l i : py_index (map f l) i = py_index l i.
Proof. unfold py_index. now rewrite map_length. Qed.
Lemma edit_intro c d texts : comments_ok c -> Forall comment_ok d -> map c_text d = texts -> edit_ok c (with_comments c d) texts.
Proof.
  intros (A & B & C) F E. assert (K : comments_ok (with_comments c d)) by (split; [exact F|split; [exact B|exact C]]).
  split; [exact K|]. split; [reflexivity|]. split; [exact E|]. now apply read_back.
Qed.
Theorem append_spec c s : comments_ok c -> comment_text s -> edit_ok c (cm_append c (AText s)) (cm_texts c ++ [s]).
Proof.
  intros O T. apply edit_intro; auto; [|now rewrite map_app]. apply Forall_app. split; [apply O|]. constructor; [now apply new_ok|constructor].
Qed.
Theorem extend_spec c ss : comments_ok c -> Forall comment_text ss -> edit_ok c (cm_extend c (map AText ss)) (cm_texts c ++ ss).
Proof.
  intros O T. apply edit_intro; auto.
  - apply Forall_app. split; [apply O|]. rewrite map_map. apply Forall_map. eapply Forall_impl; [|exact T]. intros s. apply new_ok.
  - rewrite map_app, !map_map. cbn. now rewrite map_id.
Qed.
Theorem insert_spec c i s : comments_ok c -> comment_text s -> edit_ok c (cm_insert c i (AText s)) (py_insert (cm_texts c) i s).
Proof.
  intros O T. apply edit_intro; auto.
  - unfold py_insert. destruct O as (O & _). rewrite <- (firstn_skipn (clamp_index (cs_data c) i) (cs_data c)) in O. apply Forall_app in O as [O1 O2].
    apply Forall_app. split; auto. constructor; auto. now apply new_ok.
  - unfold py_insert, cm_texts. rewrite clamp_map, map_app. cbn [map]. rewrite firstn_map, skipn_map. reflexivity.
Qed.
Lemma Forall_update {A} (P : A -> Prop) f k : forall l, Forall P l -> (forall x, P x -> P (f x)) -> Forall P (update_at k f l).
Proof. induction k as [|k IH]; intros [|x l] F Q; cbn; auto; inversion F; subst; constructor; auto. Qed.
Lemma map_update {A B} (g : A -> B) f h k : forall l, (forall x, g (f x) = h (g x)) -> map g (update_at k f l) = update_at k h (map g l).
Proof. induction k as [|k IH]; intros [|x l] Q; cbn; auto; f_equal; auto. Qed.
Theorem set_spec c i s : comments_ok c -> comment_text s ->
  match py_index (cm_texts c) i with
  | None => cm_set c i (AText s) = Err IndexError
  | Some k => exists c', cm_set c i (AText s) = Ok c' /\ edit_ok c c' (update_at k (fun _ => s) (cm_texts c))
  end.
Proof.
  intros O (NL & Ht). unfold cm_texts at 1. rewrite py_index_map. unfold cm_set. destruct (py_index (cs_data c) i) as [k|]; auto.
  eexists. split; [reflexivity|]. apply edit_intro; auto; [|now apply map_update]. apply Forall_update; [apply O|].
  intros x ((a & b & E & Sa & Sb) & Nx & _). unfold assign_comment. split; [exists a, b; auto|]. split; [|exact Ht].
  unfold comment_str in *. cbn [c_text c_prefix]. intros I. apply in_app_iff in I as [I|I]; auto. apply Nx, in_app_iff. auto.
Qed.
Theorem contains_spec c s : cm_contains c s = true <-> In s (cm_texts c).
Proof.
  unfold cm_contains, cm_texts. rewrite existsb_exists, in_map_iff. split; intros (x & A & B); exists x.
  - apply str_eqb_eq in B. auto.
  - split; auto. now apply str_eqb_eq.
Qed.
Lemma find_index_texts s l : match find_index (fun x => str_eqb (c_text x) s) l with
  | Some k => exists a b, map c_text l = a ++ s :: b /\ length a = k /\ ~ In s a
  | None => ~ In s (map c_text l) end.
Proof.
  induction l as [|x l IH]; [intros []|]. cbn [find_index map]. destruct (str_eqb (c_text x) s) eqn:E.
  - apply str_eqb_eq in E. subst. exists [], (map c_text l). auto.
  - assert (N : c_text x <> s) by (intros Q; apply str_eqb_eq in Q; congruence).
    destruct (find_index _ l) as [k|]; cbn.
    + destruct IH as (a & b & -> & <- & I). exists (c_text x :: a), b. split; [reflexivity|]. split; [reflexivity|]. intros [Q|Q]; auto.
    + intros [Q|Q]; auto.
Qed.
Theorem index_spec c s : match cm_index c s with
  | Ok k => exists a b, cm_texts c = a ++ s :: b /\ length a = k /\ ~ In s a
  | Err e => e = ValueError /\ ~ In s (cm_texts c) end.
Proof. unfold cm_index. pose proof (find_index_texts s (cs_data c)) as K. destruct (find_index _ _); auto. Qed.

(** Slices: the number of comments never changes; too few items raise IndexError after the first ones are assigned. *)
Lemma update_length {A} (f : A -> A) k : forall l, length (update_at k f l) = length l.
Proof. induction k as [|k IH]; intros [|x l]; cbn; auto. Qed.
Theorem slice_spec idx : forall data items, let (d, e) := set_positions data idx items in
  length d = length data /\ (e = None <-> (length idx <= length items)%nat) /\ (e = None \/ e = Some IndexError).
Proof.
  induction idx as [|k idx IH]; intros data items; cbn [set_positions]; [split; [reflexivity|]; split; [cbn; split; auto; lia|auto]|].
  destruct items as [|x items]; [split; [reflexivity|]; split; [cbn; split; [discriminate|lia]|auto]|].
  specialize (IH (update_at k (assign_comment x) data) items). destruct (set_positions _ idx items) as [d e].
  rewrite update_length in IH. cbn [length]. destruct IH as (A & B & C). split; auto. split; auto. rewrite B. lia.
Qed.
(** [+=] *)
Theorem iadd_lost c s : comments_ok c -> ~ In LF s -> ~ comment_line s ->
  iadd_lines c [AText s] = comments_raw c ++ [s] /\ comments_parse (iadd_lines c [AText s]) = mk_comments [] (comments_raw c ++ [s]).
Proof.
  intros O NL N. split; [reflexivity|].
  assert (E : iadd_lines c [AText s] = comments_raw (mk_comments [] (comments_raw c ++ [s]))) by (unfold comments_raw at 2; cbn; now rewrite app_nil_r).
  rewrite E. apply read_back. split; [constructor|]. cbn [cs_preceding]. split.
  - apply Forall_app. split; [|constructor; auto]. destruct O as (O & P & _). unfold comments_raw. apply Forall_app. split; auto.
    apply Forall_map. eapply Forall_impl; [|exact O]. intros x (_ & Q & _). exact Q.
  - intros p l Q. apply app_inj_tail in Q as [_ <-]. exact N.
Qed.
(** Extending comments by themselves never ends. *)
Theorem extend_self_endless data : data <> [] -> forall n, exists more, extend_self n (0%nat, data) = Some (n, data ++ more) /\ length more = n.
Proof.
  intros N. assert (K : forall n i d, (i < length d)%nat -> exists more, extend_self n (i, d) = Some ((i + n)%nat, d ++ more) /\ length more = n).
  { induction n as [|n IH]; intros i d Hi; cbn [extend_self].
    - exists []. rewrite app_nil_r, Nat.add_0_r. auto.
    - unfold extend_self_step. destruct (nth_error d i) as [x|] eqn:E; [|apply nth_error_None in E; lia].
      destruct (IH (S i) (d ++ [x])) as (more & -> & L); [rewrite app_length; cbn; lia|].
      exists (x :: more). rewrite <- app_assoc. cbn [app length]. split; [do 2 f_equal; lia|now rewrite L]. }
  intros n. destruct (K n 0%nat data) as (more & E & L); [destruct data; [congruence|cbn; lia]|]. exists more. auto.
Qed.
