(** Proofs about operations on a whole spec file: tags, the release. *)
From Coq Require Import Ascii String.
From Coq Require Import NArith ZArith List Bool Lia.
From Verif Require P_value.
From Verif Require Import PyStr PyStrFacts M_constants M_options M_value M_macro_definitions Spec_macro_definitions P_macro_definitions P_macro_definitions2 P_macro_definitions3
  M_conditions M_sections Spec_sections M_tags Spec_tags P_tags P_tags4 P_tags5 P_context
  M_release M_update M_specfile Spec_specfile P_specfile.
Import ListNotations.
Open Scope N_scope.

Section Uni.
Context {U : Unicode} {W : Type} (expand : list str -> bool -> W -> str -> result str * W).
Lemma read_opens lines w l w1 ts : read_tags expand lines w = (l, w1, Ok ts) -> exists rest, opens expand lines w ts w1 rest /\ l = tags_raw ts ++ rest.
Proof.
  unfold read_tags. intros E. destruct (view_cases expand lines w) as [(ts' & w' & rest & O)|(x & w' & e & V)]; [|congruence].
  rewrite (view_opens _ _ _ _ _ _ _ _ O) in E. injection E as <- <- <-. eauto.
Qed.
Lemma designates_index ts name k t : designates ts name k t -> lower (t_name t) = lower name -> tag_index ts name = Ok k.
Proof.
  intros (Hk & Hn & Hd) L. unfold tag_index, tag_contains.
  assert (existsb (fun t => str_eqb (lower (t_name t)) (lower name)) (ts_data ts) = true) as ->.
  { apply existsb_exists. exists t. split; [eapply nth_error_In; eauto|]. now rewrite L, str_eqb_refl. }
  pose proof (find_spec ts name) as F. destruct (tag_find ts name) as [i|e].
  - f_equal. destruct F as (u & Hi & Hu & D). destruct (Nat.lt_trichotomy i k) as [Lt|[Q|Gt]]; auto; exfalso.
    + destruct Hd as [(Vt & Fk)|(_ & Fk)]; [|now apply (Fk i u)]. pose proof (Fk i u Lt Hi Hu) as Vu.
      destruct D as [(Vu' & _)|(Fa & _)]; [congruence|]. rewrite (Fa t) in Vt; [discriminate| |auto]. eapply nth_error_In; eauto.
    + destruct D as [(Vu & Fi)|(_ & Fi)]; [|now apply (Fi k t)]. pose proof (Fi k t Gt Hk Hn) as Vt.
      destruct Hd as [(Vt' & _)|(Fa & _)]; [congruence|]. rewrite (Fa u) in Vu; [discriminate| |auto]. eapply nth_error_In; eauto.
  - destruct F as (_ & F). exfalso. apply (F t); auto. eapply nth_error_In; eauto.
Qed.
Lemma index_designates ts name k : tag_index ts name = Ok k -> exists t, designates ts name k t.
Proof.
  unfold tag_index. destruct (tag_contains ts name); [|discriminate]. pose proof (find_spec ts name) as F. destruct (tag_find ts name); [|discriminate].
  intros Q; injection Q as <-. destruct F as (d & Hd & Hn & F). exists d. split; auto.
Qed.
Lemma absent_index ts name : (forall t, In t (ts_data ts) -> lower (t_name t) <> lower name) -> tag_index ts name = Err AttributeError.
Proof.
  intros H. unfold tag_index, tag_contains. destruct (existsb _ (ts_data ts)) eqn:E; auto.
  apply existsb_exists in E as (t & Ht & Q). apply str_eqb_eq in Q. now apply H in Ht.
Qed.
Lemma set_replaced ts k v t rest : nth_error (ts_data ts) k = Some t ->
  value_replaced ts k v (tags_raw ts ++ rest) (tags_raw (set_value_at k v ts) ++ rest).
Proof.
  intros E. destruct (set_value_lines ts k t v E) as (y & E1 & E2). exists t, (y ++ rest). split; auto. cbv zeta. unfold text_lines.
  unfold set_value_at. rewrite E1, E2. unfold tag_text. cbn [with_value t_prefix t_name t_separator t_value t_suffix]. rewrite <- !app_assoc. auto.
Qed.

(** Reading and setting one tag. *)
Theorem get_tag_value name lines w l w' ts k t : read_tags expand lines w = (l, w', Ok ts) -> designates ts name k t -> lower (t_name t) = lower name ->
  get_tag expand name lines w = (l, w', Ok (Some (t_value t))).
Proof.
  intros R D L. apply read_opens in R as (rest & O & ->). unfold get_tag. rewrite (view_opens _ _ _ _ _ _ _ _ O).
  rewrite (designates_index _ _ _ _ D L). unfold value_at. destruct D as (-> & _). reflexivity.
Qed.
Theorem get_tag_absent name lines w l w' ts : read_tags expand lines w = (l, w', Ok ts) -> (forall t, In t (ts_data ts) -> lower (t_name t) <> lower name) ->
  get_tag expand name lines w = (l, w', Ok None) /\ forall v, set_tag expand name v lines w = (l, w', Err AttributeError).
Proof.
  intros R D. apply read_opens in R as (rest & O & ->). unfold get_tag, set_tag. rewrite (view_opens _ _ _ _ _ _ _ _ O), (absent_index _ _ D).
  split; auto. intros v. rewrite (view_opens _ _ _ _ _ _ _ _ O), (absent_index _ _ D). reflexivity.
Qed.
Theorem set_tag_value name v lines w w' ts k t : read_tags expand lines w = (lines, w', Ok ts) -> designates ts name k t -> lower (t_name t) = lower name ->
  exists lines', set_tag expand name v lines w = (lines', w', Ok tt) /\ value_replaced ts k v lines lines'.
Proof.
  intros R D L. apply read_opens in R as (rest & O & El). unfold set_tag. rewrite (view_opens _ _ _ _ _ _ _ _ O).
  rewrite (designates_index _ _ _ _ D L). eexists. split; [reflexivity|]. rewrite El at 1. destruct D as (Hk & _). eapply set_replaced; eauto.
Qed.
(** When the tags cannot be read, they cannot be set, and the error is the same. *)
Theorem unreadable_tags name v lines w l w' e : read_tags expand lines w = (l, w', Err e) ->
  get_tag expand name lines w = (l, w', Err e) /\ set_tag expand name v lines w = (l, w', Err e).
Proof.
  unfold read_tags. intros E. destruct (view_cases expand lines w) as [(ts' & w1 & rest & O)|(x & w1 & e1 & V)].
  - rewrite (view_opens _ _ _ _ _ _ _ _ O) in E. discriminate.
  - rewrite V in E. injection E as <- <- <-. unfold get_tag, set_tag. now rewrite !V.
Qed.

(** Version and release at once. *)
Lemma different_index ts k t j u : designates ts (lit "version") k t -> designates ts (lit "release") j u -> k <> j.
Proof. intros (Hk & Nt & _) (Hj & Nu & _) ->. rewrite Hk in Hj. injection Hj as ->. unfold named in *. rewrite Nt in Nu. vm_compute in Nu. discriminate. Qed.
Lemma index_set ts k v name : tag_index (set_value_at k v ts) name = tag_index ts name.
Proof.
  unfold tag_index, tag_contains, tag_find, set_value_at. cbn [ts_data].
  assert (E : existsb (fun t => str_eqb (lower (t_name t)) (lower name)) (update_at k (with_value v) (ts_data ts)) = existsb (fun t => str_eqb (lower (t_name t)) (lower name)) (ts_data ts)).
  { generalize (ts_data ts) k. induction l as [|t l IH]; intros [|i]; cbn; auto. now rewrite IH. }
  rewrite E. assert (F : forall l i k fm, M_tags.find_from i name fm (update_at k (with_value v) l) = M_tags.find_from i name fm l).
  { induction l as [|t l IH]; intros i [|k'] fm; cbn [update_at M_tags.find_from]; auto; cbn [with_value t_name t_valid]. now rewrite !IH. }
  now rewrite F.
Qed.
Theorem set_both version release lines w w' ts k t j u : read_tags expand lines w = (lines, w', Ok ts) ->
  designates ts (lit "version") k t -> lower (t_name t) = lit "version" -> designates ts (lit "release") j u -> lower (t_name u) = lit "release" ->
  exists middle lines', set_version_and_release expand version release lines w = (lines', w', Ok tt) /\
    value_replaced ts k version lines middle /\ value_replaced (set_value_at k version ts) j (get_updated_release (t_value u) release) middle lines'.
Proof.
  intros R Dv Lv Dr Lr. pose proof (different_index _ _ _ _ _ Dv Dr) as Ne. apply read_opens in R as (rest & O & El). unfold set_version_and_release. rewrite (view_opens _ _ _ _ _ _ _ _ O).
  rewrite (designates_index _ _ _ _ Dv) by (rewrite Lv; reflexivity). cbv zeta. rewrite index_set, (designates_index _ _ _ _ Dr) by (rewrite Lr; reflexivity).
  destruct Dv as (Hk & _), Dr as (Hj & _).
  assert (Hj' : nth_error (ts_data (set_value_at k version ts)) j = Some u). { unfold set_value_at. cbn [ts_data]. rewrite update_nth_other; auto. }
  unfold value_at. rewrite Hj'. do 2 eexists. split; [reflexivity|]. split.
  - rewrite El at 1. eapply set_replaced; eauto.
  - eapply set_replaced; eauto.
Qed.
Theorem set_both_without_release version release lines w w' ts k t : read_tags expand lines w = (lines, w', Ok ts) ->
  designates ts (lit "version") k t -> lower (t_name t) = lit "version" -> (forall u, In u (ts_data ts) -> lower (t_name u) <> lit "release") ->
  exists lines', set_version_and_release expand version release lines w = (lines', w', Err AttributeError) /\ value_replaced ts k version lines lines'.
Proof.
  intros R Dv Lv Nr. apply read_opens in R as (rest & O & El). unfold set_version_and_release. rewrite (view_opens _ _ _ _ _ _ _ _ O).
  rewrite (designates_index _ _ _ _ Dv) by (rewrite Lv; reflexivity). cbv zeta. rewrite index_set, (absent_index ts (lit "release")) by exact Nr.
  destruct Dv as (Hk & _). eexists. split; [reflexivity|]. rewrite El at 1. eapply set_replaced; eauto.
Qed.
End Uni.

(** The rest is for an expansion without state. *)
Section Pure.
Context {U : Unicode} (expand : list str -> bool -> unit -> str -> result str * unit).
Lemma unit_eq (w : unit) : w = tt. Proof. now destruct w. Qed.
Theorem set_release_value v lines ts k t : read_tags expand lines tt = (lines, tt, Ok ts) -> designates ts (lit "release") k t -> lower (t_name t) = lit "release" ->
  exists lines', set_release expand v lines tt = (lines', tt, Ok tt) /\ value_replaced ts k (get_updated_release (t_value t) v) lines lines'.
Proof.
  intros R D L. assert (L' : lower (t_name t) = lower (lit "release")) by (rewrite L; reflexivity).
  unfold set_release, andthen. rewrite (get_tag_value _ _ _ _ _ _ _ _ _ R D L'). now apply (set_tag_value expand _ _ _ _ _ _ _ _ R D).
Qed.
Theorem get_release_value lines ts k t : read_tags expand lines tt = (lines, tt, Ok ts) -> designates ts (lit "release") k t -> lower (t_name t) = lit "release" ->
  get_release expand lines tt = (lines, tt, Ok (release_of (t_value t))).
Proof.
  intros R D L. assert (L' : lower (t_name t) = lower (lit "release")) by (rewrite L; reflexivity).
  unfold get_release, andthen. now rewrite (get_tag_value _ _ _ _ _ _ _ _ _ R D L').
Qed.

(** [bump_release] *)
Lemma release_macro_iff d : release_macro d = true <-> release_name d.
Proof.
  unfold release_macro, release_name. rewrite str_in_iff. cbn [In]. split.
  - intros [Q|[Q|[]]]; auto.
  - intros [Q|Q]; auto.
Qed.
Lemma first_index m k d : first_release_macro m k d -> find_index release_macro (md_data m) = Some k.
Proof.
  intros (Hk & Hr & Hf). apply nth_error_split in Hk as (a & b & E & <-). rewrite E. apply find_index_first.
  - intros y Hy. apply In_nth_error in Hy as (j & Hj). destruct (release_macro y) eqn:R; auto. apply release_macro_iff in R. exfalso. apply (Hf j y); auto.
    + apply nth_error_Some. congruence.
    + rewrite E, nth_error_app1; auto. apply nth_error_Some. congruence.
  - now apply release_macro_iff.
Qed.
Theorem bump_auto lines ts k t : read_tags expand lines tt = (lines, tt, Ok ts) -> designates ts (lit "release") k t -> lower (t_name t) = lit "release" ->
  has_autorelease (t_value t) = Ok true -> bump_release expand lines tt = (lines, tt, Ok tt).
Proof.
  intros R D L A. assert (L' : lower (t_name t) = lower (lit "release")) by (rewrite L; reflexivity).
  unfold bump_release, andthen. rewrite (get_tag_value _ _ _ _ _ _ _ _ _ R D L'), A. reflexivity.
Qed.
Lemma macros_opens lines m : read_macros expand lines tt = (lines, tt, Ok m) -> parse_with_conditions (expand lines) tt lines true = (Ok m, tt) /\ get_raw_data m = lines.
Proof.
  unfold read_macros, view_macros. destruct (parse_with_conditions (expand lines) tt lines true) as [[m'|e] w']; [|discriminate].
  intros Q. injection Q as Q1 Q2 Q3. subst m' w'. auto.
Qed.
Theorem bump_macro lines ts k t m j d : read_tags expand lines tt = (lines, tt, Ok ts) -> designates ts (lit "release") k t -> lower (t_name t) = lit "release" ->
  has_autorelease (t_value t) = Ok false -> read_macros expand lines tt = (lines, tt, Ok m) -> first_release_macro m j d ->
  exists lines', bump_release expand lines tt = (lines', tt, Ok tt) /\ body_replaced m j (bump_release_string (d_body d)) lines lines'.
Proof.
  intros R D L A M F. assert (L' : lower (t_name t) = lower (lit "release")) by (rewrite L; reflexivity).
  unfold bump_release, andthen. rewrite (get_tag_value _ _ _ _ _ _ _ _ _ R D L'), A. apply macros_opens in M as [M Er]. unfold view_macros.
  rewrite M, (first_index _ _ _ F). eexists. split; [reflexivity|]. destruct F as (Hj & _).
  destruct (set_body_lines m j d (bump_release_string (d_body d)) Hj) as (y & E1 & E2). exists d, y. split; auto. cbv zeta. split; [congruence|].
  rewrite <- E2. f_equal. f_equal. apply nth_error_split in Hj as (a & b & -> & <-). now rewrite !update_at_app.
Qed.
Theorem bump_tag lines ts k t m : read_tags expand lines tt = (lines, tt, Ok ts) -> designates ts (lit "release") k t -> lower (t_name t) = lit "release" ->
  has_autorelease (t_value t) = Ok false -> read_macros expand lines tt = (lines, tt, Ok m) -> (forall d, In d (md_data m) -> ~ release_name d) ->
  exists lines', bump_release expand lines tt = (lines', tt, Ok tt) /\ value_replaced ts k (bump_release_string (t_value t)) lines lines'.
Proof.
  intros R D L A M F. assert (L' : lower (t_name t) = lower (lit "release")) by (rewrite L; reflexivity).
  unfold bump_release, andthen. rewrite (get_tag_value _ _ _ _ _ _ _ _ _ R D L'), A. apply macros_opens in M as [M Er]. unfold view_macros.
  rewrite M. destruct (find_index release_macro (md_data m)) as [i|] eqn:Ei.
  - exfalso. apply P_value.find_index_Some in Ei as (a & x & b & Hx & _ & Rx & _). apply release_macro_iff in Rx. apply (F x); auto. rewrite Hx. apply in_elt.
  - rewrite Er, (get_tag_value _ _ _ _ _ _ _ _ _ R D L'). now apply (set_tag_value expand _ _ _ _ _ _ _ _ R D).
Qed.
End Pure.
