(** The inherited methods of sources. *)
From Coq Require Import Ascii String.
From Coq Require Import NArith ZArith List Bool Lia Arith.
From Verif Require Import PyStr PyStrFacts Regex RegexFacts M_constants M_value M_macro_definitions M_conditions M_tags M_sourcelist M_sources M_sources_seq Spec_sections Spec_tags Spec_sources
  P_evr P_value P_tags P_tags4 P_tags5 P_sources P_sources2 P_sources3 P_sources4 P_sources5 P_sources6 P_sources7.
Import ListNotations.
Open Scope N_scope.

Section Uni.
Context {U : Unicode}.
Lemma items_length s : length (locations s) = length (get_items s).
Proof. unfold locations. apply map_length. Qed.
Lemma py_index_items (A : Type) (l : list A) k i : (k < length l)%nat -> (i = Z.of_nat k \/ i = Z.of_nat k - Z.of_nat (length l))%Z -> py_index l i = Some k.
Proof.
  intros L Hi. unfold py_index. cbv zeta. destruct Hi as [->| ->].
  - rewrite (proj2 (Z.leb_le _ _)), (proj2 (Z.ltb_lt _ _)) by lia. cbn [andb]. now rewrite Nat2Z.id.
  - rewrite (proj2 (Z.leb_gt _ _)) by lia. cbn [andb]. rewrite (proj2 (Z.ltb_lt _ _)), (proj2 (Z.leb_le _ _)) by lia. cbn [andb]. f_equal. lia.
Qed.
Lemma pop_result s k i loc : wf s -> (i = Z.of_nat k \/ i = Z.of_nat k - Z.of_nat (length (locations s)))%Z -> nth_error (locations s) k = Some loc ->
  exists s', pop s i = Ok (loc, s') /\ result_of_delete s k s'.
Proof.
  intros W Hi Hk. assert (L : (k < length (get_items s))%nat) by (rewrite <- items_length; apply nth_error_Some; congruence).
  rewrite items_length in Hi. unfold pop, delete_item. rewrite (py_index_items _ _ k i L Hi).
  unfold locations in Hk. rewrite nth_error_map in Hk. destruct (nth_error (get_items s) k) as [x|] eqn:E; [|discriminate]. cbn in Hk. injection Hk as <-.
  destruct (delete_place_spec s k x W E) as (s' & Ed & R). rewrite Ed. cbn [bind]. eauto.
Qed.
Theorem pop_semantics s k i loc : readable s -> (i = Z.of_nat k \/ i = Z.of_nat k - Z.of_nat (length (locations s)))%Z -> nth_error (locations s) k = Some loc ->
  exists s', pop s i = Ok (loc, s') /\ readable s' /\ locations s' = removed k (locations s) /\ keeps_other_tags s s'.
Proof.
  intros W Hi Hk. destruct (pop_result s k i loc W Hi Hk) as (s' & E & R1 & R2 & R3 & R4 & _). exists s'. split; auto. split; auto. split; auto. now apply keeps.
Qed.
Lemma removed_last (A : Type) (l : list A) x : removed (length l) (l ++ [x]) = l.
Proof. rewrite removed_mid. apply app_nil_r. Qed.
Lemma prefix_same s s' : s_patches s' = s_patches s -> s_prefix s' = s_prefix s.
Proof. unfold s_prefix. now intros ->. Qed.
Lemma clear_result : forall n s, wf s -> length (locations s) = n -> exists s', clear (S n) s = Some (Ok s') /\ wf s' /\ s_patches s' = s_patches s /\ locations s' = [] /\
  map key (others (s_prefix s) (ts_data (s_tags s'))) = map key (others (s_prefix s) (ts_data (s_tags s))).
Proof.
  induction n as [|n IH]; intros s W L.
  - exists s. cbn [clear]. unfold pop. rewrite items_length in L. apply length_zero_iff_nil in L. unfold py_index. rewrite L. cbn. repeat split; auto; try apply W. unfold locations. now rewrite L.
  - destruct (exists_last (l := locations s)) as (l & x & E); [intros E; now rewrite E in L|].
    assert (Ll : length l = n) by (rewrite E, app_length in L; cbn in L; lia).
    destruct (pop_result s n (-1)%Z x W) as (s1 & E1 & W1 & P1 & L1 & K1 & _); [right; rewrite L; lia|rewrite E, nth_error_app2 by lia; now rewrite Ll, Nat.sub_diag|].
    rewrite E, <- Ll, removed_last in L1. destruct (IH s1 W1) as (s' & E2 & W2 & P2 & L2 & K2); [now rewrite L1|].
    exists s'. change (clear (S (S n)) s) with (match pop s (-1)%Z with Ok (_, s0) => clear (S n) s0 | Err IndexError => Some (Ok s) | Err e => Some (Err e) end). rewrite E1. split; auto. split; auto.
    split; [congruence|]. split; auto. rewrite (prefix_same _ _ P1) in K2. congruence.
Qed.
Lemma clear_more : forall n m s r, clear n s = Some r -> (n <= m)%nat -> clear m s = Some r.
Proof.
  induction n as [|n IH]; intros m s r; [discriminate|]. destruct m as [|m]; [lia|]. intros E L. cbn [clear] in *. destruct (pop s (-1)%Z) as [[x s']|[]]; auto. apply IH; auto. lia.
Qed.
Theorem clear_semantics s fuel : readable s -> (length (locations s) < fuel)%nat -> exists s', clear fuel s = Some (Ok s') /\ readable s' /\ locations s' = [] /\ keeps_other_tags s s'.
Proof.
  intros W L. destruct (clear_result _ s W eq_refl) as (s' & E & W' & P & L' & K). exists s'. split; [apply clear_more with (n := S (length (locations s))); auto|]. split; auto. split; auto. now apply keeps.
Qed.

Lemma dedup_from_dups : forall l s n0, s_dups (dedup_from s n0 l) = s_dups s.
Proof.
  induction l as [|t l IH]; intros s n0; cbn [dedup_from]; auto. destruct (_ =? _)%Z; auto. destruct (ts_implicit t); auto.
  destruct (tag_format _ _ _ _ _ _) as [nm sp]. now rewrite IH.
Qed.
Lemma insert_tag_dups s i nm loc sp v s' : insert_tag s i nm loc sp v = Ok s' -> s_dups s' = s_dups s.
Proof. unfold insert_tag. destruct (new_tag _ _ _ _); cbn [bind]; [|discriminate]. destruct (tag_insert _ _ _); cbn [bind]; [|discriminate]. now injection 1 as <-. Qed.
Lemma insert_dups s i loc s' : insert s i loc = Ok s' -> s_dups s' = s_dups s.
Proof.
  unfold insert. destruct (negb _ && _); [discriminate|]. cbv zeta. destruct (get_items s) as [|y ys].
  - destruct (rev (s_lists s)); [|now injection 1 as <-]. destruct (initial_setup s 0%Z) as [[? ?] ?]. apply insert_tag_dups.
  - match goal with |- bind ?bb _ = _ -> _ => destruct bb as [[[x plus] number]|]; cbn [bind]; [|discriminate] end. destruct (i_place x) as [j|l j]; [|now injection 1 as <-].
    destruct (nth_error (ts_data _) j); [|discriminate]. destruct (List.find _ _) as [src|]; [|discriminate]. destruct (tag_format _ _ _ _ _ _) as [nm sp].
    destruct (insert_tag _ _ _ _ _ _) as [s1|] eqn:E; cbn [bind]; [|discriminate]. apply insert_tag_dups in E. unfold dedup. destruct (get_tags s1); [now injection 1 as <-; auto|].
    destruct (skipn _ _); [discriminate|]. injection 1 as <-. now rewrite dedup_from_dups.
Qed.
Lemma append_result s loc : wf s -> s_dups s = true \/ ~ In loc (locations s) -> exists s', append s loc = Ok s' /\ wf s' /\ s_patches s' = s_patches s /\ s_dups s' = s_dups s /\
  locations s' = locations s ++ [loc] /\ map key (others (s_prefix s) (ts_data (s_tags s'))) = map key (others (s_prefix s) (ts_data (s_tags s))) /\ (increasing (numbers s) -> increasing (numbers s')).
Proof.
  intros W D. unfold append. destruct (insert_spec s (length (get_items s)) loc W D) as (s' & E & W' & P' & L' & K' & I'). exists s'. split; auto. split; auto. split; auto.
  split; [now apply insert_dups in E|]. split; auto. rewrite L', <- items_length, Nat.min_id. apply inserted_end.
Qed.
Lemma extend_result : forall locs rest s, wf s -> s_dups s = true \/ (NoDup locs /\ forall x, In x locs -> ~ In x (locations s)) ->
  exists s', extend s (locs ++ rest) = extend s' rest /\ wf s' /\ s_patches s' = s_patches s /\ s_dups s' = s_dups s /\ locations s' = locations s ++ locs /\
    map key (others (s_prefix s) (ts_data (s_tags s'))) = map key (others (s_prefix s) (ts_data (s_tags s))) /\ (increasing (numbers s) -> increasing (numbers s')).
Proof.
  induction locs as [|loc locs IH]; intros rest s W D.
  - exists s. rewrite app_nil_r. repeat split; auto; apply W.
  - destruct (append_result s loc W) as (s1 & E1 & W1 & P1 & D1 & L1 & K1 & I1); [destruct D as [D|[_ D]]; [now left|right; apply D; now left]|].
    cbn [app extend]. rewrite E1. destruct (IH rest s1 W1) as (s' & E2 & W2 & P2 & D2 & L2 & K2 & I2).
    { rewrite D1. destruct D as [D|[Nd D]]; [now left|right]. inversion Nd as [|? ? Hn Nd']; subst. split; auto. intros x Hx. rewrite L1. intros Q. apply in_app_or in Q as [Q|[<-|[]]]; [|contradiction]. apply (D x); auto. now right. }
    exists s'. split; auto. split; auto. split; [congruence|]. split; [congruence|]. split; [rewrite L2, L1, <- app_assoc; reflexivity|]. split; [|auto]. rewrite (prefix_same _ _ P1) in K2. congruence.
Qed.
Theorem extend_semantics s locs : readable s -> s_dups s = true \/ (NoDup locs /\ forall x, In x locs -> ~ In x (locations s)) ->
  exists s', extend s locs = (s', Ok tt) /\ readable s' /\ locations s' = locations s ++ locs /\ keeps_other_tags s s' /\ (increasing (numbers s) -> increasing (numbers s')).
Proof.
  intros W D. destruct (extend_result locs [] s W D) as (s' & E & W' & _ & _ & L & K & I). rewrite app_nil_r in E. exists s'. split; [exact E|]. split; auto. split; auto. split; auto. now apply keeps.
Qed.
Theorem extend_stops s l1 x l2 : readable s -> s_dups s = false -> NoDup l1 -> (forall y, In y l1 -> ~ In y (locations s)) -> In x (locations s ++ l1) ->
  exists s', extend s (l1 ++ x :: l2) = (s', Err DuplicateSourceException) /\ locations s' = locations s ++ l1.
Proof.
  intros W D Nd Hn Hx. destruct (extend_result l1 (x :: l2) s W (or_intror (conj Nd Hn))) as (s' & E & _ & _ & D' & L & _). exists s'. split; auto. rewrite E. cbn [extend].
  unfold append. rewrite insert_duplicate; auto; [congruence|]. now rewrite L.
Qed.
End Uni.

(** * Sources as values *)
Lemma index_text n s : index n (Text s) = Err ValueError.
Proof. unfold index. destruct (List.find _ _) eqn:E; auto. apply find_some in E as [_ E]. discriminate. Qed.
Lemma update_nth (A : Type) (f : A -> A) : forall l i k, nth_error (update_at i f l) k = if Nat.eqb k i then option_map f (nth_error l k) else nth_error l k.
Proof. induction l as [|a l IH]; intros [|i] [|k]; cbn [update_at nth_error Nat.eqb option_map]; auto. destruct (Nat.eqb k i); auto. Qed.
Lemma update_len (A : Type) (f : A -> A) : forall l i, length (update_at i f l) = length l.
Proof. induction l as [|a l IH]; intros [|i]; cbn; auto. Qed.
(** After [m] rounds. *)
Lemma reverse_rounds n vals : length vals = n -> forall m, (2 * m <= n)%nat ->
  let r := fold_left (reverse_step n) (seq 0 m) vals in
  length r = n /\ forall k, nth_error r k = if ((k <? m) || ((n - m <=? k) && (k <? n)))%nat then Some (Object (n - k - 1)) else nth_error vals k.
Proof.
  intros L. induction m as [|m IH]; intros Hm; cbv zeta.
  - split; [exact L|]. intros k. cbn [seq fold_left]. destruct (Nat.ltb_spec k 0); [lia|]. destruct (Nat.leb_spec (n - 0) k), (Nat.ltb_spec k n); cbn [andb orb]; auto. lia.
  - rewrite seq_S, fold_left_app. cbn [fold_left Nat.add]. destruct IH as [IL IH]; [lia|]. set (r := fold_left (reverse_step n) (seq 0 m) vals) in *. unfold reverse_step at 1 2. split; [now rewrite !update_len|].
    intros k. rewrite !update_nth, IH. assert (V : (k < n)%nat -> exists v, nth_error vals k = Some v) by (intros Hk; destruct (nth_error vals k) eqn:E; [eauto|apply nth_error_None in E; lia]).
    destruct (Nat.eqb_spec k (n - m - 1)) as [E1|E1]; destruct (Nat.eqb_spec k m) as [E2|E2];
      destruct (Nat.ltb_spec k m); destruct (Nat.ltb_spec k (S m)); destruct (Nat.leb_spec (n - m) k); destruct (Nat.leb_spec (n - S m) k); destruct (Nat.ltb_spec k n); cbn [andb orb]; try lia;
      try (destruct V as [v ->]; [lia|]); cbn [option_map]; try reflexivity; do 2 f_equal; lia.
Qed.
Lemma div2_le n : (2 * Nat.div2 n <= n)%nat.
Proof. pose proof (Nat.div2_odd n). lia. Qed.
Lemma div2_ge n : (n <= 2 * Nat.div2 n + 1)%nat.
Proof. pose proof (Nat.div2_odd n). destruct (Nat.odd n); cbn in *; lia. Qed.
Lemma reverse_nth vals k : (k < length vals)%nat -> nth_error (reverse vals) k = if Nat.eqb (2 * k + 1) (length vals) then nth_error vals k else Some (Object (length vals - k - 1)).
Proof.
  intros L. unfold reverse. destruct (reverse_rounds (length vals) vals eq_refl _ (div2_le _)) as [_ R]. rewrite R. pose proof (div2_le (length vals)). pose proof (div2_ge (length vals)).
  destruct (Nat.eqb_spec (2 * k + 1) (length vals)); destruct (Nat.ltb_spec k (Nat.div2 (length vals))); destruct (Nat.leb_spec (length vals - Nat.div2 (length vals)) k); destruct (Nat.ltb_spec k (length vals)); cbn [andb orb]; auto; lia.
Qed.
Theorem reverse_never around vals : forall depth k, (k < length vals)%nat -> (2 * k + 1 <> length vals)%nat -> written_value around (reverse vals) depth k = None.
Proof.
  induction depth as [|d IH]; intros k L N; auto. cbn [written_value]. rewrite reverse_nth by auto. rewrite (proj2 (Nat.eqb_neq _ _) N). rewrite IH; auto; lia.
Qed.
Theorem reverse_written around locs k depth : (k < length locs)%nat -> (2 * k + 1 <> length locs)%nat ->
  written_value around (map Text locs) (S depth) k = nth_error locs k /\ written_value around (reverse (map Text locs)) depth k = None.
Proof.
  intros L N. split; [|apply reverse_never; now rewrite map_length]. cbn [written_value]. rewrite nth_error_map. destruct (nth_error locs k); reflexivity.
Qed.
