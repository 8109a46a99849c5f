(** Proofs about slices: deleting from tags, macro definitions, macros of %prep, changelogs and sources. *)
From Coq Require Import NArith ZArith List Bool Lia Sorted.
From Verif Require Import PyStr PyStrFacts M_options M_changelog M_macro_definitions M_prep M_tags M_sources M_slice.
From Verif Require Spec_tags Spec_macro_definitions Spec_prep P_tags4 P_macro_definitions2 P_prep3 P_changelog Spec_sources P_sources2 P_sources6 P_sources7.
From Verif Require Import Spec_slice P_slice P_slice2.
Import ListNotations.
Open Scope nat_scope.

Lemma py_index_nat {A} : forall (l : list A) i, py_index l (Z.of_nat i) = if i <? length l then Some i else None.
Proof.
  intros l i. destruct (Nat.ltb_spec i (length l)) as [H|H]; [apply py_index_nonneg; exact H|]. unfold py_index.
  destruct (Z.leb_spec 0 (Z.of_nat i)); [|lia]. destruct (Z.ltb_spec (Z.of_nat i) (Z.of_nat (length l))); [lia|]. destruct (Z.ltb_spec (Z.of_nat i) 0); [lia|]. reflexivity.
Qed.
Lemma map_update {A B} : forall (f : A -> B) g l j, (forall x, f (g x) = f x) -> map f (update_at j g l) = map f l.
Proof. intros f g. induction l as [|x l IH]; intros [|j] H; cbn; try reflexivity; [rewrite H; reflexivity|rewrite IH by exact H; reflexivity]. Qed.
Lemma map_remove {A B} : forall (f : A -> B) l i, map f (remove_at i l) = remove_at i (map f l).
Proof. intros f. induction l as [|x l IH]; intros [|i]; cbn; try reflexivity. rewrite IH. reflexivity. Qed.
Lemma remove_at_length {A} : forall (l : list A) i, i < length l -> length (remove_at i l) = length l - 1.
Proof. intros l i H. destruct (remove_at_split l i H) as [a [x [b [-> [<- ->]]]]]. rewrite !app_length. cbn. lia. Qed.
Lemma descending : forall is, StronglySorted gt is -> Spec_macro_definitions.decreasing is.
Proof. induction is as [|i is IH]; intros St; cbn; [exact I|]. inversion St as [|? ? S1 S2]; subst. split; [exact S2|apply IH; exact S1]. Qed.
Lemma descending_falling : forall is, StronglySorted gt is -> Spec_prep.falling is.
Proof. induction is as [|i is IH]; intros St; cbn; [exact I|]. inversion St as [|? ? S1 S2]; subst. split; [exact S2|apply IH; exact S1]. Qed.

(** ** Tags *)
Definition tag_view (ts : tags) : list tag := map (M_tags.with_preceding []) (ts_data ts).
Lemma tags_in : forall ts i, i < length (tag_view ts) -> exists ts', delete_at (Z.of_nat i) ts = Ok ts' /\ tag_view ts' = remove_at i (tag_view ts).
Proof.
  intros ts i H. unfold tag_view in *. rewrite map_length in H. unfold delete_at. rewrite py_index_nat, (proj2 (Nat.ltb_lt _ _) H).
  destruct (nth_error (ts_data ts) i) as [t|] eqn:E; [|apply nth_error_None in E; lia]. destruct (Z.ltb_spec (Z.of_nat i) (Z.of_nat (length (remove_at i (ts_data ts))))) as [L|L].
  - rewrite py_index_nat, (proj2 (Nat.ltb_lt _ _)) by lia. eexists. split; [reflexivity|]. cbn [ts_data]. rewrite map_update by reflexivity. apply map_remove.
  - eexists. split; [reflexivity|]. cbn [ts_data]. apply map_remove.
Qed.
Lemma tags_out : forall ts i, length (tag_view ts) <= i -> delete_at (Z.of_nat i) ts = Err IndexError.
Proof. intros ts i H. unfold tag_view in H. rewrite map_length in H. unfold delete_at. rewrite py_index_nat. destruct (Nat.ltb_spec i (length (ts_data ts))); [lia|reflexivity]. Qed.
Lemma del_tags_loop : forall s ts, del_tags s ts = del_slice tags tag (fun ts i => delete_at (Z.of_nat i) ts) tag_view s ts.
Proof.
  intros s ts. unfold del_tags, del_slice. unfold tag_view. rewrite map_length. destruct (slice_range s _) as [is|]; cbn [bind]; [|reflexivity].
  generalize (rev is). intros l. revert ts. induction l as [|i l IH]; intros ts; cbn [M_tags.delete_all loop]; [reflexivity|]. destruct (delete_at _ ts); cbn [bind]; [apply IH|reflexivity].
Qed.
Theorem del_tags_pos : forall s ts, (0 < step_of s)%Z -> let n := length (ts_data ts) in exists ts', del_tags s ts = Ok ts' /\
  map (M_tags.with_preceding []) (ts_data ts') = keeping (fun p => negb (picks s n p)) 0 (map (M_tags.with_preceding []) (ts_data ts)) /\
  Spec_tags.nonempty_lines (tags_raw ts') = Spec_tags.nonempty_lines (Spec_tags.lines_keeping (fun p => negb (picks s n p)) 0 (ts_data ts) ++ ts_remainder ts).
Proof.
  intros s ts H n. destruct (del_slice_pos tags tag _ tag_view tags_in s ts H) as [ts' [E V]]. rewrite <- del_tags_loop in E.
  exists ts'. split; [exact E|]. unfold tag_view in V. rewrite map_length in V. split; [exact V|].
  unfold del_tags in E. fold n in E. destruct (slice_range_pos s n H) as [is [Ei [St P]]]. rewrite Ei in E. cbn [bind] in E.
  destruct (P_tags4.delete_all_lines (rev is) ts (descending _ (sorted_rev_lt is St))) as [ts2 [E2 [L2 _]]].
  { apply Forall_rev. apply Forall_forall. intros p Hp. apply P in Hp. apply picks_lt in Hp. exact Hp. }
  rewrite E in E2. injection E2 as <-. rewrite L2. f_equal. f_equal. apply P_tags4.keeping_ext. intros p _. f_equal. apply (existsb_picks s n). intros q. rewrite <- in_rev. apply P.
Qed.
(** ** Macro definitions *)
Definition def_view (m : mdefs) : list mdef := map (M_macro_definitions.with_preceding []) (md_data m).
Lemma defs_in : forall m i, i < length (def_view m) -> exists m', M_macro_definitions.delete m (Z.of_nat i) = Ok m' /\ def_view m' = remove_at i (def_view m).
Proof.
  intros m i H. unfold def_view in *. rewrite map_length in H. unfold M_macro_definitions.delete. rewrite py_index_nat, (proj2 (Nat.ltb_lt _ _) H).
  destruct (nth_error (md_data m) i) as [t|] eqn:E; [|apply nth_error_None in E; lia]. destruct (Z.ltb_spec (Z.of_nat i) (Z.of_nat (length (remove_at i (md_data m))))) as [L|L].
  - rewrite py_index_nat, (proj2 (Nat.ltb_lt _ _)) by lia. eexists. split; [reflexivity|]. cbn [md_data]. rewrite map_update by reflexivity. apply map_remove.
  - eexists. split; [reflexivity|]. cbn [md_data]. apply map_remove.
Qed.
Lemma defs_out : forall m i, length (def_view m) <= i -> M_macro_definitions.delete m (Z.of_nat i) = Err IndexError.
Proof. intros m i H. unfold def_view in H. rewrite map_length in H. unfold M_macro_definitions.delete. rewrite py_index_nat. destruct (Nat.ltb_spec i (length (md_data m))); [lia|reflexivity]. Qed.
Lemma del_mdefs_loop : forall s m, del_mdefs s m = del_slice mdefs mdef (fun m i => M_macro_definitions.delete m (Z.of_nat i)) def_view s m.
Proof.
  intros s m. unfold del_mdefs, del_slice. unfold def_view. rewrite map_length. destruct (slice_range s _) as [is|]; cbn [bind]; [|reflexivity].
  generalize (rev is). intros l. revert m. induction l as [|i l IH]; intros m; cbn [M_macro_definitions.delete_all loop]; [reflexivity|]. destruct (M_macro_definitions.delete m _); cbn [bind]; [apply IH|reflexivity].
Qed.
Theorem del_mdefs_pos : forall s m, (0 < step_of s)%Z -> let n := length (md_data m) in exists m', del_mdefs s m = Ok m' /\
  map (M_macro_definitions.with_preceding []) (md_data m') = keeping (fun p => negb (picks s n p)) 0 (map (M_macro_definitions.with_preceding []) (md_data m)) /\
  M_macro_definitions.get_raw_data m' = Spec_macro_definitions.lines_keeping (fun p => negb (picks s n p)) 0 (md_data m) ++ md_remainder m.
Proof.
  intros s m H n. destruct (del_slice_pos mdefs mdef _ def_view defs_in s m H) as [m' [E V]]. rewrite <- del_mdefs_loop in E.
  exists m'. split; [exact E|]. unfold def_view in V. rewrite map_length in V. split; [exact V|].
  unfold del_mdefs in E. fold n in E. destruct (slice_range_pos s n H) as [is [Ei [St P]]]. rewrite Ei in E. cbn [bind] in E.
  destruct (P_macro_definitions2.delete_all_lines (rev is) m (descending _ (sorted_rev_lt is St))) as [m2 [E2 [L2 _]]].
  { apply Forall_rev. apply Forall_forall. intros p Hp. apply P in Hp. apply picks_lt in Hp. exact Hp. }
  rewrite E in E2. injection E2 as <-. rewrite L2. f_equal. apply P_macro_definitions2.keeping_ext. intros p _. f_equal. apply (existsb_picks s n). intros q. rewrite <- in_rev. apply P.
Qed.
(** ** Macros of %prep *)
Definition macro_view (p : prep) : list macro := map (M_prep.with_preceding []) (p_macros p).
Lemma macros_in : forall m i, i < length (macro_view m) -> exists m', M_prep.delete m (Z.of_nat i) = Ok m' /\ macro_view m' = remove_at i (macro_view m).
Proof.
  intros m i H. unfold macro_view in *. rewrite map_length in H. unfold M_prep.delete. rewrite py_index_nat, (proj2 (Nat.ltb_lt _ _) H).
  destruct (nth_error (p_macros m) i) as [t|] eqn:E; [|apply nth_error_None in E; lia]. destruct (Z.ltb_spec (Z.of_nat i) (Z.of_nat (length (remove_at i (p_macros m))))) as [L|L].
  - rewrite py_index_nat, (proj2 (Nat.ltb_lt _ _)) by lia. eexists. split; [reflexivity|]. cbn [p_macros]. rewrite map_update by reflexivity. apply map_remove.
  - eexists. split; [reflexivity|]. cbn [p_macros]. apply map_remove.
Qed.
Lemma macros_out : forall m i, length (macro_view m) <= i -> M_prep.delete m (Z.of_nat i) = Err IndexError.
Proof. intros m i H. unfold macro_view in H. rewrite map_length in H. unfold M_prep.delete. rewrite py_index_nat. destruct (Nat.ltb_spec i (length (p_macros m))); [lia|reflexivity]. Qed.
Lemma del_prep_loop : forall s m, del_prep s m = del_slice prep macro (fun m i => M_prep.delete m (Z.of_nat i)) macro_view s m.
Proof.
  intros s m. unfold del_prep, del_slice. unfold macro_view. rewrite map_length. destruct (slice_range s _) as [is|]; cbn [bind]; [|reflexivity].
  generalize (rev is). intros l. revert m. induction l as [|i l IH]; intros m; cbn [M_prep.delete_all loop]; [reflexivity|]. destruct (M_prep.delete m _); cbn [bind]; [apply IH|reflexivity].
Qed.
Lemma lines_without_ext : forall g1 g2 l k, (forall p, existsb (Nat.eqb p) g1 = existsb (Nat.eqb p) g2) -> Spec_prep.lines_without g1 k l = Spec_prep.lines_without g2 k l.
Proof. intros g1 g2. induction l as [|m l IH]; intros k H; cbn; [reflexivity|]. rewrite H, (IH (S k) H). reflexivity. Qed.
Theorem del_prep_pos : forall s m, (0 < step_of s)%Z -> let n := length (p_macros m) in exists m', del_prep s m = Ok m' /\
  map (M_prep.with_preceding []) (p_macros m') = keeping (fun p => negb (picks s n p)) 0 (map (M_prep.with_preceding []) (p_macros m)) /\
  prep_raw m' = Spec_prep.lines_without (List.filter (picks s n) (seq 0 n)) 0 (p_macros m) ++ p_remainder m.
Proof.
  intros s m H n. destruct (del_slice_pos prep macro _ macro_view macros_in s m H) as [m' [E V]]. rewrite <- del_prep_loop in E.
  exists m'. split; [exact E|]. unfold macro_view in V. rewrite map_length in V. split; [exact V|].
  unfold del_prep in E. fold n in E. destruct (slice_range_pos s n H) as [is [Ei [St P]]]. rewrite Ei in E. cbn [bind] in E.
  destruct (P_prep3.delete_slice (rev is) m (descending_falling _ (sorted_rev_lt is St))) as [m2 [E2 [L2 _]]].
  { apply Forall_rev. apply Forall_forall. intros p Hp. apply P in Hp. apply picks_lt in Hp. exact Hp. }
  rewrite E in E2. injection E2 as <-. rewrite L2. f_equal. apply lines_without_ext. intros p.
  rewrite (existsb_picks s n (rev is)) by (intros q; rewrite <- in_rev; apply P). symmetry. apply existsb_picks. intros q. rewrite filter_In, in_seq.
  split; [tauto|]. intros Hq. split; [|exact Hq]. apply picks_lt in Hq. lia.
Qed.
(** ** Changelogs *)
Definition entry_view (c : changelog) : list (str * list str) := map (fun e => (header e, content e)) (entries c).
Lemma entries_in : forall c i, i < length (entry_view c) -> exists c', M_changelog.delete c (Z.of_nat i) = Ok c' /\ entry_view c' = remove_at i (entry_view c).
Proof.
  intros m i H. unfold entry_view in *. rewrite map_length in H. unfold M_changelog.delete. rewrite py_index_nat, (proj2 (Nat.ltb_lt _ _) H).
  destruct (nth_error (entries m) i) as [t|] eqn:E; [|apply nth_error_None in E; lia]. destruct (Z.ltb_spec (Z.of_nat i) (Z.of_nat (length (remove_at i (entries m))))) as [L|L].
  - rewrite py_index_nat, (proj2 (Nat.ltb_lt _ _)) by lia. eexists. split; [reflexivity|]. cbn [entries]. rewrite map_update by reflexivity. apply map_remove.
  - eexists. split; [reflexivity|]. cbn [entries]. apply map_remove.
Qed.
Lemma entries_out : forall c i, length (entry_view c) <= i -> M_changelog.delete c (Z.of_nat i) = Err IndexError.
Proof. intros m i H. unfold entry_view in H. rewrite map_length in H. unfold M_changelog.delete. rewrite py_index_nat. destruct (Nat.ltb_spec i (length (entries m))); [lia|reflexivity]. Qed.
Lemma del_changelog_loop : forall s c, del_changelog s c = del_slice changelog _ (fun c i => M_changelog.delete c (Z.of_nat i)) entry_view s c.
Proof.
  intros s m. unfold del_changelog, del_slice. unfold entry_view. rewrite map_length. destruct (slice_range s _) as [is|]; cbn [bind]; [|reflexivity].
  generalize (rev is). intros l. revert m. induction l as [|i l IH]; intros m; cbn [delete_entries loop]; [reflexivity|]. destruct (M_changelog.delete m _); cbn [bind]; [apply IH|reflexivity].
Qed.
Lemma log_lines_ext : forall f g l i, (forall p, i <= p < i + length l -> f p = g p) -> log_lines f i l = log_lines g i l.
Proof. intros f g. induction l as [|e l IH]; intros i H; cbn; [reflexivity|]. rewrite (H i) by (cbn; lia). f_equal. apply IH. intros p Hp. apply H. cbn. lia. Qed.
Lemma log_lines_app : forall f a b i, log_lines f i (a ++ b) = log_lines f (i + length a) b ++ log_lines f i a.
Proof.
  intros f. induction a as [|e a IH]; intros b i; cbn; [rewrite Nat.add_0_r, app_nil_r; reflexivity|]. rewrite IH, <- app_assoc. do 2 f_equal. lia.
Qed.
Lemma log_lines_none : forall f l i, (forall p, i <= p < i + length l -> f p = false) -> log_lines f i l = flat_map entry_lines (rev l).
Proof.
  intros f. induction l as [|e l IH]; intros i H; cbn; [reflexivity|]. rewrite (H i) by (cbn; lia). rewrite IH by (intros p Hp; apply H; cbn; lia).
  rewrite flat_map_app. cbn [flat_map]. rewrite app_nil_r. reflexivity.
Qed.
Lemma delete_entries_lines : forall is c, StronglySorted gt is -> Forall (fun i => i < length (entries c)) is ->
  exists c', delete_entries c is = Ok c' /\ get_raw_section_data c' = predecessor c ++ log_lines (fun p => existsb (Nat.eqb p) is) 0 (entries c).
Proof.
  induction is as [|i is IH]; intros c St F; cbn [delete_entries].
  - exists c. split; [reflexivity|]. rewrite log_lines_none by reflexivity. reflexivity.
  - inversion St as [|? ? S1 S2]; subst. inversion F as [|? ? Fi F2]; subst.
    destruct (remove_at_split (entries c) i Fi) as [a [e [b [Ev [La R]]]]].
    assert (D : exists b' p', M_changelog.delete c (Z.of_nat i) = Ok (mk_changelog (a ++ b') p') /\
       p' ++ flat_map entry_lines (rev b') = predecessor c ++ flat_map entry_lines (rev b) ++ tl (following e)).
    { unfold M_changelog.delete. rewrite py_index_nat, (proj2 (Nat.ltb_lt _ _) Fi). assert (En : nth_error (entries c) i = Some e) by (rewrite Ev, <- La; apply nth_error_mid). rewrite En, R. destruct b as [|x b].
      - rewrite app_nil_r. destruct (Z.ltb_spec (Z.of_nat i) (Z.of_nat (length a))); [lia|]. exists [], (predecessor c ++ tl (following e)). rewrite app_nil_r. split; [reflexivity|]. cbn. rewrite app_nil_r. reflexivity.
      - destruct (Z.ltb_spec (Z.of_nat i) (Z.of_nat (length (a ++ x :: b)))) as [L|L]; [|rewrite app_length in L; cbn in L; lia].
        rewrite py_index_nat, (proj2 (Nat.ltb_lt _ _)) by lia. rewrite <- La, update_at_app. eexists (_ :: b), (predecessor c). split; [reflexivity|].
        cbn [rev]. rewrite !flat_map_app. cbn [flat_map]. unfold entry_lines at 2 4. cbn [header content following]. repeat (rewrite ?app_nil_r, <- ?app_assoc; cbn [app]). reflexivity. }
    destruct D as [b' [p' [D L]]]. rewrite D. cbn [bind].
    assert (F3 : Forall (fun j => j < length a) is) by (eapply Forall_impl; [|exact S2]; cbn; lia).
    destruct (IH (mk_changelog (a ++ b') p') S1) as [c' [E' L']]; [eapply Forall_impl; [|exact F3]; cbn; intros j Hj; rewrite app_length; lia|].
    exists c'. split; [exact E'|]. rewrite L'. cbn [entries predecessor]. rewrite Ev, !log_lines_app. cbn [log_lines Nat.add existsb]. rewrite La, Nat.eqb_refl. cbn [orb].
    rewrite (log_lines_none (fun p => existsb (Nat.eqb p) is) b' i).
    + rewrite (log_lines_none _ b (S i)).
      * rewrite app_assoc, L. rewrite <- !app_assoc. do 3 f_equal. apply log_lines_ext. intros p Hp. rewrite (proj2 (Nat.eqb_neq p i)) by lia. reflexivity.
      * intros p Hp. rewrite (proj2 (Nat.eqb_neq p i)) by lia. apply not_in_false. intros X. rewrite Forall_forall in F3. specialize (F3 p X). lia.
    + intros p Hp. apply not_in_false. intros X. rewrite Forall_forall in F3. specialize (F3 p X). lia.
Qed.
Theorem del_changelog_pos : forall s c, (0 < step_of s)%Z -> let n := length (entries c) in exists c', del_changelog s c = Ok c' /\
  map (fun e => (header e, content e)) (entries c') = keeping (fun p => negb (picks s n p)) 0 (map (fun e => (header e, content e)) (entries c)) /\
  get_raw_section_data c' = predecessor c ++ log_lines (picks s n) 0 (entries c).
Proof.
  intros s c H n. destruct (del_slice_pos changelog _ _ entry_view entries_in s c H) as [c' [E V]]. rewrite <- del_changelog_loop in E.
  exists c'. split; [exact E|]. unfold entry_view in V. rewrite map_length in V. split; [exact V|].
  unfold del_changelog in E. fold n in E. destruct (slice_range_pos s n H) as [is [Ei [St P]]]. rewrite Ei in E. cbn [bind] in E.
  destruct (delete_entries_lines (rev is) c (sorted_rev_lt is St)) as [c2 [E2 L2]].
  { apply Forall_rev. apply Forall_forall. intros p Hp. apply P in Hp. apply picks_lt in Hp. exact Hp. }
  rewrite E in E2. injection E2 as <-. rewrite L2. f_equal. apply log_lines_ext. intros p _. apply (existsb_picks s n). intros q. rewrite <- in_rev. apply P.
Qed.
(** ** Sources *)
Section Uni.
Context {U : Unicode}.
Lemma without_keeping {A} : forall f (l : list A) k, Spec_sources.without (map f (seq k (length l))) l = keeping (fun p => negb (f p)) k l.
Proof. intros f. induction l as [|x l IH]; intros k; cbn; [reflexivity|]. rewrite IH. destruct (f k); reflexivity. Qed.
Theorem del_sources_pos : forall s x, (0 < step_of s)%Z -> Spec_sources.readable x -> let n := length (locations x) in exists x', del_sources s x = Ok x' /\
  locations x' = keeping (fun p => negb (picks s n p)) 0 (locations x) /\ Spec_sources.keeps_other_tags x x' /\ (Spec_sources.increasing (numbers x) -> Spec_sources.increasing (numbers x')).
Proof.
  intros s x H R n. unfold del_sources. rewrite P_sources2.items_length. fold n. destruct (slice_range_pos s n H) as [is [E [St P]]]. rewrite E. cbn [bind].
  destruct (P_sources7.delete_slice_semantics x is R St) as [x' [E' [L [K I]]]].
  { apply Forall_forall. intros p Hp. apply P in Hp. apply picks_lt in Hp. exact Hp. }
  exists x'. split; [exact E'|]. split; [|split; assumption]. rewrite L, without_keeping. apply keeping_ext. intros p _. f_equal. apply (existsb_picks s n). exact P.
Qed.
Lemma set_location_same x i v x' : Spec_sources.readable x -> set_location x i v = Ok x' -> Spec_sources.readable x' /\ Spec_sources.source_word x' = Spec_sources.source_word x.
Proof.
  intros [R1 R2] E. unfold set_location in E. destruct (py_index _ i) as [k|]; [|discriminate]. destruct (nth_error _ k) as [y|]; [|discriminate]. injection E as <-. split.
  - split; [exact R1|]. destruct (i_place y) as [j|j i0]; [|exact R2]. cbn [with_tags s_tags ts_data]. rewrite map_update by reflexivity. exact R2.
  - destruct (i_place y); reflexivity.
Qed.
Lemma nth_update {A} : forall (l : list A) i v p, i < length l -> nth_error (update_at i (fun _ => v) l) p = if Nat.eqb i p then Some v else nth_error l p.
Proof. induction l as [|x l IH]; intros [|i] v [|p] H; cbn in *; try lia; try reflexivity. apply IH. lia. Qed.
Lemma length_update {A} : forall (l : list A) i f, length (update_at i f l) = length l.
Proof. induction l as [|x l IH]; intros [|i] f; cbn; try reflexivity. rewrite IH. reflexivity. Qed.
Lemma set_locations_spec : forall is vs x, Spec_sources.readable x -> NoDup is -> Forall (fun i => i < length (locations x)) is ->
  exists x', set_locations x is vs = Ok (x', if length is <=? length vs then None else Some IndexError) /\
  (forall p, nth_error (locations x') p = match assigned is vs p with Some v => Some v | None => nth_error (locations x) p end) /\ numbers x' = numbers x /\ Spec_sources.keeps_other_tags x x'.
Proof.
  induction is as [|i is IH]; intros vs x R D F; [exists x; repeat split; intros o Ho; exact Ho|].
  destruct vs as [|v vs]; [exists x; repeat split; intros o Ho; exact Ho|]. inversion F as [|? ? Fi F2]; subst. inversion D as [|? ? D1 D2]; subst.
  cbn [set_locations length Nat.leb assigned].
  destruct (P_sources7.set_location_semantics x i v R Fi) as [x1 [E1 [L1 [N1 K1]]]]. rewrite E1. cbn [bind]. destruct (set_location_same _ _ _ _ R E1) as [R1 W1].
  destruct (IH vs x1 R1 D2) as [x2 [E2 [L2 [N2 K2]]]]; [rewrite L1, length_update; exact F2|]. exists x2. split; [exact E2|]. split; [|split].
  - intros p. rewrite L2, L1, nth_update by exact Fi. destruct (Nat.eqb_spec i p) as [->|Ne]; [|reflexivity].
    assert (A : forall is (vs : list str), ~ In p is -> assigned is vs p = None).
    { clear. induction is as [|j is IH]; intros [|v vs] H; cbn; try reflexivity. rewrite (proj2 (Nat.eqb_neq j p)) by (intros ->; apply H; left; reflexivity). apply IH. intros X. apply H. right. exact X. }
    rewrite A by exact D1. reflexivity.
  - congruence.
  - intros o Ho. rewrite <- W1. apply K2. rewrite W1. apply K1. exact Ho.
Qed.
Lemma positions_nodup : forall s n, NoDup (positions s n).
Proof. intros s n. assert (X : NoDup (List.filter (picks s n) (seq 0 n))) by (apply NoDup_filter, seq_NoDup). unfold positions. destruct (_ <? _)%Z; [apply NoDup_rev|]; exact X. Qed.
Lemma positions_lt : forall s n, Forall (fun p => p < n) (positions s n).
Proof.
  intros s n. apply Forall_forall. intros p Hp. apply (picks_lt s). apply in_filter_picks. unfold positions in Hp. destruct (_ <? _)%Z; [apply in_rev in Hp|]; exact Hp.
Qed.
Theorem set_sources_spec : forall s vs x, step_of s <> 0%Z -> Spec_sources.readable x -> let is := positions s (length (locations x)) in
  exists x', set_sources s vs x = Ok (x', if length is <=? length vs then None else Some IndexError) /\
  (forall p, nth_error (locations x') p = match assigned is vs p with Some v => Some v | None => nth_error (locations x) p end) /\ numbers x' = numbers x /\ Spec_sources.keeps_other_tags x x'.
Proof.
  intros s vs x H R is. unfold set_sources. rewrite P_sources2.items_length, (slice_positions s _ H). cbn [bind]. apply set_locations_spec; [exact R|apply positions_nodup|apply positions_lt].
Qed.
End Uni.
