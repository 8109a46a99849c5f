(** Slices of all collections: reading, slices with negative steps and with a step of zero, and reading what was assigned. *)
From Coq Require Import Ascii String.
From Coq Require Import NArith ZArith List Bool Lia Sorted Arith.
From Verif Require Import PyStr M_options M_changelog M_macro_definitions M_prep M_tags M_sources Spec_options P_options4 M_slice Spec_slice P_slice P_slice2 P_slice3 P_slice4.
From Verif Require Spec_sources P_sources2 P_sources7.
Import ListNotations.
Open Scope nat_scope.

Theorem get_collections : forall s, (0 < step_of s)%Z ->
  (forall ts, get_tags s ts = Ok (mk_tags (keeping (picks s (length (ts_data ts))) 0 (ts_data ts)) (ts_remainder ts))) /\
  (forall m, get_mdefs s m = Ok (mk_mdefs (keeping (picks s (length (md_data m))) 0 (md_data m)) (md_remainder m))) /\
  (forall p, get_prep s p = Ok (mk_prep (keeping (picks s (length (p_macros p))) 0 (p_macros p)) (p_remainder p))) /\
  (forall c, get_changelog s c = Ok (mk_changelog (keeping (picks s (length (entries c))) 0 (entries c)) (predecessor c))).
Proof.
  intros s H. unfold get_tags, get_mdefs, get_prep, get_changelog. repeat split; intros x; rewrite (proj1 (get_slice_spec s _) H); reflexivity.
Qed.
Theorem zero_steps : forall (U : Unicode) s, step_of s = 0%Z ->
  (forall ts, del_tags s ts = Err ValueError) /\ (forall m, del_mdefs s m = Err ValueError) /\ (forall p, del_prep s p = Err ValueError) /\ (forall c, del_changelog s c = Err ValueError) /\
  (forall x, del_sources s x = Err ValueError) /\ (forall o, del_positionals s o = Err ValueError) /\
  (forall vs o, set_positionals s vs o = Err ValueError) /\ (forall vs x, set_sources s vs x = Err ValueError).
Proof.
  intros U s H. unfold del_tags, del_mdefs, del_prep, del_changelog, del_sources, del_positionals, set_positionals, set_sources. repeat split; intros; rewrite (slice_range_zero s _ H); reflexivity.
Qed.

(** ** Negative steps *)
Theorem reversed_wrong : forall s, (step_of s < 0)%Z ->
  (forall ts, let n := length (ts_data ts) in 2 <= length (positions s n) -> del_tags s ts = Err IndexError \/ exists ts' gone p, del_tags s ts = Ok ts' /\
     map (M_tags.with_preceding []) (ts_data ts') = keeping (fun p => negb (gone p)) 0 (map (M_tags.with_preceding []) (ts_data ts)) /\ p < n /\ gone p = true /\ picks s n p = false) /\
  (forall m, let n := length (md_data m) in 2 <= length (positions s n) -> del_mdefs s m = Err IndexError \/ exists m' gone p, del_mdefs s m = Ok m' /\
     map (M_macro_definitions.with_preceding []) (md_data m') = keeping (fun p => negb (gone p)) 0 (map (M_macro_definitions.with_preceding []) (md_data m)) /\ p < n /\ gone p = true /\ picks s n p = false) /\
  (forall m, let n := length (p_macros m) in 2 <= length (positions s n) -> del_prep s m = Err IndexError \/ exists m' gone p, del_prep s m = Ok m' /\
     map (M_prep.with_preceding []) (p_macros m') = keeping (fun p => negb (gone p)) 0 (map (M_prep.with_preceding []) (p_macros m)) /\ p < n /\ gone p = true /\ picks s n p = false) /\
  (forall c, let n := length (entries c) in 2 <= length (positions s n) -> del_changelog s c = Err IndexError \/ exists c' gone p, del_changelog s c = Ok c' /\
     map (fun e => (header e, content e)) (entries c') = keeping (fun p => negb (gone p)) 0 (map (fun e => (header e, content e)) (entries c)) /\ p < n /\ gone p = true /\ picks s n p = false).
Proof.
  intros s H. repeat split.
  - intros ts n L. subst n. rewrite del_tags_loop. pose proof (del_slice_wrong _ _ _ tag_view tags_in tags_out s ts H) as X. unfold tag_view in X at 1 2 4 5. rewrite !map_length in X. exact (X L).
  - intros ts n L. subst n. rewrite del_mdefs_loop. pose proof (del_slice_wrong _ _ _ def_view defs_in defs_out s ts H) as X. unfold def_view in X at 1 2 4 5. rewrite !map_length in X. exact (X L).
  - intros ts n L. subst n. rewrite del_prep_loop. pose proof (del_slice_wrong _ _ _ macro_view macros_in macros_out s ts H) as X. unfold macro_view in X at 1 2 4 5. rewrite !map_length in X. exact (X L).
  - intros ts n L. subst n. rewrite del_changelog_loop. pose proof (del_slice_wrong _ _ _ entry_view entries_in entries_out s ts H) as X. unfold entry_view in X at 1 2 4 5. rewrite !map_length in X. exact (X L).
Qed.
Theorem reversed_single : forall s, (step_of s < 0)%Z ->
  (forall ts, let n := length (ts_data ts) in length (positions s n) <= 1 -> exists ts', del_tags s ts = Ok ts' /\
     map (M_tags.with_preceding []) (ts_data ts') = keeping (fun p => negb (picks s n p)) 0 (map (M_tags.with_preceding []) (ts_data ts))) /\
  (forall m, let n := length (md_data m) in length (positions s n) <= 1 -> exists m', del_mdefs s m = Ok m' /\
     map (M_macro_definitions.with_preceding []) (md_data m') = keeping (fun p => negb (picks s n p)) 0 (map (M_macro_definitions.with_preceding []) (md_data m))) /\
  (forall m, let n := length (p_macros m) in length (positions s n) <= 1 -> exists m', del_prep s m = Ok m' /\
     map (M_prep.with_preceding []) (p_macros m') = keeping (fun p => negb (picks s n p)) 0 (map (M_prep.with_preceding []) (p_macros m))) /\
  (forall c, let n := length (entries c) in length (positions s n) <= 1 -> exists c', del_changelog s c = Ok c' /\
     map (fun e => (header e, content e)) (entries c') = keeping (fun p => negb (picks s n p)) 0 (map (fun e => (header e, content e)) (entries c))).
Proof.
  intros s H. repeat split.
  - intros ts n L. subst n. rewrite del_tags_loop. pose proof (del_slice_single _ _ _ tag_view tags_in tags_out s ts H) as X. unfold tag_view in X at 1 4 5. rewrite !map_length in X. exact (X L).
  - intros ts n L. subst n. rewrite del_mdefs_loop. pose proof (del_slice_single _ _ _ def_view defs_in defs_out s ts H) as X. unfold def_view in X at 1 4 5. rewrite !map_length in X. exact (X L).
  - intros ts n L. subst n. rewrite del_prep_loop. pose proof (del_slice_single _ _ _ macro_view macros_in macros_out s ts H) as X. unfold macro_view in X at 1 4 5. rewrite !map_length in X. exact (X L).
  - intros ts n L. subst n. rewrite del_changelog_loop. pose proof (del_slice_single _ _ _ entry_view entries_in entries_out s ts H) as X. unfold entry_view in X at 1 4 5. rewrite !map_length in X. exact (X L).
Qed.

(** ** Assignment, read back *)
Lemma picked_assigned {A} : forall is (vs l : list A), NoDup is -> length is = length vs -> (forall p, In p is -> nth_error l p = assigned is vs p) -> picked l is = vs.
Proof.
  induction is as [|i is IH]; intros [|v vs] l D L H; cbn in L; try lia; [reflexivity|]. inversion D as [|? ? D1 D2]; subst. unfold picked. cbn [flat_map]. fold (picked l is).
  rewrite (H i (or_introl eq_refl)). cbn [assigned]. rewrite Nat.eqb_refl. cbn [app]. f_equal. apply IH; [exact D2|lia|]. intros p Hp. rewrite (H p (or_intror Hp)). cbn [assigned].
  rewrite (proj2 (Nat.eqb_neq i p)); [reflexivity|]. intros ->. contradiction.
Qed.
Lemma assigned_some {A} : forall is (vs : list A) p, In p is -> length is = length vs -> exists v, assigned is vs p = Some v.
Proof.
  induction is as [|i is IH]; intros [|v vs] p Hp L; cbn in L; try lia; [destruct Hp|]. cbn. destruct (Nat.eqb_spec i p) as [E|Ne]; [eauto|]. destruct Hp as [E|Hp]; [contradiction|]. apply IH; [exact Hp|lia].
Qed.
Lemma read_back {A} : forall s (l l' vs : list A), step_of s <> 0%Z -> length l' = length l -> length vs = length (positions s (length l)) ->
  (forall p, p < length l -> nth_error l' p = match assigned (positions s (length l)) vs p with Some v => Some v | None => nth_error l p end) -> get_slice s l' = Ok vs.
Proof.
  intros s l l' vs H Ll Lv N. unfold get_slice. rewrite Ll, (slice_positions s _ H). cbn [bind]. f_equal. apply (picked_assigned (positions s (length l)) vs l'); [apply positions_nodup|symmetry; exact Lv|].
  intros p Hp. pose proof (positions_lt s (length l)) as F. rewrite Forall_forall in F. rewrite N by (apply F; exact Hp). destruct (assigned_some (positions s (length l)) vs p Hp (eq_sym Lv)) as [v ->]. reflexivity.
Qed.
Lemma values_positionals : forall f its i, positionals (set_values f i its) = map (fun x => match f (fst x) with Some w => w | None => snd x end) (combine (seq i (length (positionals its))) (positionals its)).
Proof.
  intros f. induction its as [|[c x|v] its IH]; intros i; cbn [set_values positionals length seq combine map fst snd]; [reflexivity|apply IH|]. rewrite IH. reflexivity.
Qed.
Lemma nth_combine_seq {A} : forall (l : list A) i p, p < length l -> nth_error (combine (seq i (length l)) l) p = match nth_error l p with Some x => Some (i + p, x) | None => None end.
Proof.
  induction l as [|x l IH]; intros i p H; cbn [length] in H; [lia|]. destruct p; cbn [length seq combine nth_error]; [rewrite Nat.add_0_r; reflexivity|]. rewrite IH by lia. rewrite Nat.add_succ_r. reflexivity.
Qed.
Section Uni.
Context {U : Unicode}.
Theorem set_sources_back : forall s vs x, step_of s <> 0%Z -> Spec_sources.readable x -> length vs = length (positions s (length (locations x))) ->
  exists x', set_sources s vs x = Ok (x', None) /\ get_slice s (locations x') = Ok vs /\ length (locations x') = length (locations x) /\
  (forall p, picks s (length (locations x)) p = false -> nth_error (locations x') p = nth_error (locations x) p) /\ numbers x' = numbers x /\ Spec_sources.keeps_other_tags x x'.
Proof.
  intros s vs x H R L. destruct (set_sources_spec s vs x H R) as [x' [E [N [M K]]]]. rewrite L, Nat.leb_refl in E. exists x'. split; [exact E|].
  assert (Len : length (locations x') = length (locations x)).
  { unfold locations, numbers in *. rewrite !map_length. apply (f_equal (@length _)) in M. rewrite !map_length in M. exact M. }
  split; [apply (read_back s (locations x)); auto|]. split; [exact Len|]. split; [|auto].
  intros p Hp. rewrite N. rewrite assigned_none; [reflexivity|]. intros X.
  assert (Y : In p (List.filter (picks s (length (locations x))) (seq 0 (length (locations x))))) by (unfold positions in X; destruct (_ <? _)%Z; [apply in_rev in X|]; exact X).
  apply in_filter_picks in Y. congruence.
Qed.
Theorem set_positionals_back : forall os ds l its s vs, cmdline os l its -> step_of s <> 0%Z -> Forall (fun v => ~ dashed (oval_str v)) vs -> length vs = length (positions s (length (positionals its))) ->
  exists l' its', set_positionals s vs (mk_opts l os ds) = Ok (mk_opts l' os ds, None) /\ cmdline os l' its' /\ get_slice s (positionals its') = Ok (map oval_str vs) /\
  length its' = length its /\ forall p, nth_error its' p = nth_error its p \/ exists v w, nth_error its p = Some (IPos v) /\ nth_error its' p = Some (IPos w).
Proof.
  intros os ds l its s vs C H V L. destruct (set_positionals_spec U os ds l its s vs C H V) as [l' [E C']]. rewrite L, Nat.leb_refl in E.
  exists l'. eexists. split; [exact E|]. split; [exact C'|]. split; [|split].
  - apply (read_back s (positionals its)); [exact H| |rewrite map_length; exact L|].
    + rewrite values_positionals, map_length, combine_length, seq_length. lia.
    + intros p Hp. rewrite values_positionals, nth_error_map, nth_combine_seq by exact Hp. destruct (nth_error (positionals its) p) as [v|] eqn:Ep; [|apply nth_error_None in Ep; lia].
      cbn [option_map fst snd Nat.add]. destruct (assigned _ _ p); reflexivity.
  - set (f := assigned _ _). clearbody f. generalize 0. clear. induction its as [|[c x|v] its IH]; intros i; cbn [set_values length]; [reflexivity|rewrite IH; reflexivity..].
  - set (f := assigned _ _). clearbody f. generalize 0. clear. induction its as [|[c x|v] its IH]; intros i [|p]; cbn [set_values nth_error]; auto. right. eauto.
Qed.
End Uni.
Theorem assignment_refuted :
  (exists s vs l its l', cmdline [] l its /\ set_positionals s vs (mk_opts l [] []) = Ok (mk_opts l' [] [], None) /\ get_slice s (map M_options.t_value (List.filter (fun t => negb (is_ws t)) l')) <> Ok (map oval_str vs)) /\
  (exists s vs l its l', cmdline [] l its /\ set_positionals s vs (mk_opts l [] []) = Ok (mk_opts l' [] [], Some IndexError) /\ l' <> l).
Proof.
  assert (C : cmdline [] [mk_token DEFAULT (lit "a"); mk_token WHITESPACE (lit " "); mk_token DEFAULT (lit "b")] [IPos (lit "a"); IPos (lit "b")]).
  { apply (L_positional [] (mk_token DEFAULT (lit "a"))); [discriminate|intros [? E]; discriminate E|]. apply L_space; [reflexivity..|].
    apply (L_positional [] (mk_token DEFAULT (lit "b"))); [discriminate|intros [? E]; discriminate E|]. constructor. }
  split.
  - exists (mk_slice (Some 1%Z) None None), [VStr (lit "x"); VStr (lit "y")]. do 3 eexists. split; [exact C|]. split; [reflexivity|]. vm_compute. discriminate.
  - exists (mk_slice None None None), [VStr (lit "x")]. do 3 eexists. split; [exact C|]. split; [reflexivity|]. discriminate.
Qed.
