(** Proofs about adding changelog entries. *)
From Coq Require Import Ascii String.
From Coq Require Import NArith ZArith List Bool Lia.
From Verif Require Import PyStr PyStrFacts M_options M_macro_definitions M_sections Spec_sections P_sections P_sections2 P_sections4 M_changelog M_release Spec_changelog P_changelog M_add_entry Spec_add_entry.
Import ListNotations.
Open Scope nat_scope.

Section Uni.
Context {U : Unicode}.
Lemma manual_dec s : {manual s} + {~ manual s}.
Proof.
  unfold manual. destruct (list_eq_dec N.eq_dec (s_nid s) (lit "changelog")) as [E|E]; [|right; tauto].
  destruct (contains_autochangelog (s_data s)) as [[|]|e]; [right; intros [_ X]; discriminate|left; auto|right; intros [_ X]; discriminate].
Qed.
(** * Padding *)
Lemma longest_spec l : forall best, exists a x b, best :: l = a ++ x :: b /\ longest best l = x /\ Forall (fun y => length y < length x) a /\ Forall (fun y => length y <= length x) b.
Proof.
  induction l as [|y l IH]; intros best; cbn [longest].
  - exists [], best, []. repeat split; constructor.
  - destruct (Nat.ltb (length best) (length y)) eqn:E.
    + apply Nat.ltb_lt in E. destruct (IH y) as (a & x & b & Eq & -> & Fa & Fb). exists (best :: a), x, b. split; [cbn; rewrite <- Eq; reflexivity|]. split; [reflexivity|]. split; [|exact Fb].
      constructor; [|exact Fa]. destruct a as [|y' a]; injection Eq as -> _; [exact E|]. inversion Fa; subst. lia.
    + apply Nat.ltb_ge in E. destruct (IH best) as (a & x & b & Eq & -> & Fa & Fb). destruct a as [|y' a].
      * injection Eq as -> ->. exists [], x, (y :: b). repeat split; auto.
      * injection Eq as <- ->. inversion Fa; subst. exists (best :: y :: a), x, b. repeat split; auto. constructor; [assumption|]. constructor; [lia|assumption].
Qed.
Lemma padding_spec c : chosen_padding c (entry_padding c).
Proof.
  unfold chosen_padding, entry_padding. destruct (entries c) as [|e0 es0] eqn:E; [left; auto|right]. rewrite <- ?E.
  destruct (rev (map day_of_month_padding (entries c))) as [|x l] eqn:R.
  - exfalso. apply (f_equal (@length str)) in R. rewrite rev_length, map_length, E in R. discriminate.
  - destruct (longest_spec l x) as (a & p & b & Eq & -> & Fa & Fb). rewrite Eq in R. clear Eq x l E e0 es0. revert R. generalize (entries c). intros es R.
    apply (f_equal (@rev str)) in R. rewrite rev_involutive, rev_app_distr in R. cbn [rev] in R. rewrite <- app_assoc in R. cbn [app] in R.
    apply map_eq_app in R as (older & r & -> & Ro & R). apply map_eq_cons in R as (e & newer & -> & <- & Rn). exists older, e, newer. split; [reflexivity|]. split; [reflexivity|]. split.
    + apply Forall_forall. intros y I. apply (in_map day_of_month_padding) in I. rewrite Ro in I. apply in_rev in I. rewrite Forall_forall in Fb. exact (Fb _ I).
    + apply Forall_forall. intros y I. apply (in_map day_of_month_padding) in I. rewrite Rn in I. apply in_rev in I. rewrite Forall_forall in Fa. exact (Fa _ I).
Qed.

(** * One section *)
Lemma assemble_header ts a entry v p nl : header (assemble ts a entry (Some v) p nl) = header_text ts p a v.
Proof.
  unfold assemble, header_text. change day_names with WEEKDAYS. change month_names with MONTHS. cbn [header]. destruct (endswith p [ZERO]), (t_time ts) as [[[[hh mm] ss] tz]|]; rewrite <- ?app_assoc; cbn [app]; rewrite <- ?app_assoc; reflexivity.
Qed.
Lemma append_inserted lines ts a entry v p :
  inserted (header_text ts p a v) entry lines (get_raw_section_data (append (parse lines) (assemble ts a entry (Some v) p (match entries (parse lines) with [] => false | _ => true end)))).
Proof.
  rewrite <- (assemble_header ts a entry v p (match entries (parse lines) with [] => false | _ => true end)). set (e := assemble _ _ _ _ _ _).
  destruct (parse_wf lines) as (Hp & He & _). exists (predecessor (parse lines)), (flat_map entry_lines (rev (entries (parse lines)))).
  split; [symmetry; apply (parse_raw lines)|]. split; [exact Hp|].
  assert (R : get_raw_section_data (append (parse lines) e) = predecessor (parse lines) ++ entry_lines e ++ flat_map entry_lines (rev (entries (parse lines)))).
  { unfold get_raw_section_data, append. cbn [entries predecessor]. rewrite rev_app_distr. reflexivity. }
  assert (L : entry_lines e = header e :: entry ++ match entries (parse lines) with [] => [] | _ => [[]] end).
  { unfold entry_lines, e. destruct (entries (parse lines)); reflexivity. }
  rewrite R, L. clearbody e. destruct (entries (parse lines)) as [|x xs] eqn:Ent.
  - left. split; [reflexivity|]. cbn [rev flat_map app]. rewrite !app_nil_r. reflexivity.
  - right. split.
    + apply Forall_rev in He. destruct (rev (x :: xs)) as [|y ys] eqn:Ry; [apply (f_equal (@length _)) in Ry; rewrite rev_length in Ry; discriminate|]. inversion He as [|? ? (Hh & _) _]; subst. cbn. eauto.
    + cbn [app]. rewrite <- app_assoc. reflexivity.
Qed.
Lemma with_same s : with_data (s_data s) s = s.
Proof. destruct s; reflexivity. Qed.

Section Add.
Context {W : Type} (expand : str -> W -> W * result str) (surround : W -> surroundings) (now : bool -> W -> timestamp).
Notation add_entries := (add_entries expand surround now).
Lemma not_manual_extended good entry s : ~ manual s -> extended_by good entry s s.
Proof. intros N. split; [contradiction|reflexivity]. Qed.
Lemma manual_extended (good : section -> str -> Prop) entry s ts a v : manual s -> (forall p, chosen_padding (parse (s_data s)) p -> good s (header_text ts p a v)) ->
  extended_by good entry s (with_data (get_raw_section_data (append (parse (s_data s)) (assemble ts a entry (Some v) (entry_padding (parse (s_data s))) (match entries (parse (s_data s)) with [] => false | _ => true end)))) s).
Proof.
  intros M Gd. split; [intros _|contradiction]. eexists _, _. split; [apply Gd, padding_spec|]. split; [reflexivity|]. apply append_inserted.
Qed.
Lemma nid_eqb s : str_eqb (s_nid s) (lit "changelog") = true <-> s_nid s = lit "changelog".
Proof. apply str_eqb_eq. Qed.
Lemma add_ok entry email : forall secs author evr ts w secs' w', add_entries entry email author evr ts secs w = (secs', w', Ok tt) -> Forall2 (extended_by made entry) secs secs'.
Proof.
  induction secs as [|s secs IH]; intros author evr ts w secs' w' E; cbn [M_add_entry.add_entries] in E; [injection E as <- _; constructor|].
  destruct (str_eqb (s_nid s) (lit "changelog")) eqn:Nid; cbn [negb] in E.
  2: { destruct (add_entries entry email author evr ts secs w) as [[l w1] r] eqn:R. injection E as <- <- ->. constructor; [|eapply IH; exact R]. apply not_manual_extended. intros [X _]. apply nid_eqb in X. congruence. }
  destruct (contains_autochangelog (s_data s)) as [[|]|e] eqn:Ca; [| |discriminate].
  { destruct (add_entries entry email author evr ts secs w) as [[l w1] r] eqn:R. injection E as <- <- ->. constructor; [|eapply IH; exact R]. apply not_manual_extended. intros [_ X]. congruence. }
  destruct (expand _ w) as [w1 [v|e]]; [|discriminate]. destruct (entry_author _ _ _ _) as [a|e]; [|discriminate].
  destruct (add_entries entry email (Some a) _ _ secs w1) as [[l w2] r] eqn:R. injection E as <- <- ->. constructor; [|eapply IH; exact R].
  apply manual_extended; [split; [apply nid_eqb; exact Nid|exact Ca]|]. intros p P. eexists _, p, a, v. split; [exact P|reflexivity].
Qed.
(** After a failure, the sections in front of some section are extended, and the others are as they were. *)
Lemma add_fails entry email e : forall secs author evr ts w secs' w', add_entries entry email author evr ts secs w = (secs', w', Err e) ->
  exists x x' s y, secs = x ++ s :: y /\ secs' = x' ++ s :: y /\ Forall2 (extended_by made entry) x x' /\ s_nid s = lit "changelog".
Proof.
  induction secs as [|s secs IH]; intros author evr ts w secs' w' E; cbn [M_add_entry.add_entries] in E; [discriminate|].
  destruct (str_eqb (s_nid s) (lit "changelog")) eqn:Nid; cbn [negb] in E.
  2: { destruct (add_entries entry email author evr ts secs w) as [[l w1] r] eqn:R. injection E as <- <- ->. destruct (IH _ _ _ _ _ _ R) as (x & x' & s0 & y & -> & -> & F & N0).
       exists (s :: x), (s :: x'), s0, y. repeat split; auto. constructor; [|exact F]. apply not_manual_extended. intros [X _]. apply nid_eqb in X. congruence. }
  apply nid_eqb in Nid.
  destruct (contains_autochangelog (s_data s)) as [[|]|e'] eqn:Ca.
  { destruct (add_entries entry email author evr ts secs w) as [[l w1] r] eqn:R. injection E as <- <- ->. destruct (IH _ _ _ _ _ _ R) as (x & x' & s0 & y & -> & -> & F & N0).
    exists (s :: x), (s :: x'), s0, y. repeat split; auto. constructor; [|exact F]. apply not_manual_extended. intros [_ X]. congruence. }
  2: { injection E as <- <- ->. exists [], [], s, secs. repeat split; auto. }
  assert (Here : forall w1, (with_data (get_raw_section_data (parse (s_data s))) s :: secs, w1, @Err unit e) = (secs', w', Err e) -> exists x x' s0 y, s :: secs = x ++ s0 :: y /\ secs' = x' ++ s0 :: y /\ Forall2 (extended_by made entry) x x' /\ s_nid s0 = lit "changelog").
  { intros w1 X. injection X as <- _. exists [], [], s, secs. rewrite parse_raw, with_same. repeat split; auto. }
  destruct (expand _ w) as [w1 [v|e']]; [|apply (Here w1); congruence]. destruct (entry_author _ _ _ _) as [a|e']; [|apply (Here w1); congruence].
  destruct (add_entries entry email (Some a) _ _ secs w1) as [[l w2] r] eqn:R. injection E as <- <- ->. destruct (IH _ _ _ _ _ _ R) as (x & x' & s0 & y & -> & -> & F & N0).
  eexists (s :: x), (_ :: x'), s0, y. repeat split; auto. constructor; [|exact F].
  apply manual_extended; [split; [exact Nid|exact Ca]|]. intros p P. eexists _, p, a, v. split; [exact P|reflexivity].
Qed.

(** * Lines *)
Lemma kept_refl a : kept a a.
Proof. induction a; constructor; assumption. Qed.
Lemma kept_app a a' : kept a a' -> forall b b', kept b b' -> kept (a ++ b) (a' ++ b').
Proof. induction 1; intros; cbn [app]; auto using kept_line, kept_new. Qed.
Lemma kept_more x : forall a b, kept a b -> kept a (x ++ b).
Proof. induction x; intros; cbn [app]; auto using kept_new. Qed.
Lemma splitlines_app y : forall n x cur, length x <= n -> splitlines_aux cur (x ++ LF :: y) = splitlines_aux cur (x ++ [LF]) ++ splitlines_aux [] y.
Proof.
  induction n as [|n IH]; intros x cur L.
  - destruct x; [|cbn in L; lia]. reflexivity.
  - destruct x as [|c x]; [reflexivity|]. cbn [length] in L. cbn [app splitlines_aux]. destruct (is_linebreak c).
    + cbn [app]. f_equal. destruct (c =? CR)%N; [|apply IH; lia]. destruct x as [|d x]; [reflexivity|]. cbn [app]. cbn [length] in L. destruct (d =? LF)%N; [apply IH; lia|].
      apply (IH (d :: x)). cbn [length]. lia.
    + apply IH; lia.
Qed.
Definition separated (s : section) : Prop := (exists x, s_separator s = x ++ [LF]) \/ exists t d, s_data s = (PCT :: t) :: d.
Lemma lines_text_end a : a = [] \/ exists x, lines_text a = x ++ [LF].
Proof. induction a as [|l a IH]; [left; reflexivity|right]. cbn [lines_text flat_map]. fold (lines_text a). destruct IH as [->|[x ->]]; [exists l; cbn; rewrite app_nil_r; reflexivity|]. exists (l ++ LF :: x). rewrite <- !app_assoc. reflexivity. Qed.
Lemma changelog_not_preamble : str_eqb (lit "changelog") PREAMBLE = false. Proof. reflexivity. Qed.
Lemma extended_kept good entry s s' : separated s -> extended_by good entry s s' -> kept (section_raw s) (section_raw s').
Proof.
  intros Sep [E1 E2]. destruct (manual_dec s) as [M|M]; [|rewrite (E2 M); apply kept_refl]. destruct (E1 M) as (h & d & _ & -> & (a & b & Ed & Fa & Hd)). clear E1 E2.
  assert (N' : s_nid (with_data d s) = s_nid s) by (destruct s; reflexivity). unfold section_raw, section_str. rewrite N', (proj1 M), changelog_not_preamble.
  assert (Ei : s_id (with_data d s) = s_id s) by (destruct s; reflexivity). assert (Ese : s_separator (with_data d s) = s_separator s) by (destruct s; reflexivity).
  assert (Eda : s_data (with_data d s) = d) by (destruct s; reflexivity). rewrite Ei, Ese, Eda. clear N' Ei Ese Eda.
  assert (X : exists ins, d = a ++ ins ++ b).
  { destruct Hd as [[-> ->]|[_ ->]]; [exists (h :: entry); rewrite app_nil_r; reflexivity|exists (h :: entry ++ [[]]); cbn [app]; rewrite <- app_assoc; reflexivity]. }
  destruct X as [ins ->]. rewrite Ed, !lines_text_app.
  assert (Y : exists x, PCT :: s_id s ++ s_separator s ++ lines_text a = x ++ [LF]).
  { destruct (lines_text_end a) as [->|[x ->]]; [|exists (PCT :: s_id s ++ s_separator s ++ x); cbn [app]; rewrite <- !app_assoc; reflexivity].
    destruct Sep as [[x ->]|(t & r & Er)]; [exists (PCT :: s_id s ++ x); cbn [app lines_text flat_map]; rewrite app_nil_r, <- !app_assoc; reflexivity|]. exfalso.
    rewrite Er in Ed. cbn [app] in Ed. destruct Hd as [[-> _]|[(l & q & -> & [l' Hl]) _]]; [discriminate|]. injection Ed as <- _. discriminate. }
  destruct Y as [x Y].
  replace (PCT :: s_id s ++ s_separator s ++ lines_text a ++ lines_text b) with (x ++ LF :: lines_text b).
  2: { change (LF :: lines_text b) with ([LF] ++ lines_text b). rewrite app_assoc, <- Y. cbn [app]. rewrite <- !app_assoc. reflexivity. }
  replace (PCT :: s_id s ++ s_separator s ++ lines_text a ++ lines_text ins ++ lines_text b) with (x ++ LF :: (lines_text ins ++ lines_text b)).
  2: { change (LF :: (lines_text ins ++ lines_text b)) with ([LF] ++ (lines_text ins ++ lines_text b)). rewrite app_assoc, <- Y. cbn [app]. rewrite <- !app_assoc. reflexivity. }
  unfold splitlines. rewrite (splitlines_app (lines_text b) (length x) x []), (splitlines_app (lines_text ins ++ lines_text b) (length x) x []) by lia. apply kept_app; [apply kept_refl|].
  destruct (lines_text_end ins) as [->|[z ->]]; [apply kept_refl|]. rewrite <- app_assoc. cbn [app]. rewrite (splitlines_app (lines_text b) (length z) z []) by lia. apply kept_more, kept_refl.
Qed.
Lemma extended_all_kept good entry secs secs' : Forall separated secs -> Forall2 (extended_by good entry) secs secs' -> kept (sections_raw secs) (sections_raw secs').
Proof.
  intros Fs F. induction F as [|s s' secs secs' E F IH]; [constructor|]. inversion Fs; subst. cbn [sections_raw flat_map]. apply kept_app; [eapply extended_kept; eassumption|auto].
Qed.
Context (parse_expand : bool -> W -> str -> result str * W).
Lemma split_id_separated skip w line n o d sep content skip' w' : split_id parse_expand skip w line = (Ok (n, o, d, sep, content), skip', w') -> sep = [LF] \/ exists t, content = [PCT :: t].
Proof.
  unfold split_id. set (tokens := split_spaces false [] line). destruct (Nat.ltb 2 (length tokens) && startswith (last tokens []) [PCT]) eqn:B.
  2: { destruct (M_sections.header_of tokens) as [[[n0 o0] d0]|e]; cbn [bind]; intros E; [injection E as <- <- <- <- <- <- <-; left; reflexivity|discriminate]. }
  apply andb_true_iff in B as [B1 B2]. apply Nat.ltb_lt in B1.
  destruct (ends_header parse_expand skip w (last tokens [])) as [[[[|]|e] sk] w1]; [| |discriminate].
  2: { destruct (M_sections.header_of tokens) as [[[n0 o0] d0]|e]; cbn [bind]; intros E; [injection E as <- <- <- <- <- <- <-; left; reflexivity|discriminate]. }
  unfold pop2. destruct (rev tokens) as [|t [|s r]] eqn:R.
  - apply (f_equal (@length _)) in R. rewrite rev_length in R. cbn in R. lia.
  - apply (f_equal (@length _)) in R. rewrite rev_length in R. cbn in R. lia.
  - destruct (M_sections.header_of (rev r)) as [[[n0 o0] d0]|e]; cbn [bind]; intros E; [|discriminate]. injection E as <- <- <- <- <- <- <-. right.
    assert (Lt : last tokens [] = t). { rewrite <- (rev_involutive tokens), R. cbn [rev]. apply last_last. }
    rewrite Lt in B2. apply startswith_iff in B2 as [t' ->]. exists t'. reflexivity.
Qed.
Lemma make_sections_separated lines : forall starts skip w secs w', make_sections parse_expand lines skip w starts = (Ok secs, w') -> Forall separated secs.
Proof.
  induction starts as [|st [|nx starts] IH]; intros skip w secs w' E; cbn [make_sections] in E; [injection E as <- _; constructor|injection E as <- _; constructor|].
  destruct (split_id parse_expand skip w (tl (nth st lines []))) as [[[[[[[n o] d] sep] content]|e] skip'] w1] eqn:Si; [|discriminate].
  destruct (make_section n o d sep _) as [s|e] eqn:Ms; [|discriminate]. fold (make_sections parse_expand lines) in E. change (match nx :: starts with [] => _ | _ => _ end) with (nx :: starts) in E || idtac.
  destruct (make_sections parse_expand lines skip' w1 (nx :: starts)) as [[l|e] w2] eqn:Mk.
  2: { cbn [make_sections] in Mk. rewrite Mk in E. discriminate. }
  cbn [make_sections] in Mk. rewrite Mk in E. injection E as <- <-. constructor; [|eapply IH; cbn [make_sections]; exact Mk].
  unfold make_section in Ms. destruct (str_in (lower n) M_constants.SECTION_NAMES); [|discriminate]. injection Ms as <-. unfold separated. cbn [s_separator s_data].
  destruct (split_id_separated _ _ _ _ _ _ _ _ _ _ Si) as [->|[t ->]]; [left; exists []; reflexivity|right]. eexists t, _. reflexivity.
Qed.
Lemma parse_separated w lines secs w' : M_sections.parse parse_expand w lines = (Ok secs, w') -> Forall separated secs.
Proof.
  unfold M_sections.parse. destruct (excluded_ranges _ _) as [rs|e]; [|discriminate]. destruct (make_section PREAMBLE None [] [LF] _) as [p|e] eqn:Mp; [|discriminate].
  destruct (make_sections parse_expand lines false w _) as [[l|e] w1] eqn:Mk; [|discriminate]. intros E. injection E as <- <-. constructor; [|eapply make_sections_separated; exact Mk].
  unfold make_section in Mp. destruct (str_in _ _); [|discriminate]. injection Mp as <-. left. exists []. reflexivity.
Qed.
Lemma extended_refl_not good entry y : Forall (fun s => ~ manual s) y -> Forall2 (extended_by good entry) y y.
Proof. induction 1; constructor; [apply not_manual_extended; assumption|assumption]. Qed.
Lemma add_kept entry author email ts evr lines w lines' w' r :
  add_changelog_entry expand surround now parse_expand entry author email ts evr lines w = (lines', w', r) ->
  (forall secs w1, M_sections.parse parse_expand w lines = (Ok secs, w1) -> sections_raw secs = lines) -> kept lines lines'.
Proof.
  unfold add_changelog_entry. destruct (M_sections.parse parse_expand w lines) as [[secs|e] w1] eqn:P; [|intros E _; injection E as <- _ _; apply kept_refl].
  destruct (add_entries entry email author evr ts secs w1) as [[secs' w2] r0] eqn:A. intros E Rt. injection E as <- <- <-. rewrite <- (Rt secs w1 eq_refl).
  pose proof (parse_separated _ _ _ _ P) as Sep. destruct r0 as [[]|e].
  - eapply extended_all_kept; [exact Sep|]. eapply add_ok. exact A.
  - destruct (add_fails _ _ _ _ _ _ _ _ _ _ A) as (x & x' & s & y & -> & -> & F & _). rewrite !P_sections3.sections_raw_app. apply Forall_app in Sep as [Sx _].
    apply kept_app; [eapply extended_all_kept; eassumption|apply kept_refl].
Qed.
Lemma add_text entry author email ts evr lines w lines' w' :
  add_changelog_entry expand surround now parse_expand entry author email ts evr lines w = (lines', w', Ok tt) ->
  exists secs w1 secs', M_sections.parse parse_expand w lines = (Ok secs, w1) /\ lines' = sections_raw secs' /\ Forall2 (extended_by made entry) secs secs'.
Proof.
  unfold add_changelog_entry. destruct (M_sections.parse parse_expand w lines) as [[secs|e] w1]; [|discriminate].
  destruct (add_entries entry email author evr ts secs w1) as [[secs' w2] r0] eqn:A. intros E. injection E as <- <- ->. exists secs, w1, secs'. split; [reflexivity|]. split; [reflexivity|]. eapply add_ok. exact A.
Qed.

(** * Entries that are alike *)
Context (w : W) (v : str) (Ev : expand v w = (w, Ok v)).
Lemma skip_step entry email author evr ts s secs : examined s -> ~ manual s -> add_entries entry email author evr ts (s :: secs) w = let '(l, w, r) := add_entries entry email author evr ts secs w in (s :: l, w, r).
Proof.
  intros Ex N. cbn [M_add_entry.add_entries]. destruct (str_eqb (s_nid s) (lit "changelog")) eqn:Nid; [|reflexivity]. cbn [negb]. apply nid_eqb in Nid.
  destruct (Ex Nid) as (b & Ca). rewrite Ca. destruct b; [reflexivity|]. exfalso. apply N. split; assumption.
Qed.
(** From the second manual section on *)
Lemma rest_alike entry email t a : forall secs, Forall examined secs -> (email = None \/ Forall (fun s => ~ manual s) secs) ->
  exists secs', add_entries entry email (Some a) (Some v) (Some t) secs w = (secs', w, Ok tt) /\ Forall2 (extended_by (made_with t a v) entry) secs secs'.
Proof.
  induction secs as [|s secs IH]; intros Ex Em; [exists []; split; [reflexivity|constructor]|]. inversion Ex as [|? ? E1 E2]; subst.
  assert (Em' : email = None \/ Forall (fun s => ~ manual s) secs) by (destruct Em as [Em|Em]; [left; exact Em|right; inversion Em; assumption]).
  destruct (IH E2 Em') as (secs' & R & F). destruct (manual_dec s) as [M|M].
  - destruct Em as [->|Em]; [|inversion Em; contradiction]. cbn [M_add_entry.add_entries]. rewrite (proj2 (nid_eqb s) (proj1 M)), (proj2 M), Ev. cbn [negb entry_author]. rewrite R.
    eexists. split; [reflexivity|]. constructor; [|exact F]. apply manual_extended; [exact M|]. intros p P. exists p. auto.
  - rewrite skip_step by assumption. rewrite R. eexists. split; [reflexivity|]. constructor; [|exact F]. apply not_manual_extended. exact M.
Qed.
Lemma all_alike entry email author evr ts a : forall secs, expand (match evr with Some x => x | None => DEFAULT_EVR end) w = (w, Ok v) ->
  signed (guess_packager (surround w)) author email a -> Forall examined secs -> email = None \/ at_most_one secs ->
  exists t secs', add_entries entry email author evr ts secs w = (secs', w, Ok tt) /\ Forall2 (extended_by (made_with t a v) entry) secs secs' /\
    (forall t0, ts = Some t0 -> t = t0) /\ (ts = None -> forall s, first_manual secs s -> t = now (newest_extended s) w).
Proof.
  intros secs E0 Sg. induction secs as [|s secs IH]; intros Ex Em.
  - eexists (match ts with Some t0 => t0 | None => now false w end), []. split; [reflexivity|]. split; [constructor|]. split; [intros t0 ->; reflexivity|]. intros _ s (x & y & X & _). destruct x; discriminate.
  - inversion Ex as [|? ? E1 E2]; subst. destruct (manual_dec s) as [M|M].
    + set (t := match ts with Some t0 => t0 | None => now (newest_extended s) w end).
      destruct (rest_alike entry email t a secs E2) as (secs' & R & F).
      { destruct Em as [Em|Em]; [left; exact Em|right]. apply Forall_forall. intros s2 I M2. apply in_split in I as (y & z & ->). apply (Em [] s y s2 z eq_refl M M2). }
      exists t. cbn [M_add_entry.add_entries]. rewrite (proj2 (nid_eqb s) (proj1 M)), (proj2 M), E0. cbn [negb].
      assert (Ea : entry_author surround author email w = Ok a).
      { inversion Sg; subst; cbn [entry_author]; [reflexivity|reflexivity|]. destruct (guess_packager (surround w)); [contradiction|reflexivity]. }
      rewrite Ea. fold (newest_extended s). fold t. rewrite R. eexists. split; [reflexivity|]. split.
      * constructor; [|exact F]. apply manual_extended; [exact M|]. intros p P. exists p. auto.
      * split; [intros t0 ->; reflexivity|]. intros Ets s0 (x & y & X & M0 & Fx). unfold t. rewrite Ets. destruct x as [|s1 x]; injection X as -> _; [reflexivity|]. inversion Fx; contradiction.
    + destruct (IH E2) as (t & secs' & R & F & T1 & T2).
      { destruct Em as [Em|Em]; [left; exact Em|right]. intros x s1 y s2 z ->. apply (Em (s :: x) s1 y s2 z eq_refl). }
      exists t, (s :: secs'). rewrite skip_step by assumption. rewrite R. split; [reflexivity|]. split; [constructor; [apply not_manual_extended; exact M|exact F]|]. split; [exact T1|].
      intros Ets s0 (x & y & X & M0 & Fx). apply (T2 Ets). destruct x as [|s1 x]; injection X as -> ->; [contradiction|]. inversion Fx; subst. exists x, y. auto.
Qed.

Lemma nothing_to_do entry email author evr ts secs : Forall examined secs -> Forall (fun s => ~ manual s) secs -> add_entries entry email author evr ts secs w = (secs, w, Ok tt).
Proof.
  induction secs as [|s secs IH]; intros Ex Nm; [reflexivity|]. inversion Ex; inversion Nm; subst. rewrite skip_step by assumption. rewrite IH by assumption. reflexivity.
Qed.
End Add.
Lemma found_guess g p : guess_packager g = p <-> found g p.
Proof.
  split.
  - intros <-. unfold guess_packager. destruct (rpm_packager g) as [p|] eqn:Ep; [apply found_env; exact Ep|].
    destruct (str_eqb (packager_macro g) (lit "%packager")) eqn:Em; cbn [negb].
    2: { apply found_macro; [exact Ep|]. intros X. apply str_eqb_eq in X. congruence. }
    apply str_eqb_eq in Em.
    assert (Nm : forall n, n = match git g with Some (_, n) => strip n | None => [] end -> known_name g (match n with [] => getent_name g | _ => n end)).
    { intros n ->. unfold getent_name. destruct (git g) as [[e n]|] eqn:Eg.
      - destruct (strip n) as [|c r] eqn:Es.
        + destruct (gecos g) as [|c r] eqn:Ec; [apply name_user; [intros e' n' X; congruence|exact Ec]|]. rewrite <- Ec. apply name_gecos; [intros e' n' X; congruence|congruence].
        + rewrite <- Es. eapply name_git; [exact Eg|congruence].
      - destruct (gecos g) as [|c r] eqn:Ec; [apply name_user; [intros e' n' X; congruence|exact Ec]|]. rewrite <- Ec. apply name_gecos; [intros e' n' X; congruence|congruence]. }
    assert (Ee : known_email g (match git g with Some (e, _) => strip e | None => [] end)).
    { destruct (git g) as [[e n]|] eqn:Eg; [eapply email_git; exact Eg|apply email_none; exact Eg]. }
    specialize (Nm _ eq_refl). pose proof (found_git g _ _ Ep Em Nm Ee) as F. revert F. unfold address.
    destruct (git g) as [[e n]|]; cbv beta iota; [|destruct (getent_name g); exact (fun x => x)].
    destruct (strip n) as [|c r]; [destruct (getent_name g), (strip e)|destruct (strip e)]; exact (fun x => x).
  - intros F. unfold guess_packager. destruct F as [p Ep|Ep Em|name email Ep Em Nm Ee]; rewrite Ep; [reflexivity| |].
    + destruct (str_eqb (packager_macro g) (lit "%packager")) eqn:X; [apply str_eqb_eq in X; contradiction|reflexivity].
    + rewrite Em, str_eqb_refl. cbn [negb]. unfold address, getent_name.
      destruct Ee as [e n Eg|Eg]; destruct Nm as [e' n' Eg' Nn|Nn Gc|Nn Gc]; try (rewrite Eg in Eg'; try discriminate; injection Eg' as <- <-); rewrite Eg; try rewrite (Nn _ _ Eg); try rewrite Gc.
      * destruct (strip n) as [|c r]; [contradiction|]. destruct (strip e); reflexivity.
      * destruct (gecos g); [contradiction|]. destruct (strip e); reflexivity.
      * destruct (username g), (strip e); reflexivity.
      * destruct (gecos g); [contradiction|]. reflexivity.
      * destruct (username g); reflexivity.
Qed.
Section Two.
Context {W : Type} (expand : str -> W -> W * result str) (surround : W -> surroundings) (now : bool -> W -> timestamp).
Notation add_entries := (add_entries expand surround now).
Context (w : W) (s1 s2 : section) (M1 : manual s1) (M2 : manual s2) (entry : list str) (t : timestamp).
Lemma two_sections email author evr v1 v2 a1 a2 : expand (match evr with Some x => x | None => DEFAULT_EVR end) w = (w, Ok v1) -> expand v1 w = (w, Ok v2) ->
  entry_author surround author email w = Ok a1 -> entry_author surround (Some a1) email w = Ok a2 ->
  exists s1' s2', add_entries entry email author evr (Some t) [s1; s2] w = ([s1'; s2'], w, Ok tt) /\
    extended_by (made_with t a1 v1) entry s1 s1' /\
    extended_by (made_with t a2 v2) entry s2 s2'.
Proof.
  intros E1 E2 A1 A2. cbn [M_add_entry.add_entries]. rewrite (proj2 (nid_eqb s1) (proj1 M1)), (proj2 M1), (proj2 (nid_eqb s2) (proj1 M2)), (proj2 M2). cbn [negb].
  rewrite E1, A1, E2, A2. eexists _, _. split; [reflexivity|]. split; apply manual_extended; try assumption; intros p P; exists p; auto.
Qed.
Lemma email_twice a e v : expand (lit "%{?epoch:%{epoch}:}%{version}-%{release}") w = (w, Ok v) -> expand v w = (w, Ok v) ->
  exists s1' s2', add_entries entry (Some e) (Some a) None (Some t) [s1; s2] w = ([s1'; s2'], w, Ok tt) /\
    extended_by (made_with t (a ++ lit " <" ++ e ++ lit ">") v) entry s1 s1' /\
    extended_by (made_with t (a ++ lit " <" ++ e ++ lit "> <" ++ e ++ lit ">") v) entry s2 s2'.
Proof.
  intros E1 E2. replace (a ++ lit " <" ++ e ++ lit "> <" ++ e ++ lit ">") with ((a ++ lit " <" ++ e ++ lit ">") ++ lit " <" ++ e ++ lit ">").
  2: { change (lit "> <" ++ e ++ lit ">") with (lit ">" ++ lit " <" ++ e ++ lit ">"). rewrite <- !app_assoc. reflexivity. }
  apply two_sections; auto.
Qed.
Lemma email_only_later g e v : expand (lit "%{?epoch:%{epoch}:}%{version}-%{release}") w = (w, Ok v) -> expand v w = (w, Ok v) -> found (surround w) g -> g <> [] ->
  exists s1' s2', add_entries entry (Some e) None None (Some t) [s1; s2] w = ([s1'; s2'], w, Ok tt) /\
    extended_by (made_with t g v) entry s1 s1' /\
    extended_by (made_with t (g ++ lit " <" ++ e ++ lit ">") v) entry s2 s2'.
Proof.
  intros E1 E2 G Ng. apply found_guess in G. apply two_sections; auto. cbn [entry_author]. rewrite G. destruct g; [contradiction|reflexivity].
Qed.
Lemma evr_twice a v0 v1 v2 : expand v0 w = (w, Ok v1) -> expand v1 w = (w, Ok v2) ->
  exists s1' s2', add_entries entry None (Some a) (Some v0) (Some t) [s1; s2] w = ([s1'; s2'], w, Ok tt) /\
    extended_by (made_with t a v1) entry s1 s1' /\
    extended_by (made_with t a v2) entry s2 s2'.
Proof. intros E1 E2. apply two_sections; auto. Qed.
Lemma half_done a v0 v1 s3 e : expand v0 w = (w, Ok v1) -> s_nid s3 = lit "changelog" -> contains_autochangelog (s_data s3) = Err e ->
  exists s1', add_entries entry None (Some a) (Some v0) (Some t) [s1; s3] w = ([s1'; s3], w, Err e) /\ extended_by (made_with t a v1) entry s1 s1' /\ s1' <> s1.
Proof.
  intros E1 N3 C3. cbn [M_add_entry.add_entries]. rewrite (proj2 (nid_eqb s1) (proj1 M1)), (proj2 M1), (proj2 (nid_eqb s3) N3), C3. cbn [negb entry_author].
  rewrite E1. eexists. split; [reflexivity|].
  match goal with |- extended_by _ _ _ ?x /\ _ => assert (X : extended_by (made_with t a v1) entry s1 x) by (apply manual_extended; try assumption; intros p P; exists p; auto) end.
  split; [exact X|]. destruct X as [X _]. destruct (X M1) as (h & d & _ & -> & (x & y & E & _ & H)). intros Q. apply (f_equal (fun s => length (s_data s))) in Q. destruct s1 as [n0 o0 d0 p0 dat]. cbn [with_data s_data] in *. rewrite E in Q.
  destruct H as [[-> ->]|[_ ->]]; rewrite !app_length in Q; cbn [length] in Q; rewrite ?app_length in Q; cbn [length] in Q; lia.
Qed.
Lemma no_author a evr v : expand evr w = (w, Ok v) -> found (surround w) a -> a = [] -> forall secs, Forall examined secs -> (exists s, In s secs /\ manual s) ->
  forall email ts, add_entries entry email None (Some evr) ts secs w = (secs, w, Err SpecfileException).
Proof.
  intros E F -> secs. induction secs as [|s secs IH]; intros Ex (s0 & I & M) email ts; [destruct I|]. inversion Ex; subst. destruct (manual_dec s) as [Ms|Ms].
  - cbn [M_add_entry.add_entries]. rewrite (proj2 (nid_eqb s) (proj1 Ms)), (proj2 Ms), E. cbn [negb entry_author].
    apply found_guess in F. rewrite F. rewrite parse_raw, with_same. reflexivity.
  - rewrite skip_step by assumption. rewrite IH; [reflexivity|assumption|]. destruct I as [->|I]; [contradiction|]. exists s0. auto.
Qed.
End Two.
Lemma has_auto secs : Forall examined secs -> exists b, has_autochangelog secs = Ok b /\ (b = true <-> exists s, In s secs /\ s_nid s = lit "changelog" /\ contains_autochangelog (s_data s) = Ok true).
Proof.
  induction secs as [|s secs IH]; intros Ex; cbn [has_autochangelog]; [exists false; split; [reflexivity|]; split; [discriminate|intros (s & [] & _)]|].
  inversion Ex as [|? ? E1 E2]; subst. destruct (IH E2) as (b & R & B).
  assert (Pass : ~ (s_nid s = lit "changelog" /\ contains_autochangelog (s_data s) = Ok true) -> exists b0, has_autochangelog secs = Ok b0 /\ (b0 = true <-> exists s0, In s0 (s :: secs) /\ s_nid s0 = lit "changelog" /\ contains_autochangelog (s_data s0) = Ok true)).
  { intros N. exists b. split; [exact R|]. rewrite B. split; [intros (x & I & X); exists x; split; [right; exact I|exact X]|]. intros (x & [<-|I] & X); [contradiction|]. exists x. auto. }
  destruct (str_eqb (s_nid s) (lit "changelog")) eqn:Nid; cbn [negb].
  2: { apply Pass. intros [X _]. apply nid_eqb in X. congruence. }
  apply nid_eqb in Nid. destruct (E1 Nid) as [[|] Ca]; rewrite Ca.
  - exists true. split; [reflexivity|]. split; [|reflexivity]. intros _. exists s. split; [left; reflexivity|auto].
  - apply Pass. intros [_ X]. congruence.
Qed.
End Uni.
