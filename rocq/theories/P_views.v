(** Proofs about the views of a [Specfile]. *)
From Coq Require Import Ascii String.
From Coq Require Import NArith List Bool Lia.
From Verif Require Import PyStr PyStrFacts M_constants M_options M_macro_definitions Spec_macro_definitions P_macro_definitions M_conditions P_conditions M_sections Spec_sections P_sections
  M_tags Spec_tags P_tags M_changelog P_changelog M_prep Spec_prep P_prep M_context Spec_context P_context P_context2 P_context3 M_views Spec_views.
From Verif Require Import M_value P_value2.
From Verif Require Properties_sections Properties_tags Properties_macro_definitions Properties_prep Properties_conditions.
Import ListNotations.
Open Scope nat_scope.

Section Views.
Context {U : Unicode} (E : bool -> str -> result str) (ids : nat -> str).
Notation view_load := (view_load E ids).
Notation view_store := (view_store ids).

Lemma attr_index l id s : attr l id = Some s -> exists a b, l = a ++ s :: b /\ find_index (fun s => str_eqb (s_nid s) (lower id)) l = Some (length a) /\
  s_nid s = lower id /\ Forall (fun x => s_nid x <> lower id) a.
Proof.
  unfold attr. induction l as [|x l IH]; cbn [List.find find_index]; [discriminate|]. destruct (str_eqb (s_nid x) (lower id)) eqn:K.
  - intros H. injection H as ->. exists [], l. apply str_eqb_eq in K. repeat split; [exact K|constructor].
  - intros H. destruct (IH H) as [a [b [-> [-> [Kn F]]]]]. exists (x :: a), b. repeat split; [exact Kn|]. constructor; [|exact F].
    intros X. rewrite X, str_eqb_refl in K. discriminate.
Qed.
Lemma attr_none l id : attr l id = None -> find_index (fun s => str_eqb (s_nid s) (lower id)) l = None.
Proof.
  unfold attr. induction l as [|x l IH]; cbn [List.find find_index]; [reflexivity|]. destruct (str_eqb (s_nid x) (lower id)); [discriminate|]. intros H. rewrite (IH H). reflexivity.
Qed.
Lemma set_attr_app l id d a s b : l = a ++ s :: b -> find_index (fun s => str_eqb (s_nid s) (lower id)) l = Some (length a) -> set_attr l id d = a ++ with_data d s :: b.
Proof. intros -> H. unfold set_attr. rewrite H. apply update_at_app. Qed.
Lemma set_attr_same l id s : attr l id = Some s -> set_attr l id (s_data s) = l.
Proof.
  intros H. destruct (attr_index _ _ _ H) as [a [b [L [F _]]]]. rewrite (set_attr_app _ _ _ _ _ _ L F), L. destruct s. reflexivity.
Qed.

Section Quiet.
Context (lines : list str) (PS : plain_spec E ids lines).
Definition ok_view (k : path) (v : value) : Prop :=
  match v with VLines l => l = lines | VSections l => fst (M_sections.parse (oracle E) tt lines) = Ok l | _ => True end.
Lemma views_lossless : lossless view_load view_store ok_view.
Proof.
  destruct PS as [CL [NB [SH PR]]]. intros n p pv v OK L. destruct pv as [l|m|l|t|c|pr]; cbn [M_views.view_load] in L; try (destruct n; discriminate).
  - cbn in OK. subst l. destruct n as [|[|n]]; [| |discriminate].
    + destruct (parse_with_conditions (oracle E) tt lines true) as [[m|e] w] eqn:P; cbn [fst bind] in L; [|discriminate]. injection L as <-. split; [exact I|].
      cbn. f_equal. f_equal. unfold parse_with_conditions in P. cbn [negb] in P. destruct (process_conditions _ tt lines _) as [[tagged|e] w1] eqn:PC; [|discriminate].
      injection P as <- <-. pose proof (Properties_conditions.C08_lines_preserved _ _ _ _ _ _ _ _ PC) as H. transitivity (map fst tagged); [|exact H].
      apply Properties_macro_definitions.C03_round_trip_with_flags. rewrite H. exact CL.
    + destruct (M_sections.parse (oracle E) tt lines) as [[secs|e] w] eqn:P; cbn [fst bind] in L; [|discriminate]. injection L as <-.
      split; [unfold ok_view; rewrite P; reflexivity|]. cbn. f_equal. f_equal. apply (Properties_sections.C01_round_trip _ _ _ _ _ _ _ P); try assumption.
      apply (PR secs). reflexivity.
  - cbn in OK. destruct (PR _ OK) as [_ FS]. rewrite Forall_forall in FS.
    destruct n as [|[|[|[|j]]]]; try discriminate.
    + destruct (attr l (lit "changelog")) as [s|] eqn:A; cbn [option_map] in L; injection L as <-; (split; [exact I|]); [|reflexivity].
      cbn [M_views.view_store]. rewrite parse_raw. rewrite (set_attr_same _ _ _ A). reflexivity.
    + destruct (attr l (lit "prep")) as [s|] eqn:A; [|injection L as <-; split; [exact I|reflexivity]].
      destruct (M_prep.parse (s_data s)) as [pr|e] eqn:P; cbn [bind] in L; [|discriminate]. injection L as <-. split; [exact I|].
      destruct (attr_index _ _ _ A) as [a [b [Ll [_ [Kn _]]]]]. destruct (FS s) as [PL _]; [rewrite Ll; apply in_elt|].
      destruct (PL Kn) as [infos Fi]. destruct (Properties_prep.C33_round_trip _ _ _ Fi) as [pr' [P' [R' _]]]. rewrite P in P'. injection P' as <-.
      cbn [M_views.view_store]. rewrite R'. rewrite (set_attr_same _ _ _ A). reflexivity.
    + destruct (attr l (ids j)) as [s|] eqn:A; [|discriminate].
      destruct (tags_parse (oracle E) TAG_NAMES tt (s_data s)) as [[t|e] w] eqn:P; cbn [fst bind] in L; [|discriminate]. injection L as <-. split; [exact I|].
      destruct (attr_index _ _ _ A) as [a [b [Ll [_ [Kn _]]]]]. destruct (FS s) as [_ TL]; [rewrite Ll; apply in_elt|].
      destruct (TL j Kn) as [T1 [T2 T3]]. pose proof (Properties_tags.C11_round_trip_without_trailing_white_space _ _ _ _ _ _ _ T1 T2 T3 P) as R'.
      cbn [M_views.view_store]. replace (S (S (S (S j))) - 4) with j by lia. rewrite R'. rewrite (set_attr_same _ _ _ A). reflexivity.
Qed.
Lemma quiet_views autosave (p : @prog value) : no_edits p ->
  let '(r, l, f, h) := observe view_load view_store autosave p (VLines lines) in l = Some (VLines lines) /\ (f = None \/ f = Some (VLines lines)).
Proof. apply (quiet_programs view_load view_store autosave ok_view p (VLines lines) views_lossless). reflexivity. Qed.
End Quiet.

Lemma views_total : total view_store.
Proof. intros n v pv. destruct v as [l|m|l|t|[c|]|[q|]]; cbn; try (eexists; reflexivity); destruct pv; eexists; reflexivity. Qed.
Lemma sections_error lines e : fst (M_sections.parse (oracle E) tt lines) = Err e -> e <> KeyError \/ exists b x, E b x = Err e.
Proof.
  unfold M_sections.parse. destruct (excluded_ranges _ _) as [rs|e1] eqn:X.
  2: { cbn. intros H. injection H as <-. left. revert X. generalize (md_data (parse_plain lines)) at 1. intros l. revert e1. induction l as [|d l IH]; [discriminate|]. cbn [excluded_ranges]. intros e1.
       unfold get_position at 1. destruct (find_index _ _); cbn [bind]; [|intros Y; injection Y as <-; discriminate].
       destruct (excluded_ranges _ l) as [?|e2] eqn:Z; cbn [bind]; [discriminate|]. intros Y. injection Y as <-. apply (IH _ eq_refl). }
  set (starts := starts_from rs 0 lines ++ [length lines]). clearbody starts.
  destruct (make_section PREAMBLE None [] [LF] _) as [ps|e1] eqn:M.
  2: { cbn. intros H. injection H as <-. left. unfold make_section in M. destruct (str_in _ _); [discriminate|]. injection M as <-. discriminate. }
  assert (H : forall starts sk w e, fst (make_sections (oracle E) lines sk w starts) = Err e -> e <> KeyError \/ exists b x, E b x = Err e).
  2: { destruct (make_sections _ _ _ _ _) as [[l|e1] w] eqn:S; cbn; [discriminate|]. intros Y. injection Y as <-. apply (H starts false tt). rewrite S. reflexivity. }
  clear. induction starts as [|a [|b l] IH]; intros sk w e; [discriminate|discriminate|].
  change (make_sections (oracle E) lines sk w (a :: b :: l)) with
    (match split_id (oracle E) sk w (tl (nth a lines [])) with
      | (Err e, _, w') => (Err e, w')
      | (Ok (n, o, d, sep, content), skip', w') =>
          match make_section n o d sep (content ++ M_sections.slice (S a) b lines) with
          | Err e => (Err e, w')
          | Ok s =>
              match make_sections (oracle E) lines skip' w' (b :: l) with
              | (Err e, w'') => (Err e, w'')
              | (Ok l, w'') => (Ok (s :: l), w'')
              end
          end
      end).
  destruct (split_id (oracle E) sk w (tl (nth a lines []))) as [[r sk'] w'] eqn:SI.
  destruct r as [[[[[n o] d] sep] content]|e1].
  - destruct (make_section n o d sep _) as [s|e1] eqn:M.
    + destruct (make_sections (oracle E) lines sk' w' (b :: l)) as [[l'|e1] w''] eqn:MS; cbn; [discriminate|]. intros Y. injection Y as <-. apply (IH sk' w'). rewrite MS. reflexivity.
    + cbn. intros Y. injection Y as <-. left. unfold make_section in M. destruct (str_in _ _); [discriminate|]. injection M as <-. discriminate.
  - cbn. intros Y. injection Y as <-. unfold split_id in SI.
    assert (HO : forall t (sep : str) (ct : list str) e, (let! h := header_of t in let '(n, o, d) := h in Ok (n, o, d, sep, ct)) = Err e -> e <> KeyError).
    { clear. intros t sep ct e. unfold header_of. destruct t as [|n [|d [|x r]]]; cbn [bind]; try discriminate; [intros Y; injection Y as <-; discriminate|].
      destruct (tokenize _) as [tk|e1] eqn:T; cbn [bind]; [discriminate|]. intros Y. injection Y as <-.
      destruct (P_options.tokenize_errors _ _ T) as [->|P]; [discriminate|]. destruct (P_value.parse_errors _ _ P) as [->|[-> _]]; discriminate. }
    match type of SI with context [if ?c then _ else _] => destruct c end.
    + unfold ends_header, oracle in SI. destruct (E sk _) as [x|e2] eqn:EX.
      * destruct (startswith x [LF]); [destruct (pop2 _) as [[t' sp] tt']|]; injection SI as SI _ _; left; exact (HO _ _ _ _ SI).
      * assert (D : e2 = RPMException \/ e2 <> RPMException) by (destruct e2; (left; reflexivity) || (right; discriminate)).
        destruct D as [->|D]; [injection SI as SI _ _; left; exact (HO _ _ _ _ SI)|].
        assert (e1 = e2) by (destruct e2; try congruence; injection SI; congruence). subst. right. eauto.
    + injection SI as SI _ _. left. exact (HO _ _ _ _ SI).
Qed.
Lemma split_error line e : split_conditional_macro_expansion line = Err e -> e = ValueError.
Proof. intros H. destruct (split_cond_total line) as [[x S]|[S _]]; congruence. Qed.
Lemma tags_error lines e : fst (tags_parse (oracle E) TAG_NAMES tt lines) = Err e -> e <> KeyError \/ exists b x, E b x = Err e.
Proof.
  unfold tags_parse. destruct (process_conditions _ _ _ _) as [[tg|e1] w] eqn:PC.
  - cbn [fst]. intros H. left. revert H. generalize (@nil tag) (@nil str) (length tg). intros data buffer fuel. revert tg PC data buffer.
    intros tg _. revert tg. induction fuel as [|fuel IH]; intros tg data buffer; [discriminate|]. cbn [tags_loop]. destruct tg as [|[l0 v] tg]; [discriminate|].
    destruct (split_trailing l0 []) as [line ws]. destruct (split_conditional_macro_expansion line) as [[[l1 pf] sf]|e1] eqn:S; cbn [bind].
    + destruct (first_match TAG_NAMES l1) as [m|]; [|apply IH]. destruct (if str_eqb sf [] then _ else _) as [[val ws'] l'']. apply IH.
    + intros H. injection H as <-. apply split_error in S. subst. discriminate.
  - cbn. intros H. injection H as <-. apply P_conditions3.process_err in PC. destruct PC as [->|[sk [w' [x X]]]]; [left; discriminate|right]. cbn in X. eauto.
Qed.
Lemma views_no_key : (forall b x, E b x <> Err KeyError) -> no_key view_load view_store.
Proof.
  intros NE. split.
  2: { intros n v w X. destruct (views_total n v w) as [y Y]. congruence. }
  intros n pv H. destruct pv as [l|m|l|t|c|pr]; cbn [M_views.view_load] in H; try (destruct n; discriminate).
  - destruct n as [|[|n]]; [| |discriminate].
    + unfold parse_with_conditions in H. cbn [negb] in H. destruct (process_conditions _ tt l _) as [[tagged|e] w1] eqn:PC; cbn [fst bind] in H; [discriminate|].
      injection H as ->. apply P_conditions3.process_err in PC. destruct PC as [PC|[sk [w' [x X]]]]; [discriminate|]. cbn in X. exact (NE _ _ X).
    + destruct (fst (M_sections.parse (oracle E) tt l)) as [secs|e] eqn:P; cbn [bind] in H; [discriminate|]. injection H as ->.
      destruct (sections_error _ _ P) as [N|[b [x X]]]; [congruence|exact (NE _ _ X)].
  - destruct n as [|[|[|[|j]]]]; try discriminate.
    + destruct (attr l (lit "prep")) as [s|]; [|discriminate]. destruct (M_prep.parse (s_data s)) as [pr|e] eqn:P; cbn [bind] in H; [discriminate|].
      injection H as ->. destruct (P_prep.parse_errors _ _ _ _ P) as [X|[X|X]]; discriminate.
    + destruct (attr l (ids j)) as [s|]; [|discriminate]. destruct (fst (tags_parse _ _ _ _)) as [t|e] eqn:P; cbn [bind] in H; [discriminate|]. injection H as ->.
      destruct (tags_error _ _ P) as [N|[b [x X]]]; [congruence|exact (NE _ _ X)].
Qed.

(** * Overlapping views *)
Lemma lines_load n pv v : view_load n pv = Ok v -> n = MACROS \/ n = SECTIONS -> (exists m, v = VMacros m) \/ (exists l, v = VSections l).
Proof.
  intros H N. destruct pv as [l|m|l|t|c|pr]; destruct N as [-> | ->]; try discriminate; cbn [M_views.view_load MACROS SECTIONS] in H.
  - destruct (fst _); cbn [bind] in H; [|discriminate]. injection H as <-. left. eexists. reflexivity.
  - destruct (fst _); cbn [bind] in H; [|discriminate]. injection H as <-. right. eexists. reflexivity.
Qed.
Lemma lost_lines autosave a b f g d : (a = MACROS /\ b = SECTIONS) \/ (a = SECTIONS /\ b = MACROS) ->
  observe view_load view_store autosave (With [a] (With [b] (Edit 0 f))) d = observe view_load view_store autosave (With [a] (With [b] (Edit 0 g))) d.
Proof.
  intros H. apply lost_update; [destruct H as [[-> ->]|[-> ->]]; discriminate|exact views_total|].
  intros pv v x h y _ L _ _. assert (N : a = MACROS \/ a = SECTIONS) by tauto. destruct (lines_load _ _ _ L N) as [[m ->]|[l ->]]; reflexivity.
Qed.
Lemma set_attr_twice l id d d' : set_attr (set_attr l id d) id d' = set_attr l id d'.
Proof.
  destruct (attr l id) as [s|] eqn:A.
  2: { unfold set_attr. rewrite (attr_none _ _ A). rewrite (attr_none _ _ A). reflexivity. }
  destruct (attr_index _ _ _ A) as [a [b [L [F [K N]]]]]. rewrite !(set_attr_app _ _ _ _ _ _ L F). rewrite L in F.
  assert (F' : find_index (fun s => str_eqb (s_nid s) (lower id)) (a ++ with_data d s :: b) = Some (length a)).
  { clear -N K. induction N as [|x a Nx N IH]; cbn [app find_index length].
    - change (s_nid (with_data d s)) with (s_nid s). rewrite K, str_eqb_refl. reflexivity.
    - apply str_eqb_neq in Nx. rewrite Nx, IH. reflexivity. }
  rewrite (set_attr_app _ _ d' _ _ _ eq_refl F'). reflexivity.
Qed.
(** Two spellings of the same argument. *)
Lemma tags_load j pv v : view_load (TAGS j) pv = Ok v -> exists t, v = VTags t.
Proof.
  destruct pv as [l|m|l|t|c|pr]; try discriminate. cbn [M_views.view_load TAGS Nat.add]. destruct (attr l (ids j)) as [s|]; [|discriminate].
  destruct (fst _); cbn [bind]; [|discriminate]. intros H. injection H as <-. eexists. reflexivity.
Qed.
Lemma tags_store j t l : view_store (TAGS j) (VTags t) (VSections l) = Ok (VSections (set_attr l (ids j) (tags_raw t))).
Proof. cbn [M_views.view_store]. unfold TAGS. replace (4 + j - 4) with j by lia. reflexivity. Qed.
Lemma lost_tags autosave i j f g d : i <> j -> lower (ids i) = lower (ids j) ->
  observe view_load view_store autosave (With [TAGS i; SECTIONS] (With [TAGS j; SECTIONS] (Edit 0 (on_tags f)))) d =
  observe view_load view_store autosave (With [TAGS i; SECTIONS] (With [TAGS j; SECTIONS] (Edit 0 (on_tags g)))) d.
Proof.
  intros NE EI. apply lost_update; [unfold TAGS; lia|exact views_total|].
  intros pv v x h y Hh La Lb S. destruct (tags_load _ _ _ La) as [t ->]. destruct (tags_load _ _ _ Lb) as [t' ->].
  destruct pv as [l|m|l|t0|c|pr]; try discriminate La.
  assert (Hx : exists t1, h (VTags t') = VTags t1) by (destruct Hh as [-> | ->]; eexists; reflexivity). destruct Hx as [t1 Hx]. rewrite Hx in S.
  rewrite tags_store in S. injection S as <-. rewrite !tags_store. f_equal. f_equal.
  assert (X : forall l d, set_attr l (ids j) d = set_attr l (ids i) d) by (intros; unfold set_attr; rewrite EI; reflexivity).
  rewrite X. apply set_attr_twice.
Qed.

(** * Views of different sections *)
Local Notation view_id := (view_id ids).
Definition section_view (n : nat) : Prop := 2 <= n.
Definition view_raw (v : value) : option (list str) :=
  match v with VTags t => Some (tags_raw t) | VChangelog (Some c) => Some (get_raw_section_data c) | VPrep (Some p) => Some (prep_raw p) | _ => None end.
Lemma section_store n v l : section_view n -> match v with VTags _ => 4 <= n | VChangelog _ => n = 2 | VPrep _ => n = 3 | _ => False end ->
  view_store n v (VSections l) = Ok (VSections match view_raw v with Some d => set_attr l (view_id n) d | None => l end).
Proof.
  intros N K. destruct v as [l0|m|l0|t|[c|]|[q|]]; try contradiction; cbn [M_views.view_store view_raw]; subst; try reflexivity.
  unfold view_id. destruct n as [|[|[|[|n]]]]; [lia|lia|lia|lia|reflexivity].
Qed.
Lemma attr_set_other l id d id' : lower id <> lower id' -> option_map s_data (attr (set_attr l id d) id') = option_map s_data (attr l id').
Proof.
  intros N. destruct (attr l id) as [s|] eqn:A.
  2: { unfold set_attr. rewrite (attr_none _ _ A). reflexivity. }
  destruct (attr_index _ _ _ A) as [a [b [L [F [K _]]]]]. rewrite (set_attr_app _ _ _ _ _ _ L F), L. clear -K N. unfold attr.
  induction a as [|x a IH]; cbn [app List.find].
  - change (s_nid (with_data d s)) with (s_nid s). destruct (str_eqb (s_nid s) (lower id')) eqn:X; [apply str_eqb_eq in X; congruence|reflexivity].
  - destruct (str_eqb (s_nid x) (lower id')); [reflexivity|exact IH].
Qed.
Lemma load_data n l l' : section_view n -> option_map s_data (attr l (view_id n)) = option_map s_data (attr l' (view_id n)) -> view_load n (VSections l) = view_load n (VSections l').
Proof.
  intros N H. destruct n as [|[|[|[|n]]]]; [inversion N|inversion N as [|? X]; inversion X| | |]; unfold view_id in H; cbn [M_views.view_load].
  - destruct (attr l (lit "changelog")), (attr l' (lit "changelog")); cbn in *; congruence.
  - destruct (attr l (lit "prep")), (attr l' (lit "prep")); cbn in H; congruence.
  - replace (S (S (S (S n))) - 4) with n in H by lia. destruct (attr l (ids n)), (attr l' (ids n)); cbn in H; congruence.
Qed.
Lemma find_index_ext {A} (p q : A -> bool) l : (forall x, p x = q x) -> find_index p l = find_index q l.
Proof. intros H. induction l as [|x l IH]; cbn; [reflexivity|]. rewrite H, IH. reflexivity. Qed.
Lemma find_index_update {A} (p : A -> bool) g l k : (forall x, p (g x) = p x) -> find_index p (update_at k g l) = find_index p l.
Proof.
  intros H. revert k. induction l as [|x l IH]; intros k; [destruct k; reflexivity|]. destruct k as [|k]; cbn [update_at find_index]; [rewrite H; reflexivity|]. rewrite IH. reflexivity.
Qed.
Lemma find_index_nth {A} (p : A -> bool) l k : find_index p l = Some k -> exists x, nth_error l k = Some x /\ p x = true.
Proof.
  revert k. induction l as [|x l IH]; intros k; cbn [find_index]; [discriminate|]. destruct (p x) eqn:P.
  - intros H. injection H as <-. exists x. split; [reflexivity|exact P].
  - destruct (find_index p l) as [j|]; cbn; [|discriminate]. intros H. injection H as <-. apply (IH j eq_refl).
Qed.
Lemma update_at_comm {A} (f g : A -> A) l i j : i <> j -> update_at i f (update_at j g l) = update_at j g (update_at i f l).
Proof.
  revert i j. induction l as [|x l IH]; intros i j N; [destruct i, j; reflexivity|]. destruct i as [|i], j as [|j]; cbn [update_at]; try reflexivity; [lia|].
  rewrite IH by lia. reflexivity.
Qed.
Lemma set_attr_comm l id d id' d' : lower id <> lower id' -> set_attr (set_attr l id d) id' d' = set_attr (set_attr l id' d') id d.
Proof.
  intros N. unfold set_attr.
  set (p := fun s : section => str_eqb (s_nid s) (lower id)). set (q := fun s : section => str_eqb (s_nid s) (lower id')).
  assert (Pk : forall d k, find_index p (update_at k (with_data d) l) = find_index p l) by (intros; apply find_index_update; reflexivity).
  assert (Qk : forall d k, find_index q (update_at k (with_data d) l) = find_index q l) by (intros; apply find_index_update; reflexivity).
  destruct (find_index p l) as [i|] eqn:P; destruct (find_index q l) as [j|] eqn:QQ; rewrite ?Pk, ?Qk, ?P, ?QQ; try reflexivity.
  apply update_at_comm. intros ->. destruct (find_index_nth _ _ _ P) as [x [X1 X2]]. destruct (find_index_nth _ _ _ QQ) as [y [Y1 Y2]].
  rewrite X1 in Y1. injection Y1 as <-. apply str_eqb_eq in X2. apply str_eqb_eq in Y2. congruence.
Qed.
Lemma section_load_kind n pv v : section_view n -> view_load n pv = Ok v ->
  (exists l, pv = VSections l) /\ match v with VTags _ => 4 <= n | VChangelog _ => n = 2 | VPrep _ => n = 3 | _ => False end.
Proof.
  intros N H. destruct pv as [l|m|l|t|c|pr]; cbn [M_views.view_load] in H; try (destruct n; discriminate).
  - destruct n as [|[|n]]; [inversion N|inversion N as [|? X]; inversion X|discriminate].
  - split; [exists l; reflexivity|]. destruct n as [|[|[|[|n]]]]; try discriminate.
    + injection H as <-. reflexivity.
    + destruct (attr l (lit "prep")) as [s|]; [|injection H as <-; reflexivity]. destruct (M_prep.parse _); cbn [bind] in H; [|discriminate]. injection H as <-. reflexivity.
    + destruct (attr l (ids n)) as [s|]; [|discriminate]. destruct (fst _); cbn [bind] in H; [|discriminate]. injection H as <-. lia.
Qed.
Lemma views_apart a b f g : section_view a -> section_view b -> lower (view_id a) <> lower (view_id b) ->
  (forall v, same_kind v (f v) \/ match v with VTags _ | VChangelog _ | VPrep _ => False | _ => True end) ->
  (forall v, same_kind v (g v) \/ match v with VTags _ | VChangelog _ | VPrep _ => False | _ => True end) ->
  apart view_load view_store a b f g.
Proof.
  intros SA SB NE KF KG pv v La. destruct (section_load_kind a pv v SA La) as [[l ->] Ka].
  assert (Kf : match f v with VTags _ => 4 <= a | VChangelog _ => a = 2 | VPrep _ => a = 3 | _ => False end).
  { specialize (KF v). destruct v; try contradiction; destruct (f _); cbn [same_kind] in KF; tauto. }
  set (sa := fun l => match view_raw (f v) with Some d => set_attr l (view_id a) d | None => l end).
  assert (STa : forall l, view_store a (f v) (VSections l) = Ok (VSections (sa l))) by (intros; apply section_store; assumption).
  exists (VSections (sa l)). split; [apply STa|]. split.
  { apply load_data; [exact SB|]. unfold sa. destruct (view_raw (f v)); [|reflexivity]. apply attr_set_other. exact NE. }
  intros x Lb. destruct (section_load_kind b _ x SB Lb) as [_ Kb].
  assert (Kg : match g x with VTags _ => 4 <= b | VChangelog _ => b = 2 | VPrep _ => b = 3 | _ => False end).
  { specialize (KG x). destruct x; try contradiction; destruct (g _); cbn [same_kind] in KG; tauto. }
  set (sb := fun l => match view_raw (g x) with Some d => set_attr l (view_id b) d | None => l end).
  assert (STb : forall l, view_store b (g x) (VSections l) = Ok (VSections (sb l))) by (intros; apply section_store; assumption).
  exists (VSections (sb l)), (VSections (sb (sa l))). rewrite !STa, !STb. split; [reflexivity|]. split; [reflexivity|]. f_equal. f_equal.
  unfold sa, sb. destruct (view_raw (f v)), (view_raw (g x)); try reflexivity. apply set_attr_comm. congruence.
Qed.
End Views.
