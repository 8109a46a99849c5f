(** What an edit through one view does to the lines. *)
From Coq Require Import Ascii String.
From Coq Require Import NArith List Bool Lia.
From Verif Require Import PyStr PyStrFacts M_constants M_options M_macro_definitions M_conditions M_sections
  M_tags M_changelog M_prep M_context Spec_context P_context P_context2 P_context3 M_views Spec_views P_views.
Import ListNotations.
Open Scope nat_scope.

Section Context.
Context {V : Type} (load : nat -> V -> result V) (store : nat -> V -> V -> result V) (autosave : bool).
Notation observe := (observe load store autosave).
Lemma inner_ok n p A (b : views -> views * A) s pv v s' a v' pv' w : cur s p = Some pv -> load n pv = Ok v -> b (opened (n :: p) v s) = (s', a) ->
  cur s' (n :: p) = Some v' -> cur s' p = Some pv' -> store n v' pv' = Ok w ->
  inner load store n p b s = (wrote (n :: p) (put p (Some w) (put (n :: p) None s')), Finished _ a None).
Proof. intros C L B C1 C2 S. unfold inner. rewrite C, L, B, C1, C2, S. reflexivity. Qed.
Lemma cur_opened k v (s : @views V) : cur (opened k v s) k = Some v.
Proof. apply upd_same. Qed.
Lemma cur_put k v (s : @views V) : cur (put k v s) k = v.
Proof. apply upd_same. Qed.
Lemma cur_put_other k v (s : @views V) k' : k' <> k -> cur (put k v s) k' = cur s k'.
Proof. apply upd_other. Qed.
Lemma cur_opened_other k v (s : @views V) k' : k' <> k -> cur (opened k v s) k' = cur s k'.
Proof. apply upd_other. Qed.
Lemma edit_inner n p f env s pv v w : cur s p = Some pv -> load n pv = Ok v -> store n (f v) pv = Ok w ->
  inner load store n p (meaning load store autosave (Edit 0 f) ((n :: p) :: env)) s =
  (wrote (n :: p) (put p (Some w) (put (n :: p) None (put (n :: p) (Some (f v)) (opened (n :: p) v s)))), Finished _ None None).
Proof.
  intros C L S. apply (inner_ok _ _ _ _ _ pv v _ _ (f v) pv); try assumption.
  - cbn [Spec_context.meaning nth_error]. rewrite cur_opened. reflexivity.
  - apply cur_put.
  - rewrite cur_put_other, cur_opened_other by apply self_cons. exact C.
Qed.
Lemma edit_one n f d v w : load n d = Ok v -> store n (f v) d = Ok w ->
  observe (With [n] (Edit 0 f)) d = (None, Some w, if autosave then Some w else None, [Loaded []; Loaded [n]; Stored [n]; Stored []]).
Proof.
  intros L S. rewrite observe_eq. unfold observed. rewrite meaning_with.
  rewrite within_child by reflexivity. rewrite within_root by reflexivity.
  rewrite (edit_inner _ _ _ _ _ d v w) by (assumption || reflexivity).
  cbn [fst snd outer]. unfold closed_root. cbn [cur wrote]. rewrite cur_put. reflexivity.
Qed.
Lemma edit_two n m f d pv v pv' w : load m d = Ok pv -> load n pv = Ok v -> store n (f v) pv = Ok pv' -> store m pv' d = Ok w ->
  observe (With [n; m] (Edit 0 f)) d =
    (None, Some w, if autosave then Some w else None, [Loaded []; Loaded [m]; Loaded [n; m]; Stored [n; m]; Stored [m]; Stored []]).
Proof.
  intros L1 L2 S2 S1. rewrite observe_eq. unfold observed. rewrite meaning_with.
  rewrite within_child by reflexivity. rewrite within_child by reflexivity. rewrite within_root by reflexivity.
  pose (s0 := opened [] d (no_views d)). change (opened [] (doc (no_views d)) (no_views d)) with s0.
  pose proof (inner_ok m [] _ _ s0 d pv _ _ pv' d w eq_refl L1 (edit_inner n [m] f [] (opened [m] pv s0) pv v pv' (cur_opened _ _ _) L2 S2)) as H.
  match goal with |- context [inner load store m [] ?b s0] => set (X := inner load store m [] b s0) end.
  change (inner load store m [] (inner load store n [m] (meaning load store autosave (Edit 0 f) [[n; m]])) s0) with X in H. rewrite H; [| | |exact S1].
  - cbn [fst snd outer]. unfold closed_root. cbn [cur wrote]. rewrite cur_put. reflexivity.
  - cbn [cur wrote]. apply cur_put.
  - cbn [cur wrote]. rewrite !cur_put_other, !cur_opened_other by discriminate. reflexivity.
Qed.
End Context.

Section Views.
Context {U : Unicode} (E : bool -> str -> result str) (ids : nat -> str) (autosave : bool).
Notation observe := (observe (view_load E ids) (view_store ids) autosave).
Lemma attr_found a s b id : Forall (fun x => s_nid x <> lower id) a -> s_nid s = lower id -> attr (a ++ s :: b) id = Some s.
Proof.
  intros F K. unfold attr. induction F as [|x a N _ IH]; cbn [app List.find].
  - rewrite K, str_eqb_refl. reflexivity.
  - destruct (str_eqb (s_nid x) (lower id)) eqn:X; [apply str_eqb_eq in X; congruence|exact IH].
Qed.
Lemma set_attr_found a s b id d : Forall (fun x => s_nid x <> lower id) a -> s_nid s = lower id -> set_attr (a ++ s :: b) id d = a ++ with_data d s :: b.
Proof.
  intros F K. apply (set_attr_app _ id d a s b eq_refl).
  induction F as [|x a N _ IH]; cbn [app find_index]; [rewrite K, str_eqb_refl; reflexivity|].
  destruct (str_eqb (s_nid x) (lower id)) eqn:X; [apply str_eqb_eq in X; congruence|]. rewrite IH. reflexivity.
Qed.
Lemma edit_section n id f lines a s b v d :
  fst (M_sections.parse (oracle E) tt lines) = Ok (a ++ s :: b) ->
  Forall (fun x => s_nid x <> lower id) a -> s_nid s = lower id ->
  view_load E ids n (VSections (a ++ s :: b)) = Ok v ->
  view_store ids n (f v) (VSections (a ++ s :: b)) = Ok (VSections (set_attr (a ++ s :: b) id d)) ->
  observe (With [n; SECTIONS] (Edit 0 f)) (VLines lines) = writes autosave (sections_raw (a ++ with_data d s :: b)) [n; SECTIONS].
Proof.
  intros P F K L S. apply (edit_two _ _ _ _ _ _ _ (VSections (a ++ s :: b)) v (VSections (a ++ with_data d s :: b))).
  - cbn [view_load]. change SECTIONS with 1. cbn. rewrite P. reflexivity.
  - exact L.
  - rewrite S. rewrite set_attr_found by assumption. reflexivity.
  - reflexivity.
Qed.
Lemma edit_tags j f lines a s b t :
  fst (M_sections.parse (oracle E) tt lines) = Ok (a ++ s :: b) ->
  Forall (fun x => s_nid x <> lower (ids j)) a -> s_nid s = lower (ids j) ->
  fst (tags_parse (oracle E) TAG_NAMES tt (s_data s)) = Ok t ->
  observe (With [TAGS j; SECTIONS] (Edit 0 (on_tags f))) (VLines lines) = writes autosave (sections_raw (a ++ with_data (tags_raw (f t)) s :: b)) [TAGS j; SECTIONS].
Proof.
  intros P F K T. apply (edit_section _ (ids j) _ _ _ _ _ (VTags t)); try assumption.
  - change (view_load E ids (TAGS j) (VSections (a ++ s :: b))) with (match attr (a ++ s :: b) (ids j) with Some s => let! t := fst (tags_parse (oracle E) TAG_NAMES tt (s_data s)) in Ok (VTags t) | None => Err AttributeError end). rewrite attr_found by assumption. rewrite T. reflexivity.
  - cbn. destruct j; reflexivity.
Qed.
Lemma edit_changelog f lines a s b :
  fst (M_sections.parse (oracle E) tt lines) = Ok (a ++ s :: b) ->
  Forall (fun x => s_nid x <> lit "changelog") a -> s_nid s = lit "changelog" ->
  observe (With [CHANGELOG; SECTIONS] (Edit 0 (fun v => match v with VChangelog (Some c) => VChangelog (Some (f c)) | _ => v end))) (VLines lines) =
  writes autosave (sections_raw (a ++ with_data (get_raw_section_data (f (M_changelog.parse (s_data s)))) s :: b)) [CHANGELOG; SECTIONS].
Proof.
  intros P F K. apply (edit_section _ (lit "changelog") _ _ _ _ _ (VChangelog (Some (M_changelog.parse (s_data s))))); try assumption.
  - cbn. rewrite attr_found by assumption. reflexivity.
  - reflexivity.
Qed.
Lemma edit_prep f lines a s b p :
  fst (M_sections.parse (oracle E) tt lines) = Ok (a ++ s :: b) ->
  Forall (fun x => s_nid x <> lit "prep") a -> s_nid s = lit "prep" -> M_prep.parse (s_data s) = Ok p ->
  observe (With [PREP; SECTIONS] (Edit 0 (fun v => match v with VPrep (Some q) => VPrep (Some (f q)) | _ => v end))) (VLines lines) =
  writes autosave (sections_raw (a ++ with_data (prep_raw (f p)) s :: b)) [PREP; SECTIONS].
Proof.
  intros P F K Q. apply (edit_section _ (lit "prep") _ _ _ _ _ (VPrep (Some p))); try assumption.
  - cbn. rewrite attr_found by assumption. rewrite Q. reflexivity.
  - reflexivity.
Qed.
Lemma edit_sections f lines secs : fst (M_sections.parse (oracle E) tt lines) = Ok secs ->
  observe (With [SECTIONS] (Edit 0 (fun v => match v with VSections l => VSections (f l) | _ => v end))) (VLines lines) = writes autosave (sections_raw (f secs)) [SECTIONS].
Proof. intros P. apply (edit_one _ _ _ _ _ _ (VSections secs)); [cbn; rewrite P; reflexivity|reflexivity]. Qed.
Lemma edit_macros f lines m : fst (parse_with_conditions (oracle E) tt lines true) = Ok m ->
  observe (With [MACROS] (Edit 0 (fun v => match v with VMacros x => VMacros (f x) | _ => v end))) (VLines lines) = writes autosave (get_raw_data (f m)) [MACROS].
Proof. intros P. apply (edit_one _ _ _ _ _ _ (VMacros m)); [|reflexivity]. change (view_load E ids MACROS (VLines lines)) with (let! m := fst (parse_with_conditions (oracle E) tt lines true) in Ok (VMacros m)). rewrite P. reflexivity. Qed.
End Views.
