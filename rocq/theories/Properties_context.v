(** Properties C40, C41 and C96-C100 (views).  Specification: Spec_context.v, Spec_views.v. *)
From Coq Require Import Ascii String.
From Coq Require Import NArith ZArith List Bool Lia.
From Verif Require Import PyStr PyStrFacts M_constants M_options M_macro_definitions M_conditions Spec_macro_definitions M_sections Spec_sections P_sections
  M_tags Spec_tags M_changelog M_prep Spec_prep M_context Spec_context P_context P_context2 P_context3 M_views Spec_views P_views P_views2.
From Verif Require Properties_sections Properties_tags.
Import ListNotations.
Open Scope nat_scope.

(** C40: the code does what the specification of nested views says: outcome, lines, saved file and log agree, and at the end nothing is open. *)
Theorem C40_nested_views :
  forall (V : Type) (load : nat -> V -> result V) (store : nat -> V -> V -> result V) (autosave : bool) (p : prog) (d : V),
  let (m, r) := run load store autosave p [] (initial d) in
  let (s, r') := meaning load store autosave p [] (no_views d) in
  r = r' /\ nth_error (heap m) 0 = Some (doc s) /\ disk m = saved s /\ log m = history s /\
  (forall k, suspended k m = None) /\ (forall k, cur s k = None).
Proof. exact @refinement. Qed.
Print Assumptions C40_nested_views.
(** C40: whatever a program does and raises, each view is loaded only while it is closed, inside the view it is part of, and then written once. *)
Theorem C40_written_once :
  forall (V : Type) (load : nat -> V -> result V) (store : nat -> V -> V -> result V) (autosave : bool) (p : prog) (d : V),
  (forall n v pv, exists w, store n v pv = Ok w) -> nested [] (snd (observe load store autosave p d)).
Proof. exact @log_nested. Qed.
Print Assumptions C40_written_once.
(** C40: opening a view inside itself is the same as using the value of the outer one. *)
Theorem C40_shared_value :
  forall (V : Type) (load : nat -> V -> result V) (store : nat -> V -> V -> result V) (autosave : bool) (k : path) (a p b : prog) (d : V),
  (forall n v, load n v <> Err KeyError) /\ (forall n v w, store n v w <> Err KeyError) -> no_key_errors p ->
  observe load store autosave (With k (Then a (Then (With k p) b))) d = observe load store autosave (With k (Then a (Then (merged 0 p) b))) d.
Proof. exact @shared_merged. Qed.
Print Assumptions C40_shared_value.
(** C40: an exception in the body does not keep the view from being written, and is raised again. *)
Theorem C40_exception :
  forall (V : Type) (load : nat -> V -> result V) (store : nat -> V -> V -> result V) (autosave : bool) (k : path) (p : prog) (e : exn) (d : V),
  let '(r, l, f, h) := observe load store autosave (With k p) d in
  exists r', observe load store autosave (With k (Then p (Raise e))) d = (r', l, f, h) /\ (r = None -> r' = Some e).
Proof. exact @exception_writes. Qed.
Print Assumptions C40_exception.
(** C40: opening the view that a view is part of makes no difference. *)
Theorem C40_explicit_parent :
  forall (V : Type) (load : nat -> V -> result V) (store : nat -> V -> V -> result V) (autosave : bool) (n : nat) (p : path) (b : prog) (d : V),
  (forall n v, load n v <> Err KeyError) /\ (forall n v w, store n v w <> Err KeyError) ->
  observe load store autosave (With p (With (n :: p) (lifted 1 b))) d = observe load store autosave (With (n :: p) b) d.
Proof. exact @explicit_parent. Qed.
Print Assumptions C40_explicit_parent.
(** The views of a spec file meet these hypotheses if macro expansion raises no KeyError. *)
Theorem C40_views_of_a_spec_file :
  forall (U : Unicode) (E : bool -> str -> result str) (ids : nat -> str),
  (forall n v pv, exists w, view_store ids n v pv = Ok w) /\
  ((forall b x, E b x <> Err KeyError) ->
   (forall n v, view_load E ids n v <> Err KeyError) /\ (forall n v w, view_store ids n v w <> Err KeyError)).
Proof. exact (fun U E ids => conj (views_total ids) (@views_no_key U E ids)). Qed.
Print Assumptions C40_views_of_a_spec_file.

(** For the examples: macros expand to themselves; [tags()] and [tags("package")]. *)
Definition same (b : bool) (x : str) : result str := Ok x.
Definition package (j : nat) : str := lit "package".
Definition set_value (v : str) : value -> value := on_tags (fun t => mk_tags (map (with_value v) (ts_data t)) (ts_remainder t)).
Definition set_body (b : str) (v : value) : value := match v with VMacros m => VMacros (mk_mdefs (map (with_body b) (md_data m)) (md_remainder m)) | _ => v end.
Definition add_line (l : str) (v : value) : value := match v with VLines x => VLines (x ++ [l]) | _ => v end.
Definition spec_lines : list str := map lit ["%global a 1"; "Name: foo"; "%changelog"; "* x"; "- y"]%string.
Notation observed p := (observe (V:=value) (view_load (U:=unicode_none) same package) (view_store (U:=unicode_none) package) true p (VLines spec_lines)).
Definition tags_view : path := [TAGS 0; SECTIONS].
Example C40_example :
  observed (With tags_view (Then (Edit 0 (set_value (lit "b"))) (With tags_view (Then (Edit 0 (set_value (lit "c"))) (Raise ValueError))))) =
    (Some ValueError, Some (VLines (map lit ["%global a 1"; "Name: c"; "%changelog"; "* x"; "- y"]%string)),
     Some (VLines (map lit ["%global a 1"; "Name: c"; "%changelog"; "* x"; "- y"]%string)),
     [Loaded []; Loaded [SECTIONS]; Loaded tags_view; Stored tags_view; Stored [SECTIONS]; Stored []]) /\
  (forall b x, same b x <> Err KeyError).
Proof. split; [vm_compute; reflexivity|discriminate]. Qed.

(** C96: a KeyError that the user's code raises inside a view that is open already is lost, and the program goes on. *)
Theorem C96_key_error_lost_refuted :
  forall (V : Type) (load : nat -> V -> result V) (store : nat -> V -> V -> result V) (autosave : bool) (k : path) (b : prog) (d : V),
  observe load store autosave (With k (Then (With k (Raise KeyError)) b)) d = observe load store autosave (With k b) d.
Proof. exact @key_error_lost. Qed.
Print Assumptions C96_key_error_lost_refuted.
Example C96_example : fst (fst (fst (observed (With tags_view (Then (With tags_view (Raise KeyError)) Skip))))) = None /\
  fst (fst (fst (observed (With tags_view (Then (With tags_view (Raise ValueError)) Skip))))) = Some ValueError.
Proof. split; vm_compute; reflexivity. Qed.

(** C41: of [sections()] and [macro_definitions()] the inner one is ignored: every change made through it is lost. *)
Theorem C41_inner_change_lost_refuted :
  forall (U : Unicode) (E : bool -> str -> result str) (ids : nat -> str) (autosave : bool) (a b : nat) (f g : value -> value) (d : value),
  (a = MACROS /\ b = SECTIONS) \/ (a = SECTIONS /\ b = MACROS) ->
  observe (view_load E ids) (view_store ids) autosave (With [a] (With [b] (Edit 0 f))) d =
  observe (view_load E ids) (view_store ids) autosave (With [a] (With [b] (Edit 0 g))) d.
Proof. exact @lost_lines. Qed.
Print Assumptions C41_inner_change_lost_refuted.
Example C41_example :
  snd (fst (fst (observed (With [MACROS] (Edit 0 (set_body (lit "2"))))))) = Some (VLines (map lit ["%global a 2"; "Name: foo"; "%changelog"; "* x"; "- y"]%string)) /\
  snd (fst (fst (observed (With [SECTIONS] (With [MACROS] (Edit 0 (set_body (lit "2")))))))) = Some (VLines spec_lines).
Proof. split; vm_compute; reflexivity. Qed.

(** C97: views of different sections can be nested: the result is that of using them one after the other. *)
Theorem C97_different_sections :
  forall (U : Unicode) (E : bool -> str -> result str) (ids : nat -> str) (autosave : bool) (a b : nat) (f g : value -> value) (d : value),
  2 <= a -> 2 <= b -> lower (view_id ids a) <> lower (view_id ids b) ->
  (forall v, same_kind v (f v) \/ match v with VTags _ | VChangelog _ | VPrep _ => False | _ => True end) ->
  (forall v, same_kind v (g v) \/ match v with VTags _ | VChangelog _ | VPrep _ => False | _ => True end) ->
  let '(_, l1, f1, _) := observe (view_load E ids) (view_store ids) autosave (With [SECTIONS] (With [a; SECTIONS] (Then (Edit 0 f) (With [b; SECTIONS] (Edit 0 g))))) d in
  let '(_, l2, f2, _) := observe (view_load E ids) (view_store ids) autosave (With [SECTIONS] (Then (With [a; SECTIONS] (Edit 0 f)) (With [b; SECTIONS] (Edit 0 g)))) d in
  l1 = l2 /\ f1 = f2.
Proof.
  exact (fun U E ids autosave a b f g d Ha Hb N Kf Kg =>
    apart_views (view_load E ids) (view_store ids) autosave a b [SECTIONS] f g d (fun e => N (f_equal (fun n => lower (view_id ids n)) e)) (views_apart E ids a b f g Ha Hb N Kf Kg)).
Qed.
Print Assumptions C97_different_sections.
Definition drop_entries (v : value) : value := match v with VChangelog (Some c) => VChangelog (Some (mk_changelog [] [])) | _ => v end.
Example C97_example :
  snd (fst (fst (observed (With [SECTIONS] (With tags_view (Then (Edit 0 (set_value (lit "b"))) (With [CHANGELOG; SECTIONS] (Edit 0 drop_entries)))))))) =
    Some (VLines (map lit ["%global a 1"; "Name: b"; "%changelog"]%string)) /\
  lower (U:=unicode_none) (view_id package (TAGS 0)) <> lower (U:=unicode_none) (view_id package CHANGELOG) /\
  (forall v, same_kind v (set_value (lit "b") v) \/ match v with VTags _ | VChangelog _ | VPrep _ => False | _ => True end) /\
  (forall v, same_kind v (drop_entries v) \/ match v with VTags _ | VChangelog _ | VPrep _ => False | _ => True end).
Proof.
  split; [vm_compute; reflexivity|]. split; [vm_compute; discriminate|].
  split; intros v; destruct v as [l|m|l|t|[c|]|[q|]]; cbn; auto.
Qed.

(** C98: [tags()] and [tags("package")] are different views of the same section, and the change through the inner one is lost. *)
Theorem C98_spellings_refuted :
  forall (U : Unicode) (E : bool -> str -> result str) (ids : nat -> str) (autosave : bool) (i j : nat) (f g : tags -> tags) (d : value),
  i <> j -> lower (ids i) = lower (ids j) ->
  observe (view_load E ids) (view_store ids) autosave (With [TAGS i; SECTIONS] (With [TAGS j; SECTIONS] (Edit 0 (on_tags f)))) d =
  observe (view_load E ids) (view_store ids) autosave (With [TAGS i; SECTIONS] (With [TAGS j; SECTIONS] (Edit 0 (on_tags g)))) d.
Proof. exact @lost_tags. Qed.
Print Assumptions C98_spellings_refuted.
Example C98_example :
  snd (fst (fst (observed (With [TAGS 0; SECTIONS] (With [TAGS 0; SECTIONS] (Edit 0 (set_value (lit "b")))))))) = Some (VLines (map lit ["%global a 1"; "Name: b"; "%changelog"; "* x"; "- y"]%string)) /\
  snd (fst (fst (observed (With [TAGS 0; SECTIONS] (With [TAGS 1; SECTIONS] (Edit 0 (set_value (lit "b")))))))) = Some (VLines spec_lines).
Proof. split; vm_compute; reflexivity. Qed.

(** C99: looking at a spec file through any views, in any nesting, leaves its lines and the file as they are. *)
Theorem C99_reading_changes_nothing :
  forall (U : Unicode) (E : bool -> str -> result str) (ids : nat -> str) (lines : list str), plain_spec E ids lines ->
  forall (autosave : bool) (p : prog), no_edits p ->
  let '(r, l, f, h) := observe (view_load E ids) (view_store ids) autosave p (VLines lines) in
  l = Some (VLines lines) /\ (f = None \/ f = Some (VLines lines)).
Proof. exact @quiet_views. Qed.
Print Assumptions C99_reading_changes_nothing.
Example C99_example : plain_spec (U:=unicode_none) same package spec_lines /\
  observed (With tags_view (Then (With [CHANGELOG; SECTIONS] (Then (With [MACROS] (Raise KeyError)) Skip)) Skip)) =
    (Some KeyError, Some (VLines spec_lines), Some (VLines spec_lines),
     [Loaded []; Loaded [SECTIONS]; Loaded tags_view; Loaded [CHANGELOG; SECTIONS]; Loaded [MACROS]; Stored [MACROS]; Stored [CHANGELOG; SECTIONS]; Stored tags_view; Stored [SECTIONS]; Stored []]).
Proof.
  split; [|vm_compute; reflexivity].
  assert (H : forall x, In x spec_lines -> ~ In LF x /\ ~ In HASH x /\ is_space (last x 0%N) = false /\ x <> [] /\ no_break x /\ rstrip x = x /\
    Forall (fun c => c <> DQUOTE /\ c <> SQUOTE /\ c <> BSLASH /\ c <> PCT) (tl x) /\ (forall y, x <> PCT :: LBRACE :: y)).
  { intros x I. cbn in I. repeat (destruct I as [<-|I]; [split; [cbn; intuition discriminate|]; split; [cbn; intuition discriminate|]; split; [vm_compute; reflexivity|];
      split; [discriminate|]; split; [repeat (constructor; [vm_compute; reflexivity|]); constructor|]; split; [vm_compute; reflexivity|];
      split; [repeat (constructor; [repeat split; discriminate|]); constructor|intros y; cbn; discriminate]|]). destruct I. }
  split; [|split; [|split]].
  - split.
    + apply Forall_forall. intros x I. destruct (H x I) as [H1 [H2 [H3 _]]]. split; [exact H1|]. split.
      * intros (w & y & k & z & _ & _ & Iy & ->). apply H2. apply in_or_app. right. apply in_or_app. right. apply in_or_app. left. exact Iy.
      * intros (a & c & -> & Sc). rewrite last_last in H3. congruence.
    + intros (a & l & E & _). apply (f_equal (fun x => last x [0%N])) in E. change (a ++ [l; []]) with (a ++ [l] ++ [[]]) in E. rewrite app_assoc, last_last in E. discriminate.
  - apply Forall_forall. intros x I. apply (H x I).
  - apply Forall_forall. intros x I _. apply Properties_sections.C01_plain_headers_are_stable. apply (H x I).
  - intros secs P. assert (Q : exists s1 s2, secs = [s1; s2] /\ s_nid (U:=unicode_none) s1 = lit "package" /\ s_nid (U:=unicode_none) s2 = lit "changelog" /\ s_data s1 = firstn 2 spec_lines).
    { vm_compute in P. injection P as <-. eexists. eexists. split; [reflexivity|]. repeat split. }
    destruct Q as [s1 [s2 [-> [N1 [N2 D1]]]]]. split.
    + constructor; [rewrite N2; discriminate|constructor].
    + constructor; [|constructor; [|constructor]].
      * rewrite N1, D1. split; [discriminate|]. intros _ _. split; [|split]; apply Forall_forall; intros x I; assert (I' : In x spec_lines) by (destruct I as [<-|[<-|[]]]; cbn; auto); try apply (H x I').
        apply Properties_tags.C11_regular_lines. left. apply (H x I').
      * rewrite N2. split; [discriminate|]. intros j. discriminate.
Qed.

(** C100: a change through a view is written to the section that the view shows, the first one of its name, and nothing else changes. *)
(** C100: tags. *)
Theorem C100_tags :
  forall (U : Unicode) (E : bool -> str -> result str) (ids : nat -> str) (autosave : bool) (j : nat) (f : tags -> tags) (lines : list str) (a : list section) (s : section) (b : list section) (t : tags),
  fst (M_sections.parse (oracle E) tt lines) = Ok (a ++ s :: b) -> Forall (fun x => s_nid x <> lower (ids j)) a -> s_nid s = lower (ids j) ->
  fst (tags_parse (oracle E) TAG_NAMES tt (s_data s)) = Ok t ->
  observe (view_load E ids) (view_store ids) autosave (With [TAGS j; SECTIONS] (Edit 0 (on_tags f))) (VLines lines) =
  writes autosave (sections_raw (a ++ with_data (tags_raw (f t)) s :: b)) [TAGS j; SECTIONS].
Proof. exact @edit_tags. Qed.
Print Assumptions C100_tags.
(** C100: the changelog. *)
Theorem C100_changelog :
  forall (U : Unicode) (E : bool -> str -> result str) (ids : nat -> str) (autosave : bool) (f : changelog -> changelog) (lines : list str) (a : list section) (s : section) (b : list section),
  fst (M_sections.parse (oracle E) tt lines) = Ok (a ++ s :: b) -> Forall (fun x => s_nid x <> lit "changelog") a -> s_nid s = lit "changelog" ->
  observe (view_load E ids) (view_store ids) autosave (With [CHANGELOG; SECTIONS] (Edit 0 (fun v => match v with VChangelog (Some c) => VChangelog (Some (f c)) | _ => v end))) (VLines lines) =
  writes autosave (sections_raw (a ++ with_data (get_raw_section_data (f (M_changelog.parse (s_data s)))) s :: b)) [CHANGELOG; SECTIONS].
Proof. exact @edit_changelog. Qed.
Print Assumptions C100_changelog.
(** C100: the prep section. *)
Theorem C100_prep :
  forall (U : Unicode) (E : bool -> str -> result str) (ids : nat -> str) (autosave : bool) (f : prep -> prep) (lines : list str) (a : list section) (s : section) (b : list section) (p : prep),
  fst (M_sections.parse (oracle E) tt lines) = Ok (a ++ s :: b) -> Forall (fun x => s_nid x <> lit "prep") a -> s_nid s = lit "prep" -> M_prep.parse (s_data s) = Ok p ->
  observe (view_load E ids) (view_store ids) autosave (With [PREP; SECTIONS] (Edit 0 (fun v => match v with VPrep (Some q) => VPrep (Some (f q)) | _ => v end))) (VLines lines) =
  writes autosave (sections_raw (a ++ with_data (prep_raw (f p)) s :: b)) [PREP; SECTIONS].
Proof. exact @edit_prep. Qed.
Print Assumptions C100_prep.
(** C100: all sections. *)
Theorem C100_sections :
  forall (U : Unicode) (E : bool -> str -> result str) (ids : nat -> str) (autosave : bool) (f : list section -> list section) (lines : list str) (secs : list section),
  fst (M_sections.parse (oracle E) tt lines) = Ok secs ->
  observe (view_load E ids) (view_store ids) autosave (With [SECTIONS] (Edit 0 (fun v => match v with VSections l => VSections (f l) | _ => v end))) (VLines lines) = writes autosave (sections_raw (f secs)) [SECTIONS].
Proof. exact @edit_sections. Qed.
Print Assumptions C100_sections.
(** C100: macro definitions. *)
Theorem C100_macro_definitions :
  forall (U : Unicode) (E : bool -> str -> result str) (ids : nat -> str) (autosave : bool) (f : mdefs -> mdefs) (lines : list str) (m : mdefs),
  fst (parse_with_conditions (oracle E) tt lines true) = Ok m ->
  observe (view_load E ids) (view_store ids) autosave (With [MACROS] (Edit 0 (fun v => match v with VMacros x => VMacros (f x) | _ => v end))) (VLines lines) = writes autosave (get_raw_data (f m)) [MACROS].
Proof. exact @edit_macros. Qed.
Print Assumptions C100_macro_definitions.
Example C100_example : exists s1 s2 t,
  fst (M_sections.parse (U:=unicode_none) (oracle same) tt spec_lines) = Ok ([] ++ s1 :: [s2]) /\ s_nid (U:=unicode_none) s1 = lit "package" /\
  fst (tags_parse (U:=unicode_none) (oracle same) TAG_NAMES tt (s_data s1)) = Ok t /\ length (ts_data t) = 1 /\
  s_nid (U:=unicode_none) s2 = lit "changelog" /\ Forall (fun x => s_nid (U:=unicode_none) x <> lit "changelog") [s1] /\
  (exists m, fst (parse_with_conditions (U:=unicode_none) (oracle same) tt spec_lines true) = Ok m /\ length (md_data m) = 1) /\
  observed (With tags_view (Edit 0 (set_value (lit "b")))) = writes true (map lit ["%global a 1"; "Name: b"; "%changelog"; "* x"; "- y"]%string) tags_view.
Proof.
  eexists. eexists. eexists. split; [vm_compute; reflexivity|]. split; [reflexivity|]. split; [vm_compute; reflexivity|]. split; [reflexivity|]. split; [reflexivity|].
  split; [constructor; [discriminate|constructor]|]. split; [eexists; split; [vm_compute; reflexivity|reflexivity]|]. vm_compute. reflexivity.
Qed.
