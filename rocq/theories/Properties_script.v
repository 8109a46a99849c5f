(** C242, C243: sections that are scripts; counting sources. *)
From Coq Require Import Ascii String.
From Coq Require Import NArith ZArith List Bool.
From Verif Require Import PyStr M_constants M_options M_sections Spec_sections Spec_script P_script
  M_tags M_sourcelist M_sources Spec_sources P_sources8 P_sources_count.
Import ListNotations.
Open Scope N_scope.

(** * C242 (refuted): "[is_script] of a section says whether its content is a shell script". *)
(** It says whether the first word of its header, in small letters, is one of a list of names, whatever its options. *)
Theorem C242_by_name :
  forall (U : Unicode) (W : Type) (expand : bool -> W -> str -> result str * W) (w : W) (lines : list str) (secs : list section) (w' : W),
  parse expand w lines = (Ok secs, w') ->
  exists p ss bs, secs = p :: ss /\ lines = s_data p ++ block_lines bs /\ is_script p = false /\
    Forall2 (fun b s => header_word (fst b) (s_name s) /\ (is_script s = true <-> script_header (fst b))) bs ss.
Proof. exact @scripts_read. Qed.
Print Assumptions C242_by_name.
(** The same for a section made by hand. *)
Theorem C242_made :
  forall (U : Unicode) (s : section), In (lower (s_name s)) SECTION_NAMES ->
  (forall c t, s_delim s ++ tokens_str (o_tokens (s_opts s)) = c :: t -> is_space c = true) ->
  is_script s = true <-> In (lower (s_name s)) script_names.
Proof. exact @script_name. Qed.
Print Assumptions C242_made.
(** Hence the shell script of [%prep] is none, and a scriptlet is one whatever its language ([-p]). *)
Theorem C242_prep_refuted :
  forall (U : Unicode) (W : Type) (expand : bool -> W -> str -> result str * W) (w : W) (lines : list str) (secs : list section) (w' : W) (s : section),
  parse expand w lines = (Ok secs, w') -> In s secs -> s_name s = lit "prep" -> is_script s = false.
Proof. exact @prep_no_script. Qed.
Print Assumptions C242_prep_refuted.
Theorem C242_language_refuted :
  forall (U : Unicode) (W : Type) (expand : bool -> W -> str -> result str * W) (w : W) (lines : list str) (secs : list section) (w' : W) (s : section),
  parse expand w lines = (Ok secs, w') -> In s secs -> s_name s = lit "post" -> is_script s = true.
Proof. exact @post_script. Qed.
Print Assumptions C242_language_refuted.
Example C242_example : exists secs,
  fst (parse (U:=unicode_none) (fun _ w s => (Ok s, w)) tt (map lit ["Name: x"; "%prep"; "%setup"; "%Build"; "make"; "%post -p <lua>"; "print(1)"; "%files libs"; "/x"]%string)) = Ok secs /\
  map (fun s => (s_name s, is_script (U:=unicode_none) s)) secs =
    [(lit "package", false); (lit "prep", false); (lit "Build", true); (lit "post", true); (lit "files", false)].
Proof. eexists. split; vm_compute; reflexivity. Qed.

(** * C243: [count(location)] is the number of sources with that location, of tags and of lists. *)
Theorem C243_count : forall (U : Unicode) (s : sources) (loc : str),
  exists ks, NoDup ks /\ count s loc = length ks /\ forall k, In k ks <-> nth_error (locations s) k = Some loc.
Proof. exact @count_positions. Qed.
Print Assumptions C243_count.
Theorem C243_contains : forall (U : Unicode) (s : sources) (loc : str), contains s loc = true <-> (0 < count s loc)%nat.
Proof. exact @count_contains. Qed.
Print Assumptions C243_contains.
Theorem C243_insert : forall (U : Unicode) (s s' : sources) (i : nat) (loc : str), readable s -> insert s (Z.of_nat i) loc = Ok s' ->
  forall x, count s' x = (count s x + if str_eqb x loc then 1 else 0)%nat.
Proof. exact @count_insert. Qed.
Print Assumptions C243_insert.
Theorem C243_remove : forall (U : Unicode) (s s' : sources) (loc : str), readable s -> remove s loc = Ok s' ->
  forall x, count s' x = if str_eqb x loc then 0%nat else count s x.
Proof. exact @count_remove. Qed.
Print Assumptions C243_remove.
Definition example_sources : sources := container false ["Name: foo"; "# first"; "Source0: a"; "Source3:  b"; "License: MIT"; "SOURCE007: c"]%string [["d"; "e"]; []]%string.
Example C243_example : readable (U:=unicode_none) example_sources /\ count (U:=unicode_none) example_sources (lit "b") = 1%nat /\ count (U:=unicode_none) example_sources (lit "q") = 0%nat /\
  match insert (U:=unicode_none) example_sources 1%Z (lit "q") with Ok s' => count (U:=unicode_none) s' (lit "q") = 1%nat | Err _ => False end /\
  match remove (U:=unicode_none) example_sources (lit "b") with Ok s' => count (U:=unicode_none) s' (lit "b") = 0%nat | Err _ => False end.
Proof. split; [apply container_readable|]. split; [vm_compute; reflexivity|]. split; [vm_compute; reflexivity|]. split; vm_compute; reflexivity. Qed.
