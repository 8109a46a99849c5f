(** Properties C11-C17 and C64-C72 (tags).  Specification: Spec_tags.v. *)
From Coq Require Import Ascii String.
From Coq Require Import NArith ZArith List Bool Lia.
From Verif Require Import PyStr PyStrFacts M_constants M_value M_macro_definitions Spec_macro_definitions M_conditions Spec_sections M_tags Spec_tags
  P_tags P_tags2 P_tags3 P_tags4 P_tags5.
Import ListNotations.
Open Scope N_scope.

Definition with_tags {A} (d : A) (lines : list str) (f : tags -> A) : A := match parse_tags lines with Ok ts => f ts | Err _ => d end.
Definition example_lines : list str :=
  map lit ["# a package"; "NAME : foo  "; ""; "%if 0"; "  # why"; "Source0:  x.tar"; "%endif"; "%{?x:Requires(post):  bar baz}"; "Summary: %{expand:"; "a b"; "}"; "%description"]%string.

(** C11: nothing is changed by parsing and writing back. *)
Theorem C11_round_trip :
  forall (U : Unicode) (W : Type) (expand : bool -> W -> str -> result str * W) (w : W) (lines : list str) (ts : tags) (w' : W),
  Forall (fun l => ~ In LF l) lines -> Forall (fun l => regular (rstrip l)) lines ->
  tags_parse expand TAG_NAMES w lines = (Ok ts, w') ->
  (forall t, In t (ts_data ts) -> In LF (t_value t) -> t_suffix t = []) ->
  tags_raw ts = lines.
Proof. exact @tags_round_trip. Qed.
Print Assumptions C11_round_trip.
(** The last hypothesis is met if no line ends in white space. *)
Theorem C11_round_trip_without_trailing_white_space :
  forall (U : Unicode) (W : Type) (expand : bool -> W -> str -> result str * W) (w : W) (lines : list str) (ts : tags) (w' : W),
  Forall (fun l => ~ In LF l) lines -> Forall (fun l => rstrip l = l) lines -> Forall regular lines ->
  tags_parse expand TAG_NAMES w lines = (Ok ts, w') -> tags_raw ts = lines.
Proof. exact @tags_round_trip_plain. Qed.
Print Assumptions C11_round_trip_without_trailing_white_space.
(** Regular lines: not starting with "%{", or without another percent sign, or without white space. *)
Theorem C11_regular_lines :
  forall (U : Unicode) (line : str),
  (forall x, line <> PCT :: LBRACE :: x) \/ (exists x, line = PCT :: x /\ ~ In PCT x) \/ Forall (fun c => is_space c = false) line ->
  regular line.
Proof. exact (fun U line H => match H with or_introl H1 => @regular_not_braced U line H1 | or_intror (or_introl (ex_intro _ x (conj e n))) => eq_ind_r regular (@regular_one_pct U x n) e | or_intror (or_intror H3) => @regular_no_space U line H3 end). Qed.
Print Assumptions C11_regular_lines.
Example C11_example :
  with_tags [] example_lines tags_raw = example_lines /\ with_tags [] example_lines (fun ts => map t_name (ts_data ts)) = map lit ["NAME"; "Source0"; "Requires(post)"; "Summary"]%string /\
  Forall (fun l => ~ In LF l) example_lines /\ Forall (fun l => regular (U:=unicode_none) (rstrip l)) example_lines /\
  with_tags false example_lines (fun ts => forallb (fun t => negb (existsb (N.eqb LF) (t_value t)) || str_eqb (t_suffix t) []) (ts_data ts)) = true.
Proof.
  split; [vm_compute; reflexivity|]. split; [vm_compute; reflexivity|]. split; [|split; [|vm_compute; reflexivity]].
  - repeat constructor; cbn; intuition discriminate.
  - repeat apply Forall_cons; try apply Forall_nil; apply C11_regular_lines; try (left; intros x Q; vm_compute in Q; discriminate).
    right. left. exists (lit "{?x:Requires(post):  bar baz}"). split; [vm_compute; reflexivity|]. cbn. intuition discriminate.
Qed.

(** C12: setting the value of tag [k] replaces the tag's lines and no other. *)
Theorem C12_value_change_is_local :
  forall (ts : tags) (k : nat) (t : tag) (v : str), nth_error (ts_data ts) k = Some t ->
  let ts' := mk_tags (update_at k (with_value v) (ts_data ts)) (ts_remainder ts) in
  let x := flat_map tag_raw (firstn k (ts_data ts)) ++ comments_raw (t_comments t) in
  exists y, tags_raw ts = x ++ split_on LF [] (tag_text t) ++ y /\ tags_raw ts' = x ++ split_on LF [] (tag_text (with_value v t)) ++ y.
Proof. exact set_value_lines. Qed.
Print Assumptions C12_value_change_is_local.
Theorem C12_single_line :
  forall (t : tag) (v : str), ~ In LF (tag_text (with_value v t)) ->
  split_on LF [] (tag_text (with_value v t)) = [t_prefix t ++ t_name t ++ t_separator t ++ v ++ t_suffix t].
Proof. exact own_single. Qed.
Print Assumptions C12_single_line.
(** Assignment by name changes the tag that lookup returns. *)
Theorem C12_assignment_by_name :
  forall (U : Unicode) (ts : tags) (name v : str) (ts' : tags), tag_set ts name v = Some (Ok ts') ->
  exists k t x y, tag_find ts name = Ok k /\ nth_error (ts_data ts) k = Some t /\ capitalize (t_name t) = capitalize name /\
    tags_raw ts = x ++ split_on LF [] (tag_text t) ++ y /\ tags_raw ts' = x ++ split_on LF [] (tag_text (with_value v t)) ++ y /\
    nth_error (ts_data ts') k = Some (with_value v t).
Proof. exact @set_by_name. Qed.
Print Assumptions C12_assignment_by_name.
(** The new line is a tag with the same name and the new value, and with no other reading. *)
Theorem C12_value_reads_back :
  forall (U : Unicode) (line n s old c v : _), tag_line line n s old -> is_space c = false ->
  forall n' s' v', tag_line (n ++ s ++ c :: v) n' s' v' <-> n' = n /\ s' = s /\ v' = c :: v.
Proof. exact @value_reads_back. Qed.
Print Assumptions C12_value_reads_back.
Example C12_example :
  with_tags [] example_lines (fun ts => match tag_set (U:=unicode_none) ts (lit "source0") (lit "y") with Some (Ok ts') => tags_raw ts' | _ => [] end) =
  firstn 5 example_lines ++ lit "Source0:  y" :: skipn 6 example_lines.
Proof. vm_compute. reflexivity. Qed.

(** C13: [del tags[k]] removes the lines and comments of tag [k]; the lines above and below are joined. *)
Theorem C13_delete_removes_own_lines :
  forall (ts : tags) (k : nat) (t : tag), nth_error (ts_data ts) k = Some t ->
  exists ts' x above below y, delete_at (Z.of_nat k) ts = Ok ts' /\
    tags_raw ts = x ++ above ++ own_lines t ++ below ++ y /\
    x = flat_map tag_raw (firstn k (ts_data ts)) /\ above = t_preceding t /\
    below = match nth_error (ts_data ts) (S k) with Some u => t_preceding u | None => ts_remainder ts end /\
    tags_raw ts' = x ++ merge_preceding above below ++ y /\
    map own_lines (ts_data ts') = map own_lines (remove_at k (ts_data ts)).
Proof. exact delete_lines. Qed.
Print Assumptions C13_delete_removes_own_lines.
(** Joining keeps all lines except that empty lines at the seam become one empty line. *)
Theorem C13_joined_lines :
  forall (above below : list str), exists above' i j below',
  above = above' ++ repeat [] i /\ below = repeat [] j ++ below' /\ (forall q, above' <> q ++ [[]]) /\ (forall q, below' <> [] :: q) /\
  merge_preceding above below = above' ++ repeat [] (if Nat.eqb (i + j) 0 then 0 else 1) ++ below'.
Proof. exact merge_spec. Qed.
Print Assumptions C13_joined_lines.
(** Deleting a slice: all lines that are not empty and do not belong to a deleted tag are kept in order. *)
Theorem C13_delete_slice :
  forall (is : list nat) (ts : tags), decreasing is -> Forall (fun i => (i < length (ts_data ts))%nat) is ->
  exists ts', delete_all ts is = Ok ts' /\
    nonempty_lines (tags_raw ts') = nonempty_lines (lines_keeping (fun i => negb (existsb (Nat.eqb i) is)) 0 (ts_data ts) ++ ts_remainder ts) /\
    length (ts_data ts') = (length (ts_data ts) - length is)%nat.
Proof. exact delete_all_lines. Qed.
Print Assumptions C13_delete_slice.
Example C13_example :
  with_tags [] example_lines (fun ts => match delete_at 1 ts with Ok ts' => tags_raw ts' | _ => [] end) =
    firstn 4 example_lines ++ skipn 6 example_lines /\
  with_tags [] example_lines (fun ts => match delete_all ts [2; 1]%nat with Ok ts' => tags_raw ts' | _ => [] end) =
    firstn 4 example_lines ++ [lit "%endif"] ++ skipn 8 example_lines /\ decreasing [2; 1]%nat.
Proof. split; [vm_compute; reflexivity|]. split; [vm_compute; reflexivity|]. repeat constructor. Qed.

(** C14: [insert] adds the lines of the new tag in one place and changes nothing else. *)
Theorem C14_insert :
  forall (ts : tags) (i : Z) (item : tag), (- Z.of_nat (length (ts_data ts)) <= i)%Z ->
  let k := clamp_index (ts_data ts) i in
  exists ts' x m y, tag_insert i item ts = Ok ts' /\
    tags_raw ts = x ++ m ++ y /\ tags_raw ts' = x ++ m ++ tag_raw item ++ y /\
    x = flat_map tag_raw (firstn k (ts_data ts)) /\ m = fst (split_endif (between k ts)) /\
    map own_lines (ts_data ts') = firstn k (map own_lines (ts_data ts)) ++ own_lines item :: skipn k (map own_lines (ts_data ts)).
Proof. exact insert_lines. Qed.
Print Assumptions C14_insert.
(** The place: after the first [%endif] between the neighbours, if any. *)
Theorem C14_place :
  forall (l : list str), let (m, k) := split_endif l in
  l = m ++ k /\
  ((m = [] /\ Forall (fun s => startswith s (lit "%endif") = false) k) \/
   (exists a e, m = a ++ [e] /\ startswith e (lit "%endif") = true /\ Forall (fun s => startswith s (lit "%endif") = false) a)).
Proof. exact split_endif_spec. Qed.
Print Assumptions C14_place.
Theorem C14_append :
  forall (ts : tags) (item : tag),
  tags_raw (tag_append item ts) = flat_map tag_raw (ts_data ts) ++ tag_raw item ++ ts_remainder ts.
Proof. exact append_lines. Qed.
Print Assumptions C14_append.
Example C14_example :
  with_tags [] example_lines (fun ts => match tag_insert (-2) (mk_tag (lit "License") (lit "MIT") (lit ": ") (mk_comments [] []) true [] []) ts with Ok ts' => tags_raw ts' | _ => [] end) =
    firstn 7 example_lines ++ lit "License: MIT" :: skipn 7 example_lines.
Proof. vm_compute. reflexivity. Qed.

(** C15: the result does not depend on the order of the set of tag names. *)
Theorem C15_order_of_names :
  forall (U : Unicode) (W : Type) (expand : bool -> W -> str -> result str * W) (names names' : list str) (w : W) (lines : list str),
  (forall n, In n names <-> In n TAG_NAMES) -> (forall n, In n names' <-> In n TAG_NAMES) ->
  tags_parse expand names w lines = tags_parse expand names' w lines.
Proof. exact @tags_parse_order. Qed.
Print Assumptions C15_order_of_names.
Example C15_example : rev TAG_NAMES <> TAG_NAMES /\ forall n, In n (rev TAG_NAMES) <-> In n TAG_NAMES.
Proof. split; [vm_compute; discriminate|]. intros n. symmetry. apply in_rev. Qed.

(** C16: if no equal tag and no tag of several lines precedes a tag, its reported position is the number of its line. *)
Theorem C16_position_is_line_number :
  forall (ts : tags) (a : list tag) (t : tag) (b : list tag),
  ts_data ts = a ++ t :: b -> (forall x, In x a -> ~ same_tag x t) -> Forall (fun x => ~ In LF (tag_text x)) a ->
  exists p, tag_position t ts = Ok p /\ firstn p (tags_raw ts) = flat_map tag_raw a ++ comments_raw (t_comments t) /\
    skipn p (tags_raw ts) = split_on LF [] (tag_text t) ++ flat_map tag_raw b ++ ts_remainder ts.
Proof. exact position_exact. Qed.
Print Assumptions C16_position_is_line_number.
Example C16_example :
  with_tags (Err OtherError) example_lines (fun ts => match nth_error (ts_data ts) 2 with Some t => tag_position t ts | None => Err OtherError end) = Ok 7%nat.
Proof. vm_compute. reflexivity. Qed.

(** C17: lookup by name prefers the first valid tag, then the first. *)
Theorem C17_tag_lookup :
  forall (U : Unicode) (m : tags) (name : str),
  match tag_find m name with
  | Ok k => exists d, nth_error (ts_data m) k = Some d /\ capitalize (t_name d) = capitalize name /\
      ((t_valid d = true /\ forall j d', (j < k)%nat -> nth_error (ts_data m) j = Some d' -> capitalize (t_name d') = capitalize name -> t_valid d' = false) \/
       ((forall d', In d' (ts_data m) -> capitalize (t_name d') = capitalize name -> t_valid d' = false) /\
        forall j d', (j < k)%nat -> nth_error (ts_data m) j = Some d' -> capitalize (t_name d') <> capitalize name))
  | Err e => e = ValueError /\ forall d, In d (ts_data m) -> capitalize (t_name d) <> capitalize name
  end.
Proof. exact @find_spec. Qed.
Print Assumptions C17_tag_lookup.
Theorem C17_tag_lookup_at_position :
  forall (U : Unicode) (m : tags) (name : str) (position : nat),
  match tag_find_at m name position with
  | Ok k => exists d, nth_error (ts_data m) k = Some d /\ capitalize (t_name d) = capitalize name /\ tag_position d m = Ok position
  | Err e => e = ValueError /\ forall d, In d (ts_data m) -> capitalize (t_name d) = capitalize name -> tag_position d m <> Ok position
  end.
Proof. exact @find_at_spec. Qed.
Print Assumptions C17_tag_lookup_at_position.
(** For ASCII names this compares letters without their case. *)
Theorem C17_names_without_case :
  forall (U : Unicode) (a b : str), Forall (fun c => c < 128) a -> Forall (fun c => c < 128) b ->
  (capitalize a = capitalize b <-> Forall2 (fun x y => x = y \/ (97 <= x <= 122 /\ y + 32 = x) \/ (97 <= y <= 122 /\ x + 32 = y)) a b).
Proof. exact @capitalize_ascii. Qed.
Print Assumptions C17_names_without_case.
(** [del tags.name] deletes the tag found. *)
Theorem C17_delete_by_name :
  forall (U : Unicode) (ts : tags) (name : str) (ts' : tags), tag_delattr ts name = Some (Ok ts') ->
  exists k t a b, tag_find ts name = Ok k /\ length a = k /\ ts_data ts = a ++ t :: b /\ ts_data ts' = a ++ b /\ ts_remainder ts' = ts_remainder ts.
Proof. exact @deleted_by_name. Qed.
Print Assumptions C17_delete_by_name.
Example C17_delete_example :
  with_tags [] (map lit ["%if 0"; "version: 1"; "%else"; "Version: 2"; "%endif"; "Version: 3"]%string)
    (fun ts => match tag_delattr (U:=unicode_none) ts (lit "Version") with Some (Ok ts') => map t_value (ts_data ts') | _ => [] end) = [lit "1"; lit "3"].
Proof. vm_compute. reflexivity. Qed.
Example C17_tag_example :
  with_tags (Err OtherError) (map lit ["%if 0"; "version: 1"; "%else"; "Version: 2"; "%endif"; "Version: 3"]%string) (fun ts => tag_find (U:=unicode_none) ts (lit "VERSION")) = Ok 1%nat.
Proof. vm_compute. reflexivity. Qed.

(** C64: the tags found are the tags written, with the validity flags of their lines. *)
Theorem C64_tags_found_are_tags_written :
  forall (U : Unicode) (W : Type) (expand : bool -> W -> str -> result str * W) (w : W) (lines : list str) (ts : tags) (w' : W),
  Forall (fun l => ~ In LF l) lines -> Forall (fun l => regular (rstrip l)) lines ->
  tags_parse expand TAG_NAMES w lines = (Ok ts, w') -> (forall t, In t (ts_data ts) -> ~ In LF (t_value t)) ->
  exists tagged, process_conditions expand w lines (Some (parse_plain lines)) = (Ok tagged, w') /\ map fst tagged = lines /\ written tagged (ts_data ts).
Proof. exact @tags_written. Qed.
Print Assumptions C64_tags_found_are_tags_written.
(** A line has one reading as a tag. *)
Theorem C64_one_reading :
  forall (U : Unicode) (line n s v n' s' v' : str), tag_line line n s v -> tag_line line n' s' v' -> n = n' /\ s = s' /\ v = v'.
Proof. exact @tag_line_unique. Qed.
Print Assumptions C64_one_reading.
Example C64_example :
  with_tags [] (map lit ["name:x"; "Names: y"; "%{?x:Source12 : y }"; "Sources: z"; "Requires ( post): a"; " Name: x"]%string) (fun ts => map (fun t => (t_name t, t_separator t, t_value t)) (ts_data ts)) =
  [(lit "name", lit ":", lit "x"); (lit "Source12", lit " : ", lit "y "); (lit "Requires ( post)", lit ": ", lit "a")].
Proof. vm_compute. reflexivity. Qed.

(** C65: the comments of a tag are the longest run of comment lines directly above it. *)
Theorem C65_comments :
  forall (lines : list str), Forall (fun l => ~ In LF l) lines ->
  comments_raw (comments_parse lines) = lines /\
  Forall comment_line (map comment_str (cs_data (comments_parse lines))) /\
  (forall p l, cs_preceding (comments_parse lines) = p ++ [l] -> ~ comment_line l).
Proof. exact comments_parse_spec. Qed.
Print Assumptions C65_comments.
Example C65_example :
  map c_text (cs_data (comments_parse (map lit ["# a"; "b"; " #  c"; "#"]%string))) = map lit ["c"; ""]%string.
Proof. vm_compute. reflexivity. Qed.

(** Findings. *)
(** C66: trailing white space of an inner line of a value is repeated at the end of the value. *)
Theorem C66_trailing_white_space_refuted :
  exists lines ts, parse_tags lines = Ok ts /\ Forall (fun l => ~ In LF l) lines /\ Forall (fun l => regular (U:=unicode_none) l) lines /\ tags_raw ts <> lines.
Proof. exact white_space_repeated. Qed.
Print Assumptions C66_trailing_white_space_refuted.
(** C67: white space inside a reference is changed, even in a line that is no tag. *)
Theorem C67_inner_white_space_refuted :
  exists ts, parse_tags [lit "%{?x:%{y  z}}"] = Ok ts /\ tags_raw ts = [lit "%{?x:%{y z}}"].
Proof. exact inner_white_space. Qed.
Print Assumptions C67_inner_white_space_refuted.
(** C68: a line with an empty reference makes the parser fail. *)
Theorem C68_empty_reference_refuted : parse_tags [lit "Name: x"; lit "# %{}"] = Err ValueError.
Proof. exact empty_reference. Qed.
Print Assumptions C68_empty_reference_refuted.
(** C69: deleting by name (or [remove], [pop]) loses the lines above the tag. *)
Theorem C69_delete_by_name_refuted :
  exists ts ts', parse_tags (map lit ["%if 1"; "Name: x"; "%endif"]%string) = Ok ts /\ tag_delattr (U:=unicode_none) ts (lit "name") = Some (Ok ts') /\
    tags_raw ts' = [lit "%endif"] /\ tags_raw (tag_pop 0 ts) = [lit "%endif"].
Proof. exact delete_by_name. Qed.
Print Assumptions C69_delete_by_name_refuted.
(** C70: a negative index deletes the right tag but moves lines, or fails after the deletion. *)
Theorem C70_negative_index_refuted :
  (exists ts ts', parse_tags (map lit ["Name: x"; "%if 1"; "Version: 1"; "%endif"]%string) = Ok ts /\ delete_at (-1) ts = Ok ts' /\
     tags_raw ts' = map lit ["%if 1"; "Name: x"; "%endif"]%string) /\
  (exists ts, parse_tags [lit "Name: x"] = Ok ts /\ delete_at (-1) ts = Err IndexError).
Proof. exact negative_index. Qed.
Print Assumptions C70_negative_index_refuted.
(** C71: [insert] fails for an index before the first tag, unlike [list.insert]. *)
Theorem C71_insert_refuted :
  forall (ts : tags) (i : Z) (item : tag), (i < - Z.of_nat (length (ts_data ts)))%Z -> tag_insert i item ts = Err IndexError.
Proof. exact insert_out_of_range. Qed.
Print Assumptions C71_insert_refuted.
(** C72: after a tag of several lines, or for the second of two equal tags, the position is wrong. *)
Theorem C72_position_refuted :
  (exists ts t, parse_tags (map lit ["Summary: %{expand:"; "x}"; "Name: x"]%string) = Ok ts /\ nth_error (ts_data ts) 1 = Some t /\
     tags_raw ts = map lit ["Summary: %{expand:"; "x}"; "Name: x"]%string /\ tag_position t ts = Ok 1%nat) /\
  (exists ts t, parse_tags (map lit ["Requires: x"; "Requires: x"]%string) = Ok ts /\ nth_error (ts_data ts) 1 = Some t /\ tag_position t ts = Ok 0%nat).
Proof. exact position_wrong. Qed.
Print Assumptions C72_position_refuted.
