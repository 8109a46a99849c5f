(** Sections as objects: copies, slices and sums of sections and of lists of sections, and comparing positional arguments.
    Objects have identities (numbers); nothing else of Python's heap is modelled. *)
From Coq Require Import NArith ZArith List Bool.
From Verif Require Import PyStr M_constants M_options M_sections M_slice M_equality.
From Verif Require M_changelog M_shared M_prep.
Import ListNotations.
Open Scope N_scope.

(** sections.py 60-73: a section refers to an object with its options and has its own list of lines. *)
Record sobject := mk_sobject { so_name : str; so_opts : nat; so_delim : str; so_sep : str; so_data : list str }.
Record heap := mk_heap { h_opts : nat -> opts; h_secs : nat -> sobject }.
(** What is read of the section with this identity. *)
Definition section_of (h : heap) (i : nat) : section :=
  let o := h_secs h i in mk_section (so_name o) (h_opts h (so_opts o)) (so_delim o) (so_sep o) (so_data o).
Definition set_section (h : heap) (i : nat) (o : sobject) : heap := mk_heap (h_opts h) (M_shared.put (h_secs h) i o).

(** sections.py 131-132: [UserList.__copy__] copies the list of lines and shares everything else. [j] is the new object. *)
Definition copy_section (h : heap) (i j : nat) : heap := set_section h j (h_secs h i).
Section Uni.
Context {U : Unicode}.
(** sections.py 96-102 with 60-73: the options are copied ([k] is the copy) and the name is checked. *)
Definition slice_section (h : heap) (i j k : nat) (s : slice) : result heap :=
  let o := h_secs h i in
  let! l := get_slice s (so_data o) in
  if str_in (lower (so_name o)) SECTION_NAMES then
    Ok (mk_heap (M_shared.put (h_opts h) k (h_opts h (so_opts o))) (M_shared.put (h_secs h) j (mk_sobject (so_name o) k (so_delim o) (so_sep o) l)))
  else Err ValueError.
(** sections.py 41-73 called with one argument, that need not be a name: a list has no [lower]. *)
Inductive argument := Name (n : str) | Lines (l : list str).
Definition new_section (a : argument) : result section :=
  match a with Lines _ => Err AttributeError | Name n => make_section n None [] [LF] [] end.
(** [UserList.__add__] and [UserList.__mul__], that sections.py 30 does not override, call the class with the new list. *)
Definition section_plus (s : section) (lines : list str) : result section := new_section (Lines (s_data s ++ lines)).
Definition section_times (s : section) (n : nat) : result section := new_section (Lines (concat (repeat (s_data s) n))).

(** What is done to a section: another name, other lines (by any method of lists, or by setting [data]), and its options changed
    through [section.options]. *)
Inductive edit := Rename (n : str) | Content (l : list str) | Options (o : opts).
Definition apply_edit (i : nat) (h : heap) (e : edit) : heap :=
  let o := h_secs h i in
  match e with
  | Rename n => set_section h i (mk_sobject n (so_opts o) (so_delim o) (so_sep o) (so_data o))
  | Content l => set_section h i (mk_sobject (so_name o) (so_opts o) (so_delim o) (so_sep o) l)
  | Options p => mk_heap (M_shared.put (h_opts h) (so_opts o) p) (h_secs h)
  end.
Definition apply_edits (i : nat) (es : list edit) (h : heap) : heap := fold_left (apply_edit i) es h.

(** sections.py 205-206: the copy of a list of sections is a list of the same sections. *)
Definition copy_sections (l : list nat) : list nat := l.
(** sections.py 186-195 with a list of lines, for a list with the section *)
Definition assign_lines (h : heap) (l : list nat) (id : str) (d : list str) : option heap :=
  match sec_find (map (section_of h) l) id with
  | Ok k => match nth_error l k with Some i => Some (apply_edit i h (Content d)) | None => None end
  | Err _ => None
  end.
(** sections.py 186-195 with a section, and 197-203 *)
Definition assign_section (h : heap) (l : list nat) (id : str) (j : nat) : option (list nat) :=
  match sec_find (map (section_of h) l) id with Ok k => Some (update_at k (fun _ => j) l) | Err _ => None end.
Definition delete_section (h : heap) (l : list nat) (id : str) : option (list nat) :=
  match sec_find (map (section_of h) l) id with Ok k => Some (remove_at k l) | Err _ => None end.

(** options.py 81-84: [list(self) == other], where the items of [other] are read afterwards. *)
Definition positionals_eq (a b : opts) : result bool :=
  let! x := numbers_or_texts (pos_list a) in let! y := numbers_or_texts (pos_list b) in Ok (M_changelog.list_eqb oval_eqb x y).
End Uni.

(** sections.py 104-123 with the assignment to [_delimiter], which reading [id] or [normalized_id] makes *)
Definition settled (s : section) : section :=
  if options_true (s_opts s) && match s_delimiter s with [] => true | _ => false end
  then mk_section (s_name s) (s_opts s) [SPC] (s_separator s) (s_data s) else s.
Definition read_id (s : section) : str * section :=
  let s := settled s in (s_name s ++ s_delimiter s ++ tokens_str (o_tokens (s_opts s)), s).
Definition read_nid {U : Unicode} (s : section) : str * section :=
  let s := settled s in (lower (s_name s) ++ s_delimiter s ++ tokens_str (o_tokens (s_opts s)), s).
Definition with_options (o : opts) (s : section) : section := mk_section (s_name s) o (s_delimiter s) (s_separator s) (s_data s).

(** prep.py 240-241 and 207-217 for a non-negative index: as for macro definitions, on macros with identities.
    The leftover lines are replaced, not changed in place. *)
Definition prep_of (h : nat -> M_prep.macro) (c : M_shared.def_list) : M_prep.prep := M_prep.mk_prep (map h (M_shared.dl_ids c)) (M_shared.dl_rem c).
Definition delete_macro (h : nat -> M_prep.macro) (c : M_shared.def_list) (k : nat) : result ((nat -> M_prep.macro) * M_shared.def_list) :=
  match nth_error (M_shared.dl_ids c) k with
  | None => Err IndexError
  | Some d =>
      let preceding := M_prep.m_preceding (h d) in
      let ids := remove_at k (M_shared.dl_ids c) in
      match nth_error ids k with
      | Some n => Ok (M_shared.put h n (M_prep.with_preceding (preceding ++ M_prep.m_preceding (h n)) (h n)), M_shared.mk_dlist ids (M_shared.dl_rem c))
      | None => Ok (h, M_shared.mk_dlist ids (preceding ++ M_shared.dl_rem c))
      end
  end.
