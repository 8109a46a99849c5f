(** Methods the lists of specfile inherit from [collections.UserList] (utils.py 326-333): [index], [remove], [pop],
    [clear] and [+].  They work on [data], or make a new object from [data] alone, and know nothing of the lines
    that are kept besides it. *)
From Coq Require Import NArith ZArith List Bool.
From Verif Require Import PyStr M_tags M_macro_definitions M_sections M_changelog M_prep M_file.
Import ListNotations.
Open Scope nat_scope.

(** [list.index], [list.remove], [list.pop] *)
Definition list_index {A} (eqb : A -> A -> bool) (x : A) (l : list A) : result nat :=
  match find_index (fun y => eqb y x) l with Some k => Ok k | None => Err ValueError end.
Definition list_remove {A} (eqb : A -> A -> bool) (x : A) (l : list A) : result (list A) :=
  let! k := list_index eqb x l in Ok (remove_at k l).
Definition list_pop {A} (i : Z) (l : list A) : result (A * list A) :=
  match py_index l i with
  | None => Err IndexError
  | Some k => match nth_error l k with Some x => Ok (x, remove_at k l) | None => Err IndexError end
  end.

(** sections.py 30: [Section] defines no [__eq__]; [UserList.__eq__] compares the lines only. *)
Definition section_eqb (a b : section) : bool := strs_eqb (s_data a) (s_data b).
(** sections.py 140: [Sections] defines none of these. *)
Definition sections_index (l : list section) (s : section) : result nat := list_index section_eqb s l.
Definition sections_remove (l : list section) (s : section) : result (list section) := list_remove section_eqb s l.

(** tags.py 306 *)
Definition tags_pop (ts : tags) (i : Z) : result (tag * tags) := let! r := list_pop i (ts_data ts) in Ok (fst r, mk_tags (snd r) (ts_remainder ts)).
Definition tags_remove (ts : tags) (t : tag) : result tags := let! l := list_remove tag_eqb t (ts_data ts) in Ok (mk_tags l (ts_remainder ts)).
Definition tags_clear (ts : tags) : tags := mk_tags [] (ts_remainder ts).
(** tags.py 327-339: [self.__class__(self.data + other)] *)
Definition tags_add (ts : tags) (other : list tag) : tags := mk_tags (ts_data ts ++ other) [].
Definition tags_eqb (a b : tags) : bool := list_eqb tag_eqb (ts_data a) (ts_data b).
(** macro_definitions.py 152 *)
Definition mdefs_pop (m : mdefs) (i : Z) : result (mdef * mdefs) := let! r := list_pop i (md_data m) in Ok (fst r, mk_mdefs (snd r) (md_remainder m)).
Definition mdefs_remove (m : mdefs) (d : mdef) : result mdefs := let! l := list_remove mdef_eqb d (md_data m) in Ok (mk_mdefs l (md_remainder m)).
Definition mdefs_add (m : mdefs) (other : list mdef) : mdefs := mk_mdefs (md_data m ++ other) [].
Definition mdefs_eqb (a b : mdefs) : bool := list_eqb mdef_eqb (md_data a) (md_data b).
(** prep.py 156 *)
Definition prep_pop (p : prep) (i : Z) : result (macro * prep) := let! r := list_pop i (p_macros p) in Ok (fst r, mk_prep (snd r) (p_remainder p)).
(** changelog.py 198 *)
Definition log_pop (c : changelog) (i : Z) : result (entry * changelog) := let! r := list_pop i (entries c) in Ok (fst r, mk_changelog (snd r) (predecessor c)).
Definition log_add (c : changelog) (other : list entry) : changelog := mk_changelog (entries c ++ other) [].

(** changelog.py 69-76 *)
Definition entry_eqb (a b : entry) : bool :=
  str_eqb (header a) (header b) && strs_eqb (content a) (content b) && strs_eqb (following a) (following b).
(** specfile.py 82-90, for two objects with the same path, parser and [autosave] *)
Definition spec_eqb (a b : spec) : bool := strs_eqb (sp_lines a) (sp_lines b).
