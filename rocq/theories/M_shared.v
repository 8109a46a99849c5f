(** Copies of lists of tags and of macro definitions: [Tags.copy] (tags.py 426-427), [MacroDefinitions.copy]
    (macro_definitions.py 247-248) and slices make a new list of the same objects. *)
From Coq Require Import NArith ZArith List Bool.
From Verif Require Import PyStr M_tags M_macro_definitions.
Import ListNotations.
Open Scope nat_scope.

(** Objects by their identity. [s_rems] are the lists of leftover lines: tags.py 371-383 changes them in place,
    and [copy.copy] lets the copy share the one of the original. *)
Record store := mk_store { s_tags : nat -> tag; s_rems : nat -> list str }.
Record tag_list := mk_tlist { tl_ids : list nat; tl_rem : nat }.
Definition put {A} (h : nat -> A) (i : nat) (x : A) : nat -> A := fun j => if Nat.eqb j i then x else h j.
(** What the list contains. *)
Definition tags_of (s : store) (c : tag_list) : tags := mk_tags (map (s_tags s) (tl_ids c)) (s_rems s (tl_rem c)).
(** tags.py 426-427: [UserList.__copy__] copies [data] and shares everything else. *)
Definition copy_tags (c : tag_list) : tag_list := mk_tlist (tl_ids c) (tl_rem c).
(** tags.py 360-383 for a non-negative index *)
Definition delete_ref (s : store) (c : tag_list) (k : nat) : result (store * tag_list) :=
  match nth_error (tl_ids c) k with
  | None => Err IndexError
  | Some d =>
      let preceding := t_preceding (s_tags s d) in
      let ids := remove_at k (tl_ids c) in
      let s' :=
        match nth_error ids k with
        | Some n => mk_store (put (s_tags s) n (M_tags.with_preceding (merge_preceding preceding (t_preceding (s_tags s n))) (s_tags s n))) (s_rems s)
        | None => mk_store (s_tags s) (put (s_rems s) (tl_rem c) (merge_preceding preceding (s_rems s (tl_rem c))))
        end in
      Ok (s', mk_tlist ids (tl_rem c))
  end.

(** Macro definitions: the leftover lines are replaced, not changed in place (macro_definitions.py 239). *)
Record def_list := mk_dlist { dl_ids : list nat; dl_rem : list str }.
Definition defs_of (h : nat -> mdef) (c : def_list) : mdefs := mk_mdefs (map h (dl_ids c)) (dl_rem c).
(** macro_definitions.py 231-239 for a non-negative index *)
Definition delete_def (h : nat -> mdef) (c : def_list) (k : nat) : result ((nat -> mdef) * def_list) :=
  match nth_error (dl_ids c) k with
  | None => Err IndexError
  | Some d =>
      let preceding := d_preceding (h d) in
      let ids := remove_at k (dl_ids c) in
      match nth_error ids k with
      | Some n => Ok (put h n (M_macro_definitions.with_preceding (preceding ++ d_preceding (h n)) (h n)), mk_dlist ids (dl_rem c))
      | None => Ok (h, mk_dlist ids (preceding ++ dl_rem c))
      end
  end.
