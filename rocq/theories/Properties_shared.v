(** Property theorems: copies of lists share their items. *)
From Coq Require Import Ascii String.
From Coq Require Import NArith ZArith List Bool.
From Verif Require Import PyStr M_tags M_macro_definitions M_shared P_shared.
Import ListNotations.
Open Scope nat_scope.

(** C203 (the property "changing a copy of a list leaves the list unchanged" is refuted): deleting an item of a
    copy does to the copy what deletion does, but it also puts the lines above the deleted item on top of the item
    that follows, and that item is also in the original. *)
Theorem C203_copies_of_tags_refuted : forall s c a d n b, tl_ids c = a ++ d :: n :: b -> NoDup (tl_ids c) ->
  exists s' c', delete_ref s (copy_tags c) (length a) = Ok (s', c') /\
    delete_at (Z.of_nat (length a)) (tags_of s c) = Ok (tags_of s' c') /\
    tags_of s' c = mk_tags (map (s_tags s) a ++ s_tags s d ::
      M_tags.with_preceding (merge_preceding (t_preceding (s_tags s d)) (t_preceding (s_tags s n))) (s_tags s n) :: map (s_tags s) b) (s_rems s (tl_rem c)).
Proof. exact tags_copied. Qed.
Print Assumptions C203_copies_of_tags_refuted.
(** Deleting the last tag of a copy moves the lines above it to the leftover lines, which the original shares. *)
Theorem C203_copies_of_tags_last_refuted : forall s c a d, tl_ids c = a ++ [d] ->
  exists s' c', delete_ref s (copy_tags c) (length a) = Ok (s', c') /\
    delete_at (Z.of_nat (length a)) (tags_of s c) = Ok (tags_of s' c') /\
    tags_of s' c = mk_tags (ts_data (tags_of s c)) (merge_preceding (t_preceding (s_tags s d)) (s_rems s (tl_rem c))).
Proof. exact tags_copied_last. Qed.
Print Assumptions C203_copies_of_tags_last_refuted.
(** Macro definitions: the original now writes the deleted item's preceding lines twice. *)
Theorem C203_copies_of_macro_definitions_refuted : forall h c a d n b, dl_ids c = a ++ d :: n :: b -> NoDup (dl_ids c) ->
  exists h' c', delete_def h c (length a) = Ok (h', c') /\
    M_macro_definitions.delete (defs_of h c) (Z.of_nat (length a)) = Ok (defs_of h' c') /\
    get_raw_data (defs_of h' c) = flat_map mdef_raw (map h a) ++ mdef_raw (h d) ++ d_preceding (h d) ++ mdef_raw (h n) ++ flat_map mdef_raw (map h b) ++ dl_rem c.
Proof. exact defs_copied. Qed.
Print Assumptions C203_copies_of_macro_definitions_refuted.
(** Deleting the last macro definition of a copy touches no object, so the original is as it was. *)
Theorem C203_copies_of_macro_definitions_last : forall h c a d, dl_ids c = a ++ [d] ->
  exists c', delete_def h c (length a) = Ok (h, c') /\
    M_macro_definitions.delete (defs_of h c) (Z.of_nat (length a)) = Ok (defs_of h c').
Proof. exact defs_copied_last. Qed.
Print Assumptions C203_copies_of_macro_definitions_last.

Definition demo_heap (i : nat) : mdef :=
  match i with
  | O => mk_mdef (lit "a") (lit "1") true false OTHER ([], lit " ", lit " ", []) [] true [lit "# about a"; lit "%if 1"]
  | _ => mk_mdef (lit "b") (lit "2") true false OTHER ([], lit " ", lit " ", []) [] true []
  end.
Definition demo_list : def_list := mk_dlist [0; 1] [lit "%endif"].
Example C203_nonvacuous : NoDup (dl_ids demo_list) /\ dl_ids demo_list = [] ++ [0; 1] /\
  get_raw_data (defs_of demo_heap demo_list) = map lit ["# about a"; "%if 1"; "%global a 1"; "%global b 2"; "%endif"]%string /\
  match delete_def demo_heap demo_list 0 with
  | Ok (h', c') => get_raw_data (defs_of h' c') = map lit ["# about a"; "%if 1"; "%global b 2"; "%endif"]%string /\
                   get_raw_data (defs_of h' demo_list) = map lit ["# about a"; "%if 1"; "%global a 1"; "# about a"; "%if 1"; "%global b 2"; "%endif"]%string
  | Err _ => False
  end.
Proof. split; [repeat constructor; cbn; intuition discriminate|]. split; [reflexivity|]. split; [vm_compute; reflexivity|]. vm_compute. split; reflexivity. Qed.
Definition demo_store : store :=
  mk_store (fun i => mk_tag (lit "Name") (lit "a") (lit ": ") (mk_comments [] [lit "%if 1"]) true [] []) (fun _ => [lit "%endif"]).
Example C203_tags_nonvacuous :
  match delete_ref demo_store (copy_tags (mk_tlist [0] 0)) 0 with
  | Ok (s', _) => ts_remainder (tags_of s' (mk_tlist [0] 0)) = map lit ["%if 1"; "%endif"]%string
  | Err _ => False
  end.
Proof. vm_compute. reflexivity. Qed.
