(** Model of looking up macro definitions and tags: /repo/specfile/macro_definitions.py 189-195, 250-251, /repo/specfile/tags.py 429-430. *)
From Coq Require Import NArith List.
From Verif Require Import PyStr M_macro_definitions M_tags.
Import ListNotations.

(** macro_definitions.py 250-251: [get]; [position] as in [find]. *)
Definition mdef_get (m : mdefs) (name : str) (position : option nat) : result mdef :=
  let! k := match position with None => M_macro_definitions.find m name | Some p => find_at m name p end in
  match nth_error (md_data m) k with Some d => Ok d | None => Err IndexError end.
(** macro_definitions.py 189-195: [__getattr__]; [None] is the ordinary attribute case. *)
Definition mdef_getattr (m : mdefs) (name : str) : option (result mdef) :=
  if contains m name then
    Some match mdef_get m name None with Ok d => Ok d | Err ValueError => Err AttributeError | Err e => Err e end
  else None.
(** tags.py 429-430: [get] *)
Definition tag_get {U : Unicode} (ts : tags) (name : str) (position : option nat) : result tag :=
  let! k := match position with None => tag_find ts name | Some p => tag_find_at ts name p end in
  match nth_error (ts_data ts) k with Some t => Ok t | None => Err IndexError end.
