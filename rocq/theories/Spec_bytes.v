(** Specification of changes of the bytes of a file. *)
From Coq Require Import NArith List Bool.
From Verif Require Import PyStr M_macro_definitions M_tags M_file Spec_file.
Import ListNotations.
Open Scope N_scope.

(** A file that is not empty, whose line breaks are line feeds.  It need not be valid UTF-8. *)
Definition plain_file (b : list N) : Prop := bytes b /\ b <> [] /\ plain_breaks (decode b).
(** In the bytes [b], the text [old] that comes after the text [before] was replaced by [new]; all other bytes are the same. *)
Definition bytes_replaced (before old new : str) (b b' : list N) : Prop :=
  exists pre x y post, encode before = Some pre /\ encode old = Some x /\ encode new = Some y /\ b = pre ++ x ++ post /\ b' = pre ++ y ++ post.
(** The text of lines, each with its line feed *)
Definition text_of_lines (l : list str) : str := flat_map (fun x => x ++ [LF]) l.
(** The text in front of the value of tag [k]. *)
Definition before_value (ts : tags) (k : nat) (t : tag) : str :=
  text_of_lines (flat_map tag_raw (firstn k (ts_data ts)) ++ comments_raw (t_comments t)) ++ t_prefix t ++ t_name t ++ t_separator t.
(** The text in front of the body of macro definition [k]. *)
Definition before_body (m : mdefs) (k : nat) (d : mdef) : str :=
  text_of_lines (flat_map mdef_raw (firstn k (md_data m)) ++ d_preceding d) ++ d_head d.

