(** Specification for comments as a list. *)
From Coq Require Import NArith ZArith List Bool.
From Verif Require Import PyStr M_tags Spec_tags M_comments.
Import ListNotations.
Open Scope N_scope.

(** A comment as it is read from a line: white space, a hash, white space, then a text that starts with none. *)
Definition comment_ok (c : comment) : Prop :=
  (exists a b, c_prefix c = a ++ HASH :: b /\ space_text a /\ space_text b) /\
  ~ In LF (comment_str c) /\ (forall x t, c_text c = x :: t -> is_space x = false).
Definition comments_ok (c : comments) : Prop :=
  Forall comment_ok (cs_data c) /\ Forall (fun l => ~ In LF l) (cs_preceding c) /\
  (forall p l, cs_preceding c = p ++ [l] -> ~ comment_line l).
(** A text that can be the text of a comment. *)
Definition comment_text (s : str) : Prop := ~ In LF s /\ (forall x t, s = x :: t -> is_space x = false).
(** [c'] has these texts and the lines above [c], and reading what is written gives [c'] again. *)
Definition edit_ok (c c' : comments) (texts : list str) : Prop :=
  comments_ok c' /\ cs_preceding c' = cs_preceding c /\ cm_texts c' = texts /\ comments_parse (comments_raw c') = c'.
