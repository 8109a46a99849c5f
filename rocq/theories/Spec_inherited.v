(** Specification for methods inherited from [UserList]. *)
From Coq Require Import NArith List Bool.
From Verif Require Import PyStr M_tags.

(** Two tags that say the same: everything but the lines above and the validity agrees. *)
Definition same_tag (a b : tag) : Prop :=
  t_name a = t_name b /\ t_value a = t_value b /\ t_separator a = t_separator b /\ cs_data (t_comments a) = cs_data (t_comments b) /\ t_prefix a = t_prefix b /\ t_suffix a = t_suffix b.
