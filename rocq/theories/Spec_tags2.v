(** Independent specification of tags with values of several lines. *)
From Coq Require Import Ascii String.
From Coq Require Import NArith ZArith List Bool.
From Verif Require Import PyStr M_value M_tags Spec_tags.
Import ListNotations.
Open Scope N_scope.

Section Uni.
Context {U : Unicode}.
(** Lines put behind a text. *)
Definition on_lines (v : str) (more : list str) : str := v ++ flat_map (fun l => LF :: l) more.
(** A [%{] or a [%(] is left open (see C46). *)
Definition left_open (v : str) : Prop := count_brackets v <> (0, 0)%nat.
(** The value goes on for exactly the lines [more] of [more ++ rest]: it is open in front of each of them, and closed at their end, unless there are no lines any more. *)
Definition goes_on (v : str) (more rest : list str) : Prop :=
  (forall a l b, more = a ++ l :: b -> left_open (on_lines v a)) /\ (rest = [] \/ ~ left_open (on_lines v more)).
(** The tags written in lines with validity flags. The value of a tag which is not the body of a conditional macro expansion may go on on the lines below. *)
Inductive written_on : list (str * bool) -> list tag -> Prop :=
| O_nil : written_on [] []
| O_other line valid body p s lines ts :
    split_conditional_macro_expansion line = Ok (body, p, s) -> (forall n sep v, ~ tag_line body n sep v) ->
    written_on lines ts -> written_on ((line, valid) :: lines) ts
| O_tag line valid body p s v more rest t ts :
    split_conditional_macro_expansion line = Ok (body, p, s) -> tag_line body (t_name t) (t_separator t) v ->
    t_valid t = valid -> t_prefix t = p -> t_suffix t = s -> t_value t = on_lines v (map fst more) ->
    (s <> [] /\ more = [] \/ s = [] /\ goes_on v (map fst more) (map fst rest)) ->
    written_on rest ts -> written_on ((line, valid) :: more ++ rest) (t :: ts).
End Uni.
