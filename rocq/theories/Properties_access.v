(** Properties C239 (the lines that make a macro definition) and C240 (definitions as attributes).  Specification: Spec_access.v. *)
From Coq Require Import Ascii String.
From Coq Require Import NArith List Bool.
From Verif Require M_tags.
From Verif Require Import PyStr M_value M_macro_definitions Spec_macro_definitions M_access Spec_access P_access.
Import ListNotations.
Open Scope N_scope.

(** * C239 *)
(** Every line that starts a definition, unless it belongs to the one above, gives one, and no other line does.  A definition is valid if its first line is; it takes the lines below as long as its body is unfinished, unless it is commented out; the lines between are kept with it. *)
Theorem C239_lines : forall (U : Unicode) (lines : list (str * bool)), Forall (fun l => ~ In LF (fst l)) lines ->
  made_of lines (md_data (parse_tagged lines)) (md_remainder (parse_tagged lines)).
Proof. exact @tagged_made. Qed.
Print Assumptions C239_lines.
Definition some_lines : list (str * bool) :=
  [(lit "Name: x", true); (lit "%global a %(echo", true); (lit "b)", false); (lit "#define c %{d", true); (lit "%global e f", false); (lit "g", true)].
Example C239_example : Forall (fun l => ~ In LF (fst l)) some_lines /\
  map (fun d => (d_name d, d_body d, d_valid d, d_commented_out d)) (md_data (parse_tagged (U:=unicode_none) some_lines)) =
    [(lit "a", lit "%(echo" ++ LF :: lit "b)", true, false); (lit "c", lit "%{d", true, true); (lit "e", lit "f", false, false)].
Proof. split; [|vm_compute; reflexivity]. repeat constructor; intros H; repeat (destruct H as [H|H]; [discriminate|]); destruct H. Qed.

(** * C240 *)
(** [name in definitions] says whether there is a definition with that name.  If so, [definitions.name] and [definitions.get(name)] are the one that the name stands for, and an
    assignment to [definitions.name] and [del definitions.name] change the body of that one and delete that one; otherwise all of these are about an ordinary attribute. *)
Theorem C240_attributes : forall (m : mdefs) (name : str),
  (defines m name <-> contains m name = true) /\
  (defines m name -> exists a d b, stands_for m name a d b /\ mdef_getattr m name = Some (Ok d) /\ mdef_get m name None = Ok d /\
     (forall v, setattr m name v = Some (mk_mdefs (a ++ with_body v d :: b) (md_remainder m))) /\ delattr m name = Some (mk_mdefs (a ++ b) (md_remainder m))) /\
  (~ defines m name -> mdef_getattr m name = None /\ mdef_get m name None = Err ValueError /\ (forall b, setattr m name b = None) /\ delattr m name = None).
Proof. exact attributes. Qed.
Print Assumptions C240_attributes.
(** [definitions.get(name, position)]; C04 says what positions are. *)
Theorem C240_attributes_at : forall m name p, match mdef_get m name (Some p) with
  | Ok d => In d (md_data m) /\ d_name d = name /\ get_position d m = Ok p
  | Err e => e = ValueError /\ forall d, In d (md_data m) -> d_name d = name -> get_position d m <> Ok p end.
Proof. exact mdef_got_at. Qed.
Print Assumptions C240_attributes_at.
(** [tags.get(name)] and [tags.get(name, position)] *)
Theorem C240_tags : forall (U : Unicode) ts name, match tag_get ts name None with
  | Ok t => tag_stands_for ts name t
  | Err e => e = ValueError /\ forall t, In t (M_tags.ts_data ts) -> capitalize (M_tags.t_name t) <> capitalize name end.
Proof. exact @tag_got. Qed.
Print Assumptions C240_tags.
Theorem C240_tags_at : forall (U : Unicode) ts name p, match tag_get ts name (Some p) with
  | Ok t => In t (M_tags.ts_data ts) /\ capitalize (M_tags.t_name t) = capitalize name /\ M_tags.tag_position t ts = Ok p
  | Err e => e = ValueError /\ forall t, In t (M_tags.ts_data ts) -> capitalize (M_tags.t_name t) = capitalize name -> M_tags.tag_position t ts <> Ok p end.
Proof. exact @tag_got_at. Qed.
Print Assumptions C240_tags_at.
Example C240_example : let m := parse_tagged (U:=unicode_none) some_lines in
  option_map (fun r => match r with Ok d => d_body d | Err _ => [] end) (mdef_getattr m (lit "e")) = Some (lit "f") /\ defines m (lit "e") /\ ~ defines m (lit "f").
Proof.
  cbv zeta. split; [vm_compute; reflexivity|]. split; [apply contains_iff; vm_compute; reflexivity|]. intros D. apply contains_iff in D. vm_compute in D. discriminate.
Qed.
