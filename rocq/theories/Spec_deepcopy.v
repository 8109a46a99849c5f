(** Specification of copies: what can be seen of an object by following attributes. *)
From Coq Require Import Ascii String.
From Coq Require Import NArith List Bool Arith.
From Verif Require Import PyStr M_deepcopy.
Import ListNotations.

Definition field (k : str) (o : obj) : option value := option_map snd (find (fun kv => str_eqb (fst kv) k) (o_fields o)).
(** The value that is found by following attributes *)
Fixpoint follow (h : list obj) (v : value) (path : list str) : option value :=
  match path with
  | [] => Some v
  | k :: path' =>
      match v with
      | Atom _ => None
      | Ref n => match nth_error h n with None => None | Some o => match field k o with None => None | Some v' => follow h v' path' end end
      end
  end.
(** What is seen there: an immutable value, or the class of an object *)
Definition observe (h : list obj) (v : value) (path : list str) : option (str + str) :=
  match follow h v path with
  | None => None
  | Some (Atom a) => Some (inl a)
  | Some (Ref n) => option_map (fun o => inr (o_class o)) (nth_error h n)
  end.
(** All attributes on the path are among those that [ok] allows, of objects of a class *)
Fixpoint path_of (ok : str -> str -> Prop) (h : list obj) (v : value) (path : list str) : Prop :=
  match path with
  | [] => True
  | k :: path' =>
      match v with
      | Atom _ => True
      | Ref n => match nth_error h n with None => True | Some o => ok (o_class o) k /\ match field k o with None => True | Some v' => path_of ok h v' path' end end
      end
  end.
(** The attributes that hold the result of parsing *)
Definition parsed (class k : str) : Prop := class = lit "SpecParser" /\ (k = lit "spec" \/ k = lit "tainted").
(** The attributes that hold the spec file in which the values of an entry are expanded *)
Definition contextual (class k : str) : Prop := (class = lit "Tag" \/ class = lit "SourcelistEntry") /\ k = lit "_context".
Definition not_parsed (class k : str) : Prop := ~ parsed class k.
Definition own (class k : str) : Prop := ~ parsed class k /\ ~ contextual class k.
(** All objects that are referred to exist. *)
Definition known (h : list obj) (v : value) : Prop := match v with Atom _ => True | Ref n => (n < length h)%nat end.
Definition closed (h : list obj) : Prop := forall o k v, In o h -> In (k, v) (o_fields o) -> known h v.
