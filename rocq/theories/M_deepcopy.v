(** Deep copies: [Tag.__deepcopy__] (/repo/specfile/tags.py 265-273), [SourcelistEntry.__deepcopy__] (sourcelist.py 63-72), [SpecParser.__deepcopy__]
    (spec_parser.py 81-90), and [copy.deepcopy] of all other objects, which copies every attribute. *)
From Coq Require Import Ascii String.
From Coq Require Import NArith List Bool Arith.
From Verif Require Import PyStr.
Import ListNotations.

(** Immutable values are atoms; other objects are on a heap.  The attributes of an object, the items of a list and those of a dictionary are fields with names. *)
Inductive value := Atom (a : str) | Ref (n : nat).
Record obj := mk_obj { o_class : str; o_fields : list (str * value) }.
(** What becomes of an attribute: it is copied, or shared with the original, or set anew. *)
Inductive how := Deep | Shared | Reset (a : str).
Definition context : str := lit "_context".
(** tags.py 269-272, sourcelist.py 67-70, spec_parser.py 85-89 *)
Definition rule (class field : str) : how :=
  if (str_eqb class (lit "Tag") || str_eqb class (lit "SourcelistEntry")) && str_eqb field context then Shared
  else if str_eqb class (lit "SpecParser") && str_eqb field (lit "spec") then Reset (lit "None")
  else if str_eqb class (lit "SpecParser") && str_eqb field (lit "tainted") then Reset (lit "False")
  else Deep.
(** The memo of [copy.deepcopy]: the objects that were copied, in the order in which their copies were made.  [h] is the heap before, and the copy of the [i]-th object is
    at [length h + i]; [news] are the copies. *)
Fixpoint index_of (n : nat) (memo : list nat) : option nat :=
  match memo with [] => None | m :: memo' => if Nat.eqb m n then Some O else option_map S (index_of n memo') end.
Fixpoint set_at {A} (i : nat) (x : A) (l : list A) : list A :=
  match l, i with [], _ => [] | _ :: l', O => x :: l' | y :: l', S i' => y :: set_at i' x l' end.
(** The attributes one after the other, copied with [copy] *)
Fixpoint copy_fields (copy : list nat -> list obj -> value -> option (list nat * list obj * value)) (class : str) (fields : list (str * value)) (memo : list nat) (news : list obj)
    : option (list nat * list obj * list (str * value)) :=
  match fields with
  | [] => Some (memo, news, [])
  | (k, v) :: fields' =>
      match rule class k with
      | Shared => option_map (fun x => (fst x, (k, v) :: snd x)) (copy_fields copy class fields' memo news)
      | Reset a => option_map (fun x => (fst x, (k, Atom a) :: snd x)) (copy_fields copy class fields' memo news)
      | Deep =>
          match copy memo news v with
          | None => None
          | Some (memo1, news1, v') => option_map (fun x => (fst x, (k, v') :: snd x)) (copy_fields copy class fields' memo1 news1)
          end
      end
  end.
(** [copy.deepcopy]; the object is put into the memo before its attributes are copied.  [None]: not done within [fuel] calls inside of each other, or no such object. *)
Fixpoint copy_value (fuel : nat) (h : list obj) (memo : list nat) (news : list obj) (v : value) : option (list nat * list obj * value) :=
  match v with
  | Atom _ => Some (memo, news, v)
  | Ref n =>
      match index_of n memo with
      | Some i => Some (memo, news, Ref (length h + i))
      | None =>
          match fuel, nth_error h n with
          | S fuel', Some o =>
              let i := length memo in
              match copy_fields (copy_value fuel' h) (o_class o) (o_fields o) (memo ++ [n]) (news ++ [mk_obj (o_class o) []]) with
              | None => None
              | Some (memo', news', fields) => Some (memo', set_at i (mk_obj (o_class o) fields) news', Ref (length h + i))
              end
          | _, _ => None
          end
      end
  end.
(** The heap after [copy.deepcopy(v)], and the copy *)
Definition deepcopy (fuel : nat) (h : list obj) (v : value) : option (list obj * value) :=
  match copy_value fuel h [] [] v with None => None | Some (_, news, v') => Some (h ++ news, v') end.
