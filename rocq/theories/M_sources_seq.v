(** Model of the methods that [Sources] and [Patches] (/repo/specfile/sources.py 237-240, 661-664) inherit from
    [collections.abc.MutableSequence] of Python: [pop], [clear], [extend], [index], [reverse].  They call [__getitem__], [__setitem__], [__delitem__],
    [insert] and [__len__] of sources.py 309-348, 502-560 ([M_sources]). *)
From Coq Require Import Ascii String.
From Coq Require Import NArith ZArith List Bool.
From Verif Require Import PyStr Regex M_constants M_value M_macro_definitions M_conditions M_tags M_sourcelist M_sources.
Import ListNotations.
Open Scope N_scope.

Section Uni.
Context {U : Unicode}.
(** [pop(i)]: [v = self[i]; del self[i]; return v]; the source is given by its location.  sources.py 318-323, 341-348 *)
Definition pop (s : sources) (i : Z) : result (str * sources) :=
  match py_index (get_items s) i with
  | None => Err IndexError
  | Some k =>
      match nth_error (get_items s) k with
      | None => Err IndexError
      | Some x => let! s' := delete_item s i in Ok (location_at s (i_place x), s')
      end
  end.
(** [clear()]: [try: while True: self.pop()  except IndexError: pass]; [None] if the loop has not ended after [fuel] rounds.  What [pop] takes away before it
    fails is nothing, so the container then is the one of the round before. *)
Fixpoint clear (fuel : nat) (s : sources) : option (result sources) :=
  match fuel with
  | O => None
  | S n => match pop s (-1)%Z with
           | Ok (_, s') => clear n s'
           | Err IndexError => Some (Ok s)
           | Err e => Some (Err e)
           end
  end.
(** [extend(values)] with strings: [for v in values: self.append(v)].  The container is the one the caller has afterwards, also if there is an exception. *)
Fixpoint extend (s : sources) (locs : list str) : sources * result unit :=
  match locs with
  | [] => (s, Ok tt)
  | loc :: locs' => match append s loc with Ok s' => extend s' locs' | Err e => (s, Err e) end
  end.
End Uni.

(** What can be put in as a location: a text, or a source (sources.py 333-339 store whatever is assigned; tags.py 546-562 and sourcelist.py write it
    with an f-string).  A source is named by its index; it refers to its tag (sources.py 78-87, 184-190), so it is written with the location that tag has
    at that time. *)
Inductive value := Text (s : str) | Object (k : nat).
(** [v == value] for a source [v] (sources.py 89-92, 191-194): [NotImplemented], so [False], unless [value] is a source as well. *)
Definition equals (k : nat) (v : value) : bool := match v with Text _ => false | Object j => Nat.eqb k j end.
(** [index(value)]: [while True: v = self[i]; if v is value or v == value: return i], and [ValueError] when there are no more.  Sources with equal tags
    are taken to be the same one. *)
Definition index (n : nat) (v : value) : result nat :=
  match List.find (fun k => equals k v) (seq 0 n) with Some k => Ok k | None => Err ValueError end.
(** [reverse()]: [for i in range(n//2): self[i], self[n-i-1] = self[n-i-1], self[i]]; the right hand sides are sources. *)
Definition reverse_step (n : nat) (vals : list value) (i : nat) : list value :=
  update_at (n - i - 1) (fun _ => Object i) (update_at i (fun _ => Object (n - i - 1)) vals).
Definition reverse (vals : list value) : list value :=
  fold_left (reverse_step (length vals)) (seq 0 (Nat.div2 (length vals))) vals.
(** [repr] of a source (sources.py 94-98, 196-200) holds that of its location; [around] is the text around it.  [None] if that takes more than [depth] calls. *)
Fixpoint written_value (around : nat -> str -> str) (vals : list value) (depth : nat) (k : nat) : option str :=
  match depth with
  | O => None
  | S d => match nth_error vals k with
           | Some (Text s) => Some s
           | Some (Object j) => match written_value around vals d j with Some t => Some (around j t) | None => None end
           | None => None
           end
  end.
