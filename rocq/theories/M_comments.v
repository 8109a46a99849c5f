(** Model of the list operations of /repo/specfile/tags.py 68-169 (class [Comments]). *)
From Coq Require Import Ascii String.
From Coq Require Import NArith ZArith List Bool.
From Verif Require Import PyStr M_tags.
Import ListNotations.
Open Scope N_scope.

(** An argument of these methods: a [Comment] or a text. *)
Inductive citem := AComment (c : comment) | AText (s : str).
(** tags.py 51-53: the default prefix *)
Definition item_comment (i : citem) : comment :=
  match i with AComment c => c | AText s => mk_comment s (lit "# ") end.
Definition with_comments (c : comments) (d : list comment) : comments := mk_comments d (cs_preceding c).
(** tags.py 100-103 for a text *)
Definition cm_contains (c : comments) (s : str) : bool := existsb (fun x => str_eqb (c_text x) s) (cs_data c).
(** tags.py 105-108 *)
Definition cm_texts (c : comments) : list str := map c_text (cs_data c).
(** tags.py 136-138, 140-145: what an assignment makes of one comment *)
Definition assign_comment (i : citem) (c : comment) : comment :=
  match i with AComment x => x | AText s => mk_comment s (c_prefix c) end.
(** tags.py 134-145, one index *)
Definition cm_set (c : comments) (i : Z) (x : citem) : result comments :=
  match py_index (cs_data c) i with
  | None => Err IndexError
  | Some k => Ok (with_comments c (update_at k (assign_comment x) (cs_data c)))
  end.
(** tags.py 135-140, a slice that selects the positions [idx]; the exception, if any, comes after the changes so far. *)
Fixpoint set_positions (data : list comment) (idx : list nat) (items : list citem) : list comment * option exn :=
  match idx with
  | [] => (data, None)
  | k :: idx' =>
      match items with
      | [] => (data, Some IndexError)
      | x :: items' => set_positions (update_at k (assign_comment x) data) idx' items'
      end
  end.
(** tags.py 150-153 *)
Definition cm_append (c : comments) (x : citem) : comments := with_comments c (cs_data c ++ [item_comment x]).
(** tags.py 155-158 *)
Definition cm_insert (c : comments) (i : Z) (x : citem) : comments := with_comments c (py_insert (cs_data c) i (item_comment x)).
(** tags.py 160-163 for a text *)
Definition cm_index (c : comments) (s : str) : result nat :=
  match find_index (fun x => str_eqb (c_text x) s) (cs_data c) with Some k => Ok k | None => Err ValueError end.
(** tags.py 165-169 *)
Definition cm_extend (c : comments) (xs : list citem) : comments := with_comments c (cs_data c ++ map item_comment xs).
(** tags.py 165-169 when [other] is the object itself: it is read by index while it grows.
    One iteration at index [i]; [None] when the loop is over. *)
Definition extend_self_step (s : nat * list comment) : option (nat * list comment) :=
  let (i, data) := s in
  match nth_error data i with
  | Some x => Some (S i, data ++ [x])
  | None => None
  end.
Fixpoint extend_self (n : nat) (s : nat * list comment) : option (nat * list comment) :=
  match n with
  | O => Some s
  | S n' => match extend_self_step s with Some s' => extend_self n' s' | None => None end
  end.

(** [comments += xs]: [UserList.__iadd__] extends [data] by the items as they are.
    tags.py 193-194 writes [str] of each. *)
Definition iadd_lines (c : comments) (xs : list citem) : list str :=
  comments_raw c ++ map (fun x => match x with AComment y => comment_str y | AText s => s end) xs.
