(** Model of [Options] as a mapping and of the whole list of positional arguments:
    /repo/specfile/options.py 412-458 and what [collections.abc] adds to these methods. *)
From Coq Require Import Ascii String.
From Coq Require Import NArith ZArith List Bool.
From Verif Require Import PyStr M_value M_options.
Import ListNotations.
Open Scope N_scope.

(** options.py 412-423: the number of different known letters after a dash. *)
Definition dash_letters (o : opts) : list char :=
  flat_map (fun t =>
    if is_ws t then []
    else match t_value t with
         | d :: c :: _ => if (d =? DASH) && char_in c (optchars o) then [c] else []
         | _ => []
         end) (o_tokens o).
Definition opt_len (o : opts) : nat := length (nodup N.eq_dec (dash_letters o)).
(** options.py 443-447 *)
Definition opt_iter (o : opts) : list char :=
  filter (fun c => match find_option o c with Some _ => true | None => false end) (optchars o).

(** options.py 280-281 for any name: [optstring.index(name) + 1] is the character after the first one of the name. *)
Fixpoint after_index (s name : str) : option str :=
  if startswith s name then Some (tl s)
  else match s with [] => None | _ :: s' => after_index s' name end.
Definition requires_name (o : opts) (name : str) : result bool :=
  match after_index (o_optstring o) name with
  | None => Err ValueError
  | Some (d :: _) => Ok (d =? COLON)
  | Some [] => Ok false
  end.
(** options.py 283-313 for any name *)
Definition find_name (o : opts) (name : str) : result (option (nat * option nat)) :=
  let l := o_tokens o in
  match find_last (fun t => startswith (t_value t) (DASH :: name)) l with
  | None => Ok None
  | Some i =>
      if negb (str_eqb (t_value (tok_at l i)) (DASH :: name)) then Ok (Some (i, Some i))
      else
        let! r := requires_name o name in
        if negb r then Ok (Some (i, None))
        else
          let j := S i in
          if Nat.eqb j (length l) then Ok (Some (i, None))
          else
            let j := if is_ws (tok_at l j) then S j else j in
            if Nat.eqb j (length l) then Ok (Some (i, None))
            else if startswith (t_value (tok_at l j)) [DASH] then Ok (Some (i, None))
            else Ok (Some (i, Some j))
  end.

Section Uni.
Context {U : Unicode}.
(** options.py 320-337 for any name that is part of the option letters.
    The keys of [defaults] are single letters in the model. *)
Definition get_name (o : opts) (name : str) : result oval :=
  let! f := find_name o name in
  match f with
  | None =>
      let! r := requires_name o name in
      if r then
        Ok (match name with
            | [c] => match find (fun p => fst p =? c) (o_defaults o) with Some p => snd p | None => VNone end
            | _ => VNone
            end)
      else Ok (VBool false)
  | Some (i, j) =>
      let at_i := skipn 2 (t_value (tok_at (o_tokens o) i)) in
      let value := match j with
                   | Some j => if (i <? j)%nat then t_value (tok_at (o_tokens o) j) else at_i
                   | None => at_i
                   end in
      match value with [] => Ok (VBool true) | _ => number_or_text value end
  end.
(** options.py 425-429.  [attribute name]: the object has an ordinary attribute of this name
    (a method, [optstring], [defaults], ...); its value is [None] here. *)
Definition getitem (attribute : str -> bool) (o : opts) (key : str) : result (option oval) :=
  if attribute key then Ok None
  else if is_substring key (optchars o) then let! v := get_name o key in Ok (Some v)
  else Err KeyError.
(** [collections.abc.Mapping.__contains__] *)
Definition contains_key (attribute : str -> bool) (o : opts) (key : str) : result bool :=
  match getitem attribute o key with
  | Ok _ => Ok true
  | Err KeyError => Ok false
  | Err e => Err e
  end.
(** [collections.abc.Mapping.get] *)
Definition get_or (attribute : str -> bool) (o : opts) (key : str) (default : oval) : result (option oval) :=
  match getitem attribute o key with
  | Err KeyError => Ok (Some default)
  | r => r
  end.

(** [collections.abc.MutableMapping.clear]: [popitem] until the iterator is empty.
    The loop is cut off after [n] rounds; [P_options6.clear_spec] shows that the cut is not reached. *)
Fixpoint clear_rounds (n : nat) (o : opts) : result opts :=
  match opt_iter o with
  | [] => Ok o
  | c :: _ =>
      match n with
      | O => Err OtherError
      | S n' => let! _ := opt_get o c in clear_rounds n' (opt_del o c)
      end
  end.
Definition opt_clear (o : opts) : result opts := clear_rounds (length (o_tokens o)) o.

(** [collections.abc.MutableSequence.clear] on the positional arguments: [pop()] until IndexError;
    [pop] reads the value before it deletes it.  The cut is not reached, see [P_options6.pos_clear_spec]. *)
Fixpoint pos_clear_rounds (n : nat) (o : opts) : result opts :=
  match pos_get o (-1) with
  | Err IndexError => Ok o
  | Err e => Err e
  | Ok _ => match n with O => Err OtherError | S n' => let! o' := pos_del o (-1) in pos_clear_rounds n' o' end
  end.
Definition pos_clear (o : opts) : result opts := pos_clear_rounds (length (o_tokens o)) o.
(** [collections.abc.MutableSequence.extend] and [append] *)
Fixpoint pos_extend (o : opts) (vs : list oval) : result opts :=
  match vs with
  | [] => Ok o
  | v :: vs' => let! o' := pos_insert o (Z.of_nat (length (get_items o))) v in pos_extend o' vs'
  end.
(** options.py 454-458, for a list of values *)
Definition set_positional (o : opts) (vs : list oval) : result opts :=
  let! o1 := pos_clear o in pos_extend o1 vs.
(** options.py 449-458 when the value is the object [options.positional] itself: it reads the tokens
    of the same options, item 0, item 1, ... until IndexError. The cut is at [n] items. *)
Fixpoint pos_extend_self (n : nat) (k : nat) (o : opts) : result opts :=
  match pos_get o (Z.of_nat k) with
  | Err IndexError => Ok o
  | Err e => Err e
  | Ok v => match n with
            | O => Err OtherError
            | S n' => let! o' := pos_insert o (Z.of_nat (length (get_items o))) v in pos_extend_self n' (S k) o'
            end
  end.
Definition set_positional_self (n : nat) (o : opts) : result opts :=
  let! o1 := pos_clear o in pos_extend_self n 0 o1.
(** [options.positional += vs]: read the attribute, [__iadd__] (which is [extend]), assign the attribute. *)
Definition positional_iadd (n : nat) (o : opts) (vs : list oval) : result opts :=
  let! o1 := pos_extend o vs in set_positional_self n o1.
End Uni.
