(** Model of /repo/specfile/options.py. *)
From Coq Require Import Ascii String.
From Coq Require Import NArith ZArith List Bool.
From Verif Require Import PyStr M_value.
Import ListNotations.
Open Scope N_scope.

(** options.py 15-19 *)
Inductive ttype := DEFAULT | WHITESPACE | QUOTED | DOUBLE_QUOTED.
(** options.py 22-36; [==] and [hash] (53-62) are those of the two values together.  Tokens are values here; two [Options] sharing [Token] objects is not modelled. *)
Record token := mk_token { t_type : ttype; t_value : str }.
Definition is_ws (t : token) : bool := match t_type t with WHITESPACE => true | _ => false end.

Definition is_quote (c : char) : bool := (c =? SQUOTE) || (c =? DQUOTE).
(** [value.replace(q, "\\" + q)] *)
Definition escape_q (q : char) (v : str) : str := flat_map (fun c => if c =? q then [BSLASH; c] else [c]) v.
(** options.py 51 *)
Definition escape_default (v : str) : str :=
  flat_map (fun c => if is_quote c || is_space c then [BSLASH; c] else [c]) v.
(** options.py 38-51 *)
Definition token_str (t : token) : str :=
  match t_type t with
  | WHITESPACE => t_value t
  | QUOTED => SQUOTE :: escape_q SQUOTE (t_value t) ++ [SQUOTE]
  | DOUBLE_QUOTED => DQUOTE :: escape_q DQUOTE (t_value t) ++ [DQUOTE]
  | DEFAULT => escape_default (t_value t)
  end.
(** options.py 247-248 *)
Definition tokens_str (l : list token) : str := flat_map token_str l.

(** Python values of options: [None], [bool], [int], [str]. *)
Inductive oval := VNone | VBool (b : bool) | VInt (z : Z) | VStr (s : str).
(** [str(value)] *)
Definition zdec (z : Z) : str :=
  match z with Zneg p => DASH :: dec (Npos p) | Z0 => [ZERO] | Zpos p => dec (Npos p) end.
Definition oval_str (v : oval) : str :=
  match v with
  | VNone => lit "None"
  | VBool true => lit "True"
  | VBool false => lit "False"
  | VInt z => zdec z
  | VStr s => s
  end.

(** options.py 210-241 *)
Record opts := mk_opts { o_tokens : list token; o_optstring : str; o_defaults : list (char * oval) }.
Definition with_tokens (o : opts) (l : list token) : opts := mk_opts l (o_optstring o) (o_defaults o).

(** options.py 250-265; option names are single characters (a longer name that happens to be
    a substring of the option string is not modelled). *)
Definition optchars (o : opts) : str := filter (fun c => negb (c =? COLON)) (o_optstring o).
Definition valid_option (o : opts) (name : char) : bool := char_in name (optchars o).
(** options.py 267-281 *)
Fixpoint requires_in (s : str) (name : char) : bool :=
  match s with
  | [] => false
  | c :: s' => if c =? name then match s' with d :: _ => d =? COLON | [] => false end else requires_in s' name
  end.
Definition requires_argument (o : opts) (name : char) : bool := requires_in (o_optstring o) name.

(** Last index of an element satisfying [p]. *)
Fixpoint find_last {A} (p : A -> bool) (l : list A) : option nat :=
  match l with
  | [] => None
  | x :: l' => match find_last p l' with Some k => Some (S k) | None => if p x then Some 0%nat else None end
  end.
Definition tok_at (l : list token) (i : nat) : token := nth i l (mk_token DEFAULT []).
(** options.py 283-313 *)
Definition find_option (o : opts) (name : char) : option (nat * option nat) :=
  let l := o_tokens o in
  match find_last (fun t => startswith (t_value t) [DASH; name]) l with
  | None => None
  | Some i =>
      if negb (str_eqb (t_value (tok_at l i)) [DASH; name]) then Some (i, Some i)
      else if negb (requires_argument o name) then Some (i, None)
      else
        let j := S i in
        if Nat.eqb j (length l) then Some (i, None)
        else
          let j := if is_ws (tok_at l j) then S j else j in
          if Nat.eqb j (length l) then Some (i, None)
          else if startswith (t_value (tok_at l j)) [DASH] then Some (i, None)
          else Some (i, Some j)
  end.

(** options.py 315-318 *)
Definition needs_quoting (v : oval) : bool := existsb in_string_whitespace (oval_str v).

Section Uni.
Context {U : Unicode}.
(** Conversion of a text value (options.py 100-105, 333-337). *)
Definition number_or_text (s : str) : result oval :=
  if str_isnumeric s then match int_of_str s with Some n => Ok (VInt (Z.of_N n)) | None => Err ValueError end
  else Ok (VStr s).
(** options.py 320-337, for a recognized option. *)
Definition opt_get (o : opts) (name : char) : result oval :=
  match find_option o name with
  | None =>
      if requires_argument o name then
        Ok (match find (fun p => fst p =? name) (o_defaults o) with Some p => snd p | None => VNone end)
      else Ok (VBool false)
  | Some (i, j) =>
      let at_i := skipn 2 (t_value (tok_at (o_tokens o) i)) in
      let value := match j with
                   | Some j => if (i <? j)%nat then t_value (tok_at (o_tokens o) j) else at_i
                   | None => at_i
                   end in
      match value with [] => Ok (VBool true) | _ => number_or_text value end
  end.
End Uni.

(** [del tokens[i : j + 1]] *)
Definition del_range {A} (l : list A) (i j : nat) : list A := firstn i l ++ skipn (S j) l.
(** options.py 393-411, for a recognized option. *)
Definition opt_del (o : opts) (name : char) : opts :=
  match find_option o name with
  | None => o
  | Some (i, j) =>
      let l := o_tokens o in
      let '(i, j) :=
        match i with
        | O => match j with
               | Some j' => if (S j' <? length l)%nat && is_ws (tok_at l (S j')) then (i, Some (S j')) else (i, j)
               | None => (i, j)
               end
        | S i' => if is_ws (tok_at l i') then (i', j) else (i, j)
        end in
      match j with
      | Some j' => if (i <? j')%nat then with_tokens o (del_range l i j') else with_tokens o (remove_at i l)
      | None => with_tokens o (remove_at i l)
      end
  end.

Definition set_value (v : str) (t : token) : token := mk_token (t_type t) v.
Definition insert_at {A} (i : nat) (x : A) (l : list A) : list A := firstn i l ++ x :: skipn i l.
Definition space_token : token := mk_token WHITESPACE [SPC].
Definition text_type (v : oval) : ttype := if needs_quoting v then DOUBLE_QUOTED else DEFAULT.
(** options.py 339-391, for a recognized option. *)
Definition opt_set (o : opts) (name : char) (v : oval) : result opts :=
  let is_bool := match v with VBool _ => true | _ => false end in
  let is_none := match v with VNone => true | _ => false end in
  if requires_argument o name && is_bool then Err OptionsException
  else if negb (requires_argument o name) && negb is_bool && negb is_none then Err OptionsException
  else
    let l := o_tokens o in
    match find_option o name with
    | None =>
        let l1 := match l with [] => [] | _ => l ++ [space_token] end in
        match v with
        | VNone | VBool false => Ok o
        | VBool true => Ok (with_tokens o (l1 ++ [mk_token DEFAULT [DASH; name]]))
        | VInt z => Ok (with_tokens o (l1 ++ [mk_token DEFAULT (DASH :: name :: zdec z)]))
        | VStr s => Ok (with_tokens o (l1 ++ [mk_token DEFAULT [DASH; name]; space_token; mk_token (text_type v) s]))
        end
    | Some (i, j) =>
        match v with
        | VNone | VBool false => Ok (opt_del o name)
        | _ =>
            match (match j with Some j' => if (i <? j')%nat then Some j' else None | None => None end) with
            | Some j' =>
                let retype t := if needs_quoting v then
                                  match t with QUOTED | DOUBLE_QUOTED => t | _ => DOUBLE_QUOTED end
                                else DEFAULT in
                Ok (with_tokens o (update_at j' (fun t => mk_token (retype (t_type t)) (oval_str v)) l))
            | None =>
                if needs_quoting v then
                  let l1 := update_at i (fun t => set_value (firstn 2 (t_value t)) t) l in
                  Ok (with_tokens o (insert_at (S i) space_token (insert_at (S i) (mk_token DOUBLE_QUOTED (oval_str v)) l1)))
                else
                  Ok (with_tokens o (update_at i (fun t => set_value (firstn 2 (t_value t) ++ oval_str v) t) l))
            end
        end
    end.

(** options.py 140-168 (and 68-75, 86-87): the indices of positional arguments; the loop variable starts at [i]. *)
Fixpoint items_from (o : opts) (i : nat) (l : list token) : list nat :=
  match l with
  | [] => []
  | t :: l' =>
      if is_ws t then items_from o (S i) l'
      else
        match t_value t with
        | d :: x =>
            if d =? DASH then
              match x with
              | c :: x' =>
                  if valid_option o c && requires_argument o c && match x' with [] => true | _ => false end then
                    match l' with
                    | u :: l'' =>
                        if is_ws u then match l'' with _ :: l3 => items_from o (3 + i) l3 | [] => [] end
                        else items_from o (2 + i) l''
                    | [] => []
                    end
                  else items_from o (S i) l'
              | [] => items_from o (S i) l'
              end
            else i :: items_from o (S i) l'
        | [] => i :: items_from o (S i) l'
        end
  end.
Definition get_items (o : opts) : list nat := items_from o 0 (o_tokens o).

(** options.py 107-118: assignment to one positional argument. *)
Definition pos_set (o : opts) (i : Z) (v : oval) : result opts :=
  match py_index (get_items o) i with
  | None => Err IndexError
  | Some k => Ok (with_tokens o (update_at (nth k (get_items o) 0%nat) (set_value (oval_str v)) (o_tokens o)))
  end.
(** options.py 121-130 *)
Definition pos_delete_token (l : list token) (index : nat) : list token :=
  match index with
  | O => remove_at 0 (if (1 <? length l)%nat && is_ws (tok_at l 1) then remove_at 1 l else l)
  | S k => if is_ws (tok_at l k) then remove_at k (remove_at k l) else remove_at index l
  end.
(** options.py 120-138 *)
Definition pos_del (o : opts) (i : Z) : result opts :=
  match py_index (get_items o) i with
  | None => Err IndexError
  | Some k => Ok (with_tokens o (pos_delete_token (o_tokens o) (nth k (get_items o) 0%nat)))
  end.
(** options.py 170-207 *)
Definition pos_insert (o : opts) (i : Z) (v : oval) : result opts :=
  let items := get_items o in
  let l := o_tokens o in
  let n := Z.of_nat (length items) in
  let i := if (n <? i)%Z then n else i in
  let! index :=
    (match items with
     | [] => Ok (length l)
     | _ => if (i <? n)%Z then
              match py_index items i with
              | None => Err IndexError
              | Some k => let index := nth k items 0%nat in
                          Ok (match index with S p => if is_ws (tok_at l p) then p else index | O => index end)
              end
            else Ok (length l)
     end) in
  let l1 := insert_at index (mk_token (text_type v) (oval_str v)) l in
  Ok (with_tokens o (if (0 <? index)%nat then insert_at index space_token l1 else l1)).
Section Uni2.
Context {U : Unicode}.
(** options.py 91-105 *)
Definition pos_get (o : opts) (i : Z) : result oval :=
  match py_index (get_items o) i with
  | None => Err IndexError
  | Some k => number_or_text (t_value (tok_at (o_tokens o) (nth k (get_items o) 0%nat)))
  end.
Definition pos_list (o : opts) : list str := map (fun k => t_value (tok_at (o_tokens o) k)) (get_items o).

(** options.py 476-485: literals by character, anything else as a whole. *)
Definition atoms (ns : list node) : list str :=
  flat_map (fun n => match n with StringLiteral v => map (fun c => [c]) v | _ => [node_str n] end) ns.

(** States of the loop at options.py 486-538. *)
Inductive mode := Dflt (v : str) | Quote (q : char) (v : str) | Space (ws : str).
Definition all_space (c : str) : bool := match c with [] => false | _ => forallb is_space c end.   (** [c.isspace()] *)
Definition flush (t : ttype) (v : str) : list token :=
  match v with [] => [] | _ => [mk_token t v] end.
Definition quoted_type (q : char) : ttype := if q =? SQUOTE then QUOTED else DOUBLE_QUOTED.
Definition prepend (x : list token) (r : result (list token)) : result (list token) := let! y := r in Ok (x ++ y).

(** options.py 486-542 *)
Fixpoint tok (inp : list str) (m : mode) : result (list token) :=
  match inp with
  | [] =>
      match m with
      | Dflt v => Ok (flush DEFAULT v)
      | Quote _ _ => Err OptionsException
      | Space ws => Ok [mk_token WHITESPACE ws]
      end
  | c :: inp' =>
      let dflt v :=
        if all_space c then prepend (flush DEFAULT v) (tok inp' (Space c))
        else if str_eqb c [DQUOTE] then prepend (flush DEFAULT v) (tok inp' (Quote DQUOTE []))
        else if str_eqb c [SQUOTE] then prepend (flush DEFAULT v) (tok inp' (Quote SQUOTE []))
        else if str_eqb c [BSLASH] then
          match inp' with
          | [] => Err OptionsException
          | d :: inp'' => tok inp'' (Dflt (v ++ d))
          end
        else tok inp' (Dflt (v ++ c)) in
      match m with
      | Quote q v =>
          if str_eqb c [q] then prepend (flush (quoted_type q) v) (tok inp' (Dflt []))
          else if str_eqb c [BSLASH] then
            match inp' with
            | [] => Err OptionsException
            | d :: inp'' => tok inp'' (Quote q (v ++ if str_eqb d [q] then d else BSLASH :: d))
            end
          else tok inp' (Quote q (v ++ c))
      | Space ws => if all_space c then tok inp' (Space (ws ++ c)) else prepend [mk_token WHITESPACE ws] (dflt [])
      | Dflt v => dflt v
      end
  end.
Definition tokenize (s : str) : result (list token) := let! ns := parse s in tok (atoms ns) (Dflt []).
End Uni2.
