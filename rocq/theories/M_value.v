(** Model of /repo/specfile/value_parser.py 21-290 and /repo/specfile/utils.py 263-323. *)
From Coq Require Import Ascii String.
From Coq Require Import NArith ZArith List Bool.
From Verif Require Import PyStr.
Import ListNotations.
Open Scope N_scope.

(** value_parser.py 21-174: the node classes. *)
Inductive node :=
| StringLiteral (value : str)
| ShellExpansion (body : str)
| ExpressionExpansion (body : str)
| MacroSubstitution (prefix name : str)
| EnclosedMacroSubstitution (prefix name : str) (args : list str)
| ConditionalMacroExpansion (prefix name : str) (body : list node)
| BuiltinMacro (name body : str).

(** [re.split] by an anchored, captured run of "?" and "!" with maxsplit=1: the pattern
    always matches, so the result is ["", prefix, rest] (value_parser.py 77-81, 99-103, 134-138, 272-273). *)
Definition is_cond_char (c : char) : bool := (c =? QUESTION) || (c =? BANG).
Definition split_prefix (s : str) : str * str := (takewhile is_cond_char s, dropwhile is_cond_char s).

Definition pct (s : str) : str := PCT :: s.
Definition braced (s : str) : str := PCT :: LBRACE :: s ++ [RBRACE].

(** value_parser.py 35-36, 57-58, 72-73, 87-88, 114-116, 148-150, 167-168: [__str__]. *)
Fixpoint node_str (n : node) : str :=
  match n with
  | StringLiteral v => v
  | ShellExpansion b => PCT :: LPAR :: b ++ [RPAR]
  | ExpressionExpansion b => PCT :: LBRACK :: b ++ [RBRACK]
  | MacroSubstitution p n => PCT :: p ++ n
  | EnclosedMacroSubstitution p n args =>
      braced (p ++ n ++ match args with [] => [] | _ => SPC :: join [SPC] args end)
  | ConditionalMacroExpansion p n body => braced (p ++ n ++ COLON :: flat_map node_str body)
  | BuiltinMacro n b => braced (n ++ COLON :: b)
  end.
Definition nodes_str (l : list node) : str := flat_map node_str l.

(** value_parser.py 178-196 *)
Fixpoint flatten_node (n : node) : list node :=
  match n with
  | ConditionalMacroExpansion _ _ body => flat_map flatten_node body
  | _ => [n]
  end.
Definition flatten (l : list node) : list node := flat_map flatten_node l.

(** value_parser.py 98-106: the constructor; [self.name, *self.args = rest.split()]
    raises ValueError when there is nothing to unpack. *)
Definition make_enclosed (body : str) : result node :=
  let (p, rest) := split_prefix body in
  match split_ws rest with
  | [] => Err ValueError
  | n :: args => Ok (EnclosedMacroSubstitution p n args)
  end.

(** value_parser.py 215 *)
Definition closing (c : char) : option char :=
  if c =? LPAR then Some RPAR else if c =? LBRACE then Some RBRACE
  else if c =? LBRACK then Some RBRACK else None.

(** value_parser.py 217-229: number of characters up to and including the matching
    bracket.  (The test for a backslash only skips the backslash itself.) *)
Fixpoint match_paren (o c : char) (level : Z) (s : str) : option nat :=
  match s with
  | [] => None
  | d :: s' =>
      if d =? BSLASH then option_map S (match_paren o c level s')
      else if d =? c then
        if (level - 1 <=? 0)%Z then Some 1%nat else option_map S (match_paren o c (level - 1)%Z s')
      else if d =? o then option_map S (match_paren o c (level + 1)%Z s')
      else option_map S (match_paren o c level s')
  end.

Section Uni.
Context {U : Unicode}.

(** value_parser.py 235-245: number of characters of an unbracketed macro name.
    [value[i : i + 1] == "**"] is never true. *)
Definition name_len (s : str) : nat :=
  let a := takewhile is_cond_char s in
  let s1 := dropwhile is_cond_char s in
  let d := match s1 with c :: _ => if c =? DASH then 1%nat else 0%nat | [] => 0%nat end in
  let s2 := skipn d s1 in
  let n := takewhile is_word s2 in
  let s3 := dropwhile is_word s2 in
  let e := match s3 with c :: _ => if (c =? STAR) || (c =? HASH) then 1%nat else 0%nat | [] => 0%nat end in
  (length a + d + length n + e)%nat.

(** value_parser.py 231-246; [s] is [value[index:]], not empty. *)
Definition macro_len (s : str) : option nat :=
  match s with
  | o :: _ => match closing o with
              | Some c => match_paren o c 0 s
              | None => Some (name_len s)
              end
  | [] => None
  end.

(** [value.index("%", k)] relative to [k]. *)
Definition find_pct (s : str) : option nat := find_index (N.eqb PCT) s.

(** [s.split(":", maxsplit=1)] when ":" occurs in [s]. *)
Fixpoint split_colon (s : str) : str * str :=
  match s with
  | [] => ([], [])
  | c :: s' => if c =? COLON then ([], s') else let (a, b) := split_colon s' in (c :: a, b)
  end.

(** value_parser.py 248-290.  The loop over [start] and [offset]; [value] is the whole
    text.  [fuel] bounds the number of iterations; P_value.v shows it is never
    exhausted.  The test for ":" at line 270 looks at [value[start:end]]. *)
Fixpoint parse_loop (fuel : nat) (value : str) (start offset : nat) : result (list node) :=
  match fuel with
  | O => Err OtherError
  | S fuel =>
      let finish := Ok (match skipn start value with [] => [] | t => [StringLiteral t] end) in
      if (length value <=? start)%nat then finish
      else
        match find_pct (skipn (start + offset) value) with
        | None => finish
        | Some k =>
            let e := (start + offset + k)%nat in
            match nth_error value (e + 1) with
            | None => Err UnterminatedMacroException
            | Some d =>
                if d =? PCT then parse_loop fuel value start (e + 2)
                else
                  let before := if (start <? e)%nat then [StringLiteral (firstn (e - start) (skipn start value))] else [] in
                  match macro_len (skipn (e + 1) value) with
                  | None => Err UnterminatedMacroException
                  | Some n =>
                      let fin := (e + 1 + n)%nat in
                      let inner := firstn (n - 2) (skipn (e + 2) value) in
                      let! nd :=
                        (if d =? LPAR then Ok (ShellExpansion inner)
                         else if d =? LBRACK then Ok (ExpressionExpansion inner)
                         else if d =? LBRACE then
                           if char_in COLON (firstn (fin - e) (skipn e value)) then
                             let (condition, body) := split_colon inner in
                             let (p, nm) := split_prefix condition in
                             if char_in QUESTION p then
                               let! b := parse_loop fuel body 0 0 in
                               Ok (ConditionalMacroExpansion p nm b)
                             else Ok (BuiltinMacro condition body)
                           else make_enclosed inner
                         else let (p, nm) := split_prefix (firstn n (skipn (e + 1) value)) in
                              Ok (MacroSubstitution p nm)) in
                      let! rest := parse_loop fuel value fin 0 in
                      Ok (before ++ nd :: rest)
                  end
            end
        end
  end.
(** value_parser.py 198-290.  Simplification: the literal after the loop is produced by
    the last iteration. *)
Definition parse (value : str) : result (list node) :=
  parse_loop (S (S (length value))) value 0 0.

(** utils.py 302-323: body, prefix, suffix. *)
Definition split_conditional_macro_expansion (value : str) : result (str * str * str) :=
  match parse value with
  | Err UnterminatedMacroException => Ok (value, [], [])
  | Err e => Err e
  | Ok [ConditionalMacroExpansion p n body] =>
      Ok (nodes_str body, PCT :: LBRACE :: p ++ n ++ [COLON], [RBRACE])
  | Ok _ => Ok (value, [], [])
  end.
End Uni.

(** utils.py 263-299: counts of open curly braces and open parentheses. *)
Fixpoint count_from (bc pc : nat) (s : str) : nat * nat :=
  match s with
  | [] => (bc, pc)
  | c :: s1 =>
      match s1 with
      | d :: s2 =>
          if c =? BSLASH then count_from bc pc s2
          else if c =? PCT then
            if d =? LBRACE then count_from (S bc) pc s2
            else if d =? LPAR then count_from bc (S pc) s2
            else count_from bc pc s2
          else if (c =? LBRACE) && negb (Nat.eqb bc 0) then count_from (S bc) pc s1
          else if (c =? RBRACE) && negb (Nat.eqb bc 0) then count_from (pred bc) pc s1
          else if (c =? LPAR) && negb (Nat.eqb pc 0) then count_from bc (S pc) s1
          else if (c =? RPAR) && negb (Nat.eqb pc 0) then count_from bc (pred pc) s1
          else count_from bc pc s1
      | [] =>
          if (c =? LBRACE) && negb (Nat.eqb bc 0) then (S bc, pc)
          else if (c =? RBRACE) && negb (Nat.eqb bc 0) then (pred bc, pc)
          else if (c =? LPAR) && negb (Nat.eqb pc 0) then (bc, S pc)
          else if (c =? RPAR) && negb (Nat.eqb pc 0) then (bc, pred pc)
          else (bc, pc)
      end
  end.
Definition count_brackets (s : str) : nat * nat := count_from 0 0 s.
