(** Formatting of the text of [repr()]: /repo/specfile/formatter.py.  Python's parser ([ast.parse]) and [repr] of strings are oracles. *)
From Coq Require Import Ascii String.
From Coq Require Import NArith List Bool Arith.
From Verif Require Import PyStr.
Import ListNotations.
Open Scope N_scope.

(** The part of Python's syntax trees that matters (32-56, 74-77).  [Const] has the [repr] of its value; the function of a call is [None] unless it is a name;
    the name of a keyword argument is [None] for [**x]; [Other] is every other node, also the key of [**x] in a dictionary. *)
Inductive tree :=
| Const (r : str)
| Tuple (l : list tree)
| List (l : list tree)
| Dict (l : list (tree * tree))
| Call (f : option str) (args : list tree) (kws : list (option str * tree))
| Other.

Definition spaces (n : nat) : str := repeat 32 n.
(** formatter.py 62-66: [f"{key}{delimiter}" if key else ""] *)
Definition prefix_of (key : option str) (delimiter : str) : str := match key with None | Some [] => [] | Some k => k ++ delimiter end.
(** formatter.py 57-73: what is written around the items, which are formatted by [item] (a formatter for an indentation) *)
Definition enclosed (multiline : bool) (indent : nat) (start close : str) (items : list (nat -> result str)) : result str :=
  let! body := (fix go (l : list (nat -> result str)) : result str :=
    match l with
    | [] => Ok []
    | f :: l' =>
        let! x := f (if multiline then indent + 4 else 0)%nat in
        let! y := go l' in
        Ok (x ++ (if multiline then lit "," ++ [10] else match l' with [] => [] | _ => lit ", " end) ++ y)
    end) items in
  Ok (start ++ (if multiline then [10] else []) ++ body ++ (if multiline then spaces indent else []) ++ close).
(** all of a list of results, the first error otherwise *)
Fixpoint all_ok {A} (l : list (result A)) : result (list A) :=
  match l with [] => Ok [] | r :: l' => let! x := r in let! xs := all_ok l' in Ok (x :: xs) end.
(** formatter.py 30-80: [fmt]; [threshold] is [line_length_threshold]. *)
Section Fmt.
Context (threshold : nat).
Fixpoint fmt (node : tree) (indent : nat) (prefix : str) : result str :=
  let render (multiline : bool) : result str :=
    let! text :=
      match node with
      | Const r => Ok r
      | Tuple l => enclosed multiline indent (lit "(") (if multiline || negb (Nat.eqb (length l) 1) then lit ")" else lit ",)") (map (fun e i => fmt e i []) l)
      | List l => enclosed multiline indent (lit "[") (lit "]") (map (fun e i => fmt e i []) l)
      | Dict l =>
          let! keys := all_ok (map (fun kv => fmt (fst kv) 0%nat []) l) in
          enclosed multiline indent (lit "{") (lit "}") (map (fun x i => snd x i (prefix_of (Some (fst x)) (lit ": "))) (combine keys (map (fun kv => fmt (snd kv)) l)))
      | Call None _ _ => Err AttributeError
      | Call (Some f) args kws =>
          enclosed multiline indent (f ++ lit "(") (lit ")") (map (fun e i => fmt e i []) args ++ map (fun kv i => fmt (snd kv) i (prefix_of (fst kv) (lit "="))) kws)
      | Other => Err SpecfileException
      end in
    Ok (spaces indent ++ prefix ++ text) in
  let! flat := render false in
  if Nat.ltb threshold (length flat) then render true else Ok flat.
End Fmt.

(** formatter.py 82-91: [find_matching_bracket], from [index] on; [level] is a Python integer that is tested for [<= 0] after a decrement *)
Fixpoint find_matching (level : nat) (i : nat) (value : str) : option nat :=
  match value with
  | [] => None
  | c :: value' =>
      if c =? 62 then (if Nat.leb level 1 then Some (S i) else find_matching (pred level) (S i) value')
      else if c =? 60 then find_matching (S level) (S i) value' else find_matching level (S i) value'
  end.
Definition find_matching_bracket (value : str) (index : nat) : option nat := find_matching 0 index (skipn index value).

(** What [ast.parse] makes of a text: a tree, or a syntax error with the line and column that it has, if any (numbers from 1; 0 stands for [None] as well). *)
Inductive parsed := Parsed (t : tree) | Syntax (lineno offset : nat).
Section Format.
Context (ast_parse : str -> parsed) (repr : str -> str).
(** formatter.py 97-119: the expression with a placeholder, the placeholder and the text that it stands for; [None] for [raise] of the syntax error *)
Definition placeholder (expression : str) (lineno offset : nat) : result (option (str * (str * str))) :=
  let lines := splitlines expression in
  if (Nat.eqb lineno 0 || Nat.eqb offset 0)%bool then Ok None
  else
    match nth_error lines (pred lineno) with
    | None => Err IndexError
    | Some line =>
        match nth_error line (pred offset) with
        | None => Err IndexError
        | Some c =>
            if negb (c =? 60) then Ok None
            else
              match find_matching_bracket line (pred offset) with
              | None => Ok None
              | Some index =>
                  let value := firstn (index - pred offset) (skipn (pred offset) line) in
                  let line' := firstn (pred offset) line ++ repr value ++ skipn index line in
                  Ok (Some (join [10] (firstn (pred lineno) lines ++ [line'] ++ skipn lineno lines), (repr value, value)))
              end
        end
    end.
(** [str.replace(a, b, 1)] *)
Fixpoint replace_first (a b s : str) : str :=
  if startswith s a then b ++ skipn (length a) s else match s with [] => [] | c :: s' => c :: replace_first a b s' end.
(** The outcome of [format_expression]: a text, [SyntaxError] ([Bad]), or another exception. *)
Inductive outcome := Text (s : str) | Bad | Raised (e : exn).
(** formatter.py 93-126; [n] bounds the number of rounds of the loop: [None] if it does not end within these. *)
Fixpoint format_rounds (n : nat) (threshold : nat) (placeholders : list (str * str)) (expression : str) : option outcome :=
  match n with
  | O => None
  | S n' =>
      match ast_parse expression with
      | Parsed t =>
          match fmt threshold t 0 [] with
          | Ok s => Some (Text (fold_left (fun s pv => replace_first (fst pv) (snd pv) s) placeholders s))
          | Err e => Some (Raised e)
          end
      | Syntax lineno offset =>
          match placeholder expression lineno offset with
          | Ok None => Some Bad
          | Ok (Some (expression', pv)) => format_rounds n' threshold (placeholders ++ [pv]) expression'
          | Err e => Some (Raised e)
          end
      end
  end.
Definition format_expression (n : nat) (expression : str) : option outcome := format_rounds n 80 [] expression.
(** formatter.py 129-140: [formatted], for a function that returned [result] *)
Definition formatted (n : nat) (text : str) : option (result str) :=
  match format_expression n text with
  | None => None
  | Some (Text s) => Some (Ok s)
  | Some Bad | Some (Raised SpecfileException) => Some (Ok text)
  | Some (Raised e) => Some (Err e)
  end.
End Format.
