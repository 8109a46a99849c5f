(** Python [str] as used by /repo/specfile: strings are lists of Unicode code
    points.  Definitions only; facts are in PyStrFacts.v. *)
From Coq Require Import Ascii String.
From Coq Require Decimal DecimalN.
From Coq Require Import NArith ZArith List Bool.
Import ListNotations.
Open Scope N_scope.

(** A Python character (code point) and a Python string. *)
Notation char := N (only parsing).
Notation str := (list N) (only parsing).

(** Literals: [lit "abc"] is the Python string "abc". *)
Definition lit (s : string) : str := map N_of_ascii (list_ascii_of_string s).

(** Exceptions raised by the modelled code (specfile/exceptions.py 1-43 and
    the built-in ones). *)
Inductive exn :=
| ValueError | IndexError | TypeError | AttributeError | KeyError | StopIteration
| RPMException | OptionsException | UnterminatedMacroException
| DuplicateSourceException | SourceNumberException | MacroRemovalException
| SpecfileException | OtherError.

(** Result of a Python call that may raise. *)
Inductive result (A : Type) := Ok (a : A) | Err (e : exn).
Arguments Ok {A} a.
Arguments Err {A} e.

Definition bind {A B} (r : result A) (f : A -> result B) : result B :=
  match r with Ok a => f a | Err e => Err e end.
Notation "'let!' x ':=' a 'in' b" := (bind a (fun x => b))
  (at level 200, x pattern, a at level 100, b at level 200).

(** The part of the Unicode database that is not spelled out below; every
    theorem is quantified over it.  [u_digit] is [unicodedata.decimal]. *)
Class Unicode := {
  u_alnum : N -> bool;
  u_digit : N -> option N;
  u_numeric : N -> bool;
  u_lower : N -> str;
  u_title : N -> str
}.

(** An instance without any non-ASCII letters or digits, for examples. *)
Definition unicode_none : Unicode :=
  {| u_alnum := fun _ => false; u_digit := fun _ => None; u_numeric := fun _ => false;
     u_lower := fun c => [c]; u_title := fun c => [c] |}.

Definition LF : char := 10.
Definition CR : char := 13.
Definition SPC : char := 32.
Definition TAB : char := 9.
Definition HASH : char := 35.
Definition PCT : char := 37.
Definition LPAR : char := 40.
Definition RPAR : char := 41.
Definition STAR : char := 42.
Definition PLUS : char := 43.
Definition DASH : char := 45.
Definition DOT : char := 46.
Definition SLASH : char := 47.
Definition ZERO : char := 48.
Definition COLON : char := 58.
Definition EQUALS : char := 61.
Definition QUESTION : char := 63.
Definition LBRACK : char := 91.
Definition BSLASH : char := 92.
Definition RBRACK : char := 93.
Definition UNDERSCORE : char := 95.
Definition LBRACE : char := 123.
Definition RBRACE : char := 125.
Definition BANG : char := 33.
Definition DQUOTE : char := 34.
Definition SQUOTE : char := 39.

Definition ascii_digit (c : char) : bool := (48 <=? c) && (c <=? 57).
Definition ascii_upper (c : char) : bool := (65 <=? c) && (c <=? 90).
Definition ascii_lower (c : char) : bool := (97 <=? c) && (c <=? 122).
Definition ascii_alpha (c : char) : bool := ascii_upper c || ascii_lower c.

(** [str.isspace] on one character, and [\s] in a [str] pattern: the exact set. *)
Definition is_space (c : char) : bool :=
  ((9 <=? c) && (c <=? 13)) || ((28 <=? c) && (c <=? 32)) || (c =? 133) || (c =? 160)
  || (c =? 5760) || ((8192 <=? c) && (c <=? 8202)) || (c =? 8232) || (c =? 8233)
  || (c =? 8239) || (c =? 8287) || (c =? 12288).

(** Characters at which [str.splitlines] breaks: the exact set. *)
Definition is_linebreak (c : char) : bool :=
  ((10 <=? c) && (c <=? 13)) || ((28 <=? c) && (c <=? 30)) || (c =? 133)
  || (c =? 8232) || (c =? 8233).

(** [string.whitespace]: ASCII whitespace only. *)
Definition in_string_whitespace (c : char) : bool :=
  (c =? 32) || ((9 <=? c) && (c <=? 13)).

Section Uni.
Context {U : Unicode}.

(** [str.isdecimal] on one character with its value, and [\d] in a pattern. *)
Definition digit_val (c : char) : option N :=
  if ascii_digit c then Some (c - 48)
  else if c <? 128 then None
  else if is_space c then None
  else match u_digit c with Some v => if v <? 10 then Some v else None | None => None end.
Definition is_digit (c : char) : bool :=
  match digit_val c with Some _ => true | None => false end.

(** [str.isnumeric] on one character. *)
Definition is_numeric (c : char) : bool :=
  is_digit c || ((128 <=? c) && negb (is_space c) && u_numeric c).

(** [str.isalnum] on one character. *)
Definition is_alnum (c : char) : bool :=
  ascii_digit c || ascii_alpha c
  || ((128 <=? c) && negb (is_space c) && (is_numeric c || u_alnum c)).

(** [\w] in a pattern. *)
Definition is_word (c : char) : bool := is_alnum c || (c =? 95).

(** A case mapping outside ASCII: never empty. *)
Definition all_nonascii (s : str) : bool := match s with [] => false | _ => forallb (fun c => 128 <=? c) s end.

(** [str.lower] of one character: only U+0130 and U+212A have an ASCII
    character in their lower-case image. *)
Definition lower_c (c : char) : str :=
  if ascii_upper c then [c + 32]
  else if c <? 128 then [c]
  else if c =? 304 then [105; 775]
  else if c =? 8490 then [107]
  else let l := u_lower c in if all_nonascii l then l else [c].
Definition lower (s : str) : str := flat_map lower_c s.

(** Title case of one character: the complete table of non-ASCII characters
    with an ASCII character in the image. *)
Definition title_c (c : char) : str :=
  if ascii_lower c then [c - 32]
  else if c <? 128 then [c]
  else if c =? 223 then lit "Ss"
  else if c =? 305 then lit "I"
  else if c =? 329 then [700; 78]
  else if c =? 383 then lit "S"
  else if c =? 496 then [74; 780]
  else if c =? 7830 then [72; 817]
  else if c =? 7831 then [84; 776]
  else if c =? 7832 then [87; 778]
  else if c =? 7833 then [89; 778]
  else if c =? 7834 then [65; 702]
  else if c =? 64256 then lit "Ff"
  else if c =? 64257 then lit "Fi"
  else if c =? 64258 then lit "Fl"
  else if c =? 64259 then lit "Ffi"
  else if c =? 64260 then lit "Ffl"
  else if c =? 64261 then lit "St"
  else if c =? 64262 then lit "St"
  else let l := u_title c in if all_nonascii l then l else [c].

(** [str.capitalize] *)
Definition capitalize (s : str) : str :=
  match s with [] => [] | c :: s' => title_c c ++ lower s' end.

(** [int(s)] for a string of decimal digits ([int] of anything else raises). *)
Fixpoint int_acc (acc : N) (s : str) : option N :=
  match s with
  | [] => Some acc
  | c :: s' => match digit_val c with Some d => int_acc (10 * acc + d) s' | None => None end
  end.
Definition int_of_str (s : str) : option N :=
  match s with [] => None | _ => int_acc 0 s end.

(** [s.isnumeric()], [s.isdigit()]-like checks on whole strings are false on "". *)
Definition str_isnumeric (s : str) : bool :=
  match s with [] => false | _ => forallb is_numeric s end.
Definition str_isdecimal (s : str) : bool :=
  match s with [] => false | _ => forallb is_digit s end.

End Uni.

(** [str(n)] for a non-negative integer. *)
Fixpoint uint_str (u : Decimal.uint) : str :=
  match u with
  | Decimal.Nil => []
  | Decimal.D0 u => 48 :: uint_str u
  | Decimal.D1 u => 49 :: uint_str u
  | Decimal.D2 u => 50 :: uint_str u
  | Decimal.D3 u => 51 :: uint_str u
  | Decimal.D4 u => 52 :: uint_str u
  | Decimal.D5 u => 53 :: uint_str u
  | Decimal.D6 u => 54 :: uint_str u
  | Decimal.D7 u => 55 :: uint_str u
  | Decimal.D8 u => 56 :: uint_str u
  | Decimal.D9 u => 57 :: uint_str u
  end.
Definition dec (n : N) : str := uint_str (N.to_uint n).

(** f"{n:0{width}}" *)
Definition dec_pad (width : nat) (n : N) : str :=
  repeat ZERO (width - length (dec n)) ++ dec n.

(** [==] on strings. *)
Fixpoint str_eqb (a b : str) : bool :=
  match a, b with
  | [], [] => true
  | x :: a', y :: b' => (x =? y) && str_eqb a' b'
  | _, _ => false
  end.

(** [s in container] for a list or set of strings. *)
Definition str_in (s : str) (l : list str) : bool := existsb (str_eqb s) l.

(** [c in s] for a one-character string. *)
Definition char_in (c : char) (s : str) : bool := existsb (N.eqb c) s.

(** [s.startswith(p)], and the remainder. *)
Fixpoint strip_prefix (p s : str) : option str :=
  match p, s with
  | [], _ => Some s
  | x :: p', y :: s' => if x =? y then strip_prefix p' s' else None
  | _ :: _, [] => None
  end.
Definition startswith (s p : str) : bool :=
  match strip_prefix p s with Some _ => true | None => false end.
Definition endswith (s p : str) : bool := startswith (rev s) (rev p).

(** [p in s] (substring). *)
Fixpoint is_substring (p s : str) : bool :=
  startswith s p || match s with [] => false | _ :: s' => is_substring p s' end.

(** [s.lstrip()], [s.rstrip()], [s.strip()] *)
Fixpoint dropwhile (p : char -> bool) (s : str) : str :=
  match s with
  | [] => []
  | c :: s' => if p c then dropwhile p s' else s
  end.
Fixpoint takewhile (p : char -> bool) (s : str) : str :=
  match s with
  | [] => []
  | c :: s' => if p c then c :: takewhile p s' else []
  end.
Definition lstrip (s : str) : str := dropwhile is_space s.
Definition rstrip (s : str) : str := rev (dropwhile is_space (rev s)).
Definition strip (s : str) : str := rstrip (lstrip s).
Definition isblank (s : str) : bool := forallb is_space s.   (** [not s.strip()] *)

(** [sep.join(l)] *)
Fixpoint join (sep : str) (l : list str) : str :=
  match l with
  | [] => []
  | [s] => s
  | s :: l' => s ++ sep ++ join sep l'
  end.

(** [s.splitlines()] *)
Fixpoint splitlines_aux (cur : str) (s : str) : list str :=
  match s with
  | [] => match cur with [] => [] | _ => [rev cur] end
  | c :: s' =>
      if is_linebreak c then
        rev cur ::
        (if c =? CR then
           match s' with
           | d :: s'' => if d =? LF then splitlines_aux [] s'' else splitlines_aux [] s'
           | [] => splitlines_aux [] s'
           end
         else splitlines_aux [] s')
      else splitlines_aux (c :: cur) s'
  end.
Definition splitlines (s : str) : list str := splitlines_aux [] s.

(** [s.split(c)] for a one-character separator. *)
Fixpoint split_on (c : char) (cur : str) (s : str) : list str :=
  match s with
  | [] => [rev cur]
  | d :: s' => if c =? d then rev cur :: split_on c [] s' else split_on c (d :: cur) s'
  end.

(** [s.split()]: maximal runs of non-whitespace. *)
Fixpoint split_ws_aux (cur : str) (s : str) : list str :=
  match s with
  | [] => match cur with [] => [] | _ => [rev cur] end
  | c :: s' =>
      if is_space c then
        match cur with
        | [] => split_ws_aux [] s'
        | _ => rev cur :: split_ws_aux [] s'
        end
      else split_ws_aux (c :: cur) s'
  end.
Definition split_ws (s : str) : list str := split_ws_aux [] s.

(** [int(s)] in general: blanks around, a sign, underscores between digits.  (The interpreter's
    limit on the number of digits is left out.) *)
Section Int.
Context {U : Unicode}.
Definition int_underscores (s : str) : option N :=
  let parts := split_on UNDERSCORE [] s in
  if existsb (fun p => match p with [] => true | _ => false end) parts then None
  else int_of_str (concat parts).
Definition py_int (s : str) : option Z :=
  match strip s with
  | c :: r =>
      if c =? DASH then option_map (fun n => Z.opp (Z.of_N n)) (int_underscores r)
      else if c =? PLUS then option_map Z.of_N (int_underscores r)
      else option_map Z.of_N (int_underscores (c :: r))
  | [] => None
  end.
End Int.

(** Reading a text file: universal newlines turn "\r\n" and "\r" into "\n". *)
Fixpoint universal_newlines (s : str) : str :=
  match s with
  | [] => []
  | c :: s' =>
      if c =? CR then
        LF :: match s' with
              | d :: s'' => if d =? LF then universal_newlines s'' else universal_newlines s'
              | [] => universal_newlines s'
              end
      else c :: universal_newlines s'
  end.

(** Python list helpers: index normalisation [l[i]], slices [l[a:b]]. *)
Open Scope Z_scope.
Definition py_index {A} (l : list A) (i : Z) : option nat :=
  let n := Z.of_nat (length l) in
  if (0 <=? i) && (i <? n) then Some (Z.to_nat i)
  else if (i <? 0) && (0 <=? n + i) then Some (Z.to_nat (n + i))
  else None.
Definition clamp_index {A} (l : list A) (i : Z) : nat :=
  let n := Z.of_nat (length l) in
  if i <? 0 then Z.to_nat (Z.max 0 (n + i)) else Z.to_nat (Z.min n i).
Definition py_insert {A} (l : list A) (i : Z) (x : A) : list A :=
  let k := clamp_index l i in firstn k l ++ x :: skipn k l.
Close Scope Z_scope.

Fixpoint remove_at {A} (n : nat) (l : list A) : list A :=
  match n, l with
  | _, [] => []
  | O, _ :: l' => l'
  | S n', x :: l' => x :: remove_at n' l'
  end.
Fixpoint update_at {A} (n : nat) (f : A -> A) (l : list A) : list A :=
  match n, l with
  | _, [] => []
  | O, x :: l' => f x :: l'
  | S n', x :: l' => x :: update_at n' f l'
  end.
Fixpoint find_index {A} (p : A -> bool) (l : list A) : option nat :=
  match l with
  | [] => None
  | x :: l' => if p x then Some O else option_map S (find_index p l')
  end.
