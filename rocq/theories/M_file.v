(** Model of loading and saving a spec file: /repo/specfile/specfile.py 100-125 and 180-186. *)
From Coq Require Import NArith List Bool.
From Verif Require Import PyStr.
Import ListNotations.
Open Scope N_scope.

(** Bytes are numbers below 256. *)
Definition cont (b : N) : bool := (128 <=? b) && (b <=? 191).
(** The [surrogateescape] handler maps an undecodable byte to a lone surrogate. *)
Definition escape (b : N) : char := 56320 + b.
Definition cp2 (a b : N) : N := (a - 192) * 64 + (b - 128).
Definition cp3 (a b c : N) : N := (a - 224) * 4096 + (b - 128) * 64 + (c - 128).
Definition cp4 (a b c d : N) : N := (a - 240) * 262144 + (b - 128) * 4096 + (c - 128) * 64 + (d - 128).
Definition ok3 (a b c : N) : bool :=
  cont b && cont c && (2048 <=? cp3 a b c) && negb ((55296 <=? cp3 a b c) && (cp3 a b c <=? 57343)).
Definition ok4 (a b c d : N) : bool :=
  cont b && cont c && cont d && (65536 <=? cp4 a b c d) && (cp4 a b c d <=? 1114111).
(** [bytes.decode("utf8", "surrogateescape")]: overlong forms, surrogates and numbers above 0x10FFFF are
    undecodable.  CPython hands a whole malformed prefix to the error handler, which escapes every byte of it;
    a byte inside such a prefix cannot start a sequence, so escaping one byte at a time gives the same. *)
Fixpoint decode (s : list N) : str :=
  match s with
  | [] => []
  | a :: s1 =>
      if a <? 128 then a :: decode s1
      else if (194 <=? a) && (a <=? 223) then
        match s1 with
        | b :: s2 => if cont b then cp2 a b :: decode s2 else escape a :: decode s1
        | _ => escape a :: decode s1
        end
      else if (224 <=? a) && (a <=? 239) then
        match s1 with
        | b :: c :: s3 => if ok3 a b c then cp3 a b c :: decode s3 else escape a :: decode s1
        | _ => escape a :: decode s1
        end
      else if (240 <=? a) && (a <=? 244) then
        match s1 with
        | b :: c :: d :: s4 => if ok4 a b c d then cp4 a b c d :: decode s4 else escape a :: decode s1
        | _ => escape a :: decode s1
        end
      else escape a :: decode s1
  end.
(** [str.encode("utf8", "surrogateescape")]; the failure is a [UnicodeEncodeError], a [ValueError]. *)
Definition encode_char (c : char) : option (list N) :=
  if c <? 128 then Some [c]
  else if c <? 2048 then Some [192 + c / 64; 128 + c mod 64]
  else if (55296 <=? c) && (c <=? 57343) then
    if (56448 <=? c) && (c <=? 56575) then Some [c - 56320] else None
  else if c <? 65536 then Some [224 + c / 4096; 128 + (c / 64) mod 64; 128 + c mod 64]
  else Some [240 + c / 262144; 128 + (c / 4096) mod 64; 128 + (c / 64) mod 64; 128 + c mod 64].
Fixpoint encode (s : str) : option (list N) :=
  match s with
  | [] => Some []
  | c :: s' => match encode_char c, encode s' with Some a, Some b => Some (a ++ b) | _, _ => None end
  end.

(** The part of a [Specfile] that holds the text. *)
Record spec := mkSpec { sp_lines : list str; sp_newline : bool }.
(** specfile.py 100-101 *)
Definition spec_str (s : spec) : str := join [LF] (sp_lines s) ++ (if sp_newline s then [LF] else []).
(** specfile.py 123-125: [read_text] decodes and translates newlines; [content[-1]] fails on empty content. *)
Definition read_lines (bytes : list N) : result spec :=
  let content := universal_newlines (decode bytes) in
  match rev content with
  | [] => Err IndexError
  | c :: _ => Ok (mkSpec (splitlines content) (c =? LF))
  end.
(** specfile.py 184-186: the file afterwards and the outcome.  [write_text] opens the file for writing, which
    truncates it, before it encodes the text; [os.linesep] is a line feed. *)
Definition save (s : spec) : list N * result unit :=
  match encode (spec_str s) with
  | Some bytes => (bytes, Ok tt)
  | None => ([], Err ValueError)
  end.
