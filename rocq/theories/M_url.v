(** [Source.remote] (/repo/specfile/sources.py 51-54), with the part of [urllib.parse.urlsplit] of CPython 3.12 that matters for it: the scheme and the host.  Older versions do
    not remove the leading blanks. *)
From Coq Require Import Ascii String.
From Coq Require Import NArith List Bool Arith.
From Verif Require Import PyStr.
Import ListNotations.
Open Scope N_scope.

(** What the standard library decides about hosts: [_check_bracketed_netloc] (is what is in the brackets no IP address, or is anything around them?) and [_checknetloc] (does
    normalisation of characters that are not ASCII give delimiters?). *)
Class Hosts := { bad_address : str -> bool; bad_characters : str -> bool }.
Definition letter (c : char) : bool := (65 <=? c) && (c <=? 90) || (97 <=? c) && (c <=? 122).
(** [scheme_chars] *)
Definition scheme_char (c : char) : bool := letter c || (48 <=? c) && (c <=? 57) || (c =? 43) || (c =? 45) || (c =? 46).
(** [_splitnetloc]: the delimiters are [/?#] *)
Definition delimiter (c : char) : bool := (c =? 47) || (c =? 63) || (c =? 35).
Definition contains (c : char) (s : str) : bool := existsb (N.eqb c) s.
(** Leading control characters and spaces are removed, and tabs and line breaks everywhere. *)
Definition clean (url : str) : str := filter (fun c => negb ((c =? 9) || (c =? 10) || (c =? 13))) (dropwhile (fun c => c <=? 32) url).
(** The scheme, not in lower case as it only matters whether there is any, and what comes after it *)
Definition split_scheme (url : str) : str * str :=
  match find_index (N.eqb 58) url with
  | Some i => if (0 <? i)%nat && letter (hd 0 url) && forallb scheme_char (firstn i url) then (firstn i url, skipn (S i) url) else ([], url)
  | None => ([], url)
  end.
Definition split_host (url : str) : str :=
  match url with
  | a :: b :: url' => if (a =? 47) && (b =? 47) then takewhile (fun c => negb (delimiter c)) url' else []
  | _ => []
  end.
Section Url.
Context {H : Hosts}.
Definition check_host (host : str) : bool :=
  if contains 91 host && negb (contains 93 host) || contains 93 host && negb (contains 91 host) then false
  else if contains 91 host && contains 93 host && bad_address host then false
  else negb (existsb (fun c => 128 <=? c) host && bad_characters host).
(** The scheme and the host *)
Definition urlsplit (url : str) : result (str * str) :=
  let (scheme, url') := split_scheme (clean url) in
  let host := split_host url' in
  if check_host host then Ok (scheme, host) else Err ValueError.
(** sources.py 51-54; [urlsplit(None)] has neither scheme nor host. *)
Definition remote (location : option str) : result bool :=
  match location with
  | None => Ok false
  | Some l => let! (scheme, host) := urlsplit l in Ok (negb (match scheme with [] => true | _ => false end) && negb (match host with [] => true | _ => false end))
  end.
End Url.
