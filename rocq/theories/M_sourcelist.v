(** Model of /repo/specfile/sourcelist.py.  Not modelled: the [context] of an entry, copying. *)
From Coq Require Import Ascii String.
From Coq Require Import NArith ZArith List Bool.
From Verif Require Import PyStr Regex M_constants M_value M_macro_definitions M_conditions M_tags.
Import ListNotations.
Open Scope N_scope.

(** sourcelist.py 30-49 *)
Record entry := mk_entry { e_location : str; e_comments : comments; e_valid : bool }.
(** sourcelist.py 89-104 *)
Record sourcelist := mk_slist { sl_data : list entry; sl_remainder : list str }.
(** sourcelist.py 163-165 *)
Definition entry_raw (e : entry) : list str := comments_raw (e_comments e) ++ [e_location e].
(** sourcelist.py 155-167 *)
Definition slist_raw (s : sourcelist) : list str := flat_map entry_raw (sl_data s) ++ sl_remainder s.
(** sourcelist.py 146 *)
Definition is_entry (line : str) : bool := negb (str_eqb line []) && negb (startswith (lstrip line) [HASH]).
(** sourcelist.py 143-153 *)
Fixpoint slist_loop (lines : list (str * bool)) (data : list entry) (buffer : list str) : sourcelist :=
  match lines with
  | [] => mk_slist data buffer
  | (line, valid) :: lines' =>
      if is_entry line then slist_loop lines' (data ++ [mk_entry line (comments_parse buffer) valid]) []
      else slist_loop lines' data (buffer ++ [line])
  end.
Section Parse.
Context {U : Unicode} {W : Type} (expand : bool -> W -> str -> result str * W).
(** sourcelist.py 127-153 *)
Definition slist_parse (w : W) (lines : list str) : result sourcelist * W :=
  match process_conditions expand w lines (Some (parse_plain lines)) with
  | (Err e, w') => (Err e, w')
  | (Ok tagged, w') => (Ok (slist_loop tagged [] []), w')
  end.
End Parse.
