(** [Macros.dump] (/repo/specfile/macros.py 118-131): capturing what [%dump] writes, decoding and parsing it. *)
From Coq Require Import NArith List Bool.
From Verif Require Import PyStr M_file M_capture M_macros.
Import ListNotations.
Open Scope N_scope.

Section Uni.
Context {U : Unicode}.
(** [bytes.decode()]: what would be escaped as a surrogate is a [UnicodeDecodeError], a [ValueError]. *)
Definition decode_strict (b : list N) : result str :=
  let t := M_file.decode b in if existsb (fun c => (55296 <=? c) && (c <=? 57343)) t then Err ValueError else Ok t.
Fixpoint decode_lines (l : list (list N)) : result (list str) :=
  match l with [] => Ok [] | b :: l' => let! t := decode_strict b in let! ts := decode_lines l' in Ok (t :: ts) end.
(** macros.py 129-131; [block] is what [rpm.expandMacro("%dump")] does. *)
Definition dump (block : list event) (s : system) : system * result (list macro) :=
  let (s', r) := capture no_faults (M_capture.run block) s in
  (s', match snd r with Some e => Err e | None => let! ls := decode_lines (fst r) in M_macros.parse ls end).
End Uni.
