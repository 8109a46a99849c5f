(** Independent specification of files and their text. *)
From Coq Require Import NArith List Bool.
From Verif Require Import PyStr.
Import ListNotations.
Open Scope N_scope.

Definition bytes (s : list N) : Prop := Forall (fun b => b < 256) s.
(** A Unicode scalar value: a character that is not a surrogate. *)
Definition scalar (c : N) : Prop := c < 55296 \/ 57344 <= c /\ c <= 1114111.
(** The only line breaks are line feeds. *)
Definition plain_breaks (t : str) : Prop := Forall (fun c => is_linebreak c = true -> c = LF) t.
(** Every line break, of which a carriage return followed by a line feed is one, turned into a line feed. *)
Inductive line_feeds : str -> str -> Prop :=
| B_nil : line_feeds [] []
| B_char c t u : is_linebreak c = false -> line_feeds t u -> line_feeds (c :: t) (c :: u)
| B_crlf t u : line_feeds t u -> line_feeds (CR :: LF :: t) (LF :: u)
| B_break c t u : is_linebreak c = true -> (c = CR -> forall t', t <> LF :: t') -> line_feeds t u -> line_feeds (c :: t) (LF :: u).
(** The text ends in a line break that is neither a line feed nor a carriage return. *)
Definition odd_end (t : str) : Prop := exists t' c, t = t' ++ [c] /\ is_linebreak c = true /\ c <> LF /\ c <> CR.
