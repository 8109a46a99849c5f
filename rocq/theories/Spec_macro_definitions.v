(** Independent specification for macro definitions. *)
From Coq Require Import Ascii String.
From Coq Require Import NArith List Bool.
From Verif Require Import PyStr M_macro_definitions.
Import ListNotations.
Open Scope N_scope.

Definition blank (s : str) : Prop := Forall (fun c => is_space c = true) s.
(** The line ends in white space. *)
Definition trailing_ws (l : str) : Prop := exists a c, l = a ++ [c] /\ is_space c = true.
(** The line contains "global" or "define". *)
Definition keyword (k : str) : Prop := k = lit "global" \/ k = lit "define".
Definition mentions_keyword (l : str) : Prop := exists a k b, keyword k /\ l = a ++ k ++ b.
(** The line contains "%{" or "%(", or ends in a backslash followed by white space. *)
Definition may_continue (l : str) : Prop :=
  (exists a b, l = a ++ PCT :: LBRACE :: b) \/ (exists a b, l = a ++ PCT :: LPAR :: b) \/
  (exists a b, l = a ++ BSLASH :: b /\ blank b).
(** A %dnl line with a "#" somewhere before an escaped keyword. *)
Definition dnl_hash_escaped (l : str) : Prop :=
  exists w x k y, blank w /\ keyword k /\ In HASH x /\ l = w ++ lit "%dnl" ++ x ++ lit "%%" ++ k ++ y.

(** The texts on which parsing and serialising is claimed to be the identity. *)
Definition clean_line (l : str) : Prop :=
  ~ In LF l /\ ~ dnl_hash_escaped l /\ (trailing_ws l -> mentions_keyword l -> ~ may_continue l).
Definition clean (lines : list str) : Prop :=
  Forall clean_line lines /\ ~ (exists a l, lines = a ++ [l; []] /\ trailing_ws l).

(** The lines of a list of definitions where only those selected by [keep] show their own
    lines; the lines around definitions are all kept. *)
Fixpoint lines_keeping (keep : nat -> bool) (i : nat) (l : list mdef) : list str :=
  match l with
  | [] => []
  | d :: l' => d_preceding d ++ (if keep i then own_lines d else []) ++ lines_keeping keep (S i) l'
  end.

(** Equal up to the validity flag. *)
Definition same_def (a b : mdef) : Prop :=
  mk_mdef (d_name a) (d_body a) (d_is_global a) (d_commented_out a) (d_style a) (d_ws a) (d_prefix a) true (d_preceding a) =
  mk_mdef (d_name b) (d_body b) (d_is_global b) (d_commented_out b) (d_style b) (d_ws b) (d_prefix b) true (d_preceding b).
Fixpoint decreasing (l : list nat) : Prop :=
  match l with [] => True | x :: l' => Forall (fun y => (y < x)%nat) l' /\ decreasing l' end.
Section Uni.
Context {U : Unicode}.
(** A single-line definition in ordinary shape: what [%global name body] gives. *)
Definition ordinary_name (n : str) : Prop :=
  exists w p, n = w ++ p /\ w <> [] /\ forallb is_word w = true /\
    (p = [] \/ exists x, p = LPAR :: x ++ [RPAR] /\ ~ In RPAR x /\ ~ In LF x).
Definition ordinary (d : mdef) : Prop :=
  let '(w0, w1, w2, w3) := d_ws d in
  blank w0 /\ blank w1 /\ w1 <> [] /\ blank w2 /\ w2 <> [] /\ blank w3 /\
  ~ In LF (w0 ++ w1 ++ w2 ++ w3) /\
  ordinary_name (d_name d) /\ ~ In PCT (d_prefix d) /\ ~ In LF (d_body d) /\
  (exists c b, d_body d = c :: b /\ is_space c = false) /\
  (exists b c, d_body d = b ++ [c] /\ is_space c = false /\ c <> BSLASH).
(** The first definition found in [lines] is [d]. *)
Definition at_head (d : mdef) (lines : list str) : Prop :=
  exists ds r, parse_plain lines = mk_mdefs (d :: ds) r.
End Uni.
