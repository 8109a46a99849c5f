(** Independent specification for condition processing. *)
From Coq Require Import Ascii String.
From Coq Require Import NArith Arith List Bool.
From Verif Require Import PyStr M_macro_definitions M_conditions Spec_macro_definitions.
Import ListNotations.
Open Scope N_scope.

Definition if_keywords : list str := map lit ["%if"; "%ifarch"; "%ifnarch"; "%ifos"; "%ifnos"]%string.
Definition elif_keywords : list str := map lit ["%elif"; "%elifarch"; "%elifnarch"; "%elifos"; "%elifnos"]%string.
Definition keywords : list str := if_keywords ++ elif_keywords ++ [lit "%endif"; lit "%else"].

(** [x] is white space, a keyword, and nothing or white space and more text. *)
Definition keyword_line (x kw after : str) : Prop :=
  exists indent, x = indent ++ kw ++ after /\ blank indent /\ In kw keywords /\
    (after = [] \/ exists c r, after = c :: r /\ is_space c = true).
Definition plain_line (x : str) : Prop := forall kw after, ~ keyword_line x kw after.
(** The expression of a condition line; a lone backslash at the end of the line counts as nothing. *)
Definition cond_line (x kw e : str) : Prop :=
  exists after, keyword_line x kw after /\ ~ In LF x /\
    e = if str_eqb (lstrip after) [BSLASH] then [] else strip after.

(** An expression ending in a backslash takes in the next line. *)
Inductive Joined : str -> list str -> str -> Prop :=
| J_done e : (forall e0, e <> e0 ++ [BSLASH]) -> Joined e [] e
| J_more e0 l taken e : Joined (e0 ++ l) taken e -> Joined (e0 ++ [BSLASH]) (l :: taken) e.

(** The [i]-th line belongs to a macro definition of [m]: it is one of the lines of the definition's body, the first one
    being the line of the definition itself. *)
Definition definition_line (m : option mdefs) (i : nat) : Prop :=
  match m with
  | None => False
  | Some m => exists d p, In d (md_data m) /\ get_position d m = Ok p /\
      (p <= i /\ i <= p + count_occ N.eq_dec (d_body d) LF)%nat
  end.

Section Meaning.
Context {U : Unicode} {W : Type} (expand : bool -> W -> str -> result str * W) (in_body : nat -> Prop).
Definition state : Type := bool * W.

(** What a line looks like after macro expansion; text that does not expand is taken literally. *)
Definition Shows (s : state) (line x : str) (s' : state) : Prop :=
  let (skip, w) := s in
  match expand skip w line with
  | (Ok y, w') => x = y /\ s' = (true, w')
  | (Err RPMException, w') => x = line /\ s' = (skip, w')
  | (Err _, _) => False
  end.
(** A condition is evaluated only where its result matters. *)
Definition Truth (needed : bool) (s : state) (kw e : str) (b : bool) (s' : state) : Prop :=
  if needed then exists w', resolve_expression expand (snd s) kw (if str_eqb e [] then [ZERO] else e) = (Ok b, w') /\ s' = (fst s, w')
  else s' = s.

(** [Meaning v i s lines flags s']: [lines], the [i]-th and following ones of the text, are
    properly nested, and under an outer validity [v] their validity flags are [flags]. *)
Inductive Meaning : bool -> nat -> state -> list str -> list bool -> state -> Prop :=
| M_nil v i s : Meaning v i s [] [] s
| M_body v i s line rest flags s' :
    in_body i -> Meaning v (S i) s rest flags s' ->
    Meaning v i s (line :: rest) (v :: flags) s'
| M_plain v i s line x s1 rest flags s' :
    ~ in_body i -> Shows s line x s1 -> plain_line x -> Meaning v (S i) s1 rest flags s' ->
    Meaning v i s (line :: rest) (v :: flags) s'
| M_block v i s line x s1 kw e taken e' b s2 body fbody s3 tail ftail s4 rest frest s' :
    ~ in_body i -> Shows s line x s1 -> cond_line x kw e -> In kw if_keywords ->
    Joined e taken e' -> Truth v s1 kw e' b s2 ->
    Meaning (v && b) (i + 1 + length taken) s2 body fbody s3 ->
    Tail v b (i + 1 + length taken + length body) s3 tail ftail s4 ->
    Meaning v (i + 1 + length taken + length body + length tail) s4 rest frest s' ->
    Meaning v i s (line :: taken ++ body ++ tail ++ rest)
                  (v :: map (fun _ => v) taken ++ fbody ++ ftail ++ frest) s'
(** [Tail v b]: what follows the first branch of a block whose condition was [b]:
    the end, an %else branch, or one %elif branch. *)
with Tail : bool -> bool -> nat -> state -> list str -> list bool -> state -> Prop :=
| T_end v b i s line x s1 e :
    ~ in_body i -> Shows s line x s1 -> cond_line x (lit "%endif") e ->
    Tail v b i s [line] [v] s1
| T_else v b i s line x s1 e body fbody s2 line2 x2 e2 s' :
    ~ in_body i -> Shows s line x s1 -> cond_line x (lit "%else") e ->
    Meaning (v && negb b) (i + 1) s1 body fbody s2 ->
    ~ in_body (i + 1 + length body) -> Shows s2 line2 x2 s' -> cond_line x2 (lit "%endif") e2 ->
    Tail v b i s (line :: body ++ [line2]) (v :: fbody ++ [v]) s'
| T_elif v b i s line x s1 kw e taken e' b2 s2 body fbody s3 line2 x2 e2 s' :
    ~ in_body i -> Shows s line x s1 -> cond_line x kw e -> In kw elif_keywords ->
    Joined e taken e' -> Truth (v && negb b) s1 kw e' b2 s2 ->
    Meaning (v && negb b && b2) (i + 1 + length taken) s2 body fbody s3 ->
    ~ in_body (i + 1 + length taken + length body) -> Shows s3 line2 x2 s' -> cond_line x2 (lit "%endif") e2 ->
    Tail v b i s (line :: taken ++ body ++ [line2]) (v :: map (fun _ => v && negb b) taken ++ fbody ++ [v]) s'.
End Meaning.

(** Balanced texts, for expansion without side effects and failures: no %else, %elif or %endif
    without an open %if. *)
(** Such an expansion: a text expands to what [E] says. *)
Definition pure {W : Type} (E : str -> str) (skip : bool) (w : W) (s : str) : result str * W := (Ok (E s), w).
Section Balanced.
Context (E : str -> str).
Inductive JoinedE : str -> list str -> list str -> Prop :=
| JE_done e lines : (forall e0, e <> e0 ++ [BSLASH]) -> JoinedE e lines lines
| JE_end e : JoinedE e [] []
| JE_more e0 l lines rest : JoinedE (e0 ++ l) lines rest -> JoinedE (e0 ++ [BSLASH]) (l :: lines) rest.
Inductive Balanced : nat -> list str -> Prop :=
| B_nil d : Balanced d []
| B_plain d l rest : plain_line (E l) -> Balanced d rest -> Balanced d (l :: rest)
| B_if d l kw e lines rest : cond_line (E l) kw e -> In kw if_keywords -> JoinedE e lines rest ->
    Balanced (S d) rest -> Balanced d (l :: lines)
| B_elif d l kw e lines rest : cond_line (E l) kw e -> In kw elif_keywords -> JoinedE e lines rest ->
    Balanced (S d) rest -> Balanced (S d) (l :: lines)
| B_else d l e rest : cond_line (E l) (lit "%else") e -> Balanced (S d) rest -> Balanced (S d) (l :: rest)
| B_endif d l e rest : cond_line (E l) (lit "%endif") e -> Balanced d rest -> Balanced (S d) (l :: rest).
End Balanced.
