(** Independent specification of Python expressions as text: the tokens of an expression and how they may be laid out. *)
From Coq Require Import Ascii String.
From Coq Require Import NArith List Bool Arith.
From Verif Require Import PyStr M_formatter.
Import ListNotations.
Open Scope N_scope.

(** Tokens may be separated by spaces and line feeds. *)
Definition blank (ws : str) : Prop := Forall (fun c => c = 32 \/ c = 10) ws.
Inductive laid_out : list str -> str -> Prop :=
| lo_one t : laid_out [t] t
| lo_more t ts ws s : laid_out ts s -> blank ws -> laid_out (t :: ts) (t ++ ws ++ s).

(** Python's grammar: items separated by commas, in brackets, with an optional comma after the last one, which a tuple of one element must have.
    No space may be between the name of a function and the bracket after it. *)
Inductive item := Plain (t : tree) | Pair (k v : tree) | Keyword (n : option str) (v : tree).
Inductive spells : tree -> list str -> Prop :=
| sp_const r : spells (Const r) [r]
| sp_tuple l c ts : listed (map Plain l) c ts -> (length l = 1%nat -> c = true) -> spells (Tuple l) (lit "(" :: ts ++ [lit ")"])
| sp_list l c ts : listed (map Plain l) c ts -> spells (List l) (lit "[" :: ts ++ [lit "]"])
| sp_dict l c ts : listed (map (fun kv => Pair (fst kv) (snd kv)) l) c ts -> spells (Dict l) (lit "{" :: ts ++ [lit "}"])
| sp_call f args kws c ts : listed (map Plain args ++ map (fun kv => Keyword (fst kv) (snd kv)) kws) c ts -> spells (Call (Some f) args kws) ((f ++ lit "(") :: ts ++ [lit ")"])
with listed : list item -> bool -> list str -> Prop :=
| li_none : listed [] false []
| li_last i ts : spells_item i ts -> listed [i] false ts
| li_comma i ts : spells_item i ts -> listed [i] true (ts ++ [lit ","])
| li_more i ts j l c ts' : spells_item i ts -> listed (j :: l) c ts' -> listed (i :: j :: l) c (ts ++ lit "," :: ts')
with spells_item : item -> list str -> Prop :=
| si_plain t ts : spells t ts -> spells_item (Plain t) ts
| si_pair k v ks vs : spells k ks -> spells v vs -> spells_item (Pair k v) (ks ++ lit ":" :: vs)
| si_keyword n v vs : spells v vs -> spells_item (Keyword (Some n) v) (n :: lit "=" :: vs).

(** Constants and names are not punctuation. *)
Definition atom (r : str) : Prop :=
  r <> [] /\ ~ In r [lit "["; lit "]"; lit "{"; lit "}"; lit ")"; lit ","; lit ":"; lit "="] /\ forall x, r <> x ++ lit "(".
(** Trees of constants, tuples, lists, dictionaries and calls of functions with names, without unpacking. *)
Inductive plain : tree -> Prop :=
| p_const r : atom r -> plain (Const r)
| p_tuple l : Forall plain l -> plain (Tuple l)
| p_list l : Forall plain l -> plain (List l)
| p_dict l : Forall (fun kv => plain (fst kv) /\ plain (snd kv)) l -> plain (Dict l)
| p_call f args kws : atom f -> Forall plain args -> Forall (fun kv => (exists n, fst kv = Some n /\ atom n) /\ plain (snd kv)) kws -> plain (Call (Some f) args kws).
(** All calls are of functions with names. *)
Inductive named : tree -> Prop :=
| n_const r : named (Const r)
| n_tuple l : Forall named l -> named (Tuple l)
| n_list l : Forall named l -> named (List l)
| n_dict l : Forall (fun kv => named (fst kv) /\ named (snd kv)) l -> named (Dict l)
| n_call f args kws : Forall named args -> Forall (fun kv => named (snd kv)) kws -> named (Call (Some f) args kws)
| n_other : named Other.
(** No line breaks. *)
Definition no_breaks (s : str) : Prop := forall c, In c s -> is_linebreak c = false.
