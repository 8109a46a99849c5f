(** Independent specification for option strings. *)
From Coq Require Import Ascii String.
From Coq Require Import NArith ZArith List Bool.
From Verif Require Import PyStr M_value M_options.
Import ListNotations.
Open Scope N_scope.

(** An option string is a sequence of characters and macro references ([atoms]).
    Inside quotes: anything but the quote itself, which must be escaped. *)
Inductive quoted_body (q : char) : list str -> Prop :=
| Q_nil : quoted_body q []
| Q_atom a t : a <> [] -> ~ In q a -> a <> [BSLASH] -> quoted_body q t -> quoted_body q (a :: t)
| Q_escape a t : (a = [q] \/ (a <> [] /\ ~ In q a)) -> quoted_body q t -> quoted_body q ([BSLASH] :: a :: t).
(** Canonical option strings: quotes are not empty, backslashes only escape white space and quotes
    (or stand inside quotes), macro references outside quotes have no white space and no quotes. *)
Inductive canonical : list str -> Prop :=
| C_nil : canonical []
| C_space c t : is_space c = true -> canonical t -> canonical ([c] :: t)
| C_plain a t : a <> [] -> a <> [BSLASH] -> Forall (fun c => is_quote c = false /\ is_space c = false) a ->
    canonical t -> canonical (a :: t)
| C_escape c t : is_quote c = true \/ is_space c = true -> canonical t -> canonical ([BSLASH] :: [c] :: t)
| C_quoted q body t : is_quote q = true -> body <> [] -> quoted_body q body -> canonical t ->
    canonical ([q] :: body ++ [q] :: t).
(** Texts whose quotes are closed and whose last backslash escapes something. *)
Inductive inside_quotes (q : char) : list str -> Prop :=
| I_nil : inside_quotes q []
| I_atom a t : a <> [q] -> a <> [BSLASH] -> inside_quotes q t -> inside_quotes q (a :: t)
| I_escape a t : inside_quotes q t -> inside_quotes q ([BSLASH] :: a :: t).
Inductive well_quoted : list str -> Prop :=
| W_nil : well_quoted []
| W_atom a t : a <> [DQUOTE] -> a <> [SQUOTE] -> a <> [BSLASH] -> well_quoted t -> well_quoted (a :: t)
| W_escape a t : well_quoted t -> well_quoted ([BSLASH] :: a :: t)
| W_quoted q body t : is_quote q = true -> inside_quotes q body -> well_quoted t -> well_quoted ([q] :: body ++ [q] :: t).
Section Uni.
Context {U : Unicode}.
Definition canonical_text (s : str) : Prop :=
  exists ns, parse s = Ok ns /\ nodes_str ns = s /\ canonical (atoms ns).
End Uni.

(** Tokens that can be written down and read back: no empty values, no two neighbouring
    unquoted or white space tokens, no backslash outside quotes, and inside quotes
    each backslash is followed by something other than the quote. *)
Inductive quotable (q : char) : str -> Prop :=
| V_nil : quotable q []
| V_char c v : c <> BSLASH -> quotable q v -> quotable q (c :: v)
| V_backslash c v : c <> q -> quotable q v -> quotable q (BSLASH :: c :: v).
Definition token_ok (t : token) : Prop :=
  t_value t <> [] /\
  match t_type t with
  | WHITESPACE => forallb is_space (t_value t) = true
  | DEFAULT => ~ In BSLASH (t_value t)
  | QUOTED => quotable SQUOTE (t_value t)
  | DOUBLE_QUOTED => quotable DQUOTE (t_value t)
  end.
Definition may_touch (a b : token) : Prop :=
  match t_type a, t_type b with
  | DEFAULT, DEFAULT => False
  | WHITESPACE, WHITESPACE => False
  | _, _ => True
  end.
Fixpoint tokens_ok (l : list token) : Prop :=
  match l with
  | [] => True
  | t :: l' => token_ok t /\ match l' with [] => True | u :: _ => may_touch t u end /\ tokens_ok l'
  end.

(** What a command line says: options (with their argument, if any) and positional arguments. *)
Inductive item := IOpt (c : char) (arg : option str) | IPos (v : str).
Definition known (optstring : str) (c : char) : Prop := In c optstring /\ c <> COLON.
(** In [optstring] the (first) occurrence of [c] is followed by a colon. *)
Definition takes_argument (optstring : str) (c : char) : Prop :=
  exists a b, optstring = a ++ c :: COLON :: b /\ ~ In c a.
Definition dashed (v : str) : Prop := exists v', v = DASH :: v'.
(** [cmdline optstring tokens items]: every option that takes an argument has one,
    attached or separated, and a separated argument does not start with a dash. *)
Inductive cmdline (os : str) : list token -> list item -> Prop :=
| L_nil : cmdline os [] []
| L_space w l its : t_type w = WHITESPACE -> forallb is_space (t_value w) = true ->
    cmdline os l its -> cmdline os (w :: l) its
| L_positional t l its : t_type t <> WHITESPACE -> ~ dashed (t_value t) ->
    cmdline os l its -> cmdline os (t :: l) (IPos (t_value t) :: its)
| L_flag t c l its : t_type t <> WHITESPACE -> t_value t = [DASH; c] -> ~ takes_argument os c ->
    cmdline os l its -> cmdline os (t :: l) (IOpt c None :: its)
| L_attached t c v l its : t_type t <> WHITESPACE -> t_value t = DASH :: c :: v -> v <> [] ->
    cmdline os l its -> cmdline os (t :: l) (IOpt c (Some v) :: its)
| L_adjacent t c a l its : t_type t <> WHITESPACE -> t_value t = [DASH; c] -> known os c -> takes_argument os c ->
    t_type a <> WHITESPACE -> t_value a <> [] -> ~ dashed (t_value a) ->
    cmdline os l its -> cmdline os (t :: a :: l) (IOpt c (Some (t_value a)) :: its)
| L_separate t c w a l its : t_type t <> WHITESPACE -> t_value t = [DASH; c] -> known os c -> takes_argument os c ->
    t_type w = WHITESPACE -> forallb is_space (t_value w) = true ->
    t_type a <> WHITESPACE -> t_value a <> [] -> ~ dashed (t_value a) ->
    cmdline os l its -> cmdline os (t :: w :: a :: l) (IOpt c (Some (t_value a)) :: its).

(** The last occurrence of an option counts. *)
Fixpoint lookup_opt (c : char) (its : list item) : option (option str) :=
  match its with
  | [] => None
  | i :: its' =>
      match lookup_opt c its' with
      | Some a => Some a
      | None => match i with IOpt d a => if d =? c then Some a else None | IPos _ => None end
      end
  end.
Fixpoint positionals (its : list item) : list str :=
  match its with
  | [] => []
  | IPos v :: its' => v :: positionals its'
  | IOpt _ _ :: its' => positionals its'
  end.
(** [its'] is [its] with the last occurrence of [c] given the argument [a], or with [c] appended. *)
Inductive item_set (c : char) (a : option str) : list item -> list item -> Prop :=
| S_replace i1 old i2 : lookup_opt c i2 = None -> item_set c a (i1 ++ IOpt c old :: i2) (i1 ++ IOpt c a :: i2)
| S_append its : lookup_opt c its = None -> item_set c a its (its ++ [IOpt c a]).
(** What an option set to a Python value says. *)
Definition arg_of (v : oval) : option str :=
  match v with VBool _ => None | _ => Some (oval_str v) end.
(** Values an option can be set to and that can be told from other options. *)
Definition settable (os : str) (c : char) (v : oval) : Prop :=
  match v with
  | VBool b => b = true /\ ~ takes_argument os c
  | VInt z => (0 <= z)%Z /\ takes_argument os c
  | VStr s => s <> [] /\ ~ dashed s /\ takes_argument os c
  | VNone => False
  end.
(** Values that do not fit the option: a flag takes a bool, an option with an argument anything else. *)
Definition does_not_fit (os : str) (c : char) (v : oval) : Prop :=
  match v with VNone => False | VBool _ => takes_argument os c | _ => ~ takes_argument os c end.
