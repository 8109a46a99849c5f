(** Independent specification of updating a value through the macros and tags it refers to. *)
From Coq Require Import Ascii String.
From Coq Require Import NArith ZArith List Bool Arith.
From Verif Require Import PyStr M_value Spec_value2 M_update.
Import ListNotations.
Open Scope N_scope.

Definition bangs (p : str) : nat := count_occ N.eq_dec p BANG.
(** A node that stands for the value of [name]: "%name", "%{name}", "%{?name}" and the like, with an even number of "!". *)
Definition reference (n : node) (name : str) : Prop :=
  exists p, Nat.Even (bangs p) /\ (n = MacroSubstitution p name \/ n = EnclosedMacroSubstitution p name []).
Definition literal (n : node) : Prop := exists s, n = StringLiteral s.
Definition conditional (n : node) : Prop := exists p x b, n = ConditionalMacroExpansion p x b.

Section Uni.
Context {U : Unicode}.
Section Read.
(** [ex] is the expansion of macros in the spec file as it is; [names] are the names that may be given new values, [val] are these values,
    and the macros [flips] are to be defined if they are not, and the other way around. *)
Context (ex : str -> result str) (names : list str) (val : str -> str) (flips : list str).
Definition defined (name : str) : Prop := exists c x, ex (lit "%{?" ++ name ++ lit ":1}") = Ok (c :: x).
Definition defined_after (name : str) : Prop := defined name /\ ~ In name flips \/ ~ defined name /\ In name flips.
Definition holds_after (p name : str) : Prop := Nat.Even (bangs p) /\ defined_after name \/ Nat.Odd (bangs p) /\ ~ defined_after name.
(** [stands after nodes text value]: [text] is the value made of [nodes] with other literals, and stands for [value]: macros that may be given new
    values stand for these, other macros for their expansion, and conditional expansions for their body if the condition holds; if it does
    not, or is about another macro, for nothing.  The text of literals stands for itself.  [after] tells if a reference is in front; the
    delimiter after it is kept. *)
Inductive stands : bool -> list node -> str -> str -> Prop :=
| stands_nil a : stands a [] [] []
| stands_literal a s t ns x y : (s <> [] -> s <> [LF] -> t <> []) -> (a = true -> forall c s', s = c :: s' -> is_word c = false -> exists t', t = c :: t') ->
    stands false ns x y -> stands a (StringLiteral s :: ns) (t ++ x) (t ++ y)
| stands_reference a n name ns x y : reference n name -> In name names -> stands true ns x y -> stands a (n :: ns) (node_str n ++ x) (val name ++ y)
| stands_constant a n c ns x y : ~ literal n -> ~ conditional n -> (forall name, reference n name -> ~ In name names) -> ex (node_str n) = Ok c ->
    stands false ns x y -> stands a (n :: ns) (node_str n ++ x) (c ++ y)
| stands_condition a p name body bx bv ns x y : In name names -> holds_after p name -> stands false body bx bv -> stands false ns x y ->
    stands a (ConditionalMacroExpansion p name body :: ns) ((lit "%{" ++ p ++ name ++ [COLON] ++ bx ++ lit "}") ++ x) (bv ++ y)
| stands_nothing a p name body ns x y : ~ In name names \/ ~ holds_after p name -> stands false ns x y ->
    stands a (ConditionalMacroExpansion p name body :: ns) (node_str (ConditionalMacroExpansion p name body) ++ x) y.
(** [gives nodes v]: with the values [val] the value made of [nodes] gives [v], without any change of its text.  Conditional expansions on other
    macros give nothing. *)
Inductive gives : list node -> str -> Prop :=
| gives_nil : gives [] []
| gives_literal s ns y : gives ns y -> gives (StringLiteral s :: ns) (s ++ y)
| gives_reference n name ns y : reference n name -> In name names -> val name <> [] -> gives ns y -> gives (n :: ns) (val name ++ y)
| gives_constant n c ns y : ~ literal n -> ~ conditional n -> (forall name, reference n name -> ~ In name names) -> ex (node_str n) = Ok c -> gives ns y -> gives (n :: ns) (c ++ y)
| gives_nothing p name body ns y : ~ In name names -> gives ns y -> gives (ConditionalMacroExpansion p name body :: ns) y.
End Read.
(** References that follow each other directly *)
Definition neighbours (names : list str) (nodes : list node) : Prop :=
  exists pre n1 n2 post a b, nodes = pre ++ n1 :: n2 :: post /\ reference n1 a /\ reference n2 b /\ In a names /\ In b names.
(** [mentions nodes x]: there is a macro substitution, with or without arguments, or a condition on [x], possibly in the body of a conditional
    expansion. *)
Inductive mentions (x : str) : list node -> Prop :=
| men_bare p l : mentions x (MacroSubstitution p x :: l)
| men_enclosed p a l : mentions x (EnclosedMacroSubstitution p x a :: l)
| men_condition p b l : mentions x (ConditionalMacroExpansion p x b :: l)
| men_body p y b l : mentions x b -> mentions x (ConditionalMacroExpansion p y b :: l)
| men_later n l : mentions x l -> mentions x (n :: l).

Open Scope nat_scope.
(** * Values through the whole file *)
(** The names by which a macro or a tag can be referred to; names of tags are kept in lower case. *)
Definition denotes (e : entity) (name : str) : Prop := name = e_name e \/ e_tag e = true /\ name = upper (e_name e).
Definition live (e : entity) : Prop := e_disabled e = false \/ e_updated e = true.
Section File.
Context (ex : str -> result str) (es : list entity).
Definition known (pos : nat) (name : str) : Prop := exists e, In e es /\ e_position e < pos /\ denotes e name.
(** [k] is the last macro or tag in front of [pos] that [name] denotes. *)
Definition closest (pos : nat) (name : str) (k : nat) : Prop :=
  (exists e, nth_error es k = Some e /\ e_position e < pos /\ denotes e name) /\
  forall j e, k < j -> nth_error es j = Some e -> e_position e < pos -> ~ denotes e name.
(** What a value at [pos] evaluates to: references stand for what the closest macro or tag evaluates to at its own position, everything else
    is expanded by [ex]. *)
Inductive evaluates : nat -> list node -> str -> Prop :=
| ev_nil pos : evaluates pos [] []
| ev_literal pos s ns y : ~ In PCT s -> evaluates pos ns y -> evaluates pos (StringLiteral s :: ns) (s ++ y)
| ev_reference pos n name k e body x ns y : reference n name -> closest pos name k -> nth_error es k = Some e -> live e -> parse (e_value e) = Ok body ->
    evaluates (e_position e) body x -> evaluates pos ns y -> evaluates pos (n :: ns) (x ++ y)
| ev_other pos n c ns y : ~ literal n -> (forall name, reference n name -> ~ known pos name) -> (forall p name b, n = ConditionalMacroExpansion p name b -> ~ known pos name) ->
    ex (node_str n) = Ok c -> evaluates pos ns y -> evaluates pos (n :: ns) (c ++ y).
Definition text_evaluates (pos : nat) (text v : str) : Prop := exists nodes, parse text = Ok nodes /\ evaluates pos nodes v.

Definition refers_to (text name : str) : Prop := exists nodes n, parse text = Ok nodes /\ In n nodes /\ reference n name.
(** The macros and tags a value is made of *)
Inductive reaches : nat -> str -> nat -> Prop :=
| reach_one pos text name k : refers_to text name -> closest pos name k -> reaches pos text k
| reach_more pos text name k e j : refers_to text name -> closest pos name k -> nth_error es k = Some e -> reaches (e_position e) (e_value e) j -> reaches pos text j.
Definition below (k j : nat) : Prop := j = k \/ exists e, nth_error es k = Some e /\ reaches (e_position e) (e_value e) j.
(** Values that can be updated safely: written in the usual form, without conditional expansions that depend on macros or tags of the file,
    and such that every macro and tag is reached in one way only. *)
Inductive separate : nat -> str -> Prop :=
| separate_intro pos text nodes : parse text = Ok nodes -> canonical At_start nodes -> ~ In (StringLiteral [LF]) nodes ->
    (forall pre p x s post, nodes = pre ++ MacroSubstitution p x :: StringLiteral s :: post -> Nat.Even (bangs p) /\ known pos x) ->
    (forall p x b, In (ConditionalMacroExpansion p x b) nodes -> ~ known pos x /\ ex (node_str (ConditionalMacroExpansion p x b)) = Ok []) ->
    (forall name, refers_to text name -> known pos name -> ~ exists t, name = lit "sub_" ++ t) ->
    (forall name k e, refers_to text name -> closest pos name k -> nth_error es k = Some e -> separate (e_position e) (e_value e)) ->
    (forall name1 name2 k1 k2 j, refers_to text name1 -> refers_to text name2 -> name1 <> name2 -> closest pos name1 k1 -> closest pos name2 k2 -> below k1 j -> below k2 j -> False) ->
    separate pos text.
End File.
(** The macros and tags of a file: names of tags in lower case, no pending change, and no macro named like a tag in mixed case. *)
Definition entities_ok (es : list entity) : Prop :=
  (forall e, In e es -> e_flip e = false) /\
  (forall t, In t es -> e_tag t = true -> lower (e_name t) = e_name t /\ lower (upper (e_name t)) = e_name t) /\
  (forall m t, In m es -> In t es -> e_tag m = false -> e_tag t = true -> lower (e_name m) = e_name t -> denotes t (e_name m)).
(** Everything but values, locks and marks is the same. *)
Definition same_skeleton (es es' : list entity) : Prop :=
  Forall2 (fun e e' => e_name e = e_name e' /\ e_tag e = e_tag e' /\ e_position e = e_position e' /\ e_disabled e = e_disabled e' /\ e_flip e = e_flip e') es es'.
End Uni.
(** Updates of values that meet the condition [cond] lead to what was requested. *)
Definition updates_right (U : Unicode) (cond : (str -> result str) -> list entity -> nat -> str -> str -> Prop) : Prop :=
  forall ex isid es pos value requested es' r, cond ex es pos value requested -> entities_ok es -> ~ In PCT requested -> ~ In LF requested ->
  update (fun s (w : unit) => (w, ex s)) isid (S pos) value requested pos es tt = (tt, Ok (es', r)) -> text_evaluates ex es' pos r requested.
(** All nodes of a value *)
Definition made_of {U : Unicode} (text : str) (p : node -> Prop) : Prop := exists nodes, parse text = Ok nodes /\ Forall p nodes.
