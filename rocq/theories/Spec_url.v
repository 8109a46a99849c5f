(** Specification of remote locations. *)
From Coq Require Import Ascii String.
From Coq Require Import NArith List Bool.
From Verif Require Import PyStr M_url.
Import ListNotations.
Open Scope N_scope.

Definition is_letter (c : char) : Prop := 65 <= c <= 90 \/ 97 <= c <= 122.
(** Letters, digits and [+-.] *)
Definition in_scheme (c : char) : Prop := is_letter c \/ 48 <= c <= 57 \/ In c (lit "+-.").
Definition ends_host (c : char) : Prop := In c (lit "/?#").
(** [scheme://host], then nothing or a path, a query or a fragment *)
Definition url (s scheme host rest : str) : Prop :=
  s = scheme ++ lit "://" ++ host ++ rest /\
  (exists c scheme', scheme = c :: scheme' /\ is_letter c) /\ Forall in_scheme scheme /\
  host <> [] /\ Forall (fun c => ~ ends_host c) host /\ (rest = [] \/ exists c rest', rest = c :: rest' /\ ends_host c).
(** No control characters, except inside of what is neither a tab nor a line break, and no space in front *)
Definition tidy (s : str) : Prop := Forall (fun c => ~ In c [9; 10; 13]) s /\ forall c s', s = c :: s' -> 32 < c.
(** Hosts that are not accepted: one kind of bracket without the other, brackets that are not around an address, and characters that are not ASCII and no good. *)
Definition rejected {H : Hosts} (host : str) : Prop :=
  In 91 host /\ ~ In 93 host \/ In 93 host /\ ~ In 91 host \/ In 91 host /\ In 93 host /\ bad_address host = true \/
  (exists c, In c host /\ 128 <= c) /\ bad_characters host = true.
(** A text without its tabs and line breaks *)
Inductive unbroken : str -> str -> Prop :=
| unbroken_nil : unbroken [] []
| unbroken_drop c s t : In c [9; 10; 13] -> unbroken s t -> unbroken (c :: s) t
| unbroken_keep c s t : ~ In c [9; 10; 13] -> unbroken s t -> unbroken (c :: s) (c :: t).
(** What is looked at: the location without all of the control characters and spaces in front of it, and without tabs and line breaks *)
Definition looked_at (l s : str) : Prop :=
  exists blanks r, l = blanks ++ r /\ Forall (fun c => c <= 32) blanks /\ (forall c r', r = c :: r' -> 32 < c) /\ unbroken r s.
