(** Independent specification of release strings. *)
From Coq Require Import Ascii String.
From Coq Require Import NArith ZArith List Bool.
From Verif Require Import PyStr M_value.
Import ListNotations.
Open Scope N_scope.

Section Uni.
Context {U : Unicode}.
Definition digits (s : str) : Prop := s <> [] /\ Forall (fun c => is_digit c = true) s.
(** The three ways of writing the dist macro. *)
Definition dist_macro (d : str) : Prop := In d [lit "%dist"; lit "%{dist}"; lit "%{?dist}"].
(** A minor bump after the dist macro. *)
Definition minor_bump (x : str) (n : option N) : Prop :=
  (x = [] /\ n = None) \/ exists ds, digits ds /\ x = DOT :: ds /\ n = int_of_str ds.
(** [raw] is the release [r], the dist macro [d] and the minor bump [x]. *)
Definition with_dist (raw r d x : str) (n : option N) : Prop := raw = r ++ d ++ x /\ dist_macro d /\ minor_bump x n.
Definition no_dist (raw : str) : Prop := ~ exists r d x n, with_dist raw r d x n.

(** The number a bump increments, if the release starts with one: [f] is a call of %release_func, [zero] is "0."
    (the mark of a pre-release), [ds] the number and [post] the rest. *)
Definition leading (s f zero ds post : str) : Prop :=
  s = f ++ zero ++ ds ++ post /\ digits ds /\
  (f = [] \/ exists ws, f = lit "%release_func" ++ ws /\ ws <> [] /\ Forall (fun c => is_space c = true) ws) /\
  (forall c t, post = c :: t -> is_digit c = false) /\
  (zero = lit "0." \/ zero = [] /\ ~ (ds = [ZERO] /\ exists c t, post = DOT :: c :: t /\ is_digit c = true)).
Definition occurs (w s : str) : Prop := exists a b, s = a ++ w ++ b.
Definition prerelease (post : str) : Prop := occurs (lit "alpha") post \/ occurs (lit "beta") post \/ occurs (lit "rc") post.
(** Releases that count at the front. *)
Definition counts_in_front (s f zero ds post : str) : Prop := leading s f zero ds post /\ (zero <> [] \/ ~ prerelease post).
Definition no_front_count (s : str) : Prop := ~ exists f zero ds post, counts_in_front s f zero ds post.
(** Releases that end in a dot and a number. *)
Definition ends_in_number (s a ds : str) : Prop := s = a ++ DOT :: ds /\ a <> [] /\ digits ds.

(** A macro is referred to, directly or inside conditional expansions. *)
Inductive refers (name : str) : list node -> Prop :=
| F_plain p ns : refers name (MacroSubstitution p name :: ns)
| F_enclosed p args ns : refers name (EnclosedMacroSubstitution p name args :: ns)
| F_inside p n body ns : refers name body -> refers name (ConditionalMacroExpansion p n body :: ns)
| F_later n ns : refers name ns -> refers name (n :: ns).
(** The nodes outside conditional expansions and, in their place, the ones inside them. *)
Inductive leaves : list node -> list node -> Prop :=
| L_nil : leaves [] []
| L_leaf n ns out : (forall p x b, n <> ConditionalMacroExpansion p x b) -> leaves ns out -> leaves (n :: ns) (n :: out)
| L_inside p x body ns out1 out2 : leaves body out1 -> leaves ns out2 -> leaves (ConditionalMacroExpansion p x body :: ns) (out1 ++ out2).
End Uni.
