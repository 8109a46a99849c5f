(** Specification of slices: which positions they pick, and what is left without these. *)
From Coq Require Import NArith ZArith List Bool.
From Verif Require Import PyStr M_options M_changelog Spec_options M_slice.
Import ListNotations.
Open Scope Z_scope.

Definition step_of (s : slice) : Z := match sl_step s with Some k => k | None => 1 end.
(** A bound; negative ones are counted from the end. *)
Definition counted (n b : Z) : Z := if b <? 0 then b + n else b.
(** [s] picks position [p] of something of length [n]: it is within the bounds, and a multiple of the step away from where the slice begins. *)
Definition picks (s : slice) (n : nat) (p : nat) : bool :=
  let n := Z.of_nat n in let p := Z.of_nat p in let k := step_of s in
  (p <? n) &&
  (if 0 <? k then
     match sl_start s with None => p mod k =? 0 | Some b => (counted n b <=? p) && ((p - Z.max 0 (counted n b)) mod k =? 0) end &&
     match sl_stop s with None => true | Some b => p <? counted n b end
   else
     match sl_start s with None => (n - 1 - p) mod (- k) =? 0 | Some b => (p <=? counted n b) && ((Z.min (n - 1) (counted n b) - p) mod (- k) =? 0) end &&
     match sl_stop s with None => true | Some b => counted n b <? p end).
(** The positions that a slice picks, in its order *)
Definition positions (s : slice) (n : nat) : list nat := let l := List.filter (picks s n) (seq 0 n) in if step_of s <? 0 then rev l else l.
(** The items with positions that [keep] allows; the first one has position [i]. *)
Fixpoint keeping {A} (keep : nat -> bool) (i : nat) (l : list A) : list A :=
  match l with [] => [] | x :: l' => (if keep i then [x] else []) ++ keeping keep (S i) l' end.
(** The lines of a changelog, in which entries come from the last to the first, without those that [gone] picks: of these only the empty lines but the first are left. *)
Fixpoint log_lines (gone : nat -> bool) (i : nat) (l : list entry) : list str :=
  match l with [] => [] | e :: l' => log_lines gone (S i) l' ++ (if gone i then tl (following e) else entry_lines e) end.
(** Command lines without some of the positional arguments, or with others *)
Fixpoint drop_positionals (gone : nat -> bool) (i : nat) (its : list item) : list item :=
  match its with
  | [] => []
  | IPos v :: its' => (if gone i then [] else [IPos v]) ++ drop_positionals gone (S i) its'
  | IOpt c a :: its' => IOpt c a :: drop_positionals gone i its'
  end.
Fixpoint set_values (f : nat -> option str) (i : nat) (its : list item) : list item :=
  match its with
  | [] => []
  | IPos v :: its' => IPos (match f i with Some w => w | None => v end) :: set_values f (S i) its'
  | IOpt c a :: its' => IOpt c a :: set_values f i its'
  end.
(** What is assigned to a position, if [is] are assigned the values [vs] *)
Fixpoint assigned {A} (is : list nat) (vs : list A) (p : nat) : option A :=
  match is, vs with i :: is', v :: vs' => if Nat.eqb i p then Some v else assigned is' vs' p | _, _ => None end.
(** Where the items are that a loop deletes that deletes position [i], then [i'] of what is left, and so on, for [i < i' < ...] *)
Fixpoint shifted (k : nat) (is : list nat) : list nat := match is with [] => [] | i :: is' => (i + k)%nat :: shifted (S k) is' end.
