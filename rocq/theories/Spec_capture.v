(** Independent specification of what a block writes to standard error, without files and descriptors. *)
From Coq Require Import NArith List Bool.
From Verif Require Import PyStr M_capture.
Import ListNotations.
Open Scope N_scope.
(** [writes l pending out pending' r]: the block [l] starts with [pending] bytes not written by Python yet, writes [out], leaves [pending'], and ends with the exception [r], if any.
    A nested capture writes what is pending first, and nothing of its own. *)
Inductive writes : list event -> list N -> list N -> list N -> option exn -> Prop :=
| w_end p : writes [] p [] p None
| w_raise e l p : writes (Raise e :: l) p [] p (Some e)
| w_raw b l p out p' r : writes l p out p' r -> writes (Raw b :: l) p (b ++ out) p' r
| w_print b l p out p' r : writes l (p ++ b) out p' r -> writes (Print b :: l) p out p' r
| w_flush l p out p' r : writes l [] out p' r -> writes (Flush :: l) p (p ++ out) p' r
| w_capture block l p o q out p' r : writes block [] o q None -> writes l [] out p' r -> writes (Capture block :: l) p (p ++ out) p' r
| w_capture_raise block l p o q e : writes block [] o q (Some e) -> writes (Capture block :: l) p p [] (Some e).
(** Lines as [readlines()] returns them. *)
Definition lines_of (ls : list (list N)) (b : list N) : Prop :=
  concat ls = b /\ (forall l, In l ls -> l <> []) /\
  forall a l c, ls = a ++ l :: c -> exists x, ~ In 10 x /\ (l = x ++ [10] \/ (l = x /\ c = [])).
