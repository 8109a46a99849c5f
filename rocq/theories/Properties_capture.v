(** Theorems about capturing standard error (C220, C221).  Spec_capture.v says what a block writes ([writes]) and what lines are ([lines_of]). *)
From Coq Require Import Ascii String.
From Coq Require Import NArith List Bool Arith.
From Verif Require Import PyStr M_capture Spec_capture P_capture.
Import ListNotations.
Open Scope N_scope.

(** * C220 *)
(** What is captured is exactly what the block writes, by whatever means, with other captures inside of it, and also if it raises; the exception goes on;
    standard error is what it was; and no other open file is changed, except that what Python had not written yet when the capture began is written. *)
Theorem C220_captured : forall l s out p' r, (err s < length (contents s))%nat -> writes l [] out p' r ->
  exists s' ls, capture no_faults (run l) s = (s', (ls, r)) /\ lines_of ls (out ++ p') /\ err s' = err s /\ buffer s' = [] /\
    forall n, (n < length (contents s))%nat -> nth n (contents s') [] = nth n (contents s) [] ++ (if Nat.eqb n (err s) then buffer s else []).
Proof. exact captured. Qed.
Print Assumptions C220_captured.
(** Every block writes something in this sense, and only one thing. *)
Theorem C220_writes : forall l p, (exists out p' r, writes l p out p' r) /\ forall o q r o' q' r', writes l p o q r -> writes l p o' q' r' -> o = o' /\ q = q' /\ r = r'.
Proof. exact (fun l p => conj (writes_total l p) (fun o q r o' q' r' => writes_fun l p o q r o' q' r')). Qed.
Print Assumptions C220_writes.
Example C220_example :
  let l := [Print (lit "a"); Raw (lit "b" ++ [10]); Capture [Raw (lit "inner"); Print (lit "c")]; Print (lit "d"); Raise ValueError; Raw (lit "e")] in
  let s := mk_system [lit "out"; lit "err"] 1 (lit "!") in
  writes l [] ((lit "b" ++ [10]) ++ lit "a" ++ []) (lit "d") (Some ValueError) /\
  capture no_faults (run l) s = (mk_system [lit "out"; lit "err!"; lit "b" ++ [10] ++ lit "ad"; lit "innerc"] 1 [], ([lit "b" ++ [10]; lit "ad"], Some ValueError)).
Proof. split; [|vm_compute; reflexivity]. apply w_print, w_raw. cbn [app]. eapply w_capture; [apply w_raw, w_print, w_end|]. apply w_print, w_raise. Qed.

(** * C221 *)
(** If the temporary file cannot be made, [sys.stderr] cannot be flushed at first, or the block raises, standard error is what it was. *)
Theorem C221_restored : forall f l s s' x, (err s < length (contents s))%nat -> interrupt f = None -> no_last_flush f = None -> capture f (run l) s = (s', x) -> err s' = err s.
Proof. exact restored. Qed.
Print Assumptions C221_restored.
(** But if the process is interrupted between the redirection and [try], or [sys.stderr] cannot be flushed in the end, it is not: nothing that is written later arrives. *)
Theorem C221_refuted : forall f l s s' x later, (err s < length (contents s))%nat -> no_file f = None -> no_flush f = None -> interrupt f <> None \/ (interrupt f = None /\ no_last_flush f <> None) ->
  capture f (run l) s = (s', x) -> err s' <> err s /\ nth (err s) (contents (fst (run later s'))) [] = nth (err s) (contents s) [] ++ buffer s.
Proof. exact not_restored. Qed.
Print Assumptions C221_refuted.
Example C221_example :
  let s := mk_system [lit "out"; lit "err"] 1 [] in let full := mk_faults None None None (Some OtherError) in
  fst (run [Raw (lit "lost")] (fst (capture full (run [Raw (lit "x")]) s))) = mk_system [lit "out"; lit "err"; lit "xlost"] 2 [].
Proof. vm_compute. reflexivity. Qed.
