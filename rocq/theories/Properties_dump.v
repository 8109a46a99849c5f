(** Theorems about [Macros.dump] as a whole (C229, C230).  Spec_macros.v says what a dump looks like, Spec_capture.v what a block writes and what lines are, Spec_file.v which
    characters can be encoded. *)
From Coq Require Import Ascii String.
From Coq Require Import NArith ZArith List Bool.
From Verif Require Import PyStr M_file Spec_file M_capture M_macros Spec_macros M_dump P_dump.
From Verif Require Spec_capture.
Import ListNotations.
Open Scope N_scope.

(** * C229 *)
(** Whatever is printed around it, wherever standard error goes and whatever Python has not written to it yet: the macros are those that RPM has written, in UTF-8, ... *)
Theorem C229_dump : forall (U : Unicode) block s out p' head ms summary, (err s < length (contents s))%nat -> Spec_capture.writes block [] out p' None ->
  ~ looks_like_macro head -> (forall x, head <> x ++ [BSLASH]) -> ~ In LF head -> ~ In LF summary ->
  Forall (fun x => Forall (fun c => is_space c = true /\ c <> LF) (fst x) /\ dumpable (snd x)) ms ->
  let text := concat ((head ++ [LF]) :: dump_of ms ++ [summary ++ [LF]]) in Forall scalar text -> encode text = Some (out ++ p') ->
  snd (dump block s) = Ok (map snd ms).
Proof. exact @dump_macros. Qed.
Print Assumptions C229_dump.
(** ... and nothing of it, and all that was to be written before, goes to standard error. *)
Theorem C229_silent : forall (U : Unicode) block s out p' r, (err s < length (contents s))%nat -> Spec_capture.writes block [] out p' r ->
  err (fst (dump block s)) = err s /\ forall n, (n < length (contents s))%nat -> nth n (contents (fst (dump block s))) [] = nth n (contents s) [] ++ (if Nat.eqb n (err s) then buffer s else []).
Proof. exact @dump_system. Qed.
Print Assumptions C229_silent.
(** What RPM raises is raised. *)
Theorem C229_raises : forall (U : Unicode) block s out p' e, (err s < length (contents s))%nat -> Spec_capture.writes block [] out p' (Some e) -> snd (dump block s) = Err e.
Proof. exact @dump_raises. Qed.
Print Assumptions C229_raises.
Example C229_example : let text := lit "========================" ++ [LF] ++ lit "-13= _vendor" ++ [TAB; 233; LF] ++ lit "======================== active 1 empty 0" ++ [LF] in
  exists b, encode text = Some b /\ dump (U := unicode_none) [Raw b] (mk_system [lit "out"; lit "err"] 1 (lit "!")) =
    (mk_system [lit "out"; lit "err!"; b] 1 [], Ok [mk_macro (lit "_vendor") None [233] (-13) true]).
Proof. cbn zeta. eexists. split; [vm_compute; reflexivity|]. vm_compute. reflexivity. Qed.

(** * C230 *)
(** Any line that is not valid UTF-8 is an exception, and so is the parsing of every spec file then: it begins with a dump. *)
Theorem C230_undecodable : forall (U : Unicode) block s out p' ls b, (err s < length (contents s))%nat -> Spec_capture.writes block [] out p' None ->
  Spec_capture.lines_of ls (out ++ p') -> In b ls -> decode_strict b = Err ValueError -> snd (dump block s) = Err ValueError.
Proof. exact @dump_undecodable. Qed.
Print Assumptions C230_undecodable.
Theorem C230_refuted : exists b, forall (U : Unicode) s, (err s < length (contents s))%nat ->
  b = lit "==" ++ [LF] ++ lit "-13= _vendor" ++ [TAB; 233; LF] ++ lit "==" ++ [LF] /\ snd (dump [Raw b] s) = Err ValueError.
Proof. exact dump_refuted. Qed.
Print Assumptions C230_refuted.
