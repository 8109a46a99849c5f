(** Capturing standard error: [capture_stderr] (/repo/specfile/context_management.py 16-38), with which [Macros.dump], [Macros.reinit] and the parser collect what
    RPM writes.  File descriptors refer to open files; two descriptors may refer to the same one. *)
From Coq Require Import NArith List Bool.
From Verif Require Import PyStr.
Import ListNotations.
Open Scope N_scope.

(** Open files with their contents so far (a number stands for a file, closed ones keep theirs), the one that descriptor 2 refers to, and what Python's [sys.stderr]
    has not written yet.  That [sys.stderr] belongs to the descriptor of [sys.__stderr__] is assumed. *)
Record system := mk_system { contents : list (list N); err : nat; buffer : list N }.
(** Writing to an open file *)
Fixpoint append (n : nat) (b : list N) (l : list (list N)) : list (list N) :=
  match l, n with
  | [], _ => []
  | x :: l', O => (x ++ b) :: l'
  | x :: l', S n' => x :: append n' b l'
  end.
Definition write (b : list N) (s : system) : system := mk_system (append (err s) b (contents s)) (err s) (buffer s).
(** [sys.stderr.flush()] *)
Definition flush (s : system) : system := mk_system (append (err s) (buffer s) (contents s)) (err s) [].
(** [readlines()] of a binary file *)
Fixpoint readlines_aux (cur : list N) (b : list N) : list (list N) :=
  match b with
  | [] => match cur with [] => [] | _ => [rev cur] end
  | c :: b' => if c =? 10 then rev (c :: cur) :: readlines_aux [] b' else readlines_aux (c :: cur) b'
  end.
Definition readlines (b : list N) : list (list N) := readlines_aux [] b.
(** Where something else may go wrong: the temporary file or the copy of the descriptor cannot be made (27), [sys.stderr] cannot be flushed (28, 34),
    or the process is interrupted after the descriptor is replaced and before [try] (29-31). *)
Record faults := mk_faults { no_file : option exn; no_flush : option exn; interrupt : option exn; no_last_flush : option exn }.
Definition no_faults : faults := mk_faults None None None None.
(** context_management.py 26-38, around a block *)
Definition capture (f : faults) (block : system -> system * option exn) (s : system) : system * (list (list N) * option exn) :=
  match no_file f with
  | Some e => (s, ([], Some e))
  | None =>
      let backup := err s in
      let temporary := length (contents s) in
      let s := mk_system (contents s ++ [[]]) (err s) (buffer s) in
      match no_flush f with
      | Some e => (s, ([], Some e))
      | None =>
          let s := flush s in
          let s := mk_system (contents s) temporary (buffer s) in
          match interrupt f with
          | Some e => (s, ([], Some e))
          | None =>
              let (s, r) := block s in
              match no_last_flush f with
              | Some e => (s, ([], Some e))
              | None =>
                  let s := flush s in
                  let s := mk_system (contents s) backup (buffer s) in
                  (s, (readlines (nth temporary (contents s) []), r))
              end
          end
      end
  end.
(** What a block does: C code (RPM) writes to the descriptor, Python writes to [sys.stderr], which may be flushed at any time; captures may be nested. *)
Inductive event :=
| Raw (b : list N)
| Print (b : list N)
| Flush
| Capture (block : list event)
| Raise (e : exn).
Fixpoint run_event (e : event) (s : system) : system * option exn :=
  match e with
  | Raw b => (write b s, None)
  | Print b => (mk_system (contents s) (err s) (buffer s ++ b), None)
  | Flush => (flush s, None)
  | Capture block =>
      let (s', r) := capture no_faults
        ((fix go (l : list event) (s : system) : system * option exn :=
            match l with [] => (s, None) | x :: l' => match run_event x s with (s', None) => go l' s' | (s', Some e) => (s', Some e) end end) block) s in
      (s', snd r)
  | Raise e => (s, Some e)
  end.
Fixpoint run (l : list event) (s : system) : system * option exn :=
  match l with [] => (s, None) | x :: l' => match run_event x s with (s', None) => run l' s' | (s', Some e) => (s', Some e) end end.
