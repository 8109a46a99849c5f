(** [Specfile.expand] (/repo/specfile/specfile.py 188-209), [Specfile.get_active_macros] (211-222), [tainted] and [rpm_spec] (162-178): a parse, and then a question to RPM, whose macros are those
    of the whole process.  Built on the parsers of [M_spec_parser]. *)
From Coq Require Import NArith List Bool.
From Verif Require Import PyStr M_spec_parser.
Import ListNotations.

Section Expand.
Context {G A B : Type}.
Context (run : key -> G -> G * option (result (A * bool))).
(** What RPM is asked once the spec file is parsed ([Macros.expand], [Macros.dump]); it may change the macros ([%global] in the expression). *)
Context (ask : str -> G -> G * result B).
(** macros.py 95-110; the outcome is [None] for an interrupt in the parse before. *)
Definition asked (e : str) (s : process G A) : process G A * option (result B) :=
  let (g, r) := ask e (p_world s) in (mk_process g (p_last s) (p_parsers s), Some r).
(** specfile.py 207-209; [i] is the spec file, [content] its text. *)
Definition expand (i : nat) (content : str) (extra : option (list (str * option str))) (skip_parsing : bool) (e : str) (s : process G A) : process G A * option (result B) :=
  if negb skip_parsing || match extra with Some _ => true | None => false end then
    match parse run i content extra s with
    | (s', Some (Ok _)) => asked e s'
    | (s', Some (Err x)) => (s', Some (Err x))
    | (s', None) => (s', None)
    end
  else asked e s.
End Expand.
(** specfile.py 221-222: [get_active_macros]; [dump] is [Macros.dump]. *)
Definition get_active_macros {G A B} (run : key -> G -> G * option (result (A * bool))) (dump : G -> G * result B) (i : nat) (content : str) (s : process G A) : process G A * option (result B) :=
  match parse run i content None s with
  | (s', Some (Ok _)) => let (g, r) := dump (p_world s') in (mk_process g (p_last s') (p_parsers s'), Some r)
  | (s', Some (Err x)) => (s', Some (Err x))
  | (s', None) => (s', None)
  end.
(** specfile.py 162-178: the properties [tainted] and [rpm_spec] *)
Definition parsed {G A B} (get : parser A -> result B) (run : key -> G -> G * option (result (A * bool))) (i : nat) (content : str) (s : process G A) : process G A * option (result B) :=
  match parse run i content None s with
  | (s', Some (Ok _)) => (s', Some (match get_parser i (p_parsers s') with Some p => get p | None => Err AttributeError end))
  | (s', Some (Err x)) => (s', Some (Err x))
  | (s', None) => (s', None)
  end.
Definition tainted {G A} (run : key -> G -> G * option (result (A * bool))) : nat -> str -> process G A -> process G A * option (result bool) := parsed (fun p => Ok (p_tainted p)) run.
Definition rpm_spec {G A} (run : key -> G -> G * option (result (A * bool))) : nat -> str -> process G A -> process G A * option (result (option A)) :=
  parsed (fun p => match p_spec p with Some x => Ok x | None => Err AttributeError end) run.
