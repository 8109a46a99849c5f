(** Independent specification of the effects of a parse. *)
From Coq Require Import Ascii String.
From Coq Require Import NArith ZArith List Bool.
From Verif Require Import PyStr M_evr M_spec_parser.
Import ListNotations.
Open Scope N_scope.

Section Faults.
Context {W A : Type}.
Context (stat_fault : world W -> str * str -> option exn) (write_outcome : world W -> str * str -> list N -> attempt) (unlink_fault : world W -> str * str -> option exn).
(** The source directory can be read, a file that was written can be removed, and one that was not is not there. *)
Record sound_files : Prop := {
  s_stat : forall w p, stat_fault w p = None;
  s_unlink : forall w p, unlink_fault w p = None;
  s_write : forall w p b, write_outcome w p b = Written \/ write_outcome w p b = Refused None }.
(** Moreover, every file can be written. *)
Definition writable : Prop := forall w p b, write_outcome w p b = Written.
(** A set is iterated over in some order. *)
Definition set_order (order : list str -> list str) : Prop := forall l x, In x (order l) <-> In x l.
(** A block that leaves the files and the environment as they are. *)
Definition quiet {B} (body : world W -> world W * result B) : Prop := forall w, files (fst (body w)) = files w /\ env (fst (body w)) = env w.
(** The file names of sources. *)
Definition names (sources : list str) (n : str) : Prop := n <> [] /\ exists s, In s sources /\ get_filename_from_location s = n.
(** The files that a parser sees: those that are there, dummy files with signatures for all other sources, and dummy files with text
    for the other sources that must not be empty. *)
Definition seen (sourcedir : str) (sources non_empty : list str) (before after : list ((str * str) * list N)) : Prop :=
  forall d n,
    match content_of (d, n) before with
    | Some b => content_of (d, n) after = Some b
    | None =>
        (d = sourcedir /\ names sources n -> content_of (d, n) after = Some (magic_bytes n)) /\
        (d = sourcedir /\ ~ names sources n /\ names non_empty n -> content_of (d, n) after = Some (lit "DUMMY")) /\
        (~ (d = sourcedir /\ (names sources n \/ names non_empty n)) -> content_of (d, n) after = None)
    end.
End Faults.

(** * Histories *)
Section Histories.
Context {G A : Type}.
(** Allocations respect the identity of living objects; a copy gets one that was never used before ([used] are those that were). *)
Fixpoint allocated (used alive : list nat) (es : list (@event G)) : Prop :=
  match es with
  | [] => True
  | New i _ _ _ :: es' => ~ In i alive /\ allocated (i :: used) (i :: alive) es'
  | Copy i j :: es' => In i alive /\ ~ In j used /\ allocated (j :: used) (j :: alive) es'
  | Drop i :: es' => allocated used (filter (fun x => negb (Nat.eqb i x)) alive) es'
  | _ :: es' => allocated used alive es'
  end.
(** Everything else that happens has no observable effect. *)
Definition harmless (same : G -> G -> Prop) (es : list (@event G)) : Prop := forall f, In (Other f) es -> forall g, same (f g) g.
Definition equivalence (r : G -> G -> Prop) : Prop := (forall g, r g g) /\ (forall a b, r a b -> r b a) /\ (forall a b c, r a b -> r b c -> r a c).
(** Parses depend on the part of the world given by [input] only, leave it as it is, and are not interrupted. *)
Record repeatable (run : key -> G -> G * option (result (A * bool))) (input : G -> G -> Prop) : Prop := {
  r_equiv : equivalence input;
  r_run : forall k g g', input g g' -> run k g = run k g';
  r_kept : forall k g, input (fst (run k g)) g;
  r_ends : forall k g, snd (run k g) <> None }.
(** An event that does not create or drop the parser [i]. *)
Definition leaves (i : nat) (e : @event G) : Prop :=
  match e with New j _ _ _ => j <> i | Copy _ j => j <> i | Drop j => j <> i | _ => True end.
(** The process without a memory of the last parse. *)
Definition forget (s : process G A) : process G A := mk_process (p_world s) None (p_parsers s).
End Histories.
