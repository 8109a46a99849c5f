(** Independent specification of expansions: what a parse may depend on (with [Spec_spec_parser]). *)
From Coq Require Import NArith List Bool.
From Verif Require Import PyStr M_spec_parser.
(** A parse does not depend on the identity of the parser. *)
Definition anonymous {G A} (run : key -> G -> G * option (result (A * bool))) : Prop := forall i j d m f c x g, run (mk_key i d m f c x) g = run (mk_key j d m f c x) g.
