(** Theorems about deep copies (C222, C223).  Spec_deepcopy.v says what can be seen of an object ([follow], [observe]) and which attributes are set anew ([parsed]) or
    shared ([contextual]). *)
From Coq Require Import Ascii String.
From Coq Require Import NArith List Bool Arith.
From Verif Require Import PyStr M_deepcopy Spec_deepcopy P_deepcopy.
Import ListNotations.

(** * C222 *)
(** A copy can be made of everything, also if there are cycles and objects that are referred to from many places. *)
Theorem C222_total : forall h v, closed h -> known h v -> exists h' v', deepcopy (length h) h v = Some (h', v').
Proof. exact deepcopy_total. Qed.
Print Assumptions C222_total.
(** Whatever can be seen of the original can be seen of the copy, except for the results of parsing. *)
Theorem C222_equal : forall fuel h v h' v', closed h -> known h v -> deepcopy fuel h v = Some (h', v') -> forall path, path_of not_parsed h v path -> observe h' v' path = observe h v path.
Proof. exact deepcopy_equal. Qed.
Print Assumptions C222_equal.
(** All objects of the copy are new, except for the contexts ... *)
Theorem C222_fresh : forall fuel h v h' v', deepcopy fuel h v = Some (h', v') -> forall path, path_of own h v path ->
  match follow h v path, follow h' v' path with
  | Some (Ref _), Some (Ref m) => (length h <= m < length h')%nat | Some (Atom a), Some (Atom b) => a = b | None, None => True | _, _ => False end.
Proof. exact deepcopy_fresh. Qed.
Print Assumptions C222_fresh.
(** ... so that nothing that is done to new objects can be seen in any of the old ones, *)
Theorem C222_original : forall fuel h v h' v', closed h -> deepcopy fuel h v = Some (h', v') -> forall w h2 path, known h w ->
  (forall n, (n < length h)%nat -> nth_error h2 n = nth_error h' n) -> observe h2 w path = observe h w path.
Proof. exact deepcopy_original. Qed.
Print Assumptions C222_original.
(** and nothing that is done to the old ones can be seen in the copy, except through a context. *)
Theorem C222_copy : forall fuel h v h' v', deepcopy fuel h v = Some (h', v') -> forall h2 path, path_of own h v path ->
  (forall n, (length h <= n < length h')%nat -> nth_error h2 n = nth_error h' n) -> observe h2 v' path = observe h v path.
Proof. exact deepcopy_copy. Qed.
Print Assumptions C222_copy.
(** Objects that are one in the original are one in the copy, and no others are. *)
Theorem C222_sharing : forall fuel h v h' v', deepcopy fuel h v = Some (h', v') -> forall p q, path_of own h v p -> path_of own h v q ->
  follow h v p = follow h v q <-> follow h' v' p = follow h' v' q.
Proof. exact deepcopy_sharing. Qed.
Print Assumptions C222_sharing.
(** The copy of a parser has not parsed anything, and every object has the attributes of the original. *)
Theorem C222_attributes : forall fuel h v h' v', deepcopy fuel h v = Some (h', v') -> forall path n o k, path_of own h v path -> follow h v path = Some (Ref n) -> nth_error h n = Some o ->
  exists m o', follow h' v' path = Some (Ref m) /\ nth_error h' m = Some o' /\ o_class o' = o_class o /\ map fst (o_fields o') = map fst (o_fields o) /\
  (contextual (o_class o) k -> field k o' = field k o) /\
  (parsed (o_class o) k -> field k o <> None -> field k o' = Some (Atom (if str_eqb k (lit "spec") then lit "None" else lit "False"))).
Proof. exact deepcopy_fields. Qed.
Print Assumptions C222_attributes.

(** A spec file with a parser, tags in a list and the sources of these; a tag refers back to the spec file. *)
Definition example_heap : list obj :=
  [ mk_obj (lit "Specfile") [(lit "_path", Atom (lit "a.spec")); (lit "_parser", Ref 1)];
    mk_obj (lit "SpecParser") [(lit "sourcedir", Atom (lit "/src")); (lit "spec", Ref 2); (lit "tainted", Atom (lit "True"))];
    mk_obj (lit "rpm.spec") [];
    mk_obj (lit "Tag") [(lit "name", Atom (lit "Source0")); (lit "_context", Ref 0)];
    mk_obj (lit "Tags") [(lit "0", Ref 3)];
    mk_obj (lit "Sources") [(lit "_tags", Ref 4); (lit "_context", Ref 0)] ].
Example C222_example : closed example_heap /\ known example_heap (Ref 5) /\
  deepcopy 6 example_heap (Ref 5) = Some (example_heap ++
    [ mk_obj (lit "Sources") [(lit "_tags", Ref 7); (lit "_context", Ref 9)];
      mk_obj (lit "Tags") [(lit "0", Ref 8)];
      mk_obj (lit "Tag") [(lit "name", Atom (lit "Source0")); (lit "_context", Ref 0)];
      mk_obj (lit "Specfile") [(lit "_path", Atom (lit "a.spec")); (lit "_parser", Ref 10)];
      mk_obj (lit "SpecParser") [(lit "sourcedir", Atom (lit "/src")); (lit "spec", Atom (lit "None")); (lit "tainted", Atom (lit "False"))] ], Ref 6).
Proof.
  split; [|split; [cbn; auto with arith|vm_compute; reflexivity]].
  intros o k v Ho Hv. cbn in Ho. repeat (destruct Ho as [<-|Ho]; [cbn in Hv; repeat (destruct Hv as [Hv|Hv]; [injection Hv as _ <-; cbn; auto with arith|]); destruct Hv|]). destruct Ho.
Qed.
(** A cycle: the copy of a list that contains itself contains itself. *)
Example C222_cycle : deepcopy 1 [mk_obj (lit "list") [(lit "0", Ref 0)]] (Ref 0) = Some ([mk_obj (lit "list") [(lit "0", Ref 0)]; mk_obj (lit "list") [(lit "0", Ref 1)]], Ref 1).
Proof. reflexivity. Qed.

(** * C223 *)
(** The copy of a tag or an entry of a source list is expanded in the context of the same spec file as the original, wherever it is in what is copied. *)
Theorem C223_context : forall fuel h v h' v', deepcopy fuel h v = Some (h', v') -> forall path n o, path_of own h v path -> follow h v path = Some (Ref n) -> nth_error h n = Some o ->
  o_class o = lit "Tag" \/ o_class o = lit "SourcelistEntry" -> follow h' v' (path ++ [lit "_context"]) = follow h v (path ++ [lit "_context"]).
Proof. exact contexts. Qed.
Print Assumptions C223_context.
(** But this is not so for a collection of sources: its copy has a copy of the spec file, in the context of which new sources will be expanded, while those that it has
    are expanded in the context of the original. *)
Theorem C223_refuted : forall fuel h n o s h' v', nth_error h n = Some o -> o_class o = lit "Sources" -> field (lit "_context") o = Some (Ref s) -> deepcopy fuel h (Ref n) = Some (h', v') ->
  (exists m, follow h' v' [lit "_context"] = Some (Ref m) /\ (length h <= m)%nat) /\
  forall path, path_of own h (Ref n) path -> (exists t ot, follow h (Ref n) path = Some (Ref t) /\ nth_error h t = Some ot /\ o_class ot = lit "Tag" /\ field (lit "_context") ot = Some (Ref s)) ->
    follow h' v' (path ++ [lit "_context"]) = Some (Ref s).
Proof. exact contexts_apart. Qed.
Print Assumptions C223_refuted.
Example C223_example : exists h' v', deepcopy 6 example_heap (Ref 5) = Some (h', v') /\
  follow example_heap (Ref 5) [lit "_context"] = Some (Ref 0) /\ follow example_heap (Ref 5) [lit "_tags"; lit "0"; lit "_context"] = Some (Ref 0) /\
  follow h' v' [lit "_context"] = Some (Ref 9) /\ follow h' v' [lit "_tags"; lit "0"; lit "_context"] = Some (Ref 0) /\
  path_of own example_heap (Ref 5) [lit "_tags"; lit "0"].
Proof.
  do 2 eexists. split; [vm_compute; reflexivity|]. repeat (split; [vm_compute; reflexivity|]). cbn.
  repeat split; try (intros [X _]; cbv in X; discriminate X); intros [[X|X] _]; cbv in X; discriminate X.
Qed.
