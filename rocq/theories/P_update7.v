(** Updating values: a file for the examples. *)
From Coq Require Import Ascii String.
From Coq Require Import NArith ZArith List Bool Arith Lia.
From Verif Require Import PyStr PyStrFacts Regex M_value Spec_value2 M_update Spec_update P_value P_update2 P_update4 P_update5 P_update6.
Import ListNotations.
Open Scope nat_scope.

(** A file for the examples, and expansion of macros that are not defined in it *)
Definition macro (name value : string) (p : nat) : entity := mk_entity (lit name) (lit value) false p false false false false.
Definition tag (name value : string) (p : nat) : entity := mk_entity (lit name) (lit value) true p false false false false.
Definition demo_ex (s : str) : result str :=
  if str_eqb s (lit "%{?dist}") then Ok (lit ".fc40") else if str_eqb s (lit "%{?fedora:.fc}") then Ok (lit ".fc")
  else if str_eqb s (lit "%foo") then Ok (lit "X") else if str_eqb s (lit "%{?unset:x}") then Ok [] else if str_eqb s (lit "%{?maj:1}") then Ok (lit "1") else Ok s.
Definition demo_expand (s : str) (w : unit) : unit * result str := (w, demo_ex s).
Definition demo_id (s : str) : bool := true.
Definition demo_file : list entity := [macro "maj" "1" 0; macro "min" "2" 1; tag "version" "%{maj}.%{min}" 2].
Notation demo_update value requested pos es := (update (U:=unicode_none) demo_expand demo_id (S pos) (lit value) (lit requested) pos es tt).
Lemma demo_pure : forall s (w : unit), True -> exists w', demo_expand s w = (w', demo_ex s) /\ True.
Proof. intros s w _. exists w. auto. Qed.
Ltac entities := split; [intros e H; repeat destruct H as [<-|H]; try reflexivity; destruct H|split; [intros e H T; repeat destruct H as [<-|H]; try discriminate; try (split; reflexivity); destruct H|
  intros m t Hm Ht Tm Tt L; repeat destruct Hm as [<-|Hm]; repeat destruct Ht as [<-|Ht]; try discriminate; try destruct Hm; try destruct Ht]].
Lemma demo_ok : entities_ok (U:=unicode_none) demo_file.
Proof. entities. Qed.
Lemma demo_separate : separate (U:=unicode_none) demo_ex demo_file 5 (lit "v%{version}%{?dist}%{?unset:x}").
Proof.
  assert (C1 : separate (U:=unicode_none) demo_ex demo_file 2 (lit "%{maj}.%{min}")).
  { apply (separate_intro (U:=unicode_none) _ _ _ _ [EnclosedMacroSubstitution [] (lit "maj") []; StringLiteral (lit "."); EnclosedMacroSubstitution [] (lit "min") []]).
    - vm_compute. reflexivity.
    - constructor; [constructor| | | | |constructor; [discriminate| |constructor; [constructor| | | | |constructor]]]; try (intros c n' Q; injection Q as <- _; split; discriminate); try (repeat constructor; discriminate); try (cbn; intuition discriminate); repeat (apply closed_char; [discriminate|discriminate|]); constructor.
    - cbn. intuition discriminate.
    - intros [|? [|? [|? [|? pre]]]] p x s post Q; discriminate.
    - intros p x b H. cbn in H. intuition discriminate.
    - intros name R K (t & ->). eapply refers_name in R; [|vm_compute; reflexivity]. cbn in R. destruct R as [Q|[Q|[Q|[]]]]; discriminate.
    - intros name k e R C E. eapply refers_name in R; [|vm_compute; reflexivity]. apply closest_is in C. destruct R as [Q|[Q|[Q|[]]]]; try discriminate; injection Q as <-; vm_compute in C; injection C as <-; injection E as <-; apply separate_plain; cbn; intuition discriminate.
    - intros n1 n2 k1 k2 j R1 R2 N C1 C2 B1 B2. eapply refers_name in R1; [|vm_compute; reflexivity]. eapply refers_name in R2; [|vm_compute; reflexivity]. apply closest_is in C1. apply closest_is in C2.
      destruct R1 as [Q|[Q|[Q|[]]]]; try discriminate; injection Q as <-; vm_compute in C1; injection C1 as <-; destruct R2 as [Q|[Q|[Q|[]]]]; try discriminate; injection Q as <-; vm_compute in C2; injection C2 as <-; try (exfalso; apply N; reflexivity).
      all: destruct B1 as [->|(e & E & H)]; [|injection E as <-; apply plain_reaches in H; [exact H|discriminate|cbn; intuition discriminate]]; destruct B2 as [Q|(e & E & H)]; [discriminate|injection E as <-; apply plain_reaches in H; [exact H|discriminate|cbn; intuition discriminate]]. }
  apply (separate_intro (U:=unicode_none) _ _ _ _ [StringLiteral (lit "v"); EnclosedMacroSubstitution [] (lit "version") []; EnclosedMacroSubstitution [QUESTION] (lit "dist") []; ConditionalMacroExpansion [QUESTION] (lit "unset") [StringLiteral (lit "x")]]).
  - vm_compute. reflexivity.
  - constructor; [discriminate|repeat constructor; discriminate|].
    assert (S : forall w, w <> [] -> forallb (fun c => negb (is_space c)) w = true -> solid w). { intros w N F. split; [exact N|]. rewrite forallb_forall in F. apply Forall_forall. intros c Hc. apply negb_true_iff, F, Hc. }
    assert (Cl : forall w, forallb (fun c => negb (c =? LBRACE)%N && negb (c =? RBRACE)%N) w = true -> closed LBRACE RBRACE w).
    { induction w as [|c w IH]; intros F; [constructor|]. cbn [forallb] in F. apply andb_true_iff in F as [F1 F2]. apply andb_true_iff in F1 as [A B]. apply negb_true_iff, N.eqb_neq in A. apply negb_true_iff, N.eqb_neq in B. constructor; auto. }
    apply can_enclosed; [constructor|intros c n' Q; injection Q as <- _; split; discriminate|constructor; [apply S; [discriminate|reflexivity]|constructor]|vm_compute; intuition discriminate|apply Cl; reflexivity|].
    apply can_enclosed; [repeat constructor|intros c n' Q; injection Q as <- _; split; discriminate|constructor; [apply S; [discriminate|reflexivity]|constructor]|vm_compute; intuition discriminate|apply Cl; reflexivity|].
    apply can_conditional; [repeat constructor|left; reflexivity|intros c n' Q; injection Q as <- _; split; discriminate|vm_compute; intuition discriminate|apply Cl; reflexivity|constructor; [discriminate|repeat constructor; discriminate|constructor]|constructor].
  - cbn. intuition discriminate.
  - intros [|? [|? [|? [|? [|? pre]]]]] p x s post Q; discriminate.
  - intros p x b H. cbn in H. destruct H as [Q|[Q|[Q|[Q|[]]]]]; try discriminate. injection Q as <- <- <-. split; [|reflexivity]. apply closest_none. reflexivity.
  - intros name R K (t & ->). eapply refers_name in R; [|vm_compute; reflexivity]. cbn in R. destruct R as [Q|[Q|[Q|[Q|[]]]]]; discriminate.
  - intros name k e R C E. eapply refers_name in R; [|vm_compute; reflexivity]. apply closest_is in C. destruct R as [Q|[Q|[Q|[Q|[]]]]]; try discriminate; injection Q as <-; vm_compute in C; try discriminate. injection C as <-. injection E as <-. exact C1.
  - intros n1 n2 k1 k2 j R1 R2 N C3 C4 B1 B2. eapply refers_name in R1; [|vm_compute; reflexivity]. eapply refers_name in R2; [|vm_compute; reflexivity]. apply closest_is in C3. apply closest_is in C4.
    destruct R1 as [Q|[Q|[Q|[Q|[]]]]]; try discriminate; injection Q as <-; vm_compute in C3; try discriminate; injection C3 as <-; destruct R2 as [Q|[Q|[Q|[Q|[]]]]]; try discriminate; injection Q as <-; vm_compute in C4; try discriminate; injection C4 as <-. apply N. reflexivity.
Qed.

(** * Counterexamples *)
Lemma refute (U : Unicode) (cond : (str -> result str) -> list entity -> nat -> str -> str -> Prop) ex isid es pos value requested es' r v : cond ex es pos value requested -> entities_ok es -> ~ In PCT requested -> ~ In LF requested ->
  update (fun s (w : unit) => (w, ex s)) isid (S pos) value requested pos es tt = (tt, Ok (es', r)) -> text_evaluates ex es' pos r v -> v <> requested -> ~ updates_right U cond.
Proof. intros C O P L E V N H. apply N. apply (text_evaluates_fun ex es' pos r); [exact V|]. apply (H ex isid es pos value requested es' r); assumption. Qed.
Ltac run := vm_compute; reflexivity.
Ltac absent := vm_compute; intuition discriminate.
Lemma enclosed_ref name : reference (EnclosedMacroSubstitution [] name []) name.
Proof. exists []. split; [apply Nat.even_spec; reflexivity|right; reflexivity]. Qed.
Lemma shared_refuted : ~ updates_right unicode_none (fun ex es pos value requested => requested <> [] /\ value <> [] /\ made_of (U:=unicode_none) value (fun n => literal n \/ exists name, reference n name /\ known es pos name)).
Proof.
  eapply (refute _ _ demo_ex demo_id [macro "a" "1" 0; macro "b" "%{a}.1" 1] 2 (lit "%{a}-%{b}") (lit "2-3.1")); [|entities|absent|absent|run|apply (value_of_sound 20); run|discriminate].
  split; [discriminate|]. split; [discriminate|]. eexists. split; [run|]. constructor; [|constructor; [left; eexists; reflexivity|constructor; [|constructor]]]; right; eexists; (split; [apply enclosed_ref|]).
  - exists (macro "a" "1" 0). split; [left; reflexivity|]. split; [cbn; lia|left; reflexivity].
  - exists (macro "b" "%{a}.1" 1). split; [right; left; reflexivity|]. split; [cbn; lia|left; reflexivity].
Qed.
Lemma both_names_refuted : ~ updates_right unicode_none (fun ex es pos value requested => requested <> [] /\ exists t, es = [t] /\ e_tag t = true).
Proof.
  eapply (refute _ _ demo_ex demo_id [tag "version" "1" 0] 1 (lit "%{version}-%{VERSION}") (lit "2-3")); [|entities|absent|absent|run|apply (value_of_sound 20); run|discriminate].
  split; [discriminate|]. eexists. split; reflexivity.
Qed.
Lemma conditional_refuted : ~ updates_right unicode_none (fun ex es pos value requested => requested <> [] /\ es = [] /\ made_of (U:=unicode_none) value (fun n => literal n \/ conditional n)).
Proof.
  eapply (refute _ _ demo_ex demo_id [] 1 (lit "1%{?fedora:.fc}") (lit "2.fc")); [|entities|absent|absent|run|apply (value_of_sound 20); run|discriminate].
  split; [discriminate|]. split; [reflexivity|]. eexists. split; [run|]. constructor; [left; eexists; reflexivity|constructor; [right; eexists _, _, _; reflexivity|constructor]].
Qed.
Lemma bare_refuted : ~ updates_right unicode_none (fun ex es pos value requested => requested <> [] /\ es = [] /\ made_of (U:=unicode_none) value (fun n => literal n \/ exists p name, n = MacroSubstitution p name)).
Proof.
  eapply (refute _ _ demo_ex demo_id [] 1 (lit "%foo.1") (lit "X1")); [|entities|absent|absent|run|apply (value_of_sound 20); run|discriminate].
  split; [discriminate|]. split; [reflexivity|]. eexists. split; [run|]. constructor; [right; eexists _, _; reflexivity|constructor; [left; eexists; reflexivity|constructor]].
Qed.
Lemma one_two_separate : separate (U:=unicode_none) demo_ex [macro "a" "1" 0; macro "b" "2" 1] 2 (lit "%{a}%{b}").
Proof.
  apply (separate_intro (U:=unicode_none) _ _ _ _ [EnclosedMacroSubstitution [] (lit "a") []; EnclosedMacroSubstitution [] (lit "b") []]).
  - run.
  - constructor; [constructor| | | | |constructor; [constructor| | | | |constructor]]; try (intros c n' Q; injection Q as <- _; split; discriminate); try (repeat constructor; discriminate); try (cbn; intuition discriminate); repeat (apply closed_char; [discriminate|discriminate|]); constructor.
  - cbn. intuition discriminate.
  - intros [|? [|? [|? pre]]] p x s post Q; discriminate.
  - intros p x b H. cbn in H. intuition discriminate.
  - intros name R K (t & ->). eapply refers_name in R; [|run]. cbn in R. destruct R as [Q|[Q|[]]]; discriminate.
  - intros name k e R C E. eapply refers_name in R; [|run]. apply closest_is in C. destruct R as [Q|[Q|[]]]; injection Q as <-; vm_compute in C; injection C as <-; injection E as <-; apply separate_plain; cbn; intuition discriminate.
  - intros n1 n2 k1 k2 j R1 R2 N C1 C2 B1 B2. eapply refers_name in R1; [|run]. eapply refers_name in R2; [|run]. apply closest_is in C1. apply closest_is in C2.
    destruct R1 as [Q|[Q|[]]]; injection Q as <-; vm_compute in C1; injection C1 as <-; destruct R2 as [Q|[Q|[]]]; injection Q as <-; vm_compute in C2; injection C2 as <-; try (exfalso; apply N; reflexivity).
    all: destruct B1 as [->|(e & E & H)]; [|injection E as <-; apply plain_reaches in H; [exact H|discriminate|cbn; intuition discriminate]]; destruct B2 as [Q|(e & E & H)]; [discriminate|injection E as <-; apply plain_reaches in H; [exact H|discriminate|cbn; intuition discriminate]].
Qed.
Lemma empty_refuted : ~ updates_right unicode_none (fun ex es pos value requested => requested = [] /\ separate (U:=unicode_none) ex es pos value).
Proof.
  eapply (refute _ _ demo_ex demo_id [macro "a" "1" 0; macro "b" "2" 1] 2 (lit "%{a}%{b}") []); [|entities|absent|absent|run|apply (value_of_sound 20); run|discriminate].
  split; [reflexivity|exact one_two_separate].
Qed.
Lemma sub_refuted : ~ updates_right unicode_none (fun ex es pos value requested => requested <> [] /\ exists m t, es = [m] /\ e_tag m = false /\ e_name m = lit "sub_" ++ t).
Proof.
  eapply (refute _ _ demo_ex demo_id [macro "sub_x" "1" 0] 1 (lit "%{sub_x}") (lit "2")); [|entities|absent|absent|run|apply (value_of_sound 20); run|discriminate].
  split; [discriminate|]. eexists _, (lit "x"). split; [reflexivity|]. split; reflexivity.
Qed.
Lemma mixed_refuted : exists ex isid es pos value requested es' r,
  (forall e, In e es -> e_flip e = false) /\ (forall t, In t es -> e_tag t = true -> lower (U:=unicode_none) (e_name t) = e_name t /\ lower (U:=unicode_none) (upper (e_name t)) = e_name t) /\
  separate (U:=unicode_none) ex es pos value /\ requested <> [] /\ ~ In PCT requested /\ ~ In LF requested /\
  update (U:=unicode_none) (fun s (w : unit) => (w, ex s)) isid (S pos) value requested pos es tt = (tt, Ok (es', r)) /\ ~ text_evaluates (U:=unicode_none) ex es' pos r requested.
Proof.
  exists demo_ex, demo_id, [macro "Version" "1" 0; tag "version" "1" 1], 2, (lit "%{Version}"), (lit "2"). eexists _, _.
  split; [intros e H; repeat destruct H as [<-|H]; try reflexivity; destruct H|]. split; [intros e H T; repeat destruct H as [<-|H]; try discriminate; try (split; reflexivity); destruct H|]. split; [|split; [discriminate|split; [absent|split; [absent|split; [run|]]]]].
  - apply (separate_intro (U:=unicode_none) _ _ _ _ [EnclosedMacroSubstitution [] (lit "Version") []]).
    + run.
    + constructor; [constructor| | | | |constructor]; try (intros c n' Q; injection Q as <- _; split; discriminate); try (repeat constructor; discriminate); try (cbn; intuition discriminate); repeat (apply closed_char; [discriminate|discriminate|]); constructor.
    + cbn. intuition discriminate.
    + intros [|? [|? pre]] p x s post Q; discriminate.
    + intros p x b H. cbn in H. intuition discriminate.
    + intros name R K (t & ->). eapply refers_name in R; [|run]. cbn in R. destruct R as [Q|[]]; discriminate.
    + intros name k e R C E. eapply refers_name in R; [|run]. apply closest_is in C. destruct R as [Q|[]]; injection Q as <-; vm_compute in C; injection C as <-; injection E as <-; apply separate_plain; cbn; intuition discriminate.
    + intros n1 n2 k1 k2 j R1 R2 N C1 C2 B1 B2. eapply refers_name in R1; [|run]. eapply refers_name in R2; [|run]. destruct R1 as [Q|[]]; injection Q as <-. destruct R2 as [Q|[]]; injection Q as <-. apply N. reflexivity.
  - intros V. assert (V' : text_evaluates (U:=unicode_none) demo_ex [macro "Version" "1" 0; assign (lit "2") (tag "version" "1" 1)] 2 (lit "%{Version}") (lit "1")) by (apply (value_of_sound 20); run).
    pose proof (text_evaluates_fun _ _ _ _ _ _ V V') as Q. discriminate.
Qed.
(** * What is kept *)
Lemma kept_demo : exists nodes, M_value.parse (U:=unicode_none) (lit "v%{version}%{?dist}%{?unset:x}") = Ok nodes /\
  gives demo_ex (map lit ["maj"; "min"; "version"; "VERSION"]%string) (fun _ => lit "3.4") nodes (lit "v3.4.fc40") /\ ~ neighbours (map lit ["maj"; "min"; "version"; "VERSION"]%string) nodes.
Proof.
  exists [StringLiteral (lit "v"); EnclosedMacroSubstitution [] (lit "version") []; EnclosedMacroSubstitution [QUESTION] (lit "dist") []; ConditionalMacroExpansion [QUESTION] (lit "unset") [StringLiteral (lit "x")]].
  assert (Nd : forall name, reference (EnclosedMacroSubstitution [QUESTION] (lit "dist") []) name -> ~ In name (map lit ["maj"; "min"; "version"; "VERSION"]%string)).
  { intros name (p & _ & [Q|Q]); [discriminate|]. injection Q as _ <-. cbn. intuition discriminate. }
  split; [vm_compute; reflexivity|]. split.
  - change (lit "v3.4.fc40") with (lit "v" ++ lit "3.4" ++ lit ".fc40" ++ []). apply gives_literal. apply (gives_reference _ _ (fun _ => lit "3.4") _ (lit "version")); [exists []; split; [exists 0; reflexivity|right; reflexivity]|cbn; auto|discriminate|].
    apply gives_constant; [intros (v & Q); discriminate|intros (p & x & b & Q); discriminate|exact Nd|reflexivity|]. apply gives_nothing; [cbn; intuition discriminate|constructor].
  - intros (pre & n1 & n2 & post & a & b & Q & R1 & R2 & M1 & M2). destruct pre as [|? [|? [|? [|? pre]]]]; try discriminate; injection Q; intros; subst.
    + destruct R1 as (p & _ & [Z|Z]); discriminate.
    + exact (Nd b R2 M2).
    + exact (Nd a R1 M1).
    + destruct pre; discriminate.
Qed.
Lemma self_demo : demo_update "%{maj}" "%{?unset:%{maj}}.1" 5 demo_file = (tt, Ok (demo_file, lit "%{?unset:%{maj}}.1")) /\
  closest demo_file 5 (lit "maj") 0 /\ exists nodes, M_value.parse (U:=unicode_none) (lit "%{?unset:%{maj}}.1") = Ok nodes /\ mentions (lit "maj") nodes.
Proof.
  split; [vm_compute; reflexivity|]. split; [apply closest_sound; vm_compute; reflexivity|]. eexists. split; [vm_compute; reflexivity|]. apply men_body. apply men_enclosed.
Qed.
