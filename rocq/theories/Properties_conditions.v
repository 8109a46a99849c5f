(** Properties C08-C10, C50 and C51 (conditions).  Specification: Spec_conditions.v. *)
From Coq Require Import Ascii String.
From Coq Require Import NArith ZArith List Bool Lia.
From Verif Require Import PyStr Regex M_macro_definitions Spec_macro_definitions M_conditions Spec_conditions
  P_conditions P_conditions2 P_conditions3.
Import ListNotations.
Open Scope N_scope.

(** A concrete expansion for the examples: [%{expr:X}] gives X, everything else itself. *)
Definition demo (skip : bool) (w : unit) (s : str) : result str * unit :=
  match strip_prefix (lit "%{expr:") s with Some x => (Ok (removelast x), w) | None => (Ok s, w) end.
Definition flags_of (r : result (list (str * bool)) * unit) : option (list bool) :=
  match r with (Ok l, _) => Some (map snd l) | _ => None end.

(** C08 *)
Theorem C08_lines_preserved :
  forall (U : Unicode) (W : Type) (expand : bool -> W -> str -> result str * W) (w : W) (lines : list str) (m : option mdefs)
    (res : list (str * bool)) (w' : W),
  process_conditions expand w lines m = (Ok res, w') -> map fst res = lines.
Proof. exact @process_lines. Qed.
Print Assumptions C08_lines_preserved.
Example C08_example :
  let lines := map lit ["%if 0\"; "0"; "a"; "%else"; "b"; "%endif"]%string in
  exists res, process_conditions (U:=unicode_none) demo tt lines None = (Ok res, tt) /\ map snd res = [true; true; false; true; true; true].
Proof. eexists. split; vm_compute; reflexivity. Qed.

(** C03 for a parse that records the validity of definitions. *)
Theorem C03_round_trip_with_conditions :
  forall (U : Unicode) (W : Type) (expand : bool -> W -> str -> result str * W) (w : W) (lines : list str) (b : bool) (m : mdefs) (w' : W),
  clean lines -> parse_with_conditions expand w lines b = (Ok m, w') -> get_raw_data m = lines.
Proof. exact @parse_with_conditions_raw. Qed.
Print Assumptions C03_round_trip_with_conditions.

(** C09: properly nested text gets the flags that its nesting means. *)
Theorem C09_nested_blocks :
  forall (U : Unicode) (W : Type) (expand : bool -> W -> str -> result str * W) (w : W) (lines : list str) (m : option mdefs)
    (flags : list bool) (skip : bool) (w' : W),
  Meaning expand (definition_line m) true 0 (false, w) lines flags (skip, w') ->
  process_conditions expand w lines m = (Ok (combine lines flags), w').
Proof. exact @process_meaning. Qed.
Print Assumptions C09_nested_blocks.
Example C09_example :
  exists skip, Meaning (U:=unicode_none) demo (definition_line None) true 0 (false, tt) (map lit ["%if 0"; "a"; "%else"; " %if 1 "; "b"; "%endif"; "%endif"; "c"]%string)
    [true; false; true; true; true; true; true; true] (skip, tt).
Proof.
  assert (E0 : cond_line (lit "%if 0") (lit "%if") (lit "0")).
  { apply (cond_of_parts [] (lit "%if") (lit " 0")); [constructor|vm_compute; tauto|right; exists SPC, (lit "0"); auto|reflexivity|reflexivity]. }
  assert (E1 : cond_line (lit " %if 1 ") (lit "%if") (lit "1")).
  { apply (cond_of_parts [SPC] (lit "%if") (lit " 1 ")); [repeat constructor|vm_compute; tauto|right; exists SPC, (lit "1 "); auto|reflexivity|reflexivity]. }
  assert (E2 : cond_line (lit "%else") (lit "%else") []).
  { apply (cond_of_parts [] (lit "%else") []); [constructor|vm_compute; tauto|auto|reflexivity|reflexivity]. }
  assert (E3 : cond_line (lit "%endif") (lit "%endif") []).
  { apply (cond_of_parts [] (lit "%endif") []); [constructor|vm_compute; tauto|auto|reflexivity|reflexivity]. }
  assert (Pl : forall c, In c [97; 98; 99] -> plain_line [c]).
  { intros c Hc. apply plain_of_match; cbn in Hc; repeat (destruct Hc as [<-|Hc]; [reflexivity|]); destruct Hc. }
  assert (J : forall c, c <> BSLASH -> Joined [c] [] [c]).
  { intros c N. constructor. intros e0 Q. apply N. destruct e0 as [|? e0]; [injection Q as <-; reflexivity|]. injection Q as _ Q. destruct e0; discriminate. }
  exists true.
  refine (M_block demo (definition_line None) true 0 (false, tt) (lit "%if 0") (lit "%if 0") (true, tt) (lit "%if") (lit "0") [] (lit "0") false (true, tt)
    [lit "a"] [false] (true, tt) (map lit ["%else"; " %if 1 "; "b"; "%endif"; "%endif"]%string) [true; true; true; true; true] (true, tt)
    [lit "c"] [true] (true, tt) (fun x => x) _ E0 _ (J _ _) _ _ _ _).
  - split; reflexivity.
  - vm_compute; tauto.
  - discriminate.
  - exists tt. split; vm_compute; reflexivity.
  - eapply M_plain; [exact (fun x => x)|split; reflexivity|apply Pl; cbn; tauto|constructor].
  - refine (T_else demo (definition_line None) true false _ (true, tt) (lit "%else") (lit "%else") (true, tt) [] (map lit [" %if 1 "; "b"; "%endif"]%string) [true; true; true] (true, tt)
      (lit "%endif") (lit "%endif") [] (true, tt) (fun x => x) _ E2 _ (fun x => x) _ E3).
    + split; reflexivity.
    + refine (M_block demo (definition_line None) true _ (true, tt) (lit " %if 1 ") (lit " %if 1 ") (true, tt) (lit "%if") (lit "1") [] (lit "1") true (true, tt)
        [lit "b"] [true] (true, tt) [lit "%endif"] [true] (true, tt) [] [] (true, tt) (fun x => x) _ E1 _ (J _ _) _ _ _ _).
      * split; reflexivity.
      * vm_compute; tauto.
      * discriminate.
      * exists tt. split; vm_compute; reflexivity.
      * eapply M_plain; [exact (fun x => x)|split; reflexivity|apply Pl; cbn; tauto|constructor].
      * eapply T_end; [exact (fun x => x)|split; reflexivity|exact E3].
      * constructor.
    + split; reflexivity.
  - eapply M_plain; [exact (fun x => x)|split; reflexivity|apply Pl; cbn; tauto|constructor].
Qed.

(** The lines of a macro body are not looked at, the next one is. *)
Example C09_example_bodies :
  let m := mk_mdefs [mk_mdef (lit "x") (lit "1\" ++ LF :: lit "%endif") false false DNL (lit "", [SPC], [SPC], lit "") (lit "") true [lit "first"]] [lit "%if 0"; lit "a"] in
  forall i, definition_line (Some m) i <-> (i = 1 \/ i = 2)%nat.
Proof.
  intros m i. cbn [definition_line]. split.
  - intros (d & p & [<-|[]] & E & B). vm_compute in E. injection E as <-. change (count_occ _ _ _) with 1%nat in B. lia.
  - intros H. eexists _, 1%nat. split; [left; reflexivity|]. split; [vm_compute; reflexivity|]. change (count_occ _ _ _) with 1%nat. lia.
Qed.

(** C09: when a condition holds. *)
Theorem C09_truth_of_expressions :
  forall (U : Unicode) (W : Type) (expand : bool -> W -> str -> result str * W) (w : W) (kw e : str), In kw [lit "%if"; lit "%elif"] ->
  resolve_expression expand w kw e =
  match expand false w (lit "%{expr:" ++ e ++ [RBRACE]) with
  | (Ok x, w') => (Ok (if startswith x (lit "%{expr:") then false else match py_int x with Some 0%Z => false | _ => true end), w')
  | (Err RPMException, w') => (Ok false, w')
  | (Err ex, w') => (Err ex, w')
  end.
Proof. exact @resolve_if. Qed.
Print Assumptions C09_truth_of_expressions.
Theorem C09_truth_of_platform_lists :
  forall (U : Unicode) (W : Type) (E : str -> str) (w : W) (kw e : str),
  In kw [lit "%ifarch"; lit "%elifarch"; lit "%ifnarch"; lit "%ifos"; lit "%elifos"; lit "%ifnos"] ->
  exists b, resolve_expression (pure E) w kw e = (Ok b, w) /\
  let target := E (if str_in kw [lit "%ifarch"; lit "%elifarch"; lit "%ifnarch"] then lit "%{_target_cpu}" else lit "%{_target_os}") in
  (b = true <-> if str_in kw [lit "%ifnarch"; lit "%ifnos"] then ~ In target (split_ws (E e)) else In target (split_ws (E e))).
Proof. exact @resolve_arch. Qed.
Print Assumptions C09_truth_of_platform_lists.

(** C50: chains.  Finding: after a taken %if and an %elif, %else counts as taken too, and so does
    a second true %elif. *)
Theorem C50_else_after_elif_refuted :
  forall U : Unicode,
  flags_of (process_conditions demo tt (map lit ["%if 1"; "a"; "%elif 0"; "b"; "%else"; "c"; "%endif"]%string) None) =
  Some [true; true; true; false; true; true; true].
Proof. intros U. vm_compute. reflexivity. Qed.
Print Assumptions C50_else_after_elif_refuted.
Theorem C50_two_elif_refuted :
  forall U : Unicode,
  flags_of (process_conditions demo tt (map lit ["%if 1"; "a"; "%elif 1"; "b"; "%elif 1"; "c"; "%endif"]%string) None) =
  Some [true; true; true; false; true; true; true].
Proof. intros U. vm_compute. reflexivity. Qed.
Print Assumptions C50_two_elif_refuted.

(** C241: negated lists after %elif.  Finding: "%elifnarch" and "%elifnos" are taken as keywords, and hold where "%elifarch" and "%elifos" hold, that is
    where they should not. *)
Theorem C241_negated_refuted :
  forall (U : Unicode) (W : Type) (E : str -> str) (w : W) (kw e : str), In kw [lit "%elifnarch"; lit "%elifnos"] ->
  exists b, resolve_expression (pure E) w kw e = (Ok b, w) /\
  let target := E (if str_eqb kw (lit "%elifnarch") then lit "%{_target_cpu}" else lit "%{_target_os}") in
  (b = true <-> In target (split_ws (E e))).
Proof. exact @resolve_elifn. Qed.
Print Assumptions C241_negated_refuted.
(** A text has one branch for x86_64 and one for all but arm: a build for s390x sees neither. *)
Theorem C241_text_refuted :
  forall U : Unicode, let E := fun s => if str_eqb s (lit "%{_target_cpu}") then lit "s390x" else s in
  flags_of (process_conditions (pure E) tt (map lit ["%ifarch x86_64"; "a"; "%elifnarch arm"; "b"; "%endif"]%string) None) =
  Some [true; false; true; false; true].
Proof. intros U. vm_compute. reflexivity. Qed.
Print Assumptions C241_text_refuted.

(** C10: exactly the unbalanced texts fail, when expansion itself does not. *)
Theorem C10_fails_iff_unbalanced :
  forall (U : Unicode) (W : Type) (E : str -> str) (w : W) (lines : list str), Forall (fun l => ~ In LF (E l)) lines ->
  ((exists res, process_conditions (pure E) w lines None = (Ok res, w)) <-> Balanced E 0 lines) /\
  (process_conditions (pure E) w lines None = (Err IndexError, w) <-> ~ Balanced E 0 lines).
Proof. exact @process_balanced. Qed.
Print Assumptions C10_fails_iff_unbalanced.
(** C10: every other failure is one of macro expansion. *)
Theorem C10_failures :
  forall (U : Unicode) (W : Type) (expand : bool -> W -> str -> result str * W) (w : W) (lines : list str) (m : option mdefs) (e : exn) (w' : W),
  process_conditions expand w lines m = (Err e, w') -> e = IndexError \/ exists skip w s, fst (expand skip w s) = Err e.
Proof. exact @process_err. Qed.
Print Assumptions C10_failures.
(** Finding: a section that closes a block opened in an earlier section cannot be processed. *)
Theorem C51_block_across_sections_refuted :
  forall U : Unicode,
  fst (process_conditions demo tt (map lit ["Summary: x"; "%endif"]%string) None) = Err IndexError.
Proof. intros U. vm_compute. reflexivity. Qed.
Print Assumptions C51_block_across_sections_refuted.
Example C10_example : Balanced (fun s => s) 0 (map lit ["%if 0"; "a"; "%endif"]%string).
Proof.
  assert (E0 : cond_line (lit "%if 0") (lit "%if") (lit "0")).
  { apply (cond_of_parts [] (lit "%if") (lit " 0")); [constructor|vm_compute; tauto|right; exists SPC, (lit "0"); auto|reflexivity|reflexivity]. }
  assert (E3 : cond_line (lit "%endif") (lit "%endif") []).
  { apply (cond_of_parts [] (lit "%endif") []); [constructor|vm_compute; tauto|auto|reflexivity|reflexivity]. }
  eapply B_if; [exact E0|vm_compute; tauto|apply JE_done|].
  - intros e0 Q. destruct e0 as [|? e0]; [discriminate|]. injection Q as _ Q. destruct e0; discriminate.
  - apply B_plain; [apply plain_of_match; reflexivity|]. eapply B_endif; [exact E3|constructor].
Qed.
