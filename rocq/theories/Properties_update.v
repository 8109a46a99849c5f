(** Properties C44 and C134-C144: updating values through the macros and tags they refer to.  Specification: Spec_update.v. *)
From Coq Require Import Ascii String.
From Coq Require Import NArith ZArith List Bool Arith Lia.
From Verif Require Import PyStr PyStrFacts Regex M_value Spec_value2 M_update Spec_update P_value P_update2 P_update4 P_update5 P_update6 P_update7 P_update8.
Import ListNotations.
Open Scope nat_scope.

(** * C44 *)
(** If no macro or tag is reached in two ways (see [separate] for the other conditions), the updated value evaluates to what was requested, with
    the new values of the macros and tags; those that the value does not depend on are not changed.  [I] is what holds of the state
    of the expansion of macros, [ex] are its results. *)
Theorem C44_update : forall (U : Unicode) (W : Type) (expand : str -> W -> W * result str) isid ex (I : W -> Prop),
  (forall s w, I w -> exists w', expand s w = (w', ex s) /\ I w') ->
  forall fuel value requested pos es w w' es' r, I w -> entities_ok es -> separate ex es pos value -> requested <> [] /\ ~ In PCT requested /\ ~ In LF requested ->
  update expand isid fuel value requested pos es w = (w', Ok (es', r)) ->
  I w' /\ same_skeleton es es' /\ (forall k, ~ reaches es pos value k -> nth_error es' k = nth_error es k) /\ text_evaluates ex es' pos r requested /\
  (forall k, reaches es' pos r k -> reaches es pos value k).
Proof. exact @update_sound. Qed.
Print Assumptions C44_update.
(** A value evaluates to one text only. *)
Theorem C44_unique : forall (U : Unicode) ex es pos text v v', text_evaluates ex es pos text v -> text_evaluates ex es pos text v' -> v = v'.
Proof. exact @text_evaluates_fun. Qed.
Print Assumptions C44_unique.
Example C44_witness : entities_ok (U:=unicode_none) demo_file /\ separate (U:=unicode_none) demo_ex demo_file 5 (lit "v%{version}%{?dist}%{?unset:x}") /\
  exists es', demo_update "v%{version}%{?dist}%{?unset:x}" "v3.4.fc40" 5 demo_file = (tt, Ok (es', lit "v%{version}%{?dist}%{?unset:x}")) /\
    map e_value es' = map lit ["3"; "4"; "%{maj}.%{min}"]%string.
Proof. split; [exact demo_ok|]. split; [exact demo_separate|]. eexists. split; vm_compute; reflexivity. Qed.

(** * C140 *)
(** What the pattern made of a value matches stands for the requested text once the groups are assigned, and so does the text made of the
    template: conditional expansions included, and whatever the macros are. *)
Theorem C140_pattern : forall (U : Unicode) (W : Type) (expand : str -> W -> W * result str) ex (I : W -> Prop),
  (forall s w, I w -> exists w', expand s w = (w', ex s) /\ I w') ->
  forall isid value modifiable flippable w w' p requested m, I w -> construct_regex expand isid value modifiable flippable w = (w', Ok p) ->
  re_match (p_regex p) requested = Some m -> requested <> [] -> requested <> [LF] ->
  let d := groupdict 0 (p_names p) m in
  I w' /\ incl (p_flip p) flippable /\ exists nodes v, M_value.parse value = Ok nodes /\
    stands ex modifiable (fun name => field name d) (p_flip p) false nodes (substitute (p_template p) d) v /\ (requested = v \/ requested = v ++ [LF]).
Proof. exact @pattern_sound. Qed.
Print Assumptions C140_pattern.
Example C140_witness : exists p m, construct_regex (U:=unicode_none) demo_expand demo_id (lit "%{maj}.0%{!?maj:x}%{?dist}") [lit "maj"] [lit "maj"] tt = (tt, Ok p) /\
  re_match (p_regex p) (lit "7.1x.fc40") = Some m /\ p_flip p = [lit "maj"] /\ substitute (p_template p) (groupdict 0 (p_names p) m) = lit "%{maj}.1%{!?maj:x}%{?dist}".
Proof. eexists _, _. split; [vm_compute; reflexivity|]. split; [vm_compute; reflexivity|]. split; vm_compute; reflexivity. Qed.

(** * C141 *)
(** An update never changes anything but the values of macros and tags in front of the value, and marks what it has changed. *)
Theorem C141_frame : forall (U : Unicode) (W : Type) (expand : str -> W -> W * result str) isid fuel value requested pos es w w' es' r,
  update expand isid fuel value requested pos es w = (w', Ok (es', r)) ->
  Forall2 (fun e e' => e_name e' = e_name e /\ e_tag e' = e_tag e /\ e_position e' = e_position e /\ e_disabled e' = e_disabled e /\ e_locked e' = e_locked e /\
    (pos <= e_position e -> e' = e) /\ (e_updated e' = false -> e_value e' = e_value e /\ e_updated e = false) /\ (e_flip e = true -> e_flip e' = true)) es es'.
Proof. exact @update_frame. Qed.
Print Assumptions C141_frame.
(** Updates end: the recursion is never deeper than the position. *)
Theorem C141_terminates : forall (U : Unicode) (W : Type) (expand : str -> W -> W * result str) isid fuel fuel' value requested pos es w,
  pos < fuel -> pos < fuel' -> update expand isid fuel value requested pos es w = update expand isid fuel' value requested pos es w.
Proof. exact @update_fuel. Qed.
Print Assumptions C141_terminates.
Example C141_witness : exists es', demo_update "%{maj}" "7" 1 demo_file = (tt, Ok (es', lit "%{maj}")) /\ es' <> demo_file /\ tl es' = tl demo_file.
Proof. eexists. split; [vm_compute; reflexivity|]. split; [discriminate|reflexivity]. Qed.

(** * C142 *)
(** An update raises what parsing of values, expansion or [re.compile] raise, and nothing else (model: [OtherError]). *)
Theorem C142_errors : forall (U : Unicode) (W : Type) (expand : str -> W -> W * result str) isid fuel value requested pos es w w' e, pos < fuel ->
  (forall t, In t es -> e_tag t = true -> lower (e_name t) = e_name t /\ lower (upper (e_name t)) = e_name t) ->
  update expand isid fuel value requested pos es w = (w', Err e) ->
  e = UnterminatedMacroException \/ e = ValueError \/ e = OtherError \/ exists s v v', expand s v = (v', Err e).
Proof. exact @update_errors. Qed.
Print Assumptions C142_errors.
(** All fields of templates are groups of the pattern. *)
Theorem C142_fields : forall (U : Unicode) (W : Type) (expand : str -> W -> W * result str) isid value modifiable flippable w w' p,
  construct_regex expand isid value modifiable flippable w = (w', Ok p) ->
  (forall n, In (TField n) (p_template p) -> In n (p_names p)) /\ (forall n, In n (p_names p) -> In n modifiable \/ startswith n (lit "sub_") = true).
Proof. exact @pattern_fields. Qed.
Print Assumptions C142_fields.
Example C142_witness : update (U:=unicode_none) demo_expand (fun s => negb (str_eqb s (lit "maj"))) 2 (lit "%{maj}") (lit "7") 1 demo_file tt = (tt, Err OtherError) /\
  demo_update "%{maj" "7" 1 demo_file = (tt, Err UnterminatedMacroException).
Proof. split; vm_compute; reflexivity. Qed.

(** * C143 *)
(** If new values of the macros alone can give what is requested, the value is updated through them: all references and other macros
    stay, whatever the macros depend on. *)
Theorem C143_kept : forall (U : Unicode) (W : Type) (expand : str -> W -> W * result str) ex (I : W -> Prop),
  (forall s w, I w -> exists w', expand s w = (w', ex s) /\ I w') ->
  forall isid fuel value requested pos es w w' es' r nodes names val, I w -> entities_ok es -> (forall e, In e es -> e_locked e = false) ->
  (forall n, In n names <-> known es pos n) -> M_value.parse value = Ok nodes -> gives ex names val nodes requested ->
  requested <> [] -> ~ In PCT requested -> ~ In LF requested -> ~ neighbours names nodes -> (forall name, refers_to value name -> In name names -> ~ exists t, name = lit "sub_" ++ t) ->
  update expand isid fuel value requested pos es w = (w', Ok (es', r)) -> exists val', stands ex names val' [] false nodes r requested.
Proof. exact @update_kept. Qed.
Print Assumptions C143_kept.
Example C143_witness : exists nodes, M_value.parse (U:=unicode_none) (lit "v%{version}%{?dist}%{?unset:x}") = Ok nodes /\
  gives demo_ex (map lit ["maj"; "min"; "version"; "VERSION"]%string) (fun _ => lit "3.4") nodes (lit "v3.4.fc40") /\ ~ neighbours (map lit ["maj"; "min"; "version"; "VERSION"]%string) nodes.
Proof. exact kept_demo. Qed.

(** * C144 *)
(** A value that refers to the macro (or the tag) it would be assigned to is not assigned to it. *)
Theorem C144_self : forall (U : Unicode) (W : Type) (expand : str -> W -> W * result str) isid fuel value requested pos es w w' es' r n name k e nodes x,
  entities_ok es -> M_value.parse value = Ok [n] -> reference n name -> (~ exists t, name = lit "sub_" ++ t) ->
  closest es pos name k -> nth_error es k = Some e -> ~ In LF requested -> M_value.parse requested = Ok nodes -> mentions x nodes -> x = e_name e \/ e_tag e = true /\ lower x = e_name e -> value <> requested ->
  update expand isid fuel value requested pos es w = (w', Ok (es', r)) -> es' = es /\ r = requested.
Proof. exact @update_self. Qed.
Print Assumptions C144_self.
Example C144_witness : demo_update "%{maj}" "%{?unset:%{maj}}.1" 5 demo_file = (tt, Ok (demo_file, lit "%{?unset:%{maj}}.1")) /\
  closest demo_file 5 (lit "maj") 0 /\ exists nodes, M_value.parse (U:=unicode_none) (lit "%{?unset:%{maj}}.1") = Ok nodes /\ mentions (lit "maj") nodes.
Proof. exact self_demo. Qed.

(** * What C44 does not hold of *)
(** Macros reached in two ways: the value is made of references to macros and of literals. *)
Theorem C134_refuted : exists U : Unicode, ~ updates_right U (fun ex es pos value requested => requested <> [] /\ value <> [] /\ made_of value (fun n => literal n \/ exists name, reference n name /\ known es pos name)).
Proof. exists unicode_none. exact shared_refuted. Qed.
Print Assumptions C134_refuted.
(** The same for a tag referred to by both of its names *)
Theorem C134_case_refuted : exists U : Unicode, ~ updates_right U (fun ex es pos value requested => requested <> [] /\ exists t, es = [t] /\ e_tag t = true).
Proof. exists unicode_none. exact both_names_refuted. Qed.
Print Assumptions C134_case_refuted.
(** Conditional expansions that do not depend on macros of the file *)
Theorem C135_refuted : exists U : Unicode, ~ updates_right U (fun ex es pos value requested => requested <> [] /\ es = [] /\ made_of value (fun n => literal n \/ conditional n)).
Proof. exists unicode_none. exact conditional_refuted. Qed.
Print Assumptions C135_refuted.
(** Macros without braces that are not defined in the file *)
Theorem C136_refuted : exists U : Unicode, ~ updates_right U (fun ex es pos value requested => requested <> [] /\ es = [] /\ made_of value (fun n => literal n \/ exists p name, n = MacroSubstitution p name)).
Proof. exists unicode_none. exact bare_refuted. Qed.
Print Assumptions C136_refuted.
(** The empty text *)
Theorem C137_refuted : exists U : Unicode, ~ updates_right U (fun ex es pos value requested => requested = [] /\ separate ex es pos value).
Proof. exists unicode_none. exact empty_refuted. Qed.
Print Assumptions C137_refuted.
(** Macros whose names start with "sub_" *)
Theorem C138_refuted : exists U : Unicode, ~ updates_right U (fun ex es pos value requested => requested <> [] /\ exists m t, es = [m] /\ e_tag m = false /\ e_name m = lit "sub_" ++ t).
Proof. exists unicode_none. exact sub_refuted. Qed.
Print Assumptions C138_refuted.
(** Macros named like a tag in mixed case: all conditions but this one are met. *)
Theorem C139_refuted : exists U : Unicode, exists ex isid es pos value requested es' r,
  (forall e, In e es -> e_flip e = false) /\ (forall t, In t es -> e_tag t = true -> lower (e_name t) = e_name t /\ lower (upper (e_name t)) = e_name t) /\
  separate ex es pos value /\ requested <> [] /\ ~ In PCT requested /\ ~ In LF requested /\
  update (fun s (w : unit) => (w, ex s)) isid (S pos) value requested pos es tt = (tt, Ok (es', r)) /\ ~ text_evaluates ex es' pos r requested.
Proof. exists unicode_none. exact mixed_refuted. Qed.
Print Assumptions C139_refuted.
