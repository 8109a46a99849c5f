(** Theorems about the %prep section (C33, C34, C84 to C87).  [kept], [holds], [other_kept], [patch_macro], [patch_number],
    [patch_numbers], [growing] and [good_options] are specified in Spec_prep.v; [parse] reads a section, [prep_raw] is its text. *)
From Coq Require Import Ascii String.
From Coq Require Import NArith ZArith List Bool.
From Verif Require Import PyStr M_value M_options Spec_value Spec_options M_prep Spec_prep P_options2 P_prep P_prep2 P_prep3.
Import ListNotations.
Open Scope N_scope.

(** * C33 *)
(** Sections of ordinary lines are read without failure and written back to the letter; the macros are those of the lines. *)
Theorem C33_round_trip : forall (U : Unicode) infos lines, Forall2 kept infos lines ->
  exists p, parse lines = Ok p /\ prep_raw p = lines /\ Forall2 holds (macros_of infos) (p_macros p).
Proof. exact @parse_round_trip. Qed.
Print Assumptions C33_round_trip.
(** In any section, lines that hold no macro and are not wrapped stay where they are. *)
Theorem C33_other_lines : forall (U : Unicode) lines p, parse lines = Ok p -> Forall2 other_kept lines (prep_raw p).
Proof. exact @parse_keeps_others. Qed.
Print Assumptions C33_other_lines.
(** The ways reading can fail. *)
Theorem C33_failures : forall (U : Unicode) lines e, parse lines = Err e ->
  e = OptionsException \/ e = ValueError \/ e = UnterminatedMacroException.
Proof. exact (fun U lines e => @parse_errors U lines [] [] e). Qed.
Print Assumptions C33_failures.

Definition ex_prep : list str := [lit "%autosetup -N"; lit "echo 1"; lit "%patch 0 -p1"; lit "%patch12"; lit "%{?fedora:%patch -P 20}"; lit "ls"].
Definition ex_infos : list (option (str * str)) :=
  [Some (lit "%autosetup", lit "-N"); None; Some (lit "%patch", lit "0 -p1"); Some (lit "%patch12", []); Some (lit "%patch", lit "-P 20"); None].
Ltac canon := repeat (first [apply C_space; [vm_compute; reflexivity|]
   | apply C_plain; [discriminate|discriminate|repeat (constructor; [vm_compute; auto|]); constructor|]]); apply C_nil.
Ltac canon_text l := exists l; split; [vm_compute; reflexivity|]; split; [vm_compute; reflexivity|]; unfold atoms; cbn [flat_map map app lit list_ascii_of_string]; canon.
Ltac no := vm_compute; intuition discriminate.
Ltac macro_here := split; [reflexivity|]; split; [first [left; cbn; tauto|right; eexists; split; [reflexivity|repeat constructor]]|];
  split; [intros; apply Nat.le_0_l|]; split; [repeat constructor|];
  split; [intros ? ? Q; first [discriminate Q|injection Q as <- <-; reflexivity]|].
Example C33_example : Forall2 (@kept unicode_none) ex_infos ex_prep.
Proof.
  unfold ex_infos, ex_prep. constructor; [|constructor; [|constructor; [|constructor; [|constructor; [|constructor; [|constructor]]]]]].
  - apply (K_macro _ [] _ [SPC]); [no|apply no_brace_unwrapped; no| |discriminate|canon_text [StringLiteral (lit "-N")]].
    macro_here. discriminate.
  - apply K_other; [no|apply no_brace_unwrapped; no|apply mentions_dec; reflexivity].
  - apply (K_macro _ [] _ [SPC]); [no|apply no_brace_unwrapped; no| |discriminate|canon_text [StringLiteral (lit "0 -p1")]].
    macro_here. intros ds c o _ Q. injection Q as <- <-. reflexivity.
  - apply (K_macro _ [] (lit "%patch12") [] []); [no|apply no_brace_unwrapped; no| |congruence|canon_text (@nil node)].
    macro_here. discriminate.
  - apply (K_wrapped _ (lit "%{?fedora:") (lit "%patch -P 20") [] _ [SPC]); [no|reflexivity|vm_compute; reflexivity| |discriminate|canon_text [StringLiteral (lit "-P 20")]].
    macro_here. intros ds c o _ Q. injection Q as <- <-. reflexivity.
  - apply K_other; [no|apply no_brace_unwrapped; no|apply mentions_dec; reflexivity].
Qed.
Example C33_other_example : unwrapped (lit "echo 1") /\ ~ mentions_macro (lit "echo 1").
Proof. split; [apply no_brace_unwrapped; no|apply mentions_dec; reflexivity]. Qed.
Example C33_failure_example : @parse unicode_none [lit "%setup -n 'a"] = Err OptionsException.
Proof. vm_compute. reflexivity. Qed.

(** * C84: conditional wrappers around other commands *)
Theorem C84_wrapped_command_refuted : exists lines p, @parse unicode_none lines = Ok p /\
  lines = [lit "%{?fedora:echo}"] /\ prep_raw p = [lit "echo"].
Proof. exists [lit "%{?fedora:echo}"], (mk_prep [] [lit "echo"]). repeat split. Qed.
Print Assumptions C84_wrapped_command_refuted.

(** * C34 *)
(** remove_patch_macro(n) removes the line of the first %patch with the number n and keeps every other line,
    if this is not the first macro of the section (see C85 for that). *)
Theorem C34_remove : forall (U : Unicode) p a m b n, p_macros p = a ++ m :: b -> a <> [] -> m_kind m = Patch -> number m = Ok n ->
  (forall x, In x a -> m_kind x = Patch -> exists k, number x = Ok k /\ k <> n) ->
  exists p' before after, remove_patch_macro p n = Ok p' /\ map macro_line (p_macros p') = map macro_line (a ++ b) /\
    prep_raw p = before ++ [macro_line m] ++ after /\ prep_raw p' = before ++ after /\
    before = flat_map macro_raw a ++ m_preceding m.
Proof. exact @remove_first_spec. Qed.
Print Assumptions C34_remove.
Theorem C34_remove_absent : forall (U : Unicode) p n,
  (forall x, In x (p_macros p) -> m_kind x = Patch -> exists k, number x = Ok k /\ k <> n) -> remove_patch_macro p n = Ok p.
Proof. exact @remove_absent. Qed.
Print Assumptions C34_remove_absent.
(** [del prep.name] removes the line of the first macro of that name and keeps every other line. *)
Theorem C34_delete_by_name : forall p a m b name, p_macros p = a ++ m :: b -> m_name m = PCT :: name -> prep_attribute name ->
  Forall (fun x => m_name x <> PCT :: name) a ->
  exists p' before after, delattr p name = Some (Ok p') /\ map macro_line (p_macros p') = map macro_line (a ++ b) /\
    prep_raw p = before ++ [macro_line m] ++ after /\ prep_raw p' = before ++ after /\ before = flat_map macro_raw a ++ m_preceding m.
Proof. exact delattr_named. Qed.
Print Assumptions C34_delete_by_name.
(** [prep.name] is the first macro of that name; reading or deleting an absent one is an AttributeError. *)
Theorem C34_get_by_name : forall p a m b name, p_macros p = a ++ m :: b -> m_name m = PCT :: name -> prep_attribute name ->
  Forall (fun x => m_name x <> PCT :: name) a -> getattr p name = Some (Ok m).
Proof. exact getattr_first. Qed.
Print Assumptions C34_get_by_name.
Theorem C34_absent_name : forall p name, prep_attribute name -> Forall (fun x => m_name x <> PCT :: name) (p_macros p) ->
  getattr p name = Some (Err AttributeError) /\ delattr p name = Some (Err AttributeError).
Proof. exact getattr_absent. Qed.
Print Assumptions C34_absent_name.
(** [name in prep]; "%patch" stands for a %patch of any number. *)
Theorem C34_contains : forall p name, contains p name = true <->
  exists m, In m (p_macros p) /\ (m_name m = name \/ name = lit "%patch" /\ exists x, m_name m = name ++ x).
Proof. exact contains_iff. Qed.
Print Assumptions C34_contains.
(** Deleting a slice removes exactly the lines of its macros; [gone] lists their indices from the last to the first. *)
Theorem C34_delete_slice : forall gone p, falling gone -> Forall (fun i => (i < length (p_macros p))%nat) gone ->
  exists p', delete_all p gone = Ok p' /\ prep_raw p' = lines_without gone 0 (p_macros p) ++ p_remainder p /\
    length (p_macros p') = (length (p_macros p) - length gone)%nat.
Proof. exact delete_slice. Qed.
Print Assumptions C34_delete_slice.
Definition ex_parsed : prep := match @parse unicode_none ex_prep with Ok p => p | Err _ => mk_prep [] [] end.
Example C34_example : exists a m b, p_macros ex_parsed = a ++ m :: b /\ length a = 2%nat /\ m_kind m = Patch /\ @number unicode_none m = Ok 12%Z /\
  (forall x, In x a -> m_kind x = Patch -> exists k, @number unicode_none x = Ok k /\ k <> 12%Z) /\
  match @remove_patch_macro unicode_none ex_parsed 12 with Ok p => prep_raw p | _ => [] end =
    [lit "%autosetup -N"; lit "echo 1"; lit "%patch 0 -p1"; lit "%{?fedora:%patch -P 20}"; lit "ls"].
Proof.
  eexists [_; _], _, [_]. split; [vm_compute; reflexivity|]. split; [reflexivity|]. split; [reflexivity|]. split; [vm_compute; reflexivity|].
  split; [|vm_compute; reflexivity]. intros x [<-|[<-|[]]]; [discriminate|]. intros _. exists 0%Z. split; [vm_compute; reflexivity|discriminate].
Qed.

Example C34_slice_example : falling [3; 1]%nat /\ Forall (fun i => (i < length (p_macros ex_parsed))%nat) [3; 1]%nat /\
  match delete_all ex_parsed [3; 1]%nat with Ok p => prep_raw p | _ => [] end = lines_without [3; 1]%nat 0 (p_macros ex_parsed) ++ p_remainder ex_parsed /\
  contains ex_parsed (lit "%patch") = true /\ contains ex_parsed (lit "%setup") = false /\ prep_attribute (lit "patch12").
Proof.
  split; [cbn; repeat constructor|]. split; [vm_compute; repeat constructor|]. split; [vm_compute; reflexivity|]. split; [vm_compute; reflexivity|].
  split; [vm_compute; reflexivity|]. right. exists (lit "12"). reflexivity.
Qed.

(** * C95: deleting by a negative index *)
(** [del prep.macros[-1]] moves the lines above the deleted macro in front of the previous macro and its lines. *)
Theorem C95_negative_index_refuted : forall a x m r, delete (mk_prep (a ++ [x; m]) r) (-1) =
  Ok (mk_prep (a ++ [with_preceding (m_preceding m ++ m_preceding x) x]) r).
Proof. exact delete_negative. Qed.
Print Assumptions C95_negative_index_refuted.
(** Deleting the only macro this way is an IndexError. *)
Theorem C95_only_macro_refuted : forall m r, delete (mk_prep [m] r) (-1) = Err IndexError.
Proof. reflexivity. Qed.
Print Assumptions C95_only_macro_refuted.
Example C95_example : exists p p', @parse unicode_none [lit "%setup"; lit "echo"; lit "%patch1"] = Ok p /\ delete p (-1) = Ok p' /\
  prep_raw p' = [lit "echo"; lit "%setup"].
Proof. eexists _, _. split; [vm_compute; reflexivity|]. split; [vm_compute; reflexivity|]. vm_compute. reflexivity. Qed.

(** * C85: the first macro of the section *)
Theorem C85_first_macro_stays_refuted : forall (U : Unicode) p m b n, p_macros p = m :: b -> m_kind m = Patch -> number m = Ok n ->
  remove_patch_macro p n = Ok p.
Proof. exact @remove_front. Qed.
Print Assumptions C85_first_macro_stays_refuted.
Example C85_example : exists p, @parse unicode_none [lit "%patch1 -p1"] = Ok p /\ @remove_patch_macro unicode_none p 1 = Ok p /\
  prep_raw p = [lit "%patch1 -p1"].
Proof. eexists. split; [vm_compute; reflexivity|]. split; vm_compute; reflexivity. Qed.

(** * C86: adding a patch macro *)
(** The text gains exactly one line. *)
Theorem C86_one_line : forall (U : Unicode) p num old kw m n ns, new_patch num old kw = Ok m -> number m = Ok n -> patch_numbers (p_macros p) ns ->
  exists p' a b, add_patch_macro p num old kw = Ok p' /\ prep_raw p = a ++ b /\ prep_raw p' = a ++ [macro_line m] ++ b.
Proof. exact @add_lines. Qed.
Print Assumptions C86_one_line.
(** The macro goes where its number belongs. *)
Theorem C86_in_order : forall (U : Unicode) p num old kw m n ns, new_patch num old kw = Ok m -> number m = Ok n -> patch_numbers (p_macros p) ns ->
  exists a b n1 n2, p_macros p = a ++ b /\ add_patch_macro p num old kw = Ok (mk_prep (a ++ m :: b) (p_remainder p)) /\
    ns = n1 ++ n2 /\ patch_numbers a n1 /\ patch_numbers b n2 /\ (ns = [] -> b = []) /\
    (growing ns -> ~ In n ns -> growing (n1 ++ n :: n2)).
Proof. exact @add_spec. Qed.
Print Assumptions C86_in_order.
(** The new macro has the number and the options asked for, and no others. *)
Theorem C86_new_macro : forall (U : Unicode) n old kw, (0 <= n)%Z -> good_options kw -> (old = false -> ~ In 80 (map fst kw)) ->
  exists m ds its, new_patch (Some n) old kw = Ok m /\ patch_macro m ds its /\ patch_number ds its n /\
    ds = (if old then zdec n else []) /\ positionals its = (if old then [] else [zdec n]) /\
    m_preceding m = [] /\ m_prefix m = [] /\ m_suffix m = [] /\
    (forall c v, In (c, v) kw -> lookup_opt c its = Some (arg_of v)) /\
    (forall c, ~ In c (map fst kw) -> lookup_opt c its = None).
Proof. exact @new_patch_spec. Qed.
Print Assumptions C86_new_macro.
Theorem C86_text : forall n, (0 <= n)%Z ->
  (exists m, new_patch (Some n) false [] = Ok m /\ macro_line m = lit "%patch " ++ zdec n) /\
  (exists m, new_patch (Some n) true [] = Ok m /\ macro_line m = lit "%patch" ++ zdec n ++ [SPC]).
Proof. exact (@new_patch_text unicode_none). Qed.
Print Assumptions C86_text.
Example C86_example : @patch_numbers unicode_none (p_macros ex_parsed) [0%Z; 12%Z; 20%Z] /\ growing [0%Z; 12%Z; 20%Z] /\
  good_options [(112, VInt 1)] /\
  match @add_patch_macro unicode_none ex_parsed (Some 13%Z) false [(112, VInt 1)] with Ok p => prep_raw p | _ => [] end =
    [lit "%autosetup -N"; lit "echo 1"; lit "%patch 0 -p1"; lit "%patch12"; lit "%patch 13 -p1"; lit "%{?fedora:%patch -P 20}"; lit "ls"].
Proof.
  split; [unfold patch_numbers; match goal with |- Forall2 _ ?l _ => let l' := eval vm_compute in l in change l with l' end;
    repeat (constructor; [vm_compute; reflexivity|]); constructor|]. split; [cbn; repeat split; repeat constructor|].
  split; [|vm_compute; reflexivity]. split; [|repeat constructor; easy]. constructor; [|constructor]. split; [split; [cbn; auto|discriminate]|]. split; [discriminate|].
  exists (lit "P:"), (lit "REb:z:F:d:o:Z"). split; [reflexivity|no].
Qed.

(** * C87: the number of a patch macro *)
(** It is the number in the name, or the argument of -P, or the first positional argument, or 0. *)
Theorem C87_number : forall (U : Unicode) m ds its n, patch_macro m ds its -> patch_number ds its n -> number m = Ok n.
Proof. exact @number_spec. Qed.
Print Assumptions C87_number.
(** Assigning a number changes the number and nothing else: it is read back, other options and arguments stay. *)
Theorem C87_assign : forall (U : Unicode) m ds its n z, patch_macro m ds its -> patch_number ds its n -> (0 <= z)%Z ->
  exists m' ds' its', set_number m z = Ok m' /\ patch_macro m' ds' its' /\ patch_number ds' its' z /\
    (forall d, d <> 80 -> lookup_opt d its' = lookup_opt d its) /\
    tl (positionals its') = tl (positionals its) /\
    m_preceding m' = m_preceding m /\ m_prefix m' = m_prefix m /\ m_suffix m' = m_suffix m.
Proof. exact @set_number_spec. Qed.
Print Assumptions C87_assign.
Example C87_example : exists m m', nth_error (p_macros ex_parsed) 1 = Some m /\
  @patch_macro unicode_none m [] [IPos (lit "0"); IOpt 112 (Some (lit "1"))] /\
  @patch_number unicode_none [] [IPos (lit "0"); IOpt 112 (Some (lit "1"))] 0%Z /\
  @set_number unicode_none m 7 = Ok m' /\ macro_line m' = lit "%patch 7 -p1".
Proof.
  eexists _, _. split; [vm_compute; reflexivity|]. split; [|split; [|split; [vm_compute; reflexivity|vm_compute; reflexivity]]].
  - split; [reflexivity|]. split; [reflexivity|]. split; [constructor|]. split; [reflexivity|]. split; [reflexivity|]. cbn [m_opts o_optstring o_tokens].
    apply (L_positional _ (mk_token DEFAULT (lit "0"))); [discriminate|intros [v Q]; discriminate|].
    apply L_space; [reflexivity|reflexivity|].
    apply (L_attached _ (mk_token DEFAULT (lit "-p1")) 112 (lit "1")); [discriminate|reflexivity|discriminate|constructor].
  - right; right; left. split; [auto|]. split; [reflexivity|]. exists 0, []. split; reflexivity.
Qed.
