(** Theorems about options as a mapping and about all positional arguments (C24, C191 to C197). *)
From Coq Require Import Ascii String.
From Coq Require Import NArith ZArith List Bool.
From Verif Require Import PyStr M_value M_options M_options2 Spec_options Spec_options2 P_options2 P_options6 Properties_options.
Import ListNotations.
Open Scope N_scope.

(** * C24 *)
(** An option that takes an argument and has none shows True. *)
Theorem C24_missing_argument : forall (U : Unicode) os ds x t y c, t_value t = [DASH; c] -> takes_argument os c -> no_argument y ->
  (forall u, In u y -> forall v, t_value u <> DASH :: c :: v) ->
  opt_get (mk_opts (x ++ t :: y) os ds) c = Ok (VBool true).
Proof. exact @missing_argument. Qed.
Print Assumptions C24_missing_argument.
Example C24_missing_example : no_argument [mk_token WHITESPACE [SPC]; mk_token DEFAULT (lit "-R")] /\
  @opt_get unicode_none (mk_opts [mk_token DEFAULT (lit "-b"); mk_token WHITESPACE [SPC]; mk_token DEFAULT (lit "-R")] ex_os []) 98 = Ok (VBool true).
Proof. split; [apply N_space_option; [reflexivity|eexists; reflexivity]|vm_compute; reflexivity]. Qed.

(** * C191: texts that start with a dash *)
(** Such a text is accepted as the value of an option that is not there yet, and never read back. *)
Theorem C191_dashed_values_refuted : forall (U : Unicode) os ds l its c s, cmdline os l its -> takes_argument os c ->
  lookup_opt c its = None -> dashed s ->
  exists o', opt_set (mk_opts l os ds) c (VStr s) = Ok o' /\ opt_get o' c <> Ok (VStr s).
Proof. exact @dashed_value. Qed.
Print Assumptions C191_dashed_values_refuted.
Example C191_example : dashed (lit "-orig") /\
  match opt_set (mk_opts [mk_token DEFAULT (lit "-p1")] ex_os []) 98 (VStr (lit "-orig")) with
  | Ok o => (tokens_str (o_tokens o), @opt_get unicode_none o 98) | Err e => ([], Err e) end = (lit "-p1 -b -orig", Ok (VBool true)).
Proof. split; [eexists; reflexivity|vm_compute; reflexivity]. Qed.

(** * C192: the options of a mapping *)
(** Listing the options gives the known ones that occur, in the order of the option string, each once. *)
Theorem C192_listed : forall os ds l its, cmdline os l its -> opt_iter (mk_opts l os ds) = filter (mentioned its) (letters os).
Proof. exact iter_spec. Qed.
Print Assumptions C192_listed.
(** Their number is len(options), for any tokens. *)
Theorem C192_number : forall os ds l, (forall t, In t l -> t_type t = WHITESPACE -> ~ dashed (t_value t)) -> NoDup (letters os) ->
  opt_len (mk_opts l os ds) = length (opt_iter (mk_opts l os ds)).
Proof. exact len_spec. Qed.
Print Assumptions C192_number.
(** options[c] is options.c *)
Theorem C192_item : forall (U : Unicode) attribute l os ds c, attribute [c] = false -> known os c ->
  getitem attribute (mk_opts l os ds) [c] = let! v := opt_get (mk_opts l os ds) c in Ok (Some v).
Proof. exact @getitem_char. Qed.
Print Assumptions C192_item.
Lemma ex_nodup : NoDup (letters ex_os).
Proof. vm_compute. repeat (constructor; [cbn; intuition discriminate|]). constructor. Qed.
Example C192_example : (forall t, In t ex_tokens -> t_type t = WHITESPACE -> ~ dashed (t_value t)) /\ NoDup (letters ex_os) /\
  opt_iter (mk_opts ex_tokens ex_os []) = lit "bpR" /\ opt_len (mk_opts ex_tokens ex_os []) = 3%nat /\
  opt_iter (mk_opts [mk_token DEFAULT (lit "-R"); mk_token WHITESPACE [SPC]; mk_token DEFAULT (lit "-z"); mk_token WHITESPACE [SPC]; mk_token DEFAULT (lit "-R")] ex_os []) = lit "R".
Proof. split; [exact (cmdline_spaces _ _ _ ex_cmdline)|]. split; [exact ex_nodup|]. vm_compute. auto. Qed.

(** * C193: which options are in the mapping *)
(** [c in options] is true for every known option, and get() never uses its default, whether it is listed or not. *)
Theorem C193_membership_refuted : forall (U : Unicode) attribute l os ds c v, attribute [c] = false -> known os c ->
  opt_get (mk_opts l os ds) c = Ok v -> contains_key attribute (mk_opts l os ds) [c] = Ok true /\
  forall d, get_or attribute (mk_opts l os ds) [c] d = Ok (Some v).
Proof. exact @contains_always. Qed.
Print Assumptions C193_membership_refuted.
Example C193_example : known ex_os 82 /\ ~ In 82 (opt_iter (mk_opts [] ex_os [])) /\
  @contains_key unicode_none (fun _ => false) (mk_opts [] ex_os []) [82] = Ok true.
Proof. split; [split; [vm_compute; tauto|discriminate]|]. split; [vm_compute; tauto|vm_compute; reflexivity]. Qed.

(** * C194: names that are no options *)
(** The option string of %setup: looking up "ab" raises ValueError. *)
Theorem C194_unknown_names_refuted : forall (U : Unicode) attribute ds, attribute (lit "ab") = false ->
  getitem attribute (mk_opts [] (lit "a:b:cDn:Tq") ds) (lit "ab") = Err ValueError /\
  contains_key attribute (mk_opts [] (lit "a:b:cDn:Tq") ds) (lit "ab") = Err ValueError.
Proof. intros U attribute ds A. unfold contains_key, getitem. rewrite A. auto. Qed.
Print Assumptions C194_unknown_names_refuted.
(** Names that are neither attributes nor part of the letters raise KeyError, and get() gives its default. *)
Theorem C194_other_names : forall (U : Unicode) attribute o key, attribute key = false -> is_substring key (letters (o_optstring o)) = false ->
  getitem attribute o key = Err KeyError /\ contains_key attribute o key = Ok false /\ forall d, get_or attribute o key d = Ok (Some d).
Proof. intros U attribute o key A S. unfold contains_key, get_or, getitem. rewrite A. unfold optchars, letters in *. rewrite S. auto. Qed.
Print Assumptions C194_other_names.
Example C194_example : is_substring (lit "zz") (letters (lit "a:b:cDn:Tq")) = false.
Proof. reflexivity. Qed.

(** * C195: assigning all positional arguments *)
Theorem C195_assign_positionals : forall (U : Unicode) os ds l its vs, cmdline os l its -> positionals_ok its ->
  Forall (fun v => ~ dashed (oval_str v)) vs ->
  exists o', set_positional (mk_opts l os ds) vs = Ok o' /\ pos_list o' = map oval_str vs /\
    forall c, opt_get o' c = opt_get (mk_opts l os ds) c.
Proof. exact @set_positional_reads. Qed.
Print Assumptions C195_assign_positionals.
Example C195_example : @positionals_ok unicode_none ex_items /\ Forall (fun v => ~ dashed (oval_str v)) [VStr (lit "a b"); VInt 7] /\
  match @set_positional unicode_none (mk_opts ex_tokens ex_os []) [VStr (lit "a b"); VInt 7] with Ok o => tokens_str (o_tokens o) | _ => [] end
  = lit "-p1 -b 'a b' -R " ++ [DQUOTE] ++ lit "a b" ++ [DQUOTE] ++ lit " 7".
Proof.
  split; [intros v [<-|[]]; eexists; vm_compute; reflexivity|]. split; [|vm_compute; reflexivity].
  constructor; [now apply nd|]. constructor; [now apply nd|constructor].
Qed.

(** * C196: adding positional arguments in place *)
(** [options.positional += values] removes all positional arguments, the old ones and the new ones. *)
Theorem C196_positional_iadd_refuted : forall (U : Unicode) n os ds l its vs, cmdline os l its -> positionals_ok its ->
  Forall (fun v => ~ dashed (oval_str v) /\ value_ok (oval_str v)) vs ->
  exists o', positional_iadd n (mk_opts l os ds) vs = Ok o' /\ pos_list o' = [] /\
    forall c, opt_get o' c = opt_get (mk_opts l os ds) c.
Proof. exact @iadd_clears. Qed.
Print Assumptions C196_positional_iadd_refuted.
Example C196_example :
  match @positional_iadd unicode_none 5 (mk_opts ex_tokens ex_os []) [VStr (lit "y")] with Ok o => tokens_str (o_tokens o) | _ => [] end = lit "-p1 -b 'a b' -R".
Proof. vm_compute. reflexivity. Qed.

(** * C197: clear() *)
(** Removes every known option, keeps positional arguments and unknown options in their order. *)
Theorem C197_clear : forall (U : Unicode) os ds l its, cmdline os l its -> arguments_ok its ->
  exists l', opt_clear (mk_opts l os ds) = Ok (mk_opts l' os ds) /\ cmdline os l' (without_known os its).
Proof. exact @clear_spec. Qed.
Print Assumptions C197_clear.
Example C197_example : @arguments_ok unicode_none ex_items /\ without_known ex_os ex_items = [IPos (lit "x")] /\
  match @opt_clear unicode_none (mk_opts ex_tokens ex_os []) with Ok o => tokens_str (o_tokens o) | _ => [] end = lit " x".
Proof.
  split; [|vm_compute; auto]. intros c v I. cbn in I. repeat (destruct I as [E|I]; [inversion E; subst; eexists; vm_compute; reflexivity|]). destruct I.
Qed.
