(** Theorems about option strings (C23, C24, C25, C52 to C56). *)
From Coq Require Import Ascii String.
From Coq Require Import NArith ZArith List Bool.
From Verif Require Import PyStr M_value M_options Spec_options P_options P_options2 P_options3 P_options4 P_options5.
Import ListNotations.
Open Scope N_scope.

(** * C23 *)
(** A canonical option string is written back unchanged. *)
Theorem C23_canonical_text_is_kept : forall (U : Unicode) s, canonical_text s ->
  exists l, tokenize s = Ok l /\ tokens_str l = s.
Proof. exact @canonical_round_trip. Qed.
Print Assumptions C23_canonical_text_is_kept.

(** Any sensible token sequence without macros is read back from its text. *)
Theorem C23_tokens_are_read_back : forall (U : Unicode) l, tokens_ok l -> ~ In PCT (tokens_str l) ->
  tokenize (tokens_str l) = Ok l.
Proof. exact @tokens_round_trip. Qed.
Print Assumptions C23_tokens_are_read_back.

(** Tokenising fails only with OptionsException or because macros are not terminated. *)
Theorem C23_failures : forall (U : Unicode) s e, tokenize s = Err e -> e = OptionsException \/ parse s = Err e.
Proof. exact @tokenize_errors. Qed.
Print Assumptions C23_failures.

(** A text is read exactly when its quotes are closed and no backslash ends it. *)
Theorem C23_readable_texts : forall (U : Unicode) s ns, parse s = Ok ns -> ((exists l, tokenize s = Ok l) <-> well_quoted (atoms ns)).
Proof. exact @tokenize_fine. Qed.
Print Assumptions C23_readable_texts.

Definition ex_text : str := lit "-p1 -b 'a b' \" ++ [DQUOTE] ++ lit " %{x}".
Example C23_canonical_example : @canonical_text unicode_none ex_text.
Proof.
  exists [StringLiteral (lit "-p1 -b 'a b' \" ++ [DQUOTE] ++ lit " "); EnclosedMacroSubstitution [] (lit "x") []].
  split; [vm_compute; reflexivity|]. split; [vm_compute; reflexivity|].
  unfold atoms; cbn [flat_map map app lit list_ascii_of_string].
  repeat match goal with
  | |- canonical ([SQUOTE] :: ?a :: ?b :: ?c :: [SQUOTE] :: ?t) =>
      apply (C_quoted SQUOTE [a; b; c] t); [reflexivity|discriminate| |]
  end.
  repeat (first [ apply C_space; [vm_compute; reflexivity|]
                | apply (C_quoted _ [[_]; [_]; [_]]); [vm_compute; reflexivity|discriminate|
                    repeat (apply Q_atom; [discriminate|vm_compute; intuition discriminate|discriminate|]); apply Q_nil|]
                | apply C_escape; [vm_compute; intuition|]
                | apply C_plain; [discriminate|discriminate|repeat (constructor; [vm_compute; auto|]); constructor|] ]).
  apply C_nil.
Qed.
Example C23_tokens_example : tokens_ok [mk_token DEFAULT (lit "-b"); mk_token WHITESPACE [SPC]; mk_token QUOTED (lit "a b")]
  /\ tokens_str [mk_token DEFAULT (lit "-b"); mk_token WHITESPACE [SPC]; mk_token QUOTED (lit "a b")] = lit "-b 'a b'".
Proof.
  split; [|reflexivity]. cbn. repeat split; try discriminate.
  - vm_compute. intuition discriminate.
  - repeat (apply V_char; [discriminate|]). apply V_nil.
Qed.
Example C23_failure_example : @tokenize unicode_none (lit "-b 'a") = Err OptionsException.
Proof. vm_compute. reflexivity. Qed.

(** * C24 *)
(** Options and positional arguments are those the command line says. *)
Theorem C24_options_read : forall (U : Unicode) os ds l its c, cmdline os l its ->
  opt_get (mk_opts l os ds) c =
    match lookup_opt c its with
    | Some (Some v) => number_or_text v
    | Some None => Ok (VBool true)
    | None => if requires_in os c then Ok (match find (fun p => fst p =? c) ds with Some p => snd p | None => VNone end)
              else Ok (VBool false)
    end.
Proof. exact @opt_get_spec. Qed.
Print Assumptions C24_options_read.
Theorem C24_positionals_read : forall os ds l its, cmdline os l its -> pos_list (mk_opts l os ds) = positionals its.
Proof. exact positionals_spec. Qed.
Print Assumptions C24_positionals_read.

(** The value set is read back, other options and positional arguments stay, the result is a command line again. *)
Theorem C24_set_then_get : forall (U : Unicode) os ds l its c v, cmdline os l its -> known os c -> settable os c v ->
  match v with VStr s => str_isnumeric s = false | _ => True end ->
  (v = VBool true -> lookup_opt c its = None) ->
  exists o', opt_set (mk_opts l os ds) c v = Ok o' /\ opt_get o' c = Ok v /\
    (forall d, d <> c -> opt_get o' d = opt_get (mk_opts l os ds) d) /\ pos_list o' = pos_list (mk_opts l os ds).
Proof. exact @set_then_get. Qed.
Print Assumptions C24_set_then_get.
Theorem C24_set_changes_one_item : forall os ds l its c v, cmdline os l its -> known os c -> settable os c v ->
  (v = VBool true -> lookup_opt c its = None) ->
  exists l' its', opt_set (mk_opts l os ds) c v = Ok (mk_opts l' os ds) /\ item_set c (arg_of v) its its' /\ cmdline os l' its'.
Proof. exact opt_set_spec. Qed.
Print Assumptions C24_set_changes_one_item.

(** Assignments are refused exactly when the value does not fit the option. *)
Theorem C24_refused : forall os ds l c v, (exists e, opt_set (mk_opts l os ds) c v = Err e) <-> does_not_fit os c v.
Proof. exact set_refused. Qed.
Print Assumptions C24_refused.
Theorem C24_refused_error : forall os ds l c v e, opt_set (mk_opts l os ds) c v = Err e -> e = OptionsException.
Proof. exact set_refused_error. Qed.
Print Assumptions C24_refused_error.

Definition ex_os : str := lit "b:p:R".
Definition ex_tokens : list token :=
  [mk_token DEFAULT (lit "-p1"); mk_token WHITESPACE [SPC]; mk_token DEFAULT (lit "-b"); mk_token WHITESPACE [SPC];
   mk_token QUOTED (lit "a b"); mk_token WHITESPACE [SPC]; mk_token DEFAULT (lit "-R"); mk_token WHITESPACE [SPC]; mk_token DEFAULT (lit "x")].
Definition ex_items : list item :=
  [IOpt 112 (Some (lit "1")); IOpt 98 (Some (lit "a b")); IOpt 82 None; IPos (lit "x")].
Lemma takes_b : takes_argument ex_os 98.
Proof. exists [], (lit "p:R"). split; [reflexivity|auto]. Qed.
Lemma takes_R : ~ takes_argument ex_os 82.
Proof. intros K. apply takes_req in K. discriminate. Qed.
Lemma nd (s : str) : hd 0 s <> DASH -> ~ dashed s.
Proof. intros N [v ->]. now apply N. Qed.
Example ex_cmdline : cmdline ex_os ex_tokens ex_items.
Proof.
  apply (L_attached _ _ 112 (lit "1")); [discriminate|reflexivity|discriminate|].
  apply L_space; auto. apply (L_separate _ (mk_token DEFAULT (lit "-b")) 98 (mk_token WHITESPACE [SPC]) (mk_token QUOTED (lit "a b")));
    auto; try discriminate; [split; [cbn; auto|discriminate]|apply takes_b|now apply nd|].
  apply L_space; auto. apply L_flag; [discriminate|reflexivity|apply takes_R|].
  apply L_space; auto. apply (L_positional _ (mk_token DEFAULT (lit "x"))); [discriminate|now apply nd|]. constructor.
Qed.
Example ex_tokens_text : @tokenize unicode_none (lit "-p1 -b 'a b' -R x") = Ok ex_tokens.
Proof. vm_compute. reflexivity. Qed.
Example C24_example : known ex_os 98 /\ settable ex_os 98 (VStr (lit "c d")) /\ @str_isnumeric unicode_none (lit "c d") = false
  /\ match opt_set (mk_opts ex_tokens ex_os []) 98 (VStr (lit "c d")) with Ok o => tokens_str (o_tokens o) | _ => [] end = lit "-p1 -b 'c d' -R x".
Proof.
  split; [split; [cbn; auto|discriminate]|]. split; [split; [discriminate|split; [now apply nd|apply takes_b]]|]. split; vm_compute; reflexivity.
Qed.

Example C24_example_refused : does_not_fit ex_os 98 (VBool true) /\ does_not_fit ex_os 82 (VInt 1).
Proof. split; [exact takes_b|exact takes_R]. Qed.
Example C23_example_readable : ~ well_quoted (map (fun c => [c]) (lit "-b 'a")) /\ well_quoted (map (fun c => [c]) (lit "-b 'a'")).
Proof.
  split.
  - intros W. assert (E : @parse unicode_none (lit "-b 'a") = Ok [StringLiteral (lit "-b 'a")]) by (vm_compute; reflexivity).
    apply (@tokenize_fine unicode_none _ _ E) in W as (l & Q). vm_compute in Q. discriminate.
  - repeat (apply W_atom; [discriminate|discriminate|discriminate|]). apply (W_quoted SQUOTE [lit "a"] []); [reflexivity| |constructor].
    apply I_atom; [discriminate|discriminate|constructor].
Qed.

(** * C25 *)
Theorem C25_delete_option_with_argument : forall os ds l its c v, cmdline os l its -> lookup_opt c its = Some (Some v) ->
  exists a x b i1 i2 w, l = a ++ x ++ b /\ opt_del (mk_opts l os ds) c = mk_opts (a ++ b) os ds /\
    its = i1 ++ IOpt c (Some v) :: i2 /\ lookup_opt c i2 = None /\ cmdline os (a ++ b) (i1 ++ i2) /\
    (exists m, shape os c m (Some v) /\ (x = m \/ x = w :: m \/ (a = [] /\ x = m ++ [w]))) /\ t_type w = WHITESPACE.
Proof. exact opt_del_spec. Qed.
Print Assumptions C25_delete_option_with_argument.
Theorem C25_others_stay : forall (U : Unicode) os ds l its c v, cmdline os l its -> lookup_opt c its = Some (Some v) ->
  let o := mk_opts l os ds in let o' := opt_del o c in
  (forall d, d <> c -> opt_get o' d = opt_get o d) /\ pos_list o' = pos_list o /\
  exists i1 i2, its = i1 ++ IOpt c (Some v) :: i2 /\ lookup_opt c i2 = None /\ cmdline os (o_tokens o') (i1 ++ i2).
Proof. exact @del_then_get. Qed.
Print Assumptions C25_others_stay.
Example C25_example : lookup_opt 98 ex_items = Some (Some (lit "a b")) /\
  tokens_str (o_tokens (opt_del (mk_opts ex_tokens ex_os []) 98)) = lit "-p1 -R x".
Proof. vm_compute. auto. Qed.

(** * C52: deleting a flag *)
(** Deleting a flag that is not the first token removes the separator instead. *)
Theorem C52_flag_deletion_refuted : exists os l its c, cmdline os l its /\ lookup_opt c its = Some None /\
  In (mk_token DEFAULT [DASH; c]) (o_tokens (opt_del (mk_opts l os []) c)) /\
  tokens_str l = lit "-p1 -b 'a b' -R x" /\
  tokens_str (o_tokens (opt_del (mk_opts l os []) c)) = lit "-p1 -b 'a b'-R x".
Proof. exists ex_os, ex_tokens, ex_items, 82. split; [exact ex_cmdline|]. vm_compute. intuition. Qed.
Print Assumptions C52_flag_deletion_refuted.

(** * C53: setting a flag that is set *)
Theorem C53_flag_set_twice_refuted : exists os l its c o', cmdline os l its /\ lookup_opt c its = Some None /\
  opt_set (mk_opts l os []) c (VBool true) = Ok o' /\ @opt_get unicode_none o' c = Ok (VStr (lit "True")) /\
  tokens_str (o_tokens o') = lit "-p1 -b 'a b' -RTrue x".
Proof. exists ex_os, ex_tokens, ex_items, 82. eexists. split; [exact ex_cmdline|]. vm_compute. repeat split. Qed.
Print Assumptions C53_flag_set_twice_refuted.

(** * C54: inserting a positional argument in front *)
Theorem C54_insert_first_positional_refuted : exists os l l' l'', cmdline os l [IPos (lit "foo")] /\
  pos_insert (mk_opts l os []) 0 (VStr (lit "x")) = Ok (mk_opts l' os []) /\
  @tokenize unicode_none (tokens_str l') = Ok l'' /\ pos_list (mk_opts l'' os []) = [lit "xfoo"].
Proof.
  exists ex_os, [mk_token DEFAULT (lit "foo")], [mk_token DEFAULT (lit "x"); mk_token DEFAULT (lit "foo")], [mk_token DEFAULT (lit "xfoo")]. split.
  - apply (L_positional _ (mk_token DEFAULT (lit "foo"))); [discriminate|now apply nd|constructor].
  - split; [reflexivity|]. split; vm_compute; reflexivity.
Qed.
Print Assumptions C54_insert_first_positional_refuted.

(** * C55: writing an option string twice *)
Theorem C55_normalisation_refuted : exists s l l',
  @tokenize unicode_none s = Ok l /\ @tokenize unicode_none (tokens_str l) = Ok l' /\ tokens_str l' <> tokens_str l.
Proof.
  exists [97; BSLASH; BSLASH; BSLASH; BSLASH; 98], [mk_token DEFAULT [97; BSLASH; BSLASH; 98]], [mk_token DEFAULT [97; BSLASH; 98]]. split; [vm_compute; reflexivity|].
  split; [vm_compute; reflexivity|]. discriminate.
Qed.
Print Assumptions C55_normalisation_refuted.

(** * C56: positional arguments as a list *)
Theorem C56_get : forall (U : Unicode) os ds l its i, cmdline os l its ->
  pos_get (mk_opts l os ds) i = match py_index (positionals its) i with
                                | None => Err IndexError
                                | Some k => number_or_text (nth k (positionals its) []) end.
Proof. exact @pos_get_spec. Qed.
Print Assumptions C56_get.
Theorem C56_set : forall os ds l its i v k, cmdline os l its -> py_index (positionals its) i = Some k -> ~ dashed (oval_str v) ->
  exists l' i1 old i2, pos_set (mk_opts l os ds) i v = Ok (mk_opts l' os ds) /\ its = i1 ++ IPos old :: i2 /\ length (positionals i1) = k /\
    cmdline os l' (i1 ++ IPos (oval_str v) :: i2).
Proof. exact pos_set_spec. Qed.
Print Assumptions C56_set.
Theorem C56_delete : forall os ds l its i k, cmdline os l its -> py_index (positionals its) i = Some k ->
  exists a x b i1 old i2, pos_del (mk_opts l os ds) i = Ok (mk_opts (a ++ b) os ds) /\ l = a ++ x ++ b /\
    its = i1 ++ IPos old :: i2 /\ length (positionals i1) = k /\ cmdline os (a ++ b) (i1 ++ i2) /\
    exists t w, t_value t = old /\ t_type w = WHITESPACE /\ (x = [t] \/ x = [w; t] \/ (a = [] /\ x = [t; w])).
Proof. exact pos_del_spec. Qed.
Print Assumptions C56_delete.
Theorem C56_insert : forall os ds l its i v k, cmdline os l its -> ~ dashed (oval_str v) ->
  (py_index (positionals its) i = Some k \/ (Z.of_nat (length (positionals its)) <= i)%Z /\ k = length (positionals its)) ->
  exists l' i1 i2, pos_insert (mk_opts l os ds) i v = Ok (mk_opts l' os ds) /\ its = i1 ++ i2 /\ length (positionals i1) = k /\
    cmdline os l' (i1 ++ IPos (oval_str v) :: i2).
Proof. exact pos_insert_spec. Qed.
Print Assumptions C56_insert.
Example C56_example : py_index (positionals ex_items) (-1) = Some 0%nat /\
  match pos_insert (mk_opts ex_tokens ex_os []) 0 (VStr (lit "y")) with Ok o => tokens_str (o_tokens o) | _ => [] end = lit "-p1 -b 'a b' -R y x".
Proof. vm_compute. auto. Qed.
