(** Theorems about the text of [repr()] (C217 to C219).  Spec_formatter.v specifies Python's expressions as tokens ([spells]) and their layout ([laid_out]). *)
From Coq Require Import Ascii String.
From Coq Require Import NArith List Bool Arith Lia.
From Verif Require Import PyStr M_formatter Spec_formatter P_formatter3.
Import ListNotations.
Open Scope N_scope.

(** * C217 *)
(** Formatting, with any threshold, writes the tokens of the expression, and these are the tokens of no other expression. *)
Theorem C217_same : forall threshold t, plain t ->
  exists text ts, fmt threshold t 0 [] = Ok text /\ spells t ts /\ laid_out ts text /\ forall t', plain t' -> spells t' ts -> t' = t.
Proof. exact fmt_same. Qed.
Print Assumptions C217_same.
Theorem C217_formatted : forall ast_parse repr n expression t, ast_parse expression = Parsed t -> plain t ->
  exists text ts, formatted ast_parse repr (S n) expression = Some (Ok text) /\ spells t ts /\ laid_out ts text /\ forall t', plain t' -> spells t' ts -> t' = t.
Proof. exact formatted_same. Qed.
Print Assumptions C217_formatted.
Example C217_example :
  let t := Call (Some (lit "EVR")) [Tuple [Const (lit "0")]] [(Some (lit "version"), Const (lit "'1'")); (Some (lit "x"), Dict [(Const (lit "'a'"), List [Const (lit "2"); Const (lit "3")])])] in
  plain t /\ fmt 80 t 0 [] = Ok (lit "EVR((0,), version='1', x={'a': [2, 3]})") /\
  fmt 15 t 0 [] = Ok (join [10] (map lit ["EVR("; "    (0,),"; "    version='1',"; "    x={"; "        'a': ["; "            2,"; "            3,"; "        ],"; "    },"; ")"]%string)).
Proof.
  cbn zeta. split; [|vm_compute; auto].
  assert (K : forall (n : string), atomb (lit n) = true -> forall v, plain v -> (exists m, fst (Some (lit n), v) = Some m /\ atom m) /\ plain (snd (Some (lit n), v))) by (intros n A v P; split; [exists (lit n); split; [reflexivity|now apply atomb_atom]|exact P]).
  apply p_call; [now apply atomb_atom| |].
  - repeat (apply Forall_cons || apply Forall_nil || apply p_tuple || apply p_const || now apply atomb_atom).
  - repeat (apply Forall_cons || apply Forall_nil || (apply K; [reflexivity|]) || apply p_dict || apply p_list || apply p_const || (now apply atomb_atom) || (apply conj) || (progress cbn [fst snd])).
Qed.

(** * C218 *)
(** If all calls in the text are of functions with names, [repr()] returns a text, also for syntax that is not supported. *)
Theorem C218_named : forall ast_parse repr n expression t, ast_parse expression = Parsed t -> named t -> exists text, formatted ast_parse repr (S n) expression = Some (Ok text).
Proof. exact formatted_total. Qed.
Print Assumptions C218_named.
(** But a call of anything else, such as [datetime.date(2020, 1, 1)], makes [repr()] raise. *)
Theorem C218_refuted : forall ast_parse repr n expression args kws, ast_parse expression = Parsed (Call None args kws) -> formatted ast_parse repr (S n) expression = Some (Err AttributeError).
Proof. exact formatted_raises. Qed.
Print Assumptions C218_refuted.
(** So does a syntax error at the end of a line. *)
Theorem C218_end_refuted : forall ast_parse repr n expression k o line, ast_parse expression = Syntax (S k) (S o) -> nth_error (splitlines expression) k = Some line -> (length line <= o)%nat ->
  formatted ast_parse repr (S n) expression = Some (Err IndexError).
Proof. exact formatted_index. Qed.
Print Assumptions C218_end_refuted.
Example C218_example :
  let parse_date := fun _ : str => Parsed (Call None [Const (lit "2020")] []) in let parse_open := fun _ : str => Syntax 1 4 in let parse_neg := fun _ : str => Parsed (List [Other; Call (Some (lit "A")) [] []]) in
  named (List [Other; Call (Some (lit "A")) [] []]) /\ formatted parse_neg (fun s => s) 1 (lit "[-1, A()]") = Some (Ok (lit "[-1, A()]")) /\
  formatted parse_date (fun s => s) 1 (lit "datetime.date(2020)") = Some (Err AttributeError) /\
  nth_error (splitlines (lit "1 +")) 0 = Some (lit "1 +") /\ formatted parse_open (fun s => s) 1 (lit "1 +") = Some (Err IndexError).
Proof. cbn zeta. split; [repeat constructor|]. vm_compute. auto. Qed.

(** * C219 *)
(** Text like [<Level.A: 1>], which is no Python: it is still there, in the place of the placeholder, if the text of the placeholder occurs only once. *)
Theorem C219_once : forall ast_parse repr n e l o e' p v t,
  ast_parse e = Syntax l o -> placeholder repr e l o = Ok (Some (e', (p, v))) -> ast_parse e' = Parsed t -> plain t ->
  (forall ts, spells t ts -> In p ts) ->
  (forall text x y x' y', fmt 80 t 0 [] = Ok text -> text = x ++ p ++ y -> text = x' ++ p ++ y' -> x = x') ->
  exists a b out, formatted ast_parse repr (S (S n)) e = Some (Ok out) /\ spells t (a ++ p :: b) /\ laid_out (a ++ v :: b) out.
Proof. exact placeholder_once. Qed.
Print Assumptions C219_once.
(** But if it is the second argument, and the first one is a string with the same text, the two are exchanged: [f('<A>', <A>)] becomes [f(<A>, '<A>')]. *)
Theorem C219_refuted : forall ast_parse repr n f w q,
  let v := 60 :: w ++ [62] in let p := 39 :: q in let before := f ++ lit "(" ++ p ++ lit ", " in
  repr v = p -> ~ In 39 f -> (forall c, In c w -> c <> 60 /\ c <> 62) -> no_breaks f -> no_breaks p -> no_breaks w ->
  ast_parse (before ++ v ++ lit ")") = Syntax 1 (S (length before)) -> ast_parse (before ++ p ++ lit ")") = Parsed (Call (Some f) [Const p; Const p] []) ->
  (length (before ++ p ++ lit ")") <= 80)%nat ->
  formatted ast_parse repr (S (S n)) (before ++ v ++ lit ")") = Some (Ok (f ++ lit "(" ++ v ++ lit ", " ++ p ++ lit ")")).
Proof. exact placeholder_twice. Qed.
Print Assumptions C219_refuted.
Example C219_example :
  let quote := fun s : str => lit "'" ++ s ++ lit "'" in
  let parse := fun s => if str_eqb s (lit "f('<A>', <A>)") then Syntax 1 10 else if str_eqb s (lit "f(1, <A>)") then Syntax 1 6
                        else if str_eqb s (lit "f(1, '<A>')") then Parsed (Call (Some (lit "f")) [Const (lit "1"); Const (lit "'<A>'")] [])
                        else Parsed (Call (Some (lit "f")) [Const (lit "'<A>'"); Const (lit "'<A>'")] []) in
  formatted parse quote 2 (lit "f('<A>', <A>)") = Some (Ok (lit "f(<A>, '<A>')")) /\ placeholder quote (lit "f(1, <A>)") 1 6 = Ok (Some (lit "f(1, '<A>')", (lit "'<A>'", lit "<A>"))) /\
  formatted parse quote 2 (lit "f(1, <A>)") = Some (Ok (lit "f(1, <A>)")).
Proof. vm_compute. auto. Qed.
