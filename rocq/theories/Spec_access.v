(** Independent specification of the lines that make a macro definition, and of definitions as attributes. *)
From Coq Require Import Ascii String.
From Coq Require Import NArith List Bool.
From Verif Require M_tags.
From Verif Require Import PyStr M_value M_macro_definitions Spec_macro_definitions.
Import ListNotations.
Open Scope N_scope.

(** A body that goes on in the next line: with open brackets, or with a backslash at its end. *)
Definition unfinished (t : str) : Prop := count_brackets t <> (0, 0)%nat \/ exists a, t = a ++ [BSLASH].
(** A text and the lines that follow it *)
Definition with_lines (t : str) (l : list (str * bool)) : str := t ++ flat_map (fun x => LF :: fst x) l.
(** A text without white space at its end, except that it may end in an empty line *)
Definition trimmed (t : str) : Prop := forall a c, t = a ++ [c] -> is_space c = true -> c = LF.
(** The line [first], with the flag [flag], and the lines [more] below it make the definition [d]; [rest] are the lines below those.  Lines are taken as long as the body is
    unfinished and there are lines; a definition that is commented out is one line.  White space at the end is not in the body, nor is a backslash at the end of one that is commented out. *)
Definition makes (first : str) (flag : bool) (more rest : list (str * bool)) (d : mdef) : Prop :=
  d_valid d = flag /\
  exists before k w1 w2 body blanks, first = before ++ k ++ w1 ++ d_name d ++ w2 ++ body ++ blanks /\ keyword k /\ (d_is_global d = true <-> k = lit "global") /\
    blank w1 /\ blank w2 /\ blank blanks /\
    (exists w, with_lines body more = d_body d ++ w /\ trimmed (d_body d) /\ (blank w \/ (d_commented_out d = true /\ exists v, w = v ++ [BSLASH] /\ blank v))) /\
    (d_commented_out d = true -> more = []) /\
    (d_commented_out d = false -> (forall p l q, more = p ++ l :: q -> unfinished (with_lines body p)) /\ (rest = [] \/ ~ unfinished (with_lines body more))).
(** A line that starts a definition: white space; "%", "#", "#" and a text up to a "%", or "%dnl" and a text up to a "%"; a keyword; white space; a name, which may have options in
    parentheses; white space; anything. *)
Definition definition_line {U : Unicode} (l : str) : Prop :=
  exists w0 mark k w1 word options w2 body, l = w0 ++ mark ++ k ++ w1 ++ word ++ options ++ w2 ++ body /\
    blank w0 /\ (mark = lit "%" \/ mark = lit "#" \/ (exists x, mark = lit "#" ++ x ++ lit "%") \/ (exists x, mark = lit "%dnl" ++ x ++ lit "%")) /\ keyword k /\
    blank w1 /\ w1 <> [] /\ Forall (fun c => is_word c = true) word /\ word <> [] /\ (options = [] \/ exists x, options = lit "(" ++ x ++ lit ")") /\ blank w2 /\ w2 <> [].
(** The definitions [ds] are made of [lines]; [tail] are the lines below the last one.  Lines above a definition, and those in [tail], start none. *)
Inductive made_of {U : Unicode} : list (str * bool) -> list mdef -> list str -> Prop :=
| made_nil lines : Forall (fun l => ~ definition_line (fst l)) lines -> made_of lines [] (map fst lines)
| made_cons above first flag more rest d ds tail : Forall (fun l => ~ definition_line (fst l)) above -> definition_line first ->
    d_preceding d = map fst above -> makes first flag more rest d -> made_of rest ds tail ->
    made_of (above ++ (first, flag) :: more ++ rest) (d :: ds) tail.
(** The definition [d], with [a] and [b] above and below it, is the one that a name stands for: the first that is valid, or the first if none is valid *)
Definition stands_for (m : mdefs) (name : str) (a : list mdef) (d : mdef) (b : list mdef) : Prop :=
  md_data m = a ++ d :: b /\ d_name d = name /\
    ((d_valid d = true /\ forall u, In u a -> d_name u = name -> d_valid u = false) \/
     ((forall u, In u (md_data m) -> d_name u = name -> d_valid u = false) /\ forall u, In u a -> d_name u <> name)).
Definition defines (m : mdefs) (name : str) : Prop := exists d, In d (md_data m) /\ d_name d = name.
(** The same of tags, whose names are compared without case *)
Definition tag_stands_for {U : Unicode} (ts : M_tags.tags) (name : str) (t : M_tags.tag) : Prop :=
  exists a b, M_tags.ts_data ts = a ++ t :: b /\ capitalize (M_tags.t_name t) = capitalize name /\
    ((M_tags.t_valid t = true /\ forall u, In u a -> capitalize (M_tags.t_name u) = capitalize name -> M_tags.t_valid u = false) \/
     ((forall u, In u (M_tags.ts_data ts) -> capitalize (M_tags.t_name u) = capitalize name -> M_tags.t_valid u = false) /\ forall u, In u a -> capitalize (M_tags.t_name u) <> capitalize name)).
