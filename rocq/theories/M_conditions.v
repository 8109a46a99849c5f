(** Model of /repo/specfile/conditions.py.  Macro expansion is an oracle: [expand skip w s]
    is [context.expand(s, skip_parsing=skip)] (or [Macros.expand(s)] without a context) in
    world [w], giving the outcome and the next world. *)
From Coq Require Import Ascii String.
From Coq Require Import NArith ZArith List Bool.
From Verif Require Import PyStr Regex M_value M_macro_definitions.
Import ListNotations.
Open Scope N_scope.

(** conditions.py 93-110: group 1 is [kwd], 2 is [expr], 3 is [end]. *)
Definition kwd_regex : re :=
  Seq (chr PCT) (alts [Seq (Opt (word (lit "el"))) (Seq (word (lit "if"))
                          (Opt (Seq (Opt (chr 110)) (Alt (word (lit "arch")) (word (lit "os"))))));
                       word (lit "endif"); word (lit "else")]).
Definition condition_regex : re :=
  Seq Caret (Seq (Star true is_space) (Seq (Grp 1 kwd_regex) (Seq (Star true is_space)
  (Seq (Opt (Seq (Plus true is_space)
            (Seq (Grp 2 (Star false dot)) (Grp 3 (Alt (Star true is_space) (chr BSLASH)))))) Dollar)))).

Section Conditions.
Context {U : Unicode} {W : Type} (expand : bool -> W -> str -> result str * W).

(** conditions.py 31-37 and 82-88: [skip_parsing] is set by the first successful expansion. *)
Definition expand1 (skip : bool) (w : W) (s : str) : result str * bool * W :=
  match expand skip w s with
  | (Ok x, w') => (Ok x, true, w')
  | (Err e, w') => (Err e, skip, w')
  end.

(** conditions.py 46-49 *)
Definition int_nonzero (s : str) : bool :=
  match py_int s with Some n => negb (Z.eqb n 0) | None => true end.

(** conditions.py 50-57: is the value of [macro] one of the words of the expression? *)
Definition resolve_list (macro : str) (negated : bool) (w : W) (expression : str) : result bool * W :=
  match expand1 false w macro with
  | (Err e, _, w1) => (Err e, w1)
  | (Ok target, skip, w1) =>
      match expand1 skip w1 expression with
      | (Err e, _, w2) => (Err e, w2)
      | (Ok x, _, w2) =>
          let found := existsb (fun t => negb (str_eqb t []) && str_eqb t target) (split_ws x) in
          (Ok (if negated then negb found else found), w2)
      end
  end.
(** conditions.py 15-59 *)
Definition resolve_expression (w : W) (keyword expression : str) : result bool * W :=
  if str_in keyword [lit "%if"; lit "%elif"] then
    match expand1 false w (lit "%{expr:" ++ expression ++ [RBRACE]) with
    | (Err RPMException, _, w1) => (Ok false, w1)
    | (Err e, _, w1) => (Err e, w1)
    | (Ok x, _, w1) => (Ok (if startswith x (lit "%{expr:") then false else int_nonzero x), w1)
    end
  else if endswith keyword (lit "arch") then
    resolve_list (lit "%{_target_cpu}") (str_eqb keyword (lit "%ifnarch")) w expression
  else if endswith keyword (lit "os") then
    resolve_list (lit "%{_target_os}") (str_eqb keyword (lit "%ifnos")) w expression
  else (Ok false, w).

(** conditions.py 90-92 *)
Definition excluded_lines (m : mdefs) : result (list (nat * nat)) :=
  fold_right (fun d acc =>
    let! l := acc in let! p := get_position d m in
    Ok ((p, (p + length (split_on LF [] (d_body d)))%nat) :: l)) (Ok []) (md_data m).
Definition excluded (ranges : list (nat * nat)) (i : nat) : bool :=
  existsb (fun r => Nat.leb (fst r) i && Nat.ltb i (snd r)) ranges.

(** conditions.py 144-147 *)
Fixpoint continuation (expression : str) (lines : list str) : str * list str * list str :=
  match lines with
  | [] => (expression, [], [])
  | l :: lines' =>
      if endswith expression [BSLASH] then
        let '(e, taken, rest) := continuation (removelast expression ++ l) lines' in (e, l :: taken, rest)
      else (expression, [], lines)
  end.

Definition emit {A B : Type} (x : list A) (r : result (list A) * B) : result (list A) * B :=
  match r with (Ok y, w) => (Ok (x ++ y), w) | (Err e, w) => (Err e, w) end.

(** conditions.py 114-158.  [branches] has its last element first; [i] is the index of the first line. *)
Fixpoint loop (ranges : list (nat * nat)) (fuel : nat) (skip : bool) (w : W) (branches : list bool) (i : nat)
         (lines : list str) : result (list (str * bool)) * W :=
  match lines with
  | [] => (Ok [], w)
  | line :: lines' =>
  match fuel, branches with
  | O, _ => (Err OtherError, w)
  | _, [] => (Err IndexError, w)
  | S fuel, top :: under =>
      if excluded ranges i then emit [(line, top)] (loop ranges fuel skip w branches (S i) lines')
      else
        let '(r, skip1, w1) := expand1 skip w line in
        match (match r with Err RPMException => Ok line | _ => r end) with
        | Err e => (Err e, w1)
        | Ok expanded =>
            match re_match condition_regex expanded with
            | None => emit [(line, top)] (loop ranges fuel skip1 w1 branches (S i) lines')
            | Some m =>
                let keyword := group_str 1 m in
                (** 126-136 *)
                let after :=
                  if str_eqb keyword (lit "%endif") then
                    match under with
                    | v :: _ => Ok (v, under)
                    | [] => Err IndexError
                    end
                  else if startswith keyword (lit "%el") then
                    match under with
                    | v :: _ => Ok (v, (if v then negb top else top) :: under)
                    | [] => Err IndexError
                    end
                  else Ok (top, branches) in
                match after with
                | Err e => (Err e, w1)
                | Ok (flag, branches1) =>
                    (** 137-158 *)
                    if startswith keyword (lit "%if") || startswith keyword (lit "%elif") then
                      match branches1 with
                      | [] => (Err IndexError, w1)
                      | top1 :: under1 =>
                          let e0 := group_str 2 m in
                          let '(e, taken, rest) :=
                            if str_eqb e0 [] then (e0, [], lines')
                            else continuation (if str_eqb (group_str 3 m) [BSLASH] then e0 ++ [BSLASH] else e0) lines' in
                          let '(b, w2) :=
                            if top1 then resolve_expression w1 keyword (if str_eqb e [] then [ZERO] else e)
                            else (Ok false, w1) in
                          match b with
                          | Err x => (Err x, w2)
                          | Ok branch =>
                              emit ((line, flag) :: map (fun l => (l, top1)) taken)
                                (loop ranges fuel skip1 w2
                                  (if startswith keyword (lit "%el") then branch :: under1 else branch :: branches1)
                                  (S i + length taken) rest)
                          end
                      end
                    else emit [(line, flag)] (loop ranges fuel skip1 w1 branches1 (S i) lines')
                end
            end
        end
  end
  end.

(** conditions.py 62-159 *)
Definition process_conditions (w : W) (lines : list str) (m : option mdefs) : result (list (str * bool)) * W :=
  match (match m with None => Ok [] | Some m => excluded_lines m end) with
  | Err e => (Err e, w)
  | Ok ranges => loop ranges (length lines) false w [true] 0 lines
  end.

(** macro_definitions.py 374-396: [MacroDefinitions.parse]. *)
Definition parse_with_conditions (w : W) (lines : list str) (with_conditions : bool) : result mdefs * W :=
  let result := parse_plain lines in
  if negb with_conditions then (Ok result, w)
  else match process_conditions w lines (Some result) with
       | (Err e, w1) => (Err e, w1)
       | (Ok tagged, w1) => (Ok (parse_tagged tagged), w1)
       end.
End Conditions.
