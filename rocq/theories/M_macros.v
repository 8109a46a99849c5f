(** Model of /repo/specfile/macros.py, and of the part of spec_parser.py that sets up the macro context. *)
From Coq Require Import Ascii String.
From Coq Require Import NArith ZArith List Bool.
From Verif Require Import PyStr Regex.
Import ListNotations.
Open Scope N_scope.

(** macros.py 30-58; [==] and [hash] (59-65) are those of the five values together. *)
Record macro := mk_macro { m_name : str; m_options : option str; m_body : str; m_level : Z; m_used : bool }.
(** macros.py 18-27: [MacroLevel]; any other number is a ValueError. *)
Definition LEVELS : list Z := [-20; -15; -13; -11; -7; -5; -3; -1; 0]%Z.
Definition RPMRC : Z := (-11)%Z.
(** macros.py 16 *)
Definition MAX_REMOVAL_RETRIES : nat := 20.

Section Macros.
Context {U : Unicode}.

(** macros.py 90-92: the groups l, u, n, o, b are 1, 2, 3, 4, 5. *)
Definition macro_regex : re :=
  Seq Caret (Seq (Star true is_space) (Seq (Grp 1 (Seq (Opt (chr DASH)) (Plus true is_digit)))
  (Seq (Grp 2 (Alt (chr EQUALS) (chr COLON))) (Seq (chr SPC) (Seq (Grp 3 (Plus true is_word))
  (Seq (Opt (Grp 4 (Seq (chr LPAR) (Seq (Plus false dot) (chr RPAR))))) (Seq (chr TAB) (Seq (Grp 5 (Star true dot)) Dollar)))))))).

(** [line[:-n]] for a positive [n] *)
Definition drop_last (n : nat) (s : str) : str := firstn (length s - n) s.
Definition continued (line : str) : bool := endswith line [BSLASH; LF].

(** macros.py 101-115: what one joined line does to the result, which is kept in reverse order. *)
Definition parse_line (line : str) (acc : list macro) : result (list macro) :=
  let line := drop_last 1 line in
  match re_match macro_regex line with
  | Some m =>
      match py_int (group_str 1 m) with
      | Some l =>
          if existsb (Z.eqb l) LEVELS then
            Ok (mk_macro (group_str 3 m) (group 4 m) (group_str 5 m) l (str_eqb (group_str 2 m) [EQUALS]) :: acc)
          else Err ValueError
      | None => Err ValueError
      end
  | None =>
      match acc with
      | [] => Ok []
      | x :: acc' =>
          Ok (mk_macro (m_name x) (m_options x) (match m_body x with [] => line | b => b ++ LF :: line end) (m_level x) (m_used x) :: acc')
      end
  end.
(** macros.py 94-116; [pending] is the text of the lines joined so far (97-98). *)
Fixpoint parse_loop (pending : option str) (dump : list str) (acc : list macro) : result (list macro) :=
  match dump with
  | [] => match pending with Some _ => Err IndexError | None => Ok (rev acc) end
  | l :: dump' =>
      let line := match pending with Some p => p ++ l | None => l end in
      if continued line then parse_loop (Some (drop_last 2 line)) dump' acc
      else let! acc' := parse_line line acc in parse_loop None dump' acc'
  end.
(** macros.py 76-116 *)
Definition parse (dump : list str) : result (list macro) :=
  match dump with [] => Err IndexError | _ => parse_loop None (removelast dump) [] end.

(** * The macro context *)
(** RPM's macro context is an unknown state [W]: [rpm.delMacro], [rpm.addMacro], [rpm.expandMacro] (with [rpm.error]
    as [RPMException], macros.py 135-151), [rpm.reloadConfig], and the lines that [%dump] prints. *)
Context {W : Type} (del : str -> W -> W) (add : str -> str -> W -> W) (expand : str -> W -> W * result str) (reload : W -> W) (dump : W -> list str).

(** macros.py 172: [macro.replace('%%', '%')] *)
Fixpoint unescape (s : str) : str :=
  match s with
  | c :: s' =>
      match s' with
      | d :: s'' => if (c =? PCT) && (d =? PCT) then PCT :: unescape s'' else c :: unescape s'
      | [] => [c]
      end
  | [] => []
  end.
Definition braced (s : str) : str := [PCT; LBRACE] ++ s ++ [RBRACE].
(** macros.py 153-181, with a limit on the number of rounds: [None] if it is reached. *)
Fixpoint remove_loop (rounds retry : nat) (name : str) (w : W) : option (W * result unit) :=
  match rounds with
  | O => None
  | S rounds' =>
      if Nat.ltb retry MAX_REMOVAL_RETRIES then
        match expand (braced name) (del name w) with
        | (w, Ok s) => if str_eqb s (braced (unescape name)) then Some (w, Ok tt) else remove_loop rounds' retry name w
        | (w, Err RPMException) => remove_loop rounds' (S retry) name w
        | (w, Err e) => Some (w, Err e)
        end
      else Some (w, Err MacroRemovalException)
  end.
Definition remove (rounds : nat) (name : str) (w : W) : option (W * result unit) := remove_loop rounds 0 name w.
(** Sequencing of calls that may not end. *)
Definition and_then (r : option (W * result unit)) (f : W -> option (W * result unit)) : option (W * result unit) :=
  match r with Some (w, Ok _) => f w | _ => r end.
(** macros.py 183-197 *)
Definition define (rounds : nat) (name body : str) (w : W) : option (W * result unit) :=
  and_then (remove rounds name w) (fun w => Some (add name body w, Ok tt)).
(** macros.py 208-211 *)
Fixpoint remove_all (rounds : nat) (threshold : Z) (ms : list macro) (w : W) : option (W * result unit) :=
  match ms with
  | [] => Some (w, Ok tt)
  | m :: ms' =>
      if (threshold <? m_level m)%Z then and_then (remove rounds (m_name m) w) (remove_all rounds threshold ms')
      else remove_all rounds threshold ms' w
  end.
(** macros.py 199-211 *)
Definition reinit (rounds : nat) (threshold : Z) (w : W) : option (W * result unit) :=
  let w := reload w in
  match parse (dump w) with
  | Ok ms => remove_all rounds threshold ms w
  | Err e => Some (w, Err e)
  end.
(** spec_parser.py 219-224: the extra macros of a parse. *)
Fixpoint set_macros (rounds : nat) (macros : list (str * option str)) (w : W) : option (W * result unit) :=
  match macros with
  | [] => Some (w, Ok tt)
  | (name, value) :: macros' =>
      and_then (match value with None => remove rounds name w | Some v => define rounds name v w end) (set_macros rounds macros')
  end.
(** spec_parser.py 217-225: the macro context that a spec file is parsed in. *)
Definition context (rounds : nat) (macros extra_macros : list (str * option str)) (sourcedir : str) (w : W) : option (W * result unit) :=
  and_then (reinit rounds RPMRC w) (fun w => and_then (set_macros rounds (macros ++ extra_macros) w) (define rounds (lit "_sourcedir") sourcedir)).
End Macros.
