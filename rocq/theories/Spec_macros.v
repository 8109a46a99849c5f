(** Independent specification of macro dumps and of RPM's macro context. *)
From Coq Require Import Ascii String.
From Coq Require Import NArith ZArith List Bool.
From Verif Require Import PyStr M_macros.
Import ListNotations.
Open Scope N_scope.

(** * Dumps *)
Section Dump.
Context {U : Unicode}.
(** The number of a level as text. *)
Definition number (z : Z) : str := match z with Z0 => dec 0 | Zpos p => dec (Npos p) | Zneg p => DASH :: dec (Npos p) end.
(** A line that begins like a macro in a dump: blanks, a number, [=] or [:], a name, maybe options, a tab. *)
Definition looks_like_macro (l : str) : Prop :=
  exists w sign n u name o b, l = w ++ sign ++ n ++ [u; SPC] ++ name ++ o ++ TAB :: b /\
    Forall (fun c => is_space c = true) w /\ (sign = [] \/ sign = [DASH]) /\ n <> [] /\ Forall (fun c => is_digit c = true) n /\
    (u = EQUALS \/ u = COLON) /\ name <> [] /\ Forall (fun c => is_word c = true) name /\
    (o = [] \/ exists x, x <> [] /\ ~ In LF x /\ o = LPAR :: x ++ [RPAR]).
(** The levels of macros (BUILTIN, DEFAULT, MACROFILES, RPMRC, CMDLINE, TARBALL, SPEC, OLDSPEC, GLOBAL) *)
Definition level (z : Z) : Prop := In z [-20; -15; -13; -11; -7; -5; -3; -1; 0]%Z.
(** A macro that can be told from its dump. *)
Record dumpable (m : macro) : Prop := {
  d_level : level (m_level m);
  d_name : m_name m <> [] /\ Forall (fun c => is_word c = true) (m_name m);
  d_options : match m_options m with None => True | Some o => exists x, o = LPAR :: x ++ [RPAR] /\ x <> [] /\ ~ In LF x /\ ~ In RPAR x end;
  d_body : exists first others, m_body m = join [LF] (first :: others) /\ (first <> [] \/ others = []) /\
    Forall (fun l => ~ In LF l /\ (forall x, l <> x ++ [BSLASH])) (first :: others) /\ Forall (fun l => ~ looks_like_macro l) others }.
(** What [%dump] prints: a line of the level, aligned to the right with any blanks, whether the macro was used, its name and options, a tab and the body. *)
Definition text_of (blanks : str) (m : macro) : str :=
  blanks ++ number (m_level m) ++ [if m_used m then EQUALS else COLON; SPC] ++ m_name m ++ match m_options m with Some o => o | None => [] end ++ TAB :: m_body m.
Definition lines_of (text : str) : list str := map (fun l => l ++ [LF]) (split_on LF [] text).
Fixpoint dump_of (ms : list (str * macro)) : list str :=
  match ms with [] => [] | (blanks, m) :: ms' => lines_of (text_of blanks m) ++ dump_of ms' end.
End Dump.

(** * The macro context *)
(** Text with each pair of percent signs replaced with one, from the left. *)
Inductive unescaped : str -> str -> Prop :=
| unescaped_nil : unescaped [] []
| unescaped_pair s t : unescaped s t -> unescaped (PCT :: PCT :: s) (PCT :: t)
| unescaped_other c s t : c <> PCT -> unescaped s t -> unescaped (c :: s) (c :: t)
| unescaped_single s t : (forall s', s <> PCT :: s') -> unescaped s t -> unescaped (PCT :: s) (PCT :: t).
(** [defs w n] are the definitions of the macro [n], the latest first.  A deletion takes the latest one away, an addition puts one on top,
    expansion changes no definition and depends on nothing else, and an undefined macro among [names] expands to itself. *)
Section Rpm.
Context {W D : Type} (defs : W -> str -> list D) (of_body : str -> D).
Context (del : str -> W -> W) (add : str -> str -> W -> W) (expand : str -> W -> W * result str).
Definition same_defs (w w' : W) : Prop := forall n, defs w n = defs w' n.
Record rpm (names : str -> Prop) : Prop := {
  r_del : forall n w, defs (del n w) n = tl (defs w n);
  r_del_other : forall n m w, m <> n -> defs (del n w) m = defs w m;
  r_add : forall n b w, defs (add n b w) n = of_body b :: defs w n;
  r_add_other : forall n b m w, m <> n -> defs (add n b w) m = defs w m;
  r_expand : forall e w, same_defs (fst (expand e w)) w;
  r_depends : forall e w w', same_defs w w' -> snd (expand e w) = snd (expand e w');
  r_error : forall e w x, snd (expand e w) = Err x -> x = RPMException;
  r_undefined : forall n t w, names n -> defs w n = [] -> unescaped n t -> snd (expand (lit "%{" ++ n ++ lit "}") w) = Ok (lit "%{" ++ t ++ lit "}") }.
(** The macro [n] expands to its own name, as an undefined one does. *)
Definition self_literal (n : str) (w : W) : Prop := exists t, unescaped n t /\ snd (expand (lit "%{" ++ n ++ lit "}") w) = Ok (lit "%{" ++ t ++ lit "}").
(** No defined macro does so. *)
Definition no_self_literals (names : str -> Prop) : Prop := forall n w, names n -> self_literal n w -> defs w n = [].
(** The value given to [n] last. *)
Fixpoint last_entry (n : str) (macros : list (str * option str)) : option (option str) :=
  match macros with
  | [] => None
  | (m, v) :: macros' => match last_entry n macros' with Some x => Some x | None => if str_eqb m n then Some v else None end
  end.
(** A dump that lists every defined macro with the level of its latest definition. *)
Definition faithful {U : Unicode} (level : D -> Z) (w : W) (dump : list str) : Prop :=
  exists ms, parse dump = Ok ms /\ (forall m, In m ms -> exists d ds, defs w (m_name m) = d :: ds /\ level d = m_level m) /\
    (forall n d ds, defs w n = d :: ds -> exists m, In m ms /\ m_name m = n).
End Rpm.
