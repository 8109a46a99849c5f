(** Independent specification of what a forced parse looks for in a spec file. *)
From Coq Require Import Ascii String.
From Coq Require Import NArith ZArith List Bool.
From Verif Require Import PyStr M_value M_tags M_spec_parser Spec_spec_parser Spec_value2.
Import ListNotations.
Open Scope N_scope.

(** * Included files *)
Definition blanks (w : str) : Prop := Forall (fun c => is_space c = true) w.
(** A line with [%include] and what follows. *)
Definition include_line (l arg : str) : Prop :=
  exists w v, blanks w /\ blanks v /\ v <> [] /\ (forall c t, arg = c :: t -> is_space c = false) /\ ~ In LF arg /\ l = w ++ lit "%include" ++ v ++ arg.
(** A line that ends with a backslash is continued on the next one. *)
Inductive continued : str -> list str -> Prop :=
| continued_not l : (forall x, l <> x ++ [BSLASH]) -> continued l []
| continued_more x l ls : continued l ls -> continued (x ++ [BSLASH]) (l :: ls).
(** The text on these lines, without the backslashes in between. *)
Fixpoint joined (l : str) (ls : list str) : str := match ls with [] => l | l' :: ls' => removelast l ++ joined l' ls' end.
(** The arguments of [%include] on lines. *)
Inductive included : list str -> list str -> Prop :=
| included_nil : included [] []
| included_other l ls args : (forall arg, ~ include_line l arg) -> included ls args -> included (l :: ls) args
| included_line l arg more ls args : include_line l arg -> continued l more -> included ls args -> included (l :: more ++ ls) (joined arg more :: args).

(** * References to sources *)
Section Uni.
Context {U : Unicode}.
Definition digits (n : str) : Prop := n <> [] /\ Forall (fun c => is_digit c = true) n.
(** [%SOURCE1], [%?SOURCE1]: may be followed by anything but a digit *)
Definition open_ref (r : str) : Prop := exists q n, conds q /\ digits n /\ r = PCT :: q ++ lit "SOURCE" ++ n.
(** [%{SOURCE1}], [%{?SOURCE1}] and [%{S:1}] *)
Definition closed_ref (r : str) : Prop :=
  (exists q n, conds q /\ digits n /\ r = PCT :: LBRACE :: q ++ lit "SOURCE" ++ n ++ [RBRACE]) \/ (exists n, digits n /\ r = PCT :: LBRACE :: lit "S:" ++ n ++ [RBRACE]).
(** The references in a text, from left to right. *)
Inductive refs_in : str -> list str -> Prop :=
| refs_nil : refs_in [] []
| refs_open r t rs : open_ref r -> (forall c t', t = c :: t' -> is_digit c = false) -> refs_in t rs -> refs_in (r ++ t) (r :: rs)
| refs_closed r t rs : closed_ref r -> refs_in t rs -> refs_in (r ++ t) (r :: rs)
| refs_other c t rs : (forall r t', c :: t = r ++ t' -> ~ open_ref r /\ ~ closed_ref r) -> refs_in t rs -> refs_in (c :: t) rs.
End Uni.

(** * Nodes *)
(** The bodies of [%{load:...}] and of shell expansions, in conditional macros as well. *)
Fixpoint loads_of (n : node) : list str :=
  match n with
  | BuiltinMacro name body => if list_eq_dec N.eq_dec name (lit "load") then [body] else []
  | ConditionalMacroExpansion _ _ body => flat_map loads_of body
  | _ => []
  end.
Fixpoint shells_of (n : node) : list str :=
  match n with
  | ShellExpansion body => [body]
  | ConditionalMacroExpansion _ _ body => flat_map shells_of body
  | _ => []
  end.
(** The sources that tags whose value is empty after expansion refer to in shell expansions. *)
Inductive tag_refs {U : Unicode} (value : str -> str) : list tag -> list str -> Prop :=
| tag_refs_nil : tag_refs value [] []
| tag_refs_value t ts rs : value (t_value t) <> [] -> tag_refs value ts rs -> tag_refs value (t :: ts) rs
| tag_refs_empty t ts nodes found rs : value (t_value t) = [] -> M_value.parse (t_value t) = Ok nodes ->
    Forall2 refs_in (flat_map shells_of nodes) found -> tag_refs value ts rs -> tag_refs value (t :: ts) (concat found ++ rs).
(** The names of those files among [args] that are in the source directory. *)
Definition named (value : str -> str) (place : str -> option str) (args : list str) : list str :=
  flat_map (fun a => match place (value a) with Some n => [n] | None => [] end) args.

(** * The calls of RPM *)
(** [spec] is what RPM makes of the contents [c] in the world [w] with dummy files for the sources [src] and [ne] (see [seen]), the macros [m],
    the source directory [d], and the locale set to [C.UTF-8]; [f] is [RPMSPEC_FORCE]. *)
Definition run_with {W A : Type} (rpm_spec : bool -> str -> world W -> world W * result A) (set_context : list (str * option str) -> str -> W -> W * result unit) (m : list (str * option str)) (d c : str) (f : bool) (src ne : list str) (w : world W) (spec : A) : Prop :=
  exists x w1, rpm_spec f c w1 = (fst (rpm_spec f c w1), Ok spec) /\ seen d src ne (files w) (files w1) /\ set_context m d x = (ctx w1, Ok tt) /\
  (forall k, get_env k (env w1) = if str_eqb k (lit "LC_ALL") then Some (lit "C.UTF-8") else if str_eqb k (lit "LANG") then Some (lit "C.UTF-8") else get_env k (env w)).
