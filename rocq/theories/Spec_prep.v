(** Independent specification for the %prep section. *)
From Coq Require Import Ascii String.
From Coq Require Import NArith ZArith List Bool.
From Verif Require Import PyStr M_value M_options Spec_value Spec_options M_prep.
Import ListNotations.
Open Scope N_scope.

(** The names that make a macro of %prep, and where one occurs. *)
Definition prep_words : list str := map lit ["%setup"; "%patch"; "%autosetup"; "%autopatch"]%string.
Definition occurs_at (line : str) (k : nat) : Prop :=
  exists w rest, In w prep_words /\ skipn k line = w ++ rest.
Definition mentions_macro (line : str) : Prop := exists k, occurs_at line k.

Section Uni.
Context {U : Unicode}.
Definition macro_name (name : str) : Prop :=
  In name [lit "%setup"; lit "%autosetup"; lit "%autopatch"] \/
  exists ds, name = lit "%patch" ++ ds /\ Forall (fun c => is_digit c = true) ds.
(** [line] is [before], a macro name, white space and options; nothing earlier in the line is a macro name. *)
Definition macro_line_of (line before name space options : str) : Prop :=
  line = before ++ name ++ space ++ options /\ macro_name name /\
  (forall k, occurs_at line k -> (length before <= k)%nat) /\
  Forall (fun c => is_space c = true) space /\
  (forall c o, options = c :: o -> is_space c = false) /\
  (forall ds c o, name = lit "%patch" ++ ds -> space ++ options = c :: o -> is_digit c = false).
(** A line that is not one conditional expansion as a whole, and has no macro reference without a name. *)
Definition unwrapped (line : str) : Prop :=
  ~ nameless line /\ ~ exists x, line = PCT :: LBRACE :: x ++ [RBRACE].
(** The lines of %prep that are kept to the letter, and the macro (name and options) they hold, if any. *)
Inductive kept : option (str * str) -> str -> Prop :=
| K_other line : ~ In LF line -> unwrapped line -> ~ mentions_macro line -> kept None line
| K_glued line before name options : ~ In LF line -> unwrapped line ->
    macro_line_of line before name [] options -> options <> [] -> kept None line
| K_macro line before name space options : ~ In LF line -> unwrapped line ->
    macro_line_of line before name space options -> (options <> [] -> space <> []) -> canonical_text options ->
    kept (Some (name, options)) line
| K_wrapped line condition body before name space options : ~ In LF line -> line = condition ++ body ++ [RBRACE] ->
    split_conditional_macro_expansion line = Ok (body, condition, [RBRACE]) ->
    macro_line_of body before name space options -> (options <> [] -> space <> []) -> canonical_text options ->
    kept (Some (name, options)) line.
Fixpoint macros_of (l : list (option (str * str))) : list (str * str) :=
  match l with [] => [] | Some x :: l' => x :: macros_of l' | None :: l' => macros_of l' end.
(** What the macro of a name is: its options and their defaults are those rpm documents. *)
Inductive kind_named : str -> kind * str * list (char * oval) -> Prop :=
| N_setup : kind_named (lit "%setup") (Setup, lit "a:b:cDn:Tq", [(110, VStr (lit "%{name}-%{version}"))])
| N_patch ds : kind_named (lit "%patch" ++ ds) (Patch, lit "P:p:REb:z:F:d:o:Z", [])
| N_autosetup : kind_named (lit "%autosetup") (Autosetup, lit "a:b:cDn:TvNS:p:", [(110, VStr (lit "%{name}-%{version}")); (83, VStr (lit "patch"))])
| N_autopatch : kind_named (lit "%autopatch") (Autopatch, lit "vp:m:M:", []).
(** [m] is the macro with this name and option string. *)
Definition holds (x : str * str) (m : macro) : Prop :=
  m_name m = fst x /\ tokenize (snd x) = Ok (o_tokens (m_opts m)) /\
  kind_named (fst x) (m_kind m, o_optstring (m_opts m), o_defaults (m_opts m)).
Definition other_kept (l l' : str) : Prop := unwrapped l -> ~ mentions_macro l -> l' = l.
End Uni.

(** [l'] is [l] without the line at one place, resp. with one line more. *)
Definition one_removed {A} (x : A) (l l' : list A) : Prop := exists a b, l = a ++ x :: b /\ l' = a ++ b.
(** The numbers in a list grow. *)
Fixpoint growing (l : list Z) : Prop :=
  match l with [] => True | x :: l' => Forall (fun y => (x < y)%Z) l' /\ growing l' end.
Section Patches.
Context {U : Unicode}.
(** The numbers of the patch macros, in order, all of them readable. *)
Definition patch_numbers (l : list macro) (ns : list Z) : Prop :=
  Forall2 (fun m n => number m = Ok n) (filter (fun m => match m_kind m with Patch => true | _ => false end) l) ns.
(** An ordinary %patch macro: a name with or without a number, and a command line. *)
Definition patch_macro (m : macro) (ds : str) (its : list item) : Prop :=
  m_kind m = Patch /\ m_name m = lit "%patch" ++ ds /\ Forall (fun c => is_digit c = true) ds /\
  o_optstring (m_opts m) = lit "P:p:REb:z:F:d:o:Z" /\ o_defaults (m_opts m) = [] /\
  cmdline (o_optstring (m_opts m)) (o_tokens (m_opts m)) its.
(** What the number of such a macro is: in its name, or the option -P, or the first positional argument, or 0. *)
Definition patch_number (ds : str) (its : list item) (n : Z) : Prop :=
  (ds <> [] /\ exists k, int_of_str ds = Some k /\ n = Z.of_N k) \/
  (ds = [] /\ exists k, lookup_opt 80 its = Some (Some (dec k)) /\ n = Z.of_N k) \/
  (ds = [] /\ lookup_opt 80 its = None /\ exists k more, positionals its = dec k :: more /\ n = Z.of_N k) \/
  (ds = [] /\ lookup_opt 80 its = None /\ positionals its = [] /\ n = 0%Z).
(** Options passed by keyword: known ones with values they take, none twice. *)
Definition good_options (kwargs : list (char * oval)) : Prop :=
  Forall (fun kv => known (lit "P:p:REb:z:F:d:o:Z") (fst kv) /\ settable (lit "P:p:REb:z:F:d:o:Z") (fst kv) (snd kv)) kwargs /\
  NoDup (map fst kwargs).
End Patches.
(** The attributes of %prep that stand for macros. *)
Definition prep_attribute (name : str) : Prop :=
  In name [lit "setup"; lit "autosetup"; lit "autopatch"] \/ exists x, name = lit "patch" ++ x.
(** The lines of macros, counted from [k], without the macros with the given numbers. *)
Fixpoint lines_without (gone : list nat) (k : nat) (ms : list macro) : list str :=
  match ms with
  | [] => []
  | m :: ms' => m_preceding m ++ (if existsb (Nat.eqb k) gone then [] else [macro_line m]) ++ lines_without gone (S k) ms'
  end.
(** The numbers of a list fall. *)
Fixpoint falling (l : list nat) : Prop :=
  match l with [] => True | x :: l' => Forall (fun y => (y < x)%nat) l' /\ falling l' end.
