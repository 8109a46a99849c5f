(** Comparing options, %prep macros and lists of sources with [==]: /repo/specfile/options.py (what [collections.abc.Mapping.__eq__] makes of 443-447),
    prep.py 63-73 and 268-271, sourcelist.py 51-54, sources.py 271-282. *)
From Coq Require Import Ascii String.
From Coq Require Import NArith ZArith List Bool.
From Verif Require Import PyStr M_value M_options M_options2 M_prep M_tags M_sourcelist M_sources M_macro_definitions.
From Verif Require M_changelog M_inherited.
Import ListNotations.
Open Scope N_scope.

(** [==] of values: [True] is 1 and [False] is 0. *)
Definition as_number (v : oval) : option Z := match v with VBool b => Some (if b then 1%Z else 0%Z) | VInt z => Some z | _ => None end.
Definition oval_eqb (a b : oval) : bool :=
  match as_number a, as_number b with
  | Some x, Some y => Z.eqb x y
  | None, None => match a, b with VNone, VNone => true | VStr s, VStr t => str_eqb s t | _, _ => false end
  | _, _ => false
  end.
(** [==] of dictionaries: the same keys with equal values. *)
Definition lookup (c : char) (d : list (char * oval)) : option oval := option_map snd (List.find (fun p => fst p =? c) d).
Definition covered (a b : list (char * oval)) : bool :=
  forallb (fun p => match lookup (fst p) a, lookup (fst p) b with Some v, Some w => oval_eqb v w | _, _ => false end) a.
Definition dict_eqb (a b : list (char * oval)) : bool := covered a b && covered b a.

Section Uni.
Context {U : Unicode}.
(** [dict(options.items())] *)
Fixpoint read_all (o : opts) (l : list char) : result (list (char * oval)) :=
  match l with
  | [] => Ok []
  | c :: l' => let! v := opt_get o c in let! r := read_all o l' in Ok ((c, v) :: r)
  end.
Definition opt_items (o : opts) : result (list (char * oval)) := read_all o (opt_iter o).
(** [Mapping.__eq__]: [dict(self.items()) == dict(other.items())] *)
Definition options_eq (a b : opts) : result bool := let! x := opt_items a in let! y := opt_items b in Ok (dict_eqb x y).
(** prep.py 63-73, for two different objects; the kind of macro is not compared, and [and] stops at the first difference. *)
Definition macro_eq (a b : macro) : result bool :=
  if negb (str_eqb (m_name a) (m_name b)) then Ok false
  else
    let! e := options_eq (m_opts a) (m_opts b) in
    Ok (e && str_eqb (m_delim a) (m_delim b) && str_eqb (m_prefix a) (m_prefix b) && str_eqb (m_suffix a) (m_suffix b) && strs_eqb (m_preceding a) (m_preceding b)).
(** [list.__eq__]: lists of different lengths are not compared further. *)
Fixpoint all_equal (a b : list macro) : result bool :=
  match a, b with
  | x :: a', y :: b' => let! e := macro_eq x y in if e then all_equal a' b' else Ok false
  | _, _ => Ok true
  end.
(** prep.py 268-271 *)
Definition prep_eq (a b : prep) : result bool :=
  if Nat.eqb (length (p_macros a)) (length (p_macros b)) then all_equal (p_macros a) (p_macros b) else Ok false.
(** [prep.macros.index(m)] and [prep.macros.remove(m)], inherited from [UserList]; [m] is the object at [k] (it is found there at the latest). *)
Fixpoint index_from (m : macro) (k i : nat) (l : list macro) : result nat :=
  match l with
  | [] => Err ValueError
  | x :: l' => if Nat.eqb i k then Ok i else let! e := macro_eq x m in if e then Ok i else index_from m k (S i) l'
  end.
Definition macros_remove (p : prep) (k : nat) : result prep :=
  match nth_error (p_macros p) k with
  | None => Err ValueError
  | Some m => let! i := index_from m k 0 (p_macros p) in Ok (mk_prep (remove_at i (p_macros p)) (p_remainder p))
  end.
End Uni.

(** sourcelist.py 51-54 *)
Definition entry_eqb (a b : entry) : bool := str_eqb (e_location a) (e_location b) && comments_eqb (cs_data (e_comments a)) (cs_data (e_comments b)).
(** sourcelist.py 82: [Sourcelist] defines no [__eq__]; [UserList.__eq__] compares the entries only. *)
Definition slist_eqb (a b : sourcelist) : bool := M_changelog.list_eqb entry_eqb (sl_data a) (sl_data b).
(** sources.py 271-282: [Patches] are [Sources] too. *)
Definition sources_eqb (a b : sources) : bool :=
  M_inherited.tags_eqb (s_tags a) (s_tags b) && M_changelog.list_eqb slist_eqb (s_lists a) (s_lists b) && Bool.eqb (s_dups a) (s_dups b)
  && Bool.eqb (s_implicit a) (s_implicit b) && Nat.eqb (s_digits a) (s_digits b).
