(** Model of /repo/specfile/prep.py.  Not modelled: [copy], [__repr__], slices of [PrepMacros], sharing of objects. *)
From Coq Require Import Ascii String.
From Coq Require Import NArith ZArith List Bool.
From Verif Require Import PyStr Regex M_value M_options.
Import ListNotations.
Open Scope N_scope.

(** prep.py 95-151: the subclasses of [PrepMacro], in the order of their definition. *)
Inductive kind := Setup | Patch | Autosetup | Autopatch.
Definition canonical_name (k : kind) : str :=
  match k with Setup => lit "%setup" | Patch => lit "%patch" | Autosetup => lit "%autosetup" | Autopatch => lit "%autopatch" end.
Definition optstring (k : kind) : str :=
  match k with
  | Setup => lit "a:b:cDn:Tq"
  | Patch => lit "P:p:REb:z:F:d:o:Z"
  | Autosetup => lit "a:b:cDn:TvNS:p:"
  | Autopatch => lit "vp:m:M:"
  end.
Definition defaults (k : kind) : list (char * oval) :=
  match k with
  | Setup => [(110, VStr (lit "%{name}-%{version}"))]
  | Autosetup => [(110, VStr (lit "%{name}-%{version}")); (83, VStr (lit "patch"))]
  | _ => []
  end.

(** prep.py 20-63 *)
Record macro := mk_macro {
  m_kind : kind; m_name : str; m_opts : opts; m_delim : str; m_prefix : str; m_suffix : str; m_preceding : list str }.
Definition with_preceding (p : list str) (m : macro) : macro :=
  mk_macro (m_kind m) (m_name m) (m_opts m) (m_delim m) (m_prefix m) (m_suffix m) p.
Definition with_name (n : str) (m : macro) : macro :=
  mk_macro (m_kind m) n (m_opts m) (m_delim m) (m_prefix m) (m_suffix m) (m_preceding m).
Definition with_opts (o : opts) (m : macro) : macro :=
  mk_macro (m_kind m) (m_name m) o (m_delim m) (m_prefix m) (m_suffix m) (m_preceding m).
(** prep.py 154-179, 254-263 *)
Record prep := mk_prep { p_macros : list macro; p_remainder : list str }.

(** prep.py 83-92: the line of the macro; the assignment to [_delimiter] shows only in later text. *)
Definition macro_line (m : macro) : str :=
  let options := tokens_str (o_tokens (m_opts m)) in
  let d := match options with [] => m_delim m | _ => match m_delim m with [] => [SPC] | d => d end end in
  m_prefix m ++ m_name m ++ d ++ options ++ m_suffix m.
Definition macro_raw (m : macro) : list str := m_preceding m ++ [macro_line m].
(** prep.py 246-251, 406-413 *)
Definition prep_raw (p : prep) : list str := flat_map macro_raw (p_macros p) ++ p_remainder p.

(** prep.py 185-192: [name in prep]. *)
Definition contains (p : prep) (name : str) : bool :=
  existsb (fun m => if str_eqb name (lit "%patch") then startswith (m_name m) name else str_eqb (m_name m) name) (p_macros p).
(** prep.py 240-244 *)
Definition find (p : prep) (name : str) : result nat :=
  match find_index (fun m => str_eqb (m_name m) name) (p_macros p) with Some k => Ok k | None => Err ValueError end.
(** prep.py 17-18 *)
Definition valid_prep_macro (name : str) : bool :=
  str_in name [lit "setup"; lit "autosetup"; lit "autopatch"] || startswith name (lit "patch").
(** prep.py 224-230, 278-281; [None] is the ordinary attribute case. *)
Definition getattr (p : prep) (name : str) : option (result macro) :=
  if negb (valid_prep_macro name) then None
  else Some match find p (PCT :: name) with
            | Ok k => match nth_error (p_macros p) k with Some m => Ok m | None => Err IndexError end
            | Err _ => Err AttributeError
            end.

(** prep.py 208-217; [index] as Python sees it. *)
Definition delete (p : prep) (index : Z) : result prep :=
  match py_index (p_macros p) index with
  | None => Err IndexError
  | Some k =>
      match nth_error (p_macros p) k with
      | None => Err IndexError
      | Some m =>
          let data := remove_at k (p_macros p) in
          if (index <? Z.of_nat (length data))%Z then
            match py_index data index with
            | None => Err IndexError
            | Some j => Ok (mk_prep (update_at j (fun x => with_preceding (m_preceding m ++ m_preceding x) x) data) (p_remainder p))
            end
          else Ok (mk_prep data (m_preceding m ++ p_remainder p))
      end
  end.
(** prep.py 219-221: a slice, as the list of its indices from the last to the first. *)
Fixpoint delete_all (p : prep) (indices : list nat) : result prep :=
  match indices with
  | [] => Ok p
  | i :: is => let! p' := delete p (Z.of_nat i) in delete_all p' is
  end.
(** prep.py 232-238, 283-286 *)
Definition delattr (p : prep) (name : str) : option (result prep) :=
  if negb (valid_prep_macro name) then None
  else Some match find p (PCT :: name) with
            | Ok k => delete p (Z.of_nat k)
            | Err _ => Err AttributeError
            end.

Section Uni.
Context {U : Unicode}.
(** prep.py 115, 126: [re.split] by the number at the end of a name. *)
Definition digits_at_end : re := Seq (Grp 1 (Plus true is_digit)) Dollar.
(** [int(value)] *)
Definition int_of (v : oval) : result Z :=
  match v with
  | VNone => Err TypeError
  | VBool b => Ok (if b then 1 else 0)%Z
  | VInt z => Ok z
  | VStr s => match py_int s with Some z => Ok z | None => Err ValueError end
  end.
Definition OPT_P : char := 80.
(** prep.py 112-122 *)
Definition number (m : macro) : result Z :=
  match re_split1 digits_at_end (m_name m) with
  | Some (_, g) => match int_of_str (group_str 1 g) with Some n => Ok (Z.of_N n) | None => Err ValueError end
  | None =>
      let! p := opt_get (m_opts m) OPT_P in
      match p with
      | VNone => match get_items (m_opts m) with
                 | [] => Ok 0%Z
                 | _ => let! v := pos_get (m_opts m) 0 in int_of v
                 end
      | _ => int_of p
      end
  end.
(** prep.py 124-134 *)
Definition set_number (m : macro) (value : Z) : result macro :=
  match re_split1 digits_at_end (m_name m) with
  | Some (base, _) => Ok (with_name (base ++ zdec value) m)
  | None =>
      let! p := opt_get (m_opts m) OPT_P in
      match p with
      | VNone => match get_items (m_opts m) with
                 | [] => Ok (with_name (canonical_name Patch ++ zdec value) m)
                 | _ => let! o := pos_set (m_opts m) 0 (VInt value) in Ok (with_opts o m)
                 end
      | _ => let! o := opt_set (m_opts m) OPT_P (VInt value) in Ok (with_opts o m)
      end
  end.

Definition is_patch (m : macro) : bool := match m_kind m with Patch => true | _ => false end.
(** prep.py 319-320: an unknown name sets an ordinary attribute. *)
Fixpoint set_all (o : opts) (kwargs : list (char * oval)) : result opts :=
  match kwargs with
  | [] => Ok o
  | (k, v) :: kw => let! o' := (if valid_option o k then opt_set o k v else Ok o) in set_all o' kw
  end.
(** prep.py 312-321 *)
Definition new_patch (num : option Z) (old_style : bool) (kwargs : list (char * oval)) : result macro :=
  let o := mk_opts [] (optstring Patch) (defaults Patch) in
  let! o1 := match num with
             | Some n => if old_style then Ok o else pos_insert o (Z.of_nat (length (get_items o))) (VInt n)
             | None => Ok o
             end in
  let name := canonical_name Patch ++ match num with Some n => if old_style then zdec n else [] | None => [] end in
  let! o2 := set_all o1 kwargs in
  Ok (mk_macro Patch name o2 [SPC] [] [] []).
(** The numbers of the patch macros, with their indices. *)
Fixpoint numbered (i : nat) (l : list macro) : result (list (nat * Z)) :=
  match l with
  | [] => Ok []
  | m :: l' =>
      if is_patch m then let! n := number m in let! r := numbered (S i) l' in Ok ((i, n) :: r)
      else numbered (S i) l'
  end.
(** [min] with a key: the first of the nearest. *)
Fixpoint nearest (n : Z) (best : nat * Z) (l : list (nat * Z)) : nat * Z :=
  match l with
  | [] => best
  | x :: l' => if (Z.abs (snd x - n) <? Z.abs (snd best - n))%Z then nearest n x l' else nearest n best l'
  end.
(** prep.py 322-333.  Every failing [number] raises ValueError, so the order of evaluation does not show.
    [list.insert] with an index in range. *)
Definition add_patch_macro (p : prep) (num : option Z) (old_style : bool) (kwargs : list (char * oval)) : result prep :=
  let! m := new_patch num old_style kwargs in
  let! ns := numbered 0 (p_macros p) in
  let! index := match ns with
                | [] => Ok (length (p_macros p))
                | x :: l => let! n := number m in
                            let (i, k) := nearest n x l in Ok (if (k <=? n)%Z then S i else i)
                end in
  Ok (mk_prep (firstn index (p_macros p) ++ m :: skipn index (p_macros p)) (p_remainder p)).
(** prep.py 342-349: the first patch macro with this number. *)
Fixpoint index_of_patch (n : Z) (i : nat) (l : list macro) : result (option nat) :=
  match l with
  | [] => Ok None
  | m :: l' =>
      if is_patch m then let! k := number m in if (k =? n)%Z then Ok (Some i) else index_of_patch n (S i) l'
      else index_of_patch n (S i) l'
  end.
(** prep.py 335-351: [if index:] is false for 0. *)
Definition remove_patch_macro (p : prep) (n : Z) : result prep :=
  let! index := index_of_patch n 0 (p_macros p) in
  match index with
  | Some (S k) => delete p (Z.of_nat (S k))
  | _ => Ok p
  end.

(** prep.py 364-366: groups 1 [m], 2 [d], 3 [o]. *)
Definition macro_regex : re :=
  Seq (Grp 1 (Seq (chr PCT) (alts [word (lit "setup"); Seq (word (lit "patch")) (Star true is_digit);
                                   word (lit "autopatch"); word (lit "autosetup")])))
  (Seq (Grp 2 (Star true is_space)) (Seq (Grp 3 (Star false dot)) Dollar)).
(** prep.py 386-393 *)
Definition kind_of (name : str) : option kind :=
  List.find (fun k => startswith name (canonical_name k)) [Setup; Patch; Autosetup; Autopatch].
(** prep.py 370-402 *)
Fixpoint parse_loop (lines : list str) (data : list macro) (buffer : list str) : result prep :=
  match lines with
  | [] => Ok (mk_prep data buffer)
  | line0 :: lines' =>
      let! s := split_conditional_macro_expansion line0 in
      let '(line, prefix, suffix) := s in
      match re_search macro_regex line with
      | None => parse_loop lines' data (buffer ++ [line])
      | Some (before, m) =>
          let name := group_str 1 m in
          let delimiter := group_str 2 m in
          let option_string := group_str 3 m in
          if str_eqb delimiter [] && negb (str_eqb option_string []) then parse_loop lines' data (buffer ++ [line])
          else
            match kind_of name with
            | None => parse_loop lines' data (buffer ++ [line])
            | Some k =>
                let! toks := tokenize option_string in
                parse_loop lines'
                  (data ++ [mk_macro k name (mk_opts toks (optstring k) (defaults k)) delimiter (prefix ++ rev before)
                                     (rest m ++ suffix) buffer]) []
            end
      end
  end.
(** prep.py 353-404 *)
Definition parse (section : list str) : result prep := parse_loop section [] [].
End Uni.
