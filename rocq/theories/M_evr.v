(** Model of /repo/specfile/utils.py 17-242 (EVR, NEVR, NEVRA) and 245-260. *)
From Coq Require Import Ascii String.
From Coq Require Import NArith ZArith List Bool.
From Verif Require Import PyStr Regex M_constants.
Import ListNotations.
Open Scope N_scope.

(** utils.py 22-25.  Simplification: epoch is a non-negative integer. *)
Record evr := mk_evr { e_epoch : N; e_version : str; e_release : str }.

(** utils.py 92-96: NEVR adds a name to EVR. *)
Record nevr := mk_nevr { n_name : str; n_evr : evr }.

(** utils.py 167-173: NEVRA adds an architecture.  [None] release models the
    [None] that [NEVRA.from_string] passes on (line 242). *)
Record nevra := mk_nevra {
  a_name : str; a_epoch : N; a_version : str; a_release : option str; a_arch : str }.

(** utils.py 27-28, 98-99, 175-176: the key that is hashed. *)
Definition evr_key (x : evr) : N * str * str := (e_epoch x, e_version x, e_release x).
Definition nevr_key (x : nevr) := (n_name x, evr_key (n_evr x)).
Definition nevra_key (x : nevra) :=
  (a_name x, a_epoch x, a_version x, a_release x, a_arch x).

(** utils.py 33-34: the tuple handed to RPM. [version or "0"]. *)
Definition label := (str * str * option str)%type.
Definition or_zero (v : str) : str := match v with [] => lit "0" | _ => v end.
Definition evr_label (x : evr) : label := (dec (e_epoch x), or_zero (e_version x), Some (e_release x)).
Definition nevra_label (x : nevra) : label := (dec (a_epoch x), or_zero (a_version x), a_release x).

Section Cmp.
(** [rpm.labelCompare]: an oracle. *)
Variable labelCompare : label -> label -> Z.

(** utils.py 36-37 *)
Definition evr_cmp (x y : evr) : Z := labelCompare (evr_label x) (evr_label y).
(** utils.py 39-67 (both operands of class EVR). *)
Definition evr_lt x y := (evr_cmp x y <? 0)%Z.
Definition evr_le x y := (evr_cmp x y <=? 0)%Z.
Definition evr_eq x y := (evr_cmp x y =? 0)%Z.
Definition evr_ne x y := negb (evr_cmp x y =? 0)%Z.
Definition evr_ge x y := (evr_cmp x y >=? 0)%Z.
Definition evr_gt x y := (evr_cmp x y >? 0)%Z.

(** utils.py 104-142; [None] is NotImplemented, which Python turns into
    TypeError for the ordering operators. *)
Definition nevr_ord (f : evr -> evr -> bool) (x y : nevr) : option bool :=
  if negb (str_eqb (n_name x) (n_name y)) then None else Some (f (n_evr x) (n_evr y)).
Definition nevr_lt := nevr_ord evr_lt.
Definition nevr_le := nevr_ord evr_le.
Definition nevr_ge := nevr_ord evr_ge.
Definition nevr_gt := nevr_ord evr_gt.
Definition nevr_eq (x y : nevr) : bool :=
  str_eqb (n_name x) (n_name y) && evr_eq (n_evr x) (n_evr y).
Definition nevr_ne (x y : nevr) : bool :=
  negb (str_eqb (n_name x) (n_name y)) || evr_ne (n_evr x) (n_evr y).

(** utils.py 181-224 *)
Definition nevra_cmp (x y : nevra) : Z := labelCompare (nevra_label x) (nevra_label y).
Definition nevra_ord (f : Z -> bool) (x y : nevra) : option bool :=
  if negb (str_eqb (a_name x) (a_name y)) || negb (str_eqb (a_arch x) (a_arch y))
  then None else Some (f (nevra_cmp x y)).
Definition nevra_lt := nevra_ord (fun z => z <? 0)%Z.
Definition nevra_le := nevra_ord (fun z => z <=? 0)%Z.
Definition nevra_ge := nevra_ord (fun z => z >=? 0)%Z.
Definition nevra_gt := nevra_ord (fun z => z >? 0)%Z.
Definition nevra_eq (x y : nevra) : bool :=
  str_eqb (a_name x) (a_name y) && str_eqb (a_arch x) (a_arch y) && (nevra_cmp x y =? 0)%Z.
Definition nevra_ne (x y : nevra) : bool :=
  negb (str_eqb (a_name x) (a_name y)) || negb (str_eqb (a_arch x) (a_arch y))
  || negb (nevra_cmp x y =? 0)%Z.
End Cmp.

(** utils.py 73-76, 150-151, 233-234 *)
Definition evr_str (x : evr) : str :=
  (if 0 <? e_epoch x then dec (e_epoch x) ++ [COLON] else []) ++ e_version x ++
  (match e_release x with [] => [] | r => DASH :: r end).
Definition nevr_str (x : nevr) : str := n_name x ++ [DASH] ++ evr_str (n_evr x).
Definition nevra_str (x : nevra) : str :=
  nevr_str (mk_nevr (a_name x)
     (mk_evr (a_epoch x) (a_version x) (match a_release x with Some r => r | None => [] end)))
  ++ [DOT] ++ a_arch x.

Section FromString.
Context {U : Unicode}.

Definition not_dash (c : char) : bool := negb (c =? DASH).

(** utils.py 20: [(?:(\d+):)?([^-]+?)(?:-([^-]+))?]; groups are numbered from [k]. *)
Definition evr_regex (k : nat) : re :=
  seqs [Opt (Seq (Grp k (Plus true is_digit)) (chr COLON));
        Grp (k + 1) (Plus false not_dash);
        Opt (Seq (chr DASH) (Grp (k + 2) (Plus true not_dash)))].

(** [int(e) if e else 0] on group [k]. *)
Definition epoch_group (k : nat) (m : st) : N :=
  match group k m with
  | Some e => match int_of_str e with Some n => n | None => 0 end
  | None => 0
  end.

(** utils.py 78-84 *)
Definition evr_from_string (s : str) : result evr :=
  match re_match (Seq Caret (Seq (evr_regex 1) Dollar)) s with
  | None => Err SpecfileException
  | Some m => Ok (mk_evr (epoch_group 1 m) (group_str 2 m) (group_str 3 m))
  end.

(** utils.py 90: [(.+?)-] followed by the EVR pattern. *)
Definition nevr_regex : re :=
  Seq (Grp 1 (Plus false dot)) (Seq (chr DASH) (evr_regex 2)).

(** utils.py 153-159 *)
Definition nevr_from_string (s : str) : result nevr :=
  match re_match (Seq Caret (Seq nevr_regex Dollar)) s with
  | None => Err SpecfileException
  | Some m => Ok (mk_nevr (group_str 1 m)
                    (mk_evr (epoch_group 2 m) (group_str 3 m) (group_str 4 m)))
  end.

(** utils.py 164-165: [arches] is the iteration order of [ARCH_NAMES | {"noarch"}]. *)
Definition arch_set : list str := ARCH_NAMES ++ [lit "noarch"].
Definition arches_regex (n : nat) (arches : list str) : re := Grp n (alts (map word arches)).
Definition nevra_regex (arches : list str) : re :=
  Seq nevr_regex (Seq (chr DOT) (arches_regex 5 arches)).

(** utils.py 167-173 *)
Definition make_nevra (arches : list str) (n : str) (e : N) (v : str) (r : option str) (a : str) : result nevra :=
  match re_match (Seq Caret (Seq (arches_regex 1 arches) Dollar)) a with
  | None => Err SpecfileException
  | Some _ => Ok (mk_nevra n e v r a)
  end.

(** utils.py 236-242 *)
Definition nevra_from_string (arches : list str) (s : str) : result nevra :=
  match re_match (Seq Caret (Seq (nevra_regex arches) Dollar)) s with
  | None => Err SpecfileException
  | Some m => make_nevra arches (group_str 1 m) (epoch_group 2 m) (group_str 3 m)
                (group 4 m) (group_str 5 m)
  end.
End FromString.

(** [s.rfind(c)] as a split: text before the last [c] and text after it. *)
Fixpoint rsplit_last (c : char) (s : str) : option (str * str) :=
  match s with
  | [] => None
  | d :: s' =>
      match rsplit_last c s' with
      | Some (a, b) => Some (d :: a, b)
      | None => if d =? c then Some ([], s') else None
      end
  end.

(** utils.py 245-260.  [x.split("=")[-1]] is the last element of the split. *)
Definition get_filename_from_location (location : str) : str :=
  match rsplit_last SLASH location with
  | None => location
  | Some (_, b) => last (split_on EQUALS [] b) []
  end.
