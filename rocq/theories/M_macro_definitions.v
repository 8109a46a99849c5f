(** Model of /repo/specfile/macro_definitions.py. *)
From Coq Require Import Ascii String.
From Coq Require Import NArith ZArith List Bool.
From Verif Require Import PyStr Regex M_value.
Import ListNotations.
Open Scope N_scope.

(** macro_definitions.py 18-28 *)
Inductive comment_out_style := DNL | HASHED | OTHER.

(** macro_definitions.py 31-83 *)
Record mdef := mk_mdef {
  d_name : str; d_body : str; d_is_global : bool; d_commented_out : bool;
  d_style : comment_out_style; d_ws : str * str * str * str;
  d_prefix : str; d_valid : bool; d_preceding : list str }.
(** macro_definitions.py 160-175 *)
Record mdefs := mk_mdefs { md_data : list mdef; md_remainder : list str }.

Definition style_eqb (a b : comment_out_style) : bool :=
  match a, b with DNL, DNL | HASHED, HASHED | OTHER, OTHER => true | _, _ => false end.
Fixpoint strs_eqb (a b : list str) : bool :=
  match a, b with
  | [], [] => true
  | x :: a', y :: b' => str_eqb x y && strs_eqb a' b'
  | _, _ => false
  end.
Definition ws_eqb (a b : str * str * str * str) : bool :=
  let '(a0, a1, a2, a3) := a in let '(b0, b1, b2, b3) := b in
  str_eqb a0 b0 && str_eqb a1 b1 && str_eqb a2 b2 && str_eqb a3 b3.
(** macro_definitions.py 85-97; [valid] is not compared. *)
Definition mdef_eqb (a b : mdef) : bool :=
  str_eqb (d_name a) (d_name b) && str_eqb (d_body a) (d_body b)
  && Bool.eqb (d_is_global a) (d_is_global b) && Bool.eqb (d_commented_out a) (d_commented_out b)
  && style_eqb (d_style a) (d_style b) && ws_eqb (d_ws a) (d_ws b)
  && str_eqb (d_prefix a) (d_prefix b) && strs_eqb (d_preceding a) (d_preceding b).

(** macro_definitions.py 109-116, 136-143: [dnl], [sc], [macro] and the text before the body. *)
Definition d_head (d : mdef) : str :=
  let '(w0, w1, w2, _) := d_ws d in
  let dnl := if d_commented_out d then match d_style d with DNL => lit "%dnl" | _ => [] end else [] in
  let sc := if d_commented_out d then match d_style d with HASHED => [HASH] | _ => [PCT] end else [PCT] in
  let macro := if d_is_global d then lit "global" else lit "define" in
  w0 ++ dnl ++ d_prefix d ++ sc ++ macro ++ w1 ++ d_name d ++ w2.
Definition d_ws3 (d : mdef) : str := let '(_, _, _, w3) := d_ws d in w3.
(** macro_definitions.py 107-117 *)
Definition mdef_str (d : mdef) : str := d_head d ++ d_body d ++ d_ws3 d.
(** macro_definitions.py 144-148: the definition's own lines. *)
Definition own_lines (d : mdef) : list str :=
  match split_on LF [] (d_body d ++ d_ws3 d) with
  | [] => [d_head d]
  | b0 :: bs => (d_head d ++ b0) :: bs
  end.
(** macro_definitions.py 133-149 *)
Definition mdef_raw (d : mdef) : list str := d_preceding d ++ own_lines d.
(** macro_definitions.py 398-403 *)
Definition get_raw_data (m : mdefs) : list str := flat_map mdef_raw (md_data m) ++ md_remainder m.

(** macro_definitions.py 119-131; [container.index(self)] is the first equal element,
    ValueError if there is none. *)
Definition get_position (d : mdef) (container : mdefs) : result nat :=
  match find_index (fun x => mdef_eqb x d) (md_data container) with
  | None => Err ValueError
  | Some k => Ok (length (flat_map mdef_raw (firstn k (md_data container))) + length (d_preceding d))%nat
  end.

Definition with_preceding (p : list str) (d : mdef) : mdef :=
  mk_mdef (d_name d) (d_body d) (d_is_global d) (d_commented_out d) (d_style d) (d_ws d)
          (d_prefix d) (d_valid d) p.
Definition with_body (b : str) (d : mdef) : mdef :=
  mk_mdef (d_name d) b (d_is_global d) (d_commented_out d) (d_style d) (d_ws d)
          (d_prefix d) (d_valid d) (d_preceding d).
Definition with_commented_out (c : bool) (d : mdef) : mdef :=
  mk_mdef (d_name d) (d_body d) (d_is_global d) c (d_style d) (d_ws d)
          (d_prefix d) (d_valid d) (d_preceding d).

(** macro_definitions.py 231-239: [delete(index)]; the index may be negative. *)
Definition delete (m : mdefs) (index : Z) : result mdefs :=
  match py_index (md_data m) index with
  | None => Err IndexError
  | Some k =>
      match nth_error (md_data m) k with
      | None => Err IndexError
      | Some d =>
          let data := remove_at k (md_data m) in
          if (index <? Z.of_nat (length data))%Z then
            match py_index data index with
            | None => Err IndexError
            | Some j => Ok (mk_mdefs (update_at j (fun x => with_preceding (d_preceding d ++ d_preceding x) x) data)
                                     (md_remainder m))
            end
          else Ok (mk_mdefs data (d_preceding d ++ md_remainder m))
      end
  end.
(** macro_definitions.py 241-243: a slice deletes its indices from the last to the first;
    [indices] is [reversed(range(len(self.data))[i])]. *)
Fixpoint delete_all (m : mdefs) (indices : list nat) : result mdefs :=
  match indices with
  | [] => Ok m
  | i :: is => let! m' := delete m (Z.of_nat i) in delete_all m' is
  end.

(** macro_definitions.py 253-283: the loop over [self.data] without a position. *)
Fixpoint find_from (i : nat) (name : str) (first_match : option nat) (l : list mdef) : result nat :=
  match l with
  | [] => match first_match with Some k => Ok k | None => Err ValueError end
  | d :: l' =>
      if str_eqb (d_name d) name then
        let fm := match first_match with None => Some i | Some k => Some k end in
        if d_valid d then Ok i else find_from (S i) name fm l'
      else find_from (S i) name first_match l'
  end.
Definition find (m : mdefs) (name : str) : result nat := find_from 0 name None (md_data m).
(** The same loop with a position. *)
Fixpoint find_at_from (m : mdefs) (i : nat) (name : str) (position : nat) (l : list mdef) : result nat :=
  match l with
  | [] => Err ValueError
  | d :: l' =>
      if str_eqb (d_name d) name then
        let! p := get_position d m in
        if Nat.eqb p position then Ok i else find_at_from m (S i) name position l'
      else find_at_from m (S i) name position l'
  end.
Definition find_at (m : mdefs) (name : str) (position : nat) : result nat :=
  find_at_from m 0 name position (md_data m).
(** macro_definitions.py 181-187 *)
Definition contains (m : mdefs) (name : str) : bool := existsb (fun d => str_eqb (d_name d) name) (md_data m).
(** macro_definitions.py 197-206, string value; [None] is the ordinary attribute case. *)
Definition setattr (m : mdefs) (name body : str) : option mdefs :=
  if contains m name then
    match find m name with
    | Ok k => Some (mk_mdefs (update_at k (with_body body) (md_data m)) (md_remainder m))
    | Err _ => None
    end
  else None.
(** macro_definitions.py 208-214; [None] is the ordinary attribute case. *)
Definition delattr (m : mdefs) (name : str) : option mdefs :=
  if contains m name then
    match find m name with
    | Ok k => Some (mk_mdefs (remove_at k (md_data m)) (md_remainder m))
    | Err _ => None
    end
  else None.

Section Uni.
Context {U : Unicode}.

(** macro_definitions.py 306-322 *)
Definition re_sc : re :=
  IfGrp 2 (Seq (Star false dot) (chr PCT))
          (Alt (chr PCT) (Seq (chr HASH) (Opt (Seq (Star false dot) (chr PCT))))).
Definition re_name : re :=
  Seq (Plus true is_word) (Opt (Seq (chr LPAR) (Seq (Star false dot) (chr RPAR)))).
Definition md_regex : re :=
  Seq Caret (Seq (Grp 1 (Star true is_space)) (Seq (Opt (Grp 2 (word (lit "%dnl"))))
  (Seq (Grp 3 re_sc) (Seq (Grp 4 (Alt (word (lit "global")) (word (lit "define"))))
  (Seq (Grp 5 (Plus true is_space)) (Seq (Grp 6 re_name) (Seq (Grp 7 (Plus true is_space))
  (Seq (Grp 8 (Star false dot)) (Seq (Grp 9 (Alt (Star true is_space) (chr BSLASH))) Dollar))))))))).

(** macro_definitions.py 342 *)
Definition re_trailing : re := Seq (Grp 1 (Plus true space_not_lf)) Dollar.

(** macro_definitions.py 337-341: the body takes further lines while it is open. *)
Definition body_open (body : str) : bool :=
  let (bc, pc) := count_brackets body in
  Nat.ltb 0 bc || Nat.ltb 0 pc || endswith body [BSLASH].
Fixpoint extend_body (body : str) (lines : list (str * bool)) : str * list (str * bool) :=
  match lines with
  | [] => (body, [])
  | (l, _) :: lines' => if body_open body then extend_body (body ++ LF :: l) lines' else (body, lines)
  end.

(** macro_definitions.py 342-347 *)
Definition split_trailing (body ws3 : str) : str * str :=
  match re_split1 re_trailing body with
  | None => (body, ws3)
  | Some (b, m) => (b, group_str 1 m ++ ws3)
  end.

(** macro_definitions.py 331-332, 353-364 *)
Definition sc_escaped (sc : str) : bool := Nat.ltb 1 (length sc) && endswith sc [PCT; PCT].
Definition sc_hashed (sc : str) : bool := match rev sc with c :: _ => c =? HASH | [] => false end.
Definition sc_prefix (sc : str) : str := if Nat.ltb 1 (length sc) then removelast sc else [].

(** macro_definitions.py 330-368: the definition made from a match and the lines left. *)
Definition make_def (m : st) (valid : bool) (buffer : list str) (lines : list (str * bool))
  : mdef * list (str * bool) :=
  let w0 := group_str 1 m in
  let dnl := match group 2 m with Some _ => true | None => false end in
  let sc := group_str 3 m in
  let is_global := str_eqb (group_str 4 m) (lit "global") in
  let w1 := group_str 5 m in
  let name := group_str 6 m in
  let w2 := group_str 7 m in
  let escaped := sc_escaped sc in
  let hashed := sc_hashed sc in
  let hash_in := char_in HASH sc in
  let '(body, w3, lines') :=
    if negb dnl && negb escaped && negb hashed then
      let '(b, w) := if str_eqb (group_str 9 m) [BSLASH]
                     then (group_str 8 m ++ [BSLASH], []) else (group_str 8 m, group_str 9 m) in
      let '(b', ls) := extend_body b lines in (b', w, ls)
    else (group_str 8 m, group_str 9 m, lines) in
  let '(body', w3') := split_trailing body w3 in
  (mk_mdef name body' is_global (dnl || hashed || (escaped && hash_in))
     (if hashed then HASHED else if escaped && hash_in then OTHER else DNL)
     (w0, w1, w2, w3') (sc_prefix sc) valid buffer, lines').

(** macro_definitions.py 323-372; at most one iteration per line. *)
Fixpoint parse_loop (fuel : nat) (lines : list (str * bool)) (data : list mdef) (buffer : list str) : mdefs :=
  match fuel with
  | O => mk_mdefs data buffer
  | S fuel =>
      match lines with
      | [] => mk_mdefs data buffer
      | (line, valid) :: lines' =>
          match re_match md_regex line with
          | Some m => let (d, rest) := make_def m valid buffer lines' in
                      parse_loop fuel rest (data ++ [d]) []
          | None => parse_loop fuel lines' data (buffer ++ [line])
          end
      end
  end.
Definition parse_tagged (lines : list (str * bool)) : mdefs := parse_loop (length lines) lines [] [].
(** macro_definitions.py 299-304: plain lines are valid. *)
Definition parse_plain (lines : list str) : mdefs := parse_tagged (map (fun l => (l, true)) lines).
End Uni.
