(** Model of /repo/specfile/tags.py.  Not modelled: the [context] of a tag, [Tag.__deepcopy__],
    list aliasing ([Comments.copy] shares the list of preceding lines). *)
From Coq Require Import Ascii String.
From Coq Require Import NArith ZArith List Bool.
From Verif Require Import PyStr Regex M_constants M_value M_macro_definitions M_conditions.
Import ListNotations.
Open Scope N_scope.

(** tags.py 42-63: text and prefix. *)
Record comment := mk_comment { c_text : str; c_prefix : str }.
(** tags.py 57-58 *)
Definition comment_str (c : comment) : str := c_prefix c ++ c_text c.
(** tags.py 52-55 *)
Definition comment_eqb (a b : comment) : bool := str_eqb (c_text a) (c_text b) && str_eqb (c_prefix a) (c_prefix b).
(** tags.py 66-90 *)
Record comments := mk_comments { cs_data : list comment; cs_preceding : list str }.
(** tags.py 193-194 *)
Definition comments_raw (c : comments) : list str := cs_preceding c ++ map comment_str (cs_data c).
(** tags.py 182 *)
Definition comment_regex : re :=
  Seq Caret (Seq (Grp 1 (Seq (Star true is_space) (Seq (chr HASH) (Star true is_space)))) (Seq (Grp 2 (Star true dot)) Dollar)).
(** tags.py 185-190: one iteration, over the reversed lines. *)
Definition comment_step (acc : list comment * list str) (line : str) : list comment * list str :=
  let (cs, pl) := acc in
  match re_match comment_regex line, pl with
  | Some m, [] => (mk_comment (group_str 2 m) (group_str 1 m) :: cs, pl)
  | _, _ => (cs, line :: pl)
  end.
(** tags.py 171-191 *)
Definition comments_parse (lines : list str) : comments :=
  let (cs, pl) := fold_left comment_step (rev lines) ([], []) in mk_comments cs pl.

(** tags.py 197-244 *)
Record tag := mk_tag {
  t_name : str; t_value : str; t_separator : str; t_comments : comments; t_valid : bool;
  t_prefix : str; t_suffix : str }.
Definition with_value (v : str) (t : tag) : tag :=
  mk_tag (t_name t) v (t_separator t) (t_comments t) (t_valid t) (t_prefix t) (t_suffix t).
Definition with_preceding (p : list str) (t : tag) : tag :=
  mk_tag (t_name t) (t_value t) (t_separator t) (mk_comments (cs_data (t_comments t)) p) (t_valid t) (t_prefix t) (t_suffix t).
Definition t_preceding (t : tag) : list str := cs_preceding (t_comments t).
(** [Comments.__eq__] is inherited from [UserList] and compares the comments only. *)
Fixpoint comments_eqb (a b : list comment) : bool :=
  match a, b with
  | [], [] => true
  | x :: a', y :: b' => comment_eqb x y && comments_eqb a' b'
  | _, _ => false
  end.
(** tags.py 246-256 *)
Definition tag_eqb (a b : tag) : bool :=
  str_eqb (t_name a) (t_name b) && str_eqb (t_value a) (t_value b) && str_eqb (t_separator a) (t_separator b)
  && comments_eqb (cs_data (t_comments a)) (cs_data (t_comments b))
  && str_eqb (t_prefix a) (t_prefix b) && str_eqb (t_suffix a) (t_suffix b).

(** tags.py 306-339 *)
Record tags := mk_tags { ts_data : list tag; ts_remainder : list str }.
(** tags.py 556-560: the text of a tag. *)
Definition tag_text (t : tag) : str := t_prefix t ++ t_name t ++ t_separator t ++ t_value t ++ t_suffix t.
(** tags.py 555-560 *)
Definition tag_raw (t : tag) : list str := comments_raw (t_comments t) ++ split_on LF [] (tag_text t).
(** tags.py 546-562 *)
Definition tags_raw (ts : tags) : list str := flat_map tag_raw (ts_data ts) ++ ts_remainder ts.

(** tags.py 290-303; [ValueError] when the tag is not in the container. *)
Definition tag_position (t : tag) (container : tags) : result nat :=
  match find_index (fun x => tag_eqb x t) (ts_data container) with
  | None => Err ValueError
  | Some k =>
      Ok (list_sum (map (fun x => length (comments_raw (t_comments x)) + 1)%nat (firstn k (ts_data container)))
          + length (comments_raw (t_comments t)))%nat
  end.

(** [itertools.dropwhile(lambda line: not line, lines)] *)
Fixpoint drop_empty (l : list str) : list str :=
  match l with [] :: l' => drop_empty l' | _ => l end.
(** tags.py 363-383: the new preceding lines of what follows the deleted tag. *)
Definition merge_preceding (preceding lines : list str) : list str :=
  let delimiter :=
    if match rev preceding with l :: _ => str_eqb l [] | [] => false end
       || match lines with l :: _ => str_eqb l [] | [] => false end
    then [[]] else [] in
  rev (drop_empty (rev preceding)) ++ delimiter ++ drop_empty lines.
(** tags.py 359-389; [i] may be negative, and is used as it is after the deletion. *)
Definition delete_at (i : Z) (ts : tags) : result tags :=
  let l := ts_data ts in
  match py_index l i with
  | None => Err IndexError
  | Some k =>
      match nth_error l k with
      | None => Err IndexError
      | Some t =>
          let l' := remove_at k l in
          if (i <? Z.of_nat (length l'))%Z then
            match py_index l' i with
            | None => Err IndexError
            | Some j => Ok (mk_tags (update_at j (fun x => with_preceding (merge_preceding (t_preceding t) (t_preceding x)) x) l') (ts_remainder ts))
            end
          else Ok (mk_tags l' (merge_preceding (t_preceding t) (ts_remainder ts)))
      end
  end.
(** tags.py 385-387: [del tags[slice]]; the indices of the slice in decreasing order. *)
Fixpoint delete_all (ts : tags) (is : list nat) : result tags :=
  match is with
  | [] => Ok ts
  | i :: is' => let! ts' := delete_at (Z.of_nat i) ts in delete_all ts' is'
  end.
(** [UserList.remove], [UserList.pop]: act on the list only. *)
Definition tag_pop (k : nat) (ts : tags) : tags := mk_tags (remove_at k (ts_data ts)) (ts_remainder ts).

Section Uni.
Context {U : Unicode}.
(** tags.py 391-397 *)
Definition tag_contains (ts : tags) (name : str) : bool := existsb (fun t => str_eqb (lower (t_name t)) (lower name)) (ts_data ts).
(** tags.py 448-461; [capitalize (t_name t)] is [Tag.normalized_name] (275-281). *)
Fixpoint find_from (i : nat) (name : str) (first_match : option nat) (l : list tag) : result nat :=
  match l with
  | [] => match first_match with Some k => Ok k | None => Err ValueError end
  | t :: l' =>
      if str_eqb (capitalize (t_name t)) (capitalize name) then
        let fm := match first_match with Some k => Some k | None => Some i end in
        if t_valid t then Ok i else find_from (S i) name fm l'
      else find_from (S i) name first_match l'
  end.
Definition tag_find (ts : tags) (name : str) : result nat := find_from 0 name None (ts_data ts).
Fixpoint find_at_from (ts : tags) (i : nat) (name : str) (position : nat) (l : list tag) : result nat :=
  match l with
  | [] => Err ValueError
  | t :: l' =>
      if str_eqb (capitalize (t_name t)) (capitalize name) then
        let! p := tag_position t ts in
        if Nat.eqb p position then Ok i else find_at_from ts (S i) name position l'
      else find_at_from ts (S i) name position l'
  end.
Definition tag_find_at (ts : tags) (name : str) (position : nat) : result nat :=
  find_at_from ts 0 name position (ts_data ts).
(** tags.py 407-416, string value; [None] stands for an ordinary attribute. *)
Definition tag_set (ts : tags) (name v : str) : option (result tags) :=
  if tag_contains ts name then
    Some match tag_find ts name with
         | Ok k => Ok (mk_tags (update_at k (with_value v) (ts_data ts)) (ts_remainder ts))
         | Err _ => Err AttributeError
         end
  else None.
(** tags.py 418-424 *)
Definition tag_delattr (ts : tags) (name : str) : option (result tags) :=
  if tag_contains ts name then
    Some match tag_find ts name with
         | Ok k => Ok (mk_tags (remove_at k (ts_data ts)) (ts_remainder ts))
         | Err _ => Err AttributeError
         end
  else None.

(** tags.py 471-477: lines up to the first [%endif], and the others. *)
Definition split_endif (lines : list str) : list str * list str :=
  match find_index (fun l => startswith l (lit "%endif")) lines with
  | Some k => (firstn (S k) lines, skipn (S k) lines)
  | None => ([], lines)
  end.
(** tags.py 463-477 *)
Definition tag_insert (i : Z) (item : tag) (ts : tags) : result tags :=
  let l := ts_data ts in
  let n := Z.of_nat (length l) in
  let i := if (n <? i)%Z then n else i in
  if (i <? n)%Z then
    match py_index l i with
    | None => Err IndexError
    | Some k =>
        match nth_error l k with
        | None => Err IndexError
        | Some x =>
            let (moved, kept) := split_endif (t_preceding x) in
            Ok (mk_tags (py_insert (update_at k (with_preceding kept) l) i (with_preceding (moved ++ t_preceding item) item)) (ts_remainder ts))
        end
    end
  else
    let (moved, kept) := split_endif (ts_remainder ts) in
    Ok (mk_tags (py_insert l i (with_preceding (moved ++ t_preceding item) item)) kept).
(** [UserList.append] *)
Definition tag_append (item : tag) (ts : tags) : tags := mk_tags (ts_data ts ++ [item]) (ts_remainder ts).

(** tags.py 32-39 *)
Definition tag_name_regex (name : str) : re :=
  let r := ci_word name in
  if str_in name TAGS_WITH_ARG then
    Seq r (Opt (Seq (Star true is_space) (Seq (chr LPAR) (Seq (Star true is_space)
      (Seq (Star true (fun c => negb (is_space c) && negb (c =? RPAR))) (Seq (Star true is_space) (chr RPAR)))))))
  else if str_in name [lit "source"; lit "patch"] then Seq r (Star true is_digit)
  else r.
(** tags.py 232-236 *)
Definition valid_tag_name (name : str) : bool :=
  negb (str_eqb name []) &&
  existsb (fun n => match re_match (tag_name_regex n) name with Some _ => true | None => false end) TAG_NAMES.
(** tags.py 499-501 *)
Definition tag_regex (name : str) : re :=
  Seq Caret (Seq (Grp 1 (tag_name_regex name))
    (Seq (Grp 2 (Seq (Star true is_space) (Seq (chr COLON) (Star true is_space)))) (Grp 3 (Plus true dot)))).
(** tags.py 516: the first matching regex; [names] is the iteration order of the set [TAG_NAMES]. *)
Fixpoint first_match (names : list str) (line : str) : option st :=
  match names with
  | [] => None
  | n :: names' => match re_match (tag_regex n) line with Some m => Some m | None => first_match names' line end
  end.

(** tags.py 520, 528 *)
Definition value_open (v : str) : bool := let (bc, pc) := count_brackets v in Nat.ltb 0 bc || Nat.ltb 0 pc.
(** tags.py 521-528: value, white space and the lines left. *)
Fixpoint extend_value (value ws : str) (lines : list (str * bool)) : str * str * list (str * bool) :=
  match lines with
  | [] => (value, ws, [])
  | (l, _) :: lines' =>
      if value_open value then
        let value1 := value ++ ws in
        let '(l1, ws1) := match re_split1 re_trailing l with Some (b, m) => (b, group_str 1 m) | None => (l, ws) end in
        extend_value (value1 ++ LF :: l1) ws1 lines'
      else (value, ws, lines)
  end.
(** tags.py 508-549; at most one iteration per line. *)
Fixpoint tags_loop (names : list str) (fuel : nat) (lines : list (str * bool)) (data : list tag) (buffer : list str) : result tags :=
  match fuel with
  | O => Ok (mk_tags data buffer)
  | S fuel =>
      match lines with
      | [] => Ok (mk_tags data buffer)
      | (line0, valid) :: lines' =>
          let '(line, ws) := split_trailing line0 [] in
          let! s := split_conditional_macro_expansion line in
          let '(line1, prefix, suffix) := s in
          match first_match names line1 with
          | Some m =>
              let '(value, ws', lines'') :=
                if str_eqb suffix [] then extend_value (group_str 3 m) ws lines' else (group_str 3 m, ws, lines') in
              tags_loop names fuel lines''
                (data ++ [mk_tag (group_str 1 m) value (group_str 2 m) (comments_parse buffer) valid prefix (suffix ++ ws')]) []
          | None => tags_loop names fuel lines' data (buffer ++ [prefix ++ line1 ++ suffix ++ ws])
          end
      end
  end.
Section Parse.
Context {W : Type} (expand : bool -> W -> str -> result str * W).
(** tags.py 479-550 *)
Definition tags_parse (names : list str) (w : W) (lines : list str) : result tags * W :=
  match process_conditions expand w lines (Some (parse_plain lines)) with
  | (Err e, w') => (Err e, w')
  | (Ok tagged, w') => (tags_loop names (length tagged) tagged [] [], w')
  end.
End Parse.
End Uni.
