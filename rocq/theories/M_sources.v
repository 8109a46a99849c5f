(** Model of /repo/specfile/sources.py (and [Specfile.add_patch]).  [Sources] and [Patches] differ in the prefix and in
    [_get_initial_tag_setup].  The containers are the tags and the source lists; a source is named by where it is.
    Not modelled here: [remote] (see [M_url]), [filename] (see [M_evr] for the function behind it), expansion, [context], slices (see [M_slice]). *)
From Coq Require Import Ascii String.
From Coq Require Import NArith ZArith List Bool.
From Verif Require Import PyStr Regex M_constants M_value M_macro_definitions M_conditions M_tags M_sourcelist.
Import ListNotations.
Open Scope N_scope.

(** sources.py 244-269; [prefix] 240, 663; [s_patches] tells [Patches] from [Sources]. *)
Record sources := mk_sources {
  s_tags : tags; s_lists : list sourcelist; s_dups : bool; s_implicit : bool; s_digits : nat; s_patches : bool }.
Definition s_prefix (s : sources) : str := if s_patches s then lit "Patch" else lit "Source".
Definition with_tags (t : tags) (s : sources) : sources := mk_sources t (s_lists s) (s_dups s) (s_implicit s) (s_digits s) (s_patches s).
Definition with_lists (l : list sourcelist) (s : sources) : sources := mk_sources (s_tags s) l (s_dups s) (s_implicit s) (s_digits s) (s_patches s).

Section Uni.
Context {U : Unicode}.
(** sources.py 107 *)
Definition number_regex : re := Seq (Grp 1 (Plus true is_digit)) Dollar.
(** sources.py 100-110 *)
Definition extract_number (name : str) : option str :=
  match re_split1 number_regex name with Some (_, m) => Some (group_str 1 m) | None => None end.
(** sources.py 117 *)
Definition explicit_number (name : str) : Z :=
  match extract_number name with
  | Some d => match int_of_str d with Some n => Z.of_N n | None => 0%Z end
  | None => 0%Z
  end.

(** sources.py 78-87, 112-117: a tag source is a tag and, for implicit numbering, its number. *)
Record tag_source := mk_ts { ts_name : str; ts_implicit : option Z; ts_index : nat }.
Definition ts_number (t : tag_source) : Z := match ts_implicit t with Some n => n | None => explicit_number (ts_name t) end.
(** sources.py 119-133 *)
Definition number_digits (name : str) (implicit : option Z) : nat :=
  match implicit with
  | Some _ => 0
  | None =>
      match extract_number name with
      | None => 0
      | Some d => match d with [] => 0 | c :: _ => if c =? ZERO then length d else 1 end
      end
  end.
(** sources.py 362 *)
Definition numbered_regex (prefix : str) : re := Seq (word prefix) (Plus true is_digit).
Definition is_numbered (prefix name : str) : bool := match re_match (numbered_regex prefix) name with Some _ => true | None => false end.
(** sources.py 350-373, over the names of the tags. *)
Fixpoint get_tags_from (prefix : str) (i : nat) (last : Z) (names : list str) : list tag_source :=
  match names with
  | [] => []
  | n :: names' =>
      if str_eqb (capitalize n) prefix then mk_ts n (Some (last + 1)%Z) i :: get_tags_from prefix (S i) (last + 1)%Z names'
      else if is_numbered prefix (capitalize n) then mk_ts n None i :: get_tags_from prefix (S i) (explicit_number n) names'
      else get_tags_from prefix (S i) last names'
  end.
Definition get_tags (s : sources) : list tag_source := get_tags_from (s_prefix s) 0 (-1)%Z (map t_name (ts_data (s_tags s))).

(** sources.py 375-394: a source is in the tags, or in a source list, at an index. *)
Inductive place := InTags (i : nat) | InList (l i : nat).
Record item := mk_item { i_number : Z; i_place : place }.
Definition list_items (last : Z) (k : nat) (sl : sourcelist) : list item :=
  map (fun i => mk_item (last + 1 + Z.of_nat i) (InList k i)) (seq 0 (length (sl_data sl))).
Fixpoint lists_items (last : Z) (k : nat) (l : list sourcelist) : list item :=
  match l with [] => [] | sl :: l' => list_items last k sl ++ lists_items last (S k) l' end.
Definition get_items (s : sources) : list item :=
  let t := map (fun ts => mk_item (ts_number ts) (InTags (ts_index ts))) (get_tags s) in
  let last := match rev t with x :: _ => i_number x | [] => (-1)%Z end in
  t ++ lists_items last 0 (s_lists s).
(** sources.py 135-138, 202-205 *)
Definition location_at (s : sources) (p : place) : str :=
  match p with
  | InTags i => match nth_error (ts_data (s_tags s)) i with Some t => t_value t | None => [] end
  | InList l i => match nth_error (s_lists s) l with Some sl => match nth_error (sl_data sl) i with Some e => e_location e | None => [] end | None => [] end
  end.
Definition locations (s : sources) : list str := map (fun x => location_at s (i_place x)) (get_items s).
Definition numbers (s : sources) : list Z := map i_number (get_items s).
(** sources.py 294-298, 632-645 *)
Definition contains (s : sources) (loc : str) : bool := str_in loc (locations s).
Definition count (s : sources) (loc : str) : nat := length (filter (str_eqb loc) (locations s)).

(** sources.py 396-409 *)
Definition detect_implicit (s : sources) : bool :=
  let t := get_tags s in
  if existsb (fun x => match ts_implicit x with None => true | Some _ => false end) t then false
  else if Nat.leb (length t) 1 then s_implicit s else true.
(** [f"{number:0{digits}}"] for a number that is not negative (a negative one does not occur). *)
Definition format_number (n : Z) (digits : nat) : str := dec_pad digits (Z.to_N n).
(** sources.py 411-445: the reference is given by the name and separator of its tag and its implicit number. *)
Definition slice_to (s : str) (diff : Z) : str := if (diff <? 0)%Z then firstn (length s - Z.to_nat (- diff)) s else firstn (Z.to_nat diff) s.
Definition tag_format (s : sources) (rname rsep : str) (rimplicit : option Z) (number : Z) (override : option nat) : str * str :=
  let digits := match override with Some d => d | None => number_digits rname rimplicit end in
  let suffix := if detect_implicit s || Nat.eqb digits 0 then [] else format_number number digits in
  let name := s_prefix s ++ suffix in
  let diff := (Z.of_nat (length rname) - Z.of_nat (length name))%Z in
  if (0 <=? diff)%Z then (name, rsep ++ repeat SPC (Z.to_nat diff))
  else (name, match slice_to rsep diff with [] => [COLON] | x => x end).
(** sources.py 679-684 *)
Definition source_regex : re := Seq (word (lit "Source")) (Star true is_digit).
Definition last_source (names : list str) : option nat :=
  match rev (filter (fun i => match nth_error names i with
                             | Some n => match re_match source_regex (capitalize n) with Some _ => true | None => false end
                             | None => false end) (seq 0 (length names))) with
  | i :: _ => Some i
  | [] => None
  end.
(** sources.py 447-466 *)
Definition initial_setup_base (s : sources) (number : Z) : nat * str * str :=
  let suffix := if s_implicit s || Nat.eqb (s_digits s) 0 then [] else format_number number (s_digits s) in
  (length (ts_data (s_tags s)), s_prefix s ++ suffix, lit ": ").
(** sources.py 667-691 *)
Definition initial_setup (s : sources) (number : Z) : nat * str * str :=
  if s_patches s then
    match last_source (map t_name (ts_data (s_tags s))) with
    | None => initial_setup_base s number
    | Some i =>
        match nth_error (ts_data (s_tags s)) i with
        | None => initial_setup_base s number
        | Some t => let (name, sep) := tag_format s (t_name t) (t_separator t) None number (Some (s_digits s)) in (S i, name, sep)
        end
    end
  else initial_setup_base s number.
(** sources.py 481 *)
Definition last_valid (s : sources) : bool := match rev (ts_data (s_tags s)) with t :: _ => t_valid t | [] => true end.

(** sources.py 499: renaming a tag. *)
Definition rename (name sep : str) (t : tag) : tag := mk_tag name (t_value t) sep (t_comments t) (t_valid t) (t_prefix t) (t_suffix t).
Definition rename_at (i : nat) (name sep : str) (s : sources) : sources :=
  with_tags (mk_tags (update_at i (rename name sep) (ts_data (s_tags s))) (ts_remainder (s_tags s))) s.
(** sources.py 494-501; [n0] is the number of [ts0] as it is now. *)
Fixpoint dedup_from (s : sources) (n0 : Z) (l : list tag_source) : sources :=
  match l with
  | [] => s
  | t1 :: l' =>
      if (ts_number t1 =? n0)%Z then
        match ts_implicit t1 with
        | Some _ => dedup_from s (n0 + 1)%Z l'
        | None =>
            let sep := match nth_error (ts_data (s_tags s)) (ts_index t1) with Some t => t_separator t | None => [] end in
            let (name, sep') := tag_format s (ts_name t1) sep None (n0 + 1)%Z None in
            dedup_from (rename_at (ts_index t1) name sep' s) (explicit_number name) l'
        end
      else dedup_from s (ts_number t1) l'
  end.
(** sources.py 483-501; [IndexError] if there are tags but none from [start] on.  [tags[start:]] for any [start]. *)
Definition dedup (start : Z) (s : sources) : result sources :=
  let t := get_tags s in
  match t with
  | [] => Ok s
  | _ => match skipn (clamp_index t start) t with [] => Err IndexError | t0 :: l => Ok (dedup_from s (ts_number t0) l) end
  end.

(** A new tag; the constructor checks the name (tags.py 232-236). *)
Definition no_comments : comments := mk_comments [] [].
Definition new_tag (name loc sep : str) (valid : bool) : result tag :=
  if valid_tag_name name then Ok (mk_tag name loc sep no_comments valid [] []) else Err ValueError.
Definition insert_tag (s : sources) (index : nat) (name loc sep : str) (valid : bool) : result sources :=
  let! t := new_tag name loc sep valid in
  let! ts := tag_insert (Z.of_nat index) t (s_tags s) in
  Ok (with_tags ts s).
(** [list.insert] into a source list (sources.py 544-552); the index is not negative. *)
Definition insert_entry (s : sources) (l index : nat) (loc : str) : sources :=
  with_lists (update_at l (fun sl =>
    let valid := match py_index (sl_data sl) (Z.of_nat index - 1) with
                 | Some k => match nth_error (sl_data sl) k with Some e => e_valid e | None => true end
                 | None => true end in
    mk_slist (py_insert (sl_data sl) (Z.of_nat index) (mk_entry loc no_comments valid)) (sl_remainder sl)) (s_lists s)) s.
(** sources.py 503-565 *)
Definition insert (s : sources) (i : Z) (loc : str) : result sources :=
  if negb (s_dups s) && contains s loc then Err DuplicateSourceException else
  let items := get_items s in
  let n := Z.of_nat (length items) in
  let i := if (n <? i)%Z then n else i in
  match items with
  | [] =>
      match rev (s_lists s) with
      | sl :: r => Ok (with_lists (rev (mk_slist (sl_data sl ++ [mk_entry loc no_comments true]) (sl_remainder sl) :: r)) s)
      | [] => let '(index, name, sep) := initial_setup s 0%Z in insert_tag s index name loc sep (last_valid s)
      end
  | _ =>
      let! r := (if (i =? n)%Z then
                   match nth_error items (length items - 1) with Some x => Ok (x, 1%nat, (i_number x + 1)%Z) | None => Err IndexError end
                 else match py_index items i with
                      | None => Err IndexError
                      | Some k => match nth_error items k with Some x => Ok (x, 0%nat, i_number x) | None => Err IndexError end
                      end) in
      let '(x, plus, number) := r in
      match i_place x with
      | InTags j =>
          match nth_error (ts_data (s_tags s)) j, List.find (fun t => Nat.eqb (ts_index t) j) (get_tags s) with
          | Some t, Some src =>
              let (name, sep) := tag_format s (t_name t) (t_separator t) (ts_implicit src) number None in
              let! s' := insert_tag s (j + plus) name loc sep (t_valid t) in
              dedup i s'
          | _, _ => Err IndexError
          end
      | InList l j => Ok (insert_entry s l (j + plus) loc)
      end
  end.
(** collections.abc: [append] *)
Definition append (s : sources) (loc : str) : result sources := insert s (Z.of_nat (length (get_items s))) loc.

(** sources.py 587-589: the first source with the least distance. *)
Fixpoint nearest (number : Z) (best : nat * tag_source) (i : nat) (l : list tag_source) : nat * tag_source :=
  match l with
  | [] => best
  | t :: l' =>
      if (Z.abs (ts_number t - number) <? Z.abs (ts_number (snd best) - number))%Z then nearest number (i, t) (S i) l'
      else nearest number best (S i) l'
  end.
(** sources.py 567-604 *)
Definition insert_numbered (s : sources) (number : Z) (loc : str) : result (sources * nat) :=
  if negb (s_dups s) && contains s loc then Err DuplicateSourceException else
  match get_tags s with
  | t0 :: l =>
      let (i, src) := nearest number (0%nat, t0) 1 l in
      let plus := if (ts_number src <? number)%Z then 1%nat else 0%nat in
      match nth_error (ts_data (s_tags s)) (ts_index src) with
      | None => Err IndexError
      | Some t =>
          let (name, sep) := tag_format s (t_name t) (t_separator t) (ts_implicit src) number None in
          let! s' := insert_tag s (ts_index src + plus) name loc sep (t_valid t) in
          let! s'' := dedup (Z.of_nat (i + plus)) s' in
          Ok (s'', (i + plus)%nat)
      end
  | [] =>
      let '(index, name, sep) := initial_setup s number in
      let! s' := insert_tag s index name loc sep (last_valid s) in
      let! s'' := dedup 0%Z s' in
      Ok (s'', 0%nat)
  end.

(** [del container[index]]: tags.py 359-389, [UserList.__delitem__] for a source list. *)
Definition delete_place (s : sources) (p : place) : result sources :=
  match p with
  | InTags i => let! ts := delete_at (Z.of_nat i) (s_tags s) in Ok (with_tags ts s)
  | InList l i => Ok (with_lists (update_at l (fun sl => mk_slist (remove_at i (sl_data sl)) (sl_remainder sl)) (s_lists s)) s)
  end.
Fixpoint delete_places (s : sources) (l : list place) : result sources :=
  match l with [] => Ok s | p :: l' => let! s' := delete_place s p in delete_places s' l' end.
(** sources.py 341-348, an index and a slice (as the list of its indices in order). *)
Definition delete_item (s : sources) (i : Z) : result sources :=
  match py_index (get_items s) i with
  | None => Err IndexError
  | Some k => match nth_error (get_items s) k with Some x => delete_place s (i_place x) | None => Err IndexError end
  end.
Definition delete_slice (s : sources) (is : list nat) : result sources :=
  delete_places s (rev (flat_map (fun k => match nth_error (get_items s) k with Some x => [i_place x] | None => [] end) is)).
(** sources.py 606-615 *)
Definition remove (s : sources) (loc : str) : result sources :=
  delete_places s (rev (map i_place (filter (fun x => str_eqb (location_at s (i_place x)) loc) (get_items s)))).
(** sources.py 617-630 *)
Definition remove_numbered (s : sources) (number : Z) : result sources :=
  match List.find (fun x => (i_number x =? number)%Z) (get_items s) with
  | None => Ok s
  | Some x => delete_place s (i_place x)
  end.
(** sources.py 333-339, with the setters 140-142, 207-209 *)
Definition set_location (s : sources) (i : Z) (loc : str) : result sources :=
  match py_index (get_items s) i with
  | None => Err IndexError
  | Some k =>
      match nth_error (get_items s) k with
      | None => Err IndexError
      | Some x =>
          Ok match i_place x with
             | InTags j => with_tags (mk_tags (update_at j (with_value loc) (ts_data (s_tags s))) (ts_remainder (s_tags s))) s
             | InList l j => with_lists (update_at l (fun sl => mk_slist (update_at j (fun e => mk_entry loc (e_comments e) (e_valid e)) (sl_data sl)) (sl_remainder sl)) (s_lists s)) s
             end
      end
  end.
(** sources.py 318-323 with a slice: [list(zip( *items[i]))[0]] fails for an empty slice. *)
Definition get_slice (s : sources) (is : list nat) : result (list item) :=
  match flat_map (fun k => match nth_error (get_items s) k with Some x => [x] | None => [] end) is with
  | [] => Err IndexError
  | l => Ok l
  end.

(** specfile.py 683-717, without the comment. *)
Definition max_number (s : sources) : Z := fold_left Z.max (numbers s) (-1)%Z.
Definition add_patch (s : sources) (loc : str) (number : option Z) (initial : Z) : result (sources * nat) :=
  let h := max_number s in
  let! n := match number with
            | Some n => if (n <=? h)%Z then Err SourceNumberException else Ok n
            | None => Ok (Z.max (h + 1) initial)
            end in
  insert_numbered s n loc.
End Uni.
