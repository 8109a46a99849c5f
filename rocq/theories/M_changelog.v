(** Model of /repo/specfile/changelog.py. *)
From Coq Require Import Ascii String.
From Coq Require Import NArith ZArith List Bool.
From Verif Require Import PyStr Regex M_evr.
Import ListNotations.
Open Scope N_scope.

(** changelog.py 37-68 *)
Record entry := mk_entry { header : str; content : list str; following : list str }.
(** changelog.py 198-223; [entries] index 0 is the oldest (bottom) entry. *)
Record changelog := mk_changelog { entries : list entry; predecessor : list str }.

(** changelog.py 322-326: split trailing blank lines off the content. *)
Fixpoint extract_rev (rc : list str) (following_lines : list str) : list str * list str :=
  match rc with
  | [] => ([], following_lines)
  | l :: rc' => if isblank l then extract_rev rc' (l :: following_lines)
                else (rev rc, following_lines)
  end.
Definition extract_following_lines (c : list str) : list str * list str := extract_rev (rev c) [].

(** changelog.py 335-337, 346-348: [data.insert(0, ChangelogEntry(...))]. *)
Definition close_entry (h : str) (c : list str) (data : list entry) : list entry :=
  let (c', fl) := extract_following_lines c in mk_entry h c' fl :: data.

(** changelog.py 328-349: the parsing loop.  [if header:] is the same as
    [header is not None] because a header starts with "*". *)
Fixpoint parse_loop (lines : list str) (data : list entry) (pred : list str)
         (hdr : option str) (c : list str) : changelog :=
  match lines with
  | [] =>
      match hdr with
      | Some h => mk_changelog (close_entry h c data) pred
      | None => mk_changelog data pred
      end
  | line :: lines' =>
      if startswith line [STAR] then
        match hdr with
        | None => parse_loop lines' data pred (Some line) []
        | Some h =>
            if negb (isblank (concat c)) then
              parse_loop lines' (close_entry h c data) pred (Some line) []
            else parse_loop lines' data pred hdr (c ++ [line])
        end
      else
        match hdr with
        | Some _ => parse_loop lines' data pred hdr (c ++ [line])
        | None => parse_loop lines' data (pred ++ [line]) hdr c
        end
  end.

(** changelog.py 311-349 *)
Definition parse (section_lines : list str) : changelog := parse_loop section_lines [] [] None [].

(** changelog.py 359-363 *)
Definition entry_lines (e : entry) : list str := header e :: content e ++ following e.
(** changelog.py 351-364 *)
Definition get_raw_section_data (c : changelog) : list str :=
  predecessor c ++ flat_map entry_lines (rev (entries c)).

(** changelog.py 71-78 *)
Definition list_eqb {A} (eqb : A -> A -> bool) : list A -> list A -> bool :=
  fix go a b := match a, b with
  | [], [] => true | x :: a', y :: b' => eqb x y && go a' b' | _, _ => false end.

(** changelog.py 247-254: [delete(index)] for an index as Python sees it
    (possibly negative).  [self.data[index]] raises IndexError when out of range. *)
Definition delete (c : changelog) (index : Z) : result changelog :=
  match py_index (entries c) index with
  | None => Err IndexError
  | Some k =>
      match nth_error (entries c) k with
      | None => Err IndexError
      | Some e =>
          let data := remove_at k (entries c) in
          let fl := tl (following e) in
          if (index <? Z.of_nat (length data))%Z then
            match py_index data index with
            | None => Err IndexError
            | Some j =>
                Ok (mk_changelog
                      (update_at j (fun x => mk_entry (header x) (content x) (following x ++ fl)) data)
                      (predecessor c))
            end
          else Ok (mk_changelog data (predecessor c ++ fl))
      end
  end.

(** UserList.append: the new (newest) entry goes to the end of [data], the top of the text. *)
Definition append (c : changelog) (e : entry) : changelog :=
  mk_changelog (entries c ++ [e]) (predecessor c).

Section Uni.
Context {U : Unicode}.

(** changelog.py 88-101.  Groups: 1 opening bracket, 2 sb, 3 rb, 4 evr, 5 epoch. *)
Definition entry_evr_regex : re :=
  seqs [Caret; Star true dot;
        Plus true is_space;
        Opt (Grp 1 (Alt (Grp 2 (chr LBRACK)) (Grp 3 (chr LPAR))));
        Grp 4 (seqs [Opt (Grp 5 (Seq (Plus true is_digit) (chr COLON)));
                     Plus true not_space; chr DASH; Plus false not_space]);
        IfGrp 2 (chr RBRACK) (IfGrp 3 (chr RPAR) Eps);
        Opt (chr COLON);
        Star true is_space;
        Dollar].

(** changelog.py 85-104 *)
Definition entry_evr (e : entry) : option str :=
  match re_match entry_evr_regex (header e) with
  | None => None
  | Some m => group 4 m
  end.

(** changelog.py 21-35 *)
Definition WEEKDAYS : list str := map lit ["Mon"; "Tue"; "Wed"; "Thu"; "Fri"; "Sat"; "Sun"]%string.
Definition MONTHS : list str := map lit
  ["Jan"; "Feb"; "Mar"; "Apr"; "May"; "Jun"; "Jul"; "Aug"; "Sep"; "Oct"; "Nov"; "Dec"]%string.

Definition range_c (a b : N) (c : char) : bool := (a <=? c) && (c <=? b).

(** changelog.py 111-131 *)
Definition extended_regex : re :=
  seqs [Grp 1 (alts (map word WEEKDAYS)); chr SPC; Grp 2 (alts (map word MONTHS));
        Plus true (N.eqb SPC);
        Grp 3 (Alt (Seq (Opt (Ch (range_c 49 50))) (Ch is_digit)) (Seq (chr 51) (Ch (range_c 48 49))));
        chr SPC;
        Grp 4 (Alt (Seq (Ch (range_c 48 49)) (Ch is_digit)) (Seq (chr 50) (Ch (range_c 48 51))));
        chr COLON; Grp 5 (Seq (Ch (range_c 48 53)) (Ch is_digit));
        chr COLON; Grp 6 (Seq (Ch (range_c 48 53)) (Ch is_digit));
        chr SPC; Plus true not_space; chr SPC;
        seqs [Ch is_digit; Ch is_digit; Ch is_digit; Ch is_digit]].

(** changelog.py 106-132 *)
Definition extended_timestamp (e : entry) : bool :=
  match re_search extended_regex (header e) with Some _ => true | None => false end.

(** changelog.py 139-150.  Groups: 3 wsp, 4 day, 5 zp. *)
Definition padding_regex : re :=
  seqs [Grp 1 (alts (map word WEEKDAYS)); chr SPC; Grp 2 (alts (map word MONTHS)); chr SPC;
        Grp 3 (Star true (N.eqb SPC));
        Grp 4 (alts [Seq (Opt (Grp 5 (chr ZERO))) (Ch is_digit);
                     Seq (Ch (range_c 49 50)) (Ch is_digit);
                     Seq (chr 51) (Ch (range_c 48 49))])].

(** changelog.py 134-153 *)
Definition day_of_month_padding (e : entry) : str :=
  match re_search padding_regex (header e) with
  | None => []
  | Some (_, m) => group_str 3 m ++ group_str 5 m
  end.

(** A timestamp as seen by [assemble]: date part and, for a datetime, the time
    of day and time zone name (after line 188-190 supplied UTC). *)
Record timestamp := mk_ts {
  t_weekday : nat;  (** 0..6 *) t_month : nat; (** 1..12 *)
  t_day : N; t_year : N;
  t_time : option (N * N * N * str) }.

(** changelog.py 179-195 *)
Definition assemble (ts : timestamp) (author : str) (cont : list str) (evr : option str)
           (padding : str) (append_newline : bool) : entry :=
  let h := lit "* " ++ nth (t_weekday ts) WEEKDAYS [] ++ [SPC] ++ nth (t_month ts - 1) MONTHS [] in
  let h := h ++
    (if endswith padding [ZERO]
     then [SPC] ++ removelast padding ++ dec_pad 2 (t_day ts)
     else [SPC] ++ padding ++ dec (t_day ts)) in
  let h := h ++
    match t_time ts with
    | Some (hh, mm, ss, tz) =>
        [SPC] ++ dec_pad 2 hh ++ [COLON] ++ dec_pad 2 mm ++ [COLON] ++ dec_pad 2 ss ++ [SPC] ++ tz
    | None => []
    end in
  let h := h ++ [SPC] ++ dec_pad 4 (t_year ts) ++ [SPC] ++ author in
  let h := h ++ match evr with Some e => lit " - " ++ e | None => [] end in
  mk_entry h cont (if append_newline then [[]] else []).

Section Filter.
Variable labelCompare : label -> label -> Z.

(** changelog.py 281-285: [re.match] on [None] raises TypeError, which is not caught. *)
Definition parse_evr (s : option str) : result evr :=
  match s with
  | None => Err TypeError
  | Some s =>
      match evr_from_string s with
      | Ok e => Ok e
      | Err _ => Ok (mk_evr 0 (lit "0") [])
      end
  end.

(** [next(i for i, e in enumerate(data) if test)]: evaluated in order, so an
    exception surfaces only if no earlier element matches. *)
Fixpoint first_index (test : entry -> result bool) (data : list entry) (i : nat) : result (option nat) :=
  match data with
  | [] => Ok None
  | e :: data' =>
      let! b := test e in
      if (b : bool) then Ok (Some i) else first_index test data' (S i)
  end.

(** changelog.py 265-309; slices with non-negative bounds. *)
Definition slice {A} (a b : nat) (l : list A) : list A := skipn a (firstn b l).
Definition filter (c : changelog) (since until : option str) : result changelog :=
  let n := length (entries c) in
  let! start_index :=
    match since with
    | None => Ok 0%nat
    | Some s =>
        let! r := first_index (fun e =>
           let! x := parse_evr (entry_evr e) in let! y := parse_evr (Some s) in
           Ok (evr_ge labelCompare x y)) (entries c) 0 in
        Ok (match r with Some i => i | None => S n end)
    end in
  let! end_index :=
    match until with
    | None => Ok (S n)
    | Some s =>
        let! r := first_index (fun e =>
           let! x := parse_evr (entry_evr e) in let! y := parse_evr (Some s) in
           Ok (evr_le labelCompare x y)) (rev (entries c)) 0 in
        Ok (match r with Some j => (n - 1 - j + 1)%nat | None => 0%nat end)
    end in
  Ok (mk_changelog (slice start_index end_index (entries c)) (predecessor c)).
End Filter.
End Uni.
