(** Model of /repo/specfile/sections.py.  Macro expansion is an oracle as in [M_conditions]. *)
From Coq Require Import Ascii String.
From Coq Require Import NArith ZArith List Bool.
From Verif Require Import PyStr Regex M_constants M_options M_macro_definitions.
Import ListNotations.
Open Scope N_scope.

(** sections.py 27 *)
Definition PREAMBLE : str := lit "package".
(** sections.py 30-73; the name is checked by [make_section]. *)
Record section := mk_section { s_name : str; s_opts : opts; s_delimiter : str; s_separator : str; s_data : list str }.
Definition with_data (d : list str) (s : section) : section :=
  mk_section (s_name s) (s_opts s) (s_delimiter s) (s_separator s) d.

(** options.py 413-423: [bool(options)] is true when some recognized option is present. *)
Definition options_true (o : opts) : bool :=
  existsb (fun t => negb (is_ws t) && match t_value t with
                                      | d :: c :: _ => (d =? DASH) && char_in c (optchars o)
                                      | _ => false end) (o_tokens o).

Section Uni.
Context {U : Unicode}.

(** sections.py 67-68: options of a section made without options. *)
Definition section_options (name : str) : str := match SECTION_OPTIONS (lower name) with Some o => o | None => [] end.
(** sections.py 41-73 *)
Definition make_section (name : str) (options : option opts) (delimiter separator : str) (data : list str) : result section :=
  if str_in (lower name) SECTION_NAMES then
    Ok (mk_section name (match options with Some o => o | None => mk_opts [] (section_options name) [] end)
                   delimiter separator data)
  else Err ValueError.

(** sections.py 104-123: the assignment to [_delimiter] gives the same delimiter
    on every later use unless options are changed in between, and is left out. *)
Definition s_delim (s : section) : str :=
  if options_true (s_opts s) then match s_delimiter s with [] => [SPC] | d => d end else s_delimiter s.
Definition s_id (s : section) : str := s_name s ++ s_delim s ++ tokens_str (o_tokens (s_opts s)).
Definition s_nid (s : section) : str := lower (s_name s) ++ s_delim s ++ tokens_str (o_tokens (s_opts s)).
(** sections.py 125-129 *)
Definition is_script (s : section) : bool :=
  match split_ws (s_nid s) with n :: _ => str_in n (SCRIPT_SECTIONS ++ SIMPLE_SCRIPT_SECTIONS) | [] => false end.

(** sections.py 75-79 *)
Definition lines_text (l : list str) : str := flat_map (fun x => x ++ [LF]) l.
Definition section_str (s : section) : str :=
  if str_eqb (s_nid s) PREAMBLE then lines_text (s_data s)
  else PCT :: s_id s ++ s_separator s ++ lines_text (s_data s).
(** sections.py 134-137 *)
Definition section_raw (s : section) : list str :=
  if str_eqb (s_nid s) PREAMBLE then s_data s else splitlines (section_str s).
(** sections.py 163-164, 301-305 *)
Definition sections_str (l : list section) : str := flat_map section_str l.
Definition sections_raw (l : list section) : list str := flat_map section_raw l.

(** sections.py 170-176 *)
Definition sec_contains (l : list section) (id : str) : bool := existsb (fun s => str_eqb (s_nid s) (lower id)) l.
(** sections.py 211-215 *)
Definition sec_find (l : list section) (id : str) : result nat :=
  match find_index (fun s => str_eqb (s_nid s) (lower id)) l with Some k => Ok k | None => Err ValueError end.
(** sections.py 208-209 *)
Definition sec_get (l : list section) (id : str) : result section :=
  let! k := sec_find l id in match nth_error l k with Some s => Ok s | None => Err IndexError end.
(** sections.py 186-195, list value; [None] is the ordinary attribute case. *)
Definition sec_set_data (l : list section) (id : str) (d : list str) : option (list section) :=
  if sec_contains l id then
    match sec_find l id with Ok k => Some (update_at k (with_data d) l) | Err _ => None end
  else None.
(** sections.py 197-203 *)
Definition sec_del (l : list section) (id : str) : option (list section) :=
  if sec_contains l id then
    match sec_find l id with Ok k => Some (remove_at k l) | Err _ => None end
  else None.

(** [re.split(r"(\s+)", s)]: texts and white space alternate. *)
Fixpoint split_spaces (in_ws : bool) (cur : str) (s : str) : list str :=
  match s with
  | [] => if in_ws then [rev cur; []] else [rev cur]
  | c :: s' =>
      if Bool.eqb (is_space c) in_ws then split_spaces in_ws (c :: cur) s'
      else rev cur :: split_spaces (negb in_ws) [c] s'
  end.

Section Parse.
Context {W : Type} (expand : bool -> W -> str -> result str * W).

(** sections.py 232-240, 246-254: does the last token start the content? *)
Definition ends_header (skip : bool) (w : W) (token : str) : result bool * bool * W :=
  match expand skip w token with
  | (Ok expanded, w') => (Ok (startswith expanded [LF]), true, w')
  | (Err RPMException, w') => (Ok false, skip, w')
  | (Err e, w') => (Err e, skip, w')
  end.
(** sections.py 255-256: the last two tokens are popped. *)
Definition pop2 (tokens : list str) : list str * str * str :=
  match rev tokens with
  | t :: s :: r => (rev r, s, t)
  | _ => (tokens, [], [])
  end.
(** sections.py 257-265 *)
Definition header_of (tokens : list str) : result (str * option opts * str) :=
  match tokens with
  | n :: d :: ((_ :: _) as r) =>
      let! l := tokenize (concat r) in Ok (n, Some (mk_opts l (section_options n) []), d)
  | n :: _ => Ok (n, None, [])
  | [] => Err IndexError
  end.
(** sections.py 242-265: name, options, delimiter, separator and content. *)
Definition split_id (skip : bool) (w : W) (line : str) : result (str * option opts * str * str * list str) * bool * W :=
  let tokens := split_spaces false [] line in
  let last_token := last tokens [] in
  if Nat.ltb 2 (length tokens) && startswith last_token [PCT] then
    match ends_header skip w last_token with
    | (Err e, skip', w') => (Err e, skip', w')
    | (Ok true, skip', w') =>
        let '(tokens', sep, t) := pop2 tokens in
        (let! h := header_of tokens' in let '(n, o, d) := h in Ok (n, o, d, sep, [t]), skip', w')
    | (Ok false, skip', w') => (let! h := header_of tokens in let '(n, o, d) := h in Ok (n, o, d, [LF], []), skip', w')
    end
  else (let! h := header_of tokens in let '(n, o, d) := h in Ok (n, o, d, [LF], []), skip, w).

(** sections.py 267-271 *)
Fixpoint excluded_ranges (m : mdefs) (l : list mdef) : result (list (nat * nat)) :=
  match l with
  | [] => Ok []
  | d :: l' =>
      let! p := get_position d m in
      let! rs := excluded_ranges m l' in
      Ok ((p, p + length (split_on LF [] (d_body d)))%nat :: rs)
  end.
Definition excluded (rs : list (nat * nat)) (i : nat) : bool :=
  existsb (fun r => Nat.leb (fst r) i && Nat.ltb i (snd r)) rs.

(** sections.py 272-275 *)
Definition section_regex (n : str) : re :=
  Seq Caret (Seq (chr PCT) (Seq (ci_word n)
    (Grp 1 (Alt (Seq (Plus true is_space) (Seq (Star true dot) (Seq (NotBehind (N.eqb BSLASH)) Dollar))) Dollar)))).
Definition is_header (line : str) : bool :=
  startswith line [PCT] && existsb (fun n => match re_match (section_regex n) line with Some _ => true | None => false end) SECTION_NAMES.
(** sections.py 276-286 *)
Fixpoint starts_from (rs : list (nat * nat)) (i : nat) (lines : list str) : list nat :=
  match lines with
  | [] => []
  | line :: lines' =>
      if negb (excluded rs i) && is_header line then i :: starts_from rs (S i) lines'
      else starts_from rs (S i) lines'
  end.
(** [lines[a:b]] *)
Definition slice {A} (a b : nat) (l : list A) : list A := firstn (b - a) (skipn a l).
(** sections.py 288-298 *)
Fixpoint make_sections (lines : list str) (skip : bool) (w : W) (starts : list nat) : result (list section) * W :=
  match starts with
  | start :: ((next :: _) as starts') =>
      match split_id skip w (tl (nth start lines [])) with
      | (Err e, _, w') => (Err e, w')
      | (Ok (n, o, d, sep, content), skip', w') =>
          match make_section n o d sep (content ++ slice (S start) next lines) with
          | Err e => (Err e, w')
          | Ok s =>
              match make_sections lines skip' w' starts' with
              | (Err e, w'') => (Err e, w'')
              | (Ok l, w'') => (Ok (s :: l), w'')
              end
          end
      end
  | _ => (Ok [], w)
  end.
(** sections.py 217-299 *)
Definition parse (w : W) (lines : list str) : result (list section) * W :=
  let m := parse_plain lines in
  match excluded_ranges m (md_data m) with
  | Err e => (Err e, w)
  | Ok rs =>
      let starts := starts_from rs 0 lines ++ [length lines] in
      match make_section PREAMBLE None [] [LF] (slice 0 (hd 0%nat starts) lines) with
      | Err e => (Err e, w)
      | Ok p =>
          match make_sections lines false w starts with
          | (Err e, w') => (Err e, w')
          | (Ok l, w') => (Ok (p :: l), w')
          end
      end
  end.
End Parse.
End Uni.
