(** Model of the views of sources and patches of a whole spec file (/repo/specfile/specfile.py 348-427) and of [add_patch] (683-717).
    The containers themselves are in M_sources, and views of other kinds in M_specfile. *)
From Coq Require Import Ascii String.
From Coq Require Import NArith ZArith List Bool.
From Verif Require Import PyStr Regex M_constants M_value M_macro_definitions M_conditions M_sections M_tags M_sourcelist M_sources M_specfile.
Import ListNotations.
Open Scope N_scope.

(** specfile.py 373, 413: the identifier is compared as it is written *)
Definition list_name (patches : bool) : str := if patches then lit "patchlist" else lit "sourcelist".
Definition is_list (patches : bool) (s : section) : bool := str_eqb (s_id s) (list_name patches).
(** specfile.py 388-389, 428-429: the lists are written to the sections they come from *)
Fixpoint write_lists (patches : bool) (secs : list section) (ls : list sourcelist) : list section :=
  match secs with
  | [] => []
  | s :: secs' =>
      if is_list patches s then
        match ls with
        | l :: ls' => with_data (slist_raw l) s :: write_lists patches secs' ls'
        | [] => s :: write_lists patches secs' []
        end
      else s :: write_lists patches secs' ls
  end.
Section Uni.
Context {U : Unicode}.
Section Lists.
Context {W : Type} (expand : bool -> W -> str -> result str * W).
(** specfile.py 370-374 *)
Fixpoint parse_lists (patches : bool) (w : W) (secs : list section) : result (list sourcelist) * W :=
  match secs with
  | [] => (Ok [], w)
  | s :: secs' =>
      if is_list patches s then
        match slist_parse expand w (s_data s) with
        | (Err e, w) => (Err e, w)
        | (Ok l, w) => match parse_lists patches w secs' with (Err e, w) => (Err e, w) | (Ok ls, w) => (Ok (l :: ls), w) end
        end
      else parse_lists patches w secs'
  end.
End Lists.
Section World.
Context {W : Type} (expand : list str -> bool -> W -> str -> result str * W).
(** specfile.py 348-427.  When a list cannot be read, the tags are written back already. *)
Definition view_sources {A} (patches dups implicit : bool) (digits : nat) (body : sources -> W -> sources * W * result A) : op (W:=W) A := fun lines w =>
  match M_sections.parse (expand lines) w lines with
  | (Err e, w) => (lines, w, Err e)
  | (Ok secs, w) =>
      match sec_find secs PREAMBLE with
      | Err _ => (sections_raw secs, w, Err AttributeError)
      | Ok k =>
          match nth_error secs k with
          | None => (sections_raw secs, w, Err AttributeError)
          | Some s =>
              match tags_parse (expand lines) TAG_NAMES w (s_data s) with
              | (Err e, w) => (sections_raw secs, w, Err e)
              | (Ok ts, w) =>
                  match parse_lists (expand lines) patches w secs with
                  | (Err e, w) => (sections_raw (update_at k (with_data (tags_raw ts)) secs), w, Err e)
                  | (Ok ls, w) =>
                      let '(s, w, r) := body (mk_sources ts ls dups implicit digits patches) w in
                      (sections_raw (update_at k (with_data (tags_raw (s_tags s))) (write_lists patches secs (s_lists s))), w, r)
                  end
              end
          end
      end
  end.
(** [with spec.sources() as sources: f(sources)].  Simplification: if [f] fails, nothing was changed (see M_sources: all checks come first, except for
    what [insert] does with tags whose names no spec file has). *)
Definition edit_sources (patches dups implicit : bool) (digits : nat) (f : sources -> result sources) : op (W:=W) unit :=
  view_sources patches dups implicit digits (fun s w => match f s with Ok s' => (s', w, Ok tt) | Err e => (s, w, Err e) end).

(** tags.py 51-53: a comment made from a text *)
Definition text_comment (text : str) : comment := mk_comment text (lit "# ").
Definition add_comments (l : list str) (c : comments) : comments := mk_comments (cs_data c ++ map text_comment l) (cs_preceding c).
(** [sources[index].comments.extend(lines)] *)
Definition extend_comments (s : sources) (index : nat) (l : list str) : sources :=
  match nth_error (get_items s) index with
  | None => s
  | Some x =>
      match i_place x with
      | InTags j => with_tags (mk_tags (update_at j (fun t => mk_tag (M_tags.t_name t) (M_tags.t_value t) (t_separator t) (add_comments l (t_comments t)) (t_valid t) (t_prefix t) (t_suffix t)) (ts_data (s_tags s))) (ts_remainder (s_tags s))) s
      | InList k j => with_lists (update_at k (fun sl => mk_slist (update_at j (fun e => mk_entry (e_location e) (add_comments l (e_comments e)) (e_valid e)) (sl_data sl)) (sl_remainder sl)) (s_lists s)) s
      end
  end.
(** specfile.py 683-717; no comment and an empty one are the same *)
Definition spec_add_patch (loc : str) (number : option Z) (comment : str) (initial : Z) (digits : nat) : op (W:=W) unit :=
  edit_sources true false false digits (fun s =>
    let! r := add_patch s loc number initial in
    Ok (extend_comments (fst r) (snd r) (splitlines comment))).
End World.
End Uni.
