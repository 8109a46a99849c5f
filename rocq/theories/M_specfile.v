(** Model of the operations of /repo/specfile/specfile.py on a whole spec file: reading and setting tags (553-620), the release
    (657-681), [update_value] (719-903; the update itself is in M_update), [update_tag], [update_version] and [bump_release].
    A spec file is its list of lines.  Every operation opens views one after another, never one inside another of the same kind, so
    that a view is: parse the lines, run the body, write back (see M_context for what happens when they are nested).
    Not modelled: [autosave]. *)
From Coq Require Import Ascii String.
From Coq Require Import NArith ZArith List Bool.
From Verif Require Import PyStr Regex M_constants M_value M_macro_definitions M_conditions M_sections M_tags M_release M_update.
Import ListNotations.
Open Scope N_scope.

(** specfile.py 979-989: what [m] and [m.span(1)] give for a version *)
Inductive prerelease := NoMatch | NoGroup | NotParticipating | Span (start stop : nat).
Definition with_style (s : comment_out_style) (d : mdef) : mdef :=
  mk_mdef (d_name d) (d_body d) (d_is_global d) (d_commented_out d) s (d_ws d) (d_prefix d) (d_valid d) (d_preceding d).

(** [entities.sort(key=lambda e: e.position)], which is stable *)
Fixpoint insert_entity (e : entity) (l : list entity) : list entity :=
  match l with
  | [] => [e]
  | x :: l' => if Nat.leb (e_position e) (e_position x) then e :: l else x :: insert_entity e l'
  end.
Definition sort_entities (l : list entity) : list entity := fold_right insert_entity [] l.

Section Uni.
Context {U : Unicode}.
(** tags.py 399-405: [getattr(tags, name)].  A name that no tag has is an ordinary attribute, which is taken to be
    missing (so [name] is not the name of a method of a list). *)
Definition tag_index (ts : tags) (name : str) : result nat :=
  if tag_contains ts name then match tag_find ts name with Ok k => Ok k | Err _ => Err AttributeError end
  else Err AttributeError.
Definition set_value_at (k : nat) (v : str) (ts : tags) : tags := mk_tags (update_at k (with_value v) (ts_data ts)) (ts_remainder ts).
(** tags.py 426-427 *)
Definition value_at (k : nat) (ts : tags) : result str := match nth_error (ts_data ts) k with Some t => Ok (t_value t) | None => Err IndexError end.
(** The default of [protected_entities]: ".*name", ignoring case *)
Definition protected_default (s : str) : bool := match re_match (Seq (Star true dot) (ci_word (lit "name"))) s with Some _ => true | None => false end.

(** specfile.py 884-894, one iteration *)
Definition sync_macro (e : entity) (m : mdefs) : result mdefs :=
  let! k := find_at m (e_name e) (e_position e) in
  let f d := if e_updated e then with_commented_out false (with_body (e_value e) d)
             else if e_flip e then with_commented_out (negb (e_disabled e)) d
             else d in
  Ok (mk_mdefs (update_at k f (md_data m)) (md_remainder m)).
(** specfile.py 885-894; when it fails, the definitions changed before are kept. *)
Fixpoint sync_macros (es : list entity) (m : mdefs) : mdefs * result unit :=
  match es with
  | [] => (m, Ok tt)
  | e :: es' =>
      if e_tag e then sync_macros es' m
      else match sync_macro e m with
           | Err x => (m, Err x)
           | Ok m' => sync_macros es' m'
           end
  end.
(** specfile.py 895-901 *)
Fixpoint sync_tags (es : list entity) (ts : tags) : tags * result unit :=
  match es with
  | [] => (ts, Ok tt)
  | e :: es' =>
      if negb (e_tag e) then sync_tags es' ts
      else match tag_find_at ts (e_name e) (e_position e) with
           | Err x => (ts, Err x)
           | Ok k => sync_tags es' (if e_updated e then set_value_at k (e_value e) ts else ts)
           end
  end.

Section World.
Context {W : Type}.
(** [expand lines skip w s]: [self.expand(s, skip_parsing=skip)] when the file has these lines *)
Context (expand : list str -> bool -> W -> str -> result str * W).
Definition op (A : Type) : Type := list str -> W -> list str * W * result A.

(** specfile.py 235-250.  The lines are written back when the body fails, too. *)
Definition view_macros {A} (body : list str -> mdefs -> W -> mdefs * W * result A) : op A := fun lines w =>
  match parse_with_conditions (expand lines) w lines true with
  | (Err e, w) => (lines, w, Err e)
  | (Ok m, w) => let '(m, w, r) := body lines m w in (get_raw_data m, w, r)
  end.
(** specfile.py 252-268 and 270-295 for the section "package" *)
Definition view_tags {A} (body : tags -> W -> tags * W * result A) : op A := fun lines w =>
  match M_sections.parse (expand lines) w lines with
  | (Err e, w) => (lines, w, Err e)
  | (Ok secs, w) =>
      match sec_find secs PREAMBLE with
      | Err _ => (sections_raw secs, w, Err AttributeError)
      | Ok k =>
          match nth_error secs k with
          | None => (sections_raw secs, w, Err AttributeError)
          | Some s =>
              match tags_parse (expand lines) TAG_NAMES w (s_data s) with
              | (Err e, w) => (sections_raw secs, w, Err e)
              | (Ok ts, w) =>
                  let '(ts, w, r) := body ts w in
                  (sections_raw (update_at k (with_data (tags_raw ts)) secs), w, r)
              end
          end
      end
  end.
(** One operation after another *)
Definition andthen {A B} (a : op A) (b : A -> op B) : op B := fun lines w =>
  match a lines w with
  | (lines, w, Err e) => (lines, w, Err e)
  | (lines, w, Ok x) => b x lines w
  end.
Definition done {A} (x : A) : op A := fun lines w => (lines, w, Ok x).
Definition fail {A} (e : exn) : op A := fun lines w => (lines, w, Err e).

(** specfile.py 565-570 *)
Definition get_tag (name : str) : op (option str) :=
  view_tags (fun ts w =>
    (ts, w, Ok match tag_index ts name with Ok k => match value_at k ts with Ok v => Some v | Err _ => None end | Err _ => None end)).
(** specfile.py 572-574 *)
Definition set_tag (name v : str) : op unit :=
  view_tags (fun ts w => match tag_index ts name with Err e => (ts, w, Err e) | Ok k => (set_value_at k v ts, w, Ok tt) end).

(** specfile.py 657-660; a missing tag gives None, which [re.split] does not take. *)
Definition get_release : op str :=
  andthen (get_tag (lit "release")) (fun raw => match raw with Some raw => done (release_of raw) | None => fail TypeError end).
(** specfile.py 662-664 *)
Definition set_release (v : str) : op unit :=
  andthen (get_tag (lit "release")) (fun raw =>
    match raw with Some raw => set_tag (lit "release") (get_updated_release raw v) | None => fail TypeError end).
(** specfile.py 671-681 *)
Definition set_version_and_release (version release : str) : op unit :=
  view_tags (fun ts w =>
    match tag_index ts (lit "version") with
    | Err e => (ts, w, Err e)
    | Ok k =>
        let ts := set_value_at k version ts in
        match tag_index ts (lit "release") with
        | Err e => (ts, w, Err e)
        | Ok j =>
            match value_at j ts with
            | Err e => (ts, w, Err e)
            | Ok raw => (set_value_at j (get_updated_release raw release) ts, w, Ok tt)
            end
        end
    end).

(** specfile.py 1033-1036: the first definition with such a name *)
Definition release_macro (d : mdef) : bool := str_in (lower (d_name d)) [lit "release"; lit "baserelease"].
(** specfile.py 1023-1038; for a missing tag [ValueParser.parse(None)] is a TypeError. *)
Definition bump_release : op unit :=
  andthen (get_tag (lit "release")) (fun raw =>
    match raw with
    | None => fail TypeError
    | Some raw =>
        match has_autorelease raw with
        | Err e => fail e
        | Ok true => done tt
        | Ok false =>
            andthen (view_macros (fun _ m w =>
                match find_index release_macro (md_data m) with
                | Some k => (mk_mdefs (update_at k (fun d => with_body (bump_release_string (d_body d)) d) (md_data m)) (md_remainder m), w, Ok true)
                | None => (m, w, Ok false)
                end))
              (fun bumped =>
                if bumped : bool then done tt
                else andthen (get_tag (lit "release")) (fun raw =>
                  match raw with Some raw => set_tag (lit "release") (bump_release_string raw) | None => fail TypeError end))
        end
    end).

(** specfile.py 764-779: the comprehension; [skip] is the attribute of [expand] (741-745). *)
Fixpoint macro_entities (protected : str -> bool) (lines : list str) (m : mdefs) (skip : bool) (l : list mdef) (w : W) : W * result (list entity) :=
  match l with
  | [] => (w, Ok [])
  | d :: l' =>
      if d_valid d && negb (protected (d_name d)) && negb (endswith (d_name d) [RPAR]) then
        match get_position d m with
        | Err e => (w, Err e)
        | Ok p =>
            let after disabled skip w :=
              match macro_entities protected lines m skip l' w with
              | (w, Err e) => (w, Err e)
              | (w, Ok es) => (w, Ok (mk_entity (d_name d) (d_body d) false p disabled false false false :: es))
              end in
            if d_commented_out d then after true skip w
            else match expand lines skip w (d_body d) with
                 | (Err e, w) => (w, Err e)
                 | (Ok x, w) => after (str_eqb x []) true w
                 end
        end
      else macro_entities protected lines m skip l' w
  end.
(** specfile.py 780-787 *)
Fixpoint tag_entities (protected : str -> bool) (ts : tags) (l : list tag) : result (list entity) :=
  match l with
  | [] => Ok []
  | t :: l' =>
      if t_valid t && negb (protected (t_name t)) then
        let! p := tag_position t ts in
        let! es := tag_entities protected ts l' in
        Ok (mk_entity (lower (t_name t)) (t_value t) true p false false false false :: es)
      else tag_entities protected ts l'
  end.
(** specfile.py 719-903.  While the value is updated, [expand] may parse the spec file again; that is left to the oracle. *)
Definition update_value (isidentifier protected : str -> bool) (value requested : str) (position : nat) : op str :=
  andthen (view_macros (fun lines m w => let (w, r) := macro_entities protected lines m false (md_data m) w in (m, w, r))) (fun es1 =>
  andthen (view_tags (fun ts w => (ts, w, tag_entities protected ts (ts_data ts)))) (fun es2 =>
  andthen (fun lines w =>
    let (w, r) := update (fun s w => let (x, w) := expand lines false w s in (w, x)) isidentifier (S position) value requested position (sort_entities (es1 ++ es2)) w in
    (lines, w, r)) (fun r =>
  let (es, v) := r : list entity * str in
  andthen (view_macros (fun _ m w => let (m, r) := sync_macros es m in (m, w, r))) (fun _ =>
  andthen (view_tags (fun ts w => let (ts, r) := sync_tags es ts in (ts, w, r))) (fun _ => done v))))).
(** specfile.py 905-929 *)
Definition update_tag (isidentifier protected : str -> bool) (name v : str) : op unit :=
  andthen (view_tags (fun ts w =>
      (ts, w, let! k := tag_index ts name in
              match nth_error (ts_data ts) k with
              | None => Err IndexError
              | Some t => let! p := tag_position t ts in Ok (t_value t, p)
              end))) (fun x =>
  let (original, position) := x : str * nat in
  andthen (update_value isidentifier protected original v position) (fun updated =>
  set_tag name updated)).

(** specfile.py 963-974 *)
Definition update_macro (macro : option str) (style : comment_out_style) (detected : bool) : op unit :=
  match macro with
  | None | Some [] => done tt
  | Some n =>
      view_macros (fun _ m w =>
        match find m n with
        | Err _ => (m, w, Ok tt)
        | Ok k =>
            let f d := with_commented_out (negb detected) (if d_commented_out d then d else with_style style d) in
            (mk_mdefs (update_at k f (md_data m)) (md_remainder m), w, Ok tt)
        end)
  end.
(** specfile.py 976-989; [pattern] is [re.match] with the pattern.  The span of a group that did not participate is (-1, -1). *)
Definition handle_prerelease (pattern : option (str -> prerelease)) (macro : option str) (style : comment_out_style) (version : str) : op str :=
  match pattern with
  | None => done version
  | Some p =>
      match p version with
      | NoMatch => andthen (update_macro macro style false) (fun _ => done version)
      | NoGroup => fail SpecfileException
      | NotParticipating =>
          let k := pred (length version) in
          andthen (update_macro macro style true) (fun _ => done (firstn k version ++ lit "~" ++ skipn k version))
      | Span a b => andthen (update_macro macro style true) (fun _ => done (firstn a version ++ lit "~" ++ skipn b version))
      end
  end.
(** specfile.py 931-991 *)
Definition update_version (isidentifier : str -> bool) (version : str) (pattern : option (str -> prerelease)) (macro : option str) (style : comment_out_style) : op unit :=
  andthen (handle_prerelease pattern macro style version) (update_tag isidentifier protected_default (lit "Version")).
End World.
End Uni.
