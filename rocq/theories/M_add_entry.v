(** Model of adding changelog entries to a spec file: specfile/specfile.py [add_changelog_entry] and changelog.py [guess_packager]. *)
From Coq Require Import Ascii String.
From Coq Require Import NArith ZArith List Bool.
From Verif Require Import PyStr M_sections M_changelog M_release.
Import ListNotations.
Open Scope N_scope.

(** What [guess_packager] finds: [$RPM_PACKAGER], the expansion of [%packager], the output of git (if it is installed) for the
    e-mail and the name, and the entry of the user in the password database. *)
Record surroundings := mk_surroundings {
  rpm_packager : option str; packager_macro : str; git : option (str * str); gecos : str; username : str }.
(** changelog.py 366-370 *)
Definition getent_name (g : surroundings) : str := match gecos g with [] => username g | n => n end.
(** changelog.py 373-416; failures of [getpwnam] are not modelled. *)
Definition guess_packager (g : surroundings) : str :=
  match rpm_packager g with
  | Some p => p
  | None =>
      if negb (str_eqb (packager_macro g) (lit "%packager")) then packager_macro g
      else
        let (email, fullname) := match git g with Some (e, n) => (strip e, strip n) | None => ([], []) end in
        let fullname := match fullname with [] => getent_name g | _ => fullname end in
        match fullname, email with
        | _ :: _, _ :: _ => fullname ++ lit " <" ++ email ++ lit ">"
        | _, _ :: _ => email
        | _, [] => fullname
        end
  end.

(** [max(items, key=len)]: the first of the longest ones *)
Fixpoint longest (best : str) (l : list str) : str :=
  match l with
  | [] => best
  | x :: l' => longest (if Nat.ltb (length best) (length x) then x else best) l'
  end.
(** specfile.py 530-538 *)
Definition entry_padding {U : Unicode} (c : changelog) : str :=
  match rev (map day_of_month_padding (entries c)) with
  | [] => [ZERO]
  | x :: l => longest x l
  end.

Section Add.
Context {U : Unicode} {W : Type}.
(** [self.expand(evr, extra_macros=[("dist", "")])]; what [guess_packager] finds; the current time, extended or not *)
Context (expand : str -> W -> W * result str) (surround : W -> surroundings) (now : bool -> W -> timestamp).
Definition DEFAULT_EVR : str := lit "%{?epoch:%{epoch}:}%{version}-%{release}".
(** specfile.py 522-528 *)
Definition entry_author (author email : option str) (w : W) : result str :=
  match author with
  | None => match guess_packager (surround w) with [] => Err SpecfileException | a => Ok a end
  | Some a => Ok (match email with Some e => a ++ lit " <" ++ e ++ lit ">" | None => a end)
  end.
(** specfile.py 505-551: the loop over sections.  [author], [timestamp] and [evr] are assigned to in the loop and so are carried on.
    When it fails, the changelog at hand is written back (324-325), and the sections after it are as they were. *)
Fixpoint add_entries (entry : list str) (email author evr : option str) (ts : option timestamp) (secs : list section) (w : W) : list section * W * result unit :=
  match secs with
  | [] => ([], w, Ok tt)
  | s :: secs' =>
      let pass :=
        let '(l, w, r) := add_entries entry email author evr ts secs' w in (s :: l, w, r) in
      if negb (str_eqb (s_nid s) (lit "changelog")) then pass
      else
        match contains_autochangelog (s_data s) with
        | Err e => (secs, w, Err e)
        | Ok true => pass
        | Ok false =>
            let c := M_changelog.parse (s_data s) in
            let fail w e := (with_data (get_raw_section_data c) s :: secs', w, Err e) in
            match expand (match evr with Some v => v | None => DEFAULT_EVR end) w with
            | (w, Err e) => fail w e
            | (w, Ok evr) =>
                let ts := match ts with
                          | Some t => t
                          | None => now (match rev (entries c) with e :: _ => extended_timestamp e | [] => false end) w
                          end in
                match entry_author author email w with
                | Err e => fail w e
                | Ok author =>
                    let e := assemble ts author entry (Some evr) (entry_padding c) (match entries c with [] => false | _ => true end) in
                    let '(l, w, r) := add_entries entry email (Some author) (Some evr) (Some ts) secs' w in
                    (with_data (get_raw_section_data (append c e)) s :: l, w, r)
                end
            end
        end
  end.
(** specfile.py 479-551, from lines to lines: [sections()] parses the lines and writes them back, also when the loop fails. *)
Definition add_changelog_entry (parse_expand : bool -> W -> str -> result str * W)
    (entry : list str) (author email : option str) (ts : option timestamp) (evr : option str) (lines : list str) (w : W) : list str * W * result unit :=
  match M_sections.parse parse_expand w lines with
  | (Err e, w) => (lines, w, Err e)
  | (Ok secs, w) => let '(secs, w, r) := add_entries entry email author evr ts secs w in (sections_raw secs, w, r)
  end.
End Add.
(** specfile.py 469-477 *)
Fixpoint has_autochangelog {U : Unicode} (secs : list section) : result bool :=
  match secs with
  | [] => Ok false
  | s :: secs' =>
      if negb (str_eqb (s_nid s) (lit "changelog")) then has_autochangelog secs'
      else
        match contains_autochangelog (s_data s) with
        | Err e => Err e
        | Ok true => Ok true
        | Ok false => has_autochangelog secs'
        end
  end.
