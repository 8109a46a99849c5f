(** The views of a [Specfile]: what each shows and how it is written back.  The machine that runs them is [M_context]. *)
From Coq Require Import Ascii String.
From Coq Require Import NArith List Bool.
From Verif Require Import PyStr M_constants M_options M_macro_definitions M_conditions M_sections M_tags M_changelog M_prep M_context.
Import ListNotations.
Open Scope nat_scope.

(** Values of views; [None] when there is no such section. *)
Inductive value :=
| VLines (l : list str)
| VMacros (m : mdefs)
| VSections (l : list section)
| VTags (t : tags)
| VChangelog (c : option changelog)
| VPrep (p : option prep).
(** The names of views: [macro_definitions()], [sections()], [changelog()], [prep()], and [tags(a)] for each of
    the (spellings of) arguments, which are numbered: [tags()], [tags("package")] and [tags(section="package")] differ. *)
Definition MACROS : nat := 0.
Definition SECTIONS : nat := 1.
Definition CHANGELOG : nat := 2.
Definition PREP : nat := 3.
Definition TAGS (j : nat) : nat := 4 + j.

Section Views.
(** Macro expansion, here without state, and the sections that the arguments of [tags] stand for. *)
Context {U : Unicode} (E : bool -> str -> result str) (ids : nat -> str).
Definition oracle (b : bool) (w : unit) (s : str) : result str * unit := (E b s, tt).

(** sections.py 178-184: [getattr(sections, id)] for an id that is no other attribute of the list. *)
Definition attr (l : list section) (id : str) : option section := List.find (fun s => str_eqb (s_nid s) (lower id)) l.
(** [section.data = data] for the section found there.  The code changes the section it found when the view was opened; here the
    section is looked up again, which is the same unless sections were added, removed or renamed in between. *)
Definition set_attr (l : list section) (id : str) (d : list str) : list section :=
  match find_index (fun s => str_eqb (s_nid s) (lower id)) l with Some k => update_at k (with_data d) l | None => l end.

(** specfile.py 243-246, 260-263, 286-290, 311-320, 334-341 *)
Definition view_load (n : nat) (pv : value) : result value :=
  match pv, n with
  | VLines l, 0 => let! m := fst (parse_with_conditions oracle tt l true) in Ok (VMacros m)
  | VLines l, 1 => let! s := fst (M_sections.parse oracle tt l) in Ok (VSections s)
  | VSections l, 2 => Ok (VChangelog (option_map (fun s => M_changelog.parse (s_data s)) (attr l (lit "changelog"))))
  | VSections l, 3 =>
      match attr l (lit "prep") with
      | Some s => let! p := M_prep.parse (s_data s) in Ok (VPrep (Some p))
      | None => Ok (VPrep None)
      end
  | VSections l, S (S (S (S j))) =>
      match attr l (ids j) with
      | Some s => let! t := fst (tags_parse oracle TAG_NAMES tt (s_data s)) in Ok (VTags t)
      | None => Err AttributeError
      end
  | _, _ => Err OtherError
  end.
(** specfile.py 249-250, 267-268, 294-295, 322-323, 342-343; values and parents of the wrong kind do not occur. *)
Definition view_store (n : nat) (v pv : value) : result value :=
  match v with
  | VMacros m => Ok (VLines (get_raw_data m))
  | VSections l => Ok (VLines (sections_raw l))
  | VTags t => match pv with VSections l => Ok (VSections (set_attr l (ids (n - 4)) (tags_raw t))) | _ => Ok pv end
  | VChangelog (Some c) => match pv with VSections l => Ok (VSections (set_attr l (lit "changelog") (get_raw_section_data c))) | _ => Ok pv end
  | VPrep (Some p) => match pv with VSections l => Ok (VSections (set_attr l (lit "prep") (prep_raw p))) | _ => Ok pv end
  | _ => Ok pv
  end.
End Views.
