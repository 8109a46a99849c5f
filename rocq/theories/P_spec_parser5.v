(** A small RPM for the examples. *)
From Coq Require Import Ascii String.
From Coq Require Import NArith ZArith List Bool Lia.
From Verif Require Import PyStr M_evr M_spec_parser Spec_spec_parser.
Import ListNotations.
Open Scope N_scope.

Definition dir : str := lit "/s".
Definition url : str := lit "https://h/y".
Definition start : world (list str) := mk_world [] [((dir, lit "x"), lit "data")] [(lit "LANG", lit "cs_CZ")].
(** Reading, writing and removing files always works; the context is a list of the directories that were set. *)
Definition no_stat (_ : world (list str)) (_ : str * str) : option exn := None.
Definition all_written (_ : world (list str)) (_ : str * str) (_ : list N) : attempt := Written.
Definition no_temp (_ : world (list str)) : option exn := None.
Definition in_order (l : list str) : list str := l.
Definition toy_context (m : list (str * option str)) (d : str) (_ : list str) : list str * result unit := (d :: map fst m, Ok tt).
(** Source 0 is [y]; shell expansions are empty. *)
Definition toy_expand (s : str) (c : list str) : list str * result str :=
  (c, Ok (if str_eqb s (lit "%{SOURCE0}") then lit "y" else if is_substring (lit "%(") s then [] else s)).
(** A path that starts with a slash is in no directory that exists. *)
Definition toy_locate (_ : str) (_ : world (list str)) (s : str) : result (option str) := if startswith s (lit "/") then Err OtherError else Ok (Some s).
(** A spec file that includes no other files: only a full parse needs the source. *)
Definition toy_spec (force : bool) (_ : str) (w : world (list str)) : world (list str) * result (list str) :=
  (w, if force then Ok [url] else match content_of (dir, lit "y") (files w) with Some _ => Ok [url] | None => Err ValueError end).
(** A spec file that takes its version from its source: that must not be empty. *)
Definition toy_version (force : bool) (_ : str) (w : world (list str)) : world (list str) * result (list str) :=
  (w, match content_of (dir, lit "y") (files w) with Some (0%N :: _) => Err ValueError | Some _ => Ok [url] | None => Err ValueError end).
(** A spec file with an error. *)
Definition toy_error (force : bool) (_ : str) (w : world (list str)) : world (list str) * result (list str) := (w, Err ValueError).
(** The first of these, as the cache runs it. *)
Definition toy_run := @run_of unicode_none _ _ no_stat all_written no_stat in_order toy_spec (fun x => x) no_temp toy_context toy_expand toy_locate.

Lemma toy_sound : sound_files no_stat all_written no_stat.
Proof. constructor; intros; unfold all_written; auto. Qed.
Lemma toy_order : set_order in_order.
Proof. intros l x. reflexivity. Qed.
Lemma toy_quiet f c : quiet (toy_spec f c).
Proof. intros w. split; reflexivity. Qed.
