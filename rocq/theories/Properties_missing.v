(** Property C256: a release that is missing or cannot be read.  Model: M_specfile.v; specification: Spec_specfile.v. *)
From Coq Require Import Ascii String.
From Coq Require Import NArith ZArith List Bool.
From Verif Require Import PyStr PyStrFacts Regex M_value M_tags M_release M_specfile Spec_specfile Spec_specfile_demo P_missing.
Import ListNotations.
Open Scope N_scope.

(** * C256 *)
(** If no tag is called Release, in any case of letters, reading, setting and bumping the release raise TypeError.  They leave the lines as
    reading the tags does. *)
Theorem C256_missing : forall (U : Unicode) (W : Type) (expand : list str -> bool -> W -> str -> result str * W) lines w l w' ts,
  read_tags expand lines w = (l, w', Ok ts) -> (forall t, In t (ts_data ts) -> lower (t_name t) <> lit "release") ->
  get_release expand lines w = (l, w', Err TypeError) /\ (forall v, set_release expand v lines w = (l, w', Err TypeError)) /\ bump_release expand lines w = (l, w', Err TypeError).
Proof. exact @release_missing. Qed.
Print Assumptions C256_missing.
(** If the release cannot be parsed, bumping it raises the error of parsing, and changes no definition and no tag. *)
Theorem C256_unreadable : forall (U : Unicode) (W : Type) (expand : list str -> bool -> W -> str -> result str * W) lines w l w' ts k t e,
  read_tags expand lines w = (l, w', Ok ts) -> designates ts (lit "release") k t -> lower (t_name t) = lit "release" ->
  M_value.parse (t_value t) = Err e -> bump_release expand lines w = (l, w', Err e).
Proof. exact @release_unreadable. Qed.
Print Assumptions C256_unreadable.
Definition no_release : list str := file ["Name: x"; "Version: 1"; "%description"; "Release: 1"]%string.
Definition open_release : list str := file ["%global baserelease 1"; "Name: x"; "Release: 1%{x"]%string.
Example C256_example :
  (exists ts, read_tags (U:=unicode_none) ex_expand no_release tt = (no_release, tt, Ok ts) /\ map t_name (ts_data ts) = map lit ["Name"; "Version"]%string) /\
  bump_release (U:=unicode_none) ex_expand no_release tt = (no_release, tt, Err TypeError) /\
  M_value.parse (U:=unicode_none) (lit "1%{x") = Err UnterminatedMacroException /\
  bump_release (U:=unicode_none) ex_expand open_release tt = (open_release, tt, Err UnterminatedMacroException).
Proof.
  split; [eexists; split; vm_compute; reflexivity|]. split; [vm_compute; reflexivity|]. split; vm_compute; reflexivity.
Qed.
