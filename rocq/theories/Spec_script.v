(** What it means for a section to be a shell script by its header.  Nothing here refers to the code. *)
From Coq Require Import Ascii String.
From Coq Require Import NArith List Bool.
From Verif Require Import PyStr.
Import ListNotations.
Open Scope N_scope.

(** The sections run as scripts that the library knows: those of the build and the scriptlets of packages. *)
Definition script_names : list str := map lit
  ["build"; "check"; "clean"; "conf"; "generate_buildrequires"; "install";
   "pre"; "post"; "preun"; "postun"; "pretrans"; "posttrans"; "preuntrans"; "postuntrans"; "verifyscript";
   "trigger"; "triggerin"; "triggerun"; "triggerprein"; "triggerpostun";
   "filetrigger"; "filetriggerin"; "filetriggerun"; "filetriggerpostun";
   "transfiletrigger"; "transfiletriggerin"; "transfiletriggerun"; "transfiletriggerpostun"]%string.
(** The line starts with a percent sign and the word [n]. *)
Definition header_word (line n : str) : Prop :=
  exists rest, line = PCT :: n ++ rest /\ Forall (fun c => is_space c = false) n /\ forall c t, rest = c :: t -> is_space c = true.
Definition script_header {U : Unicode} (line : str) : Prop := exists n, header_word line n /\ In (lower n) script_names.
