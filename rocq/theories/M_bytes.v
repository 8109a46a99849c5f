(** A spec file opened, changed and saved: [with Specfile(path) as spec: ...], specfile.py 53-81, 103-112, 122-125, 184-186. *)
From Coq Require Import NArith List Bool.
From Verif Require Import PyStr M_file.
Import ListNotations.

(** [o] is what is done in the block, in terms of the lines.  The file is saved on leaving the block, also if an
    exception was raised; an exception of the saving takes the place of that exception.  RPM's parsing of the text in
    the constructor (line 79) does not change the text and is left out. *)
Definition with_file {W A} (o : list str -> W -> list str * W * result A) (b : list N) (w : W) : list N * W * result A :=
  match read_lines b with
  | Err e => (b, w, Err e)
  | Ok s =>
      let '(lines, w', r) := o (sp_lines s) w in
      match save (mkSpec lines (sp_newline s)) with
      | (b', Ok _) => (b', w', r)
      | (b', Err e) => (b', w', Err e)
      end
  end.
