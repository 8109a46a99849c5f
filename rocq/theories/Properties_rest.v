(** Property C252 (dummy sources), and theorems that complete C158, C211 and C244. *)
From Coq Require Import Ascii String.
From Coq Require Import NArith ZArith List Bool Arith.
From Verif Require Import PyStr PyStrFacts P_rest.
From Verif Require M_spec_parser M_macro_definitions Spec_specfile M_sources_seq M_slice M_options M_sections M_section_objects.
Import ListNotations.
Open Scope N_scope.

(** * C252 *)
(** If a block with dummy sources ends without an exception, each file made for it was still there at its end, and is not there any more. *)
Theorem C252_dummies_there : forall (W B : Type) (stat_fault : M_spec_parser.world W -> str * str -> option exn) write_outcome unlink_fault order
  d sources non_empty (body : list (str * str) -> M_spec_parser.world W -> M_spec_parser.world W * result B) w w' r,
  M_spec_parser.with_dummy_sources stat_fault write_outcome unlink_fault order d sources non_empty body w = (w', Ok r) ->
  exists made w1 w2, body made w1 = (w2, Ok r) /\
    (forall p, In p made -> M_spec_parser.content_of p (M_spec_parser.files w2) <> None /\ M_spec_parser.content_of p (M_spec_parser.files w') = None).
Proof. exact @dummies_there. Qed.
Print Assumptions C252_dummies_there.
(** A block that deletes the dummy source raises; another one does not. *)
Definition made_of (delete : bool) : result unit :=
  snd (M_spec_parser.with_dummy_sources (fun _ _ => None) (fun _ _ _ => M_spec_parser.Written) (fun _ _ => None) (fun l => l) (lit "/s") [lit "x"] []
    (fun _ w => (if delete then M_spec_parser.mk_world tt [] [] else w, Ok tt)) (M_spec_parser.mk_world tt [] [])).
Example C252_example : made_of false = Ok tt /\ made_of true = Err OtherError.
Proof. split; vm_compute; reflexivity. Qed.

(** * C158 *)
(** A definition that is commented out gets [%dnl] in front, or a hash sign instead of its percent sign, as the style says, and changes in nothing else;
    one that is commented out already stays. *)
Theorem C158_style : forall d, M_macro_definitions.d_commented_out d = false -> exists blanks rest others,
  M_macro_definitions.own_lines d = (blanks ++ M_macro_definitions.d_prefix d ++ PCT :: rest) :: others /\
  M_macro_definitions.own_lines (Spec_specfile.set_out M_macro_definitions.DNL d) = (blanks ++ lit "%dnl" ++ M_macro_definitions.d_prefix d ++ PCT :: rest) :: others /\
  M_macro_definitions.own_lines (Spec_specfile.set_out M_macro_definitions.HASHED d) = (blanks ++ M_macro_definitions.d_prefix d ++ HASH :: rest) :: others.
Proof. exact style_shown. Qed.
Print Assumptions C158_style.
Theorem C158_style_kept : forall s d, M_macro_definitions.d_commented_out d = true ->
  M_macro_definitions.own_lines (Spec_specfile.set_out s d) = M_macro_definitions.own_lines d.
Proof. exact style_kept. Qed.
Print Assumptions C158_style_kept.
Definition pre : M_macro_definitions.mdef :=
  M_macro_definitions.mk_mdef (lit "pre") (lit "rc1") true false M_macro_definitions.OTHER ([], [SPC], [SPC], []) [SPC] true [].
Example C158_style_example :
  M_macro_definitions.own_lines pre = [lit " %global pre rc1"] /\
  M_macro_definitions.own_lines (Spec_specfile.set_out M_macro_definitions.DNL pre) = [lit "%dnl %global pre rc1"] /\
  M_macro_definitions.own_lines (Spec_specfile.set_out M_macro_definitions.HASHED pre) = [lit " #global pre rc1"].
Proof. repeat split; vm_compute; reflexivity. Qed.

(** * C211 *)
(** A source itself is found, at its place. *)
Theorem C211_index_of_object : forall n k, M_sources_seq.index n (M_sources_seq.Object k) = if Nat.ltb k n then Ok k else Err ValueError.
Proof. exact index_object. Qed.
Print Assumptions C211_index_of_object.
Example C211_object_example : M_sources_seq.index 3 (M_sources_seq.Object 0) = Ok 0%nat /\ M_sources_seq.index 3 (M_sources_seq.Object 3) = Err ValueError.
Proof. split; reflexivity. Qed.

(** * C244 *)
(** A slice of a section is written with the same heading and separator, and the lines picked. *)
Theorem C244_slice_written : forall (U : Unicode) h i j k s h', M_section_objects.slice_section h i j k s = Ok h' ->
  M_sections.s_nid (M_section_objects.section_of h i) <> M_sections.PREAMBLE -> exists head l,
  M_slice.get_slice s (M_section_objects.so_data (M_section_objects.h_secs h i)) = Ok l /\
  M_sections.section_str (M_section_objects.section_of h i) =
    head ++ M_section_objects.so_sep (M_section_objects.h_secs h i) ++ flat_map (fun x => x ++ [LF]) (M_section_objects.so_data (M_section_objects.h_secs h i)) /\
  M_sections.section_str (M_section_objects.section_of h' j) =
    head ++ M_section_objects.so_sep (M_section_objects.h_secs h i) ++ flat_map (fun x => x ++ [LF]) l.
Proof. exact @slice_text. Qed.
Print Assumptions C244_slice_written.
Definition files_section : M_section_objects.heap :=
  M_section_objects.mk_heap (fun _ => M_options.mk_opts [] [] []) (fun _ => M_section_objects.mk_sobject (lit "files") 0 [] [LF] (map lit ["a"; "b"; "c"]%string)).
Example C244_slice_example :
  match M_section_objects.slice_section (U:=unicode_none) files_section 0 1 1 (M_slice.mk_slice (Some 1%Z) None None) with
  | Ok h => M_sections.section_str (U:=unicode_none) (M_section_objects.section_of h 1) = lit "%files" ++ LF :: lit "b" ++ LF :: lit "c" ++ [LF]
  | Err _ => False
  end.
Proof. vm_compute. reflexivity. Qed.
