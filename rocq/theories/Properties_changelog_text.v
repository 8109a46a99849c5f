(** Property C237: what the text of a changelog tells.  Specification: Spec_changelog_text.v, Spec_changelog.v, Spec_bytes.v. *)
From Coq Require Import Ascii String.
From Coq Require Import NArith List.
From Verif Require Import PyStr M_changelog Spec_changelog Spec_sections M_changelog_text Spec_changelog_text Spec_bytes P_changelog_text.
Import ListNotations.
Open Scope N_scope.

(** * C237 *)
(** The changelog that is read from the lines of a section and the one that is read from its text [str(changelog)] have the same entries. *)
Theorem C237_section : forall lines, Forall no_break lines ->
  let c := parse lines in let d := parse (splitlines (changelog_str c)) in same_entries d c /\ predecessor d = [].
Proof. exact section_text. Qed.
Print Assumptions C237_section.
(** The same of any changelog whose entries can be told apart *)
Theorem C237_changelog : forall c, wf_changelog c -> single_lines c -> let d := parse (splitlines (changelog_str c)) in same_entries d c /\ predecessor d = [].
Proof. exact text_roundtrip. Qed.
Print Assumptions C237_changelog.
(** If there is nothing above the newest entry and one empty line between entries, then the text is that of the section. *)
Theorem C237_text : forall c, evenly_spaced c -> changelog_str c = text_of_lines (get_raw_section_data c).
Proof. exact even_text. Qed.
Print Assumptions C237_text.
Definition text_lines : list str := map lit ["# top"; "* Mon Jan 06 2025 A - 2-1"; "- new"; ""; ""; "* Fri Jan 03 2025 A - 1-1"; "- old"; "- older"]%string.
Example C237_example : Forall no_break text_lines /\
  changelog_str (parse text_lines) = text_of_lines (map lit ["* Mon Jan 06 2025 A - 2-1"; "- new"; ""; "* Fri Jan 03 2025 A - 1-1"; "- old"; "- older"]%string) /\
  entries (parse text_lines) <> [] /\ evenly_spaced (parse (splitlines (changelog_str (parse text_lines)))).
Proof.
  split; [repeat constructor|]. split; [vm_compute; reflexivity|]. split; [discriminate|]. split; [reflexivity|]. split.
  - assert (E : map content (entries (parse (splitlines (changelog_str (parse text_lines))))) = [[lit "- old"; lit "- older"]; [lit "- new"]]) by (vm_compute; reflexivity).
    apply Forall_forall. intros e He C. apply (in_map content) in He. rewrite E, C in He. destruct He as [He|[He|[]]]; discriminate.
  - intros o n E. assert (F : map following (o :: n) = [[]; [[]]]) by (rewrite <- E; vm_compute; reflexivity). destruct n as [|x [|y n]]; cbn [map] in F; try discriminate. injection F as Fo Fx. auto.
Qed.
(** Not so of other changelogs: the header of an entry without contents is lost. *)
Theorem C238_text_refuted : exists c, Forall (fun e => Spec_changelog.header_line (header e)) (entries c) /\ single_lines c /\ ~ same_entries (parse (splitlines (changelog_str c))) c.
Proof.
  exists (mk_changelog [mk_entry (lit "* a") [lit "- x"] []; mk_entry (lit "* b") [] []] []). split; [constructor; [now eexists|constructor; [now eexists|constructor]]|]. split; [repeat constructor|]. intros (H & _). vm_compute in H. discriminate.
Qed.
Print Assumptions C238_text_refuted.
