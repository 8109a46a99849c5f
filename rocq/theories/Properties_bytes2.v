(** Property C235: the bytes that adding a changelog entry changes.  Specification: Spec_bytes.v, Spec_add_entry.v, Spec_specfile.v. *)
From Coq Require Import Ascii String.
From Coq Require Import NArith ZArith List Bool Arith Lia.
From Verif Require P_specfile9.
From Verif Require Import PyStr PyStrFacts M_options M_sections Spec_sections M_changelog Spec_changelog M_release M_add_entry Spec_add_entry Spec_specfile P_specfile M_file Spec_file M_bytes Spec_bytes P_bytes3.
Import ListNotations.
Open Scope N_scope.

(** * C235 *)
(** In a file with one manual changelog that has an entry (its first line is [l]), the header of the new entry, its lines and an empty line are inserted right in front of that
    first entry, and all other bytes stay. *)
Theorem C235_bytes : forall (U : Unicode) (W : Type) expand surround now parse_expand entry author email ts evr b s (w w1 : W) x c y hl pre l older a v,
  plain_file b -> read_lines b = Ok s -> Forall tidy_line (sp_lines s) ->
  M_sections.parse parse_expand w (sp_lines s) = (Ok (x ++ c :: y), w1) -> manual c -> Forall (fun s => ~ manual s) (x ++ y) -> Forall examined (x ++ c :: y) -> section_raw c = hl :: s_data c ->
  s_data c = pre ++ l :: older -> Forall (fun l => ~ Spec_changelog.header_line l) pre -> Spec_changelog.header_line l ->
  expand (match evr with Some v => v | None => lit "%{?epoch:%{epoch}:}%{version}-%{release}" end) w1 = (w1, Ok v) -> expand v w1 = (w1, Ok v) ->
  signed (guess_packager (surround w1)) author email a ->
  exists t p, chosen_padding (M_changelog.parse (s_data c)) p /\ (forall t0, ts = Some t0 -> t = t0) /\ (ts = None -> t = now (newest_extended c) w1) /\
    forall nb, Forall no_break (header_text t p a v :: entry) -> encode (text_of_lines (header_text t p a v :: entry ++ [[]])) = Some nb ->
    exists b', with_file (add_changelog_entry expand surround now parse_expand entry author email ts evr) b w = (b', w1, Ok tt) /\
      bytes_replaced (text_of_lines (sections_raw x ++ hl :: pre)) [] (text_of_lines (header_text t p a v :: entry ++ [[]])) b b'.
Proof. exact @add_bytes. Qed.
Print Assumptions C235_bytes.
(** If it has no entry and is not the last section, the header and the lines are inserted at its end. *)
Theorem C235_first : forall (U : Unicode) (W : Type) expand surround now parse_expand entry author email ts evr b s (w w1 : W) x c y hl a v,
  plain_file b -> read_lines b = Ok s -> Forall tidy_line (sp_lines s) ->
  M_sections.parse parse_expand w (sp_lines s) = (Ok (x ++ c :: y), w1) -> manual c -> Forall (fun s => ~ manual s) (x ++ y) -> Forall examined (x ++ c :: y) -> section_raw c = hl :: s_data c ->
  Forall (fun l => ~ Spec_changelog.header_line l) (s_data c) -> sections_raw y <> [] ->
  expand (match evr with Some v => v | None => lit "%{?epoch:%{epoch}:}%{version}-%{release}" end) w1 = (w1, Ok v) -> expand v w1 = (w1, Ok v) ->
  signed (guess_packager (surround w1)) author email a ->
  exists t p, chosen_padding (M_changelog.parse (s_data c)) p /\ (forall t0, ts = Some t0 -> t = t0) /\ (ts = None -> t = now (newest_extended c) w1) /\
    forall nb, Forall no_break (header_text t p a v :: entry) -> encode (text_of_lines (header_text t p a v :: entry)) = Some nb ->
    exists b', with_file (add_changelog_entry expand surround now parse_expand entry author email ts evr) b w = (b', w1, Ok tt) /\
      bytes_replaced (text_of_lines (sections_raw x ++ hl :: s_data c)) [] (text_of_lines (header_text t p a v :: entry)) b b'.
Proof. exact @add_first_bytes. Qed.
Print Assumptions C235_first.
(** Without a manual changelog, no byte changes. *)
Theorem C235_none : forall (U : Unicode) (W : Type) expand surround now parse_expand entry author email ts evr b s (w w1 : W) secs,
  plain_file b -> read_lines b = Ok s -> Forall tidy_line (sp_lines s) ->
  M_sections.parse parse_expand w (sp_lines s) = (Ok secs, w1) -> Forall (fun s => ~ manual s) secs -> Forall examined secs ->
  with_file (add_changelog_entry expand surround now parse_expand entry author email ts evr) b w = (b, w1, Ok tt).
Proof. exact @add_none_bytes. Qed.
Print Assumptions C235_none.
(** A file that is not valid UTF-8, with a section behind the changelog *)
Definition old_file : list N := lit "Summary: caf" ++ [233; 10] ++ lit "Version: 1" ++ [10] ++ lit "%changelog" ++ [10] ++ lit "* Fri Jan 03 2025 A - 1-1" ++ [10] ++ lit "- caf" ++ [233; 10; 10] ++ lit "%files" ++ [10] ++ lit "/a".
Definition d_expand (s : str) (w : unit) : unit * result str := (w, Ok (if str_eqb s (lit "%{?epoch:%{epoch}:}%{version}-%{release}") then lit "1-2" else s)).
Definition d_surround (w : unit) : surroundings := mk_surroundings (Some (lit "Jo Doe")) [] None [] [].
Definition d_now (extended : bool) (w : unit) : timestamp := mk_ts 0 1 6 2025 None.
Definition d_parse (_ : bool) (w : unit) (s : str) : result str * unit := (Ok s, w).
Definition old_sections : list section := match read_lines old_file with Ok s => match M_sections.parse (U:=unicode_none) d_parse tt (sp_lines s) with (Ok l, _) => l | _ => [] end | _ => [] end.
Example C235_example : plain_file old_file /\
  (exists s, read_lines old_file = Ok s /\ Forall (tidy_line (U:=unicode_none)) (sp_lines s) /\ M_sections.parse (U:=unicode_none) d_parse tt (sp_lines s) = (Ok old_sections, tt)) /\
  (exists x c y, old_sections = x ++ c :: y /\ manual (U:=unicode_none) c /\ Forall (fun s => ~ manual (U:=unicode_none) s) (x ++ y) /\ Forall (examined (U:=unicode_none)) (x ++ c :: y) /\
    section_raw (U:=unicode_none) c = lit "%changelog" :: s_data c /\ exists l older, s_data c = [] ++ l :: older /\ Spec_changelog.header_line l) /\
  with_file (add_changelog_entry (U:=unicode_none) d_expand d_surround d_now d_parse [lit "- new"] None None None None) old_file tt =
    (lit "Summary: caf" ++ [233; 10] ++ lit "Version: 1" ++ [10] ++ lit "%changelog" ++ [10] ++ lit "* Mon Jan 06 2025 Jo Doe - 1-2" ++ [10] ++ lit "- new" ++ [10; 10] ++
     lit "* Fri Jan 03 2025 A - 1-1" ++ [10] ++ lit "- caf" ++ [233; 10; 10] ++ lit "%files" ++ [10] ++ lit "/a", tt, Ok tt).
Proof.
  split. { split; [repeat constructor|]. split; [discriminate|]. vm_compute. repeat constructor; discriminate. }
  split. { eexists. split; [reflexivity|]. split; [|vm_compute; reflexivity]. apply P_specfile9.plain_file_ok. vm_compute. reflexivity. }
  split; [|vm_compute; reflexivity].
  assert (E : old_sections = [nth 0 old_sections (mk_section [] (mk_opts [] [] []) [] [] [])] ++ nth 1 old_sections (mk_section [] (mk_opts [] [] []) [] [] []) :: [nth 2 old_sections (mk_section [] (mk_opts [] [] []) [] [] [])]) by (vm_compute; reflexivity).
  eexists _, _, _. split; [exact E|]. split; [split; vm_compute; reflexivity|].
  split. { repeat constructor; intros [X _]; vm_compute in X; discriminate. }
  split. { repeat constructor; intros X; vm_compute in X; try discriminate. eexists. vm_compute. reflexivity. }
  split; [vm_compute; reflexivity|]. eexists _, _. split; [vm_compute; reflexivity|]. eexists. reflexivity.
Qed.
