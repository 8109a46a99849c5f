(** Deleting and adding sources in terms of bytes: proofs. *)
From Coq Require Import Ascii String.
From Coq Require Import NArith ZArith List Bool Arith Lia.
From Verif Require P_specfile21 P_specfile24 P_specfile25.
From Verif Require Import PyStr M_value M_macro_definitions Spec_macro_definitions M_sections Spec_sections M_tags Spec_tags M_sourcelist M_sources Spec_sources
  M_specfile M_specfile2 Spec_specfile Spec_specfile2 Spec_specfile3 Spec_specfile4 M_file Spec_file P_file M_bytes Spec_bytes P_bytes Spec_bytes2.
Import ListNotations.
Open Scope N_scope.

Section Uni.
Context {U : Unicode} {W : Type} (expand : list str -> bool -> W -> str -> result str * W) (patches dups implicit : bool) (digits : nat).
Lemma deleted_bytes (o : list str -> W -> list str * W * result unit) b sp w w2 lines' s v good : plain_file b -> read_lines b = Ok sp -> o (sp_lines sp) w = (lines', w2, Ok tt) ->
  file_deleted expand patches dups implicit digits (sp_lines sp) s v lines' good -> source_cut o s v b (sp_lines sp) w w2.
Proof.
  intros P R O (x & above & cs & name & ds & sep & below & y & E & E' & H1 & H2 & H3 & H4 & H5 & H6 & _). exists x, above, cs, name, ds, sep, below, y. do 7 (split; [assumption|]). intros Ny.
  assert (T : text_of_lines (match above ++ below with [] => [] | _ => [[]] end) = match above ++ below with [] => [] | _ => [LF] end) by (destruct (above ++ below); reflexivity).
  rewrite <- T.
  apply (block_bytes o b sp w w2 (Ok tt) x _ _ y (match above ++ below with [] => [] | _ => [LF] end) P R E); auto.
  - rewrite O. now subst lines'.
  - rewrite T. destruct (above ++ below); reflexivity.
Qed.
Lemma put_bytes (o : list str -> W -> list str * W * result unit) b sp w w2 s cs loc x y y' name ds sep : plain_file b -> read_lines b = Ok sp ->
  o (sp_lines sp) w = (x ++ cs ++ (name ++ sep ++ loc) :: y', w2, Ok tt) ->
  sp_lines sp = x ++ y -> source_name (source_word s) name ds -> Forall2 (renumbered_line s) y y' -> source_put o s cs loc b (sp_lines sp) w w2.
Proof.
  intros P R O E H1 H2. exists x, y, y', name, ds, sep. do 3 (split; [assumption|]). intros old new same nb -> -> Ns En.
  apply (block_bytes o b sp w w2 (Ok tt) x old _ same nb P R E); auto. rewrite O. f_equal. f_equal. now rewrite <- !app_assoc.
Qed.
Lemma inserted_bytes (o : list str -> W -> list str * W * result unit) b sp w w2 lines' s loc good : plain_file b -> read_lines b = Ok sp -> o (sp_lines sp) w = (lines', w2, Ok tt) ->
  file_inserted expand patches dups implicit digits (sp_lines sp) s loc lines' good -> source_put o s [] loc b (sp_lines sp) w w2.
Proof. intros P R O (x & y & y' & name & ds & sep & E & E' & H1 & H2 & _). subst lines'. exact (put_bytes o b sp w w2 s [] loc x y y' name ds sep P R O E H1 H2). Qed.
Lemma inserted_below_bytes (o : list str -> W -> list str * W * result unit) b sp w w2 lines' s cs loc good : plain_file b -> read_lines b = Ok sp -> o (sp_lines sp) w = (lines', w2, Ok tt) ->
  file_inserted_below expand patches dups implicit digits (sp_lines sp) s cs loc lines' good -> source_put o s (map (fun c => lit "# " ++ c) cs) loc b (sp_lines sp) w w2.
Proof. intros P R O (x & y & y' & name & ds & sep & E & E' & H1 & H2 & _). subst lines'. exact (put_bytes o b sp w w2 s _ loc x y y' name ds sep P R O E H1 H2). Qed.
Theorem delete_bytes b sp w w1 s k j lines' w2 : plain_file b -> read_lines b = Ok sp ->
  regular_file (sp_lines sp) -> plain_lists patches (sp_lines sp) -> read_sources expand patches dups implicit digits (sp_lines sp) w = (sp_lines sp, w1, Ok s) ->
  Forall simple_tag (ts_data (s_tags s)) -> Forall neat (ts_data (s_tags s)) -> caseless_digits -> (exists n, nth_error (get_items s) k = Some (mk_item n (InTags j))) ->
  edit_sources expand patches dups implicit digits (fun s => delete_item s (Z.of_nat k)) (sp_lines sp) w = (lines', w2, Ok tt) ->
  exists v, nth_error (locations s) k = Some v /\ source_cut (edit_sources expand patches dups implicit digits (fun s => delete_item s (Z.of_nat k))) s v b (sp_lines sp) w w2.
Proof.
  intros P R Rg Pl Rd St Nt Cd It E. destruct (P_specfile24.delete_file _ _ _ _ _ _ _ _ _ _ _ _ _ Rg Pl Rd St Nt Cd It E) as (v & L & F). exists v. split; [exact L|].
  exact (deleted_bytes _ b sp w w2 lines' s v _ P R E F).
Qed.
Theorem insert_bytes b sp w w1 s i loc lines' w2 : plain_file b -> read_lines b = Ok sp ->
  regular_file (sp_lines sp) -> plain_lists patches (sp_lines sp) -> read_sources expand patches dups implicit digits (sp_lines sp) w = (sp_lines sp, w1, Ok s) ->
  Forall simple_tag (ts_data (s_tags s)) -> Forall neat (ts_data (s_tags s)) -> caseless_digits -> file_value loc -> into_tags s i ->
  edit_sources expand patches dups implicit digits (fun s => insert s (Z.of_nat i) loc) (sp_lines sp) w = (lines', w2, Ok tt) ->
  source_put (edit_sources expand patches dups implicit digits (fun s => insert s (Z.of_nat i) loc)) s [] loc b (sp_lines sp) w w2.
Proof.
  intros P R Rg Pl Rd St Nt Cd Fv It E. exact (inserted_bytes _ b sp w w2 lines' s loc _ P R E (P_specfile21.insert_file _ _ _ _ _ _ _ _ _ _ _ _ _ Rg Pl Rd St Nt Cd Fv It E)).
Qed.
End Uni.
Theorem add_patch_bytes {U : Unicode} {W : Type} (expand : list str -> bool -> W -> str -> result str * W) b sp w w1 s loc number comment initial digits lines' w2 : plain_file b -> read_lines b = Ok sp ->
  regular_file (sp_lines sp) -> plain_lists true (sp_lines sp) -> read_sources expand true false false digits (sp_lines sp) w = (sp_lines sp, w1, Ok s) ->
  Forall simple_tag (ts_data (s_tags s)) -> Forall neat (ts_data (s_tags s)) -> caseless_digits -> file_value loc -> no_list_entries s -> NoDup (numbers s) ->
  (forall n, number = Some n -> 0 <= n)%Z -> spec_add_patch expand loc number comment initial digits (sp_lines sp) w = (lines', w2, Ok tt) ->
  source_put (spec_add_patch expand loc number comment initial digits) s (map (fun c => lit "# " ++ c) (splitlines comment)) loc b (sp_lines sp) w w2.
Proof.
  intros P R Rg Pl Rd St Nt Cd Fv Nl Nd Nn E.
  exact (inserted_below_bytes expand true false false digits _ b sp w w2 lines' s _ loc _ P R E (P_specfile25.add_commented_patch_file _ _ _ _ _ _ _ _ _ _ _ _ Rg Pl Rd St Nt Cd Fv Nl Nd Nn E)).
Qed.
