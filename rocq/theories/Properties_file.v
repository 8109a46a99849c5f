(** Theorems about loading and saving spec files (C37, C92, C93, C94).  [bytes], [scalar], [plain_breaks], [line_feeds]
    and [odd_end] are specified in Spec_file.v. *)
From Coq Require Import Ascii String.
From Coq Require Import NArith ZArith List Bool.
From Verif Require Import PyStr M_file Spec_file P_file.
Import ListNotations.
Open Scope N_scope.

(** * C37 *)
(** Every byte string, valid UTF-8 or not, survives decoding and encoding. *)
Theorem C37_bytes_survive : forall b, bytes b -> encode (decode b) = Some b.
Proof. exact encode_decode. Qed.
Print Assumptions C37_bytes_survive.
(** Valid text survives encoding and decoding. *)
Theorem C37_text_survives : forall t, Forall scalar t -> exists b, encode t = Some b /\ bytes b /\ decode b = t.
Proof. exact decode_encode. Qed.
Print Assumptions C37_text_survives.
(** Decoding yields only Unicode scalar values and the 128 surrogates that stand for undecodable bytes. *)
Theorem C37_decoded_characters : forall b, bytes b -> Forall (fun c => scalar c \/ 56448 <= c /\ c <= 56575) (decode b).
Proof. exact decode_range. Qed.
Print Assumptions C37_decoded_characters.
(** Loading and saving without changes reproduces the bytes of a file whose line breaks are line feeds. *)
Theorem C37_unchanged : forall b, bytes b -> b <> [] -> plain_breaks (decode b) ->
  exists s, read_lines b = Ok s /\ spec_str s = decode b /\ save s = (b, Ok tt).
Proof. exact unchanged. Qed.
Print Assumptions C37_unchanged.
(** What the text of a loaded file is in general: every line break has become a line feed, and a final odd one is gone. *)
Theorem C37_loaded_text : forall b s, read_lines b = Ok s -> exists u, line_feeds (decode b) u /\
  ((odd_end (decode b) /\ spec_str s ++ [LF] = u) \/ (~ odd_end (decode b) /\ spec_str s = u)).
Proof. exact read_text. Qed.
Print Assumptions C37_loaded_text.
(** What was loaded can be saved. *)
Theorem C37_loaded_saves : forall b s, bytes b -> read_lines b = Ok s -> exists b', save s = (b', Ok tt).
Proof. exact read_saves. Qed.
Print Assumptions C37_loaded_saves.
(** What was saved, after any edits, loads with the same text, and saves to the same bytes. *)
Theorem C37_reload : forall s b, Forall (fun l => Forall (fun c => is_linebreak c = false) l) (sp_lines s) -> Forall scalar (spec_str s) ->
  spec_str s <> [] -> save s = (b, Ok tt) ->
  bytes b /\ exists s', read_lines b = Ok s' /\ spec_str s' = spec_str s /\ save s' = (b, Ok tt).
Proof. exact saved_reads. Qed.
Print Assumptions C37_reload.
(** The file "Name: é" with an undecodable byte and without a final newline. *)
Example C37_example : let b := lit "Name: " ++ [195; 169; 255; 10; 226; 130; 10; 37; 240; 159; 142; 169] in
  bytes b /\ plain_breaks (decode b) /\ decode b = lit "Name: " ++ [233; 56575; 10; 56546; 56450; 10; 37; 127913] /\
  read_lines b = Ok (mkSpec [lit "Name: " ++ [233; 56575]; [56546; 56450]; [37; 127913]] false).
Proof.
  cbn zeta. split; [vm_compute; repeat constructor|]. assert (D : decode (lit "Name: " ++ [195; 169; 255; 10; 226; 130; 10; 37; 240; 159; 142; 169])
    = [78; 97; 109; 101; 58; 32; 233; 56575; 10; 56546; 56450; 10; 37; 127913]) by reflexivity.
  rewrite D. split; [|split; reflexivity]. repeat (constructor; [intros; first [discriminate|reflexivity]|]). constructor.
Qed.
Example C37_reload_example : let s := mkSpec [lit "Name: x"; []; [233; 8364]] true in
  Forall (fun l => Forall (fun c => is_linebreak c = false) l) (sp_lines s) /\ Forall scalar (spec_str s) /\
  save s = (lit "Name: x" ++ [10; 10; 195; 169; 226; 130; 172; 10], Ok tt).
Proof.
  cbn zeta. split; [repeat constructor|]. split; [|reflexivity]. repeat (constructor; [left; reflexivity|]). constructor.
Qed.

(** * C92 *)
(** An empty file cannot be loaded; every other file can. *)
Theorem C92_empty_file_refuted : read_lines [] = Err IndexError.
Proof. reflexivity. Qed.
Print Assumptions C92_empty_file_refuted.
Theorem C92_loads : forall b, b <> [] -> exists s, read_lines b = Ok s.
Proof. exact readable. Qed.
Print Assumptions C92_loads.

(** * C93 *)
(** Saving fails if and only if the text contains a surrogate that does not stand for an undecodable byte. *)
Theorem C93_save_fails : forall s, Forall (fun c => c <= 1114111) (spec_str s) ->
  ((exists b, save s = (b, Ok tt)) <-> Forall (fun c => ~ ((55296 <= c /\ c < 56448) \/ (56576 <= c /\ c <= 57343))) (spec_str s)).
Proof. exact save_fails. Qed.
Print Assumptions C93_save_fails.
(** A failed save leaves an empty file behind, which cannot even be loaded. *)
Theorem C93_failed_save_refuted : exists s, Forall (fun c => c <= 1114111) (spec_str s) /\ save s = ([], Err ValueError) /\
  read_lines (fst (save s)) = Err IndexError.
Proof. exists (mkSpec [lit "Summary: " ++ [55357]] true). split; [repeat (constructor; [discriminate|]); constructor|]. split; reflexivity. Qed.
Print Assumptions C93_failed_save_refuted.

(** * C94 *)
(** A file with any other line break does not keep its bytes. *)
Theorem C94_only_line_feeds : forall b s, bytes b -> read_lines b = Ok s -> fst (save s) = b -> plain_breaks (decode b).
Proof. exact changed_otherwise. Qed.
Print Assumptions C94_only_line_feeds.
(** Carriage returns are dropped; a form feed inside a line becomes a line feed. *)
Theorem C94_other_breaks_refuted :
  (exists s, read_lines (lit "Name: x" ++ [13; 10]) = Ok s /\ save s = (lit "Name: x" ++ [10], Ok tt)) /\
  (exists s, read_lines (lit "# a" ++ [12] ++ lit "b" ++ [10]) = Ok s /\ save s = (lit "# a" ++ [10] ++ lit "b" ++ [10], Ok tt)).
Proof. split; eexists; split; reflexivity. Qed.
Print Assumptions C94_other_breaks_refuted.
