(** Independent specification for sections. *)
From Coq Require Import Ascii String.
From Coq Require Import NArith List Bool.
From Verif Require Import PyStr M_constants M_options M_macro_definitions Spec_macro_definitions M_sections.
Import ListNotations.
Open Scope N_scope.

(** [c] is the lowercase letter [a] up to case; Python lets four more characters stand for i, s and k. *)
Definition same_letter (a c : char) : Prop :=
  c = a \/ (97 <= a <= 122 /\ c = a - 32) \/ (a = 105 /\ (c = 304 \/ c = 305)) \/ (a = 115 /\ c = 383) \/ (a = 107 /\ c = 8490).
(** "%", a section name in any case, then nothing, or white space and a text not ending in a backslash. *)
Definition header_line (l : str) : Prop :=
  exists n name rest, In n SECTION_NAMES /\ Forall2 same_letter n name /\ l = PCT :: name ++ rest /\
    (rest = [] \/ exists c r, rest = c :: r /\ is_space c = true /\ last rest 0 <> BSLASH).

(** No two definitions are equal. *)
Definition distinct (m : mdefs) : Prop := forall a d b, md_data m = a ++ d :: b -> forall x, In x a -> ~ same_def x d.
(** Line [i] is one of the lines of the body of a definition. *)
Definition body_line (m : mdefs) (i : nat) : Prop :=
  exists a d b k, md_data m = a ++ d :: b /\ (k < length (split_on LF [] (d_body d)))%nat /\
    i = (length (flat_map mdef_raw a) + length (d_preceding d) + k)%nat.

(** Blocks: a header line and the lines below it. *)
Definition block_lines (bs : list (str * list str)) : list str := flat_map (fun b => fst b :: snd b) bs.
Fixpoint block_starts (n : nat) (bs : list (str * list str)) : list nat :=
  match bs with [] => [] | b :: bs' => n :: block_starts (S n + length (snd b)) bs' end.
(** The section made from a block has all lines below the header, maybe preceded
    by the last word of the header, and is named in the header. *)
Definition belongs (b : str * list str) (s : section) : Prop :=
  (exists rest, fst b = PCT :: s_name s ++ rest) /\
  (s_data s = snd b \/ exists t x, s_data s = t :: snd b /\ fst b = x ++ t /\ (exists t', t = PCT :: t') /\ Forall (fun c => is_space c = false) t).

Section Uni.
Context {U : Unicode}.
(** An option text that is written back as it was read. *)
Definition stable (text : str) : Prop := forall l, tokenize text = Ok l -> tokens_str l = text.
(** All option texts that a header line may be thought to have are stable: the text after the
    name, with or without a last word starting with "%". *)
Definition stable_header (line : str) : Prop :=
  forall name delim text tail, line = PCT :: name ++ delim ++ text ++ tail ->
    Forall (fun c => is_space c = false) name -> Forall (fun c => is_space c = true) delim -> delim <> [] ->
    (tail = [] \/ exists sp t, tail = sp ++ PCT :: t /\ Forall (fun c => is_space c = true) sp /\ sp <> [] /\ Forall (fun c => is_space c = false) t) ->
    stable text.
End Uni.
Definition no_break (l : str) : Prop := Forall (fun c => is_linebreak c = false) l.

(** How a section comes from a block: the header is "%", the name, white space and an option text, and maybe a last word
    that expands (by [E]) to something starting with a line break; such a word belongs to the content. *)
Section Made.
Context {U : Unicode} (E : str -> result str).
Definition content_word (t : str) : Prop :=
  (exists t', t = PCT :: t') /\ Forall (fun c => is_space c = false) t /\ exists u, E t = Ok (LF :: u).
Definition made_from (b : str * list str) (s : section) : Prop :=
  exists delim text tail,
    fst b = PCT :: s_name s ++ delim ++ text ++ tail /\
    Forall (fun c => is_space c = false) (s_name s) /\ Forall (fun c => is_space c = true) delim /\
    (forall c t, text = c :: t -> is_space c = false) /\
    (delim = [] /\ text = [] /\ o_tokens (s_opts s) = [] \/ delim <> [] /\ tokenize text = Ok (o_tokens (s_opts s))) /\
    o_optstring (s_opts s) = section_options (s_name s) /\
    ((tail = [] /\ s_data s = snd b /\ forall x c t, fst b = x ++ c :: t -> is_space c = true -> ~ content_word t) \/
     exists sep t, tail = sep ++ t /\ sep <> [] /\ Forall (fun c => is_space c = true) sep /\ content_word t /\ s_data s = t :: snd b).
End Made.
