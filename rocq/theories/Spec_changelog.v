(** Independent specification of what a parsed changelog is. *)
From Coq Require Import NArith ZArith List Bool.
From Verif Require Import PyStr M_evr M_changelog.
Import ListNotations.
Open Scope N_scope.

(** A line that starts with "*". *)
Definition header_line (l : str) : Prop := exists t, l = STAR :: t.
(** A line made of whitespace only. *)
Definition blank_line (l : str) : Prop := Forall (fun c => is_space c = true) l.

(** An entry: a header, content that does not end in a blank line and in which a
    starred line is preceded by blank lines only, then blank lines. *)
Definition wf_entry (e : entry) : Prop :=
  header_line (header e) /\
  Forall blank_line (following e) /\
  (forall a l, content e = a ++ [l] -> ~ blank_line l) /\
  (forall a l b, content e = a ++ l :: b -> header_line l -> Forall blank_line a).

(** A changelog: lines before the first header, then entries; only the bottom
    entry may be without content. *)
Definition wf_changelog (c : changelog) : Prop :=
  Forall (fun l => ~ header_line l) (predecessor c) /\
  Forall wf_entry (entries c) /\
  Forall (fun e => content e <> []) (tl (entries c)).

(** Sign conventions of a comparison function that is a total preorder. *)
Definition total_preorder {A} (cmp : A -> A -> Z) : Prop :=
  (forall x y, (cmp x y <= 0)%Z <-> (cmp y x >= 0)%Z) /\
  (forall x y z, (cmp x y <= 0)%Z -> (cmp y z <= 0)%Z -> (cmp x z <= 0)%Z).

(** The EVR an entry counts as when filtering: unparsable EVRs count as version 0. *)
Section Range.
Context {U : Unicode}.
Definition evr_or_zero (s : str) : evr :=
  match evr_from_string s with Ok e => e | Err _ => mk_evr 0 [48] [] end.
Definition entry_key (e : entry) : evr :=
  match entry_evr e with Some s => evr_or_zero s | None => mk_evr 0 [48] [] end.
(** since <= evr(e) <= until, where a missing bound is no restriction. *)
Definition in_range (cmp : label -> label -> Z) (since until : option str) (e : entry) : bool :=
  (match since with
   | Some s => (cmp (evr_label (evr_or_zero s)) (evr_label (entry_key e)) <=? 0)%Z
   | None => true end) &&
  (match until with
   | Some s => (cmp (evr_label (entry_key e)) (evr_label (evr_or_zero s)) <=? 0)%Z
   | None => true end).
Definition le_entry (cmp : label -> label -> Z) (a b : entry) : Prop :=
  (cmp (evr_label (entry_key a)) (evr_label (entry_key b)) <= 0)%Z.

(** Every two entries, the earlier (older) one is not newer. *)
Definition ascending (cmp : label -> label -> Z) (es : list entry) : Prop :=
  forall a x b y c, es = a ++ x :: b ++ y :: c -> le_entry cmp x y.

End Range.

(** An EVR as it may appear in a header: no blanks, an inner dash, not
    starting with an opening bracket and not ending with a colon. *)
Definition evr_token (v : str) : Prop :=
  Forall (fun c => is_space c = false) v /\
  (exists a b, v = a ++ DASH :: b /\ a <> [] /\ b <> []) /\
  (forall t, v <> LBRACK :: t) /\ (forall t, v <> LPAR :: t) /\ (forall t, v <> t ++ [COLON]).

(** Text without newlines in the time zone name. *)
Definition time_nolf (ts : timestamp) : Prop :=
  match t_time ts with Some (_, _, _, tz) => ~ In LF tz | None => True end.

(** A string of [k] spaces. *)
Definition spaces (k : nat) : str := repeat SPC k.
(** A calendar date / time of day with valid fields. *)
Definition valid_date (ts : timestamp) : Prop :=
  (t_weekday ts < 7)%nat /\ (1 <= t_month ts <= 12)%nat /\ 1 <= t_day ts <= 31 /\ 1000 <= t_year ts <= 9999.

Definition valid_time (ts : timestamp) : Prop :=
  exists hh mm ss tz, t_time ts = Some (hh, mm, ss, tz) /\ hh < 24 /\ mm < 60 /\ ss < 60 /\
    tz <> [] /\ Forall (fun c => is_space c = false) tz.

