(** Independent specification for source lists, sources and patches. *)
From Coq Require Import Ascii String.
From Coq Require Import NArith ZArith List Bool Sorting.Sorted.
From Verif Require Import PyStr M_constants Spec_sections M_tags Spec_tags M_sourcelist M_sources.
Import ListNotations.
Open Scope N_scope.

(** [l.insert(i, x)] of Python for an index that is not negative. *)
Definition inserted {A} (i : nat) (x : A) (l : list A) : list A := firstn i l ++ x :: skipn i l.
Definition removed {A} (i : nat) (l : list A) : list A := firstn i l ++ skipn (S i) l.
(** A line of a source list that names a source. *)
Definition source_line (line : str) : Prop := line <> [] /\ ~ comment_line line.

Section Uni.
Context {U : Unicode}.
(** The names a tag in a spec file may have (see [C64]). *)
Definition tag_name (name : str) : Prop :=
  exists n letters arg, In n TAG_NAMES /\ Forall2 same_letter n letters /\ name_argument n arg /\ name = letters ++ arg.
(** Decimal digits have no case. *)
Definition caseless_digits : Prop := forall c, is_digit c = true -> lower_c c = [c].
(** The name of a source (or patch), with the digits of its number; [p] is "source" or "patch". *)
Definition source_name (p name ds : str) : Prop :=
  exists letters, name = letters ++ ds /\ Forall2 same_letter p letters /\ Forall (fun c => is_digit c = true) ds.
(** The sources among the tag names: the index in the list of tags and the number.  The number is the one written, or one more than that of
    the source above ([last]). *)
Inductive numbered (p : str) : nat -> Z -> list str -> list (nat * Z) -> Prop :=
| N_nil i last : numbered p i last [] []
| N_other i last name names l : (forall ds, ~ source_name p name ds) -> numbered p (S i) last names l -> numbered p i last (name :: names) l
| N_implicit i last name names l : source_name p name [] -> numbered p (S i) (last + 1) names l ->
    numbered p i last (name :: names) ((i, (last + 1)%Z) :: l)
| N_explicit i last name ds n names l : source_name p name ds -> int_of_str ds = Some n -> numbered p (S i) (Z.of_N n) names l ->
    numbered p i last (name :: names) ((i, Z.of_N n) :: l).
(** A container read from a spec file: all its tags have names that occur in spec files. *)
Definition readable (s : sources) : Prop := caseless_digits /\ Forall tag_name (map t_name (ts_data (s_tags s))).
Definition source_word (s : sources) : str := if s_patches s then lit "patch" else lit "source".
(** The tags that are no sources, with all that belongs to them but the lines above. *)
Inductive other_tags (p : str) : list tag -> list tag -> Prop :=
| O_nil : other_tags p [] []
| O_source t l o ds : source_name p (t_name t) ds -> other_tags p l o -> other_tags p (t :: l) o
| O_other t l o : (forall ds, ~ source_name p (t_name t) ds) -> other_tags p l o -> other_tags p (t :: l) (with_preceding [] t :: o).
(** Every source tag has a number. *)
Definition all_numbered (s : sources) : Prop := forall t, In t (ts_data (s_tags s)) -> ~ source_name (source_word s) (t_name t) [].
Definition none_numbered (s : sources) : Prop := forall t ds, In t (ts_data (s_tags s)) -> source_name (source_word s) (t_name t) ds -> ds = [].
(** What stays the same for tags that are no sources. *)
Definition keeps_other_tags (s s' : sources) : Prop :=
  forall o, other_tags (source_word s) (ts_data (s_tags s)) o -> other_tags (source_word s) (ts_data (s_tags s')) o.
End Uni.
(** How inserting and deleting leave everything else alone. *)
(** The values are aligned if there is room. *)
Definition aligned (r new : tag) : Prop :=
  let width t := (length (t_name t) + length (t_separator t))%nat in
  (width new = width r /\ exists n, t_separator new = t_separator r ++ repeat SPC n) \/
  (width new = width r /\ t_separator new <> [] /\ exists cut, t_separator r = t_separator new ++ cut) \/
  ((width r <= length (t_name new))%nat /\ t_separator new = [COLON]).
(** [t'] is [t], or [t] is a source tag with a number and [t'] has another one, and maybe another separator. *)
Definition renumbered {U : Unicode} (s : sources) (t t' : tag) : Prop :=
  t' = t \/
  exists ds ds' sep, source_name (source_word s) (t_name t) ds /\ ds <> [] /\ ds' <> [] /\ Forall (fun c => is_digit c = true) ds' /\
    t' = mk_tag (s_prefix s ++ ds') (t_value t) sep (t_comments t) (t_valid t) (t_prefix t) (t_suffix t) /\ aligned t t'.
(** Of the lines above something, [moved] are those up to and including the first %endif, none if there is no %endif, and [kept] are the others. *)
Definition endif_line (l : str) : Prop := exists r, l = lit "%endif" ++ r.
Definition up_to_endif (moved kept : list str) : Prop :=
  (moved = [] /\ Forall (fun l => ~ endif_line l) kept) \/ exists m l, moved = m ++ [l] /\ endif_line l /\ Forall (fun l => ~ endif_line l) m.
(** What comes below a new tag, the tags [b] and the lines [rem] at the end, gives the lines [moved] to the new tag; [b1] and [rem1] are what is left. *)
Definition gives_lines (b : list tag) (rem moved : list str) (b1 : list tag) (rem1 : list str) : Prop :=
  match b with
  | [] => b1 = [] /\ rem = moved ++ rem1 /\ up_to_endif moved rem1
  | u :: b0 => rem1 = rem /\ exists kept, t_preceding u = moved ++ kept /\ up_to_endif moved kept /\ b1 = with_preceding kept u :: b0
  end.
(** [new] was put between the tags [a] and [b], and nothing else changed but numbers below and where lines above belong to. *)
Definition tag_added {U : Unicode} (s : sources) (a b : list tag) (loc : str) (new : tag) (s' : sources) : Prop :=
  ts_data (s_tags s) = a ++ b /\ s' = with_tags (s_tags s') s /\
  (t_value new = loc /\ cs_data (t_comments new) = [] /\ t_prefix new = [] /\ t_suffix new = []) /\
  exists b1 b', gives_lines b (ts_remainder (s_tags s)) (t_preceding new) b1 (ts_remainder (s_tags s')) /\
    Forall2 (renumbered s) b1 b' /\ ts_data (s_tags s') = a ++ new :: b'.
(** [new] is named like the source [r]: without a number if [r] has none, else with as many digits if the number of [r] begins with a zero. *)
Definition named_after {U : Unicode} (s : sources) (r new : tag) (number : Z) : Prop :=
  exists ds, source_name (source_word s) (t_name r) ds /\ t_valid new = t_valid r /\ aligned r new /\
  t_name new = s_prefix s ++ match ds with [] => [] | c :: _ => dec_pad (if c =? ZERO then length ds else 1) (Z.to_N number) end.
(** An entry was put into list section [l], as its number [j]; [v] says if it is valid. *)
Definition entry_added (s : sources) (l j : nat) (loc : str) (v : list entry -> list entry -> bool) (s' : sources) : Prop :=
  s_tags s' = s_tags s /\
  exists l1 sl l2 c d e, s_lists s = l1 ++ sl :: l2 /\ length l1 = l /\ sl_data sl = c ++ d /\ length c = j /\
    e = mk_entry loc (mk_comments [] []) (v c d) /\ s_lists s' = l1 ++ mk_slist (c ++ e :: d) (sl_remainder sl) :: l2.
(** The entry above decides; at the top it is the last one. *)
Definition valid_above (c d : list entry) : bool := match rev c with e :: _ => e_valid e | [] => match rev d with e :: _ => e_valid e | [] => true end end.
Definition named_source (name : str) : Prop := exists letters x, name = letters ++ x /\ Forall2 same_letter (lit "source") letters.
(** Where the first source tag goes: to the end; the first patch goes below the last tag whose name begins with "source". *)
Definition first_name (s : sources) (number : Z) : str :=
  s_prefix s ++ if s_implicit s || Nat.eqb (s_digits s) 0 then [] else dec_pad (s_digits s) (Z.to_N number).
Definition first_added {U : Unicode} (s : sources) (loc : str) (number : Z) (s' : sources) : Prop :=
  exists a b new, tag_added s a b loc new s' /\ t_name new = first_name s number /\
    t_valid new = match rev (a ++ b) with t :: _ => t_valid t | [] => true end /\
    ((b = [] /\ t_separator new = lit ": " /\ (s_patches s = true -> Forall (fun t => ~ named_source (t_name t)) a)) \/
     (s_patches s = true /\ Forall (fun t => ~ named_source (t_name t)) b /\ exists a0 r, a = a0 ++ [r] /\ named_source (t_name r) /\ aligned r new)).
(** No %sourcelist or %patchlist section has entries. *)
Definition no_list_entries (s : sources) : Prop := Forall (fun sl => sl_data sl = []) (s_lists s).
(** The sources of list sections are numbered from [last + 1] in each section. *)
Definition list_numbers (last : Z) (l : list sourcelist) : list (place * Z) :=
  flat_map (fun x => map (fun i => (InList (fst x) i, (last + 1 + Z.of_nat i)%Z)) (seq 0 (length (sl_data (snd x))))) (combine (seq 0 (length l)) l).
(** The elements whose flag is not set. *)
Fixpoint without {A} (flags : list bool) (l : list A) : list A :=
  match flags, l with
  | [], _ => l
  | _, [] => []
  | true :: fs, x :: l' => without fs l'
  | false :: fs, x :: l' => x :: without fs l'
  end.
Definition increasing : list Z -> Prop := StronglySorted Z.lt.
