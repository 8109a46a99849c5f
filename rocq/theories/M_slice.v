(** Slices of collections: [__delitem__] of [Tags] (/repo/specfile/tags.py 385-389), [MacroDefinitions] (macro_definitions.py 241-245), [PrepMacros] (prep.py 218-222),
    [Changelog] (changelog.py 256-260), [Sources] (sources.py 341-348) and [Positionals] (options.py 134-139); [__setitem__] of the last two (sources.py 333-339, options.py 117-123);
    [__getitem__] of all of them (changelog.py 241-245, macro_definitions.py 224-228, prep.py 201-205, sections.py 96-102, sourcelist.py 118-122, tags.py 118-122, 353-357). *)
From Coq Require Import Ascii String.
From Coq Require Import NArith ZArith List Bool.
From Verif Require Import PyStr M_options M_changelog M_macro_definitions M_prep M_tags M_sources.
Import ListNotations.
Open Scope Z_scope.

(** [slice(start, stop, step)] *)
Record slice := mk_slice { sl_start : option Z; sl_stop : option Z; sl_step : option Z }.
(** CPython's [PySlice_AdjustIndices]: a bound of a slice of something of length [n] *)
Definition adjust (n step b : Z) : Z :=
  let b := if b <? 0 then b + n else b in
  if b <? 0 then (if step <? 0 then -1 else 0) else if n <=? b then (if step <? 0 then n - 1 else n) else b.
(** [range(start, stop, step)]: the number of items *)
Definition span (start stop step : Z) : Z :=
  if 0 <? step then (if start <? stop then (stop - start - 1) / step + 1 else 0)
  else (if stop <? start then (start - stop - 1) / (- step) + 1 else 0).
(** [range(n)[s]]; [l[s]] are the items of the list [l] at these positions. *)
Definition slice_range (s : slice) (n : nat) : result (list nat) :=
  let step := match sl_step s with Some k => k | None => 1 end in
  let n := Z.of_nat n in
  if step =? 0 then Err ValueError
  else
    let start := match sl_start s with Some b => adjust n step b | None => if step <? 0 then n - 1 else 0 end in
    let stop := match sl_stop s with Some b => adjust n step b | None => if step <? 0 then -1 else n end in
    Ok (map (fun k => Z.to_nat (start + Z.of_nat k * step)) (seq 0 (Z.to_nat (span start stop step)))).
(** [l[s]] for a list, and so also the entries of [tags[s]], [changelog[s]], [section[s]] and so on. *)
Definition get_slice {A} (s : slice) (l : list A) : result (list A) :=
  let! is := slice_range s (length l) in Ok (flat_map (fun k => match nth_error l k with Some x => [x] | None => [] end) is).
(** tags.py 353-357, macro_definitions.py 224-228, prep.py 201-205, changelog.py 241-245: with all the leftover lines *)
Definition get_tags (s : slice) (ts : tags) : result tags := let! l := get_slice s (ts_data ts) in Ok (mk_tags l (ts_remainder ts)).
Definition get_mdefs (s : slice) (m : mdefs) : result mdefs := let! l := get_slice s (md_data m) in Ok (mk_mdefs l (md_remainder m)).
Definition get_prep (s : slice) (p : prep) : result prep := let! l := get_slice s (p_macros p) in Ok (mk_prep l (p_remainder p)).
Definition get_changelog (s : slice) (c : changelog) : result changelog := let! l := get_slice s (entries c) in Ok (mk_changelog l (predecessor c)).

(** tags.py 385-387 *)
Definition del_tags (s : slice) (ts : tags) : result tags := let! is := slice_range s (length (ts_data ts)) in M_tags.delete_all ts (rev is).
(** macro_definitions.py 241-243 *)
Definition del_mdefs (s : slice) (m : mdefs) : result mdefs := let! is := slice_range s (length (md_data m)) in M_macro_definitions.delete_all m (rev is).
(** prep.py 218-220 *)
Definition del_prep (s : slice) (p : prep) : result prep := let! is := slice_range s (length (p_macros p)) in M_prep.delete_all p (rev is).
(** changelog.py 256-258 *)
Fixpoint delete_entries (c : changelog) (is : list nat) : result changelog :=
  match is with [] => Ok c | i :: is' => let! c' := M_changelog.delete c (Z.of_nat i) in delete_entries c' is' end.
Definition del_changelog (s : slice) (c : changelog) : result changelog := let! is := slice_range s (length (entries c)) in delete_entries c (rev is).
(** options.py 123-137; the indices of tokens are found before anything is deleted.  An index that is too large by then is an [IndexError] in line 131 or 133, also if it is
    one too large and a space is before it, which is then gone. *)
Fixpoint delete_tokens (l : list token) (is : list nat) : result (list token) :=
  match is with [] => Ok l | i :: is' => if (i <? length l)%nat then delete_tokens (pos_delete_token l i) is' else Err IndexError end.
Definition del_positionals (s : slice) (o : opts) : result opts :=
  let items := M_options.get_items o in
  let! is := slice_range s (length items) in
  let! l := delete_tokens (o_tokens o) (rev (map (fun k => nth k items 0%nat) is)) in
  Ok (with_tokens o l).
(** options.py 117-121: [self._options._tokens[items[i1]].value = str(item[i0])]; the exception, if any, comes after the changes so far. *)
Fixpoint set_tokens (l : list token) (is : list nat) (vs : list oval) : list token * option exn :=
  match is, vs with
  | [], _ => (l, None)
  | _ :: _, [] => (l, Some IndexError)
  | i :: is', v :: vs' => set_tokens (update_at i (set_value (oval_str v)) l) is' vs'
  end.
Definition set_positionals (s : slice) (vs : list oval) (o : opts) : result (opts * option exn) :=
  let items := M_options.get_items o in
  let! is := slice_range s (length items) in
  let (l, e) := set_tokens (o_tokens o) (map (fun k => nth k items 0%nat) is) vs in Ok (with_tokens o l, e).
Section Uni.
Context {U : Unicode}.
(** options.py 96-103 *)
Fixpoint numbers_or_texts (l : list str) : result (list oval) :=
  match l with [] => Ok [] | v :: l' => let! x := number_or_text v in let! xs := numbers_or_texts l' in Ok (x :: xs) end.
Definition get_positionals (s : slice) (o : opts) : result (list oval) :=
  let! is := get_slice s (M_options.get_items o) in numbers_or_texts (map (fun k => M_options.t_value (tok_at (o_tokens o) k)) is).
(** sources.py 343-345 *)
Definition del_sources (s : slice) (x : sources) : result sources := let! is := slice_range s (length (M_sources.get_items x)) in delete_slice x is.
(** sources.py 335-337, one location after the other.  The sources are found before anything is changed, but this does not matter: a location does not decide what is a source. *)
Fixpoint set_locations (x : sources) (is : list nat) (locs : list str) : result (sources * option exn) :=
  match is, locs with
  | [], _ => Ok (x, None)
  | _ :: _, [] => Ok (x, Some IndexError)
  | i :: is', loc :: locs' => let! x' := set_location x (Z.of_nat i) loc in set_locations x' is' locs'
  end.
Definition set_sources (s : slice) (locs : list str) (x : sources) : result (sources * option exn) :=
  let! is := slice_range s (length (M_sources.get_items x)) in set_locations x is locs.
End Uni.
