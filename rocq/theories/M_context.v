(** Model of the views of a spec file: /repo/specfile/context_management.py 41-145 ([GeneratorContextManager],
    [ContextManager]) and the decorated methods of /repo/specfile/specfile.py 222-345 ([lines], [macro_definitions],
    [sections], [tags], [changelog], [prep]).

    A view is named by a path: [] is [lines()], [n :: p] the view that method and arguments [n] give inside
    the view [p], e.g. [tags; sections].  The name [n] stands for the pickled arguments (110-114), so two calls
    have the same name when their arguments are spelled the same way; one dictionary serves for all methods.
    Values are mutable objects on a heap; object 0 is the list of lines.  Not modelled: [sources] and
    [patches], which write to sections while they are inside [tags]; threads; [reload] and [is_bound]. *)
From Coq Require Import Arith List Bool.
From Verif Require Import PyStr.
Import ListNotations.

Definition path := list nat.
Definition path_eqb (a b : path) : bool := if list_eq_dec Nat.eq_dec a b then true else false.

Section Context.
(** Contents of objects; [load n] parses what the view [n] shows of its parent, [store n v] writes it back. *)
Context {V : Type} (load : nat -> V -> result V) (store : nat -> V -> V -> result V) (autosave : bool).

(** A generator of a decorated method: exhausted ([gi_frame is None]) or suspended at its [yield], with the
    yielded object, and the parent's context manager and object. *)
Record gen := mk_gen { g_done : bool; g_object : nat; g_parent : nat; g_parent_object : nat }.
Inductive progress := Ready | Open | Done.
(** A [GeneratorContextManager]: of [new_value] or [existing_value], and how far its generator is. *)
Record handle := mk_handle { h_key : path; h_new : bool; h_progress : progress }.
(** What happened: an object was loaded for a view, written back. *)
Inductive event := Loaded (k : path) | Stored (k : path).
Record st := mk_st {
  heap : list V; gens : list gen; handles : list handle;
  generators : path -> option nat; values : path -> option nat; disk : option V; log : list event }.
Definition upd {A} (f : path -> option A) (k : path) (x : option A) : path -> option A :=
  fun k' => if path_eqb k' k then x else f k'.
Definition set_heap (h : list V) (s : st) := mk_st h (gens s) (handles s) (generators s) (values s) (disk s) (log s).
Definition set_gens (g : list gen) (s : st) := mk_st (heap s) g (handles s) (generators s) (values s) (disk s) (log s).
Definition set_handles (h : list handle) (s : st) := mk_st (heap s) (gens s) h (generators s) (values s) (disk s) (log s).
Definition set_generators f (s : st) := mk_st (heap s) (gens s) (handles s) f (values s) (disk s) (log s).
Definition set_values f (s : st) := mk_st (heap s) (gens s) (handles s) (generators s) f (disk s) (log s).
Definition set_disk d (s : st) := mk_st (heap s) (gens s) (handles s) (generators s) (values s) d (log s).
Definition add_log e (s : st) := mk_st (heap s) (gens s) (handles s) (generators s) (values s) (disk s) (log s ++ [e]).
Definition edit (o : nat) (f : V -> V) (s : st) : st := set_heap (update_at o f (heap s)) s.
Definition progressed (h : nat) (p : progress) (s : st) : st :=
  set_handles (update_at h (fun x => mk_handle (h_key x) (h_new x) p) (handles s)) s.
Definition exhaust (g : nat) (s : st) : st :=
  set_gens (update_at g (fun x => mk_gen true (g_object x) (g_parent x) (g_parent_object x)) (gens s)) s.
Definition suspended (k : path) (s : st) : option nat :=
  match generators s k with
  | Some g => match nth_error (gens s) g with Some x => if g_done x then None else Some g | None => None end
  | None => None
  end.
Definition add_handle (k : path) (new : bool) (s : st) : st * nat :=
  (set_handles (handles s ++ [mk_handle k new Ready]) s, length (handles s)).

(** The generator of the view [k] has yielded the object [o]. *)
Definition started (k : path) (o hp op : nat) (s : st) : st :=
  add_log (Loaded k) (set_values (upd (values s) k (Some o))
    (set_generators (upd (generators s) k (Some (length (gens s)))) (set_gens (gens s ++ [mk_gen false o hp op]) s))).

(** [next] of the generator of a context manager that has not started, as [__enter__] does it (contextlib):
    [existing_value] 121-127, [new_value] 135-137.  The lookup fails in [existing_value] when the view was
    closed in between; then the generator does not yield, which is a [RuntimeError].  In [new_value] it cannot
    fail, so that case is left out. *)
Definition enter (h : nat) (s : st) : st * result nat :=
  match nth_error (handles s) h with
  | Some (mk_handle k new Ready) =>
      match values s k with
      | Some o => (progressed h Open s, Ok o)
      | None => (progressed h Done s, Err OtherError)
      end
  | _ => (s, Err OtherError)
  end.

(** [next] (for [e = None]) or [throw] on the generator of the context manager [h] of the view [k], which is at
    its [yield]: [None] if it ends, else the exception.  [existing_value] 121-127 swallows a [KeyError];
    [new_value] 138-143 finishes the generator of the view with [next] whatever the exception.  The finishing
    of a view: specfile.py 232-233, 247-250, 264-268, 289-295 and alike: the parent's [with] gets the exception
    of a failing write. *)
Fixpoint close (k : path) (h : nat) (e : option exn) (s : st) : st * option exn :=
  match nth_error (handles s) h with
  | Some (mk_handle _ false _) =>
      (progressed h Done s, match e with Some KeyError => None | _ => e end)
  | Some (mk_handle _ true _) =>
      let s := progressed h Done s in
      match generators s k with
      | None => (s, Some KeyError)
      | Some g =>
          let (s, failure) :=
            match nth_error (gens s) g with
            | None => (s, None)
            | Some x =>
                if g_done x then (s, None)
                else
                  let s := exhaust g s in
                  match k with
                  | [] => (add_log (Stored k) (if autosave then set_disk (nth_error (heap s) 0) s else s), None)
                  | n :: p =>
                      match nth_error (heap s) (g_object x), nth_error (heap s) (g_parent_object x) with
                      | Some v, Some pv =>
                          match store n v pv with
                          | Ok pv' => close p (g_parent x) None (add_log (Stored k) (edit (g_parent_object x) (fun _ => pv') s))
                          | Err e' => close p (g_parent x) (Some e') s
                          end
                      | _, _ => (s, None)
                      end
                  end
            end in
          match failure with
          | Some e' => (s, Some e')
          | None => (set_values (upd (values s) k None) (set_generators (upd (generators s) k None) s), e)
          end
      end
  | None => (s, e)
  end.

(** [__call__] 108-145.  A generator that fails before its [yield] leaves an exhausted generator in the dictionary
    (131-133), which acts like none and is left out; so the dictionary is filled after the first [next]. *)
Fixpoint call (k : path) (s : st) : st * result nat :=
  match suspended k s with
  | Some _ => let (s, h) := add_handle k false s in (s, Ok h)
  | None =>
      match k with
      | [] => let (s, h) := add_handle k true (started k 0 0 0 s) in (s, Ok h)
      | n :: p =>
          match call p s with
          | (s, Err e) => (s, Err e)
          | (s, Ok hp) =>
              match enter hp s with
              | (s, Err e) => (s, Err e)
              | (s, Ok op) =>
                  match nth_error (heap s) op with
                  | None => (s, Err OtherError)
                  | Some pv =>
                      match load n pv with
                      | Err e =>
                          let (s, r) := close p hp (Some e) s in (s, Err match r with Some e' => e' | None => StopIteration end)
                      | Ok v =>
                          let (s, h) := add_handle k true (started k (length (heap s)) hp op (set_heap (heap s ++ [v]) s)) in (s, Ok h)
                      end
                  end
              end
          end
      end
  end.

(** * Programs *)
(** Properly nested use: [Edit i f] changes the value bound by the [i]-th enclosing [with]. *)
Inductive prog :=
| Skip
| Edit (i : nat) (f : V -> V)
| Raise (e : exn)
| Then (p q : prog)
| Except (p q : prog)    (* try: p except: q *)
| With (k : path) (p : prog).
(** [with view as value: body]; contextlib: an exception that the generator does not raise again is suppressed. *)
Fixpoint run (p : prog) (env : list nat) (s : st) : st * option exn :=
  match p with
  | Skip => (s, None)
  | Edit i f => match nth_error env i with Some o => (edit o f s, None) | None => (s, None) end
  | Raise e => (s, Some e)
  | Then p q => let (s, r) := run p env s in match r with Some e => (s, Some e) | None => run q env s end
  | Except p q => let (s, r) := run p env s in match r with Some e => run q env s | None => (s, None) end
  | With k p =>
      match call k s with
      | (s, Err e) => (s, Some e)
      | (s, Ok h) =>
          match enter h s with
          | (s, Err e) => (s, Some e)
          | (s, Ok o) => let (s, r) := run p (o :: env) s in close k h r s
          end
      end
  end.
Definition initial (lines : V) : st := mk_st [lines] [] [] (fun _ => None) (fun _ => None) None [].
End Context.
