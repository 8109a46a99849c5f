(** Independent specification of nested views: at any time a view is closed, or open with one value.  Opening a
    view that is open already shares its value.  Opening a closed one opens the view it is part of, takes the
    value from there, and on leaving puts the value back there, once, whatever happened inside. *)
From Coq Require Import Arith List Bool.
From Verif Require Import PyStr M_context.
Import ListNotations.

Section Context.
Context {V : Type} (load : nat -> V -> result V) (store : nat -> V -> V -> result V) (autosave : bool).

(** The lines, the values of the open views, the saved file, and what was loaded and stored so far. *)
Record views := mk_views { doc : V; cur : path -> option V; saved : option V; history : list event }.
Definition is_open (k : path) (s : views) : bool := match cur s k with Some _ => true | None => false end.
Definition put (k : path) (v : option V) (s : views) : views := mk_views (doc s) (upd (cur s) k v) (saved s) (history s).
Definition opened (k : path) (v : V) (s : views) : views := mk_views (doc s) (upd (cur s) k (Some v)) (saved s) (history s ++ [Loaded k]).
Definition wrote (k : path) (s : views) : views := mk_views (doc s) (cur s) (saved s) (history s ++ [Stored k]).
(** Leaving the outermost view of the lines; the file is saved if [autosave] is set. *)
Definition closed_root (s : views) : views :=
  match cur s [] with
  | Some v => mk_views v (upd (cur s) [] None) (if autosave then Some v else saved s) (history s ++ [Stored []])
  | None => s
  end.
Definition key_error (e : exn) : bool := match e with KeyError => true | _ => false end.

(** Running [body] with the view [k] open.  [Err e]: the view could not be opened or written back.  A KeyError of
    parsing or writing is lost when the view it is part of was open before. *)
Inductive inside (A : Type) := Not_loaded (e : exn) | Finished (a : A) (failure : option exn).
Arguments Not_loaded {A}. Arguments Finished {A}.
Fixpoint within (k : path) : forall A, (views -> views * A) -> views -> views * result A :=
  match k return forall A, (views -> views * A) -> views -> views * result A with
  | [] => fun A body s =>
      if is_open [] s then let (s, a) := body s in (s, Ok a)
      else let (s, a) := body (opened [] (doc s) s) in (closed_root s, Ok a)
  | n :: p => fun A body s =>
      if is_open (n :: p) s then let (s, a) := body s in (s, Ok a)
      else
        let shared := is_open p s in
        let (s, r) := within p (inside A) (fun s =>
          match cur s p with
          | None => (s, Not_loaded OtherError)
          | Some pv =>
              match load n pv with
              | Err e => (s, Not_loaded e)
              | Ok v =>
                  let (s, a) := body (opened (n :: p) v s) in
                  match cur s (n :: p), cur s p with
                  | Some v', Some pv' =>
                      match store n v' pv' with
                      | Ok w => (wrote (n :: p) (put p (Some w) (put (n :: p) None s)), Finished a None)
                      | Err e => (put (n :: p) None s, Finished a (Some e))
                      end
                  | _, _ => (s, Not_loaded OtherError)
                  end
              end
          end) s in
        (s, match r with
            | Err e => Err e
            | Ok (Not_loaded e) => Err (if shared && key_error e then StopIteration else e)
            | Ok (Finished a None) => Ok a
            | Ok (Finished a (Some e)) => if shared && key_error e then Ok a else Err e
            end)
  end.
(** A KeyError that leaves a [with] of a view that was open before is lost. *)
Definition left_shared (shared : bool) (o : option exn) : option exn :=
  match o with Some KeyError => if shared then None else o | _ => o end.
(** What a program does; [env] lists the views of the enclosing [with]s. *)
Fixpoint meaning (p : prog) (env : list path) (s : views) : views * option exn :=
  match p with
  | Skip => (s, None)
  | Edit i f =>
      match nth_error env i with
      | Some k => (match cur s k with Some v => put k (Some (f v)) s | None => s end, None)
      | None => (s, None)
      end
  | Raise e => (s, Some e)
  | Then p q => let (s, r) := meaning p env s in match r with Some e => (s, Some e) | None => meaning q env s end
  | Except p q => let (s, r) := meaning p env s in match r with Some e => meaning q env s | None => (s, None) end
  | With k p =>
      let shared := is_open k s in
      let (s, r) := within k (option exn) (meaning p (k :: env)) s in
      (s, match r with Err e => Some e | Ok o => left_shared shared o end)
  end.
Definition no_views (lines : V) : views := mk_views lines (fun _ => None) None [].

(** What can be observed of a run on a spec file with the given lines: the exception, the lines, the saved file, and
    what was loaded and written. *)
Definition observe (p : prog) (lines : V) : option exn * option V * option V * list event :=
  let (m, r) := run load store autosave p [] (initial lines) in (r, nth_error (heap m) 0, disk m, log m).
End Context.

(** A log in which each view is loaded while it is closed and the view it is part of is open, and written exactly once
    before it is loaded again.  [ctx] lists the open views. *)
Inductive nested : list path -> list event -> Prop :=
| nested_nil ctx : nested ctx []
| nested_view ctx k l1 l2 : ~ In k ctx -> (forall n p, k = n :: p -> In p ctx) -> nested (k :: ctx) l1 -> nested ctx l2 ->
    nested ctx (Loaded k :: l1 ++ Stored k :: l2).

Section Programs.
Context {V : Type}.
(** Programs that change nothing. *)
Fixpoint no_edits (p : @prog V) : Prop :=
  match p with Skip | Raise _ => True | Edit _ _ => False | Then p q | Except p q => no_edits p /\ no_edits q | With _ p => no_edits p end.
(** Programs that raise no KeyError of their own. *)
Fixpoint no_key_errors (p : @prog V) : Prop :=
  match p with Skip | Edit _ _ => True | Raise e => e <> KeyError | Then p q | Except p q => no_key_errors p /\ no_key_errors q | With _ p => no_key_errors p end.
(** The body of a [with] moved out of it: its value and that of the next enclosing [with] become the same. *)
Fixpoint merged (d : nat) (p : @prog V) : @prog V :=
  match p with
  | Edit i f => Edit (if Nat.leb i d then i else pred i) f
  | Then p q => Then (merged d p) (merged d q)
  | Except p q => Except (merged d p) (merged d q)
  | With k p => With k (merged (S d) p)
  | _ => p
  end.
(** A program moved into one more [with], whose value it does not use. *)
Fixpoint lifted (d : nat) (p : @prog V) : @prog V :=
  match p with
  | Edit i f => Edit (if Nat.ltb i d then i else S i) f
  | Then p q => Then (lifted d p) (lifted d q)
  | Except p q => Except (lifted d p) (lifted d q)
  | With k p => With k (lifted (S d) p)
  | _ => p
  end.
End Programs.
