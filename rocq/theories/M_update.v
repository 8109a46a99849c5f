(** Model of updating a value through the macros and tags it refers to: value_parser.py [construct_regex] and specfile.py [update_value] (the update itself). *)
From Coq Require Import Ascii String.
From Coq Require Import NArith ZArith List Bool.
From Verif Require Import PyStr Regex M_value.
Import ListNotations.
Open Scope N_scope.

(** [str.upper] for what occurs in names of tags: ASCII letters, and the two other letters that are equal to one up to case. *)
Definition upper_c (c : char) : char := if ascii_lower c then c - 32 else if c =? 383 then 83 else if c =? 305 then 73 else c.
Definition upper (s : str) : str := map upper_c s.
(** [prefix.count("!") % 2 > 0] *)
Definition negated (prefix : str) : bool := Nat.odd (count_occ N.eq_dec prefix BANG).

Inductive item := IText (s : str) | INode (n : node).
(** value_parser.py 382-383: tokens, "c" (regex, template), "v" (value) and "g" (name, template) *)
Inductive token := TConst (value text : str) | TVar (value : str) | TGroup (name text : str).
(** [string.Template]: text (with "$" escaped, so it stands for itself) and "${name}" *)
Inductive tpl := TText (s : str) | TField (name : str).
Record pattern := mk_pattern { p_regex : re; p_names : list str; p_template : list tpl; p_flip : list str }.

Record entity := mk_entity {
  e_name : str; e_value : str; e_tag : bool; e_position : nat; e_disabled : bool; e_locked : bool; e_updated : bool; e_flip : bool }.

Section Uni.
Context {U : Unicode}.
(** value_parser.py 410-425: [itertools.groupby]; [None] if groups are not separated *)
Fixpoint squash (l : list token) : option (list token) :=
  match l with
  | [] => Some []
  | t :: l' =>
      match squash l' with
      | None => None
      | Some r =>
          match t, r with
          | TConst a b, TConst c d :: r' => Some (TConst (a ++ c) (b ++ d) :: r')
          | TVar a, TVar b :: r' => Some (TVar (a ++ b) :: r')
          | TGroup _ _, TGroup _ _ :: _ => None
          | _, _ => Some (t :: r)
          end
      end
  end.
(** value_parser.py 428-438, for the tokens on one side, closest first *)
Fixpoint group_nearby (l : list token) : bool :=
  match l with
  | TConst [] _ :: l' => group_nearby l'
  | TConst _ _ :: _ => false
  | TGroup _ _ :: _ => true
  | TVar _ :: _ => false
  | [] => false
  end.
Definition not_word (c : char) : bool := negb (is_word c).
(** value_parser.py 460-467: groups 1 [prefix], 2 [value], 3 [suffix] *)
Definition var_regex (before after : bool) : re :=
  Seq Caret
  (Seq (if before then Grp 1 (Seq (Star true is_word) (Ch not_word)) else Eps)
  (Seq (Grp 2 (Star true dot))
  (Seq (if after then Grp 3 (Seq (Ch not_word) (Star true is_word)) else Eps) Dollar))).
Definition sub_name (n : nat) : str := lit "sub_" ++ dec (N.of_nat n).
(** value_parser.py 440-490.  Groups are numbered in the order of [names] ([named_groups]); [re.escape] makes text that matches itself. *)
Fixpoint build (before tokens : list token) (names : list str) (sub : nat) : list re * list tpl * list str :=
  match tokens with
  | [] => ([], [], names)
  | TConst v t as tok :: l =>
      let '(rs, ts, names) := build (tok :: before) l names sub in (word v :: rs, TText t :: ts, names)
  | TGroup g t as tok :: l =>
      match find_index (str_eqb g) names with
      | Some k => let '(rs, ts, names) := build (tok :: before) l names sub in (BackRef k :: rs, TText t :: ts, names)
      | None => let '(rs, ts, names') := build (tok :: before) l (names ++ [g]) sub in (Grp (length names) (Plus true dot) :: rs, TText t :: ts, names')
      end
  | TVar v as tok :: l =>
      match re_match (var_regex (group_nearby before) (group_nearby l)) v with
      | None => let '(rs, ts, names) := build (tok :: before) l names sub in (word v :: rs, TText v :: ts, names)
      | Some m =>
          match group_str 2 m with
          | [] =>
              let '(rs, ts, names) := build (tok :: before) l names sub in
              (word (group_str 1 m) :: word (group_str 3 m) :: rs, TText (group_str 1 m) :: TText (group_str 3 m) :: ts, names)
          | _ =>
              let g := sub_name sub in
              let '(rs, ts, names') := build (tok :: before) l (names ++ [g]) (S sub) in
              (word (group_str 1 m) :: Grp (length names) (Plus false dot) :: word (group_str 3 m) :: rs, TText (group_str 1 m) :: TField g :: TText (group_str 3 m) :: ts, names')
          end
      end
  end.
(** [re.compile] fails if a name is given twice, or is not an identifier. *)
Fixpoint distinct_names (l : list str) : bool := match l with [] => true | n :: l' => negb (str_in n l') && distinct_names l' end.
(** [m.groupdict()] *)
Fixpoint groupdict (k : nat) (names : list str) (m : st) : list (str * str) :=
  match names with [] => [] | n :: names' => (n, group_str k m) :: groupdict (S k) names' m end.
Fixpoint field (n : str) (d : list (str * str)) : str := match d with [] => [] | (m, v) :: d' => if str_eqb n m then v else field n d' end.
(** [template.substitute(d)] *)
Definition substitute (ts : list tpl) (d : list (str * str)) : str := flat_map (fun t => match t with TText s => s | TField n => field n d end) ts.

(** specfile.py 788-811 *)
Definition names_entity (e : entity) (name : str) : bool := (e_tag e && str_eqb (e_name e) (lower name)) || str_eqb (e_name e) name.
Fixpoint node_refers (e : entity) (n : node) : bool :=
  match n with
  | MacroSubstitution _ x | EnclosedMacroSubstitution _ x _ => names_entity e x
  | ConditionalMacroExpansion _ x body => names_entity e x || existsb (node_refers e) body
  | _ => false
  end.
Definition find_reference (e : entity) (value : str) : result bool := let! nodes := parse value in Ok (existsb (node_refers e) nodes).

(** specfile.py 818-835; the sets are lists here *)
Definition modifiable_entities (position : nat) (es : list entity) : list str :=
  map e_name (List.filter (fun e => Nat.ltb (e_position e) position && (negb (e_flip e) || e_disabled e)) es) ++
  map (fun e => upper (e_name e)) (List.filter (fun e => Nat.ltb (e_position e) position && e_tag e) es).
Definition flippable_entities (position : nat) (es : list entity) : list str :=
  map e_name (List.filter (fun e => Nat.ltb (e_position e) position && negb (e_tag e) && negb (e_flip e)) es).
(** specfile.py 853-863: the index of the closest entity *)
Definition concerns (position : nat) (grp : str) (e : entity) : bool :=
  Nat.ltb (e_position e) position && ((str_eqb (e_name e) grp && negb (e_tag e)) || (str_eqb (e_name e) (lower grp) && e_tag e)).
Fixpoint find_last {A} (p : A -> bool) (l : list A) : option nat :=
  match l with
  | [] => None
  | x :: l' => match find_last p l' with Some k => Some (S k) | None => if p x then Some O else None end
  end.
Definition lock (e : entity) : entity := mk_entity (e_name e) (e_value e) (e_tag e) (e_position e) (e_disabled e) true (e_updated e) (e_flip e).
(** specfile.py 871-876 *)
Definition assign (v : str) (e : entity) : entity := mk_entity (e_name e) v (e_tag e) (e_position e) (e_disabled e) false true (e_flip e).
Definition flip (e : entity) : entity := mk_entity (e_name e) (e_value e) (e_tag e) (e_position e) (e_disabled e) (e_locked e) (e_updated e) true.
(** specfile.py 877-879 *)
Definition flip_all (position : nat) (names : list str) (es : list entity) : list entity :=
  map (fun e => if Nat.ltb (e_position e) position && str_in (e_name e) names then flip e else e) es.

Section World.
Context {W : Type}.
(** [expand] with the spec file as context; its parameter [skip_parsing] is left out. *)
Context (expand : str -> W -> W * result str) (isidentifier : str -> bool).
(** value_parser.py 347-369 *)
Definition evaluate (modifiable flippable : list str) (prefix name : str) (sets : list str * list str) (w : W) : W * result (bool * (list str * list str)) :=
  let (processed, flips) := sets in
  if negb (str_in name modifiable) then (w, Ok (false, sets))
  else
    match expand (lit "%{?" ++ name ++ lit ":1}") w with
    | (w, Err e) => (w, Err e)
    | (w, Ok x) =>
        let defined := match x with [] => false | _ => true end in
        if (negated prefix && defined) || negb (negated prefix || defined) then
          if negb (str_in name flippable) then (w, Ok (false, sets))
          else if str_in name processed && negb (str_in name flips) then (w, Ok (false, sets))
          else (w, Ok (true, (name :: processed, name :: flips)))
        else if str_in name flips then (w, Ok (false, sets))
        else (w, Ok (true, (name :: processed, flips)))
    end.
(** value_parser.py 344-380; the sets [processed_entities] and [entities_to_flip] are passed along. *)
Fixpoint flatten_node (modifiable flippable : list str) (n : node) (sets : list str * list str) (w : W) : W * result (list item * (list str * list str)) :=
  match n with
  | ConditionalMacroExpansion p name body =>
      match evaluate modifiable flippable p name sets w with
      | (w, Err e) => (w, Err e)
      | (w, Ok (false, sets)) => (w, Ok ([IText (node_str n)], sets))
      | (w, Ok (true, sets)) =>
          let fix go (l : list node) sets w :=
            match l with
            | [] => (w, Ok ([], sets))
            | n :: l' =>
                match flatten_node modifiable flippable n sets w with
                | (w, Err e) => (w, Err e)
                | (w, Ok (a, sets)) =>
                    match go l' sets w with
                    | (w, Err e) => (w, Err e)
                    | (w, Ok (b, sets)) => (w, Ok (a ++ b, sets))
                    end
                end
            end in
          match go body sets w with
          | (w, Err e) => (w, Err e)
          | (w, Ok (l, sets)) => (w, Ok (IText (lit "%{" ++ p ++ name ++ [COLON]) :: l ++ [IText (lit "}")], sets))
          end
      end
  | _ => (w, Ok ([INode n], sets))
  end.
Fixpoint flatten (modifiable flippable : list str) (l : list node) sets w :=
  match l with
  | [] => (w, Ok ([], sets))
  | n :: l' =>
      match flatten_node modifiable flippable n sets w with
      | (w, Err e) => (w, Err e)
      | (w, Ok (a, sets)) =>
          match flatten modifiable flippable l' sets w with
          | (w, Err e) => (w, Err e)
          | (w, Ok (b, sets)) => (w, Ok (a ++ b, sets))
          end
      end
  end.
(** value_parser.py 384-408 *)
Definition constant (n : node) (w : W) : W * result token :=
  match expand (node_str n) w with
  | (w, Err e) => (w, Err e)
  | (w, Ok c) => (w, Ok (TConst c (node_str n)))
  end.
Definition token_of (modifiable : list str) (i : item) (w : W) : W * result token :=
  match i with
  | IText s => (w, Ok (TConst [] s))
  | INode (StringLiteral v) => (w, Ok (TVar v))
  | INode (MacroSubstitution p name as n) =>
      if negb (negated p) && str_in name modifiable then (w, Ok (TGroup name (node_str n))) else constant n w
  | INode (EnclosedMacroSubstitution p name args as n) =>
      if negb (negated p) && match args with [] => true | _ => false end && str_in name modifiable then (w, Ok (TGroup name (node_str n))) else constant n w
  | INode n => constant n w
  end.
Fixpoint tokens_of (modifiable : list str) (l : list item) (w : W) : W * result (list token) :=
  match l with
  | [] => (w, Ok [])
  | i :: l' =>
      match token_of modifiable i w with
      | (w, Err e) => (w, Err e)
      | (w, Ok t) =>
          match tokens_of modifiable l' w with
          | (w, Err e) => (w, Err e)
          | (w, Ok ts) => (w, Ok (t :: ts))
          end
      end
  end.
(** value_parser.py 293-491 *)
Definition construct_regex (value : str) (modifiable flippable : list str) (w : W) : W * result pattern :=
  match parse value with
  | Err e => (w, Err e)
  | Ok nodes =>
      match flatten modifiable flippable nodes ([], []) w with
      | (w, Err e) => (w, Err e)
      | (w, Ok (items, (_, flips))) =>
          match tokens_of modifiable items w with
          | (w, Err e) => (w, Err e)
          | (w, Ok tokens) =>
              match squash tokens with
              | None => (w, Ok (mk_pattern (Seq Caret Dollar) [] [TText value] []))
              | Some tokens =>
                  let '(rs, ts, names) := build [] tokens [] 0 in
                  if distinct_names names && forallb isidentifier names
                  then (w, Ok (mk_pattern (Seq Caret (fold_right Seq Dollar rs)) names ts flips))
                  else (w, Err OtherError)
              end
          end
      end
  end.

(** specfile.py 813-882.  The nested calls are made for entities in front of the position, so that [S position] is enough fuel; when a
    call raises, the entities are not used any more. *)
Fixpoint update (fuel : nat) (value requested : str) (position : nat) (es : list entity) (w : W) : W * result (list entity * str) :=
  match fuel with
  | O => (w, Err OtherError)
  | S fuel =>
      if str_eqb value requested then (w, Ok (es, requested))
      else
        let modifiable := modifiable_entities position es in
        let fix groups (d : list (str * str)) (es : list entity) (w : W) : W * result (list entity * bool) :=
          match d with
          | [] => (w, Ok (es, true))
          | (g, v) :: d' =>
              if startswith g (lit "sub_") then groups d' es w
              else
                match find_last (concerns position g) es with
                | None => (w, Err IndexError)
                | Some k =>
                    match nth_error es k with
                    | None => (w, Err IndexError)
                    | Some e =>
                        if e_locked e then (w, Ok (es, false))
                        else
                          match find_reference e v with
                          | Err x => (w, Err x)
                          | Ok true => (w, Ok (es, false))
                          | Ok false =>
                              match update fuel (e_value e) v (e_position e) (update_at k lock es) w with
                              | (w, Err x) => (w, Err x)
                              | (w, Ok (es, v')) => groups d' (update_at k (assign v') es) w
                              end
                          end
                    end
                end
          end in
        let attempt flippable (next : W -> W * result (list entity * str)) w :=
          match construct_regex value modifiable flippable w with
          | (w, Err x) => (w, Err x)
          | (w, Ok p) =>
              match re_match (p_regex p) requested with
              | None => next w
              | Some m =>
                  let d := groupdict 0 (p_names p) m in
                  match groups d es w with
                  | (w, Err x) => (w, Err x)
                  | (w, Ok (es, false)) => (w, Ok (es, requested))
                  | (w, Ok (es, true)) => (w, Ok (flip_all position (p_flip p) es, substitute (p_template p) d))
                  end
              end
          end in
        attempt (flippable_entities position es) (attempt [] (fun w => (w, Ok (es, requested)))) w
  end.
End World.
End Uni.
