(** Python's [re] for the constructs occurring in /repo/specfile.  Every star in
    those patterns ranges over a single character class, which the syntax tree
    reflects.  Definitions only; facts are in RegexFacts.v. *)
From Coq Require Import NArith List Bool.
From Verif Require Import PyStr.
Import ListNotations.
Open Scope N_scope.

(** Pattern syntax.  [Alt] is ordered; [Star true]/[Star false] are the greedy
    and the lazy star; [Grp n] captures; [IfGrp n a b] is [(?(n)a|b)];
    [Dollar] is [$] without MULTILINE; [NotBehind p] is [(?<!p)]; [BackRef n] is [(?P=n)]. *)
Inductive re :=
| Eps
| Ch (p : char -> bool)
| Seq (a b : re)
| Alt (a b : re)
| Star (greedy : bool) (p : char -> bool)
| Grp (n : nat) (r : re)
| IfGrp (n : nat) (a b : re)
| Caret
| Dollar
| NotBehind (p : char -> bool)
| BackRef (n : nat).

(** Matcher state: consumed text (reversed), remaining text, captures (latest first). *)
Record st := mkst { pre : str; rest : str; caps : list (nat * str) }.

Fixpoint cap_get (n : nat) (l : list (nat * str)) : option str :=
  match l with
  | [] => None
  | (m, s) :: l' => if Nat.eqb n m then Some s else cap_get n l'
  end.

(** All ways of consuming characters satisfying [p], in order of preference. *)
Fixpoint star_results (greedy : bool) (p : char -> bool) (pr rs : str)
         (cs : list (nat * str)) : list st :=
  match rs with
  | [] => [mkst pr [] cs]
  | c :: rs' =>
      if p c then
        if greedy then star_results greedy p (c :: pr) rs' cs ++ [mkst pr rs cs]
        else mkst pr rs cs :: star_results greedy p (c :: pr) rs' cs
      else [mkst pr rs cs]
  end.

(** [$]: at the end, or before a final newline. *)
Definition at_dollar (s : str) : bool :=
  match s with [] => true | [c] => c =? LF | _ => false end.

(** The text consumed between two states of one run. *)
Definition consumed (s s' : st) : str :=
  rev (firstn (length (pre s') - length (pre s)) (pre s')).

(** All matches from a state, in order of preference (what a backtracking
    engine would try). *)
Fixpoint results (r : re) (s : st) : list st :=
  match r with
  | Eps => [s]
  | Ch p =>
      match rest s with
      | c :: rs => if p c then [mkst (c :: pre s) rs (caps s)] else []
      | [] => []
      end
  | Seq a b => flat_map (results b) (results a s)
  | Alt a b => results a s ++ results b s
  | Star g p => star_results g p (pre s) (rest s) (caps s)
  | Grp n a =>
      map (fun s' => mkst (pre s') (rest s') ((n, consumed s s') :: caps s')) (results a s)
  | IfGrp n a b =>
      match cap_get n (caps s) with Some _ => results a s | None => results b s end
  | Caret => match pre s with [] => [s] | _ => [] end
  | Dollar => if at_dollar (rest s) then [s] else []
  | NotBehind p =>
      match pre s with c :: _ => if p c then [] else [s] | [] => [s] end
  | BackRef n =>
      match cap_get n (caps s) with
      | Some t =>
          match strip_prefix t (rest s) with
          | Some rs => [mkst (rev t ++ pre s) rs (caps s)]
          | None => []
          end
      | None => []
      end
  end.

(** [re.match(r, s)] *)
Definition re_match (r : re) (s : str) : option st :=
  hd_error (results r (mkst [] s [])).

(** [m.group(n)] *)
Definition group (n : nat) (m : st) : option str := cap_get n (caps m).
Definition group_str (n : nat) (m : st) : str :=
  match group n m with Some s => s | None => [] end.

(** [re.search(r, s)]: start of the leftmost match (as the reversed skipped
    text) and the match. *)
Fixpoint search_from (r : re) (pr rs : str) : option (str * st) :=
  match hd_error (results r (mkst pr rs [])) with
  | Some m => Some (pr, m)
  | None =>
      match rs with
      | [] => None
      | c :: rs' => search_from r (c :: pr) rs'
      end
  end.
Definition re_search (r : re) (s : str) : option (str * st) := search_from r [] s.

(** Derived forms. *)
Fixpoint seqs (l : list re) : re :=
  match l with [] => Eps | [r] => r | r :: l' => Seq r (seqs l') end.
Fixpoint alts (l : list re) : re :=
  match l with [] => Ch (fun _ => false) | [r] => r | r :: l' => Alt r (alts l') end.
Definition Opt (r : re) : re := Alt r Eps.
Definition Plus (g : bool) (p : char -> bool) : re := Seq (Ch p) (Star g p).
Definition chr (c : char) : re := Ch (N.eqb c).
Definition word (s : str) : re := seqs (map chr s).
(** [.] *)
Definition dot (c : char) : bool := negb (c =? LF).
(** [[^\S\n]] *)
Definition space_not_lf (c : char) : bool := is_space c && negb (c =? LF).
Definition not_space (c : char) : bool := negb (is_space c).

(** A lower-case ASCII pattern letter under re.IGNORECASE (exact set). *)
Definition ci (a c : char) : bool :=
  (c =? a) || (ascii_lower a && (c =? a - 32)) || (ascii_upper a && (c =? a + 32))
  || (((a =? 105) || (a =? 73)) && ((c =? 304) || (c =? 305)))
  || (((a =? 115) || (a =? 83)) && (c =? 383))
  || (((a =? 107) || (a =? 75)) && (c =? 8490)).
Definition ci_word (s : str) : re := seqs (map (fun a => Ch (ci a)) s).

(** [re.split(r, s, maxsplit=1)] for patterns with exactly the groups [1..n]:
    [None] when there is no match, otherwise the text before, the groups, the text after. *)
Definition re_split1 (r : re) (s : str) : option (str * st) :=
  match re_search r s with
  | Some (pr, m) => Some (rev pr, m)
  | None => None
  end.

(** Declarative meaning of a pattern: [Match r s s']. *)
Inductive Match : re -> st -> st -> Prop :=
| MEps s : Match Eps s s
| MCh p pr c rs cs : p c = true -> Match (Ch p) (mkst pr (c :: rs) cs) (mkst (c :: pr) rs cs)
| MSeq a b s s1 s2 : Match a s s1 -> Match b s1 s2 -> Match (Seq a b) s s2
| MAltL a b s s1 : Match a s s1 -> Match (Alt a b) s s1
| MAltR a b s s1 : Match b s s1 -> Match (Alt a b) s s1
| MStar g p pr w rs cs :
    forallb p w = true -> Match (Star g p) (mkst pr (w ++ rs) cs) (mkst (rev w ++ pr) rs cs)
| MGrp n a s w s1 :
    Match a s s1 -> pre s1 = rev w ++ pre s ->
    Match (Grp n a) s (mkst (pre s1) (rest s1) ((n, w) :: caps s1))
| MIfT n a b s w s1 : cap_get n (caps s) = Some w -> Match a s s1 -> Match (IfGrp n a b) s s1
| MIfF n a b s s1 : cap_get n (caps s) = None -> Match b s s1 -> Match (IfGrp n a b) s s1
| MCaret rs cs : Match Caret (mkst [] rs cs) (mkst [] rs cs)
| MDollar s : at_dollar (rest s) = true -> Match Dollar s s
| MNotBehindNil p rs cs : Match (NotBehind p) (mkst [] rs cs) (mkst [] rs cs)
| MNotBehind p c pr rs cs : p c = false ->
    Match (NotBehind p) (mkst (c :: pr) rs cs) (mkst (c :: pr) rs cs)
| MBackRef n w pr rs cs : cap_get n cs = Some w ->
    Match (BackRef n) (mkst pr (w ++ rs) cs) (mkst (rev w ++ pr) rs cs).
