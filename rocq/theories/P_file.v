(** Proofs about loading and saving files. *)
From Coq Require Import NArith ZArith List Bool Lia.
From Verif Require Import PyStr M_file Spec_file.
Import ListNotations.
Open Scope N_scope.
Ltac Zify.zify_post_hook ::= Z.div_mod_to_equations.
Ltac bsplit := repeat match goal with
  | H : andb _ _ = true |- _ => apply andb_prop in H; destruct H
  | H : N.leb _ _ = true |- _ => apply N.leb_le in H
  | H : N.leb _ _ = false |- _ => apply N.leb_gt in H
  | H : N.ltb _ _ = true |- _ => apply N.ltb_lt in H
  | H : N.ltb _ _ = false |- _ => apply N.ltb_ge in H
  | H : N.eqb _ _ = true |- _ => apply N.eqb_eq in H
  | H : N.eqb _ _ = false |- _ => apply N.eqb_neq in H
  | H : negb _ = true |- _ => apply negb_true_iff in H
  | H : andb _ _ = false |- _ => apply andb_false_iff in H
  end.
Ltac nlia := repeat match goal with H : context [?a mod 64] |- _ => rewrite (N.mod_eq a 64) in H by discriminate end;
  rewrite ?(fun a => N.mod_eq a 64 ltac:(discriminate)); lia.
Ltac cmp := repeat match goal with
  | |- context [N.leb ?a ?b] => destruct (N.leb_spec a b); try nlia
  | |- context [N.ltb ?a ?b] => destruct (N.ltb_spec a b); try nlia
  end; cbn [andb negb].

(** * The codec *)
Lemma encode_escape a : 128 <= a -> a < 256 -> encode_char (escape a) = Some [a].
Proof. intros H1 H2. unfold encode_char, escape. cmp. do 2 f_equal. lia. Qed.
Lemma encode_cp2 a b : 194 <= a -> a <= 223 -> cont b = true -> encode_char (cp2 a b) = Some [a; b].
Proof. intros H1 H2 C. unfold cont in C. bsplit. unfold encode_char, cp2. cmp. repeat f_equal; nlia. Qed.
Lemma encode_cp3 a b c : 224 <= a -> a <= 239 -> ok3 a b c = true -> encode_char (cp3 a b c) = Some [a; b; c].
Proof.
  intros H1 H2 C. unfold ok3, cont in C. bsplit. unfold encode_char. set (x := cp3 a b c) in *.
  assert (x = (a - 224) * 4096 + (b - 128) * 64 + (c - 128)) by reflexivity. clearbody x.
  destruct H0; bsplit; cmp; repeat f_equal; nlia.
Qed.
Lemma encode_cp4 a b c d : 240 <= a -> a <= 244 -> ok4 a b c d = true -> encode_char (cp4 a b c d) = Some [a; b; c; d].
Proof.
  intros H1 H2 C. unfold ok4, cont in C. bsplit. unfold encode_char. set (x := cp4 a b c d) in *.
  assert (x = (a - 240) * 262144 + (b - 128) * 4096 + (c - 128) * 64 + (d - 128)) by reflexivity. clearbody x.
  cmp; repeat f_equal; nlia.
Qed.
Lemma encode_decode_n : forall n s, (length s <= n)%nat -> bytes s -> encode (decode s) = Some s.
Proof.
  induction n as [|n IH]; intros s L B.
  { destruct s; [reflexivity|cbn in L; lia]. }
  destruct s as [|a s1]; [reflexivity|]. cbn in L. inversion B as [|? ? Ba B1]; subst.
  assert (E1 : encode (decode s1) = Some s1) by (apply IH; [lia|assumption]).
  assert (ESC : 128 <= a -> encode (escape a :: decode s1) = Some (a :: s1)).
  { intros G. cbn [encode]. rewrite (encode_escape a G Ba), E1. reflexivity. }
  cbn [decode]. destruct (N.ltb_spec a 128) as [G|G].
  { cbn [encode]. unfold encode_char. rewrite (proj2 (N.ltb_lt a 128) G), E1. reflexivity. }
  destruct ((194 <=? a) && (a <=? 223)) eqn:R2.
  { bsplit. destruct s1 as [|b s2]; [apply ESC; lia|]. destruct (cont b) eqn:C; [|apply ESC; lia].
    cbn [encode]. rewrite encode_cp2 by assumption. inversion B1; subst. rewrite IH; [reflexivity|cbn in L; lia|assumption]. }
  destruct ((224 <=? a) && (a <=? 239)) eqn:R3.
  { clear R2. bsplit. destruct s1 as [|b [|c s3]]; [apply ESC; lia|apply ESC; lia|]. destruct (ok3 a b c) eqn:C; [|apply ESC; lia].
    cbn [encode]. rewrite encode_cp3 by assumption. inversion B1 as [|? ? ? B2]; subst. inversion B2; subst.
    rewrite IH; [reflexivity|cbn in L; lia|assumption]. }
  destruct ((240 <=? a) && (a <=? 244)) eqn:R4.
  { clear R2 R3. bsplit. destruct s1 as [|b [|c [|d s4]]]; [apply ESC; lia|apply ESC; lia|apply ESC; lia|]. destruct (ok4 a b c d) eqn:C; [|apply ESC; lia].
    cbn [encode]. rewrite encode_cp4 by assumption. inversion B1 as [|? ? ? B2]; subst. inversion B2 as [|? ? ? B3]; subst. inversion B3; subst.
    rewrite IH; [reflexivity|cbn in L; lia|assumption]. }
  apply ESC; lia.
Qed.
Lemma encode_decode s : bytes s -> encode (decode s) = Some s.
Proof. intros B. apply (encode_decode_n (length s)); [lia|assumption]. Qed.

Lemma decode_cons a s1 : decode (a :: s1) =
  if a <? 128 then a :: decode s1
  else if (194 <=? a) && (a <=? 223) then
    match s1 with b :: s2 => if cont b then cp2 a b :: decode s2 else escape a :: decode s1 | _ => escape a :: decode s1 end
  else if (224 <=? a) && (a <=? 239) then
    match s1 with b :: c :: s3 => if ok3 a b c then cp3 a b c :: decode s3 else escape a :: decode s1 | _ => escape a :: decode s1 end
  else if (240 <=? a) && (a <=? 244) then
    match s1 with b :: c :: d :: s4 => if ok4 a b c d then cp4 a b c d :: decode s4 else escape a :: decode s1 | _ => escape a :: decode s1 end
  else escape a :: decode s1.
Proof. reflexivity. Qed.
Lemma decode_3 a b c s : 224 <= a <= 239 -> ok3 a b c = true -> decode (a :: b :: c :: s) = cp3 a b c :: decode s.
Proof.
  intros R O. rewrite decode_cons, O. rewrite (proj2 (N.ltb_ge a 128)) by lia.
  rewrite (proj2 (N.leb_gt a 223)) by lia. rewrite andb_false_r. rewrite (proj2 (N.leb_le 224 a)), (proj2 (N.leb_le a 239)) by lia. reflexivity.
Qed.
Lemma decode_4 a b c d s : 240 <= a <= 244 -> ok4 a b c d = true -> decode (a :: b :: c :: d :: s) = cp4 a b c d :: decode s.
Proof.
  intros R O. rewrite decode_cons, O. rewrite (proj2 (N.ltb_ge a 128)) by lia.
  rewrite (proj2 (N.leb_gt a 223)) by lia. rewrite andb_false_r. rewrite (proj2 (N.leb_gt a 239)) by lia. rewrite andb_false_r.
  rewrite (proj2 (N.leb_le 240 a)), (proj2 (N.leb_le a 244)) by lia. reflexivity.
Qed.
Lemma decode_encode t : Forall scalar t -> exists b, encode t = Some b /\ bytes b /\ decode b = t.
Proof.
  induction 1 as [|c t S F [b [E [B D]]]]; [exists []; split; [reflexivity|split; [constructor|reflexivity]]|].
  unfold scalar in S. cbn [encode]. rewrite E. unfold encode_char.
  destruct (N.ltb_spec c 128) as [G|G].
  { exists (c :: b). split; [reflexivity|]. split; [constructor; [lia|assumption]|]. cbn [decode]. rewrite (proj2 (N.ltb_lt c 128) G), D. reflexivity. }
  destruct (N.ltb_spec c 2048) as [G2|G2].
  { exists ([192 + c / 64; 128 + c mod 64] ++ b). split; [reflexivity|]. split; [repeat constructor; try nlia; assumption|].
    cbn [app decode]. set (p := 192 + c / 64) in *. set (q := 128 + c mod 64) in *. assert (P : p = 192 + c / 64) by reflexivity.
    assert (Q : q = 128 + c mod 64) by reflexivity. clearbody p q. unfold cont. cmp. rewrite D. f_equal. unfold cp2. nlia. }
  replace ((55296 <=? c) && (c <=? 57343)) with false by (symmetry; apply andb_false_iff; destruct S; [left|right]; cmp; reflexivity).
  destruct (N.ltb_spec c 65536) as [G3|G3].
  { exists ([224 + c / 4096; 128 + (c / 64) mod 64; 128 + c mod 64] ++ b). split; [reflexivity|]. split; [repeat constructor; try nlia; assumption|].
    cbn [app]. set (p := 224 + c / 4096) in *. set (q := 128 + (c / 64) mod 64) in *. set (r := 128 + c mod 64) in *.
    assert (P : p = 224 + c / 4096) by reflexivity. assert (Q : q = 128 + (c / 64) mod 64) by reflexivity. assert (R : r = 128 + c mod 64) by reflexivity.
    clearbody p q r.
    assert (X : cp3 p q r = c) by (unfold cp3; nlia).
    assert (RG : 224 <= p <= 239 /\ 128 <= q <= 191 /\ 128 <= r <= 191) by nlia. clear P Q R. destruct RG as [R1 [R2 R3]].
    assert (O : ok3 p q r = true). { unfold ok3. rewrite X. unfold cont. destruct S; cmp; reflexivity. }
    rewrite decode_3 by assumption. rewrite X, D. reflexivity. }
  exists ([240 + c / 262144; 128 + (c / 4096) mod 64; 128 + (c / 64) mod 64; 128 + c mod 64] ++ b). split; [reflexivity|]. split; [repeat constructor; try nlia; assumption|].
  cbn [app]. set (p := 240 + c / 262144) in *. set (q := 128 + (c / 4096) mod 64) in *. set (r := 128 + (c / 64) mod 64) in *. set (s := 128 + c mod 64) in *.
  assert (P : p = 240 + c / 262144) by reflexivity. assert (Q : q = 128 + (c / 4096) mod 64) by reflexivity. assert (R : r = 128 + (c / 64) mod 64) by reflexivity.
  assert (T : s = 128 + c mod 64) by reflexivity.
  clearbody p q r s.
  assert (X : cp4 p q r s = c) by (unfold cp4; nlia).
  assert (RG : 240 <= p <= 244 /\ 128 <= q <= 191 /\ 128 <= r <= 191 /\ 128 <= s <= 191) by nlia. clear P Q R T. destruct RG as [R1 [R2 [R3 R4]]].
  assert (O : ok4 p q r s = true). { unfold ok4. rewrite X. unfold cont. destruct S; cmp; reflexivity. }
  rewrite decode_4 by assumption. rewrite X, D. reflexivity.
Qed.

(** * Lines *)
Definition brk (c : N) : N := if is_linebreak c then LF else c.
Fixpoint pend (p : bool) (s : str) : bool := match s with [] => p | c :: s' => pend (negb (is_linebreak c)) s' end.
Definition lt (ls : list str) : str := concat (map (fun l => l ++ [LF]) ls).
Lemma splitlines_lt s : Forall (fun c => c <> CR) s -> forall cur,
  lt (splitlines_aux cur s) = rev cur ++ map brk s ++ (if pend (match cur with [] => false | _ => true end) s then [LF] else []).
Proof.
  induction 1 as [|c s N F IH]; intros cur.
  { cbn. destruct cur; [reflexivity|]. cbn [pend]. unfold lt. cbn [map concat app]. rewrite app_nil_r. reflexivity. }
  cbn [splitlines_aux pend map]. unfold brk at 1. destruct (is_linebreak c) eqn:B; cbn [negb].
  - rewrite (proj2 (N.eqb_neq c CR) N). unfold lt. cbn [map concat]. fold (lt (splitlines_aux [] s)). rewrite IH. cbn [rev app].
    rewrite <- app_assoc. reflexivity.
  - rewrite IH. cbn [rev]. rewrite <- app_assoc. reflexivity.
Qed.
Lemma join_lt ls : ls <> [] -> join [LF] ls ++ [LF] = lt ls.
Proof.
  induction ls as [|a ls IH]; [intros X; contradiction X; reflexivity|]. intros _. destruct ls as [|b ls].
  { cbn. rewrite app_nil_r. reflexivity. }
  change (join [LF] (a :: b :: ls)) with (a ++ [LF] ++ join [LF] (b :: ls)). unfold lt. cbn [map concat]. rewrite <- !app_assoc.
  f_equal. cbn [app]. f_equal. rewrite IH by discriminate. unfold lt. cbn [map concat]. rewrite <- app_assoc. reflexivity.
Qed.
Lemma pend_last s c p : pend p (s ++ [c]) = negb (is_linebreak c).
Proof. revert p. induction s; intros; cbn; [reflexivity|apply IHs]. Qed.
(** The text of a file without carriage returns. *)
Lemma text_of s c : Forall (fun c => c <> CR) (s ++ [c]) ->
  join [LF] (splitlines (s ++ [c])) ++ (if c =? LF then [LF] else []) ++ (if is_linebreak c && negb (c =? LF) then [LF] else []) = map brk (s ++ [c]).
Proof.
  intros F. pose proof (splitlines_lt _ F []) as E. cbn [rev app] in E. rewrite pend_last in E. fold (splitlines (s ++ [c])) in E.
  assert (N : splitlines (s ++ [c]) <> []).
  { intros X. rewrite X in E. symmetry in E. apply app_eq_nil in E. destruct E as [E _]. apply map_eq_nil in E. destruct s; discriminate. }
  rewrite <- (join_lt _ N) in E. destruct (N.eqb_spec c LF) as [->|D].
  { cbn [is_linebreak negb andb] in *. change (is_linebreak LF) with true in *. cbn [negb andb app] in *. rewrite app_nil_r in E. exact E. }
  cbn [negb app]. rewrite andb_true_r. destruct (is_linebreak c); cbn [negb] in E.
  - rewrite app_nil_r in E. exact E.
  - rewrite app_nil_r. apply app_inj_tail in E. apply E.
Qed.

Lemma un_facts : forall n t, (length t <= n)%nat ->
  Forall (fun c => c <> CR) (universal_newlines t) /\ line_feeds t (map brk (universal_newlines t)) /\
  (forall t' c, t = t' ++ [c] -> exists w, universal_newlines t = w ++ [if c =? CR then LF else c]).
Proof.
  induction n as [|n IH]; intros t L.
  { destruct t; [|cbn in L; lia]. split; [constructor|]. split; [constructor|]. intros [|]; discriminate. }
  destruct t as [|c t]. { split; [constructor|]. split; [constructor|]. intros [|]; discriminate. }
  cbn in L. destruct (IH t ltac:(lia)) as [F1 [L1 W1]]. cbn [universal_newlines].
  assert (WW : forall t0 u, (forall t' c, t = t' ++ [c] -> exists w, universal_newlines t = w ++ [if c =? CR then LF else c]) ->
     t0 = (if c =? CR then LF else c) -> u = t0 :: universal_newlines t -> forall t' c', c :: t = t' ++ [c'] -> exists w, u = w ++ [if c' =? CR then LF else c']).
  { intros t0 u W -> -> t' c' E. destruct t' as [|d t'].
    - injection E as -> ->. exists []. reflexivity.
    - injection E as -> E. destruct (W _ _ E) as [w Hw]. eexists (_ :: w). rewrite Hw. reflexivity. }
  destruct (N.eqb_spec c CR) as [->|NC].
  - destruct t as [|d t].
    { split; [repeat constructor; discriminate|]. split; [apply B_break; [reflexivity|discriminate|constructor]|].
      intros [|? [|? ?]] c' E; [|discriminate|discriminate]. injection E as <-. exists []. reflexivity. }
    destruct (N.eqb_spec d LF) as [->|ND].
    + cbn in L. destruct (IH t ltac:(lia)) as [F2 [L2 W2]]. split; [constructor; [discriminate|exact F2]|]. split; [apply B_crlf; exact L2|].
      intros t' c' E. destruct t' as [|? t']; [discriminate|]. injection E as <- E. destruct t' as [|? t'].
      * injection E as <- ->. exists []. reflexivity.
      * injection E as <- E. destruct (W2 _ _ E) as [w Hw]. exists (LF :: w). rewrite Hw. reflexivity.
    + split; [constructor; [discriminate|exact F1]|]. split.
      * apply B_break; [reflexivity| |exact L1]. intros _ t' X. injection X as -> _. contradiction ND; reflexivity.
      * apply (WW LF); [exact W1|reflexivity|reflexivity].
  - split; [constructor; [exact NC|exact F1]|]. split.
    + cbn [map]. unfold brk at 1. destruct (is_linebreak c) eqn:B.
      * apply B_break; [exact B|intros X; contradiction|exact L1].
      * apply B_char; [exact B|exact L1].
    + apply (WW c); [exact W1|reflexivity|reflexivity].
Qed.

Lemma decode_nonempty b : b <> [] -> decode b <> [].
Proof.
  destruct b as [|a s1]; [intros X; contradiction X; reflexivity|]. intros _. cbn [decode].
  destruct (a <? 128); [discriminate|]. destruct ((194 <=? a) && (a <=? 223)); [destruct s1 as [|b s2]; [discriminate|destruct (cont b); discriminate]|].
  destruct ((224 <=? a) && (a <=? 239)); [destruct s1 as [|b [|c s3]]; [discriminate|discriminate|destruct (ok3 a b c); discriminate]|].
  destruct ((240 <=? a) && (a <=? 244)); [destruct s1 as [|b [|c [|d s4]]]; [discriminate|discriminate|discriminate|destruct (ok4 a b c d); discriminate]|].
  discriminate.
Qed.
Lemma last_of (t : str) : t <> [] -> exists t' c, t = t' ++ [c].
Proof. intros N. destruct (exists_last N) as [t' [c E]]. eauto. Qed.

Lemma readable b : b <> [] -> exists s, read_lines b = Ok s.
Proof.
  intros N. apply decode_nonempty in N. destruct (last_of _ N) as [t' [c E]]. destruct (proj2 (proj2 (un_facts _ (decode b) (le_n _))) t' c E) as [w W].
  unfold read_lines. rewrite W, rev_unit. eauto.
Qed.
Lemma read_text b s : read_lines b = Ok s -> exists u, line_feeds (decode b) u /\
  ((odd_end (decode b) /\ spec_str s ++ [LF] = u) \/ (~ odd_end (decode b) /\ spec_str s = u)).
Proof.
  intros R. destruct (un_facts _ (decode b) (le_n _)) as [F [L W]].
  assert (N : decode b <> []). { intros X. unfold read_lines in R. rewrite X in R. discriminate. }
  destruct (last_of _ N) as [t' [c E]]. destruct (W t' c E) as [w U]. unfold read_lines in R. rewrite U, rev_unit in R. injection R as <-.
  exists (map brk (universal_newlines (decode b))). split; [exact L|]. rewrite U in *.
  set (e := if c =? CR then LF else c) in *. pose proof (text_of w e F) as T. unfold spec_str. cbn [sp_lines sp_newline].
  destruct (is_linebreak e && negb (e =? LF)) eqn:O.
  - left. split.
    + exists t', c. split; [exact E|]. unfold e in O. destruct (N.eqb_spec c CR); [discriminate|]. bsplit. split; [assumption|]. split; assumption.
    + rewrite <- app_assoc. exact T.
  - right. split.
    + intros [t'' [d [E2 [B [D1 D2]]]]]. rewrite E in E2. apply app_inj_tail in E2. destruct E2 as [_ ->]. unfold e in O.
      rewrite (proj2 (N.eqb_neq d CR) D2), B, (proj2 (N.eqb_neq d LF) D1) in O. discriminate.
    + rewrite app_nil_r in T. exact T.
Qed.
Lemma line_feeds_plain t u : plain_breaks t -> line_feeds t u -> u = t.
Proof.
  intros P L. induction L as [|c t u B L IH|t u L IH|c t u B X L IH]; [reflexivity| | |]; inversion P as [|? ? P1 P2]; subst.
  - rewrite IH by assumption. reflexivity.
  - specialize (P1 eq_refl). discriminate.
  - rewrite (P1 B). rewrite IH by assumption. reflexivity.
Qed.
Lemma plain_not_odd t : plain_breaks t -> ~ odd_end t.
Proof. intros P [t' [c [-> [B [N _]]]]]. apply Forall_app in P. destruct P as [_ P]. inversion P; subst. auto. Qed.
Lemma unchanged b : bytes b -> b <> [] -> plain_breaks (decode b) -> exists s, read_lines b = Ok s /\ spec_str s = decode b /\ save s = (b, Ok tt).
Proof.
  intros B N P. destruct (readable b N) as [s R]. exists s. split; [exact R|]. destruct (read_text _ _ R) as [u [L [[O _]|[_ E]]]].
  { contradiction (plain_not_odd _ P O). }
  rewrite (line_feeds_plain _ _ P L) in E. split; [exact E|]. unfold save. rewrite E, encode_decode by assumption. reflexivity.
Qed.

Lemma break_byte c : is_linebreak c = true -> c <> LF -> exists x xs, encode_char c = Some (x :: xs) /\ x <> LF.
Proof.
  intros B N. unfold is_linebreak in B. rewrite !orb_true_iff in B. 
  assert (D : c = 11 \/ c = 12 \/ c = 13 \/ c = 28 \/ c = 29 \/ c = 30 \/ c = 133 \/ c = 8232 \/ c = 8233).
  { unfold LF in N. decompose [or] B; bsplit; lia. }
  decompose [or] D; subst; eexists _, _; (split; [reflexivity|discriminate]).
Qed.
Lemma encode_cons c t b : encode (c :: t) = Some b -> exists x y, encode_char c = Some x /\ encode t = Some y /\ b = x ++ y.
Proof. cbn. destruct (encode_char c) as [x|]; [|discriminate]. destruct (encode t) as [y|]; [|discriminate]. intros E. injection E as <-. eauto. Qed.
Lemma encode_char_nonempty c x : encode_char c = Some x -> x <> [].
Proof.
  unfold encode_char. destruct (c <? 128); [intros E; injection E as <-; discriminate|]. destruct (c <? 2048); [intros E; injection E as <-; discriminate|].
  destruct ((55296 <=? c) && (c <=? 57343)); [destruct ((56448 <=? c) && (c <=? 56575)); intros E; [injection E as <-|]; discriminate|].
  destruct (c <? 65536); intros E; injection E as <-; discriminate.
Qed.
Lemma same_bytes t u : line_feeds t u -> forall v b, (v = u \/ v ++ [LF] = u) -> encode t = Some b -> encode v = Some b -> plain_breaks t.
Proof.
  induction 1 as [|c t u B L IH|t u L IH|c t u B X L IH]; intros v b V Et Ev.
  - constructor.
  - apply encode_cons in Et. destruct Et as [x [y [E1 [E2 ->]]]]. destruct v as [|d v].
    { cbn in Ev. injection Ev as Ev. symmetry in Ev. apply app_eq_nil in Ev. destruct Ev as [-> _]. contradiction (encode_char_nonempty _ _ E1 eq_refl). }
    apply encode_cons in Ev. destruct Ev as [x' [y' [E3 [E4 E]]]].
    assert (D : d = c /\ (v = u \/ v ++ [LF] = u)). { destruct V as [V|V]; injection V as -> ->; auto. }
    destruct D as [-> D]. rewrite E1 in E3. injection E3 as <-. apply app_inv_head in E. subst y'.
    constructor; [intros X; rewrite X in B; discriminate|]. exact (IH v y D E2 E4).
  - apply encode_cons in Et. destruct Et as [x [y [E1 [E2 ->]]]]. injection E1 as <-. destruct v as [|d v]; [discriminate Ev|].
    apply encode_cons in Ev. destruct Ev as [x' [y' [E3 [E4 E]]]].
    assert (D : d = LF) by (destruct V as [V|V]; injection V as -> _; reflexivity). subst d. injection E3 as <-. discriminate E.
  - apply encode_cons in Et. destruct Et as [x [y [E1 [E2 ->]]]]. destruct v as [|d v].
    { cbn in Ev. injection Ev as Ev. symmetry in Ev. apply app_eq_nil in Ev. destruct Ev as [-> _]. contradiction (encode_char_nonempty _ _ E1 eq_refl). }
    apply encode_cons in Ev. destruct Ev as [x' [y' [E3 [E4 E]]]].
    assert (D : d = LF /\ (v = u \/ v ++ [LF] = u)). { destruct V as [V|V]; injection V as -> ->; auto. }
    destruct D as [-> D]. injection E3 as <-. destruct (N.eq_dec c LF) as [->|N].
    + injection E1 as <-. injection E as ->. constructor; [reflexivity|]. exact (IH v y' D E2 E4).
    + destruct (break_byte c B N) as [z [zs [E5 Z]]]. rewrite E5 in E1. injection E1 as <-. injection E as E _. contradiction.
Qed.
Lemma changed_otherwise b s : bytes b -> read_lines b = Ok s -> fst (save s) = b -> plain_breaks (decode b).
Proof.
  intros B R S. destruct (read_text _ _ R) as [u [L V]]. unfold save in S.
  assert (N : b <> []). { intros ->. discriminate R. }
  destruct (encode (spec_str s)) as [b'|] eqn:E; cbn in S; [|subst b; contradiction N; reflexivity]. subst b'.
  eapply (same_bytes _ _ L (spec_str s) b); [tauto| |exact E]. apply encode_decode. exact B.
Qed.

(** Text that was read can always be written. *)
Lemma encode_app s t : encode (s ++ t) = match encode s, encode t with Some a, Some b => Some (a ++ b) | _, _ => None end.
Proof.
  induction s as [|c s IH]; cbn; [destruct (encode t); reflexivity|]. rewrite IH.
  destruct (encode_char c), (encode s), (encode t); try reflexivity. rewrite app_assoc. reflexivity.
Qed.
Lemma encode_line_feeds t u : line_feeds t u -> forall b, encode t = Some b -> exists b', encode u = Some b'.
Proof.
  induction 1 as [|c t u B L IH|t u L IH|c t u B X L IH]; intros b E; [eauto| | |].
  - apply encode_cons in E. destruct E as [x [y [E1 [E2 _]]]]. destruct (IH y E2) as [b' E']. exists (x ++ b'). cbn. rewrite E1, E'. reflexivity.
  - apply encode_cons in E. destruct E as [x [y [_ [E2 _]]]]. apply encode_cons in E2. destruct E2 as [x2 [y2 [_ [E3 _]]]].
    destruct (IH y2 E3) as [b' E']. exists ([LF] ++ b'). cbn. rewrite E'. reflexivity.
  - apply encode_cons in E. destruct E as [x [y [E1 [E2 _]]]]. destruct (IH y E2) as [b' E']. exists ([LF] ++ b'). cbn. rewrite E'. reflexivity.
Qed.
Lemma read_saves b s : bytes b -> read_lines b = Ok s -> exists b', save s = (b', Ok tt).
Proof.
  intros B R. destruct (read_text _ _ R) as [u [L V]]. destruct (encode_line_feeds _ _ L b (encode_decode b B)) as [b' E]. unfold save.
  destruct V as [[_ V]|[_ V]].
  - rewrite <- V, encode_app in E. destruct (encode (spec_str s)); [eauto|discriminate].
  - rewrite V, E. eauto.
Qed.

(** Saved text reads back. *)
Lemma saved_reads s b : Forall (fun l => Forall (fun c => is_linebreak c = false) l) (sp_lines s) -> Forall scalar (spec_str s) -> spec_str s <> [] ->
  save s = (b, Ok tt) -> bytes b /\ exists s', read_lines b = Ok s' /\ spec_str s' = spec_str s /\ save s' = (b, Ok tt).
Proof.
  intros NB SC NE S. destruct (decode_encode _ SC) as [b' [E [B D]]]. unfold save in S. rewrite E in S. injection S as <-. split; [exact B|].
  assert (P : plain_breaks (decode b')).
  { rewrite D. unfold spec_str. apply Forall_app. split.
    - clear -NB. induction (sp_lines s) as [|l ls IH]; [constructor|]. inversion NB as [|? ? H1 H2]; subst.
      assert (Q : Forall (fun c => is_linebreak c = true -> c = LF) l) by (eapply Forall_impl; [|exact H1]; cbn; intros ? -> ?; discriminate).
      destruct ls as [|m ls]; [exact Q|]. change (join [LF] (l :: m :: ls)) with (l ++ [LF] ++ join [LF] (m :: ls)).
      apply Forall_app. split; [exact Q|]. constructor; [reflexivity|]. apply IH. exact H2.
    - destruct (sp_newline s); repeat constructor. }
  assert (N : b' <> []). { intros ->. cbn in D. congruence. }
  destruct (unchanged b' B N P) as [s' [R [T SS]]]. exists s'. split; [exact R|]. split; [congruence|exact SS].
Qed.
(** When saving works. *)
Lemma encodable t : encode t = None <-> Exists (fun c => encode_char c = None) t.
Proof.
  induction t as [|c t IH]; [split; [discriminate|intros X; inversion X]|]. cbn. destruct (encode_char c) as [x|] eqn:E.
  - destruct (encode t) as [y|] eqn:E2.
    + split; [discriminate|]. intros X. inversion X; subst; [congruence|]. apply IH in H0. discriminate.
    + split; [intros _; right; apply IH; reflexivity|reflexivity].
  - split; [intros _; left; exact E|reflexivity].
Qed.
Lemma encode_char_none c : c <= 1114111 -> (encode_char c = None <-> (55296 <= c /\ c < 56448) \/ (56576 <= c /\ c <= 57343)).
Proof.
  intros M. unfold encode_char. cmp; split; intros G; try discriminate; try reflexivity; try lia.
Qed.
Lemma save_fails s : Forall (fun c => c <= 1114111) (spec_str s) ->
  ((exists b, save s = (b, Ok tt)) <-> Forall (fun c => ~ ((55296 <= c /\ c < 56448) \/ (56576 <= c /\ c <= 57343))) (spec_str s)).
Proof.
  intros M. unfold save. destruct (encode (spec_str s)) as [b|] eqn:E.
  - split; [intros _|eauto]. apply Forall_forall. intros c I X. rewrite Forall_forall in M. apply (encode_char_none c (M c I)) in X.
    assert (Y : encode (spec_str s) = None) by (apply encodable, Exists_exists; eauto). congruence.
  - split; [intros [b X]; discriminate|]. intros F. apply encodable, Exists_exists in E. destruct E as [c [I X]].
    rewrite Forall_forall in M, F. apply (encode_char_none c (M c I)) in X. contradiction (F c I X).
Qed.

(** * What decoding yields *)
Lemma decode_range_n : forall n s, (length s <= n)%nat -> bytes s ->
  Forall (fun c => scalar c \/ 56448 <= c /\ c <= 56575) (decode s).
Proof.
  induction n as [|n IH]; intros s L B.
  { destruct s; [constructor|cbn in L; lia]. }
  destruct s as [|a s1]; [constructor|]. cbn in L. inversion B as [|? ? Ba B1]; subst.
  assert (ESC : 128 <= a -> Forall (fun c => scalar c \/ 56448 <= c /\ c <= 56575) (escape a :: decode s1)).
  { intros G. constructor; [right; unfold escape; lia|apply IH; [lia|assumption]]. }
  rewrite decode_cons. destruct (N.ltb_spec a 128) as [G|G].
  { constructor; [left; left; lia|apply IH; [lia|assumption]]. }
  destruct ((194 <=? a) && (a <=? 223)) eqn:R2.
  { bsplit. destruct s1 as [|b s2]; [apply ESC; lia|]. destruct (cont b) eqn:C; [|apply ESC; lia].
    inversion B1; subst. constructor; [|apply IH; [cbn in L; lia|assumption]].
    left; left. unfold cont in C. bsplit. unfold cp2. lia. }
  destruct ((224 <=? a) && (a <=? 239)) eqn:R3.
  { clear R2. bsplit. destruct s1 as [|b [|c s3]]; [apply ESC; lia|apply ESC; lia|]. destruct (ok3 a b c) eqn:C; [|apply ESC; lia].
    inversion B1 as [|? ? ? B2]; subst. inversion B2; subst. constructor; [|apply IH; [cbn in L; lia|assumption]].
    left. unfold ok3, cont in C. bsplit. unfold scalar. match goal with H : _ \/ _ |- _ => destruct H; bsplit end; unfold cp3 in *; lia. }
  destruct ((240 <=? a) && (a <=? 244)) eqn:R4.
  { clear R2 R3. bsplit. destruct s1 as [|b [|c [|d s4]]]; [apply ESC; lia|apply ESC; lia|apply ESC; lia|]. destruct (ok4 a b c d) eqn:C; [|apply ESC; lia].
    inversion B1 as [|? ? ? B2]; subst. inversion B2 as [|? ? ? B3]; subst. inversion B3; subst. constructor; [|apply IH; [cbn in L; lia|assumption]].
    left; right. unfold ok4, cont in C. bsplit. unfold cp4 in *. lia. }
  apply ESC; lia.
Qed.
Lemma decode_range s : bytes s -> Forall (fun c => scalar c \/ 56448 <= c /\ c <= 56575) (decode s).
Proof. intros B. apply (decode_range_n (length s)); [lia|assumption]. Qed.
