(** Proofs about [Macros.dump]. *)
From Coq Require Import Ascii String.
From Coq Require Import NArith List Bool Lia.
From Verif Require Import PyStr PyStrFacts M_file Spec_file P_file M_capture P_capture M_macros P_macros2 M_dump.
From Verif Require Spec_capture Spec_macros.
Import ListNotations.
Open Scope N_scope.

(** Lines are unique. *)
Lemma line_split : forall x y r s, ~ In 10 x -> ~ In 10 y -> x ++ 10 :: r = y ++ 10 :: s -> x = y /\ r = s.
Proof.
  induction x as [|c x IH]; intros [|d y] r s Hx Hy E; cbn in E.
  - injection E as ->. auto.
  - injection E as <- _. exfalso. apply Hy. left. reflexivity.
  - injection E as -> _. exfalso. apply Hx. left. reflexivity.
  - injection E as -> E. destruct (IH y r s) as [-> ->]; auto; intros X; [apply Hx|apply Hy]; right; exact X.
Qed.
Lemma lines_tail l ls b : Spec_capture.lines_of (l :: ls) b -> Spec_capture.lines_of ls (concat ls).
Proof.
  intros [_ [H1 H2]]. split; [reflexivity|]. split; [intros x Hx; apply H1; right; exact Hx|]. intros a x c ->. apply (H2 (l :: a) x c eq_refl).
Qed.
Lemma full_lines : forall ts ls, Forall (fun l => exists x, ~ In 10 x /\ l = x ++ [10]) ts -> Spec_capture.lines_of ls (concat ts) -> ls = ts.
Proof.
  induction ts as [|t ts IH]; intros ls F L.
  - destruct ls as [|l ls]; [reflexivity|]. destruct L as [E [N _]]. cbn in E. apply app_eq_nil in E. destruct E as [E _]. exfalso. apply (N l (or_introl eq_refl)). exact E.
  - pose proof (Forall_inv F) as [x [Nx ->]]. apply Forall_inv_tail in F. destruct ls as [|l ls].
    + destruct L as [E _]. cbn in E. destruct x; discriminate E.
    + pose proof (lines_tail _ _ _ L) as L'. destruct L as [E [_ S]]. destruct (S [] l ls eq_refl) as [y [Ny [->|[-> ->]]]].
      * cbn [concat] in E. rewrite <- !app_assoc in E. cbn [app] in E. destruct (line_split _ _ _ _ Ny Nx E) as [-> E']. f_equal. apply IH; [exact F|]. rewrite <- E'. exact L'.
      * exfalso. cbn [concat] in E. rewrite app_nil_r in E. apply Ny. rewrite E. apply in_or_app. left. apply in_or_app. right. left. reflexivity.
Qed.
Lemma lines_unique : forall l1 l2 b, Spec_capture.lines_of l1 b -> Spec_capture.lines_of l2 b -> l1 = l2.
Proof.
  induction l1 as [|x l1 IH]; intros l2 b L1 L2.
  - destruct L1 as [<- _]. symmetry. apply (full_lines [] l2); [constructor|exact L2].
  - destruct l2 as [|y l2]; [destruct L2 as [<- _]; exact (full_lines [] (x :: l1) ltac:(constructor) L1)|].
    pose proof (lines_tail _ _ _ L1) as T1. pose proof (lines_tail _ _ _ L2) as T2. destruct L1 as [E1 [N1 S1]], L2 as [E2 [N2 S2]].
    destruct (S1 [] x l1 eq_refl) as [u [Nu Hu]], (S2 [] y l2 eq_refl) as [v [Nv Hv]]. cbn [concat] in E1, E2. rewrite <- E2 in E1.
    destruct Hu as [->|[-> ->]], Hv as [->|[-> ->]].
    + rewrite <- !app_assoc in E1. cbn [app] in E1. destruct (line_split _ _ _ _ Nu Nv E1) as [-> E]. f_equal. apply (IH l2 (concat l1)); [exact T1|]. rewrite E. exact T2.
    + exfalso. cbn [concat] in E1. rewrite app_nil_r in E1. apply Nv. rewrite <- E1. apply in_or_app. left. apply in_or_app. right. left. reflexivity.
    + exfalso. cbn [concat] in E1. rewrite app_nil_r in E1. apply Nu. rewrite E1. apply in_or_app. left. apply in_or_app. right. left. reflexivity.
    + cbn [concat] in E1. rewrite !app_nil_r in E1. rewrite E1. reflexivity.
Qed.
(** Bytes of line feeds are line feeds. *)
Lemma big_not_lf q k : 128 <= k -> k + q <> 10.
Proof. lia. Qed.
Lemma encode_char_lf c b : encode_char c = Some b -> In 10 b -> c = 10.
Proof.
  unfold encode_char. destruct (N.ltb_spec c 128); [intros E; injection E as <-; intros [X|[]]; exact X|].
  assert (S : forall l, Some l = Some b -> Forall (fun x => x <> 10) l -> In 10 b -> c = 10) by (intros l E F I; assert (l = b) by congruence; subst l; rewrite Forall_forall in F; exfalso; apply (F 10 I); reflexivity).
  destruct (N.ltb_spec c 2048); [intros E; apply (S _ E); repeat constructor; apply big_not_lf; discriminate|].
  destruct (_ && _).
  - destruct ((56448 <=? c) && (c <=? 56575)) eqn:G; [|discriminate]. intros E; apply (S _ E). apply andb_true_iff in G; destruct G as [G1 G2]; apply N.leb_le in G1, G2. repeat constructor. lia.
  - destruct (N.ltb_spec c 65536); intros E; apply (S _ E); repeat constructor; apply big_not_lf; discriminate.
Qed.
Lemma encode_lf : forall t b, encode t = Some b -> In 10 b -> In 10 t.
Proof.
  induction t as [|c t IH]; intros b E I; cbn in E; [injection E as <-; destruct I|]. destruct (encode_char c) as [x|] eqn:Ec; [|discriminate]. destruct (encode t) as [y|]; [|discriminate]. injection E as <-.
  apply in_app_or in I. destruct I as [I|I]; [left; apply (encode_char_lf c x Ec I)|right; apply (IH y eq_refl I)].
Qed.
Lemma encode_app : forall s t, encode (s ++ t) = match encode s, encode t with Some a, Some b => Some (a ++ b) | _, _ => None end.
Proof.
  induction s as [|c s IH]; intros t; cbn; [destruct (encode t); reflexivity|]. rewrite IH. destruct (encode_char c); [|reflexivity]. destruct (encode s); [|reflexivity]. destruct (encode t); [rewrite app_assoc; reflexivity|reflexivity].
Qed.
Lemma encode_lines : forall ts, Forall (fun t => Forall scalar t /\ exists x, ~ In LF x /\ t = x ++ [LF]) ts ->
  exists bs, encode (concat ts) = Some (concat bs) /\ Forall (fun l => exists x, ~ In 10 x /\ l = x ++ [10]) bs /\ decode_lines bs = Ok ts.
Proof.
  induction ts as [|t ts IH]; intros F; [exists []; repeat split; constructor|].
  pose proof (Forall_inv F) as [Sc [x [Nx Et]]]. apply Forall_inv_tail in F. destruct (IH F) as [bs [E [Fb D]]]. destruct (decode_encode t Sc) as [b [Eb [_ Db]]].
  exists (b :: bs). split; [cbn [concat]; rewrite encode_app, Eb, E; reflexivity|]. split.
  - constructor; [|exact Fb]. subst t. rewrite encode_app in Eb. destruct (encode x) as [y|] eqn:Ey; [|discriminate]. cbn in Eb. injection Eb as <-. exists y. split; [|reflexivity].
    intros X. apply Nx. apply (encode_lf x y Ey X).
  - cbn [decode_lines]. unfold decode_strict. rewrite Db. replace (existsb _ t) with false.
    + cbn [bind]. rewrite D. reflexivity.
    + symmetry. destruct (existsb _ t) eqn:X; [|reflexivity]. apply existsb_exists in X. destruct X as [c [Hc X]]. rewrite Forall_forall in Sc. specialize (Sc c Hc). unfold scalar in Sc.
      apply andb_true_iff in X. destruct X as [X1 X2]. apply N.leb_le in X1, X2. lia.
Qed.
Section Uni.
Context {U : Unicode}.
Theorem dump_text block s ts out p' bs : (err s < length (contents s))%nat -> Spec_capture.writes block [] out p' None ->
  Forall (fun t => Forall scalar t /\ exists x, ~ In LF x /\ t = x ++ [LF]) ts -> encode (concat ts) = Some bs -> out ++ p' = bs ->
  snd (dump block s) = M_macros.parse ts.
Proof.
  intros V W F E Eo. destruct (captured block s out p' None V W) as [s' [ls [C [L _]]]]. unfold dump. rewrite C. cbn [snd fst].
  destruct (encode_lines ts F) as [bb [E' [Fb D]]]. rewrite E in E'. injection E' as E'. rewrite Eo, E' in L. rewrite (full_lines bb ls Fb L), D. reflexivity.
Qed.
Theorem dump_system block s out p' r : (err s < length (contents s))%nat -> Spec_capture.writes block [] out p' r ->
  err (fst (dump block s)) = err s /\ forall n, (n < length (contents s))%nat -> nth n (contents (fst (dump block s))) [] = nth n (contents s) [] ++ (if Nat.eqb n (err s) then buffer s else []).
Proof. intros V W. destruct (captured block s out p' r V W) as [s' [ls [C [_ [E [_ X]]]]]]. unfold dump. rewrite C. cbn [fst]. auto. Qed.
Theorem dump_raises block s out p' e : (err s < length (contents s))%nat -> Spec_capture.writes block [] out p' (Some e) -> snd (dump block s) = Err e.
Proof. intros V W. destruct (captured block s out p' (Some e) V W) as [s' [ls [C _]]]. unfold dump. rewrite C. reflexivity. Qed.
Lemma undecodable_lines : forall ls b, In b ls -> decode_strict b = Err ValueError -> decode_lines ls = Err ValueError.
Proof.
  induction ls as [|l ls IH]; intros b I E; [destruct I|]. cbn [decode_lines]. destruct I as [->|I]; [rewrite E; reflexivity|]. rewrite (IH b I E).
  unfold decode_strict. destruct (existsb _ _); reflexivity.
Qed.
End Uni.
Lemma split_on_no : forall s cur l, ~ In LF cur -> In l (split_on LF cur s) -> ~ In LF l.
Proof.
  induction s as [|c s IH]; intros cur l N I; cbn [split_on] in I.
  - destruct I as [<-|[]]. intros X. apply N. apply in_rev. exact X.
  - destruct (N.eqb_spec LF c) as [<-|Ne].
    + destruct I as [<-|I]; [intros X; apply N; apply in_rev; exact X|]. apply (IH [] l); [intros []|exact I].
    + apply (IH (c :: cur) l); [|exact I]. intros [X|X]; [congruence|contradiction].
Qed.
Section Uni2.
Context {U : Unicode}.
Lemma dump_of_lines : forall ms, Forall (fun t => exists x, ~ In LF x /\ t = x ++ [LF]) (Spec_macros.dump_of ms).
Proof.
  induction ms as [|[b m] ms IH]; cbn [Spec_macros.dump_of]; [constructor|]. apply Forall_app. split; [|exact IH]. unfold Spec_macros.lines_of.
  apply Forall_forall. intros t Ht. apply in_map_iff in Ht. destruct Ht as [x [<- Hx]]. exists x. split; [|reflexivity]. apply (split_on_no (Spec_macros.text_of b m) [] x); [intros []|exact Hx].
Qed.
Theorem dump_macros block s out p' head ms summary : (err s < length (contents s))%nat -> Spec_capture.writes block [] out p' None ->
  ~ Spec_macros.looks_like_macro head -> (forall x, head <> x ++ [BSLASH]) -> ~ In LF head -> ~ In LF summary ->
  Forall (fun x => Forall (fun c => is_space c = true /\ c <> LF) (fst x) /\ Spec_macros.dumpable (snd x)) ms ->
  let text := concat ((head ++ [LF]) :: Spec_macros.dump_of ms ++ [summary ++ [LF]]) in Forall scalar text -> encode text = Some (out ++ p') ->
  snd (dump block s) = Ok (map snd ms).
Proof.
  intros V W H1 H2 H3 H4 F text Sc E. rewrite <- (parse_dump head ms (summary ++ [LF]) H1 H2 F). apply (dump_text block s _ out p' (out ++ p')); auto.
  assert (L : Forall (fun t => exists x, ~ In LF x /\ t = x ++ [LF]) ((head ++ [LF]) :: Spec_macros.dump_of ms ++ [summary ++ [LF]])).
  { constructor; [eauto|]. apply Forall_app. split; [apply dump_of_lines|]. constructor; [eauto|constructor]. }
  apply Forall_forall. intros t Ht. split; [|rewrite Forall_forall in L; apply L; exact Ht]. apply Forall_forall. intros c Hc. rewrite Forall_forall in Sc. apply Sc. unfold text. apply in_concat. exists t. auto.
Qed.
Theorem dump_undecodable block s out p' ls b : (err s < length (contents s))%nat -> Spec_capture.writes block [] out p' None ->
  Spec_capture.lines_of ls (out ++ p') -> In b ls -> decode_strict b = Err ValueError -> snd (dump block s) = Err ValueError.
Proof.
  intros V W L I D. destruct (captured block s out p' None V W) as [s' [ls' [C [L' _]]]]. unfold dump. rewrite C. cbn [snd fst]. rewrite (lines_unique ls' ls _ L' L). rewrite (undecodable_lines ls b I D). reflexivity.
Qed.
End Uni2.
Theorem dump_refuted : exists b, forall (U : Unicode) s, (err s < length (contents s))%nat ->
  b = lit "==" ++ [LF] ++ lit "-13= _vendor" ++ [TAB; 233; LF] ++ lit "==" ++ [LF] /\ snd (dump [Raw b] s) = Err ValueError.
Proof.
  exists (lit "==" ++ [LF] ++ lit "-13= _vendor" ++ [TAB; 233; LF] ++ lit "==" ++ [LF]). intros U s V. split; [reflexivity|].
  apply (dump_undecodable [Raw (lit "==" ++ [LF] ++ lit "-13= _vendor" ++ [TAB; 233; LF] ++ lit "==" ++ [LF])] s (lit "==" ++ [LF] ++ lit "-13= _vendor" ++ [TAB; 233; LF] ++ lit "==" ++ [LF]) []
    (readlines (lit "==" ++ [LF] ++ lit "-13= _vendor" ++ [TAB; 233; LF] ++ lit "==" ++ [LF])) (lit "-13= _vendor" ++ [TAB; 233; LF])); [exact V| | | |reflexivity].
  - rewrite <- (app_nil_r (lit "==" ++ _)) at 2. constructor. constructor.
  - rewrite app_nil_r. apply readlines_lines.
  - vm_compute. right. left. reflexivity.
Qed.
