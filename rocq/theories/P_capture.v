(** Captured standard error. *)
From Coq Require Import NArith List Bool Arith Lia.
From Verif Require Import PyStr M_capture Spec_capture.
Import ListNotations.
Open Scope N_scope.

Lemma append_length n b l : length (append n b l) = length l.
Proof. revert n. induction l as [|x l IH]; intros [|n]; cbn; auto. Qed.
Lemma append_app n b l m : (n < length l)%nat -> append n b (l ++ m) = append n b l ++ m.
Proof. revert n. induction l as [|x l IH]; intros [|n] H; cbn in *; try lia; auto. f_equal. apply IH. lia. Qed.
Lemma append_at b l x m : append (length l) b (l ++ x :: m) = l ++ (x ++ b) :: m.
Proof. induction l; cbn; auto. f_equal. auto. Qed.
Lemma append_twice n a b l : append n b (append n a l) = append n (a ++ b) l.
Proof. revert n. induction l as [|x l IH]; intros [|n]; cbn; auto; now rewrite ?app_assoc, ?IH. Qed.
Lemma append_nil n l : append n [] l = l.
Proof. revert n. induction l as [|x l IH]; intros [|n]; cbn; auto; now rewrite ?app_nil_r, ?IH. Qed.
Lemma append_nth n b l k : nth k (append n b l) [] = nth k l [] ++ (if Nat.eqb k n then if Nat.ltb k (length l) then b else [] else []).
Proof.
  revert n k. induction l as [|x l IH]; intros n k.
  - destruct n, k; cbn; auto; destruct (Nat.eqb _ _); reflexivity.
  - destruct n, k; cbn [append nth Nat.eqb length]; rewrite ?app_nil_r; auto.
    + rewrite IH. change (Nat.ltb (S k) (S (length l))) with (Nat.ltb k (length l)). reflexivity.
Qed.
(** * Blocks *)
Fixpoint size (e : event) : nat := match e with Capture l => S (list_sum (map size l)) | _ => 1 end.
Lemma run_event_capture block s : run_event (Capture block) s = let (s', r) := capture no_faults (run block) s in (s', snd r).
Proof. reflexivity. Qed.
Definition good (l : list event) : Prop := forall s, (err s < length (contents s))%nat ->
  exists out p' r new, run l s = (mk_system (append (err s) out (contents s) ++ new) (err s) p', r) /\ writes l (buffer s) out p' r.
Lemma capture_good l s : good l -> (err s < length (contents s))%nat ->
  exists out p' r new, capture no_faults (run l) s = (mk_system (append (err s) (buffer s) (contents s) ++ new) (err s) [], (readlines (out ++ p'), r)) /\ writes l [] out p' r.
Proof.
  intros G H. unfold capture, flush. cbn [no_file no_flush interrupt no_last_flush no_faults]. cbv zeta. cbn [contents err buffer].
  rewrite append_app by exact H. set (C := append (err s) (buffer s) (contents s)). assert (LC : length C = length (contents s)) by apply append_length.
  destruct (G (mk_system (C ++ [[]]) (length (contents s)) [])) as (out & p' & r & new & E & W). { cbn [err contents]. rewrite app_length, LC. cbn. lia. }
  cbn [err contents buffer] in E, W. rewrite E. cbn [contents err buffer].
  rewrite append_app by (rewrite append_length, app_length, LC; cbn; lia). rewrite append_twice, <- LC, append_at. cbn [app].
  exists out, p', r, ([out ++ p'] ++ new). split; [|exact W]. rewrite <- app_assoc. rewrite (app_nth2 C) by lia. rewrite Nat.sub_diag. cbn [nth app]. reflexivity.
Qed.
Lemma run_good n : forall l, (list_sum (map size l) <= n)%nat -> good l.
Proof.
  induction n as [n IHn] using lt_wf_ind. intros l. induction l as [|e l IH]; intros Le s H.
  - exists [], (buffer s), None, []. rewrite append_nil, app_nil_r. destruct s; cbn. split; [reflexivity|constructor].
  - change (list_sum (map size (e :: l))) with (size e + list_sum (map size l))%nat in Le. change (run (e :: l) s) with (match run_event e s with (s', None) => run l s' | (s', Some x) => (s', Some x) end).
    destruct e as [b|b| |block|x]; cbn [size] in Le; [cbn [run_event]|cbn [run_event]|cbn [run_event]|rewrite run_event_capture|cbn [run_event]].
    + destruct (IH ltac:(lia) (write b s)) as (out & p' & r & new & E & W). { cbn. now rewrite append_length. } cbn in E, W. rewrite append_twice in E. exists (b ++ out), p', r, new. split; [exact E|now constructor].
    + destruct (IH ltac:(lia) (mk_system (contents s) (err s) (buffer s ++ b)) H) as (out & p' & r & new & E & W). cbn in E, W. exists out, p', r, new. split; [exact E|now constructor].
    + destruct (IH ltac:(lia) (flush s)) as (out & p' & r & new & E & W). { cbn. now rewrite append_length. } cbn in E, W. rewrite append_twice in E. exists (buffer s ++ out), p', r, new. split; [exact E|now constructor].
    + assert (Gb : good block) by (apply (IHn (list_sum (map size block))); lia).
      destruct (capture_good block s Gb H) as (o & q & r & new & E & W). rewrite E. cbn [snd]. destruct r as [x|].
      * exists (buffer s), [], (Some x), new. split; [reflexivity|]. econstructor. exact W.
      * destruct (IH ltac:(lia) (mk_system (append (err s) (buffer s) (contents s) ++ new) (err s) [])) as (out & p' & r & new' & E' & W'). { cbn [err contents]. rewrite app_length, append_length. lia. }
        cbn [err contents buffer] in E', W'. rewrite append_app, append_twice, <- app_assoc in E' by (rewrite append_length; exact H). exists (buffer s ++ out), p', r, (new ++ new'). split; [exact E'|]. econstructor; eauto.
    + exists [], (buffer s), (Some x), []. rewrite append_nil, app_nil_r. destruct s; cbn. split; [reflexivity|constructor].
Qed.
Lemma writes_fun l p o q r o' q' r' : writes l p o q r -> writes l p o' q' r' -> o = o' /\ q = q' /\ r = r'.
Proof.
  intros W. revert o' q' r'. induction W; intros o1 q1 r1 Ww; inversion Ww; subst; auto.
  all: try (edestruct IHW as (E1 & E2 & E3); [eassumption|]); try (edestruct IHW1 as (E1 & E2 & E3); [eassumption|]); try (edestruct IHW2 as (E4 & E5 & E6); [eassumption|]); subst; try discriminate; auto.
Qed.
(** * Lines *)
Lemma readlines_concat cur b : concat (readlines_aux cur b) = rev cur ++ b.
Proof.
  revert cur. induction b as [|c b IH]; intros cur; cbn [readlines_aux].
  - rewrite app_nil_r. destruct cur as [|x cur]; [reflexivity|]. cbn [concat]. now rewrite app_nil_r.
  - destruct (c =? 10).
    + cbn [concat]. rewrite IH. cbn. now rewrite <- app_assoc.
    + rewrite IH. cbn. now rewrite <- app_assoc.
Qed.
Lemma readlines_shape b : forall cur, ~ In 10 cur -> (forall l, In l (readlines_aux cur b) -> l <> []) /\
  forall a l c, readlines_aux cur b = a ++ l :: c -> exists x, ~ In 10 x /\ (l = x ++ [10] \/ (l = x /\ c = [])).
Proof.
  induction b as [|ch b IH]; intros cur N; cbn [readlines_aux].
  - destruct cur as [|x cur]; [split; [intros l []|intros [|] ? ? ?; discriminate]|]. split.
    + intros l [<-|[]]. intros E. apply (f_equal (@length _)) in E. rewrite rev_length in E. discriminate.
    + intros a l c E. destruct a as [|y a]; [|destruct a; discriminate]. injection E as <- <-. exists (rev (x :: cur)). split; [now rewrite <- in_rev|auto].
  - destruct (N.eqb_spec ch 10) as [->|Nc].
    + destruct (IH [] ltac:(auto)) as (I1 & I2). split.
      * intros l [<-|I]; [|auto]. cbn. now destruct (rev cur).
      * intros a l c E. destruct a as [|y a]; injection E as <- E; [|eauto]. exists (rev cur). split; [now rewrite <- in_rev|]. left. reflexivity.
    + apply IH. intros [E|I]; congruence || auto.
Qed.
Lemma readlines_lines b : lines_of (readlines b) b.
Proof. unfold readlines. destruct (readlines_shape b [] ltac:(auto)) as (A & B). split; [apply (readlines_concat [])|]. split; auto. Qed.
(** * Captures *)
Theorem captured l s out p' r : (err s < length (contents s))%nat -> writes l [] out p' r ->
  exists s' ls, capture no_faults (run l) s = (s', (ls, r)) /\ lines_of ls (out ++ p') /\ err s' = err s /\ buffer s' = [] /\
    forall n, (n < length (contents s))%nat -> nth n (contents s') [] = nth n (contents s) [] ++ (if Nat.eqb n (err s) then buffer s else []).
Proof.
  intros H W. destruct (capture_good l s (run_good _ l (le_n _)) H) as (o & q & r' & new & E & W'). destruct (writes_fun _ _ _ _ _ _ _ _ W W') as (-> & -> & ->).
  rewrite E. eexists _, _. split; [reflexivity|]. split; [apply readlines_lines|]. split; [reflexivity|]. split; [reflexivity|]. intros n Hn. cbn [contents].
  rewrite app_nth1 by (rewrite append_length; exact Hn). rewrite append_nth. apply Nat.ltb_lt in Hn. now rewrite Hn.
Qed.
Theorem writes_total l p : exists out p' r, writes l p out p' r.
Proof.
  destruct (run_good _ l (le_n _) (mk_system [[]] 0 p)) as (o & q & r & _ & _ & W). { cbn. lia. } eauto.
Qed.
(** Whatever else fails, the descriptor is what it was. *)
Theorem restored f l s s' x : (err s < length (contents s))%nat -> interrupt f = None -> no_last_flush f = None -> capture f (run l) s = (s', x) -> err s' = err s.
Proof.
  intros H I L. unfold capture. destruct (no_file f); [intros E; now injection E as <- <-|]. destruct (no_flush f); [intros E; now injection E as <- <-|]. rewrite I, L. cbv zeta.
  destruct (run l _) as [s1 r]. intros E. injection E as <- <-. reflexivity.
Qed.
(** An interrupt, or a [sys.stderr] that cannot be flushed: everything written later is lost. *)
Theorem not_restored f l s s' x later : (err s < length (contents s))%nat -> no_file f = None -> no_flush f = None -> interrupt f <> None \/ (interrupt f = None /\ no_last_flush f <> None) ->
  capture f (run l) s = (s', x) -> err s' <> err s /\ nth (err s) (contents (fst (run later s'))) [] = nth (err s) (contents s) [] ++ buffer s.
Proof.
  intros H A B D. unfold capture. rewrite A, B. cbv zeta. unfold flush. cbn [contents err buffer]. rewrite append_app by exact H.
  set (C := append (err s) (buffer s) (contents s)). assert (LC : length C = length (contents s)) by apply append_length.
  assert (NC : nth (err s) C [] = nth (err s) (contents s) [] ++ buffer s). { unfold C. rewrite append_nth, Nat.eqb_refl. apply Nat.ltb_lt in H. now rewrite H. }
  assert (K : forall l s1, (err s < length (contents s1))%nat -> (err s1 < length (contents s1))%nat -> err s1 <> err s -> nth (err s) (contents (fst (run l s1))) [] = nth (err s) (contents s1) []).
  { intros l1 s1 H1 H2 N. destruct (run_good _ l1 (le_n _) s1 H2) as (o & q & r & new & E & _). rewrite E. cbn [fst contents]. rewrite app_nth1 by (rewrite append_length; exact H1). rewrite append_nth.
    destruct (Nat.eqb_spec (err s) (err s1)); [congruence|]. apply app_nil_r. }
  destruct (interrupt f) as [e|].
  - intros E. injection E as <- <-. split; [cbn; lia|]. rewrite K; cbn [contents err]; [|rewrite app_length; lia|rewrite app_length, LC; cbn; lia|lia]. rewrite app_nth1 by lia. exact NC.
  - destruct D as [D|(_ & D)]; [congruence|]. destruct (no_last_flush f) as [e|]; [|congruence].
    destruct (run_good _ l (le_n _) (mk_system (C ++ [[]]) (length (contents s)) [])) as (o & q & r & new & E & _). { cbn [err contents]. rewrite app_length, LC. cbn. lia. }
    cbn [err contents] in E. rewrite E. intros Q. injection Q as <- <-. split; [cbn; lia|]. rewrite <- LC, append_at. cbn [app].
    rewrite K; cbn [contents err]; [|rewrite !app_length; lia|rewrite !app_length; cbn; lia|lia]. rewrite <- app_assoc, app_nth1 by lia. exact NC.
Qed.
