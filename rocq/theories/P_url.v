(** Proofs about remote locations. *)
From Coq Require Import Ascii String.
From Coq Require Import NArith List Bool Lia Arith.
From Verif Require Import PyStr M_url Spec_url.
Import ListNotations.
Open Scope N_scope.

Lemma letter_spec c : letter c = true <-> is_letter c.
Proof. unfold letter, is_letter. rewrite orb_true_iff, !andb_true_iff, !N.leb_le. tauto. Qed.
Lemma scheme_char_spec c : scheme_char c = true <-> in_scheme c.
Proof. unfold scheme_char, in_scheme. rewrite !orb_true_iff, letter_spec, andb_true_iff, !N.leb_le, !N.eqb_eq. cbn. intuition. Qed.
Lemma delimiter_spec c : delimiter c = true <-> ends_host c.
Proof. unfold delimiter, ends_host. rewrite !orb_true_iff, !N.eqb_eq. cbn. intuition. Qed.
Lemma colon_not_in_scheme c : in_scheme c -> c <> 58.
Proof. intros H ->. unfold in_scheme, is_letter in H. cbn in H. intuition (discriminate || lia). Qed.
Lemma clean_tidy s : tidy s -> clean s = s.
Proof.
  intros [T B]. unfold clean. assert (E : dropwhile (fun c => c <=? 32) s = s).
  { destruct s as [|c s]; [reflexivity|]. cbn. specialize (B c s eq_refl). destruct (N.leb_spec c 32); [lia|reflexivity]. }
  rewrite E. clear E B. induction T as [|c s Hc T IH]; [reflexivity|]. cbn [filter]. cbn in Hc.
  destruct (N.eqb_spec c 9), (N.eqb_spec c 10), (N.eqb_spec c 13); cbn [orb negb]; try (exfalso; intuition congruence). rewrite IH. reflexivity.
Qed.
Lemma find_colon : forall a b, Forall (fun c => c <> 58) a -> find_index (N.eqb 58) (a ++ 58 :: b) = Some (length a).
Proof.
  induction a as [|c a IH]; intros b F; [reflexivity|]. pose proof (Forall_inv F) as F1; pose proof (Forall_inv_tail F) as F2; clear F. cbn [app find_index length]. destruct (N.eqb_spec 58 c); [congruence|]. rewrite IH by exact F2. reflexivity.
Qed.
Lemma find_index_split : forall s i, find_index (N.eqb 58) s = Some i -> exists b, s = firstn i s ++ 58 :: b /\ skipn (S i) s = b.
Proof.
  induction s as [|c s IH]; intros i E; cbn [find_index] in E; [discriminate|]. destruct (N.eqb_spec 58 c) as [<-|Ne].
  - injection E as <-. exists s. split; reflexivity.
  - destruct (find_index _ s) as [j|]; [|discriminate]. injection E as <-. destruct (IH j eq_refl) as [b [E1 E2]]. exists b. split; [cbn [firstn app]; f_equal; exact E1|]. exact E2.
Qed.
Lemma take_host : forall h r, Forall (fun c => ~ ends_host c) h -> (r = [] \/ exists c r', r = c :: r' /\ ends_host c) -> takewhile (fun c => negb (delimiter c)) (h ++ r) = h.
Proof.
  induction h as [|c h IH]; intros r F R; cbn [app takewhile].
  - destruct R as [->|[c [r' [-> R]]]]; [reflexivity|]. cbn. apply delimiter_spec in R. rewrite R. reflexivity.
  - pose proof (Forall_inv F) as F1; pose proof (Forall_inv_tail F) as F2; clear F. destruct (delimiter c) eqn:E; [apply delimiter_spec in E; contradiction|]. cbn. rewrite IH by assumption. reflexivity.
Qed.
Lemma host_split : forall s, exists r, s = takewhile (fun c => negb (delimiter c)) s ++ r /\ Forall (fun c => ~ ends_host c) (takewhile (fun c => negb (delimiter c)) s) /\ (r = [] \/ exists c r', r = c :: r' /\ ends_host c).
Proof.
  induction s as [|c s IH]; [exists []; split; [reflexivity|split; [constructor|left; reflexivity]]|]. cbn [takewhile]. destruct (delimiter c) eqn:E; cbn [negb].
  - exists (c :: s). split; [reflexivity|]. split; [constructor|]. right. exists c, s. split; [reflexivity|]. apply delimiter_spec. exact E.
  - destruct IH as [r [E1 [F R]]]. exists r. split; [cbn [app]; f_equal; exact E1|]. split; [|exact R]. constructor; [|exact F]. intros X. apply delimiter_spec in X. congruence.
Qed.
Section Url.
Context {H : Hosts}.
Lemma split_url s scheme host rest : url s scheme host rest -> split_scheme s = (scheme, lit "//" ++ host ++ rest) /\ split_host (lit "//" ++ host ++ rest) = host.
Proof.
  intros [-> [[c [s' [-> Lc]]] [F [Nh [Fh R]]]]]. split.
  - unfold split_scheme. change (lit "://" ++ host ++ rest) with (58 :: lit "//" ++ host ++ rest).
    rewrite find_colon by (eapply Forall_impl; [|exact F]; intros a Ha; apply colon_not_in_scheme; exact Ha).
    rewrite firstn_app, firstn_all, Nat.sub_diag. cbn [firstn]. rewrite app_nil_r. cbn [hd app length Nat.ltb Nat.leb]. apply letter_spec in Lc. rewrite Lc. cbn [andb].
    replace (forallb scheme_char (c :: s')) with true by (symmetry; apply forallb_forall; intros x Hx; apply scheme_char_spec; rewrite Forall_forall in F; apply F; exact Hx).
    f_equal. clear. induction s' as [|d s' IH]; [reflexivity|]. exact IH.
  - cbn [lit list_ascii_of_string map app split_host]. change ((N_of_ascii "/" =? 47) && (N_of_ascii "/" =? 47)) with true. cbn [andb]. cbn. apply take_host; assumption.
Qed.
Theorem remote_true l : remote (Some l) = Ok true -> exists scheme host rest, url (clean l) scheme host rest /\ check_host host = true.
Proof.
  unfold remote, urlsplit, split_scheme. generalize (clean l). clear l. intros s. destruct (find_index _ s) as [i|] eqn:E.
  - destruct (_ && _ && _) eqn:G.
    + apply andb_true_iff in G. destruct G as [G F]. apply andb_true_iff in G. destruct G as [I Lc]. apply Nat.ltb_lt in I. destruct (find_index_split s i E) as [b [E1 E2]]. rewrite E2.
      destruct (check_host (split_host b)) eqn:K; cbn [bind]; [|discriminate]. intros X. injection X as X. apply andb_true_iff in X. destruct X as [_ X].
      destruct b as [|x [|y b]]; try discriminate X. cbn [split_host] in *. destruct ((x =? 47) && (y =? 47)) eqn:D; [|discriminate X]. apply andb_true_iff in D. destruct D as [Dx Dy].
      apply N.eqb_eq in Dx, Dy. subst x y. destruct (host_split b) as [r [Eb [Fh R]]].
      exists (firstn i s), (takewhile (fun c => negb (delimiter c)) b), r. split; [|exact K]. split; [|split; [|split; [|split; [|split; assumption]]]].
      * change (lit "://" ++ takewhile (fun c => negb (delimiter c)) b ++ r) with (58 :: 47 :: 47 :: takewhile (fun c => negb (delimiter c)) b ++ r). rewrite <- Eb. exact E1.
      * destruct s as [|c s]; [discriminate E|]. destruct i as [|i]; [lia|]. exists c, (firstn i s). split; [reflexivity|]. apply letter_spec. exact Lc.
      * apply Forall_forall. intros c Hc. apply scheme_char_spec. rewrite forallb_forall in F. apply F. exact Hc.
      * intros Z. rewrite Z in X. discriminate X.
    + destruct (check_host _); cbn; intros X; discriminate X.
  - destruct (check_host _); cbn; intros X; discriminate X.
Qed.
Theorem remote_url l scheme host rest : url (clean l) scheme host rest -> remote (Some l) = if check_host host then Ok true else Err ValueError.
Proof.
  intros X. unfold remote, urlsplit. destruct (split_url _ _ _ _ X) as [-> ->]. destruct (check_host host); [|reflexivity]. cbn [bind].
  destruct X as [_ [[c [s' [-> _]]] [_ [Nh _]]]]. destruct host; [congruence|]. reflexivity.
Qed.
Theorem remote_no_slashes l : ~ (exists a b, clean l = a ++ lit "//" ++ b) -> remote (Some l) = Ok false.
Proof.
  intros N. assert (X : split_host (snd (split_scheme (clean l))) = []).
  { assert (S : exists a, clean l = a ++ snd (split_scheme (clean l))).
    { unfold split_scheme. destruct (find_index _ _) as [i|] eqn:E; [|exists []; reflexivity]. destruct (_ && _ && _); [|exists []; reflexivity].
      exists (firstn (S i) (clean l)). cbn [snd]. symmetry. apply firstn_skipn. }
    destruct S as [a S]. destruct (snd _) as [|x [|y b]]; try reflexivity. cbn [split_host]. destruct ((x =? 47) && (y =? 47)) eqn:D; [|reflexivity]. apply andb_true_iff in D. destruct D as [Dx Dy].
    apply N.eqb_eq in Dx, Dy. subst. exfalso. apply N. exists a, b. exact S. }
  unfold remote, urlsplit. destruct (split_scheme _) as [a b]. cbn [snd] in X. rewrite X. cbn. rewrite andb_false_r. reflexivity.
Qed.
Theorem remote_ascii l : Forall (fun c => c < 128 /\ c <> 91 /\ c <> 93) l -> exists b, remote (Some l) = Ok b.
Proof.
  intros F. assert (F1 : Forall (fun c => c < 128 /\ c <> 91 /\ c <> 93) (clean l)).
  { unfold clean. apply Forall_forall. intros c Hc. apply filter_In in Hc. destruct Hc as [Hc _]. rewrite Forall_forall in F. apply F. clear F. induction l as [|x l IH]; [destruct Hc|]. cbn [dropwhile] in Hc.
    destruct (x <=? 32); [right; apply IH; exact Hc|exact Hc]. }
  assert (K : forall h, Forall (fun c => c < 128 /\ c <> 91 /\ c <> 93) h -> check_host h = true).
  { intros h Fh. unfold check_host.
    assert (C91 : contains 91 h = false) by (induction Fh as [|c h [_ [Hc _]] Fh IH]; [reflexivity|]; unfold contains in *; cbn [existsb]; destruct (N.eqb_spec 91 c); [congruence|exact IH]).
    assert (C93 : contains 93 h = false) by (clear C91; induction Fh as [|c h [_ [_ Hc]] Fh IH]; [reflexivity|]; unfold contains in *; cbn [existsb]; destruct (N.eqb_spec 93 c); [congruence|exact IH]).
    assert (C128 : existsb (fun c => 128 <=? c) h = false) by (clear C91 C93; induction Fh as [|c h [Hc _] Fh IH]; [reflexivity|]; cbn [existsb]; destruct (N.leb_spec 128 c); [lia|exact IH]).
    rewrite C91, C93, C128. reflexivity. }
  assert (In_split : forall c, In c (split_host (snd (split_scheme (clean l)))) -> In c (clean l)).
  { intros c Hc. assert (S : forall d, In d (snd (split_scheme (clean l))) -> In d (clean l)).
    { intros d Hd. unfold split_scheme in Hd. destruct (find_index _ _) as [i|]; [|exact Hd]. destruct (_ && _ && _); [|exact Hd]. cbn [snd] in Hd. rewrite <- (firstn_skipn (S i) (clean l)). apply in_or_app. right. exact Hd. }
    apply S. destruct (snd _) as [|x [|y b]]; [destruct Hc|destruct Hc|]. cbn [split_host] in Hc. destruct (_ && _); [|destruct Hc]. right. right. clear - Hc.
    induction b as [|z b IH]; [destruct Hc|]. cbn [takewhile] in Hc. destruct (negb _); [|destruct Hc]. destruct Hc as [->|Hc]; [left; reflexivity|right; apply IH; exact Hc]. }
  unfold remote, urlsplit. destruct (split_scheme (clean l)) as [a b] eqn:E. cbn [snd] in In_split. rewrite K; [cbn [bind]; eauto|].
  apply Forall_forall. intros c Hc. rewrite Forall_forall in F1. apply F1, In_split. exact Hc.
Qed.
End Url.

Lemma contains_in c s : contains c s = true <-> In c s.
Proof. unfold contains. rewrite existsb_exists. split; [intros (x & I & E); apply N.eqb_eq in E; now subst|intros I; exists c; split; auto; apply N.eqb_refl]. Qed.
Theorem check_host_spec {H : Hosts} host : check_host host = false <-> rejected host.
Proof.
  unfold check_host, rejected. rewrite <- !contains_in.
  assert (A : (exists c, In c host /\ 128 <= c) <-> existsb (fun c => 128 <=? c) host = true). { rewrite existsb_exists. split; intros (c & I & L); exists c; split; auto; now apply N.leb_le. }
  rewrite A. destruct (contains 91 host), (contains 93 host), (bad_address host), (existsb _ host), (bad_characters host); cbn; split; intros Q; try discriminate; auto 7;
    repeat match goal with H : _ \/ _ |- _ => destruct H | H : _ /\ _ |- _ => destruct H end; congruence.
Qed.
Theorem url_rejected {H : Hosts} l scheme host rest : url (clean l) scheme host rest -> rejected host -> remote (Some l) = Err ValueError.
Proof. intros X R. rewrite (remote_url l scheme host rest X). apply check_host_spec in R. now rewrite R. Qed.
Theorem url_accepted {H : Hosts} l scheme host rest : url (clean l) scheme host rest -> ~ rejected host -> remote (Some l) = Ok true.
Proof. intros X R. rewrite (remote_url l scheme host rest X). destruct (check_host host) eqn:E; auto. apply check_host_spec in E. contradiction. Qed.
(** * What is looked at *)
Lemma unbroken_filter r s : unbroken r s -> filter (fun c => negb ((c =? 9) || (c =? 10) || (c =? 13))) r = s.
Proof.
  induction 1 as [|c s t I _ IH|c s t I _ IH]; [reflexivity| |]; cbn [filter].
  - destruct I as [<-|[<-|[<-|[]]]]; exact IH.
  - destruct (N.eqb_spec c 9) as [->|N1]; [exfalso; apply I; left; reflexivity|]. destruct (N.eqb_spec c 10) as [->|N2]; [exfalso; apply I; right; left; reflexivity|].
    destruct (N.eqb_spec c 13) as [->|N3]; [exfalso; apply I; right; right; left; reflexivity|]. cbn [orb negb]. rewrite IH. reflexivity.
Qed.
Lemma filter_unbroken r : unbroken r (filter (fun c => negb ((c =? 9) || (c =? 10) || (c =? 13))) r).
Proof.
  induction r as [|c r IH]; cbn [filter]; [constructor|].
  destruct (N.eqb_spec c 9) as [->|N1]; [apply unbroken_drop; [left; reflexivity|exact IH]|]. destruct (N.eqb_spec c 10) as [->|N2]; [apply unbroken_drop; [right; left; reflexivity|exact IH]|].
  destruct (N.eqb_spec c 13) as [->|N3]; [apply unbroken_drop; [right; right; left; reflexivity|exact IH]|]. cbn [orb negb]. apply unbroken_keep; [|exact IH]. intros [X|[X|[X|[]]]]; congruence.
Qed.
Lemma looked_clean l s : looked_at l s <-> s = clean l.
Proof.
  unfold clean. split.
  - intros [b [r [-> [F [N X]]]]]. rewrite <- (unbroken_filter r s X). f_equal. induction F as [|c b Hc _ IH].
    + destruct r as [|c r]; [reflexivity|]. cbn [app dropwhile]. specialize (N c r eq_refl). destruct (N.leb_spec c 32); [lia|reflexivity].
    + cbn [app dropwhile]. apply N.leb_le in Hc. rewrite Hc. exact IH.
  - intros ->. induction l as [|c l IH].
    + exists [], []. split; [reflexivity|]. split; [constructor|]. split; [discriminate|constructor].
    + cbn [dropwhile]. destruct (N.leb_spec c 32) as [L|L].
      * destruct IH as [b [r [-> [F [N X]]]]]. exists (c :: b), r. split; [reflexivity|]. split; [constructor; assumption|]. split; assumption.
      * exists [], (c :: l). split; [reflexivity|]. split; [constructor|]. split; [intros d r E; injection E as <- _; exact L|apply filter_unbroken].
Qed.
Theorem looked_tidy l : tidy l -> looked_at l l.
Proof. intros T. apply looked_clean. symmetry. apply clean_tidy. exact T. Qed.
Theorem looked_unique l : exists s, looked_at l s /\ forall t, looked_at l t -> t = s.
Proof. exists (clean l). split; [apply looked_clean; reflexivity|]. intros t. apply looked_clean. Qed.
