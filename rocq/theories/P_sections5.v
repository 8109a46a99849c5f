(** Proofs about section headers: names, options and content words. *)
From Coq Require Import Ascii String.
From Coq Require Import NArith ZArith List Bool Lia.
From Verif Require Import PyStr PyStrFacts M_constants M_value P_value M_options Spec_options P_options M_macro_definitions
  RegexFacts Spec_macro_definitions P_macro_definitions P_macro_definitions2 M_sections Spec_sections P_sections P_sections2 P_sections3 P_sections4.
Import ListNotations.
Open Scope N_scope.

Definition no_lead (x : str) : Prop := forall c t, x = c :: t -> is_space c = false.
Lemma split_true_first : forall s cur d r, split_spaces true cur s = d :: r -> exists a x, d = rev cur ++ a /\ s = a ++ x /\ no_lead x.
Proof.
  induction s as [|c s IH]; intros cur d r; cbn [split_spaces].
  - intros Q; injection Q as <- _. exists [], []. rewrite app_nil_r. repeat split. discriminate.
  - destruct (is_space c) eqn:Sc; cbn [Bool.eqb negb].
    + intros Q. apply IH in Q as (a & x & -> & -> & N). exists (c :: a), x. cbn. rewrite <- app_assoc. auto.
    + intros Q; injection Q as <- _. exists [], (c :: s). rewrite app_nil_r. repeat split. intros ? ? Q; injection Q as <- _; exact Sc.
Qed.
Lemma split_false_first : forall s cur n d r, split_spaces false cur s = n :: d :: r -> exists a x, n = rev cur ++ a /\ s = a ++ d ++ x /\ no_lead x.
Proof.
  induction s as [|c s IH]; intros cur n d r; cbn [split_spaces]; [discriminate|].
  destruct (is_space c) eqn:Sc; cbn [Bool.eqb negb].
  - intros Q; injection Q as <- Q. apply split_true_first in Q as (a & x & -> & -> & N). exists [], x. cbn. rewrite app_nil_r. auto.
  - intros Q. apply IH in Q as (a & x & -> & -> & N). exists (c :: a), x. cbn. rewrite <- app_assoc. auto.
Qed.
Lemma last_word x c t y s' z : x ++ c :: t = y ++ s' ++ z -> is_space c = true -> nosp t -> sp s' -> s' <> [] -> nosp z -> t = z.
Proof.
  intros E Sc Nt Ss Ns Nz. destruct (exists_last Ns) as (s0 & d & ->). apply Forall_app in Ss as [_ Ss]. inversion Ss as [|? ? Sd _]; subst.
  replace (y ++ (s0 ++ [d]) ++ z) with ((y ++ s0) ++ d :: z) in E by (now rewrite <- !app_assoc).
  apply (last_unique is_space) in E as (_ & _ & E); auto; apply forallb_forall; unfold nosp in *; rewrite Forall_forall in *; intros; apply negb_true_iff; auto.
Qed.

Section Made.
Context {U : Unicode} {W : Type} (E : str -> result str).
Definition pure_expand (skip : bool) (w : W) (s : str) : result str * W := (E s, w).
Lemma split_id_made skip w line n o d sep content skip' w' body s :
  split_id pure_expand skip w line = (Ok (n, o, d, sep, content), skip', w') ->
  make_section n o d sep (content ++ body) = Ok s -> made_from E (PCT :: line, body) s.
Proof.
  unfold split_id. pose proof (alternating_split line) as A. pose proof (split_spaces_concat line false []) as C. cbn [rev app] in C.
  pose proof (split_false_first line []) as F. set (tokens := split_spaces false [] line) in *. intros Es Em. apply make_section_Ok in Em as [_ ->].
  (* the name and the options *)
  assert (Hd : forall tk tail n o d, alternating tk -> header_of tk = Ok (n, o, d) -> (exists more, tokens = tk ++ more) -> line = concat tk ++ tail ->
    exists text, line = n ++ d ++ text ++ tail /\ nosp n /\ sp d /\ no_lead text /\
      (d = [] /\ text = [] /\ o = None \/ d <> [] /\ exists l, tokenize text = Ok l /\ o = Some (mk_opts l (section_options n) []))).
  { clear Es. intros tk tail n1 o1 d1 Atk Hh (more & Em) Et. destruct (header_of_spec tk n1 o1 d1 Atk Hh) as (Nn & text & Ec & Ho).
    exists text. split; [rewrite Et, Ec; now rewrite <- !app_assoc|]. split; [exact Nn|].
    destruct Ho as [(-> & -> & ->)|(Sd & Nd & l & Tl & ->)].
    - split; [constructor|]. split; [discriminate|]. now left.
    - split; [exact Sd|]. split; [|right; eauto].
      destruct tk as [|t0 [|t1 [|t2 tk]]]; cbn [header_of] in Hh; try discriminate.
      destruct (tokenize (concat (t2 :: tk))); cbn [bind] in Hh; [|discriminate]. assert (t0 = n1 /\ t1 = d1) as [-> ->] by (inversion Hh; auto).
      destruct (F n1 d1 (t2 :: tk ++ more)) as (a9 & x & Ea & El & Nx); [exact Em|]. cbn [rev app] in Ea. subst a9.
      intros c t ->. assert (X : n1 ++ d1 ++ (c :: t) ++ tail = n1 ++ d1 ++ x). { rewrite <- El, Et, Ec. now rewrite <- !app_assoc. }
      apply app_inv_head, app_inv_head in X. apply (Nx c (t ++ tail)). now rewrite <- X. }
  assert (Plain : forall sk x, (forall y c t, line = y ++ c :: t -> is_space c = true -> ~ content_word E t) ->
     (let! h := header_of tokens in let '(n, o, d) := h in Ok (n, o, d, [LF], []), sk, x) = (Ok (n, o, d, sep, content), skip', w') ->
     made_from E (PCT :: line, body) (mk_section n (match o with Some o => o | None => mk_opts [] (section_options n) [] end) d sep (content ++ body))).
  { intros sk x NoW Q. destruct (header_of tokens) as [[[n0 o0] d0]|e] eqn:Hh; cbn [bind] in Q; [|discriminate].
    injection Q as <- <- <- <- <- <- <-. destruct (Hd tokens [] n0 o0 d0 A Hh) as (text & El & Nn & Sd & Nl & Ho); [exists []; now rewrite app_nil_r|now rewrite app_nil_r, C|].
    exists d0, text, []. cbn [fst snd s_name s_opts s_data]. split; [now rewrite El|]. split; [exact Nn|]. split; [exact Sd|]. split; [exact Nl|].
    split; [destruct Ho as [(-> & -> & ->)|(Nd & l & Tl & ->)]; [now left|now right]|]. split; [destruct Ho as [(_ & _ & ->)|(_ & l & _ & ->)]; reflexivity|].
    left. split; [reflexivity|]. split; [reflexivity|]. intros y c t Ey Sc. destruct y as [|y0 y]; [injection Ey as <- _; discriminate|]. injection Ey as _ Ey. eapply NoW; eauto. }
  destruct (Nat.ltb 2 (length tokens) && startswith (last tokens []) [PCT]) eqn:B.
  - apply andb_true_iff in B as [B1 B2]. apply Nat.ltb_lt in B1. destruct (alternating_pop tokens A B1) as (tk & s & t & Et & At & Ss & Ns & Nt).
    assert (Hl : last tokens [] = t) by (rewrite Et; change [s; t] with ([s] ++ [t]); now rewrite app_assoc, last_last). rewrite Hl in *.
    assert (Eline : line = concat tk ++ s ++ t) by (rewrite <- C, Et, concat_app; cbn; now rewrite app_nil_r).
    unfold ends_header, pure_expand in Es.
    assert (NoW : (forall u, E t <> Ok (LF :: u)) -> forall y c t0, line = y ++ c :: t0 -> is_space c = true -> ~ content_word E t0).
    { intros NE y c t0 Ey Sc (_ & N0 & u & Eu). assert (t0 = t) as -> by (eapply last_word; [rewrite <- Ey; exact Eline|auto..]). now apply (NE u). }
    destruct (E t) as [x|e] eqn:Ex.
    + destruct (startswith x [LF]) eqn:Sx.
      * apply startswith_iff in Sx as (u & ->). unfold pop2 in Es. rewrite Et, rev_app_distr in Es. cbn [rev app] in Es. rewrite rev_involutive in Es.
        destruct (header_of tk) as [[[n0 o0] d0]|e] eqn:Hh; cbn [bind] in Es; [|discriminate]. injection Es as <- <- <- <- <- <- <-.
        destruct (Hd tk (s ++ t) n0 o0 d0 At Hh) as (text & El & Nn & Sd & Nl & Ho); [eauto|exact Eline|].
        exists d0, text, (s ++ t). cbn [fst snd s_name s_opts s_data]. split; [now rewrite El|]. split; [exact Nn|]. split; [exact Sd|]. split; [exact Nl|].
        split; [destruct Ho as [(-> & -> & ->)|(Nd & l & Tl & ->)]; [now left|now right]|]. split; [destruct Ho as [(_ & _ & ->)|(_ & l & _ & ->)]; reflexivity|].
        right. exists s, t. repeat split; auto; [|now exists u]. apply startswith_iff in B2 as (t' & ->). now exists t'.
      * apply (Plain true w); [|exact Es]. apply NoW. intros u Q. injection Q as ->. discriminate.
    + assert (NoW' := NoW ltac:(discriminate)). destruct e; try discriminate. now apply (Plain skip w).
  - apply (Plain skip w); [|exact Es]. intros y c t Ey Sc ((t' & ->) & Nt & _).
    destruct (Nat.ltb 2 (length tokens)) eqn:B1.
    + cbn [andb] in B. apply Nat.ltb_lt in B1. destruct (alternating_pop tokens A B1) as (tk & s & t & Et & At & Ss & Ns & Nt').
      assert (Hl : last tokens [] = t) by (rewrite Et; change [s; t] with ([s] ++ [t]); now rewrite app_assoc, last_last). rewrite Hl in *.
      assert (Eline : line = concat tk ++ s ++ t) by (rewrite <- C, Et, concat_app; cbn; now rewrite app_nil_r).
      assert (PCT :: t' = t) as <- by (eapply last_word; [rewrite <- Ey; exact Eline|auto..]). discriminate.
    + apply Nat.ltb_ge in B1. destruct A as [t Nt'|t d' l _ _ _ A]; [|destruct A; cbn in B1; lia].
      cbn in C. rewrite app_nil_r in C. subst t. rewrite Ey in Nt'. apply Forall_app in Nt' as [_ Nt']. inversion Nt'. congruence.
Qed.
Lemma from_blocks_made bs : forall skip w ss w', from_blocks pure_expand skip w bs = (Ok ss, w') ->
  Forall (fun b => exists r, fst b = PCT :: r) bs -> Forall2 (made_from E) bs ss.
Proof.
  induction bs as [|[h body] bs IH]; intros skip w ss w' Q F; cbn [from_blocks fst snd] in Q.
  - injection Q as <- _. constructor.
  - inversion F as [|? ? [r Eh] F']; subst. cbn in Eh. subst h. cbn [tl] in Q.
    destruct (split_id pure_expand skip w r) as [[[[[[[n o] d] sep] content]|e] skip'] w1] eqn:Es; [|discriminate].
    destruct (make_section n o d sep (content ++ body)) as [s|e] eqn:Em; [|discriminate].
    destruct (from_blocks pure_expand skip' w1 bs) as [[l|e] w2] eqn:Eb; [|discriminate]. injection Q as <- _.
    constructor; [|eapply IH; eauto]. eapply split_id_made; eauto.
Qed.
Theorem sections_made w lines secs w' : parse pure_expand w lines = (Ok secs, w') ->
  exists p ss bs, secs = p :: ss /\ lines = s_data p ++ block_lines bs /\ Forall2 (made_from E) bs ss.
Proof.
  intros Q. destruct (parse_blocks pure_expand w lines secs w' Q) as (rs & p & bs & ss & Er & Eb & El & -> & Ef).
  exists (preamble p), ss, bs. split; [reflexivity|]. split; [exact El|]. eapply from_blocks_made; eauto.
  apply blocks_headers in Eb. eapply Forall_impl; [|exact Eb]. intros b Hb. now apply is_header_pct.
Qed.
End Made.
