(** Proofs about sections that are scripts. *)
From Coq Require Import Ascii String.
From Coq Require Import NArith ZArith List Bool Lia.
From Verif Require Import PyStr PyStrFacts M_constants M_options M_macro_definitions M_sections Spec_sections
  P_sections P_sections2 P_sections3 Spec_script.
Import ListNotations.
Open Scope N_scope.

Lemma split_ws_word w : forall cur rest, Forall (fun c => is_space c = false) w -> (forall c t, rest = c :: t -> is_space c = true) ->
  rev cur ++ w <> [] -> exists l, split_ws_aux cur (w ++ rest) = (rev cur ++ w) :: l.
Proof.
  induction w as [|c w IH]; intros cur rest F R N; cbn [app].
  - rewrite app_nil_r in *. destruct rest as [|d rest]; cbn [split_ws_aux].
    + destruct cur; [now destruct N|eauto].
    + rewrite (R d rest eq_refl). destruct cur; [now destruct N|eauto].
  - inversion F as [|? ? Fc Fw]; subst. cbn [split_ws_aux]. rewrite Fc.
    destruct (IH (c :: cur) rest Fw R) as [l El].
    + cbn [rev]. rewrite <- app_assoc. exact N.
    + exists l. rewrite El. cbn [rev]. now rewrite <- app_assoc.
Qed.
Lemma names_words n : In n SECTION_NAMES -> n <> [] /\ Forall (fun c => is_space c = false) n.
Proof.
  assert (F : forallb (fun n => negb (str_eqb n []) && forallb (fun c => negb (is_space c)) n) SECTION_NAMES = true) by (vm_compute; reflexivity).
  rewrite forallb_forall in F. intros I. specialize (F n I). apply andb_true_iff in F as [F1 F2]. split.
  - intros ->. discriminate.
  - rewrite forallb_forall in F2. apply Forall_forall. intros c Ic. specialize (F2 c Ic). now destruct (is_space c).
Qed.
Lemma scripts_same n : In n (SCRIPT_SECTIONS ++ SIMPLE_SCRIPT_SECTIONS) <-> In n script_names.
Proof.
  split; intros I.
  - assert (F : forallb (fun n => str_in n script_names) (SCRIPT_SECTIONS ++ SIMPLE_SCRIPT_SECTIONS) = true) by (vm_compute; reflexivity).
    rewrite forallb_forall in F. now apply str_in_iff, F.
  - assert (F : forallb (fun n => str_in n (SCRIPT_SECTIONS ++ SIMPLE_SCRIPT_SECTIONS)) script_names = true) by (vm_compute; reflexivity).
    rewrite forallb_forall in F. now apply str_in_iff, F.
Qed.

Section Script.
Context {U : Unicode} {W : Type} (expand : bool -> W -> str -> result str * W).
(** A section with a name of the list whose delimiter starts with a blank, if there is one. *)
Theorem script_name s : In (lower (s_name s)) SECTION_NAMES ->
  (forall c t, s_delim s ++ tokens_str (o_tokens (s_opts s)) = c :: t -> is_space c = true) ->
  is_script s = true <-> In (lower (s_name s)) script_names.
Proof.
  intros I R. apply names_words in I as [N F]. unfold is_script, s_nid, split_ws.
  destruct (split_ws_word (lower (s_name s)) [] _ F R) as [l El]; [exact N|]. rewrite El. cbn [rev app].
  rewrite str_in_iff. apply scripts_same.
Qed.
Lemma word_unique (line n n' : str) : header_word line n -> header_word line n' -> n = n'.
Proof.
  intros (r & -> & F & R) (r' & E & F' & R'). injection E as E. revert n' F' E.
  induction n as [|c n IH]; intros [|c' n'] F' E; cbn [app] in E; auto.
  - exfalso. inversion F'. specialize (R _ _ E). congruence.
  - exfalso. inversion F. specialize (R' _ _ (eq_sym E)). congruence.
  - inversion F; inversion F'; subst. injection E as -> E. f_equal. auto.
Qed.
Lemma block_script skip w r body n o d sep content skip' w' s :
  split_id expand skip w r = (Ok (n, o, d, sep, content), skip', w') ->
  make_section n o d sep (content ++ body) = Ok s -> header_word (PCT :: r) (s_name s) /\ (is_script s = true <-> script_header (PCT :: r)).
Proof.
  intros Es Em. apply split_id_spec in Es as (Nn & text & tail & El & Ho & Ht). apply make_section_Ok in Em as [I ->].
  set (s := mk_section _ _ _ _ _).
  assert (H : header_word (PCT :: r) n).
  { exists (d ++ text ++ tail). split; [now rewrite El|]. split; [exact Nn|]. intros c t E.
    destruct Ho as [(_ & -> & ->)|(Sd & Nd & _)].
    - cbn [app] in E. destruct Ht as [(-> & _)|(x & -> & Bs & Ns & _)]; [discriminate|].
      destruct sep as [|b sep]; [congruence|]. injection E as <- _. now inversion Bs.
    - destruct d as [|b d]; [congruence|]. injection E as <- _. now inversion Sd. }
  split; [exact H|]. rewrite (script_name s).
  - unfold s. cbn [s_name]. split.
    + intros Q. exists n. now split.
    + intros (n' & H' & Q). now rewrite (word_unique _ _ _ H H').
  - unfold s. cbn [s_name]. now apply str_in_iff.
  - unfold s, s_delim. cbn [s_opts s_delimiter]. intros c t E. destruct Ho as [(-> & -> & _)|(Sd & Nd & l & _ & ->)].
    + cbn in E. discriminate.
    + cbn [o_tokens] in E. destruct d as [|b d]; [congruence|]. destruct (options_true _); injection E as <- _; now inversion Sd.
Qed.
Theorem scripts_read w lines secs w' : parse expand w lines = (Ok secs, w') ->
  exists p ss bs, secs = p :: ss /\ lines = s_data p ++ block_lines bs /\ is_script p = false /\
    Forall2 (fun b s => header_word (fst b) (s_name s) /\ (is_script s = true <-> script_header (fst b))) bs ss.
Proof.
  intros Q. destruct (parse_blocks expand w lines secs w' Q) as (rs & p & bs & ss & Er & Eb & El & -> & Ef).
  exists (preamble p), ss, bs. split; [reflexivity|]. split; [exact El|].
  split; [unfold is_script; rewrite preamble_nid; vm_compute; reflexivity|].
  assert (F : Forall (fun b => exists r, fst b = PCT :: r) bs).
  { apply blocks_headers in Eb. eapply Forall_impl; [|exact Eb]. intros b Hb. now apply is_header_pct. }
  clear Q Er Eb El. revert Ef F. generalize false as skip. revert w ss. induction bs as [|[h body] bs IH]; intros w ss skip Ef F; cbn [from_blocks fst snd] in Ef.
  - injection Ef as <- _. constructor.
  - inversion F as [|? ? [r Eh] F']; subst. cbn in Eh. subst h. cbn [tl] in Ef.
    destruct (split_id expand skip w r) as [[[[[[[n o] d] sep] content]|e] skip'] w1] eqn:Es; [|discriminate].
    destruct (make_section n o d sep (content ++ body)) as [s|e] eqn:Em; [|discriminate].
    destruct (from_blocks expand skip' w1 bs) as [[l|e] w2] eqn:Eb; [|discriminate]. injection Ef as <- ->.
    constructor; [|eapply IH; eauto]. cbn [fst]. eapply block_script; eauto.
Qed.
Lemma script_lower w lines secs w' s : parse expand w lines = (Ok secs, w') -> In s secs -> s_name s <> PREAMBLE ->
  is_script s = true <-> In (lower (s_name s)) script_names.
Proof.
  intros Q I Np. destruct (parse_blocks expand w lines secs w' Q) as (rs & p0 & bs0 & ss0 & _ & _ & _ & Es & _).
  destruct (scripts_read w lines secs w' Q) as (p & ss & bs & E & _ & _ & F). rewrite Es in E, I. injection E as <- <-.
  destruct I as [<-|I]; [now destruct Np|]. clear Q Es. induction F as [|b x bs ss0 [H HI] F IH]; [destruct I|].
  destruct I as [<-|I]; [|auto]. rewrite HI. split.
  - intros (n & H' & Hn). now rewrite (word_unique _ _ _ H H').
  - intros Hn. exists (s_name x). now split.
Qed.
Theorem prep_no_script w lines secs w' s : parse expand w lines = (Ok secs, w') -> In s secs -> s_name s = lit "prep" -> is_script s = false.
Proof.
  intros Q I E. destruct (is_script s) eqn:B; [|reflexivity]. rewrite (script_lower w lines secs w' s Q I) in B.
  - rewrite E in B. apply str_in_iff in B. vm_compute in B. discriminate.
  - rewrite E. discriminate.
Qed.
Theorem post_script w lines secs w' s : parse expand w lines = (Ok secs, w') -> In s secs -> s_name s = lit "post" -> is_script s = true.
Proof.
  intros Q I E. rewrite (script_lower w lines secs w' s Q I).
  - rewrite E. apply str_in_iff. vm_compute. reflexivity.
  - rewrite E. discriminate.
Qed.
End Script.
