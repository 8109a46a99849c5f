(** Proofs about sections: parsing and writing back. *)
From Coq Require Import Ascii String.
From Coq Require Import NArith ZArith List Bool Lia.
From Verif Require Import PyStr PyStrFacts M_constants M_options Spec_options P_options M_macro_definitions
  Spec_macro_definitions P_macro_definitions P_macro_definitions2 M_sections Spec_sections P_sections.
Import ListNotations.
Open Scope N_scope.

Lemma splitlines_aux_run l : no_break l -> forall cur s, splitlines_aux cur (l ++ LF :: s) = (rev cur ++ l) :: splitlines_aux [] s.
Proof.
  induction 1 as [|c l Hc F IH]; intros cur s; cbn [app splitlines_aux].
  - now rewrite app_nil_r.
  - rewrite Hc, IH. cbn [rev]. now rewrite <- app_assoc.
Qed.
Lemma splitlines_lines ls : Forall no_break ls -> splitlines (lines_text ls) = ls.
Proof.
  unfold splitlines. induction 1 as [|l ls Hl F IH]; auto. change (lines_text (l :: ls)) with ((l ++ [LF]) ++ lines_text ls).
  rewrite <- app_assoc. cbn [app]. rewrite splitlines_aux_run by auto. cbn [rev app]. now rewrite IH.
Qed.
Lemma lines_text_app a b : lines_text (a ++ b) = lines_text a ++ lines_text b.
Proof. apply flat_map_app. Qed.

(** Texts and white space alternate. *)
Definition nosp (s : str) : Prop := Forall (fun c => is_space c = false) s.
Definition sp (s : str) : Prop := Forall (fun c => is_space c = true) s.
Inductive alternating : list str -> Prop :=
| A_one t : nosp t -> alternating [t]
| A_more t d l : nosp t -> sp d -> d <> [] -> alternating l -> alternating (t :: d :: l).
Lemma split_spaces_concat : forall s b cur, concat (split_spaces b cur s) = rev cur ++ s.
Proof.
  induction s as [|c s IH]; intros b cur; cbn [split_spaces].
  - destruct b; cbn; rewrite ?app_nil_r; auto.
  - destruct (Bool.eqb (is_space c) b); [|cbn [concat]]; rewrite IH; cbn [rev app]; now rewrite <- ?app_assoc.
Qed.
Lemma split_spaces_alt : forall s,
  (forall cur, nosp cur -> alternating (split_spaces false cur s)) /\
  (forall cur, sp cur -> cur <> [] -> exists d l, split_spaces true cur s = d :: l /\ sp d /\ d <> [] /\ alternating l).
Proof.
  induction s as [|c s [IH1 IH2]]; cbn [split_spaces]; split.
  - intros cur N. constructor. now apply Forall_rev.
  - intros cur S N. exists (rev cur), [[]]. repeat split; [now apply Forall_rev| |constructor; constructor].
    intros E. apply N. now rewrite <- (rev_involutive cur), E.
  - intros cur N. destruct (is_space c) eqn:Sc; cbn [Bool.eqb negb].
    + destruct (IH2 [c]) as (d & l & -> & Sd & Nd & A); [now repeat constructor|discriminate|]. constructor; auto. now apply Forall_rev.
    + apply IH1. now constructor.
  - intros cur S N. destruct (is_space c) eqn:Sc; cbn [Bool.eqb negb].
    + apply IH2; [now constructor|discriminate].
    + exists (rev cur). eexists. split; [reflexivity|]. split; [now apply Forall_rev|]. split.
      * intros E. apply N. now rewrite <- (rev_involutive cur), E.
      * apply IH1. now repeat constructor.
Qed.
Lemma alternating_split s : alternating (split_spaces false [] s).
Proof. apply split_spaces_alt. constructor. Qed.
Lemma alternating_pop l : alternating l -> (2 < length l)%nat -> exists l' d t, l = l' ++ [d; t] /\ alternating l' /\ sp d /\ d <> [] /\ nosp t.
Proof.
  induction 1 as [t Nt|t d l Nt Sd Nd A IH]; cbn [length]; intros L; [lia|].
  destruct A as [t' Nt'|t' d' l' Nt' Sd' Nd' A'].
  - exists [t], d, t'. repeat split; auto. now constructor.
  - destruct l' as [|x l']; [inversion A'|]. destruct IH as (m & e & u & E & Am & Se & Ne & Nu); [cbn; lia|].
    exists (t :: d :: m), e, u. rewrite E. repeat split; auto. now constructor.
Qed.

Section Uni.
Context {U : Unicode}.
(** What is known of a header cut into name, options, delimiter: the text it had. *)
Definition header_text (n : str) (o : option opts) (d : str) : str :=
  n ++ d ++ match o with Some o => tokens_str (o_tokens o) | None => [] end.
Lemma header_of_spec tokens n o d : alternating tokens -> header_of tokens = Ok (n, o, d) ->
  nosp n /\ exists text, concat tokens = n ++ d ++ text /\
    ((o = None /\ d = [] /\ text = []) \/ (sp d /\ d <> [] /\ exists l, tokenize text = Ok l /\ o = Some (mk_opts l (section_options n) []))).
Proof.
  intros A. destruct A as [t Nt|t d' l Nt Sd Nd A]; cbn [header_of].
  - intros E; injection E as <- <- <-. split; auto. exists []. cbn. split; auto.
  - destruct l as [|x l]; [inversion A|]. destruct (tokenize (concat (x :: l))) as [tk|] eqn:E; cbn [bind]; [|discriminate].
    intros Q; injection Q as <- <- <-. split; auto. exists (concat (x :: l)). split; auto. right. eauto.
Qed.

Section Parse.
Context {W : Type} (expand : bool -> W -> str -> result str * W).

Lemma split_id_spec skip w line n o d sep content skip' w' :
  split_id expand skip w line = (Ok (n, o, d, sep, content), skip', w') ->
  nosp n /\ exists text tail, line = n ++ d ++ text ++ tail /\
    ((o = None /\ d = [] /\ text = []) \/ (sp d /\ d <> [] /\ exists l, tokenize text = Ok l /\ o = Some (mk_opts l (section_options n) []))) /\
    ((tail = [] /\ sep = [LF] /\ content = []) \/
     (exists t, tail = sep ++ PCT :: t /\ Spec_macro_definitions.blank sep /\ sep <> [] /\ nosp t /\ content = [PCT :: t])).
Proof.
  unfold split_id. pose proof (alternating_split line) as A. pose proof (split_spaces_concat line false []) as C. cbn [rev app] in C.
  set (tokens := split_spaces false [] line) in *.
  assert (Plain : forall sk x, (let! h := header_of tokens in let '(n, o, d) := h in Ok (n, o, d, [LF], []), sk, x) = (Ok (n, o, d, sep, content), skip', w') ->
     nosp n /\ exists text tail, line = n ++ d ++ text ++ tail /\
    ((o = None /\ d = [] /\ text = []) \/ (sp d /\ d <> [] /\ exists l, tokenize text = Ok l /\ o = Some (mk_opts l (section_options n) []))) /\
    ((tail = [] /\ sep = [LF] /\ content = []) \/
     (exists t, tail = sep ++ PCT :: t /\ Spec_macro_definitions.blank sep /\ sep <> [] /\ nosp t /\ content = [PCT :: t]))).
  { intros sk x E. destruct (header_of tokens) as [[[n0 o0] d0]|e] eqn:Hh; cbn [bind] in E; [|discriminate].
    injection E as <- <- <- <- <- <- <-. destruct (header_of_spec tokens n0 o0 d0 A Hh) as (Nn & text & Et & Ho). split; auto.
    exists text, []. rewrite app_nil_r, <- Et. split; auto. }
  destruct (Nat.ltb 2 (length tokens) && startswith (last tokens []) [PCT]) eqn:B; [|apply Plain].
  apply andb_true_iff in B as [B1 B2]. apply Nat.ltb_lt in B1. destruct (alternating_pop tokens A B1) as (tk & s & t & Et & At & Ss & Ns & Nt).
  destruct (ends_header expand skip w (last tokens [])) as [[[[|]|e] sk] x]; [|apply Plain|discriminate].
  unfold pop2. rewrite Et in *. rewrite rev_app_distr. cbn [rev app]. rewrite rev_involutive.
  intros E. destruct (header_of tk) as [[[n0 o0] d0]|e] eqn:Hh; cbn [bind] in E; [|discriminate].
  injection E as <- <- <- <- <- <- <-. destruct (header_of_spec tk n0 o0 d0 At Hh) as (Nn & text & Ec & Ho). split; auto.
  assert (Hl : last (tk ++ [s; t]) [] = t) by (change [s; t] with ([s] ++ [t]); now rewrite app_assoc, last_last).
  rewrite Hl in B2. apply startswith_iff in B2 as [t' ->]. cbn [app] in *.
  exists text, (s ++ PCT :: t'). split.
  - rewrite <- C, concat_app, Ec. cbn [concat]. rewrite app_nil_r. now rewrite <- !app_assoc.
  - split; auto. right. exists t'. repeat split; auto. now inversion Nt.
Qed.

(** Sections from blocks. *)
Fixpoint from_blocks (skip : bool) (w : W) (bs : list (str * list str)) : result (list section) * W :=
  match bs with
  | [] => (Ok [], w)
  | b :: bs' =>
      match split_id expand skip w (tl (fst b)) with
      | (Err e, _, w') => (Err e, w')
      | (Ok (n, o, d, sep, content), skip', w') =>
          match make_section n o d sep (content ++ snd b) with
          | Err e => (Err e, w')
          | Ok s => match from_blocks skip' w' bs' with
                    | (Err e, w'') => (Err e, w'')
                    | (Ok l, w'') => (Ok (s :: l), w'')
                    end
          end
      end
  end.
Lemma make_from_blocks bs : forall A skip w,
  make_sections expand (A ++ block_lines bs) skip w (block_starts (length A) bs ++ [length (A ++ block_lines bs)]) = from_blocks skip w bs.
Proof.
  induction bs as [|[h body] bs IH]; intros A skip w; [reflexivity|].
  change (block_starts (length A) ((h, body) :: bs)) with (length A :: block_starts (S (length A) + length body) bs).
  cbn [block_lines flat_map fst snd app]. change (flat_map (fun b => fst b :: snd b) bs) with (block_lines bs).
  assert (Nx : exists more, block_starts (S (length A) + length body) bs ++ [length (A ++ h :: body ++ block_lines bs)] = (S (length A) + length body)%nat :: more).
  { destruct bs as [|b bs].
    - exists []. cbn [block_starts block_lines flat_map app]. rewrite app_length. cbn [length]. rewrite app_nil_r. f_equal. lia.
    - eexists. reflexivity. }
  destruct Nx as [more Nx].
  specialize (IH (A ++ h :: body)). rewrite app_length in IH. cbn [length] in IH.
  replace (length A + S (length body))%nat with (S (length A) + length body)%nat in IH by lia. rewrite <- app_assoc in IH. cbn [app] in IH.
  rewrite Nx in *. cbn [make_sections from_blocks fst snd].
  rewrite app_nth2, Nat.sub_diag by auto. cbn [nth].
  assert (slice (S (length A)) (S (length A) + length body) (A ++ h :: body ++ block_lines bs) = body) as ->.
  { unfold slice. replace (A ++ h :: body ++ block_lines bs) with ((A ++ [h]) ++ body ++ block_lines bs) by now rewrite <- app_assoc.
    replace (S (length A)) with (length (A ++ [h])) by (rewrite app_length; cbn; lia).
    rewrite skipn_app, skipn_all, Nat.sub_diag. cbn [app skipn]. replace (_ + _ - _)%nat with (length body) by lia.
    now rewrite firstn_app, Nat.sub_diag, firstn_all, app_nil_r. }
  destruct (split_id expand skip w (tl h)) as [[[[[[[n o] d] sep] content]|e] skip'] w']; auto.
  destruct (make_section n o d sep (content ++ body)); auto. rewrite <- (IH skip' w'). reflexivity.
Qed.

Lemma make_section_Ok n o d sep data s : make_section n o d sep data = Ok s ->
  str_in (lower n) SECTION_NAMES = true /\
  s = mk_section n (match o with Some o => o | None => mk_opts [] (section_options n) [] end) d sep data.
Proof. unfold make_section. destruct (str_in (lower n) SECTION_NAMES); [|discriminate]. intros E; injection E as <-. auto. Qed.

Definition preamble (data : list str) : section := mk_section PREAMBLE (mk_opts [] (section_options PREAMBLE) []) [] [LF] data.
Lemma lower_preamble : lower PREAMBLE = PREAMBLE.
Proof. vm_compute. reflexivity. Qed.
Lemma preamble_nid data : s_nid (preamble data) = PREAMBLE.
Proof. unfold s_nid, s_delim. cbn [preamble s_name s_opts s_delimiter options_true o_tokens existsb tokens_str flat_map]. now rewrite lower_preamble. Qed.

Lemma parse_blocks w lines secs w' : parse expand w lines = (Ok secs, w') ->
  exists rs p bs ss, excluded_ranges (parse_plain lines) (md_data (parse_plain lines)) = Ok rs /\
    blocks_of (header_at rs) 0 lines = (p, bs) /\ lines = p ++ block_lines bs /\ secs = preamble p :: ss /\
    from_blocks false w bs = (Ok ss, w').
Proof.
  unfold parse. destruct (excluded_ranges _ _) as [rs|e] eqn:Er; [|discriminate].
  destruct (blocks_of (header_at rs) 0 lines) as [p bs] eqn:Eb. pose proof (blocks_lines _ _ _ _ _ Eb) as El.
  rewrite (starts_blocks rs lines 0 p bs Eb). cbn [plus].
  assert (Hd : hd 0%nat (block_starts (length p) bs ++ [length lines]) = length p).
  { destruct bs as [|b bs]; [|reflexivity]. cbn. rewrite El. cbn. now rewrite app_nil_r. }
  rewrite Hd. unfold make_section. rewrite lower_preamble. change (str_in PREAMBLE SECTION_NAMES) with true. cbv iota.
  intros E. exists rs, p, bs.
  destruct (make_sections expand lines false w (block_starts (length p) bs ++ [length lines])) as [[l|e] w1] eqn:Em; [|discriminate].
  injection E as <- <-. exists l. split; auto. split; auto. split; auto. split.
  - f_equal. unfold preamble. f_equal. unfold slice. cbn [skipn]. rewrite Nat.sub_0_r, El, firstn_app, Nat.sub_diag, firstn_all. cbn. now rewrite app_nil_r.
  - rewrite <- Em, <- (make_from_blocks bs p false w), <- El. reflexivity.
Qed.

Lemma from_blocks_belongs bs : forall skip w ss w', from_blocks skip w bs = (Ok ss, w') ->
  Forall (fun b => exists r, fst b = PCT :: r) bs -> Forall2 belongs bs ss.
Proof.
  induction bs as [|[h body] bs IH]; intros skip w ss w' E F; cbn [from_blocks fst snd] in E.
  - injection E as <- _. constructor.
  - inversion F as [|? ? [r Eh] F']; subst. cbn in Eh. subst h. cbn [tl] in E.
    destruct (split_id expand skip w r) as [[[[[[[n o] d] sep] content]|e] skip'] w1] eqn:Es; [|discriminate].
    destruct (make_section n o d sep (content ++ body)) as [s|e] eqn:Em; [|discriminate].
    destruct (from_blocks skip' w1 bs) as [[l|e] w2] eqn:Eb; [|discriminate]. injection E as <- _.
    constructor; [|eapply IH; eauto]. apply split_id_spec in Es as (Nn & text & tail & -> & Ho & Ht). apply make_section_Ok in Em as [_ ->].
    split; cbn [s_name s_data fst snd].
    + eexists. reflexivity.
    + destruct Ht as [(_ & _ & ->)|(t & -> & _ & _ & Nt & ->)]; [now left|]. right. exists (PCT :: t), (PCT :: n ++ d ++ text ++ sep). repeat split.
      * cbn. now rewrite <- !app_assoc.
      * now eexists.
      * constructor; auto.
Qed.
Lemma is_header_pct l : is_header l = true -> exists r, l = PCT :: r.
Proof. unfold is_header. intros E. apply andb_true_iff in E as [E _]. apply startswith_iff in E as [r ->]. now exists r. Qed.
Lemma blocks_headers rs lines : forall i p bs, blocks_of (header_at rs) i lines = (p, bs) -> Forall (fun b => is_header (fst b) = true) bs.
Proof.
  induction lines as [|l ls IH]; intros i p bs; cbn [blocks_of].
  - intros E; injection E as <- <-. constructor.
  - destruct (blocks_of (header_at rs) (S i) ls) as [p' bs'] eqn:E. specialize (IH _ _ _ E). destruct (header_at rs i l) eqn:Hh; intros Q; injection Q as <- <-; auto.
    constructor; auto. unfold header_at in Hh. now apply andb_true_iff in Hh as [_ Hh].
Qed.

Theorem boundaries w lines secs w' : Forall (fun l => ~ In LF l) lines -> distinct (parse_plain lines) ->
  parse expand w lines = (Ok secs, w') ->
  exists p ss bs, secs = p :: ss /\ s_nid p = lit "package" /\ lines = s_data p ++ block_lines bs /\ Forall2 belongs bs ss /\
    forall i line, nth_error lines i = Some line ->
      (In i (block_starts (length (s_data p)) bs) <-> header_line line /\ ~ body_line (parse_plain lines) i).
Proof.
  intros NL D E. destruct (parse_blocks w lines secs w' E) as (rs & p & bs & ss & Er & Eb & El & -> & Ef).
  exists (preamble p), ss, bs. split; auto. split; [apply preamble_nid|]. split; [exact El|]. split.
  - eapply from_blocks_belongs; eauto. apply blocks_headers in Eb. eapply Forall_impl; [|exact Eb]. intros b Hb. now apply is_header_pct.
  - intros i line Hi. destruct (excluded_body (parse_plain lines) D) as (rs' & Er' & Hx). rewrite Er in Er'. injection Er' as <-.
    pose proof (starts_blocks rs lines 0 p bs Eb) as Es. cbn [plus] in Es. cbn [preamble s_data]. rewrite <- Es, starts_iff.
    assert (NLl : ~ In LF line) by (rewrite Forall_forall in NL; apply NL; eapply nth_error_In; eauto).
    rewrite <- (header_spec line NLl), <- Hx. unfold header_at. cbn [plus]. split.
    + intros (k & l2 & -> & Hk & B). rewrite Hi in Hk. injection Hk as <-. apply andb_true_iff in B as [B1 B2]. split; auto.
      apply negb_true_iff in B1. congruence.
    + intros [B1 B2]. exists i, line. split; auto. split; auto. rewrite B1. destruct (excluded rs i); [exfalso; auto|reflexivity].
Qed.

(** Writing back. *)
Lemma raw_of_block skip w r body n o d sep content skip' w' s :
  split_id expand skip w r = (Ok (n, o, d, sep, content), skip', w') ->
  make_section n o d sep (content ++ body) = Ok s -> stable_header (PCT :: r) ->
  s_nid s <> PREAMBLE -> section_str s = lines_text ((PCT :: r) :: body).
Proof.
  intros Es Em St Np. apply split_id_spec in Es as (Nn & text & tail & El & Ho & Ht). apply make_section_Ok in Em as [_ ->].
  unfold section_str. apply str_eqb_neq in Np. rewrite Np. cbn [s_separator s_data].
  assert (Hid : s_id (mk_section n (match o with Some o => o | None => mk_opts [] (section_options n) [] end) d sep (content ++ body)) = n ++ d ++ text).
  { unfold s_id, s_delim. cbn [s_name s_opts s_delimiter]. f_equal. destruct Ho as [(-> & -> & ->)|(Sd & Nd & l & Tl & ->)].
    - reflexivity.
    - cbn [o_tokens]. assert (tokens_str l = text) as ->.
      { apply (St n d text tail); auto; [now rewrite El|]. destruct Ht as [(-> & _ & _)|(t & -> & Bs & Ns & Nt & _)]; [now left|].
        right. exists sep, t. repeat split; auto. }
      f_equal. destruct (options_true _); auto. destruct d; congruence. }
  rewrite Hid, El. destruct Ht as [(-> & -> & ->)|(t & -> & Bs & Ns & Nt & ->)].
  - rewrite app_nil_r. cbn [app lines_text flat_map]. rewrite <- !app_assoc. cbn [app]. reflexivity.
  - cbn [app lines_text flat_map]. repeat (rewrite <- ?app_assoc; cbn [app]). reflexivity.
Qed.
Lemma from_blocks_raw bs : forall skip w ss w', from_blocks skip w bs = (Ok ss, w') ->
  Forall (fun b => is_header (fst b) = true) bs ->
  Forall (fun b => stable_header (fst b)) bs -> Forall (fun s => s_nid s <> PREAMBLE) ss ->
  sections_str ss = lines_text (block_lines bs) /\ (Forall no_break (block_lines bs) -> sections_raw ss = block_lines bs).
Proof.
  induction bs as [|[h body] bs IH]; intros skip w ss w' E Fh Fs Fp; cbn [from_blocks fst snd] in E.
  - injection E as <- _. auto.
  - inversion Fh as [|? ? Eh Fh']; subst. inversion Fs as [|? ? Es Fs']; subst. cbn in Eh, Es.
    apply is_header_pct in Eh as [r ->]. cbn [tl] in E.
    destruct (split_id expand skip w r) as [[[[[[[n o] d] sep] content]|e] skip'] w1] eqn:Ei; [|discriminate].
    destruct (make_section n o d sep (content ++ body)) as [s|e] eqn:Em; [|discriminate].
    destruct (from_blocks skip' w1 bs) as [[l|e] w2] eqn:Eb; [|discriminate]. injection E as <- _.
    inversion Fp as [|? ? Np Fp']; subst. destruct (IH _ _ _ _ Eb Fh' Fs' Fp') as [I1 I2].
    pose proof (raw_of_block _ _ _ _ _ _ _ _ _ _ _ _ Ei Em Es Np) as Er.
    cbn [sections_str sections_raw flat_map]. change (flat_map section_str l) with (sections_str l). change (flat_map section_raw l) with (sections_raw l).
    change (block_lines ((PCT :: r, body) :: bs)) with (((PCT :: r) :: body) ++ block_lines bs). split.
    + now rewrite lines_text_app, Er, I1.
    + intros Nb. apply Forall_app in Nb as [Nb1 Nb2]. rewrite (I2 Nb2). f_equal. unfold section_raw. apply str_eqb_neq in Np. rewrite Np, Er.
      now apply splitlines_lines.
Qed.
Theorem round_trip w lines secs w' : parse expand w lines = (Ok secs, w') ->
  Forall (fun l => is_header l = true -> stable_header l) lines -> Forall (fun s => s_nid s <> PREAMBLE) (tl secs) ->
  sections_str secs = lines_text lines /\ (Forall no_break lines -> sections_raw secs = lines).
Proof.
  intros E St Np. destruct (parse_blocks w lines secs w' E) as (rs & p & bs & ss & Er & Eb & El & -> & Ef).
  pose proof (blocks_headers _ _ _ _ _ Eb) as Hh.
  assert (Fs : Forall (fun b => stable_header (fst b)) bs).
  { rewrite Forall_forall in *. intros b Hb. apply St; auto. rewrite El. apply in_or_app. right. unfold block_lines. apply in_flat_map. exists b. split; auto. now left. }
  destruct (from_blocks_raw bs _ _ _ _ Ef Hh Fs Np) as [I1 I2].
  cbn [sections_str sections_raw flat_map]. change (flat_map section_str ss) with (sections_str ss). change (flat_map section_raw ss) with (sections_raw ss).
  unfold section_raw at 1. unfold section_str at 1. rewrite preamble_nid, str_eqb_refl. cbn [preamble s_data]. split.
  - now rewrite I1, El, lines_text_app.
  - intros Nb. rewrite El in Nb. apply Forall_app in Nb as [_ Nb]. now rewrite (I2 Nb).
Qed.
End Parse.
End Uni.
