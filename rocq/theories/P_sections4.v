(** Closing lemmas for Properties_sections.v. *)
From Coq Require Import Ascii String.
From Coq Require Import NArith ZArith List Bool Lia.
From Verif Require Import PyStr PyStrFacts M_constants M_value P_value M_options Spec_options P_options M_macro_definitions
  Spec_macro_definitions P_macro_definitions P_macro_definitions2 M_sections Spec_sections P_sections P_sections2 P_sections3.
Import ListNotations.
Open Scope N_scope.
Lemma no_break_LF l : no_break l -> ~ In LF l.
Proof. unfold no_break. rewrite Forall_forall. intros F I. now apply F in I. Qed.
Section Uni.
Context {U : Unicode} {W : Type} (expand : bool -> W -> str -> result str * W).
Lemma headers_to lines : Forall no_break lines -> Forall (fun l => header_line l -> stable_header l) lines ->
  Forall (fun l => is_header l = true -> stable_header l) lines.
Proof. rewrite !Forall_forall. intros Nb F l Hl E. apply F; auto. apply header_spec; auto. now apply no_break_LF, Nb. Qed.
Theorem sections_round_trip w lines secs w' : parse expand w lines = (Ok secs, w') ->
  Forall no_break lines -> Forall (fun l => header_line l -> stable_header l) lines ->
  Forall (fun s => s_nid s <> PREAMBLE) (tl secs) -> sections_raw secs = lines /\ sections_str secs = lines_text lines.
Proof. intros E Nb St Np. destruct (round_trip expand w lines secs w' E (headers_to _ Nb St) Np). auto. Qed.
Theorem sections_edit_local w lines secs w' a s b : parse expand w lines = (Ok secs, w') -> Forall no_break lines ->
  Forall (fun l => header_line l -> stable_header l) lines -> Forall (fun x => s_nid x <> PREAMBLE) (tl secs) ->
  secs = a ++ s :: b ->
  exists before after, lines_text lines = before ++ lines_text (s_data s) ++ after /\
    forall d, sections_str (a ++ with_data d s :: b) = before ++ lines_text d ++ after.
Proof. intros E Nb St Np. eapply edit_local; eauto using headers_to. Qed.
Theorem sections_delete_local w lines secs w' a s b : parse expand w lines = (Ok secs, w') -> Forall no_break lines ->
  Forall (fun l => header_line l -> stable_header l) lines -> Forall (fun x => s_nid x <> PREAMBLE) (tl secs) ->
  secs = a ++ s :: b ->
  exists l1 ls l2, lines = l1 ++ ls ++ l2 /\ sections_raw (a ++ b) = l1 ++ l2 /\ section_raw s = ls /\
    (a <> [] -> exists h body, ls = h :: body /\ header_line h).
Proof.
  intros E Nb St Np Es. destruct (delete_local expand w lines secs w' a s b E Nb (headers_to _ Nb St) Np Es) as (A & B & C).
  exists (sections_raw a), (section_raw s), (sections_raw b). auto.
Qed.
End Uni.
Section Uni2.
Context {U : Unicode}.
Theorem plain_headers l : Forall (fun c => c <> DQUOTE /\ c <> SQUOTE /\ c <> BSLASH /\ c <> PCT) (tl l) -> stable_header l.
Proof.
  intros F. apply plain_header. eapply Forall_impl; [|exact F]. intros c (A & B & C & D). repeat split; auto.
  unfold is_quote. apply orb_false_iff. split; now apply N.eqb_neq.
Qed.
Theorem canonical_stable text : canonical_text text -> stable text.
Proof. intros C. destruct (canonical_round_trip text C) as (l & T & E). intros l' T'. congruence. Qed.
Theorem lookup_own a s b id : lower (s_delim s ++ tokens_str (o_tokens (s_opts s))) = s_delim s ++ tokens_str (o_tokens (s_opts s)) ->
  lower id = lower (s_id s) ->
  sec_contains (a ++ s :: b) id = true /\
  exists s', sec_get (a ++ s :: b) id = Ok s' /\ In s' (a ++ [s]) /\ s_nid s' = s_nid s.
Proof.
  intros Hl Hid. apply own_id in Hl. rewrite <- Hid in Hl. clear Hid.
  assert (C : sec_contains (a ++ s :: b) id = true).
  { apply existsb_exists. exists s. split; [apply in_elt|]. rewrite Hl. apply str_eqb_refl. }
  split; auto. rewrite Hl. destruct (existsb (fun x => str_eqb (s_nid x) (lower id)) a) eqn:Ea.
  - destruct (sec_find a id) as [k|] eqn:F.
    + destruct (find_first a id k F) as (a1 & x & a2 & -> & _ & Hx & Ha). exists x. split; [|split; auto].
      * rewrite <- app_assoc. cbn [app]. now apply (set_first a1 x (a2 ++ s :: b) id []).
      * rewrite <- app_assoc. apply in_elt.
    + unfold sec_find in F. destruct (find_index _ a) eqn:G; [discriminate|]. apply find_index_None in G. apply existsb_exists in Ea as (x & Hx & Ex).
      rewrite forallb_forall in G. specialize (G x Hx). rewrite Ex in G. discriminate.
  - exists s. split; [|split; auto]. 2: apply in_or_app; right; now left.
    apply (set_first a s b id []); auto. apply Forall_forall. intros x Hx E. apply not_true_iff_false in Ea. apply Ea. apply existsb_exists.
    exists x. split; auto. now apply str_eqb_eq.
Qed.
End Uni2.
Definition demo (skip : bool) (w : unit) (s : str) : result str * unit :=
  if str_eqb s (lit "%{nl}") then (Ok (LF :: lit "x"), w) else (Ok s, w).
Notation parse_demo := (parse (U:=unicode_none) demo tt).
Theorem upper_case_options :
  exists lines l s, fst (parse_demo lines) = Ok l /\ In s l /\ sec_contains (U:=unicode_none) l (s_id s) = false /\
    sec_get (U:=unicode_none) l (s_id s) = Err ValueError.
Proof.
  exists [lit "%package -n Foo"]. do 2 eexists. split; [vm_compute; reflexivity|]. split; [right; left; reflexivity|]. split; vm_compute; reflexivity.
Qed.
Theorem trailing_blank :
  exists l, fst (parse_demo [lit "%build "; lit "make"]) = Ok l /\ (exists s, In s l /\ s_name s = lit "build" /\ o_tokens (s_opts s) = []) /\
    sec_contains (U:=unicode_none) l (lit "build") = false.
Proof.
  eexists. split; [vm_compute; reflexivity|]. split; [|vm_compute; reflexivity]. eexists. split; [right; left; reflexivity|]. split; reflexivity.
Qed.
Theorem equal_definitions :
  exists lines l, fst (parse_demo lines) = Ok l /\ length l = 2%nat /\
    forall i line, nth_error lines i = Some line -> header_line line -> body_line (parse_plain (U:=unicode_none) lines) i.
Proof.
  exists (map lit ["%define a \"; "%build"; "%define a \"; "%build"]%string). eexists. split; [vm_compute; reflexivity|]. split; [reflexivity|].
  assert (exists d, md_data (parse_plain (U:=unicode_none) (map lit ["%define a \"; "%build"; "%define a \"; "%build"]%string)) = [d; d] /\
    length (split_on LF [] (d_body d)) = 2%nat /\ length (d_preceding d) = 0%nat /\ length (mdef_raw d) = 2%nat) as (d & E & L1 & L2 & L3).
  { eexists. split; [vm_compute; reflexivity|]. repeat split. }
  assert (Nh : is_header (lit "%define a \") = false) by (vm_compute; reflexivity).
  assert (Nl : ~ In LF (lit "%define a \")) by (vm_compute; intuition discriminate).
  intros i line Hi Hh.
  assert (Hl : line = lit "%define a \" -> False) by (intros ->; apply (header_spec _ Nl) in Hh; rewrite Hh in Nh; discriminate).
  assert (H : i = 1%nat \/ i = 3%nat).
  { clear E L1 L2 L3 d. cbn [map] in Hi. destruct i as [|[|[|[|i]]]]; cbn [nth_error] in Hi.
    - exfalso. apply Hl. congruence.
    - now left.
    - exfalso. apply Hl. congruence.
    - now right.
    - destruct i; discriminate. }
  destruct H as [->| ->].
  - exists [], d, [d], 1%nat. rewrite E, L1, L2. auto.
  - exists [d], d, [], 1%nat. rewrite E, L1, L2. cbn [flat_map]. rewrite app_nil_r, L3. auto.
Qed.
Theorem headers_kept :
  (exists lines l, Forall no_break lines /\ fst (parse_demo lines) = Ok l /\ length lines = 2%nat /\ length (sections_raw (U:=unicode_none) l) = 1%nat) /\
  (exists l, fst (parse_demo [lit "%files %{?x:-n foo}"]) = Ok l /\ sections_raw (U:=unicode_none) l = [lit "%files %{?x:-n\ foo}"]).
Proof.
  split.
  - exists (map lit ["%package"; "Summary: x"]%string). eexists. split; [repeat constructor|]. split; [vm_compute; reflexivity|]. split; vm_compute; reflexivity.
  - eexists. split; vm_compute; reflexivity.
Qed.
Theorem accepted_names : exists line, header_line line /\ fst (parse_demo [line]) = Err ValueError.
Proof.
  exists (lit "%in" ++ 383 :: lit "tall"). split; [|vm_compute; reflexivity].
  apply header_spec; [cbn; intuition discriminate|]. vm_compute. reflexivity.
Qed.
