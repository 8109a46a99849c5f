(** Names and numbers of sources. *)
From Coq Require Import Ascii String.
From Coq Require Import NArith ZArith List Bool Lia.
From Verif Require Import PyStr PyStrFacts Regex RegexFacts M_constants M_evr M_value M_macro_definitions M_conditions M_tags M_sourcelist M_sources Spec_sections Spec_tags Spec_sources
  P_evr P_value P_tags.
Import ListNotations.
Open Scope N_scope.

Definition lower_prefix (patches : bool) : str := if patches then lit "patch" else lit "source".
Definition upper_prefix (patches : bool) : str := if patches then lit "Patch" else lit "Source".
Section Uni.
Context {U : Unicode}.

Lemma lower_letter a c : 97 <= a <= 122 -> a <> 105 -> a <> 115 -> same_letter a c -> lower_c c = [a].
Proof.
  intros Ha H1 H2 [-> | [[_ ->]| [[? _]| [[? _]|[-> ->]]]]]; try contradiction; unfold lower_c, ascii_upper.
  - rewrite (proj2 (N.leb_gt a 90)) by lia. rewrite andb_false_r. now rewrite (proj2 (N.ltb_lt a 128)) by lia.
  - rewrite (proj2 (N.leb_le 65 _)), (proj2 (N.leb_le _ 90)) by lia. cbn [andb]. f_equal. lia.
  - reflexivity.
Qed.
(** The first character of the image of a letter is that letter or not ASCII. *)
Lemma lower_head a c : 97 <= a <= 122 -> same_letter a c -> exists h t, lower_c c = h :: t /\ (h = a /\ (a <> 105 -> t = []) \/ 128 <= h).
Proof.
  intros Ha Hs. destruct (N.eq_dec a 105) as [->|N1]; [|destruct (N.eq_dec a 115) as [->|N2]].
  - destruct Hs as [-> | [[_ ->]| [[_ [->| ->]]| [[? _]|[? _]]]]]; try discriminate.
    + eexists _, []. split; [reflexivity|]. left. split; auto.
    + eexists _, []. split; [reflexivity|]. left. split; auto.
    + eexists _, _. split; [reflexivity|]. left. split; auto. congruence.
    + unfold lower_c, all_nonascii. cbn -[u_lower]. destruct (u_lower 305) as [|x l] eqn:E; [eexists _, _; split; [reflexivity|]; right; lia|].
      destruct (forallb _ (x :: l)) eqn:F; eexists _, _; (split; [reflexivity|]); right; [|lia]. cbn [forallb] in F. apply andb_true_iff in F as [F _]. now apply N.leb_le in F.
  - destruct Hs as [-> | [[_ ->]| [[? _]| [[_ ->]|[? _]]]]]; try discriminate.
    + eexists _, []. split; [reflexivity|]. left. split; auto.
    + eexists _, []. split; [reflexivity|]. left. split; auto.
    + unfold lower_c, all_nonascii. cbn -[u_lower]. destruct (u_lower 383) as [|x l] eqn:E; [eexists _, _; split; [reflexivity|]; right; lia|].
      destruct (forallb _ (x :: l)) eqn:F; eexists _, _; (split; [reflexivity|]); right; [|lia]. cbn [forallb] in F. apply andb_true_iff in F as [F _]. now apply N.leb_le in F.
  - exists a, []. split; [now apply lower_letter|]. left. split; auto.
Qed.
Lemma title_head a c : 97 <= a <= 122 -> same_letter a c -> exists h t, title_c c = h :: t /\ (h = a - 32 /\ t = [] \/ 128 <= h).
Proof.
  intros Ha Hs.
  assert (K : forall x, 128 <= x -> x = 304 \/ x = 8490 -> exists h t, title_c x = h :: t /\ (h = a - 32 /\ t = [] \/ 128 <= h)).
  { intros x Hx Q. assert (E : title_c x = let l := u_title x in if all_nonascii l then l else [x]) by (destruct Q as [->| ->]; reflexivity).
    rewrite E. cbn zeta. unfold all_nonascii. destruct (u_title x) as [|y l]; [eexists _, _; split; [reflexivity|]; now right|].
    destruct (forallb _ (y :: l)) eqn:F; eexists _, _; (split; [reflexivity|]); right; auto. cbn [forallb] in F. apply andb_true_iff in F as [F _]. now apply N.leb_le in F. }
  destruct Hs as [-> | [[_ ->]| [[-> [->| ->]]| [[-> ->]|[-> ->]]]]].
  - unfold title_c, ascii_lower. rewrite (proj2 (N.leb_le 97 a)), (proj2 (N.leb_le a 122)) by lia. cbn [andb]. eexists _, []. split; [reflexivity|]. auto.
  - unfold title_c, ascii_lower. rewrite (proj2 (N.leb_gt 97 _)) by lia. cbn [andb]. rewrite (proj2 (N.ltb_lt _ 128)) by lia. eexists _, []. split; [reflexivity|]. auto.
  - apply K; [lia|auto].
  - eexists _, []. split; [reflexivity|]. auto.
  - eexists _, []. split; [reflexivity|]. auto.
  - apply K; [lia|auto].
Qed.

Lemma lower_digits ds : caseless_digits -> Forall (fun c => is_digit c = true) ds -> lower ds = ds.
Proof. intros C. induction 1 as [|c ds Hc F IH]; auto. unfold lower in *. cbn [flat_map]. rewrite IH, (C c Hc). reflexivity. Qed.
Lemma lower_app a b : lower (a ++ b) = lower a ++ lower b.
Proof. apply flat_map_app. Qed.
Lemma cap_source b letters ds : caseless_digits -> Forall2 same_letter (lower_prefix b) letters -> Forall (fun c => is_digit c = true) ds ->
  capitalize (letters ++ ds) = upper_prefix b ++ ds.
Proof.
  intros C Hl Hd.
  assert (K : forall q l, Forall2 same_letter q l -> Forall (fun a => 97 <= a <= 122 /\ a <> 105 /\ a <> 115) q -> lower l = q).
  { clear. induction 1 as [|a c q l Hac F IH]; intros A; auto. inversion A as [|? ? (A1 & A2 & A3) A']; subst. unfold lower in *. cbn [flat_map].
    rewrite (lower_letter a c A1 A2 A3 Hac), IH; auto. }
  destruct b; cbn [lower_prefix upper_prefix] in *; inversion Hl as [|a0 c q l Hc Hq E1 E2]; subst; cbn [app capitalize];
    rewrite lower_app, (lower_digits ds C Hd).
  - apply K in Hq; [|repeat constructor; (lia || discriminate)]. rewrite Hq.
    assert (title_c c = [80]) as ->. { destruct Hc as [-> | [[_ ->]| [[? _]| [[? _]|[? _]]]]]; try discriminate; reflexivity. } reflexivity.
  - apply K in Hq; [|repeat constructor; (lia || discriminate)]. rewrite Hq.
    assert (title_c c = [83]) as ->. { destruct Hc as [-> | [[_ ->]| [[? _]| [[_ ->]|[? _]]]]]; try discriminate; reflexivity. } reflexivity.
Qed.
Lemma arg_head n arg c f : caseless_digits -> name_argument n arg -> lower arg = c :: f -> 97 <= c <= 122 -> False.
Proof.
  intros C [->|[(_ & s1 & s2 & x & s3 & -> & S1 & _)|[_ Hd]]] E Hc; [discriminate| |].
  - destruct s1 as [|y s1]; cbn [app] in E; unfold lower in E; cbn [flat_map] in E.
    + injection E as <- _. unfold LPAR in *; cbn in Hc; lia.
    + inversion S1 as [|? ? Hy _]; subst. assert (Q : lower_c y = [y] /\ y < 97 \/ exists h t, lower_c y = h :: t /\ 128 <= h).
      { unfold lower_c. unfold is_space, ascii_upper in *. destruct (N.leb_spec 65 y), (N.leb_spec y 90); cbn [andb];
        try (exfalso; cbn in Hy; rewrite ?orb_true_iff, ?andb_true_iff, ?N.eqb_eq, ?N.leb_le in Hy; lia).
        - destruct (N.ltb_spec y 128); [left; split; auto; rewrite ?orb_true_iff, ?andb_true_iff, ?N.eqb_eq, ?N.leb_le in Hy; lia|right].
          destruct (N.eqb_spec y 304); [subst; vm_compute in Hy; discriminate|]. destruct (N.eqb_spec y 8490); [subst; vm_compute in Hy; discriminate|].
          cbn zeta. unfold all_nonascii. destruct (u_lower y) as [|z l]; [eexists _, _; split; [reflexivity|]; auto|].
          destruct (forallb _ (z :: l)) eqn:F; eexists _, _; (split; [reflexivity|]); auto. cbn [forallb] in F. apply andb_true_iff in F as [F _]. now apply N.leb_le in F.
        - destruct (N.ltb_spec y 128); [left; split; auto; lia|lia]. }
      destruct Q as [[Q Q']|(h & t & Q & Q')]; rewrite Q in E; cbn [app] in E; injection E as <- _; lia.
  - rewrite (lower_digits _ C Hd) in E. subst arg. inversion Hd as [|? ? D _]; subst.
    unfold is_digit, digit_val, ascii_digit in D. destruct (N.leb_spec 48 c), (N.leb_spec c 57); cbn [andb] in D; try lia.
    rewrite (proj2 (N.ltb_lt c 128)) in D by lia. discriminate.
Qed.
(** Reading the letters of [q] off a name. *)
Lemma walk n arg m : caseless_digits -> name_argument m arg -> forall q letters x, Forall2 same_letter n letters -> (forall a, In a n -> 97 <= a <= 122) ->
  Forall (fun a => 97 <= a <= 122 /\ a <> 105) q -> lower (letters ++ arg) = q ++ x ->
  exists n' letters', n = q ++ n' /\ Forall2 same_letter n' letters' /\ lower (letters' ++ arg) = x.
Proof.
  intros C Ha. induction n as [|a n IH]; intros q letters x Hl An Aq E.
  - inversion Hl; subst. cbn [app] in E. destruct q as [|b q]; [exists [], []; auto|]. exfalso. inversion Aq as [|? ? [Hb _] _]; subst. eapply arg_head; eauto.
  - inversion Hl as [|? c ? l Hc Hl']; subst. destruct q as [|b q]; [exists (a :: n), (c :: l); auto|].
    inversion Aq as [|? ? [Hb Nb] Aq']; subst.
    destruct (lower_head a c (An a (or_introl eq_refl)) Hc) as (h & t & Eh & D). cbn [app] in E. unfold lower in E. cbn [flat_map] in E. rewrite Eh in E. cbn [app] in E. injection E as -> E.
    destruct D as [[-> D]|D]; [|lia]. rewrite (D Nb) in E. cbn [app] in E.
    destruct (IH q l x Hl' (fun z Hz => An z (or_intror Hz)) Aq' E) as (n' & l' & -> & F & Q). exists n', l'. auto.
Qed.
Lemma lower_prefix_in b : In (lower_prefix b) TAG_NAMES.
Proof. destruct b; cbn; tauto. Qed.
Lemma upper_head b : exists u q, upper_prefix b = u :: q /\ lower_prefix b = (u + 32) :: q /\ 65 <= u <= 90 /\ Forall (fun a => 97 <= a <= 122 /\ a <> 105) q.
Proof.
  destruct b; [exists 80, [97; 116; 99; 104]|exists 83, [111; 117; 114; 99; 101]]; (split; [reflexivity|]); (split; [reflexivity|]); (split; [lia|]); repeat constructor; (lia || discriminate).
Qed.
Lemma cap_other b n letters arg x : caseless_digits -> In n TAG_NAMES -> Forall2 same_letter n letters -> name_argument n arg ->
  capitalize (letters ++ arg) = upper_prefix b ++ x -> (forall c f, x = c :: f -> is_digit c = true) -> n = lower_prefix b.
Proof.
  intros C Hn Hl Ha E Hx. pose proof (tag_names_lower n) as An. destruct (upper_head b) as (u & q & Eu & El & Hu & Aq). rewrite Eu in E.
  destruct n as [|a n]; [exfalso; revert Hn; clear; cbn; intuition discriminate|]. inversion Hl as [|? c ? l Hc Hl']; subst. cbn [app capitalize] in E.
  destruct (title_head a c (An a Hn (or_introl eq_refl)) Hc) as (h & t & Eh & D). rewrite Eh in E. cbn [app] in E. injection E as -> E.
  destruct D as [[D ->]|D]; [|lia]. cbn [app] in E. pose proof (An a Hn (or_introl eq_refl)) as Ha'.
  destruct (walk n arg (a :: n) C Ha q l x Hl' (fun z Hz => An z Hn (or_intror Hz)) Aq E) as (n' & l' & -> & F & Q).
  rewrite El. assert (a = u + 32) as -> by lia. destruct n' as [|y n']; [now rewrite app_nil_r|exfalso].
  assert (y = 108). { apply (longer_name (lower_prefix b) y n'); [destruct b; auto|rewrite El; exact Hn]. } subst y.
  inversion F as [|? c' ? l2 Hc' F']; subst. cbn [app] in *. unfold lower in *. cbn [flat_map] in *.
  rewrite (lower_letter 108 c') in Hx by (lia || discriminate || assumption). cbn [app] in Hx. specialize (Hx _ _ eq_refl). discriminate.
Qed.

(** Numbers at the end of a name. *)
Lemma digit_not_LF c : is_digit c = true -> c <> LF.
Proof. intros D ->. discriminate. Qed.
Lemma number_match pr rs m : Match number_regex (mkst pr rs []) m -> exists w e, rs = w ++ e /\ w <> [] /\ forallb is_digit w = true /\ at_dollar e = true /\ caps m = [(1%nat, w)].
Proof.
  unfold number_regex. rewrite Match_Seq. intros (s1 & G & D). apply Match_Grp_Plus in G as (w & N & E & F & _ & K). apply Match_Dollar in D as [-> D].
  cbn [rest caps] in *. exists w, (rest s1). auto.
Qed.
Lemma extract_digits x c ds : is_digit c = false -> Forall (fun d => is_digit d = true) ds -> ds <> [] -> extract_number (x ++ c :: ds) = Some ds.
Proof.
  intros Hc Hd Nd. assert (Fd : forallb is_digit ds = true) by (apply forallb_forall; now apply Forall_forall).
  assert (NL : ~ In LF ds). { intros Q. rewrite Forall_forall in Hd. apply Hd in Q. discriminate. }
  assert (K : forall w pr, results number_regex (mkst pr (w ++ c :: ds) []) = []).
  { intros w pr. apply results_nil. intros m M. apply number_match in M as (v & e & E & Nv & Fv & De & _).
    destruct e as [|y [|? ?]]; [| |discriminate].
    - rewrite app_nil_r in E. rewrite <- E, forallb_app in Fv. cbn [forallb] in Fv. rewrite Hc, andb_false_r in Fv. discriminate.
    - cbn in De. apply N.eqb_eq in De. subst y. assert (ds = [] \/ exists ds', ds = ds' ++ [LF]) as [->|[ds' ->]]; [| congruence|apply NL, in_or_app; right; now left].
      destruct (exists_last Nd) as (ds' & z & ->). right. exists ds'. rewrite app_comm_cons, app_assoc in E. apply app_inj_tail in E as [_ ->]. reflexivity. }
  unfold extract_number, re_split1, re_search.
  assert (S : forall w pr, search_from number_regex pr (w ++ c :: ds) = search_from number_regex (c :: rev w ++ pr) ds).
  { induction w as [|y w IH]; intros pr; cbn [app].
    - apply search_skip. apply (K []).
    - rewrite search_skip; [|apply (K (y :: w))]. rewrite IH. cbn [rev]. now rewrite <- app_assoc. }
  rewrite S. rewrite (search_here number_regex _ ds (mkst (rev ds ++ c :: rev x ++ []) [] [(1%nat, ds)])); [reflexivity|].
  unfold number_regex. rewrite <- (app_nil_r ds) at 1. apply H_greedy; auto.
  - intros w2 rs' Q N2. destruct w2; [congruence|discriminate].
  - reflexivity.
Qed.
Lemma letter_not_digit a c : 97 <= a <= 122 -> a <> 105 -> a <> 115 -> a <> 107 -> same_letter a c -> is_digit c = false.
Proof.
  intros Ha H1 H2 H3 Hs. assert (c < 128 /\ 57 < c) as [L G] by (unfold same_letter in Hs; lia).
  unfold is_digit, digit_val, ascii_digit. rewrite (proj2 (N.leb_gt c 57)) by lia. rewrite andb_false_r. now rewrite (proj2 (N.ltb_lt c 128)).
Qed.
Lemma last_letter b letters : Forall2 same_letter (lower_prefix b) letters -> exists x c, letters = x ++ [c] /\ is_digit c = false.
Proof.
  intros Hl. assert (E : exists q a, lower_prefix b = q ++ [a] /\ 97 <= a <= 122 /\ a <> 105 /\ a <> 115 /\ a <> 107).
  { destruct b; [exists (lit "patc"), 104|exists (lit "sourc"), 101]; (split; [reflexivity|]); repeat split; (lia || discriminate). }
  destruct E as (q & a & E & Ha & H1 & H2 & H3). rewrite E in Hl. apply Forall2_app_inv_l in Hl as (x & y & F & G & ->).
  inversion G as [|? c ? ? Hc Hn]; subst. inversion Hn; subst. exists x, c. split; auto. eapply letter_not_digit; eauto.
Qed.
(** What [_get_tags] makes of a name. *)
Definition kind (p name : str) : option (option Z) :=
  if str_eqb (capitalize name) p then Some None
  else if is_numbered p (capitalize name) then Some (Some (explicit_number name)) else None.
Lemma is_numbered_iff p x : is_numbered p x = true <-> exists c f, x = p ++ c :: f /\ is_digit c = true.
Proof.
  unfold is_numbered. destruct (re_match (numbered_regex p) x) as [m|] eqn:E; split; intros Q; auto; try discriminate.
  - apply re_match_sound in E. unfold numbered_regex in E. apply Match_Seq in E as (s1 & W & P). apply Match_word in W as (W & _). apply Match_Plus in P as (w & N & P & F & _).
    cbn [rest] in *. destruct w as [|c w]; [congruence|]. cbn [forallb] in F. apply andb_true_iff in F as [F _]. exists c, (w ++ rest m). split; auto. rewrite W, P. reflexivity.
  - destruct Q as (c & f & -> & Hc). exfalso. rewrite re_match_None in E. eapply (E (mkst ([c] ++ rev p) f [])). unfold numbered_regex.
    eapply MSeq; [apply (L_word p [])|]. rewrite app_nil_r. cbn [app]. apply Match_Plus. exists [c]. cbn. rewrite Hc. repeat split; auto. discriminate.
Qed.
Lemma kind_implicit b name : caseless_digits -> source_name (lower_prefix b) name [] -> kind (upper_prefix b) name = Some None.
Proof.
  intros C (l & -> & Hl & _). unfold kind. rewrite (cap_source b l [] C Hl (Forall_nil _)), app_nil_r, str_eqb_refl. reflexivity.
Qed.
Lemma source_extract b name ds : source_name (lower_prefix b) name ds -> ds <> [] -> extract_number name = Some ds.
Proof.
  intros (l & -> & Hl & Hd) N. destruct (last_letter b l Hl) as (x & c & -> & Hc). rewrite <- app_assoc. now apply extract_digits.
Qed.
Lemma source_extract_nil b name : source_name (lower_prefix b) name [] -> extract_number name = None.
Proof.
  intros (l & -> & Hl & _). destruct (last_letter b l Hl) as (x & c & -> & Hc). rewrite app_nil_r.
  unfold extract_number, re_split1, re_search. destruct (search_from number_regex [] (x ++ [c])) as [[q m]|] eqn:E; auto. exfalso.
  apply search_from_Some in E as (w & rs & E & -> & Q & _). assert (M : Match number_regex (mkst (rev w ++ []) rs []) m).
  { apply results_Match. destruct (results _ _); [discriminate|]. cbn in Q. injection Q as ->. now left. }
  apply number_match in M as (v & e & -> & Nv & Fv & De & _).
  assert (c <> LF). { intros ->. assert (exists l, Forall2 same_letter (lower_prefix b) (l ++ [LF])) as [l0 F] by eauto. clear -F.
    assert (K : forall n l0, Forall2 same_letter n (l0 ++ [LF]) -> exists a, In a n /\ same_letter a LF).
    { clear. induction n as [|a n IH]; intros l0 F; [destruct l0; inversion F|]. destruct l0 as [|y l0]; inversion F; subst.
      - exists a. split; [now left|auto].
      - edestruct IH as (a' & I1 & I2); eauto. exists a'. split; [now right|auto]. }
    destruct (K _ _ F) as (a & I1 & I2). pose proof (tag_names_lower _ _ (lower_prefix_in b) I1). unfold same_letter, LF in I2. lia. }
  destruct e as [|y [|? ?]]; [| |discriminate].
  - rewrite app_nil_r in E. destruct (exists_last Nv) as (v' & z & ->). rewrite app_assoc in E. apply app_inj_tail in E as [_ ->].
    rewrite forallb_app in Fv. cbn in Fv. rewrite Hc, andb_false_r in Fv. discriminate.
  - cbn in De. apply N.eqb_eq in De. subst y. rewrite app_assoc in E. apply app_inj_tail in E as [_ ->]. congruence.
Qed.
Lemma kind_explicit b name ds n : caseless_digits -> source_name (lower_prefix b) name ds -> int_of_str ds = Some n ->
  kind (upper_prefix b) name = Some (Some (Z.of_N n)) /\ explicit_number name = Z.of_N n.
Proof.
  intros C Hs Hi. destruct (digits_of_int ds n Hi) as [_ Nd]. pose proof (source_extract b name ds Hs Nd) as Ex.
  assert (En : explicit_number name = Z.of_N n) by (unfold explicit_number; now rewrite Ex, Hi). split; auto.
  destruct Hs as (l & -> & Hl & Hd). unfold kind. rewrite (cap_source b l ds C Hl Hd).
  destruct (str_eqb _ _) eqn:Q; [apply str_eqb_eq in Q; rewrite <- (app_nil_r (upper_prefix b)) in Q at 2; apply app_inv_head in Q; congruence|].
  rewrite (proj2 (is_numbered_iff _ _)); [now rewrite En|]. destruct ds as [|c f]; [congruence|]. inversion Hd; subst. eauto.
Qed.
Lemma tag_name_dec b name : caseless_digits -> tag_name name ->
  (exists ds, source_name (lower_prefix b) name ds) \/ ((forall ds, ~ source_name (lower_prefix b) name ds) /\ kind (upper_prefix b) name = None).
Proof.
  intros C (n & l & arg & Hn & Hl & Ha & ->). destruct (str_eq_dec n (lower_prefix b)) as [->|Ne].
  - left. destruct Ha as [->|[(W & _)|[_ Hd]]].
    + exists [], l. auto.
    + exfalso. revert W. destruct b; cbn; intuition discriminate.
    + exists arg, l. auto.
  - right. assert (K : forall x, (forall c f, x = c :: f -> is_digit c = true) -> capitalize (l ++ arg) <> upper_prefix b ++ x).
    { intros x Hx E. apply Ne. eapply cap_other; eauto. }
    split.
    + intros ds (l' & E & Hl' & Hd). rewrite E in K. apply (K ds); [|now apply cap_source].
      intros c f ->. now inversion Hd.
    + unfold kind. destruct (str_eqb _ _) eqn:Q; [apply str_eqb_eq in Q; exfalso; apply (K []); [discriminate|now rewrite app_nil_r]|].
      destruct (is_numbered _ _) eqn:Q2; auto. apply is_numbered_iff in Q2 as (c & f & E & Hc). exfalso. apply (K (c :: f)); auto. intros ? ? Q3; now injection Q3 as <- <-.
Qed.
(** C28 *)
Lemma get_tags_kind p : forall names i last, get_tags_from p i last names =
  match names with
  | [] => []
  | n :: names' =>
      match kind p n with
      | None => get_tags_from p (S i) last names'
      | Some None => mk_ts n (Some (last + 1)%Z) i :: get_tags_from p (S i) (last + 1)%Z names'
      | Some (Some k) => mk_ts n None i :: get_tags_from p (S i) k names'
      end
  end.
Proof. intros [|n names] i last; auto. cbn [get_tags_from]. unfold kind. destruct (str_eqb _ _); auto. now destruct (is_numbered _ _). Qed.
Theorem tags_numbered b names : caseless_digits -> Forall tag_name names -> forall i last,
  numbered (lower_prefix b) i last names (map (fun t => (ts_index t, ts_number t)) (get_tags_from (upper_prefix b) i last names)).
Proof.
  intros C. induction 1 as [|name names Hn F IH]; intros i last; [constructor|]. rewrite get_tags_kind.
  destruct (tag_name_dec b name C Hn) as [(ds & Hs)|[No K]].
  - destruct (str_eq_dec ds []) as [->|Nd].
    + rewrite (kind_implicit b name C Hs). cbn [map ts_index]. unfold ts_number at 1. cbn [ts_implicit]. apply N_implicit; auto.
    + destruct (int_digits ds) as (n & Hi); auto; [destruct Hs as (? & _ & _ & Hd); apply forallb_forall; now apply Forall_forall|].
      destruct (kind_explicit b name ds n C Hs Hi) as [-> En]. cbn [map ts_index]. unfold ts_number at 1. cbn [ts_implicit ts_name]. rewrite En. eapply N_explicit; eauto.
  - rewrite K. apply N_other; auto.
Qed.
Lemma upper_letters b : Forall2 same_letter (lower_prefix b) (upper_prefix b).
Proof.
  assert (K : Forall2 same_letter [112; 97; 116; 99; 104] [80; 97; 116; 99; 104] /\ Forall2 same_letter [115; 111; 117; 114; 99; 101] [83; 111; 117; 114; 99; 101]).
  { split; repeat apply Forall2_cons; try apply Forall2_nil; unfold same_letter; lia. }
  destruct b; apply K.
Qed.
Lemma source_tag_name b ds : Forall (fun c => is_digit c = true) ds -> tag_name (upper_prefix b ++ ds).
Proof.
  intros Hd. exists (lower_prefix b), (upper_prefix b), ds. split; [apply lower_prefix_in|]. split; [|split; [right; right; split; [destruct b; auto|auto]|reflexivity]].
  apply upper_letters.
Qed.
Lemma source_name_new b ds : Forall (fun c => is_digit c = true) ds -> source_name (lower_prefix b) (upper_prefix b ++ ds) ds.
Proof.
  intros Hd. exists (upper_prefix b). split; auto. split; auto.
  apply upper_letters.
Qed.
End Uni.
