(** More proofs about parses. *)
From Coq Require Import Ascii String.
From Coq Require Import NArith ZArith List Bool Lia.
From Verif Require Import PyStr PyStrFacts M_constants M_value M_tags M_evr M_file Spec_file P_file M_spec_parser Spec_spec_parser P_spec_parser2 P_spec_parser3.
Import ListNotations.
Open Scope nat_scope.

Section Files.
Context {W : Type}.
Context (stat_fault : world W -> str * str -> option exn) (write_outcome : world W -> str * str -> list N -> attempt) (unlink_fault : world W -> str * str -> option exn).
Context (order : list str -> list str).
Notation with_dummy_sources := (with_dummy_sources stat_fault write_outcome unlink_fault order).

Lemma dummy_restored {B} d sources non_empty (body : list (str * str) -> world W -> world W * result B) w :
  sound_files stat_fault write_outcome unlink_fault -> set_order order -> (forall made w, files (fst (body made w)) = files w) ->
  files (fst (with_dummy_sources d sources non_empty body w)) = files w.
Proof. intros S0 O Q. destruct (with_dummy_spec stat_fault write_outcome unlink_fault order S0 d sources non_empty body w O Q) as (made & w1 & _ & _ & -> & _). reflexivity. Qed.
Lemma dummy_seen {B} d sources non_empty (look : list (str * str) -> list ((str * str) * list N) -> B) w :
  sound_files stat_fault write_outcome unlink_fault -> writable write_outcome -> set_order order ->
  exists made fs, with_dummy_sources d sources non_empty (fun made w => (w, Ok (look made (files w)))) w = (w, Ok (look made fs)) /\
    seen d sources non_empty (files w) fs /\
    (forall p, In p made <-> content_of p (files w) = None /\ content_of p fs <> None).
Proof.
  intros S0 Wr O.
  destruct (with_dummy_spec stat_fault write_outcome unlink_fault order S0 d sources non_empty (fun made w => (w, Ok (look made (files w)))) w O (fun _ _ => eq_refl)) as (made & w1 & E1 & C1 & -> & _ & H1 & H2 & H3 & H4).
  exists made, (files w1). cbn [fst snd]. split; [rewrite E1, C1; destruct w; reflexivity|]. split; [apply H3; exact Wr|]. intros p. split.
  - intros I. destruct (H4 p I) as (Dp & Np & C). split; [exact C|]. specialize (H3 Wr (fst p) (snd p)). replace (fst p, snd p) with p in H3 by (destruct p; reflexivity). rewrite C in H3.
    destruct H3 as (X1 & X2 & _).
    assert (D : {names sources (snd p)} + {~ names sources (snd p)}).
    { unfold names. destruct (list_eq_dec N.eq_dec (snd p) []) as [E|E]; [right; intros [X _]; contradiction|].
      destruct (in_dec (list_eq_dec N.eq_dec) (snd p) (map get_filename_from_location sources)) as [Y|Y].
      - left. split; [exact E|]. apply in_map_iff in Y as (s & E' & I'). exists s. auto.
      - right. intros [_ [s [I' E']]]. apply Y. apply in_map_iff. exists s. auto. }
    destruct D as [D|D]; [rewrite X1 by auto; discriminate|rewrite X2; [discriminate|]; tauto].
  - intros [C N]. destruct (content_of p (files w1)) as [b|] eqn:Cp; [|contradiction]. apply (H2 p b C Cp).
Qed.
(** A source that must not be empty, and that the spec file refers to by its URL, has a dummy file with no text in it. *)
Lemma non_empty_by_url {B} d sources non_empty l n (look : list ((str * str) * list N) -> B) w :
  sound_files stat_fault write_outcome unlink_fault -> writable write_outcome -> set_order order ->
  In l sources -> get_filename_from_location l = n -> n <> [] -> In n non_empty -> content_of (d, n) (files w) = None ->
  exists fs, with_dummy_sources d sources non_empty (fun _ w => (w, Ok (look (files w)))) w = (w, Ok (look fs)) /\ content_of (d, n) fs = Some (magic_bytes n).
Proof.
  intros S0 Wr O Il El Nn In' C. destruct (dummy_seen d sources non_empty (fun _ => look) w S0 Wr O) as (made & fs & E & Sn & _). exists fs. split; [exact E|].
  specialize (Sn d n). rewrite C in Sn. apply Sn. split; [reflexivity|]. split; [exact Nn|]. exists l. auto.
Qed.

(** * Faults *)
(** An error when the second source is looked up: the first dummy file stays. *)
Lemma stat_leaves {B} d a b non_empty (body : list (str * str) -> world W -> world W * result B) w e :
  order [a; b] = [a; b] -> let na := get_filename_from_location a in let nb := get_filename_from_location b in na <> [] -> nb <> [] ->
  content_of (d, na) (files w) = None -> stat_fault w (d, na) = None -> write_outcome w (d, na) (magic_bytes na) = Written ->
  let w1 := mk_world (ctx w) (((d, na), magic_bytes na) :: files w) (env w) in
  stat_fault w1 (d, nb) = Some e ->
  with_dummy_sources d [a; b] non_empty body w = (w1, Err e).
Proof.
  intros O na nb Na Nb C Sa Wa w1 Sb. unfold M_spec_parser.with_dummy_sources. rewrite O. cbn [fake]. fold na nb.
  destruct na as [|ca fa] eqn:Ea; [contradiction|]. rewrite Sa, C, Wa. fold w1. destruct nb as [|cb fb]; [contradiction|]. rewrite Sb. reflexivity.
Qed.
(** A file that was written in part stays. *)
Lemma partial_stays d a bytes (w : world W) : order [a] = [a] -> order [] = [] -> let na := get_filename_from_location a in na <> [] ->
  content_of (d, na) (files w) = None -> stat_fault w (d, na) = None -> write_outcome w (d, na) (magic_bytes na) = Refused (Some bytes) ->
  with_dummy_sources d [a] [] (fun _ w => (w, Ok tt)) w = (mk_world (ctx w) (((d, na), bytes) :: files w) (env w), Ok tt).
Proof.
  intros O O' na Na C Sa Wa. unfold M_spec_parser.with_dummy_sources. rewrite O, O'. cbn [fake]. fold na. destruct na as [|ca fa] eqn:Ea; [contradiction|]. rewrite Sa, C, Wa. reflexivity.
Qed.
(** A dummy file that cannot be removed keeps the next one. *)
Lemma unlink_stays {B} d a b (body : list (str * str) -> world W -> world W * result B) w e : order [a; b] = [a; b] -> order [] = [] ->
  let na := get_filename_from_location a in let nb := get_filename_from_location b in na <> [] -> nb <> [] -> na <> nb ->
  content_of (d, na) (files w) = None -> content_of (d, nb) (files w) = None -> (forall w p, stat_fault w p = None) -> writable write_outcome ->
  (forall made w, files (fst (body made w)) = files w) -> (forall w, unlink_fault w (d, na) = Some e) ->
  let r := with_dummy_sources d [a; b] [] body w in
  snd r = Err e /\ content_of (d, na) (files (fst r)) <> None /\ content_of (d, nb) (files (fst r)) <> None.
Proof.
  intros O O' na nb Na Nb Nab Ca Cb St Wr Q Un. cbn zeta. unfold M_spec_parser.with_dummy_sources. rewrite O, O'. cbn [fake]. fold na nb.
  destruct na as [|ca fa] eqn:Ea; [contradiction|]. rewrite St, Ca, Wr. destruct nb as [|cb fb]; [contradiction|]. rewrite St.
  cbn [files]. rewrite content_cons. destruct (path_eqb (d, cb :: fb) (d, ca :: fa)) eqn:E; [apply path_eqb_eq in E; congruence|]. rewrite Cb, Wr. cbn [fake app].
  match goal with |- context [body ?m ?w1] => pose proof (Q m w1) as Qw; destruct (body m w1) as [w2 r] end. cbn [fst files] in Qw. cbn [unlink_all]. rewrite Un. cbn [fst snd].
  split; [reflexivity|]. rewrite Qw, !content_cons, !path_eqb_refl. destruct (path_eqb (d, ca :: fa) (d, cb :: fb)); split; discriminate.
Qed.
Lemma environment_block {B} (body : world W -> world W * result B) w : (forall w, env (fst (body w)) = env w) ->
  exists e, (forall k, get_env k e = if str_eqb k (lit "LC_ALL") then Some (lit "C.UTF-8") else if str_eqb k (lit "LANG") then Some (lit "C.UTF-8") else get_env k (env w)) /\
    let (w', r) := body (mk_world (ctx w) (files w) e) in with_environment body w = (mk_world (ctx w') (files w') (env w), r).
Proof.
  intros Q. exists (set_env LC_ALL UTF8 (set_env LANG UTF8 (env w))). split.
  - intros k. rewrite !get_set_env. reflexivity.
  - rewrite (environment_spec body w Q). destruct (body _) as [w' r]. reflexivity.
Qed.
Lemma environment_both {B} (body : world W -> world W * result B) w u v : get_env (lit "LANG") (env w) = Some u -> get_env (lit "LC_ALL") (env w) = Some v ->
  let w' := fst (with_environment body w) in get_env (lit "LANG") (env w') = Some u /\ get_env (lit "LC_ALL") (env w') = Some v.
Proof. intros Gu Gv. pose proof (environment_values body w u v Gu Gv) as H. destruct (with_environment body w) as [w' r]. destruct H as (H1 & H2 & _). split; [exact H1|exact H2]. Qed.
End Files.
Lemma magic_spec n : length (magic_bytes n) = 13 /\
  (forall x, endswith n (lit ".gz") = true -> firstn 2 (magic_bytes n ++ x) = [31; 139]%N) /\
  (forall x, endswith n (lit ".xz") = true -> firstn 6 (magic_bytes n ++ x) = [253; 55; 122; 88; 90; 0]%N) /\
  (forall x, endswith n (lit ".bz2") = true -> firstn 3 (magic_bytes n ++ x) = [66; 90; 104]%N) /\
  ((forall e, In e [lit ".bz2"; lit ".zip"; lit ".xz"; lit ".zst"; lit ".lz"; lit ".lrz"; lit ".gz"; lit ".7z"] -> endswith n e = false) -> magic_bytes n = repeat 0%N 13).
Proof.
  unfold magic_bytes, SIGNATURES. cbn [List.find fst].
  assert (X : forall a b : str, endswith n a = true -> endswith n b = true -> (exists k, skipn k a = b) \/ exists k, skipn k b = a).
  { intros a b Ha Hb. apply endswith_iff in Ha as [p ->]. apply endswith_iff in Hb as [q E]. destruct (le_ge_dec (length p) (length q)) as [L|L].
    - left. exists (length q - length p). apply (f_equal (skipn (length q))) in E. rewrite skipn_app, skipn_all2, skipn_app, skipn_all, Nat.sub_diag in E by exact L. exact E.
    - right. exists (length p - length q). symmetry in E. apply (f_equal (skipn (length p))) in E. rewrite skipn_app, skipn_all2, skipn_app, skipn_all, Nat.sub_diag in E by exact L. exact E. }
  assert (Y : forall a b, endswith n a = true -> (forall k, k <= length a -> skipn k a <> b) -> (forall k, k <= length b -> skipn k b <> a) -> length a <> 0 -> length b <> 0 -> endswith n b = false).
  { intros a b Ha N1 N2 La Lb. apply not_true_iff_false. intros Hb. destruct (X a b Ha Hb) as [[k E]|[k E]].
    - apply (N1 k); [|exact E]. destruct (le_gt_dec k (length a)); [assumption|]. rewrite skipn_all2 in E by lia. subst b. cbn in Lb. lia.
    - apply (N2 k); [|exact E]. destruct (le_gt_dec k (length b)); [assumption|]. rewrite skipn_all2 in E by lia. subst a. cbn in La. lia. }
  assert (Z : forall a b, endswith n a = true -> forallb (fun k => negb (str_eqb (skipn k a) b)) (seq 0 (S (length a))) && forallb (fun k => negb (str_eqb (skipn k b) a)) (seq 0 (S (length b))) && negb (Nat.eqb (length a) 0) && negb (Nat.eqb (length b) 0) = true -> endswith n b = false).
  { intros a b Ha C. rewrite !andb_true_iff, !negb_true_iff, !Nat.eqb_neq in C. destruct C as [[[C1 C2] La] Lb]. rewrite forallb_forall in C1, C2. apply (Y a b); auto.
    - intros k L E. specialize (C1 k). rewrite E, str_eqb_refl in C1. discriminate C1. apply in_seq. lia.
    - intros k L E. specialize (C2 k). rewrite E, str_eqb_refl in C2. discriminate C2. apply in_seq. lia. }
  split; [|split; [|split; [|split]]].
  - repeat (match goal with |- context [if endswith n ?x then _ else _] => destruct (endswith n x); [reflexivity|] end). reflexivity.
  - intros x H. repeat match goal with |- context [if endswith n ?y then _ else _] => first [rewrite H|rewrite (Z (lit ".gz") y H eq_refl)] end. reflexivity.
  - intros x H. repeat match goal with |- context [if endswith n ?y then _ else _] => first [rewrite H|rewrite (Z (lit ".xz") y H eq_refl)] end. reflexivity.
  - intros x H. rewrite H. reflexivity.
  - intros H. repeat match goal with |- context [if endswith n ?y then _ else _] => rewrite (H y) by (cbn; auto 12) end. reflexivity.
Qed.

Section Parser.
Context {U : Unicode} {W A : Type}.
Context (stat_fault : world W -> str * str -> option exn) (write_outcome : world W -> str * str -> list N -> attempt) (unlink_fault : world W -> str * str -> option exn).
Context (order : list str -> list str).
Context (rpm_spec : bool -> str -> world W -> world W * result A) (spec_sources : A -> list str).
Context (temp_fault : world W -> option exn).
Context (set_context : list (str * option str) -> str -> W -> W * result unit).
Context (expand : str -> W -> W * result str).
Context (locate : str -> world W -> str -> result (option str)).
Notation get_rpm_spec := (get_rpm_spec rpm_spec temp_fault set_context).
Notation first_parse := (first_parse stat_fault write_outcome unlink_fault order rpm_spec spec_sources temp_fault set_context expand locate).
Notation do_parse := (do_parse stat_fault write_outcome unlink_fault order rpm_spec spec_sources temp_fault set_context expand locate).

Lemma run_repeatable : sound_files stat_fault write_outcome unlink_fault -> set_order order -> (forall f c, quiet (rpm_spec f c)) ->
  (forall m d x y, set_context m d x = set_context m d y) ->
  repeatable (run_of stat_fault write_outcome unlink_fault order rpm_spec spec_sources temp_fault set_context expand locate) (fun g g' => files g = files g' /\ env g = env g').
Proof.
  intros S0 O Q I. constructor.
  - split; [auto|]. split; [intros a b [-> ->]; auto|]. intros a b c [-> ->] [-> ->]. auto.
  - intros k g g' [F E]. unfold run_of. rewrite (parse_context stat_fault write_outcome unlink_fault order rpm_spec spec_sources temp_fault set_context expand locate _ _ _ _ g g' I F E). reflexivity.
  - intros k g. unfold run_of. match goal with |- context [do_parse ?m ?d ?c ?f g] =>
      pose proof (parse_quiet stat_fault write_outcome unlink_fault order rpm_spec spec_sources temp_fault set_context expand locate S0 O Q m d c f g) as [F E]; destruct (do_parse m d c f g) as [w r] end. exact (conj F E).
  - intros k g. unfold run_of. destruct (do_parse _ _ _ _ g). discriminate.
Qed.

(** * Outcomes *)
Lemma tainted_iff m d c f w w' spec t : do_parse m d c f w = (w', Ok (spec, t)) -> t = true <-> f = true /\ snd (get_rpm_spec m d c true w) = Err RPMException.
Proof.
  unfold M_spec_parser.do_parse, M_spec_parser.first_parse. intros H.
  assert (T : forall x src ne (b : bool), with_dummy_sources stat_fault write_outcome unlink_fault order d src ne (fun _ w => match get_rpm_spec m d c false w with (w, Ok spec) => (w, Ok (spec, b)) | (w, Err e) => (w, Err e) end) x = (w', Ok (spec, t)) -> t = b).
  { intros x src ne b X. unfold with_dummy_sources in X. destruct (fake _ _ _ _ _ _ x) as [[x1 m1] [[]|e]]; [|discriminate]. destruct (fake _ _ _ _ _ _ x1) as [[x2 m2] [[]|e]]; [|discriminate].
    destruct (get_rpm_spec m d c false x2) as [x3 [sp|e]]; destruct (unlink_all _ _ x3) as [x4 [[]|e']]; congruence. }
  destruct (get_rpm_spec m d c true w) as [w1 [sp|e]] eqn:G.
  - apply T in H. cbn [snd]. split; [congruence|intros [_ X]; discriminate].
  - cbn [snd]. destruct e; try discriminate. destruct f; [|discriminate]. cbn [negb] in H.
    destruct (collect_included _ _ _ _ w1) as [w2 [inc|e]]; [|discriminate]. destruct (collect_loaded _ _ _ _ w2) as [w3 [loa|e]]; [|discriminate].
    destruct (collect_referenced _ _ _ _ w3) as [w4 [ne|e]]; [|discriminate].
    assert (V : forall src made_w, with_dummy_sources stat_fault write_outcome unlink_fault order d src ne (fun made w => match made with [] => (w, Err RPMException) | _ => match get_rpm_spec m d c true w with
        | (w, Ok spec) => (w, Ok (filter (fun s => negb (existsb (str_eqb s) ne)) (spec_sources spec), ne, true)) | (w, Err e) => (w, Err e) end end) w4 = made_w ->
        forall x s n b, made_w = (x, Ok (s, n, b)) -> b = true).
    { intros src mw X x s n b Y. subst mw. unfold with_dummy_sources in Y. destruct (fake _ _ _ _ _ _ w4) as [[x1 m1] [[]|e]]; [|discriminate]. destruct (fake _ _ _ _ _ _ x1) as [[x2 m2] [[]|e]]; [|discriminate].
      destruct m2; [destruct (unlink_all _ _ x2) as [x4 [[]|e']]; discriminate|].
      destruct (get_rpm_spec m d c true x2) as [x3 [sp|e]]; destruct (unlink_all _ _ x3) as [x4 [[]|e']]; congruence. }
    split; [auto|]. intros _.
    destruct (inc ++ loa) as [|s0 ss]; [destruct ne; [discriminate|]|]; (match type of H with context [@with_dummy_sources ?a1 ?a2 ?a3 ?a4 ?a5 (list str * list str * bool)%type ?a6 ?a7 ?a8 ?a9 ?a10] => destruct (@with_dummy_sources a1 a2 a3 a4 a5 (list str * list str * bool)%type a6 a7 a8 a9 a10) as [w5 [[[sr n] b]|e]] eqn:Y end; [|discriminate]; apply T in H; subst t; eapply V; [reflexivity|exact Y]).
Qed.
Lemma force_irrelevant m d c w : snd (get_rpm_spec m d c true w) <> Err RPMException -> do_parse m d c true w = do_parse m d c false w.
Proof.
  intros N. unfold M_spec_parser.do_parse, M_spec_parser.first_parse. destruct (get_rpm_spec m d c true w) as [w1 [sp|e]]; [reflexivity|]. destruct e; try reflexivity. contradiction N. reflexivity.
Qed.
(** Errors *)
Lemma get_errors m d c f w : (forall m d x, snd (set_context m d x) = Ok tt) -> (forall w, temp_fault w = None) -> (forall f c w e, snd (rpm_spec f c w) = Err e -> e = ValueError) ->
  (forall f c, quiet (rpm_spec f c)) -> encodable c = true -> forall e, snd (get_rpm_spec m d c f w) = Err e -> e = RPMException.
Proof.
  intros SC TF RE Q EN e. unfold M_spec_parser.get_rpm_spec. specialize (SC m d (ctx w)). destruct (set_context m d (ctx w)) as [x [[]|?]]; [|discriminate]. rewrite TF, EN.
  rewrite (environment_spec (rpm_spec f c) (with_ctx x w)) by (intros; apply Q). match goal with |- context [snd (rpm_spec f c ?w1)] => pose proof (RE f c w1) as R; destruct (rpm_spec f c w1) as [w2 [a|y]] end; cbn [snd fst] in *; [discriminate|].
  rewrite (R y eq_refl). cbn. congruence.
Qed.
Lemma parse_errors m d c w e : sound_files stat_fault write_outcome unlink_fault -> set_order order -> (forall m d x, snd (set_context m d x) = Ok tt) -> (forall w, temp_fault w = None) ->
  (forall f c w e, snd (rpm_spec f c w) = Err e -> e = ValueError) -> (forall f c, quiet (rpm_spec f c)) -> encodable c = true ->
  snd (do_parse m d c false w) = Err e -> e = RPMException.
Proof.
  intros S0 O SC TF RE Q EN. unfold M_spec_parser.do_parse, M_spec_parser.first_parse. pose proof (get_errors m d c true w SC TF RE Q EN) as G1.
  destruct (get_rpm_spec m d c true w) as [w1 [sp|x]]; cbn [snd] in *.
  2: { rewrite (G1 x eq_refl). cbn. congruence. }
  match goal with |- context [with_dummy_sources _ _ _ _ _ _ _ ?b w1] => set (body := b) end.
  assert (QB : forall made w, files (fst (body made w)) = files w).
  { intros made w0. unfold body. pose proof (get_quiet rpm_spec temp_fault set_context Q m d c false w0) as [F _]. destruct (get_rpm_spec m d c false w0) as [w2 [a|y]]; exact F. }
  destruct (with_dummy_spec stat_fault write_outcome unlink_fault order S0 d (spec_sources sp) [] body w1 O QB) as (made & w2 & _ & _ & -> & _). cbn [snd]. unfold body.
  pose proof (get_errors m d c false w2 SC TF RE Q EN) as G2. destruct (get_rpm_spec m d c false w2) as [w3 [a|y]]; cbn [snd] in *; [discriminate|]. intros X. injection X as <-. apply G2. reflexivity.
Qed.
Lemma parse_errors_plain m d c w e : sound_files stat_fault write_outcome unlink_fault -> set_order order -> (forall m d x, snd (set_context m d x) = Ok tt) -> (forall w, temp_fault w = None) ->
  (forall f c w e, snd (rpm_spec f c w) = Err e -> e = ValueError) -> (forall f c, quiet (rpm_spec f c)) -> (forall x, In x c -> ~ (55296 <= x <= 57343)%N) ->
  snd (do_parse m d c false w) = Err e -> e = RPMException.
Proof.
  intros S0 O SC TF RE Q EN. apply parse_errors; auto. unfold encodable. apply forallb_forall. intros x I. specialize (EN x I). apply negb_true_iff, andb_false_iff. rewrite !N.leb_gt. lia.
Qed.
Lemma undecodable_fails m d c f w : (forall m d x, snd (set_context m d x) = Ok tt) -> (forall w, temp_fault w = None) -> encodable c = false ->
  snd (do_parse m d c f w) = Err ValueError.
Proof.
  intros SC TF EN. unfold M_spec_parser.do_parse, M_spec_parser.first_parse, M_spec_parser.get_rpm_spec. specialize (SC m d (ctx w)). destruct (set_context m d (ctx w)) as [x [[]|?]]; [|discriminate].
  rewrite TF, EN. reflexivity.
Qed.
Lemma undecodable_file b s m d f w : (forall m d x, snd (set_context m d x) = Ok tt) -> (forall w, temp_fault w = None) ->
  plain_breaks (decode b) -> bytes b -> b <> [] -> (exists c, In c (decode b) /\ (56448 <= c)%N /\ (c <= 56575)%N) -> read_lines b = Ok s ->
  snd (do_parse m d (spec_str s) f w) = Err ValueError.
Proof.
  intros SC TF P B Nb (c & Ic & L1 & L2) R. destruct (unchanged b B Nb P) as (s' & R' & E & _). rewrite R in R'. injection R' as <-. rewrite E. apply undecodable_fails; auto.
  unfold encodable. apply not_true_iff_false. intros X. rewrite forallb_forall in X. specialize (X c Ic). apply negb_true_iff in X. apply andb_false_iff in X. rewrite !N.leb_gt in X. lia.
Qed.
(** With [force_parse], other errors appear. *)
Lemma forced_unterminated m d c w w1 e : get_rpm_spec m d c true w = (w1, Err RPMException) -> include_args None (splitlines c) = ([], Ok tt) -> M_value.parse c = Err e ->
  do_parse m d c true w = (w1, Err e).
Proof.
  intros G I P. unfold M_spec_parser.do_parse, M_spec_parser.first_parse, collect_included, collect_loaded. rewrite G, I. cbn [negb add_sources]. rewrite P. reflexivity.
Qed.
Lemma forced_missing_directory m d c w w1 a args r x s e : get_rpm_spec m d c true w = (w1, Err RPMException) -> include_args None (splitlines c) = (a :: args, r) ->
  expand a (ctx w1) = (x, Ok s) -> locate d (with_ctx x w1) s = Err e -> do_parse m d c true w = (with_ctx x w1, Err e).
Proof.
  intros G I X L. unfold M_spec_parser.do_parse, M_spec_parser.first_parse, collect_included. rewrite G, I. cbn [negb add_sources]. unfold add_source. rewrite X, L. reflexivity.
Qed.
End Parser.

(** * Exceptions *)
Lemma strip_prefix_app p s : strip_prefix p (p ++ s) = Some s.
Proof. induction p as [|c p IH]; [reflexivity|]. cbn. rewrite N.eqb_refl. exact IH. Qed.
Lemma before_clean p s : p <> [] -> is_substring p s = false -> before p s = s.
Proof.
  intros Np. induction s as [|c s IH]; [reflexivity|]. cbn [before is_substring]. intros H. apply orb_false_iff in H. destruct H as [H1 H2]. rewrite H1. f_equal. auto.
Qed.
Lemma before_found p s t : p <> [] -> (forall a b, s = a ++ b -> a <> [] -> forall x, b ++ p ++ t <> p ++ x \/ b = []) -> (forall x, s ++ p ++ t <> p ++ x \/ s = []) -> before p (s ++ p ++ t) = s.
Proof.
  intros Np. revert t. induction s as [|c s IH]; intros t H H0.
  - cbn [app]. destruct p as [|c p]; [contradiction|]. cbn [app before]. replace (startswith (c :: p ++ t) (c :: p)) with true; [reflexivity|]. symmetry. apply startswith_iff. exists t. reflexivity.
  - cbn [app before]. destruct (startswith (c :: s ++ p ++ t) p) eqn:E.
    + apply startswith_iff in E as [x E]. destruct (H0 x) as [X|X]; [exfalso; apply X; exact E|discriminate].
    + f_equal. apply IH.
      * intros a b Eab Na x. apply (H (c :: a) b); [rewrite Eab; reflexivity|discriminate].
      * intros x. apply (H [c] s); [reflexivity|discriminate].
Qed.
Lemma exception_skip ls r : Forall (fun l => startswith (rstrip l) (lit "error:") = false) ls -> exception_str (ls ++ r) = exception_str r.
Proof. intros F. induction F as [|x ls Hx F IH]; [reflexivity|]. cbn [app exception_str]. rewrite Hx. exact IH. Qed.
Lemma exception_message ls l rest msg : Forall (fun l => startswith (rstrip l) (lit "error:") = false) ls -> rstrip l = lit "error: " ++ msg -> is_substring (lit "error: ") msg = false ->
  rpm_exception_str (ls ++ l :: rest) = Ok msg.
Proof.
  intros F E NS. unfold rpm_exception_str. rewrite (exception_skip ls _ F). cbn [exception_str].
  rewrite E. replace (startswith (lit "error: " ++ msg) (lit "error:")) with true by (symmetry; apply startswith_iff; exists (SPC :: msg); reflexivity).
    replace (after (lit "error: ") (lit "error: " ++ msg)) with (Some msg) by reflexivity. f_equal. apply before_clean; [discriminate|exact NS].
Qed.
Lemma exception_none ls : Forall (fun l => startswith (rstrip l) (lit "error:") = false) ls -> rpm_exception_str ls = Ok (LF :: concat ls).
Proof. intros F. unfold rpm_exception_str. replace (exception_str ls) with (@None (result str)); [reflexivity|]. induction F as [|x ls Hx F IH]; [reflexivity|]. cbn [exception_str]. rewrite Hx. exact IH. Qed.
Lemma exception_cut ls l rest a b : Forall (fun l => startswith (rstrip l) (lit "error:") = false) ls -> rstrip l = lit "error: " ++ a ++ lit "error: " ++ b -> ~ In COLON a ->
  rpm_exception_str (ls ++ l :: rest) = Ok a.
Proof.
  intros F E NS. unfold rpm_exception_str. rewrite (exception_skip ls _ F). cbn [exception_str].
  rewrite E. replace (startswith (lit "error: " ++ a ++ lit "error: " ++ b) (lit "error:")) with true by (symmetry; apply startswith_iff; exists (SPC :: a ++ lit "error: " ++ b); reflexivity).
    replace (after (lit "error: ") (lit "error: " ++ a ++ lit "error: " ++ b)) with (Some (a ++ lit "error: " ++ b)) by reflexivity. f_equal. apply before_found; [discriminate| |].
    - intros u v Ev _ x. destruct v as [|c v]; [right; reflexivity|]. left. intros X. apply NS. rewrite Ev. apply in_or_app. right.
      assert (L : (length (c :: v) <= 5 \/ In COLON (c :: v))).
      { destruct (le_gt_dec (length (c :: v)) 5); [left; assumption|right]. apply (f_equal (fun z => nth 5 z 0%N)) in X. rewrite app_nth1 in X by lia. change (nth 5 (lit "error: " ++ x) 0%N) with COLON in X. rewrite <- X. apply nth_In. lia. }
      destruct L as [L|L]; [|exact L]. exfalso. cbn in L.
      repeat (destruct v as [|? v]; [cbn in X; repeat (injection X as ? X; try discriminate); discriminate|cbn in L]). lia.
    - intros x. destruct a as [|c a]; [right; reflexivity|]. left. intros X. apply NS.
      assert (L : (length (c :: a) <= 5 \/ In COLON (c :: a))).
      { destruct (le_gt_dec (length (c :: a)) 5); [left; assumption|right]. apply (f_equal (fun z => nth 5 z 0%N)) in X. rewrite app_nth1 in X by lia. change (nth 5 (lit "error: " ++ x) 0%N) with COLON in X. rewrite <- X. apply nth_In. lia. }
      destruct L as [L|L]; [|exact L]. exfalso. cbn in L.
      repeat (destruct a as [|? a]; [cbn in X; repeat (injection X as ? X; try discriminate); discriminate|cbn in L]). lia.
Qed.
Lemma exception_index ls l rest : Forall (fun l => startswith (rstrip l) (lit "error:") = false) ls -> rstrip l = lit "error:" -> rpm_exception_str (ls ++ l :: rest) = Err IndexError.
Proof.
  intros F E. unfold rpm_exception_str. rewrite (exception_skip ls _ F). cbn [exception_str]. rewrite E. reflexivity.
Qed.
