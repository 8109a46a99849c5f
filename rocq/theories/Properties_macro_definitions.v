(** Properties C03-C07 and C17 (macro definitions).  Specification: Spec_macro_definitions.v. *)
From Coq Require Import Ascii String.
From Coq Require Import NArith ZArith List Bool Lia.
From Verif Require Import PyStr M_value M_macro_definitions Spec_macro_definitions
  P_macro_definitions P_macro_definitions2 P_macro_definitions3.
Import ListNotations.
Open Scope N_scope.

(** C03, plain lines and lines tagged with validity flags. *)
Theorem C03_round_trip :
  forall (U : Unicode) (lines : list str), clean lines -> get_raw_data (parse_plain lines) = lines.
Proof. exact @parse_plain_raw. Qed.
Print Assumptions C03_round_trip.
Theorem C03_round_trip_with_flags :
  forall (U : Unicode) (lines : list (str * bool)), clean (map fst lines) ->
  get_raw_data (parse_tagged lines) = map fst lines.
Proof. exact @parse_tagged_raw. Qed.
Print Assumptions C03_round_trip_with_flags.

(** Findings: each exclusion in [clean] is needed. *)
Theorem C165_white_space_before_continuation_refuted :
  forall U : Unicode, exists lines, Forall (fun l => ~ In LF l) lines /\ get_raw_data (parse_plain lines) <> lines.
Proof.
  intros U. exists (map lit ["%global x %{expand: "; "y}"]%string). split.
  - repeat constructor; intros Hi; repeat (destruct Hi as [Hi|Hi]; [discriminate|]); destruct Hi.
  - vm_compute. discriminate.
Qed.
Print Assumptions C165_white_space_before_continuation_refuted.
Theorem C165_dnl_hash_refuted :
  forall U : Unicode, get_raw_data (parse_plain [lit "%dnl #%%global foo bar"]) = [lit " #%%global foo bar"].
Proof. intros U. vm_compute. reflexivity. Qed.
Print Assumptions C165_dnl_hash_refuted.
Theorem C165_unterminated_refuted :
  forall U : Unicode, exists lines, Forall (fun l => ~ In LF l) lines /\
  length (get_raw_data (parse_plain lines)) <> length lines.
Proof.
  intros U. exists (map lit ["%global x %{expand:"; "y "; ""]%string). split.
  - repeat constructor; intros Hi; repeat (destruct Hi as [Hi|Hi]; [discriminate|]); destruct Hi.
  - vm_compute. discriminate.
Qed.
Print Assumptions C165_unterminated_refuted.

Example C03_example :
  let U := unicode_none in
  let lines := map lit ["Name: x"; "%global foo bar  "; "%define x(a:) %{expand:\"; "  foo "; "}"; ""; "#global x y";
                        "  %dnl %global x y z"; "#foo %%global a b"]%string in
  length (md_data (parse_plain lines)) = 5%nat /\ get_raw_data (parse_plain lines) = lines /\
  clean (map lit ["a "; "%global foo %{expand:"; " b}"]%string).
Proof.
  cbv zeta. split; [vm_compute; reflexivity|]. split; [vm_compute; reflexivity|].
  split.
  - repeat apply Forall_cons; try apply Forall_nil; (split; [|split]).
    1,4,7: intros Hi; repeat (destruct Hi as [Hi|Hi]; [discriminate|]); destruct Hi.
    1,3,5: intros (w & x & k & y & Bw & Hk & Hx & E); apply (f_equal (existsb (N.eqb HASH))) in E;
           rewrite !existsb_app in E; assert (Q : existsb (N.eqb HASH) x = true) by (apply existsb_exists; exists HASH; auto);
           rewrite Q in E; rewrite !orb_true_r in E || idtac; cbn in E; rewrite ?orb_true_r in E; discriminate.
    + intros _ (a & k & b & Hk & E). exfalso.
      apply (f_equal (@length N)) in E. rewrite !app_length in E. destruct Hk as [->| ->]; cbn [length lit list_ascii_of_string map] in E; lia.
    + intros (a & c & E & Sc). exfalso. change (lit "%global foo %{expand:") with (lit "%global foo %{expand" ++ [COLON]) in E.
      apply app_inj_tail in E as [_ <-]. discriminate.
    + intros (a & c & E & Sc). exfalso. change (lit " b}") with (lit " b" ++ [RBRACE]) in E.
      apply app_inj_tail in E as [_ <-]. discriminate.
  - intros (a & l & E & _). apply (f_equal (fun z => last z [0])) in E.
    change (a ++ [l; []]) with (a ++ ([l] ++ [[]])) in E. rewrite app_assoc, last_last in E. discriminate.
Qed.

(** C04: without an equal definition before it, the reported position splits the text
    exactly in front of the definition's own lines. *)
Theorem C04_position_is_line_number :
  forall (m : mdefs) (a : list mdef) (d : mdef) (b : list mdef),
  md_data m = a ++ d :: b -> (forall x, In x a -> ~ same_def x d) ->
  exists p, get_position d m = Ok p /\ firstn p (get_raw_data m) = flat_map mdef_raw a ++ d_preceding d /\
    skipn p (get_raw_data m) = own_lines d ++ flat_map mdef_raw b ++ md_remainder m.
Proof. exact position_exact. Qed.
Print Assumptions C04_position_is_line_number.
Theorem C166_duplicate_definition_refuted :
  forall U : Unicode, exists lines m a d b, m = parse_plain lines /\ clean lines /\ md_data m = a ++ d :: b /\
  exists p, get_position d m = Ok p /\ p <> length (flat_map mdef_raw a ++ d_preceding d).
Proof.
  intros U. exists (map lit ["%global x 1"; "%global x 1"]%string).
  set (d := mk_mdef (lit "x") (lit "1") true false DNL ([], lit " ", lit " ", []) [] true []).
  exists (mk_mdefs [d; d] []), [d], d, []. split; [vm_compute; reflexivity|]. split.
  - split.
    + assert (C : clean_line (lit "%global x 1")); [|repeat constructor; apply C].
      split; [|split].
      * intros Hi; repeat (destruct Hi as [Hi|Hi]; [discriminate|]); destruct Hi.
      * intros (w & x & k & y & Bw & Hk & Hx & E). apply (f_equal (existsb (N.eqb HASH))) in E.
        rewrite !existsb_app in E. assert (Q : existsb (N.eqb HASH) x = true) by (apply existsb_exists; exists HASH; auto).
        rewrite Q in E. cbn in E. rewrite ?orb_true_r in E. discriminate.
      * intros (a & c & E & Sc). exfalso. change (lit "%global x 1") with (lit "%global x " ++ lit "1") in E.
        apply app_inj_tail in E as [_ <-]. discriminate.
    + intros (a & l & E & _). apply (f_equal (fun z => last z [0])) in E.
      change (a ++ [l; []]) with (a ++ ([l] ++ [[]])) in E. rewrite app_assoc, last_last in E. discriminate.
  - split; [reflexivity|]. exists 0%nat. split; [reflexivity|]. cbn. discriminate.
Qed.
Print Assumptions C166_duplicate_definition_refuted.
Example C04_example :
  let m := parse_plain (U:=unicode_none) (map lit ["%global x 1"; ""; "%global y %{expand:"; "a}"; "%define z 2"]%string) in
  exists d, nth_error (md_data m) 2 = Some d /\ get_position d m = Ok 4%nat /\ nth_error (get_raw_data m) 4 = Some (lit "%define z 2").
Proof. eexists. split; [vm_compute; reflexivity|]. split; vm_compute; reflexivity. Qed.

(** C05: [del m[k]] removes exactly the lines of definition [k]. *)
Theorem C05_delete_removes_own_lines :
  forall (m : mdefs) (k : nat) (d : mdef), nth_error (md_data m) k = Some d ->
  exists m' x y, delete m (Z.of_nat k) = Ok m' /\
    x = flat_map mdef_raw (firstn k (md_data m)) ++ d_preceding d /\
    get_raw_data m = x ++ own_lines d ++ y /\ get_raw_data m' = x ++ y /\
    map (fun e => own_lines e) (md_data m') = map (fun e => own_lines e) (remove_at k (md_data m)).
Proof. exact delete_lines. Qed.
Print Assumptions C05_delete_removes_own_lines.

(** C05: deleting a slice removes exactly the lines of its definitions. *)
Theorem C05_delete_slice :
  forall (is : list nat) (m : mdefs), decreasing is -> Forall (fun i => (i < length (md_data m))%nat) is ->
  exists m', delete_all m is = Ok m' /\
    get_raw_data m' = lines_keeping (fun i => negb (existsb (Nat.eqb i) is)) 0 (md_data m) ++ md_remainder m /\
    length (md_data m') = (length (md_data m) - length is)%nat.
Proof. exact delete_all_lines. Qed.
Print Assumptions C05_delete_slice.
Example C05_example :
  let m := parse_plain (U:=unicode_none) (map lit ["a"; "%global x 1"; "b"; "%global y 2"; "c"; "%define z 2"; "d"]%string) in
  exists m', delete_all m [2; 0]%nat = Ok m' /\ get_raw_data m' = map lit ["a"; "b"; "%global y 2"; "c"; "d"]%string /\
  decreasing [2; 0]%nat /\ length (md_data m) = 3%nat.
Proof. eexists. split; [vm_compute; reflexivity|]. split; [vm_compute; reflexivity|]. repeat constructor. Qed.

(** Findings: negative indices and deletion by name. *)
Theorem C167_negative_index_refuted :
  forall U : Unicode, exists lines, let m := parse_plain lines in
  length (md_data m) = 1%nat /\ delete m (-1) = Err IndexError.
Proof. intros U. exists [lit "%global x 1"]. split; vm_compute; reflexivity. Qed.
Print Assumptions C167_negative_index_refuted.
Theorem C167_negative_index_moves_lines_refuted :
  forall U : Unicode, exists m', delete (parse_plain (map lit ["%global x 1"; "b"; "%global y 2"]%string)) (-1) = Ok m' /\
  get_raw_data m' = map lit ["b"; "%global x 1"]%string.
Proof. intros U. eexists. split; vm_compute; reflexivity. Qed.
Print Assumptions C167_negative_index_moves_lines_refuted.
Theorem C167_delete_by_name_loses_lines_refuted :
  forall U : Unicode, exists m', delattr (parse_plain (map lit ["%if 1"; "%global y 2"; "%endif"]%string)) (lit "y") = Some m' /\
  get_raw_data m' = [lit "%endif"].
Proof. intros U. eexists. split; vm_compute; reflexivity. Qed.
Print Assumptions C167_delete_by_name_loses_lines_refuted.

(** C06 *)
Theorem C06_body_change_is_local :
  forall (m : mdefs) (k : nat) (d : mdef) (b : str), nth_error (md_data m) k = Some d ->
  let m' := mk_mdefs (update_at k (with_body b) (md_data m)) (md_remainder m) in
  let x := flat_map mdef_raw (firstn k (md_data m)) ++ d_preceding d in
  exists y, get_raw_data m = x ++ own_lines d ++ y /\ get_raw_data m' = x ++ own_lines (with_body b d) ++ y.
Proof. exact set_body_lines. Qed.
Print Assumptions C06_body_change_is_local.
(** C06: assignment by name changes the definition that lookup returns. *)
Theorem C06_assignment_by_name :
  forall (m : mdefs) (name b : str) (m' : mdefs), setattr m name b = Some m' ->
  exists k d x y, find m name = Ok k /\ nth_error (md_data m) k = Some d /\ d_name d = name /\
    get_raw_data m = x ++ own_lines d ++ y /\ get_raw_data m' = x ++ own_lines (with_body b d) ++ y.
Proof. exact setattr_lines. Qed.
Print Assumptions C06_assignment_by_name.
(** C06: the changed line of a single-line definition. *)
Theorem C06_single_line :
  forall (d : mdef) (b : str), ~ In LF (b ++ d_ws3 d) -> own_lines (with_body b d) = [d_head d ++ b ++ d_ws3 d].
Proof. exact own_single. Qed.
Print Assumptions C06_single_line.
Example C06_example :
  let m := parse_plain (U:=unicode_none) (map lit ["a"; " %global x  1 "; "b"; "%global x 2"]%string) in
  exists m', setattr m (lit "x") (lit "33") = Some m' /\ get_raw_data m' = map lit ["a"; " %global x  33 "; "b"; "%global x 2"]%string.
Proof. eexists. split; vm_compute; reflexivity. Qed.

(** C07: a commented-out definition is read back as that same definition, ... *)
Theorem C07_commented_out_with_dnl :
  forall (U : Unicode) (d : mdef) (following : list str),
  ordinary d -> d_commented_out d = true -> d_style d = DNL -> ~ In LF (d_prefix d) ->
  d_preceding d = [] -> d_valid d = true -> at_head d (mdef_str d :: following).
Proof. exact @comment_dnl. Qed.
Print Assumptions C07_commented_out_with_dnl.
Theorem C07_commented_out_with_hash :
  forall (U : Unicode) (d : mdef) (following : list str),
  ordinary d -> d_commented_out d = true -> d_style d = HASHED -> d_prefix d = [] ->
  (forall a k b, keyword k -> d_name d ++ snd (fst (d_ws d)) ++ d_body d <> a ++ PCT :: k ++ b) ->
  d_preceding d = [] -> d_valid d = true -> at_head d (mdef_str d :: following).
Proof. exact @comment_hash. Qed.
Print Assumptions C07_commented_out_with_hash.
(** ... and an active one as an active one with the same name, body and white space. *)
Theorem C07_active :
  forall (U : Unicode) (d : mdef) (following : list str),
  ordinary d -> d_commented_out d = false -> blank (d_prefix d) -> body_open (d_body d) = false ->
  d_preceding d = [] -> d_valid d = true ->
  let '(w0, w1, w2, w3) := d_ws d in
  at_head (mk_mdef (d_name d) (d_body d) (d_is_global d) false DNL (w0 ++ d_prefix d, w1, w2, w3) [] true [])
          (mdef_str d :: following).
Proof. exact @uncomment. Qed.
Print Assumptions C07_active.
Example C07_example :
  let U := unicode_none in
  let d := mk_mdef (lit "foo(a:)") (lit "bar %{baz}") true false DNL ([], lit " ", lit "  ", lit " ") [] true [] in
  ordinary d /\ body_open (d_body d) = false /\
  mdef_str (with_commented_out true d) = lit "%dnl%global foo(a:)  bar %{baz} ".
Proof.
  cbv zeta. split; [|split; vm_compute; reflexivity]. unfold ordinary. cbn [d_ws].
  repeat split; try discriminate; try (repeat constructor); try (intros Hi; vm_compute in Hi; repeat (destruct Hi as [Hi|Hi]; [discriminate|]); now destruct Hi).
  - exists (lit "foo"), (lit "(a:)"). repeat split; try discriminate. right. exists (lit "a:"). repeat split;
      intros Hi; vm_compute in Hi; repeat (destruct Hi as [Hi|Hi]; [discriminate|]); now destruct Hi.
  - exists 98, (lit "ar %{baz}"). split; reflexivity.
  - exists (lit "bar %{baz"), RBRACE. repeat split. discriminate.
Qed.

(** C17: lookup by name prefers the first valid definition, then the first. *)
Theorem C17_macro_definition_lookup :
  forall (m : mdefs) (name : str),
  match find m name with
  | Ok k => exists d, nth_error (md_data m) k = Some d /\ d_name d = name /\
      ((d_valid d = true /\ forall j d', (j < k)%nat -> nth_error (md_data m) j = Some d' -> d_name d' = name -> d_valid d' = false) \/
       ((forall d', In d' (md_data m) -> d_name d' = name -> d_valid d' = false) /\
        forall j d', (j < k)%nat -> nth_error (md_data m) j = Some d' -> d_name d' <> name))
  | Err e => e = ValueError /\ forall d, In d (md_data m) -> d_name d <> name
  end.
Proof. exact find_spec. Qed.
Print Assumptions C17_macro_definition_lookup.
Theorem C17_macro_definition_lookup_at_position :
  forall (m : mdefs) (name : str) (position : nat),
  match find_at m name position with
  | Ok k => exists d, nth_error (md_data m) k = Some d /\ d_name d = name /\ get_position d m = Ok position
  | Err e => e = ValueError /\ forall d, In d (md_data m) -> d_name d = name -> get_position d m <> Ok position
  end.
Proof. exact find_at_spec. Qed.
Print Assumptions C17_macro_definition_lookup_at_position.
Example C17_macro_definition_example :
  find (parse_tagged (U:=unicode_none) [(lit "%global x 1", false); (lit "%global y 1", true); (lit "%global x 2", true)]) (lit "x") = Ok 2%nat.
Proof. vm_compute. reflexivity. Qed.
