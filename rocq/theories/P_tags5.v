(** Proofs about tags: names, assignment, and the findings. *)
From Coq Require Import Ascii String.
From Coq Require Import NArith ZArith List Bool Lia.
From Verif Require Import PyStr PyStrFacts M_constants M_value M_macro_definitions Spec_macro_definitions M_conditions Spec_sections M_tags Spec_tags
  P_tags P_tags2 P_tags3 P_tags4.
From Verif Require Export Spec_tags_demo.
Import ListNotations.
Open Scope N_scope.


Section Uni.
Context {U : Unicode}.
Lemma deleted_by_name ts name ts' : tag_delattr ts name = Some (Ok ts') ->
  exists k t a b, tag_find ts name = Ok k /\ length a = k /\ ts_data ts = a ++ t :: b /\ ts_data ts' = a ++ b /\ ts_remainder ts' = ts_remainder ts.
Proof.
  unfold tag_delattr. destruct (tag_contains ts name); [|discriminate]. pose proof (find_spec ts name) as S.
  destruct (tag_find ts name) as [k|]; [|discriminate]. destruct S as (d & Hd & Hn & _). intros Q; injection Q as <-.
  apply nth_error_split in Hd as (a & b & E & <-). exists (length a), d, a, b. cbn [ts_data ts_remainder]. rewrite E, remove_at_app. auto.
Qed.
Lemma set_by_name ts name v ts' : tag_set ts name v = Some (Ok ts') ->
  exists k t x y, tag_find ts name = Ok k /\ nth_error (ts_data ts) k = Some t /\ capitalize (t_name t) = capitalize name /\
    tags_raw ts = x ++ split_on LF [] (tag_text t) ++ y /\ tags_raw ts' = x ++ split_on LF [] (tag_text (with_value v t)) ++ y /\
    nth_error (ts_data ts') k = Some (with_value v t).
Proof.
  unfold tag_set. destruct (tag_contains ts name); [|discriminate]. pose proof (find_spec ts name) as S.
  destruct (tag_find ts name) as [k|]; [|discriminate]. destruct S as (d & Hd & Hn & _). intros Q; injection Q as <-.
  destruct (set_value_lines ts k d v Hd) as (y & E1 & E2). exists k, d. do 2 eexists. split; [reflexivity|]. split; [exact Hd|]. split; [exact Hn|].
  split; [exact E1|]. split; [exact E2|]. cbn [ts_data]. apply nth_error_split in Hd as (a & b & -> & <-). rewrite update_at_app. apply nth_error_mid.
Qed.
Lemma value_reads_back line n s old c v : tag_line line n s old -> is_space c = false ->
  forall n' s' v', tag_line (n ++ s ++ c :: v) n' s' v' <-> n' = n /\ s' = s /\ v' = c :: v.
Proof.
  intros (_ & Hn & Hs & _) Sc n' s' v'.
  assert (T : tag_line (n ++ s ++ c :: v) n s (c :: v)).
  { split; [reflexivity|]. split; [exact Hn|]. split; [exact Hs|]. exists c, v. split; [reflexivity|]. congruence. }
  split; [|intros (-> & -> & ->); exact T]. intros T'. exact (tag_line_unique _ _ _ _ _ _ _ T' T).
Qed.
Lemma lower_ascii a : Forall (fun c => c < 128) a -> lower a = map (fun c => if ascii_upper c then c + 32 else c) a.
Proof.
  induction 1 as [|c a Hc F IH]; auto. unfold lower in *. cbn [flat_map map]. rewrite IH. unfold lower_c.
  destruct (ascii_upper c); auto. now rewrite (proj2 (N.ltb_lt c 128)).
Qed.
Definition caseless (x y : N) : Prop := x = y \/ (97 <= x <= 122 /\ y + 32 = x) \/ (97 <= y <= 122 /\ x + 32 = y).
Lemma low_eq x y : (if ascii_upper x then x + 32 else x) = (if ascii_upper y then y + 32 else y) <-> caseless x y.
Proof.
  unfold caseless, ascii_upper. destruct (N.leb_spec 65 x), (N.leb_spec x 90), (N.leb_spec 65 y), (N.leb_spec y 90); cbn [andb]; lia.
Qed.
Lemma title_eq x y : x < 128 -> y < 128 -> (title_c x = title_c y <-> caseless x y) /\ exists z, title_c x = [z].
Proof.
  intros Hx Hy. unfold title_c. rewrite (proj2 (N.ltb_lt x 128)), (proj2 (N.ltb_lt y 128)) by auto.
  split.
  - unfold caseless, ascii_lower. destruct (N.leb_spec 97 x), (N.leb_spec x 122), (N.leb_spec 97 y), (N.leb_spec y 122); cbn [andb];
      (split; [intros Q; injection Q; lia|intros; f_equal; lia]).
  - destruct (ascii_lower x); eauto.
Qed.
Lemma map_low a b : map (fun c => if ascii_upper c then c + 32 else c) a = map (fun c => if ascii_upper c then c + 32 else c) b <-> Forall2 caseless a b.
Proof.
  revert b. induction a as [|x a IH]; intros [|y b]; cbn [map]; split; intros H; try discriminate; try constructor; try (now inversion H).
  - injection H as H1 H2. now apply low_eq.
  - injection H as H1 H2. now apply IH.
  - inversion H; subst. f_equal; [now apply low_eq|now apply IH].
Qed.
Lemma capitalize_ascii a b : Forall (fun c => c < 128) a -> Forall (fun c => c < 128) b ->
  (capitalize a = capitalize b <-> Forall2 (fun x y => x = y \/ (97 <= x <= 122 /\ y + 32 = x) \/ (97 <= y <= 122 /\ x + 32 = y)) a b).
Proof.
  intros Fa Fb. fold caseless. destruct Fa as [|x a Hx Fa], Fb as [|y b Hy Fb]; cbn [capitalize].
  - split; auto.
  - destruct (title_eq y y Hy Hy) as [_ (z & ->)]. split; [discriminate|intros H; inversion H].
  - destruct (title_eq x x Hx Hx) as [_ (z & ->)]. split; [discriminate|intros H; inversion H].
  - destruct (title_eq x y Hx Hy) as [T (z & Ez)]. destruct (title_eq y y Hy Hy) as [_ (z' & Ez')]. rewrite Ez, Ez' in *. cbn [app].
    rewrite (lower_ascii a), (lower_ascii b) by auto. split.
    + intros Q. injection Q as Q1 Q2. constructor; [apply T; congruence|now apply map_low].
    + intros Q. inversion Q; subst. f_equal; [|now apply map_low]. assert (R : [z] = [z']) by now apply T. congruence.
Qed.
End Uni.
Lemma insert_out_of_range ts i item : (i < - Z.of_nat (length (ts_data ts)))%Z -> tag_insert i item ts = Err IndexError.
Proof.
  intros Hi. unfold tag_insert. rewrite (proj2 (Z.ltb_ge (Z.of_nat (length (ts_data ts))) i)) by lia. rewrite (proj2 (Z.ltb_lt i _)) by lia.
  unfold py_index. rewrite (proj2 (Z.leb_gt 0 i)) by lia. cbn [andb]. match goal with |- context [(?a <? 0)%Z] => rewrite (proj2 (Z.ltb_ge a 0)) by lia | |- context [(?a <=? ?b)%Z] => rewrite (proj2 (Z.leb_gt a b)) by lia end. now rewrite andb_false_r.
Qed.

Lemma white_space_repeated : exists lines ts, parse_tags lines = Ok ts /\ Forall (fun l => ~ In LF l) lines /\ Forall (fun l => regular (U:=unicode_none) l) lines /\ tags_raw ts <> lines.
Proof.
  exists (map lit ["Summary: %{expand: "; "x}"]%string). eexists. split; [vm_compute; reflexivity|].
  split; [repeat constructor; cbn; intuition discriminate|]. split; [|vm_compute; discriminate].
  repeat apply Forall_cons; try apply Forall_nil; apply regular_not_braced; intros x Q; vm_compute in Q; discriminate.
Qed.
Lemma inner_white_space : exists ts, parse_tags [lit "%{?x:%{y  z}}"] = Ok ts /\ tags_raw ts = [lit "%{?x:%{y z}}"].
Proof. eexists. split; vm_compute; reflexivity. Qed.
Lemma empty_reference : parse_tags [lit "Name: x"; lit "# %{}"] = Err ValueError.
Proof. vm_compute. reflexivity. Qed.
Lemma delete_by_name :
  exists ts ts', parse_tags (map lit ["%if 1"; "Name: x"; "%endif"]%string) = Ok ts /\ tag_delattr (U:=unicode_none) ts (lit "name") = Some (Ok ts') /\
    tags_raw ts' = [lit "%endif"] /\ tags_raw (tag_pop 0 ts) = [lit "%endif"].
Proof. do 2 eexists. split; [vm_compute; reflexivity|]. split; [vm_compute; reflexivity|]. split; vm_compute; reflexivity. Qed.
Lemma negative_index :
  (exists ts ts', parse_tags (map lit ["Name: x"; "%if 1"; "Version: 1"; "%endif"]%string) = Ok ts /\ delete_at (-1) ts = Ok ts' /\
     tags_raw ts' = map lit ["%if 1"; "Name: x"; "%endif"]%string) /\
  (exists ts, parse_tags [lit "Name: x"] = Ok ts /\ delete_at (-1) ts = Err IndexError).
Proof.
  split.
  - do 2 eexists. split; [vm_compute; reflexivity|]. split; vm_compute; reflexivity.
  - eexists. split; vm_compute; reflexivity.
Qed.
Lemma position_wrong :
  (exists ts t, parse_tags (map lit ["Summary: %{expand:"; "x}"; "Name: x"]%string) = Ok ts /\ nth_error (ts_data ts) 1 = Some t /\
     tags_raw ts = map lit ["Summary: %{expand:"; "x}"; "Name: x"]%string /\ tag_position t ts = Ok 1%nat) /\
  (exists ts t, parse_tags (map lit ["Requires: x"; "Requires: x"]%string) = Ok ts /\ nth_error (ts_data ts) 1 = Some t /\ tag_position t ts = Ok 0%nat).
Proof.
  split; do 2 eexists; (split; [vm_compute; reflexivity|]); (split; [vm_compute; reflexivity|]); [split|]; vm_compute; reflexivity.
Qed.
