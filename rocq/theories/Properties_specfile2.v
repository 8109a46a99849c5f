(** Properties C162-C164: what changes of a whole spec file do to what is read from it.  Specification: Spec_specfile2.v, Spec_specfile.v, Spec_update.v.
    [expand lines skip w s] is the expansion of [s] by RPM when the file has these lines; any function will do. *)
From Coq Require Import Ascii String.
From Coq Require Import NArith ZArith List Bool Arith Lia.
From Verif Require Import PyStr PyStrFacts Regex M_value M_macro_definitions Spec_macro_definitions M_sections Spec_sections M_tags Spec_tags M_release M_update Spec_update
  M_specfile Spec_specfile Spec_specfile2 P_specfile P_specfile2 P_specfile9 P_specfile15 P_specfile16 P_specfile17.
Import ListNotations.
Open Scope N_scope.

(** * C162 *)
(** A tag is updated in a regular file, in which the macros and tags that the old value is made of are on lines for themselves and reached in one way
    only ([separate]).  There are new values for these macros and tags ([es']; all others are as before) and a new value [r] of the tag such
    that [r] evaluates to what was requested; and if the new values can be written on a line, the file has them when it is read again:
    macros and tags that were given a new value have it, the tag has the value [r], everything else is as it was. *)
Theorem C162_update_effect : forall (U : Unicode) (expand : list str -> bool -> unit -> str -> result str * unit) isid protected name requested lines lines' ts m k t pos es,
  let ex s := fst (expand lines false tt s) in
  regular_file lines -> read_tags expand lines tt = (lines, tt, Ok ts) -> read_macros expand lines tt = (lines, tt, Ok m) ->
  Forall simple_tag (ts_data ts) -> (forall u, In u (ts_data ts) -> Forall (fun c => c < 128) (t_name u)) ->
  only_tag ts name k t -> lower (t_name t) = lower name -> one_line t -> tag_position t ts = Ok pos ->
  collected expand protected lines m ts es -> entities_ok es -> separate ex es pos (t_value t) ->
  (forall j e, nth_error es j = Some e -> on_own_line m ts e \/ ~ reaches es pos (t_value t) j) ->
  requested <> [] -> ~ In PCT requested -> ~ In LF requested ->
  update_tag expand isid protected name requested lines tt = (lines', tt, Ok tt) ->
  exists es' r, same_skeleton es es' /\ (forall j, ~ reaches es pos (t_value t) j -> nth_error es' j = nth_error es j) /\ text_evaluates ex es' pos r requested /\
    ((forall e, In e es' -> e_updated e = true -> file_value (e_value e)) -> file_value r ->
     regular_file lines' /\
     (forall l2 w2 ts2, read_tags expand lines' tt = (l2, w2, Ok ts2) -> l2 = lines' /\ tags_updated es' k r ts ts2) /\
     (forall l2 w2 m2, read_macros expand lines' tt = (l2, w2, Ok m2) -> l2 = lines' /\ macros_updated es' m m2)).
Proof. exact @update_tag_effect. Qed.
Print Assumptions C162_update_effect.
(** "Version: %{maj}.%{min}" is updated to "20.5"; both macros are changed. *)
Example C162_witness : regular_file (U:=unicode_none) up_file /\ read_tags (U:=unicode_none) ex_expand up_file tt = (up_file, tt, Ok up_tags) /\
  read_macros (U:=unicode_none) ex_expand up_file tt = (up_file, tt, Ok up_macros) /\
  Forall simple_tag (ts_data up_tags) /\ (forall u, In u (ts_data up_tags) -> Forall (fun c => c < 128) (t_name u)) /\
  only_tag (U:=unicode_none) up_tags (lit "version") 1 up_version /\ one_line up_version /\ tag_position up_version up_tags = Ok 3%nat /\
  collected (U:=unicode_none) ex_expand protected_default up_file up_macros up_tags up_es /\ entities_ok (U:=unicode_none) up_es /\
  separate (U:=unicode_none) up_ex up_es 3 (t_value up_version) /\
  (forall j e, nth_error up_es j = Some e -> on_own_line (U:=unicode_none) up_macros up_tags e \/ ~ reaches (U:=unicode_none) up_es 3 (t_value up_version) j) /\
  update_tag (U:=unicode_none) ex_expand ex_id protected_default (lit "version") (lit "20.5") up_file tt = (up_new, tt, Ok tt).
Proof.
  split; [exact up_regular|]. split; [apply up_read|]. split; [apply up_read|]. split; [apply up_simple|]. split; [apply up_simple|]. split; [apply up_target|]. split; [apply up_target|]. split; [apply up_target|].
  split; [exact up_collected|]. split; [exact up_ok|]. split; [exact up_separate|]. split; [exact up_own|]. exact up_update.
Qed.

(** * C163 *)
(** The body of a macro definition is set in a regular file, where it is the only definition with this name.  When the file is read again, the definition
    has that body, and all other definitions and all tags are as they were. *)
Theorem C163_set_body : forall (U : Unicode) (W : Type) (expand : list str -> bool -> W -> str -> result str * W) k v d lines w m lines' w1,
  regular_file lines -> read_macros expand lines w = (lines, w1, Ok m) -> only_macro m (d_name d) k d ->
  d_commented_out d = false -> ordinary d -> blank (d_prefix d) -> file_value v -> set_body expand k v lines w = (lines', w1, Ok tt) ->
  regular_file lines' /\
  (forall w2 l2 w3 m2, read_macros expand lines' w2 = (l2, w3, Ok m2) -> l2 = lines' /\ same_macros_but k v m m2) /\
  (forall w0 l0 w0' ts w2 l2 w3 ts2, read_tags expand lines w0 = (l0, w0', Ok ts) -> Forall simple_tag (ts_data ts) -> read_tags expand lines' w2 = (l2, w3, Ok ts2) ->
     l2 = lines' /\ same_tags ts ts2).
Proof. exact @set_body_effect. Qed.
Print Assumptions C163_set_body.
Example C163_witness : regular_file (U:=unicode_none) up_file /\ only_macro up_macros (lit "min") 1 (one_def (lit "min") 50) /\ ordinary (U:=unicode_none) (one_def (lit "min") 50) /\
  file_value (lit "%{maj}0") /\ exists lines', set_body (U:=unicode_none) ex_expand 1 (lit "%{maj}0") up_file tt = (lines', tt, Ok tt) /\ nth_error lines' 1 = Some (lit "%global min %{maj}0").
Proof.
  split; [exact up_regular|]. destruct (up_only (lit "min") 1 (one_def (lit "min") 50)) as (A & B & _); [now rewrite up_defs|reflexivity|]. split; [exact A|]. split; [exact B|]. split.
  - split; [repeat constructor|]. split; [eexists _, _; split; reflexivity|]. split; [reflexivity|]. split; [vm_compute; reflexivity|]. intros (x & Q). apply (f_equal (fun l => last l 0%N)) in Q. rewrite last_last in Q. discriminate.
  - eexists. split; vm_compute; reflexivity.
Qed.

(** * C164 *)
(** Setting the value of a tag in a regular file does not change the macro definitions that are read from it. *)
Theorem C164_set_tag_macros : forall (U : Unicode) (W : Type) (expand : list str -> bool -> W -> str -> result str * W) name v lines w ts k t lines' w1 w2,
  regular_file lines -> read_tags expand lines w = (lines, w1, Ok ts) -> Forall simple_tag (ts_data ts) ->
  designates ts name k t -> one_line t -> file_value v -> set_tag expand name v lines w = (lines', w2, Ok tt) ->
  regular_file lines' /\
  forall w0 l0 w0' m w3 l3 w4 m2, read_macros expand lines w0 = (l0, w0', Ok m) -> read_macros expand lines' w3 = (l3, w4, Ok m2) -> l3 = lines' /\ same_macros m m2.
Proof. exact @set_tag_effect. Qed.
Print Assumptions C164_set_tag_macros.
Example C164_witness : regular_file (U:=unicode_none) up_file /\ Forall simple_tag (ts_data up_tags) /\ one_line up_version /\ file_value (lit "%{maj}.7") /\
  exists lines', set_tag (U:=unicode_none) ex_expand (lit "version") (lit "%{maj}.7") up_file tt = (lines', tt, Ok tt) /\ nth_error lines' 3 = Some (lit "Version: %{maj}.7").
Proof.
  split; [exact up_regular|]. split; [apply up_simple|]. split; [apply up_target|]. split.
  - split; [repeat constructor|]. split; [eexists _, _; split; reflexivity|]. split; [reflexivity|]. split; [vm_compute; reflexivity|]. intros (x & Q). apply (f_equal (fun l => last l 0%N)) in Q. rewrite last_last in Q. discriminate.
  - eexists. split; vm_compute; reflexivity.
Qed.
