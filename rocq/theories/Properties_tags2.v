(** Property C250 (values of several lines).  Specification: Spec_tags.v, Spec_tags2.v. *)
From Coq Require Import Ascii String.
From Coq Require Import NArith ZArith List Bool Lia.
From Verif Require Import PyStr PyStrFacts M_constants M_value M_macro_definitions Spec_macro_definitions M_conditions Spec_sections M_tags Spec_tags Spec_tags2
  P_tags P_tags2 P_tags3 P_tags4 P_tags5 P_tags6.
Import ListNotations.
Open Scope N_scope.

(** C250: the tags found are the tags written, where a value goes on until each [%{] and each [%(] is closed. *)
Theorem C250_values_go_on :
  forall (U : Unicode) (W : Type) (expand : bool -> W -> str -> result str * W) (w : W) (lines : list str) (ts : tags) (w' : W),
  Forall (fun l => ~ In LF l) lines -> Forall (fun l => rstrip l = l) lines -> Forall regular lines ->
  tags_parse expand TAG_NAMES w lines = (Ok ts, w') ->
  exists tagged, process_conditions expand w lines (Some (parse_plain lines)) = (Ok tagged, w') /\ map fst tagged = lines /\ written_on tagged (ts_data ts).
Proof. exact @tags_written_on. Qed.
Print Assumptions C250_values_go_on.
(** Lines have one reading. *)
Theorem C250_one_reading :
  forall (U : Unicode) (lines : list (str * bool)) (ts : list tag), written_on lines ts -> forall ts', written_on lines ts' ->
  map (fun t => (t_name t, t_value t, t_separator t, t_valid t, t_prefix t, t_suffix t)) ts =
  map (fun t => (t_name t, t_value t, t_separator t, t_valid t, t_prefix t, t_suffix t)) ts'.
Proof. exact @written_on_one. Qed.
Print Assumptions C250_one_reading.
Definition open_lines : list str := map lit ["Version: %(echo"; " 1.2"; ")"; "Summary: %{expand:"; "a"; "}x"; "%{?x:URL: a}"; "Name: foo"; "License: %("; "Epoch: 1"]%string.
Example C250_example :
  match parse_tags open_lines with
  | Ok ts => map (fun t => (t_name t, t_value t)) (ts_data ts) =
      [(lit "Version", lit "%(echo" ++ LF :: lit " 1.2" ++ LF :: lit ")"); (lit "Summary", lit "%{expand:" ++ LF :: lit "a" ++ LF :: lit "}x");
       (lit "URL", lit "a"); (lit "Name", lit "foo"); (lit "License", lit "%(" ++ LF :: lit "Epoch: 1")]
  | Err _ => False
  end /\ Forall (fun l => ~ In LF l) open_lines /\ Forall (fun l => rstrip l = l) open_lines /\ Forall (regular (U:=unicode_none)) open_lines.
Proof.
  split; [vm_compute; reflexivity|]. split; [repeat constructor; cbn; intuition discriminate|]. split; [repeat constructor|].
  assert (R : forallb (fun l => match l with c :: d :: _ => negb ((c =? PCT) && (d =? LBRACE)) | _ => true end) (firstn 6 open_lines ++ skipn 7 open_lines) = true) by (vm_compute; reflexivity).
  apply Forall_forall. intros l Hl. rewrite forallb_forall in R.
  destruct (str_eqb l (lit "%{?x:URL: a}")) eqn:Q.
  - apply str_eqb_eq in Q. subst l. intros p n body E. vm_compute in E. injection E as <- <- <-. reflexivity.
  - apply regular_not_braced. intros x ->. assert (Hi : In (PCT :: LBRACE :: x) (firstn 6 open_lines ++ skipn 7 open_lines)).
    { change open_lines with (firstn 6 open_lines ++ lit "%{?x:URL: a}" :: skipn 7 open_lines) in Hl. apply in_app_iff in Hl as [Hl|[Hl|Hl]]; [apply in_app_iff; auto| |apply in_app_iff; auto].
      rewrite <- Hl, str_eqb_refl in Q. discriminate. }
    apply R in Hi. discriminate.
Qed.
