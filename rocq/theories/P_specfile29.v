(** Concrete spec files: lines that are added to sections, changelog entries. *)
From Coq Require Import Ascii String.
From Coq Require Import NArith ZArith List Bool Arith Lia.
From Verif Require P_specfile27.
From Verif Require Import PyStr PyStrFacts Regex M_constants M_options M_value M_macro_definitions Spec_macro_definitions P_macro_definitions
  M_conditions M_sections Spec_sections P_sections M_tags Spec_tags P_tags3 M_sourcelist M_sources Spec_sources M_specfile M_specfile2 Spec_specfile Spec_specfile2 Spec_specfile3 Spec_specfile4
  P_specfile P_specfile2 P_specfile7 P_specfile9 P_specfile11 P_specfile16 P_specfile23 P_specfile25
  P_sections4 M_changelog M_release Spec_changelog M_add_entry Spec_add_entry P_add_entry Spec_specfile5.
Import ListNotations.
Open Scope N_scope.
Open Scope nat_scope.

#[local] Existing Instance unicode_none.
(** Lines of text and plain headers, as far as needed. *)
Definition text_lineb (l : str) : bool :=
  forallb (fun c => negb (is_linebreak c)) l && str_eqb (rstrip l) l && negb (existsb (N.eqb 98) l) && negb (existsb (N.eqb 102) l) && negb (startswith l [PCT]).
Lemma text_by l : text_lineb l = true -> text_line l.
Proof.
  unfold text_lineb. rewrite !andb_true_iff, !negb_true_iff. intros ((((A & B) & C) & D) & E). apply P_specfile27.text_plain.
  - apply Forall_forall. intros c Hc. rewrite forallb_forall in A. specialize (A c Hc). now apply negb_true_iff in A.
  - now apply str_eqb_eq.
  - intros (x & k & y & [->| ->] & ->).
    + assert (K : existsb (N.eqb 98) (x ++ lit "global" ++ y) = true); [|congruence]. apply existsb_exists. exists 98%N. split; [|reflexivity]. apply in_or_app. right. apply in_or_app. left. vm_compute. tauto.
    + assert (K : existsb (N.eqb 102) (x ++ lit "define" ++ y) = true); [|congruence]. apply existsb_exists. exists 102%N. split; [|reflexivity]. apply in_or_app. right. apply in_or_app. left. vm_compute. tauto.
  - intros r ->. cbn in E. discriminate.
Qed.
Lemma headers_by lines : forallb (fun l => negb (is_header l) || negb (existsb (N.eqb PCT) (tl l))) lines = true -> Forall (fun l => ~ In LF l) lines -> plain_headers lines.
Proof.
  intros B N l a c t Hl Hh El Sc _. rewrite forallb_forall in B. specialize (B l Hl). rewrite Forall_forall in N. apply header_spec in Hh; [|auto]. rewrite Hh in B. cbn [negb orb] in B. apply negb_true_iff in B.
  assert (K : existsb (N.eqb PCT) (tl l) = true); [|congruence]. apply existsb_exists. exists PCT. split; [|reflexivity]. subst l. destruct a as [|x a]; cbn [app tl]; [now left|]. apply in_or_app. right. right. now left.
Qed.
Definition log_file : list str := file ["%global v 1"; "Name: x"; "%build"; "make"; "%changelog"; "* Fri Jan  3 2025 A - 1-1"; "- first"]%string.
Lemma log_regular : regular_file log_file /\ plain_headers log_file.
Proof.
  destruct (plain_file_ok log_file) as (T & C); [vm_compute; reflexivity|]. split.
  - split; [exact T|]. split; [apply C|]. split; [|apply outside_by; [exact C|vm_compute; reflexivity]].
    apply apart_by. assert (map d_name (md_data (parse_plain log_file)) = [lit "v"]) as -> by (vm_compute; reflexivity). repeat constructor; vm_compute; intuition discriminate.
  - apply headers_by; [vm_compute; reflexivity|]. eapply Forall_impl; [|exact T]. intros l (Nb & _). now apply no_break_LF.
Qed.
Lemma log_outside i : 1 <= i -> ~ in_definition (parse_plain log_file) i.
Proof.
  intros Hi (a & d & b & j & E & Hj & Ei).
  assert (F : map (fun d => (length (d_preceding d), length (M_macro_definitions.own_lines d))) (md_data (parse_plain log_file)) = [(0, 1)]) by (vm_compute; reflexivity).
  rewrite E, map_app in F. destruct a as [|d0 a]; [|destruct a; discriminate]. cbn [map app] in F. injection F as F1 F2 _. cbn [flat_map length] in Ei. lia.
Qed.
Definition log_secs : list section := Eval vm_compute in match M_sections.parse (fun _ (_ : unit) s => (Ok s, tt)) tt log_file with (Ok l, _) => l | _ => [] end.
Lemma log_reads : reads_sections log_file log_secs.
Proof. intros W e w. vm_compute. reflexivity. Qed.
Lemma log_below x s y : log_secs = x ++ s :: y -> x <> [] -> 1 <= length (sections_raw x).
Proof.
  intros E N. destruct x as [|p x]; [congruence|]. injection E as <- _. cbn [sections_raw flat_map]. rewrite app_length. match goal with |- 1 <= length (section_raw ?p) + _ => assert (Q : length (section_raw p) = 2) by (vm_compute; reflexivity) end. rewrite Q. lia.
Qed.
(** A line more in %build. *)
Definition more_secs : list section := Eval vm_compute in match log_secs with [p; b; c] => [p; with_data [lit "make"; lit "make doc"] b; c] | l => l end.
Lemma more_grown : Forall2 grown_section log_secs more_secs.
Proof.
  constructor; [left; reflexivity|]. constructor; [|constructor; [left; reflexivity|constructor]]. right. exists [lit "make"], [lit "make doc"], []. split; [reflexivity|]. split; [reflexivity|]. constructor; [|constructor]. apply text_by. reflexivity.
Qed.
Lemma more_free : free_growth log_file log_secs more_secs.
Proof.
  intros x s y x' s' y' i E E' L N Hi. apply log_outside. destruct x as [|p x].
  - exfalso. destruct x'; [|discriminate]. apply N. injection E as <- _. injection E' as <- _. reflexivity.
  - pose proof (log_below _ _ _ E). assert (1 <= length (sections_raw (p :: x))); [apply H; discriminate|lia].
Qed.
(** An entry. *)
Definition log_expand (s : str) (w : unit) : unit * result str := (w, Ok (if str_eqb s (lit "%{?epoch:%{epoch}:}%{version}-%{release}") then lit "1:2-3" else s)).
Definition log_now (extended : bool) (w : unit) : timestamp := mk_ts 0 1 6 2025 None.
Definition log_surround (w : unit) : surroundings := mk_surroundings None (lit "%packager") None (lit "Jo Doe") (lit "jo").
Definition log_add (entry : list str) (lines : list str) : list str * unit * result unit :=
  add_changelog_entry log_expand log_surround log_now (fun _ w s => (Ok s, w)) entry (Some (lit "Jo")) None None None lines tt.
Definition log_text : list str := [lit "- new"; lit "  and more"].
Definition log_after : list str := file ["%global v 1"; "Name: x"; "%build"; "make"; "%changelog"; "* Mon Jan  6 2025 Jo - 1:2-3"; "- new"; "  and more"; ""; "* Fri Jan  3 2025 A - 1-1"; "- first"]%string.
Lemma log_added : log_add log_text log_file = (log_after, tt, Ok tt).
Proof. vm_compute. reflexivity. Qed.
Definition log_secs' : list section := Eval vm_compute in match M_sections.parse (fun _ (_ : unit) s => (Ok s, tt)) tt log_after with (Ok l, _) => l | _ => [] end.
Lemma log_manual : forall x s y, log_secs = x ++ s :: y -> manual s -> length x = 2.
Proof.
  intros x s y E [M _]. destruct x as [|p x]; [injection E as <- _; exfalso; vm_compute in M; discriminate|]. destruct x as [|b x]; [injection E as _ <- _; exfalso; vm_compute in M; discriminate|].
  destruct x as [|c x]; [reflexivity|]. apply (f_equal (@length _)) in E. rewrite app_length in E. change (length log_secs) with 3 in E. cbn [length] in E. lia.
Qed.
Lemma log_free : free_sections manual log_file log_secs.
Proof.
  intros x s y i E M Hi. apply log_outside. pose proof (log_manual x s y E M) as L. pose proof (log_below _ _ _ E) as H. assert (1 <= length (sections_raw x)); [apply H; intros ->; discriminate|lia].
Qed.
Lemma log_padding s p : s_data s = file ["* Fri Jan  3 2025 A - 1-1"; "- first"]%string -> chosen_padding (M_changelog.parse (s_data s)) p -> p = lit " ".
Proof.
  intros -> [(E & _)|(o & e & n & E & -> & _)]; [discriminate|]. destruct o as [|e0 o]; [|apply (f_equal (@length _)) in E; cbn [app length] in E; rewrite app_length in E; cbn [length] in E; match type of E with ?l = _ => assert (Q : l = 1) by (vm_compute; reflexivity) end; lia].
  injection E as <- _. reflexivity.
Qed.
Lemma log_extended : Forall2 (extended_by (fun s h => made s h /\ text_line h) log_text) log_secs log_secs'.
Proof.
  assert (K : forall s, s_nid s <> lit "changelog" -> extended_by (fun s h => made s h /\ text_line h) log_text s s) by (intros s N; apply not_manual_extended; intros [Q _]; auto).
  constructor; [apply (K (nth 0 log_secs (mk_section [] (mk_opts [] [] []) [] [] []))); vm_compute; discriminate|].
  constructor; [apply (K (nth 1 log_secs (mk_section [] (mk_opts [] [] []) [] [] []))); vm_compute; discriminate|]. constructor; [|constructor].
  set (s := nth 2 log_secs (mk_section [] (mk_opts [] [] []) [] [] [])).
  apply (manual_extended (fun s h => made s h /\ text_line h) log_text s (log_now false tt) (lit "Jo") (lit "1:2-3")); [split; reflexivity|].
  intros p Hp. split; [exists (log_now false tt), p, (lit "Jo"), (lit "1:2-3"); auto|]. rewrite (log_padding s p eq_refl Hp). apply text_by. vm_compute. reflexivity.
Qed.
Lemma log_entry : Forall text_line log_text /\ entry_text log_text.
Proof.
  split; [repeat constructor; apply text_by; reflexivity|]. split.
  - exists [lit "- new"], (lit "  and more"). split; [reflexivity|]. intros B. unfold blank_line in B. rewrite Forall_forall in B. specialize (B 97%N). assert (Q : is_space 97 = true) by (apply B; vm_compute; tauto). discriminate.
  - repeat constructor; intros (t & E); discriminate.
Qed.
(** An entry with a line that reads like a header. *)
Definition odd_text : list str := [lit "- drop the obsolete"; lit "%clean section"].
Definition odd_after : list str := file ["%global v 1"; "Name: x"; "%build"; "make"; "%changelog"; "* Mon Jan  6 2025 Jo - 1:2-3"; "- drop the obsolete"; "%clean section"; ""; "* Fri Jan  3 2025 A - 1-1"; "- first"]%string.
Definition odd_secs : list section := Eval vm_compute in match M_sections.parse (fun _ (_ : unit) s => (Ok s, tt)) tt odd_after with (Ok l, _) => l | _ => [] end.
Lemma odd_added : log_add odd_text log_file = (odd_after, tt, Ok tt) /\ reads_sections odd_after odd_secs /\
  map s_nid odd_secs = map lit ["package"; "build"; "changelog"; "clean section"]%string /\ map s_nid log_secs = map lit ["package"; "build"; "changelog"]%string.
Proof. split; [vm_compute; reflexivity|]. split; [intros W e w; vm_compute; reflexivity|]. split; vm_compute; reflexivity. Qed.
