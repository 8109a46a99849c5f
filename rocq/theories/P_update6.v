(** Updating values: examples and counterexamples. *)
From Coq Require Import Ascii String.
From Coq Require Import NArith ZArith List Bool Lia Arith.
From Verif Require Import PyStr PyStrFacts Regex RegexFacts M_value Spec_value2 P_value3 M_update Spec_update P_update P_update2 P_update3 P_update4.
Import ListNotations.
Open Scope nat_scope.

Section Uni.
Context {U : Unicode}.
(** * A function that evaluates values *)
Definition denotes_b (e : entity) (name : str) : bool := str_eqb name (e_name e) || (e_tag e && str_eqb name (upper (e_name e))).
Lemma denotes_iff e name : denotes_b e name = true <-> denotes e name.
Proof. unfold denotes_b, denotes. rewrite orb_true_iff, andb_true_iff, !str_eqb_eq. reflexivity. Qed.
Definition closest_b (es : list entity) (pos : nat) (name : str) : option nat := find_last (fun e => Nat.ltb (e_position e) pos && denotes_b e name) es.
Lemma closest_sound es pos name k : closest_b es pos name = Some k -> closest es pos name k.
Proof.
  intros F. destruct (find_last_spec _ _ _ F) as ((e & E & P) & L). apply andb_true_iff in P as [P D]. apply Nat.ltb_lt in P. apply denotes_iff in D. split; [eauto|].
  intros j e' Hj E' P' D'. specialize (L j e' Hj E'). cbv beta in L. apply Nat.ltb_lt in P'. apply denotes_iff in D'. rewrite P', D' in L. discriminate.
Qed.
Lemma closest_none es pos name : closest_b es pos name = None -> ~ known es pos name.
Proof.
  unfold closest_b. intros F (e & Ie & P & D). apply Nat.ltb_lt in P. apply denotes_iff in D. induction es as [|x es IH]; [destruct Ie|]. cbn [find_last] in F.
  destruct (find_last (fun e => Nat.ltb (e_position e) pos && denotes_b e name) es) eqn:F'; [discriminate|]. destruct Ie as [->|Ie]; [rewrite P, D in F; discriminate|apply (IH eq_refl Ie)].
Qed.
Lemma closest_is es pos name k : closest es pos name k -> closest_b es pos name = Some k.
Proof.
  intros C. destruct (closest_b es pos name) as [k'|] eqn:F; [apply closest_sound in F; f_equal; apply (closest_fun es pos name); assumption|]. exfalso. apply (closest_none _ _ _ F). apply (closest_known _ _ _ k C).
Qed.
Definition ref_name (n : node) : option str :=
  match n with
  | MacroSubstitution p x => if negated p then None else Some x
  | EnclosedMacroSubstitution p x [] => if negated p then None else Some x
  | _ => None
  end.
Lemma ref_name_iff n x : ref_name n = Some x <-> reference n x.
Proof.
  split.
  - destruct n as [v|b|b|p n|p n a|p n b|n b]; try discriminate; cbn [ref_name]; [|destruct a; [|discriminate]]; destruct (negated p) eqn:N; try discriminate; intros E; injection E as <-; apply negated_even in N; exists p; auto.
  - intros (p & Ev & [-> | ->]); cbn [ref_name]; apply negated_even in Ev; rewrite Ev; reflexivity.
Qed.
Lemma literal_dec n : literal n \/ ~ literal n.
Proof. destruct n; try (right; intros (s & Q); discriminate). left. eexists. reflexivity. Qed.
Fixpoint value_of (fuel : nat) (ex : str -> result str) (es : list entity) (pos : nat) (text : str) : option str :=
  match fuel with
  | O => None
  | S fuel =>
      match M_value.parse text with
      | Err _ => None
      | Ok nodes =>
          (fix go l := match l with
           | [] => Some []
           | n :: l' =>
               match
                 match n with
                 | StringLiteral s => if existsb (N.eqb PCT) s then None else Some s
                 | _ =>
                     match (match ref_name n with Some x => closest_b es pos x | None => None end) with
                     | Some k => match nth_error es k with Some e => if negb (e_disabled e) || e_updated e then value_of fuel ex es (e_position e) (e_value e) else None | None => None end
                     | None =>
                         match n with
                         | ConditionalMacroExpansion _ x _ => match closest_b es pos x with Some _ => None | None => match ex (node_str n) with Ok c => Some c | Err _ => None end end
                         | _ => match ex (node_str n) with Ok c => Some c | Err _ => None end
                         end
                     end
                 end, go l'
               with
               | Some a, Some b => Some (a ++ b)
               | _, _ => None
               end
           end) nodes
      end
  end.
Lemma value_of_sound : forall fuel ex es pos text v, value_of fuel ex es pos text = Some v -> text_evaluates ex es pos text v.
Proof.
  induction fuel as [|fuel IH]; intros ex es pos text v E; [discriminate|]. cbn [value_of] in E. destruct (M_value.parse text) as [nodes|] eqn:Ep; [|discriminate]. exists nodes. split; [exact Ep|]. clear Ep.
  revert v E. induction nodes as [|n nodes IHn]; intros v E; [injection E as <-; constructor|].
  match type of E with match ?h with _ => _ end = _ => destruct h as [a|] eqn:Eh; [|discriminate] end.
  match type of E with match ?g nodes with _ => _ end = _ => destruct (g nodes) as [b|] eqn:Eg; [|discriminate] end. injection E as <-. specialize (IHn b eq_refl). clear Eg.
  destruct (literal_dec n) as [(s & ->)|Nl].
  - destruct (existsb (N.eqb PCT) s) eqn:Ex; [discriminate|]. injection Eh as <-. constructor; [|exact IHn]. intros Q. assert (Z : existsb (N.eqb PCT) s = true) by (apply existsb_exists; exists PCT; split; [exact Q|apply N.eqb_refl]). congruence.
  - assert (Eh' : match (match ref_name n with Some x => closest_b es pos x | None => None end) with
                     | Some k => match nth_error es k with Some e => if negb (e_disabled e) || e_updated e then value_of fuel ex es (e_position e) (e_value e) else None | None => None end
                     | None =>
                         match n with
                         | ConditionalMacroExpansion _ x _ => match closest_b es pos x with Some _ => None | None => match ex (node_str n) with Ok c => Some c | Err _ => None end end
                         | _ => match ex (node_str n) with Ok c => Some c | Err _ => None end
                         end
                     end = Some a) by (destruct n; try exact Eh; exfalso; apply Nl; eexists; reflexivity).
    clear Eh. destruct (match ref_name n with Some x => closest_b es pos x | None => None end) as [k|] eqn:Ek.
    + destruct (ref_name n) as [x|] eqn:Er; [|discriminate]. apply ref_name_iff in Er. destruct (nth_error es k) as [e|] eqn:Ee; [|discriminate]. destruct (negb (e_disabled e) || e_updated e) eqn:Le; [|discriminate].
      destruct (IH _ _ _ _ _ Eh') as (body & Pb & Eb). apply (ev_reference _ _ _ n x k e body); auto; [apply closest_sound; exact Ek|]. apply orb_true_iff in Le as [Le|Le]; [left; apply negb_true_iff; exact Le|right; exact Le].
    + assert (Nk : forall x, reference n x -> ~ known es pos x). { intros x Rx. apply ref_name_iff in Rx. rewrite Rx in Ek. apply closest_none. exact Ek. }
      assert (Other : forall (H : match ex (node_str n) with Ok c => Some c | Err _ => None end = Some a) , (forall p name b, n = ConditionalMacroExpansion p name b -> ~ known es pos name) -> evaluates ex es pos (n :: nodes) (a ++ b)).
      { intros H Hc. destruct (ex (node_str n)) as [c|] eqn:Xc; [|discriminate]. injection H as ->. apply ev_other; auto. }
      destruct n as [s|s|s|p n|p n aa|p n bb|n s]; try (apply Other; [exact Eh'|intros; discriminate]).
      destruct (closest_b es pos n) eqn:Cn; [discriminate|]. apply Other; [exact Eh'|]. intros p' name' b' Q. injection Q as <- <- <-. apply closest_none. exact Cn.
Qed.
(** * Showing that values are separate *)
Lemma refers_name text nodes name : M_value.parse text = Ok nodes -> refers_to text name -> In (Some name) (map ref_name nodes).
Proof. intros Ep (ns & n & Ep' & Hn & R). rewrite Ep in Ep'. injection Ep' as <-. apply ref_name_iff in R. rewrite <- R. apply in_map. exact Hn. Qed.
Lemma separate_plain ex es pos s : s <> [] -> ~ In PCT s -> s <> [LF] -> separate ex es pos s.
Proof.
  intros N P L. apply (separate_intro _ _ _ _ [StringLiteral s]).
  - apply parse_plain; assumption.
  - constructor; [exact N|apply no_pct_escaped; exact P|constructor].
  - intros [Q|[]]. injection Q as Q. contradiction.
  - intros [|a [|b pre]] p x t post Q; discriminate.
  - intros p x b [Q|[]]. discriminate.
  - intros name R. destruct (plain_refers s N P name R).
  - intros name k e R. destruct (plain_refers s N P name R).
  - intros name1 name2 k1 k2 j R. destruct (plain_refers s N P name1 R).
Qed.
End Uni.
