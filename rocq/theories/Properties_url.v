(** Theorems about remote sources (C227, C228).  Spec_url.v says what a URL is ([url]), what is looked at and which texts are read as they are ([tidy]). *)
From Coq Require Import Ascii String.
From Coq Require Import NArith List Bool.
From Verif Require Import PyStr M_url Spec_url P_url.
Import ListNotations.
Open Scope N_scope.

(** * C227 *)
(** A source is remote only if its location, without leading blanks and without line breaks and tabs, is a URL with a host, ... *)
Theorem C227_remote : forall (H : Hosts) l s, looked_at l s -> remote (Some l) = Ok true -> exists scheme host rest, url s scheme host rest.
Proof. intros H l s L E. apply looked_clean in L. subst s. destruct (remote_true l E) as [a [b [c [X _]]]]. exists a, b, c. exact X. Qed.
Print Assumptions C227_remote.
(** ... and if it is one, it is remote, or the host is rejected. *)
Theorem C227_url : forall (H : Hosts) l s scheme host rest, looked_at l s -> url s scheme host rest ->
  (rejected host -> remote (Some l) = Err ValueError) /\ (~ rejected host -> remote (Some l) = Ok true).
Proof. intros H l s a h r L X. apply looked_clean in L. subst s. exact (conj (@url_rejected H l a h r X) (@url_accepted H l a h r X)). Qed.
Print Assumptions C227_url.
(** There is always one text that is looked at, and locations as they are in tags are read as they are. *)
Theorem C227_looked_at : forall l, exists s, looked_at l s /\ forall t, looked_at l t -> t = s.
Proof. exact looked_unique. Qed.
Print Assumptions C227_looked_at.
Theorem C227_tidy : forall l, tidy l -> looked_at l l.
Proof. exact looked_tidy. Qed.
Print Assumptions C227_tidy.
(** File names, and all other locations without two slashes, are local. *)
Theorem C227_local : forall (H : Hosts) l s, looked_at l s -> ~ (exists a b, s = a ++ lit "//" ++ b) -> remote (Some l) = Ok false.
Proof. intros H l s L N. apply looked_clean in L. subst s. apply remote_no_slashes. exact N. Qed.
Print Assumptions C227_local.
(** A source that has no location after expansion is not remote. *)
Theorem C227_none : forall (H : Hosts), remote None = Ok false.
Proof. reflexivity. Qed.
Print Assumptions C227_none.
Definition trusting : Hosts := {| bad_address := fun _ => false; bad_characters := fun _ => false |}.
Example C227_example : url (lit "https://example.com:80/a-1.tar.gz#/b") (lit "https") (lit "example.com:80") (lit "/a-1.tar.gz#/b") /\ tidy (lit "https://example.com:80/a-1.tar.gz#/b") /\
  @remote trusting (Some (lit "https://example.com:80/a-1.tar.gz#/b")) = Ok true /\ @remote trusting (Some (lit "file:///srv/a.tar")) = Ok false /\
  @remote trusting (Some (lit "a:b.tar")) = Ok false /\ @remote trusting (Some (lit "%{url}//a.tar")) = Ok false /\ @remote trusting (Some (lit " http://x")) = Ok true /\ @remote trusting None = Ok false.
Proof.
  split; [|split; [|repeat split; vm_compute; reflexivity]].
  - split; [reflexivity|]. split; [exists 104, (lit "ttps"); split; [reflexivity|]; right; vm_compute; split; discriminate|]. split.
    + apply Forall_forall. intros c Hc. left. right. vm_compute in Hc. intuition (subst; vm_compute; discriminate).
    + split; [discriminate|]. split; [|right; exists 47, (lit "a-1.tar.gz#/b"); split; [reflexivity|left; reflexivity]].
      apply Forall_forall. intros c Hc X. vm_compute in Hc, X. intuition (subst; discriminate).
  - split; [|intros c s E; injection E as <- _; reflexivity]. apply Forall_forall. intros c Hc X. vm_compute in Hc, X. intuition (subst; discriminate).
Qed.

(** * C228 *)
(** With a location of ASCII characters without square brackets, there is always an answer. *)
Theorem C228_partial : forall (H : Hosts) l, Forall (fun c => c < 128 /\ c <> 91 /\ c <> 93) l -> exists b, remote (Some l) = Ok b.
Proof. exact @remote_ascii. Qed.
Print Assumptions C228_partial.
(** Any other can be an exception, whatever the standard library thinks of hosts. *)
Theorem C228_refuted : forall (H : Hosts), exists l, remote (Some l) = Err ValueError.
Proof. intros H. exists (lit "http://[%{host}/a.tar"). reflexivity. Qed.
Print Assumptions C228_refuted.
