(** The tokens of an expression determine it. *)
From Coq Require Import Ascii String.
From Coq Require Import NArith List Bool Arith Lia.
From Verif Require Import PyStr PyStrFacts M_formatter Spec_formatter P_formatter.
Import ListNotations.
Open Scope N_scope.

Definition closing (a : str) : Prop := In a [lit ")"; lit "]"; lit "}"].
(** What can come after an item *)
Definition follows (a : str) : Prop := a = lit "," \/ closing a.
Definition stops (a : str) : Prop := follows a \/ a = lit ":" \/ a = lit "=".
Lemma head_not_stop t ts : plain t -> spells t ts -> exists a ts', ts = a :: ts' /\ ~ stops a.
Proof.
  intros P H. inversion H; subst; inversion P; subst; eexists _, _; (split; [reflexivity|]); unfold stops, follows, closing; cbn [In];
    try (intros Q; repeat (destruct Q as [Q|Q]); congruence || (revert Q; vm_compute; congruence)).
  - match goal with A : atom _ |- _ => destruct A as (_ & N & _) end. cbn [In] in N. intros Q. apply N. intuition congruence.
  - match goal with A : atom _ |- _ => destruct A as (N & _) end. intros Q. destruct f as [|ch f]; [congruence|]. repeat (destruct Q as [Q|Q]); try (destruct f; discriminate Q); contradiction.
Qed.
Definition det (t : tree) : Prop := forall ts t' ts' r r', plain t' -> spells t ts -> spells t' ts' -> ts ++ r = ts' ++ r' -> t = t' /\ ts = ts'.
Definition plain_item (i : item) : Prop := match i with Plain t => plain t | Pair k v => plain k /\ plain v | Keyword n v => (exists m, n = Some m /\ atom m) /\ plain v end.
Definition det_item (i : item) : Prop := match i with Plain t => det t | Pair k v => det k /\ det v | Keyword n v => det v end.
Definition followed (r : list str) : Prop := exists a r', r = a :: r' /\ follows a.
Lemma follows_colon : ~ follows (lit ":").
Proof. intros [Q|Q]; [discriminate|]. cbn in Q. intuition discriminate. Qed.
Lemma follows_equals : ~ follows (lit "=").
Proof. intros [Q|Q]; [discriminate|]. cbn in Q. intuition discriminate. Qed.
(** a tree spelled with a single atom before something else *)
Lemma atom_head m t ts r rest : atom m -> plain t -> spells t ts -> ts ++ r = m :: rest -> t = Const m /\ ts = [m].
Proof.
  intros (_ & N & K) P Sp E. inversion Sp; subst; cbn in E; injection E as E1 E2.
  - now subst.
  - exfalso. now apply (K []).
  - exfalso. apply N. rewrite <- E1. cbn; auto.
  - exfalso. apply N. rewrite <- E1. cbn; auto.
  - exfalso. now apply (K f).
Qed.
Lemma item_det i ts j ts' r r' : plain_item i -> plain_item j -> det_item i -> spells_item i ts -> spells_item j ts' -> followed r -> followed r' -> ts ++ r = ts' ++ r' -> i = j /\ ts = ts'.
Proof.
  intros Pi Pj D Si Sj F F' E. inversion Si; subst; inversion Sj; subst; cbn in Pi, Pj, D.
  - destruct (D _ _ _ _ _ Pj H H0 E) as (-> & ->). auto.
  - (* plain, pair *) exfalso. rewrite <- app_assoc in E. destruct Pj as (Pk & _). destruct (D _ _ _ _ _ Pk H H0 E) as (-> & ->). apply app_inv_head in E. destruct F as (a & r'' & -> & Fa). injection E as -> _. now apply follows_colon.
  - (* plain, keyword *) exfalso. destruct Pj as ((m & Em & Am) & _). injection Em as ->. cbn in E. destruct (atom_head m t ts r _ Am Pi H E) as (-> & ->). injection E as E. destruct F as (a & r'' & -> & Fa). injection E as -> _. now apply follows_equals.
  - exfalso. rewrite <- app_assoc in E. destruct D as (Dk & _). destruct (Dk _ _ _ _ _ Pj H H1 E) as (-> & ->). apply app_inv_head in E. destruct F' as (a & r'' & -> & Fa). injection E as <- _. now apply follows_colon.
  - rewrite <- !app_assoc in E. destruct D as (Dk & Dv), Pj as (Pk & Pv). destruct (Dk _ _ _ _ _ Pk H H1 E) as (-> & ->). apply app_inv_head in E. injection E as E. destruct (Dv _ _ _ _ _ Pv H0 H2 E) as (-> & ->). auto.
  - exfalso. rewrite <- app_assoc in E. destruct Pi as (Pk & _), Pj as ((m & Em & Am) & _). injection Em as ->. cbn in E. destruct (atom_head m k ks _ _ Am Pk H E) as (-> & ->). discriminate E.
  - exfalso. destruct Pi as ((m & Em & Am) & _). injection Em as ->. cbn in E. destruct (atom_head m t ts' r' _ Am Pj H0 (eq_sym E)) as (-> & ->). injection E as E. destruct F' as (a & r'' & -> & Fa). injection E as <- _. now apply follows_equals.
  - exfalso. rewrite <- app_assoc in E. destruct Pj as (Pk & _), Pi as ((m & Em & Am) & _). injection Em as ->. cbn in E. destruct (atom_head m k ks _ _ Am Pk H0 (eq_sym E)) as (-> & ->). discriminate E.
  - destruct Pj as (_ & Pv). cbn in E. injection E as -> E. destruct (D _ _ _ _ _ Pv H H0 E) as (-> & ->). auto.
Qed.
Lemma item_head i ts : plain_item i -> spells_item i ts -> exists a ts', ts = a :: ts' /\ ~ follows a.
Proof.
  intros P H. inversion H; subst; cbn in P.
  - destruct (head_not_stop _ _ P H0) as (a & ts' & -> & N). exists a, ts'. split; auto. intros F. apply N. now left.
  - destruct P as (Pk & _). destruct (head_not_stop _ _ Pk H0) as (a & ts' & -> & N). eexists a, _. split; [reflexivity|]. intros F. apply N. now left.
  - destruct P as ((m & Em & (_ & N & _)) & _). injection Em as ->. eexists _, _. split; [reflexivity|]. intros [->|F]; apply N; cbn [In]; auto 9. cbn [In] in F. destruct F as [<-|[<-|[<-|[]]]]; auto 9.
Qed.
Lemma listed_head i l c ts : plain_item i -> listed (i :: l) c ts -> exists a ts', ts = a :: ts' /\ ~ follows a.
Proof. intros P H. inversion H; subst; destruct (item_head _ _ P ltac:(eassumption)) as (a & u & -> & N); eexists a, _; (split; [reflexivity|exact N]). Qed.
Lemma listed_cons i l c ts : listed (i :: l) c ts -> exists ts1 u, spells_item i ts1 /\ ts = ts1 ++ u /\ ((l = [] /\ c = false /\ u = []) \/ (l = [] /\ c = true /\ u = [lit ","]) \/ (l <> [] /\ exists ts2, u = lit "," :: ts2 /\ listed l c ts2)).
Proof.
  intros H. inversion H; subst.
  - exists ts, []. rewrite app_nil_r. auto 9.
  - exists ts0, [lit ","]. auto 9.
  - exists ts0, (lit "," :: ts'). split; [auto|]. split; [auto|]. right. right. split; [discriminate|eauto].
Qed.
Lemma closing_comma : ~ closing (lit ",").
Proof. cbn. intuition discriminate. Qed.
Lemma listed_det l : Forall plain_item l -> Forall det_item l -> forall c ts l' c' ts' a r a' r', Forall plain_item l' -> listed l c ts -> listed l' c' ts' -> closing a -> closing a' ->
  ts ++ a :: r = ts' ++ a' :: r' -> l = l' /\ c = c' /\ ts = ts'.
Proof.
  induction 1 as [|i l Pi Pl IH]; intros D c ts l' c' ts' a r a' r' P' L L' C C' E.
  - inversion L; subst. destruct l' as [|j l']; [inversion L'; subst; auto|]. inversion P'; subst. destruct (listed_head _ _ _ _ H1 L') as (b & u & -> & N). cbn in E. injection E as -> _. exfalso. apply N. now right.
  - inversion D; subst. destruct l' as [|j l']. { inversion L'; subst. destruct (listed_head _ _ _ _ Pi L) as (b & u & -> & N). cbn in E. injection E as -> _. exfalso. apply N. now right. }
    inversion P'; subst. destruct (listed_cons _ _ _ _ L) as (t1 & u & S1 & -> & K). destruct (listed_cons _ _ _ _ L') as (t1' & u' & S1' & -> & K').
    rewrite <- !app_assoc in E.
    assert (Fo : forall c l u b s, (l = [] /\ c = false /\ u = []) \/ (l = [] /\ c = true /\ u = [lit ","]) \/ (l <> [] /\ exists ts2, u = lit "," :: ts2 /\ listed l c ts2) -> closing b -> followed (u ++ b :: s)).
    { intros c0 l0 u0 b s [(_ & _ & ->)|[(_ & _ & ->)|(_ & x & -> & _)]] Hb; cbn [app]; eexists _, _; (split; [reflexivity|]); [now right|now left|now left]. }
    destruct (item_det _ _ _ _ _ _ Pi H3 H1 S1 S1' (Fo _ _ _ _ _ K C) (Fo _ _ _ _ _ K' C') E) as (-> & ->). apply app_inv_head in E.
    destruct K as [(-> & -> & ->)|[(-> & -> & ->)|(Nl & x & -> & Lx)]]; destruct K' as [(-> & -> & ->)|[(-> & -> & ->)|(Nl' & x' & -> & Lx')]]; cbn in E; try (injection E as E; subst).
    + auto.
    + exfalso. now apply closing_comma.
    + exfalso. now apply closing_comma.
    + exfalso. now apply closing_comma.
    + auto.
    + exfalso. destruct l' as [|k l']; [congruence|]. inversion H4; subst. destruct (listed_head _ _ _ _ H5 Lx') as (b & w & -> & N). injection E as -> _. apply N. now right.
    + exfalso. now apply closing_comma.
    + exfalso. destruct l as [|k l]; [congruence|]. inversion Pl; subst. destruct (listed_head _ _ _ _ H5 Lx) as (b & w & -> & N). injection E as -> _. apply N. now right.
    + destruct (IH H2 _ _ _ _ _ _ _ _ _ H4 Lx Lx' C C' E) as (-> & -> & ->). auto.
Qed.
Lemma map_plain_inj l l' : map Plain l = map Plain l' -> l = l'.
Proof. revert l'. induction l as [|x l IH]; intros [|y l'] E; try discriminate; auto. injection E as -> E. f_equal. auto. Qed.
Lemma map_pair_inj l l' : map (fun kv => Pair (fst kv) (snd kv)) l = map (fun kv => Pair (fst kv) (snd kv)) l' -> l = l'.
Proof. revert l'. induction l as [|[] l IH]; intros [|[] l'] E; try discriminate; auto. injection E as -> -> E. f_equal. auto. Qed.
Lemma map_kw_inj l l' : map (fun kv => Keyword (fst kv) (snd kv)) l = map (fun kv => Keyword (fst kv) (snd kv)) l' -> l = l'.
Proof. revert l'. induction l as [|[] l IH]; intros [|[] l'] E; try discriminate; auto. injection E as -> -> E. f_equal. auto. Qed.
Lemma args_inj a k a' k' : map Plain a ++ map (fun kv => Keyword (fst kv) (snd kv)) k = map Plain a' ++ map (fun kv => Keyword (fst kv) (snd kv)) k' -> a = a' /\ k = k'.
Proof.
  revert a'. induction a as [|x a IH]; intros [|y a'] E; cbn in E.
  - split; auto. now apply map_kw_inj.
  - destruct k; discriminate.
  - destruct k'; discriminate.
  - injection E as -> E. destruct (IH _ E). subst. auto.
Qed.
Lemma plains l : Forall plain l -> Forall plain_item (map Plain l).
Proof. induction 1; constructor; auto. Qed.
Lemma plain_pairs l : Forall (fun kv => plain (fst kv) /\ plain (snd kv)) l -> Forall plain_item (map (fun kv => Pair (fst kv) (snd kv)) l).
Proof. induction 1; constructor; auto. Qed.
Lemma plain_args a k : Forall plain a -> Forall (fun kv : option str * tree => (exists n, fst kv = Some n /\ atom n) /\ plain (snd kv)) k -> Forall plain_item (map Plain a ++ map (fun kv => Keyword (fst kv) (snd kv)) k).
Proof. intros A K. apply Forall_app. split; [now apply plains|]. induction K; constructor; auto. Qed.
Lemma dets l : Forall plain l -> Forall (fun t => plain t -> det t) l -> Forall det_item (map Plain l).
Proof. induction 1; intros H'; constructor; inversion H'; subst; auto. now apply H3. Qed.
Lemma closing_round : closing (lit ")"). Proof. cbn; auto. Qed.
Lemma closing_square : closing (lit "]"). Proof. cbn; auto. Qed.
Lemma closing_curly : closing (lit "}"). Proof. cbn; auto. Qed.
Lemma name_open f a : atom f -> [a] = f ++ lit "(" -> False.
Proof. intros (N & _) E. destruct f as [|c f]; [congruence|]. destruct f; discriminate. Qed.
Lemma plain_inv t : plain t -> match t with
  | Const r => atom r
  | Tuple l | List l => Forall plain l
  | Dict l => Forall (fun kv => plain (fst kv) /\ plain (snd kv)) l
  | Call (Some f) args kws => atom f /\ Forall plain args /\ Forall (fun kv => (exists n, fst kv = Some n /\ atom n) /\ plain (snd kv)) kws
  | _ => False
  end.
Proof. destruct 1; auto. Qed.
Lemma cons_inv {A} (a b : A) l m : a :: l = b :: m -> a = b /\ l = m.
Proof. intros E. injection E. auto. Qed.
Theorem spells_det t : plain t -> det t.
Proof.
  induction t as [x|l IH|l IH|l IH|f args kws IHa IHk|] using tree_ind2; intros P ts t' ts' r r' P' Sp Sp' E; inversion P as [? Ax|? Pl|? Pl|? Pl|? ? ? Af Pa Pk]; subst; inversion Sp as [|? c us L Lc|? c us L|? c us L|? ? ? c us L]; subst.
  - cbn in E. destruct (atom_head x t' ts' r' r Ax P' Sp' (eq_sym E)) as (-> & ->). auto.
  - inversion Sp' as [|? c' us' L' Lc'|? c' us' L'|? c' us' L'|? ? ? c' us' L']; subst; apply plain_inv in P'; cbn in P'; cbn in E; apply cons_inv in E; destruct E as (E1 & E); try discriminate E1.
    + exfalso. destruct P' as (_ & _ & K). now apply (K []).
    + clear E1. rewrite <- !app_assoc in E. destruct (listed_det _ (plains _ Pl) (dets _ Pl IH) _ _ _ _ _ _ _ _ _ (plains _ P') L L' closing_round closing_round E) as (El & _ & ->). apply map_plain_inj in El. now subst.
    + exfalso. exact (name_open _ _ (proj1 P') E1).
  - inversion Sp' as [|? c' us' L' Lc'|? c' us' L'|? c' us' L'|? ? ? c' us' L']; subst; apply plain_inv in P'; cbn in P'; cbn in E; apply cons_inv in E; destruct E as (E1 & E); try discriminate E1.
    + exfalso. destruct P' as (_ & K & _). apply K. rewrite <- E1. cbn; auto.
    + clear E1. rewrite <- !app_assoc in E. destruct (listed_det _ (plains _ Pl) (dets _ Pl IH) _ _ _ _ _ _ _ _ _ (plains _ P') L L' closing_square closing_square E) as (El & _ & ->). apply map_plain_inj in El. now subst.
    + exfalso. exact (name_open _ _ (proj1 P') E1).
  - inversion Sp' as [|? c' us' L' Lc'|? c' us' L'|? c' us' L'|? ? ? c' us' L']; subst; apply plain_inv in P'; cbn in P'; cbn in E; apply cons_inv in E; destruct E as (E1 & E); try discriminate E1.
    + exfalso. destruct P' as (_ & K & _). apply K. rewrite <- E1. cbn; auto.
    + clear E1. rewrite <- !app_assoc in E.
      assert (D : Forall det_item (map (fun kv => Pair (fst kv) (snd kv)) l)).
      { clear - IH Pl. induction Pl as [|kv l (Pk & Pv) H IHl]; constructor; inversion IH as [|? ? (Hk & Hv) Hl]; subst; [split; auto|auto]. }
      destruct (listed_det _ (plain_pairs _ Pl) D _ _ _ _ _ _ _ _ _ (plain_pairs _ P') L L' closing_curly closing_curly E) as (El & _ & ->). apply map_pair_inj in El. now subst.
    + exfalso. exact (name_open _ _ (proj1 P') E1).
  - inversion Sp' as [|? c' us' L' Lc'|? c' us' L'|? c' us' L'|? ? ? c' us' L']; subst; apply plain_inv in P'; cbn in P'; cbn in E; apply cons_inv in E; destruct E as (E1 & E).
    + exfalso. destruct P' as (_ & _ & K). now apply (K f0).
    + exfalso. exact (name_open _ _ Af (eq_sym E1)).
    + exfalso. exact (name_open _ _ Af (eq_sym E1)).
    + exfalso. exact (name_open _ _ Af (eq_sym E1)).
    + destruct P' as (Af' & Pa' & Pk'). apply app_inv_tail in E1. subst. rewrite <- !app_assoc in E.
      assert (D : Forall det_item (map Plain args ++ map (fun kv => Keyword (fst kv) (snd kv)) kws)).
      { apply Forall_app. split; [now apply dets|]. clear - IHk Pk. induction Pk as [|kv kws (_ & Pv) H IHl]; constructor; inversion IHk; subst; [cbn; auto|auto]. }
      destruct (listed_det _ (plain_args _ _ Pa Pk) D _ _ _ _ _ _ _ _ _ (plain_args _ _ Pa' Pk') L L' closing_round closing_round E) as (El & _ & ->). apply args_inj in El. destruct El as (-> & ->). auto.
Qed.
Theorem spells_unique t t' ts : plain t -> plain t' -> spells t ts -> spells t' ts -> t = t'.
Proof. intros P P' H H'. exact (proj1 (spells_det t P ts t' ts [] [] P' H H' eq_refl)). Qed.
