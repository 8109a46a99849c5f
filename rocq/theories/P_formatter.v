(** Formatting of expressions. *)
From Coq Require Import Ascii String.
From Coq Require Import NArith List Bool Arith Lia.
From Verif Require Import PyStr PyStrFacts M_formatter Spec_formatter.
Import ListNotations.
Open Scope N_scope.

Section Ind.
Context (P : tree -> Prop) (HC : forall r, P (Const r)) (HT : forall l, Forall P l -> P (Tuple l)) (HL : forall l, Forall P l -> P (List l))
  (HD : forall l, Forall (fun kv => P (fst kv) /\ P (snd kv)) l -> P (Dict l))
  (HF : forall f args kws, Forall P args -> Forall (fun kv => P (snd kv)) kws -> P (Call f args kws)) (HO : P Other).
Fixpoint tree_ind2 (t : tree) : P t :=
  match t with
  | Const r => HC r
  | Tuple l => HT l ((fix go l : Forall P l := match l with [] => Forall_nil _ | x :: l' => Forall_cons _ (tree_ind2 x) (go l') end) l)
  | List l => HL l ((fix go l : Forall P l := match l with [] => Forall_nil _ | x :: l' => Forall_cons _ (tree_ind2 x) (go l') end) l)
  | Dict l => HD l ((fix go l : Forall (fun kv => P (fst kv) /\ P (snd kv)) l := match l with [] => Forall_nil _ | x :: l' => Forall_cons x (conj (tree_ind2 (fst x)) (tree_ind2 (snd x))) (go l') end) l)
  | Call f args kws => HF f args kws ((fix go l : Forall P l := match l with [] => Forall_nil _ | x :: l' => Forall_cons _ (tree_ind2 x) (go l') end) args)
      ((fix go l : Forall (fun kv => P (snd kv)) l := match l with [] => Forall_nil _ | x :: l' => Forall_cons x (tree_ind2 (snd x)) (go l') end) kws)
  | Other => HO
  end.
End Ind.

(** * Layout *)
Lemma laid_out_app a b x y ws : laid_out a x -> laid_out b y -> blank ws -> laid_out (a ++ b) (x ++ ws ++ y).
Proof.
  intros A B W. induction A as [t|t ts v s A IH V]; cbn.
  - now constructor.
  - rewrite <- !app_assoc. constructor; [exact IH|exact V].
Qed.
Lemma blank_nil : blank [].
Proof. constructor. Qed.
Lemma blank_spaces n : blank (spaces n).
Proof. unfold blank, spaces. apply Forall_forall. intros c H. apply repeat_spec in H. auto. Qed.
Lemma blank_app a b : blank a -> blank b -> blank (a ++ b).
Proof. intros. now apply Forall_app. Qed.
(** Text between brackets *)
Definition mid (ts : list str) (s : str) : Prop := forall cl v close, laid_out cl close -> blank v -> exists ws x, blank ws /\ s ++ v ++ close = ws ++ x /\ laid_out (ts ++ cl) x.
Lemma mid_nil ws : blank ws -> mid [] ws.
Proof. intros W cl v close H V. exists (ws ++ v), close. split; [now apply blank_app|]. split; [now rewrite app_assoc|exact H]. Qed.
Lemma mid_blank ts ws s : blank ws -> mid ts s -> mid ts (ws ++ s).
Proof. intros W M cl v close H V. destruct (M cl v close H V) as (u & x & B & E & L). exists (ws ++ u), x. split; [now apply blank_app|]. split; [|exact L]. rewrite <- !app_assoc. now rewrite E. Qed.
Lemma mid_cons ts text ts' s' : laid_out ts text -> mid ts' s' -> mid (ts ++ ts') (text ++ s').
Proof.
  intros L M cl v close H V. destruct (M cl v close H V) as (ws' & x & W' & E & L'). exists [], (text ++ ws' ++ x). split; [apply blank_nil|]. split.
  - cbn. rewrite <- !app_assoc, E. reflexivity.
  - rewrite <- app_assoc. now apply laid_out_app.
Qed.
Lemma mid_around ts s st v cl close : mid ts s -> laid_out cl close -> blank v -> laid_out (st :: ts ++ cl) (st ++ s ++ v ++ close).
Proof. intros M C V. destruct (M cl v close C V) as (ws & x & W & E & L). rewrite E. now constructor. Qed.
Definition good (f : nat -> result str) (i : item) : Prop := forall n, exists text ts, f n = Ok (spaces n ++ text) /\ spells_item i ts /\ laid_out ts text.
Definition body (multiline : bool) (indent : nat) := fix go (l : list (nat -> result str)) : result str :=
    match l with
    | [] => Ok []
    | f :: l' =>
        let! x := f (if multiline then indent + 4 else 0)%nat in
        let! y := go l' in
        Ok (x ++ (if multiline then lit "," ++ [10] else match l' with [] => [] | _ => lit ", " end) ++ y)
    end.
Lemma body_multi indent fs is : Forall2 good fs is -> exists s ts c, body true indent fs = Ok s /\ listed is c ts /\ (is <> [] -> c = true) /\ mid ts s.
Proof.
  induction 1 as [|f i fs is G H IH].
  - exists [], [], false. repeat split; [constructor|congruence|apply mid_nil, blank_nil].
  - destruct IH as (s & ts' & c & B & L & C & M). destruct (G (indent + 4)%nat) as (text & ts & F & Si & Lo). cbn [body]. rewrite F. cbn [bind]. fold (body true indent). rewrite B. cbn [bind].
    assert (M' : mid (ts ++ lit "," :: ts') ((spaces (indent + 4) ++ text) ++ (lit "," ++ [10]) ++ s)).
    { rewrite <- !app_assoc. apply mid_blank; [apply blank_spaces|]. apply mid_cons; [exact Lo|]. apply (mid_cons [lit ","]); [constructor|]. apply mid_blank; [constructor; auto|exact M]. }
    destruct is as [|j is].
    + inversion L; subst. eexists _, (ts ++ [lit ","]), true. split; [reflexivity|]. split; [now constructor|]. split; [auto|exact M'].
    + eexists _, (ts ++ lit "," :: ts'), c. split; [reflexivity|]. split; [now constructor|]. split; [intros _; apply C; discriminate|exact M'].
Qed.
Lemma body_flat indent fs is : Forall2 good fs is -> exists s ts, body false indent fs = Ok s /\ listed is false ts /\ mid ts s.
Proof.
  induction 1 as [|f i fs is G H IH].
  - exists [], []. repeat split; [constructor|apply mid_nil, blank_nil].
  - destruct IH as (s & ts' & B & L & M). destruct (G 0%nat) as (text & ts & F & Si & Lo). cbn [body]. rewrite F. cbn [bind]. fold (body false indent). rewrite B. cbn [bind]. cbn [spaces repeat app].
    destruct H as [|f' j fs is G' H].
    + inversion L; subst. cbn in B. injection B as <-. exists (text ++ []), ts. split; [reflexivity|]. split; [now constructor|].
      rewrite <- (app_nil_r ts). apply mid_cons; [exact Lo|apply mid_nil, blank_nil].
    + eexists _, (ts ++ lit "," :: ts'). split; [reflexivity|]. split; [now constructor|]. apply mid_cons; [exact Lo|].
      apply (mid_cons [lit ","] (lit ",") ts' ([32] ++ s)); [constructor|]. apply mid_blank; [constructor; auto|exact M].
Qed.
Lemma enclosed_multi indent st cl fs is : Forall2 good fs is -> exists s ts c, enclosed true indent st cl fs = Ok s /\ listed is c ts /\ (is <> [] -> c = true) /\ laid_out (st :: ts ++ [cl]) s.
Proof.
  intros H. destruct (body_multi indent fs is H) as (s & ts & c & B & L & C & M). unfold enclosed. fold (body true indent). rewrite B. cbn [bind].
  eexists _, ts, c. split; [reflexivity|]. split; [exact L|]. split; [exact C|]. rewrite (app_assoc [10]). apply mid_around; [apply mid_blank; [constructor; auto|exact M]|constructor|apply blank_spaces].
Qed.
Lemma enclosed_flat indent st cl close fs is : laid_out cl close -> Forall2 good fs is -> exists s ts, enclosed false indent st close fs = Ok s /\ listed is false ts /\ laid_out (st :: ts ++ cl) s.
Proof.
  intros K H. destruct (body_flat indent fs is H) as (s & ts & B & L & M). unfold enclosed. fold (body false indent). rewrite B. cbn [bind].
  eexists _, ts. split; [reflexivity|]. split; [exact L|]. cbn [app]. apply (mid_around ts s st [] cl close); [exact M|exact K|apply blank_nil].
Qed.
(** * The formatter *)
Definition inner (threshold : nat) (multiline : bool) (indent : nat) (node : tree) : result str :=
      match node with
      | Const r => Ok r
      | Tuple l => enclosed multiline indent (lit "(") (if multiline || negb (Nat.eqb (length l) 1) then lit ")" else lit ",)") (map (fun e i => fmt threshold e i []) l)
      | List l => enclosed multiline indent (lit "[") (lit "]") (map (fun e i => fmt threshold e i []) l)
      | Dict l =>
          let! keys := all_ok (map (fun kv => fmt threshold (fst kv) 0%nat []) l) in
          enclosed multiline indent (lit "{") (lit "}") (map (fun x i => snd x i (prefix_of (Some (fst x)) (lit ": "))) (combine keys (map (fun kv => fmt threshold (snd kv)) l)))
      | Call None _ _ => Err AttributeError
      | Call (Some f) args kws =>
          enclosed multiline indent (f ++ lit "(") (lit ")") (map (fun e i => fmt threshold e i []) args ++ map (fun kv i => fmt threshold (snd kv) i (prefix_of (fst kv) (lit "="))) kws)
      | Other => Err SpecfileException
      end.
Lemma fmt_inner threshold node indent prefix : fmt threshold node indent prefix =
  let! flat := (let! text := inner threshold false indent node in Ok (spaces indent ++ prefix ++ text)) in
  if Nat.ltb threshold (length flat) then (let! text := inner threshold true indent node in Ok (spaces indent ++ prefix ++ text)) else Ok flat.
Proof. destruct node as [| | | |[]|]; reflexivity. Qed.
Definition formats (threshold : nat) (t : tree) : Prop := forall indent prefix, exists text ts, fmt threshold t indent prefix = Ok (spaces indent ++ prefix ++ text) /\ spells t ts /\ laid_out ts text.
Lemma inner_formats threshold t : (forall multiline indent, exists text ts, inner threshold multiline indent t = Ok text /\ spells t ts /\ laid_out ts text) -> formats threshold t.
Proof.
  intros H indent prefix. rewrite fmt_inner. destruct (H false indent) as (x & ts & E & Sp & L). destruct (H true indent) as (y & ts' & E' & Sp' & L'). rewrite E. cbn [bind].
  destruct (Nat.ltb _ _); [rewrite E'; cbn [bind]|]; eauto 6.
Qed.
Lemma good_plain threshold t : formats threshold t -> good (fun i => fmt threshold t i []) (Plain t).
Proof. intros H n. destruct (H n []) as (text & ts & E & Sp & L). exists text, ts. split; [exact E|]. split; [now constructor|exact L]. Qed.
Lemma good_keyword threshold n t : n <> [] -> formats threshold t -> good (fun i => fmt threshold t i (prefix_of (Some n) (lit "="))) (Keyword (Some n) t).
Proof.
  intros N H i. destruct (H i (n ++ lit "=")) as (text & ts & E & Sp & L). exists ((n ++ lit "=") ++ text), (n :: lit "=" :: ts). split; [destruct n; [congruence|exact E]|]. split; [now constructor|].
  rewrite <- app_assoc. apply (lo_more n _ []); [|apply blank_nil]. apply (lo_more (lit "=") _ []); [exact L|apply blank_nil].
Qed.
Lemma good_pair threshold k key ks t : key <> [] -> spells k ks -> laid_out ks key -> formats threshold t -> good (fun i => fmt threshold t i (prefix_of (Some key) (lit ": "))) (Pair k t).
Proof.
  intros N Sk Lk H i. destruct (H i (key ++ lit ": ")) as (text & ts & E & Sp & L). exists ((key ++ lit ": ") ++ text), (ks ++ lit ":" :: ts). split; [destruct key; [congruence|exact E]|]. split; [now constructor|].
  rewrite <- app_assoc. apply (laid_out_app _ _ _ _ []); [exact Lk| |apply blank_nil]. apply (lo_more (lit ":") _ [32]); [exact L|constructor; auto].
Qed.
Lemma spells_nonempty t ts : plain t -> spells t ts -> exists a ts', ts = a :: ts' /\ a <> [].
Proof. intros P H. inversion H; subst; inversion P; subst; eexists _, _; (split; [reflexivity|]); try discriminate; [now destruct H1|]. now destruct f. Qed.
Lemma laid_nonempty a ts s : a <> [] -> laid_out (a :: ts) s -> s <> [].
Proof. intros N L. inversion L; subst; [exact N|]. destruct a; [congruence|discriminate]. Qed.
Lemma good_plains threshold l : Forall (formats threshold) l -> Forall2 good (map (fun e i => fmt threshold e i []) l) (map Plain l).
Proof. induction 1; constructor; auto. now apply good_plain. Qed.
Lemma good_dict threshold l : Forall (fun kv => plain (fst kv) /\ formats threshold (fst kv) /\ formats threshold (snd kv)) l ->
  exists keys, all_ok (map (fun kv => fmt threshold (fst kv) 0%nat []) l) = Ok keys /\
    Forall2 good (map (fun x i => snd x i (prefix_of (Some (fst x)) (lit ": "))) (combine keys (map (fun kv => fmt threshold (snd kv)) l))) (map (fun kv => Pair (fst kv) (snd kv)) l).
Proof.
  induction 1 as [|kv l (Pk & K & V) H IH].
  - exists []. split; [reflexivity|constructor].
  - destruct IH as (keys & E & G). destruct (K 0%nat []) as (key & ks & Ek & Sk & Lk). exists (key :: keys). split.
    + cbn. cbn in Ek. rewrite Ek. cbn [bind]. now rewrite E.
    + cbn [map combine fst snd]. constructor; [|exact G]. destruct (spells_nonempty _ _ Pk Sk) as (a & ts' & -> & Na). eapply good_pair; eauto. eapply laid_nonempty; eauto.
Qed.
Theorem plain_formats threshold t : plain t -> formats threshold t.
Proof.
  induction t as [r|l IH|l IH|l IH|f args kws IHa IHk|] using tree_ind2; intros P; apply inner_formats; intros multiline indent; inversion P; subst; cbn [inner].
  - exists r, [r]. repeat constructor.
  - assert (G : Forall2 good (map (fun e i => fmt threshold e i []) l) (map Plain l)) by (apply good_plains; rewrite Forall_forall in *; auto).
    destruct multiline; cbn [orb].
    + destruct (enclosed_multi indent (lit "(") (lit ")") _ _ G) as (s & ts & c & E & L & C & Lo). exists s. eexists. split; [exact E|]. split; [|exact Lo]. econstructor; [exact L|]. intros N. apply C. now destruct l.
    + destruct (Nat.eqb_spec (length l) 1) as [N|N]; cbn [negb].
      * destruct (enclosed_flat indent (lit "(") [lit ","; lit ")"] (lit ",)") _ _ (lo_more (lit ",") [lit ")"] [] (lit ")") (lo_one _) blank_nil) G) as (s & ts & E & L & Lo). exists s. eexists. split; [exact E|]. split; [|exact Lo].
        destruct l as [|e [|]]; try discriminate. cbn in L. inversion L; subst. change (ts ++ [lit ","; lit ")"]) with (ts ++ [lit ","] ++ [lit ")"]). rewrite app_assoc. apply (sp_tuple [e] true); [now constructor|auto].
      * destruct (enclosed_flat indent (lit "(") [lit ")"] (lit ")") _ _ (lo_one _) G) as (s & ts & E & L & Lo). exists s. eexists. split; [exact E|]. split; [|exact Lo]. econstructor; [exact L|]. congruence.
  - assert (G : Forall2 good (map (fun e i => fmt threshold e i []) l) (map Plain l)) by (apply good_plains; rewrite Forall_forall in *; auto).
    destruct multiline; [destruct (enclosed_multi indent (lit "[") (lit "]") _ _ G) as (s & ts & c & E & L & C & Lo)|destruct (enclosed_flat indent (lit "[") [lit "]"] (lit "]") _ _ (lo_one _) G) as (s & ts & E & L & Lo)];
      exists s; eexists; (split; [exact E|]); (split; [|exact Lo]); econstructor; exact L.
  - destruct (good_dict threshold l) as (keys & K & G). { rewrite Forall_forall in *. intros kv Hkv. destruct (IH kv Hkv), (H0 kv Hkv). auto. } rewrite K. cbn [bind].
    destruct multiline; [destruct (enclosed_multi indent (lit "{") (lit "}") _ _ G) as (s & ts & c & E & L & C & Lo)|destruct (enclosed_flat indent (lit "{") [lit "}"] (lit "}") _ _ (lo_one _) G) as (s & ts & E & L & Lo)];
      exists s; eexists; (split; [exact E|]); (split; [|exact Lo]); econstructor; exact L.
  - assert (G : Forall2 good (map (fun e i => fmt threshold e i []) args ++ map (fun kv i => fmt threshold (snd kv) i (prefix_of (fst kv) (lit "="))) kws) (map Plain args ++ map (fun kv => Keyword (fst kv) (snd kv)) kws)).
    { apply Forall2_app; [apply good_plains; rewrite Forall_forall in *; auto|]. clear - IHk H4. induction H4 as [|kv kws ((n & En & An) & Pv) H IH]; cbn [map]; constructor.
      - rewrite En. apply good_keyword; [apply An|]. inversion IHk; auto.
      - apply IH. now inversion IHk. }
    destruct multiline; [destruct (enclosed_multi indent (f0 ++ lit "(") (lit ")") _ _ G) as (s & ts & c & E & L & C & Lo)|destruct (enclosed_flat indent (f0 ++ lit "(") [lit ")"] (lit ")") _ _ (lo_one _) G) as (s & ts & E & L & Lo)];
      exists s; eexists; (split; [exact E|]); (split; [|exact Lo]); econstructor; exact L.
Qed.
