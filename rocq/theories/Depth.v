(** Merging does not nest deeper; used for the termination of the generators *)
From Verif Require Import Base Element ElementSpec ElementProofs InfoProofs Extend MergeProofs ExpandClosed.

Inductive deep : nat -> element -> Prop :=
| deep_intro n e : (forall c, In c (children e) -> deep n c) -> deep (S n) e.

Lemma deep_le : forall n e, deep n e -> forall m, n <= m -> deep m e.
Proof.
  induction 1 as [n e H IH]; intros m Hm. destruct m as [|m]; [lia|]. constructor. intros c Hc. apply IH; [exact Hc|lia].
Qed.

Lemma deep_all : forall e, exists n, deep n e.
Proof.
  induction e as [e IH] using element_ind'.
  assert (G : forall l, (forall c, In c l -> exists n, deep n c) -> exists n, forall c, In c l -> deep n c).
  { induction l as [|x l IHl]; intros H; [exists 0; intros c []|].
    destruct (H x (or_introl eq_refl)) as [a Ha]. destruct IHl as [b Hb]; [intros c Hc; apply H; now right|].
    exists (a + b). intros c [<-|Hc]; [apply (deep_le _ _ Ha); lia|apply (deep_le _ _ (Hb c Hc)); lia]. }
  destruct (G _ IH) as [n Hn]. exists (S n). now constructor.
Qed.

Lemma deep_child : forall n e c, deep (S n) e -> In c (children e) -> deep n c.
Proof. intros n e c H. inversion H; subst. auto. Qed.
Lemma deep_attr : forall n e k c, deep (S n) e -> ifind (eattrs e) k = Some c -> deep n c.
Proof. intros n e k c H Hc. apply (deep_child n e); [exact H|]. apply (in_attr_child _ k), ifind_In, Hc. Qed.
Lemma deep_data : forall n e c, deep (S n) e -> In c (dsd_children (edata e)) -> deep n c.
Proof. intros n e c H Hc. apply (deep_child n e); [exact H|]. now apply in_data_child. Qed.
Lemma deep_pos : forall n e, deep n e -> exists m, n = S m.
Proof. intros n e H. inversion H. eauto. Qed.

(** every child of e satisfies P *)
Definition kids (P : element -> Prop) (e : element) : Prop := forall c, In c (children e) -> P c.
Definition info_all (P : element -> Prop) (l : info) : Prop := forall k c, In (k, c) l -> P c.

Lemma kids_split : forall (P : element -> Prop) n m a h d, kids P (Elem n m a h d) <->
  info_all P m /\ info_all P a /\ forall c, In c (dsd_children d) -> P c.
Proof.
  intros P n m a h d. unfold kids, children, info_all. cbn. split.
  - intros H. repeat split; intros; apply H.
    + apply in_or_app; left. now apply (in_map snd) in H0.
    + apply in_or_app; right; apply in_or_app; left. now apply (in_map snd) in H0.
    + apply in_or_app; right; apply in_or_app; now right.
  - intros (Hm & Ha & Hd) c Hc. apply in_app_or in Hc as [Hc|Hc]; [|apply in_app_or in Hc as [Hc|Hc]].
    + apply in_map_iff in Hc as ([k x] & <- & Hc). now apply (Hm k).
    + apply in_map_iff in Hc as ([k x] & <- & Hc). now apply (Ha k).
    + now apply Hd.
Qed.

Lemma iset_In : forall A (l : list (string * A)) k v k' v', In (k', v') (iset l k v) -> In (k', v') l \/ v' = v.
Proof.
  induction l as [|[a b] l IH]; cbn; intros k v k' v' H.
  - destruct H as [H|[]]. injection H as <- <-. now right.
  - destruct (String.eqb a k); cbn in H; destruct H as [H|H].
    + injection H as <- <-. now right.
    + left. now right.
    + left. now left.
    + destruct (IH _ _ _ _ H); [left; now right|now right].
Qed.

Lemma info_merge_all : forall (P : element -> Prop) skip s t, info_all P s -> info_all P t -> info_all P (info_merge skip t s).
Proof.
  unfold info_merge. induction s as [|[k x] s IH]; cbn; intros t Hs Ht; [exact Ht|].
  apply IH; [intros a b H; apply (Hs a); now right|].
  destruct (skip k); [exact Ht|]. intros a b H. apply iset_In in H as [H| ->]; [now apply (Ht a)|].
  rewrite clone_cAll. apply (Hs k). now left.
Qed.

Lemma splice_In : forall p m l l' x, splice p m l = Some (Some l') -> In x l' -> In x l \/ x = m.
Proof.
  induction l as [|y l IH]; cbn; intros l' x H Hx; [discriminate|].
  destruct (p y) as [[|]|]; [| |discriminate].
  - injection H as <-. destruct Hx as [<-|Hx]; [now right|left; now right].
  - destruct (splice p m l) as [[r|]|] eqn:E; try discriminate. cbn in H. injection H as <-.
    destruct Hx as [<-|Hx]; [left; now left|]. destruct (IH r x eq_refl Hx); [left; now right|now right].
Qed.

Lemma merge_entry_In : forall l m l' x, merge_entry l m = Some l' -> In x l' -> In x l \/ x = m.
Proof.
  intros l m l' x H Hx. unfold merge_entry in H. rewrite clone_cAll in H.
  assert (D : forall o, match o with None => None | Some (Some l0) => Some l0 | Some None => Some (obj_push_back l m) end = Some l' ->
    (exists l0, o = Some (Some l0) /\ l' = l0) \/ l' = obj_push_back l m).
  { intros [[l0|]|] E; [left|right|discriminate]; [exists l0; split; [reflexivity|congruence]|congruence]. }
  apply D in H. destruct H as [(l0 & E & ->)| ->]; [|apply push_back_In in Hx; exact Hx].
  destruct (ekind m); try discriminate E.
  - destruct (asserted_key m); [|discriminate]. apply (splice_In _ _ _ _ _ E Hx).
  - destruct (ref_symbol m); [|discriminate]. apply (splice_In _ _ _ _ _ E Hx).
Qed.

Lemma foldM_merge_In : forall la l l' x, foldM merge_entry l la = Some l' -> In x l' -> In x l \/ In x la.
Proof.
  induction la as [|m la IH]; cbn; intros l l' x H Hx; [injection H as <-; now left|].
  destruct (merge_entry l m) as [l1|] eqn:E; [|discriminate].
  destruct (IH _ _ _ H Hx) as [H1|H1]; [|right; now right].
  destruct (merge_entry_In _ _ _ _ E H1) as [H2| ->]; [now left|right; now left].
Qed.

Lemma value_merge_kids : forall (P : element -> Prop) t a t', kids P t -> kids P a -> value_merge t a = Some t' -> kids P t'.
Proof.
  intros P [n m a h d] [n' m' a' h' d'] t' Ht Ha H.
  apply kids_split in Ht as (Hm & Hat & Hd). apply kids_split in Ha as (_ & _ & Hd').
  assert (S1 : forall x dd, (forall c, In c (dsd_children dd) -> P c) -> kids P (Elem n m a x dd)).
  { intros x dd Hdd. cbn. apply kids_split. auto. }
  destruct d, d'; cbn [value_merge edata ehas] in H; try discriminate H;
    try (injection H as <-; apply (S1 h); cbn; try tauto; intros c Hc; apply Hd'; cbn; cbn in Hc).
  - (* array *) destruct h; injection H as <-; [|apply kids_split; auto].
    apply (S1 true). cbn. intros c Hc. apply in_app_or in Hc as [Hc|Hc]; [now apply Hd|].
    rewrite (map_ext _ (fun x => x)), map_id in Hc by (intros; apply clone_cAll). now apply Hd'.
  - (* object *) destruct l0 as [|y l0].
    + injection H as <-. apply kids_split; auto.
    + destruct h; cbn [eset edata] in H.
      * destruct (foldM merge_entry l (y :: l0)) as [r|] eqn:E; [|discriminate]. cbn in H. injection H as <-.
        apply kids_split. split; [exact Hm|]. split; [exact Hat|]. cbn. intros c Hc.
        destruct (foldM_merge_In _ _ _ _ E Hc); [now apply Hd|now apply Hd'].
      * destruct (foldM merge_entry [] (y :: l0)) as [r|] eqn:E; [|discriminate]. cbn in H. injection H as <-.
        apply kids_split. split; [exact Hm|]. split; [exact Hat|]. cbn. intros c Hc.
        destruct (foldM_merge_In _ _ _ _ E Hc) as [[]|]; now apply Hd'.
  - (* enum *) destruct d0 as [x|]; cbn in Hc; [|tauto]. destruct Hc as [<-|[]]. rewrite clone_all_id. now left.
Qed.

Lemma drop_equal_In : forall x l l' y, drop_equal x l = Some l' -> In y l' -> In y l.
Proof.
  induction l as [|z l IH]; cbn; intros l' y H Hy; [injection H as <-; exact Hy|].
  destruct (elem_eq x z) as [[|]|]; try discriminate.
  - injection H as <-. now right.
  - destruct (drop_equal x l) as [r|]; [|discriminate]. cbn in H. injection H as <-.
    destruct Hy as [<-|Hy]; [now left|right; now apply (IH r)].
Qed.
Lemma add_enumeration_In : forall la l l' x, foldM add_enumeration l la = Some l' -> In x l' -> In x l \/ In x la.
Proof.
  induction la as [|m la IH]; cbn; intros l l' x H Hx; [injection H as <-; now left|].
  destruct (add_enumeration l m) as [l1|] eqn:E; [|discriminate].
  destruct (IH _ _ _ H Hx) as [H1|H1]; [|right; now right].
  unfold add_enumeration in E. destruct (drop_equal m l) as [r|] eqn:E2; [|discriminate]. cbn in E. injection E as <-.
  apply in_app_or in H1 as [H1|[<-|[]]]; [left; now apply (drop_equal_In m l r)|]. rewrite clone_cAll. right. now left.
Qed.

Definition array_closed (P : element -> Prop) : Prop := forall n1 m1 a1 l0 n2 m2 a2 l r,
  P (Elem n1 m1 a1 true (DArray l0)) -> P (Elem n2 m2 a2 true (DArray l)) ->
  (forall c, In c r -> In c l0 \/ In c l) -> P (Elem n1 m1 a1 true (DArray r)).

Lemma enumerations_merge_all : forall (P : element -> Prop) t a r, array_closed P -> info_all P t -> info_all P a ->
  enumerations_merge t a = Some r -> info_all P r.
Proof.
  intros P t a r Cl Ht Ha H. unfold enumerations_merge in H.
  destruct (ifind a "enumerations") as [ae|] eqn:Ea; [|injection H as <-; exact Ht].
  destruct (eget ae) as [[]|] eqn:Eg; try discriminate H.
  destruct l as [|y l]; [injection H as <-; exact Ht|].
  destruct (ifind t "enumerations") as [te|] eqn:Et.
  - destruct (eget te) as [[]|] eqn:Eg2; try discriminate H.
    destruct (foldM add_enumeration l0 (y :: l)) as [r'|] eqn:Ef; [|discriminate H]. cbn in H. injection H as <-.
    intros k c Hc. apply iset_In in Hc as [Hc| ->]; [now apply (Ht k)|].
    pose proof (Ht _ _ (ifind_In _ _ _ _ Et)) as Dt. pose proof (Ha _ _ (ifind_In _ _ _ _ Ea)) as Da.
    destruct te as [n1 m1 a1 h1 d1], ae as [n2 m2 a2 h2 d2]. unfold eget in Eg, Eg2. cbn in Eg, Eg2.
    destruct h1; [|discriminate]. destruct h2; [|discriminate]. injection Eg as ->. injection Eg2 as ->.
    cbn [eset]. apply (Cl _ _ _ _ _ _ _ _ _ Dt Da). intros c Hc. apply (add_enumeration_In _ _ _ _ Ef Hc).
  - injection H as <-. intros k c Hc. apply iset_In in Hc as [Hc| ->]; [now apply (Ht k)|].
    rewrite clone_cAll. apply (Ha _ _ (ifind_In _ _ _ _ Ea)).
Qed.

Lemma of_option_ok : forall A (o : option A) x, of_option o = Ok x -> o = Some x.
Proof. intros A [a|] x H; cbn in H; congruence. Qed.

Lemma merge_step_kids : forall (P : element -> Prop) t e t', array_closed P -> kids P t -> kids P e -> merge_step t e = Ok t' -> kids P t'.
Proof.
  intros P t e t' Cl Kt Ke H.
  destruct t as [n1 m1 a1 h1 d1]. pose proof Ke as Ke'. destruct e as [n2 m2 a2 h2 d2].
  apply kids_split in Kt as (A & B & C). apply kids_split in Ke as (D & E & F).
  assert (G : forall at', info_all P at' ->
    forall t'', (if h2 then value_merge (Elem n1 (info_merge skip_meta_keywords m1 m2) at' h1 d1) (Elem n2 m2 a2 h2 d2)
       else Some (Elem n1 (info_merge skip_meta_keywords m1 m2) at' h1 d1)) = Some t'' -> kids P t'').
  { intros at' Hat t'' Hm.
    assert (K : kids P (Elem n1 (info_merge skip_meta_keywords m1 m2) at' h1 d1)).
    { apply kids_split. split; [now apply info_merge_all|]. split; [exact Hat|exact C]. }
    destruct h2; [|injection Hm as <-; exact K].
    apply (value_merge_kids _ _ _ _ K Ke' Hm). }
  unfold merge_step in H. destruct (negb _); [discriminate H|].
  destruct (ekind (Elem n1 m1 a1 h1 d1)); try discriminate H; apply of_option_ok in H;
    try (unfold element_merge in H; cbn [set_meta set_attrs emeta eattrs ehas] in H;
         apply (G (info_merge skip_nothing a1 a2)); [now apply info_merge_all|exact H]).
  unfold enum_merge in H; cbn [set_meta set_attrs emeta eattrs ehas] in H.
  destruct (enumerations_merge (info_merge skip_enumerations a1 a2) a2) as [at'|] eqn:Em; [|discriminate H].
  apply (G at'); [|exact H]. apply (enumerations_merge_all P) in Em; [exact Em|exact Cl| |exact E]. now apply info_merge_all.
Qed.

Lemma merge_ind : forall (I : element -> Prop),
  (forall t e t', I t -> I e -> merge_step t e = Ok t' -> I t') ->
  forall l m, (forall x, In x l -> I x) -> merge l = Ok (Some m) -> I m.
Proof.
  intros I St [|e r] m H Hm; [discriminate|]. rewrite merge_unfold in Hm.
  assert (G : forall r t t', I t -> (forall x, In x r -> I x) -> merge_from t r = Ok t' -> I t').
  { clear - St. induction r as [|x r IH]; cbn; intros t t' Ht Hr H; [injection H as <-; exact Ht|].
    destruct (merge_step t x) as [t1| |] eqn:E; try discriminate.
    apply (IH t1); [|intros y Hy; apply Hr; now right|exact H].
    apply (St _ _ _ Ht (Hr x (or_introl eq_refl)) E). }
  destruct (merge_from e r) as [t| |] eqn:E; try discriminate. injection Hm as <-.
  apply (G r e t); [apply H; now left|intros x Hx; apply H; now right|exact E].
Qed.

Lemma deep_array_closed : forall n, array_closed (deep n).
Proof.
  intros n n1 m1 a1 l0 n2 m2 a2 l r H1 H2 H. destruct n as [|n]; [inversion H1|].
  constructor. change (kids (deep n) (Elem n1 m1 a1 true (DArray r))).
  assert (K1 : kids (deep n) (Elem n1 m1 a1 true (DArray l0))) by (intros c; apply (deep_child _ _ _ H1)).
  assert (K2 : kids (deep n) (Elem n2 m2 a2 true (DArray l))) by (intros c; apply (deep_child _ _ _ H2)).
  apply kids_split in K1 as (A & B & C). apply kids_split in K2 as (_ & _ & D).
  apply kids_split. split; [exact A|]. split; [exact B|]. cbn. intros c Hc.
  destruct (H c Hc); [now apply C|now apply D].
Qed.

Lemma merge_deep : forall n l m, (forall x, In x l -> deep n x) -> merge l = Ok (Some m) -> deep n m.
Proof.
  intros n l m. apply merge_ind. clear. intros t e t' Ht He H. destruct (deep_pos _ _ Ht) as [k ->].
  constructor. apply (merge_step_kids _ t e t' (deep_array_closed k)); [| |exact H];
    intros c; [apply (deep_child _ _ _ Ht)|apply (deep_child _ _ _ He)].
Qed.

(** the data of the merged element is that of an element of the chain, or a list of entries *)
Lemma merge_step_data : forall t e t', merge_step t e = Ok t' ->
  edata t' = edata t \/ edata t' = edata e \/ exists l, edata t' = DArray l \/ edata t' = DObject l.
Proof.
  intros [n1 m1 a1 h1 d1] [n2 m2 a2 h2 d2] t' H.
  assert (V : forall m at' t'', (if h2 then value_merge (Elem n1 m at' h1 d1) (Elem n2 m2 a2 h2 d2)
       else Some (Elem n1 m at' h1 d1)) = Some t'' ->
       edata t'' = d1 \/ edata t'' = d2 \/ exists l, edata t'' = DArray l \/ edata t'' = DObject l).
  { intros m at' t'' Hv. destruct h2; [|injection Hv as <-; now left].
    destruct d1, d2; cbn [value_merge edata ehas] in Hv; try discriminate Hv;
      try (injection Hv as <-; right; left; cbn; reflexivity).
    - destruct h1; injection Hv as <-; [right; right; eexists; left; reflexivity|now left].
    - destruct l0 as [|y l0]; [injection Hv as <-; now left|].
      destruct h1; cbn [eset edata] in Hv.
      + destruct (foldM merge_entry l (y :: l0)); [|discriminate]. cbn in Hv. injection Hv as <-. right; right; eexists; right; reflexivity.
      + destruct (foldM merge_entry [] (y :: l0)); [|discriminate]. cbn in Hv. injection Hv as <-. right; right; eexists; right; reflexivity.
    - injection Hv as <-. right. left. cbn. destruct d0; [|reflexivity]. cbn. now rewrite clone_all_id. }
  unfold merge_step in H. destruct (negb _); [discriminate H|].
  destruct (ekind (Elem n1 m1 a1 h1 d1)); try discriminate H; apply of_option_ok in H;
    try (unfold element_merge in H; cbn [set_meta set_attrs emeta eattrs ehas] in H; apply V in H; exact H).
  unfold enum_merge in H; cbn [set_meta set_attrs emeta eattrs ehas] in H.
  destruct (enumerations_merge (info_merge skip_enumerations a1 a2) a2) as [at'|]; [|discriminate H].
  apply V in H. exact H.
Qed.

(** a property of the data of all parts survives merging *)
Definition allsub (Q : dsd element -> Prop) (e : element) : Prop := forall x, sub x e -> Q (edata x).

Lemma allsub_split : forall Q e, allsub Q e <-> Q (edata e) /\ kids (allsub Q) e.
Proof.
  intros Q e. split.
  - intros H. split; [apply H, sub_refl|]. intros c Hc x Hx. apply H. now apply sub_step with c.
  - intros [H K] x Hx. inversion Hx; subst; [exact H|]. now apply (K c).
Qed.

Lemma merge_allsub : forall (Q : dsd element -> Prop), (forall l, Q (DArray l)) -> (forall l, Q (DObject l)) ->
  forall l m, (forall x, In x l -> allsub Q x) -> merge l = Ok (Some m) -> allsub Q m.
Proof.
  intros Q QA QO. apply merge_ind. intros t e t' Ht He H.
  apply allsub_split in Ht as [Ht Kt]. apply allsub_split in He as [He Ke]. apply allsub_split. split.
  - destruct (merge_step_data _ _ _ H) as [->|[->|(l & [->| ->])]]; auto.
  - apply (merge_step_kids _ t e); auto.
    intros n1 m1 a1 l0 n2 m2 a2 l r H1 H2 Hr. apply allsub_split. split; [apply QA|].
    apply allsub_split in H1 as [_ K1]. apply allsub_split in H2 as [_ K2].
    apply kids_split in K1 as (A & B & C). apply kids_split in K2 as (_ & _ & D).
    apply kids_split. split; [exact A|]. split; [exact B|]. cbn. intros c Hc.
    destruct (Hr c Hc); [now apply C|now apply D].
Qed.
