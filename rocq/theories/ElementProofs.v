From Verif Require Import Base Element ElementSpec.

(** size and induction *)
Fixpoint lsum (l : list nat) : nat := match l with [] => 0 | x :: r => x + lsum r end.
Definition dsd_sum {A} (f : A -> nat) (d : dsd A) : nat :=
  match d with
  | DHolder (Some x) | DEnum (Some x) => f x
  | DMember k v => (match k with Some x => f x | None => 0 end) + (match v with Some x => f x | None => 0 end)
  | DArray l | DObject l | DExtend l | DOption l | DSelect l => lsum (map f l)
  | _ => 0
  end.
Fixpoint esize (e : element) : nat :=
  let 'Elem _ m a _ d := e in
  S (lsum (map (fun kv => esize (snd kv)) m) + lsum (map (fun kv => esize (snd kv)) a) + dsd_sum esize d).

Lemma lsum_in : forall A (f : A -> nat) l x, In x l -> f x <= lsum (map f l).
Proof.
  induction l as [|y l IH]; cbn; intros x H; [tauto|].
  destruct H as [->|H]; [lia|]. specialize (IH x H). lia.
Qed.

Lemma lsum_in_snd : forall (l : info) x, In x (map snd l) ->
  esize x <= lsum (map (fun kv => esize (snd kv)) l).
Proof.
  intros l x H. apply in_map_iff in H as ([k y] & E & H). cbn in E. subst.
  apply (lsum_in _ (fun kv : string * element => esize (snd kv)) l _ H).
Qed.

Lemma dsd_sum_in : forall d x, In x (dsd_children d) -> esize x <= dsd_sum esize d.
Proof.
  intros d x H. destruct d as [|[y|]| | | |l|k v|l|[y|]| |l|l|l]; cbn in *; try tauto;
    try (destruct H as [->|H]; [lia|tauto]); try (apply (lsum_in _ esize l x H)).
  apply in_app_or in H as [H|H].
  - destruct k; cbn in H; [destruct H as [->|H]; [lia|tauto]|tauto].
  - destruct v; cbn in H; [destruct H as [->|H]; [lia|tauto]|tauto].
Qed.

Lemma child_smaller : forall e c, In c (children e) -> esize c < esize e.
Proof.
  intros [n m a h d] c H. unfold children in H. cbn [emeta eattrs edata] in H. cbn [esize].
  apply in_app_or in H as [H|H]; [|apply in_app_or in H as [H|H]].
  - apply lsum_in_snd in H. lia.
  - apply lsum_in_snd in H. lia.
  - apply dsd_sum_in in H. lia.
Qed.

Theorem element_ind' (P : element -> Prop) :
  (forall e, (forall c, In c (children e) -> P c) -> P e) -> forall e, P e.
Proof.
  intros H e.
  assert (G : forall n e, esize e < n -> P e).
  { induction n as [|n IH]; intros x Hx; [lia|]. apply H. intros c Hc. apply IH.
    apply child_smaller in Hc. lia. }
  apply (G (S (esize e))). lia.
Qed.

Lemma in_meta_child : forall e k x, In (k, x) (emeta e) -> In x (children e).
Proof. intros e k x H. unfold children. apply in_or_app. left. now apply (in_map snd) in H. Qed.
Lemma in_attr_child : forall e k x, In (k, x) (eattrs e) -> In x (children e).
Proof.
  intros e k x H. unfold children. apply in_or_app. right. apply in_or_app. left.
  now apply (in_map snd) in H.
Qed.
Lemma in_data_child : forall e x, In x (dsd_children (edata e)) -> In x (children e).
Proof. intros e x H. unfold children. apply in_or_app. right. apply in_or_app. now right. Qed.

Lemma no_null_child : forall e c, no_null e -> In c (children e) -> no_null c.
Proof. intros e c H Hc x Hx. apply H. now apply sub_step with c. Qed.
Lemma no_null_head : forall e, no_null e -> head_ok e.
Proof. intros e H. apply H, sub_refl. Qed.
Lemma no_null_intro : forall e, head_ok e -> (forall c, In c (children e) -> no_null c) -> no_null e.
Proof. intros e H Hc x Hx. inversion Hx; subst; [exact H|]. now apply (Hc c). Qed.

(** mapping lemmas *)
Lemma map_fst_snd_id : forall (f : element -> element) (l : info),
  (forall k x, In (k, x) l -> f x = x) -> map (fun kv => (fst kv, f (snd kv))) l = l.
Proof.
  induction l as [|[k x] l IH]; intros H; [reflexivity|]. cbn. rewrite (H k x) by now left.
  f_equal. apply IH. intros k' y Hy. apply (H k' y). now right.
Qed.

Lemma dsd_map_ext : forall A B (f g : A -> B) d,
  (forall x, In x (dsd_children d) -> f x = g x) -> dsd_map f d = dsd_map g d.
Proof.
  intros A B f g d H. destruct d as [|[y|]| | | |l|k v|l|[y|]| |l|l|l]; cbn in *; try reflexivity;
    try (now rewrite H by now left); try (f_equal; apply map_ext_in; intros z Hz; now apply H).
  destruct k as [k|], v as [v|]; cbn in *; repeat rewrite H by auto; reflexivity.
Qed.

Lemma dsd_map_id : forall A (f : A -> A) d,
  (forall x, In x (dsd_children d) -> f x = x) -> dsd_map f d = d.
Proof.
  intros A f d H. rewrite (dsd_map_ext _ _ f (fun x => x)) by exact H.
  destruct d as [|[y|]| | | |l|k v|l|[y|]| |l|l|l]; cbn; try reflexivity; try (now rewrite map_id).
  now destruct k, v.
Qed.

Lemma dsd_map_map : forall A B C (f : A -> B) (g : B -> C) d,
  dsd_map g (dsd_map f d) = dsd_map (fun x => g (f x)) d.
Proof.
  intros A B C f g d. destruct d as [|[y|]| | | |l|k v|l|[y|]| |l|l|l]; cbn; try reflexivity;
    try (now rewrite map_map). now destruct k, v.
Qed.

Lemma dsd_kind_map : forall A B (f : A -> B) d, dsd_kind (dsd_map f d) = dsd_kind d.
Proof. now destruct d. Qed.

Lemma dsd_kind_default : forall k, dsd_kind (dsd_default k) = k.
Proof. now destruct k. Qed.

(** clone with cAll is a deep copy *)
Theorem clone_all_id : forall e, clone_all e = e.
Proof.
  induction e as [e IH] using element_ind'. destruct e as [n m a h d]. cbn.
  rewrite (map_fst_snd_id clone_all m), (map_fst_snd_id clone_all a), dsd_map_id; auto;
    intros; apply IH.
  - now apply in_data_child.
  - now apply in_attr_child with k.
  - now apply in_meta_child with k.
Qed.

Lemma copy_id : forall l : info, map (fun kv => (fst kv, clone_all (snd kv))) l = l.
Proof. intros l. apply map_fst_snd_id. intros. apply clone_all_id. Qed.

Lemma clone_unfold : forall f e, clone f e =
  Elem (if cElement f then ename e else kind_name (ekind e))
       (if cMeta f then (if cNoMetaId f then ierase (emeta e) "id" else emeta e) else [])
       (if cAttributes f then eattrs e else [])
       (if cValue f then ehas e else false)
       (if cValue f then edata e else dsd_default (ekind e)).
Proof.
  intros f e. unfold clone. rewrite !copy_id.
  rewrite (dsd_map_id _ clone_all) by (intros; apply clone_all_id). reflexivity.
Qed.

(** equality *)
Lemma oand_true : forall a b, oand a b = Some true <-> a = Some true /\ b = Some true.
Proof. intros [[|]|] b; cbn; split; intros H; try tauto; try discriminate; destruct H; try discriminate; auto. Qed.

Lemma oand_assoc : forall a b c, oand (oand a b) c = oand a (oand b c).
Proof. now intros [[|]|] b c. Qed.

(** decided comparison against equality of images *)
Definition dec_eq {A B} (f : A -> B) (x y : A) (r : option bool) : Prop :=
  (r = Some true /\ f x = f y) \/ (r = Some false /\ f x <> f y).

Section DecList.
  Context (eqA : element -> element -> option bool) (f : element -> element).

  Lemma all2_len : forall l r, all2 eqA l r = Some true -> List.length l = List.length r.
  Proof.
    induction l as [|x l IH]; intros [|y r]; cbn; intros H; try discriminate; auto.
    apply oand_true in H as [_ H]. now rewrite (IH r H).
  Qed.

  Lemma list_eq_dec' : forall l r,
    (forall x y, In x l -> In y r -> dec_eq f x y (eqA x y)) ->
    dec_eq (map f) l r (list_eq eqA l r).
  Proof.
    intros l r H. unfold list_eq. destruct (Nat.eqb_spec (List.length l) (List.length r)) as [E|E]; cbn.
    - clear E. revert r H. induction l as [|x l IH]; intros [|y r] H; cbn.
      + left. auto.
      + right. split; [reflexivity|discriminate].
      + right. split; [reflexivity|discriminate].
      + destruct (H x y (or_introl eq_refl) (or_introl eq_refl)) as [[F1 F2]|[F1 F2]]; rewrite F1; cbn.
        * destruct (IH r) as [[E1 E2]|[E1 E2]].
          { intros u v Hu Hv. apply H; now right. }
          -- left. cbn [map fst snd]. now rewrite E1, F2, E2.
          -- right. rewrite E1. split; [reflexivity|]. intros G. injection G as G1 G2. auto.
        * right. split; [reflexivity|]. intros G. injection G as G1 G2. auto.
    - right. split; [reflexivity|]. intros G. apply E.
      rewrite <- (map_length f l), G. apply map_length.
  Qed.

  Lemma info_eq_dec' : forall (l r : info),
    (forall k x k' y, In (k, x) l -> In (k', y) r -> dec_eq f x y (eqA x y)) ->
    dec_eq (map (fun kv => (fst kv, f (snd kv)))) l r (info_eq eqA l r).
  Proof.
    intros l r H. unfold info_eq. destruct (Nat.eqb_spec (List.length l) (List.length r)) as [E|E]; cbn.
    - clear E. revert r H. induction l as [|[k x] l IH]; intros [|[k' y] r] H; cbn.
      + left. auto.
      + right. split; [reflexivity|discriminate].
      + right. split; [reflexivity|discriminate].
      + destruct (String.eqb_spec k k') as [->|K]; cbn.
        * destruct (H k' x k' y (or_introl eq_refl) (or_introl eq_refl)) as [[F1 F2]|[F1 F2]]; rewrite F1; cbn.
          -- destruct (IH r) as [[E1 E2]|[E1 E2]].
             { intros u v u' v' Hu Hv. apply (H u v u' v'); now right. }
             ++ left. cbn [map fst snd]. now rewrite E1, F2, E2.
             ++ right. rewrite E1. split; [reflexivity|]. intros G. injection G as G1 G2. auto.
          -- right. split; [reflexivity|]. intros G. injection G as G1 G2. auto.
        * right. split; [reflexivity|]. intros G. injection G as G0 G1 G2. auto.
    - right. split; [reflexivity|]. intros G. apply E.
      apply (f_equal (@List.length _)) in G. now rewrite !map_length in G.
  Qed.

  Lemma ptr_eq_dec' : forall l r,
    (forall x y, l = Some x -> r = Some y -> dec_eq f x y (eqA x y)) ->
    dec_eq (option_map f) l r (ptr_eq eqA l r).
  Proof.
    intros [x|] [y|] H; cbn.
    - destruct (H x y eq_refl eq_refl) as [[E1 E2]|[E1 E2]]; rewrite E1.
      + left. cbn. now rewrite E2.
      + right. split; [reflexivity|]. intros G. injection G as G. auto.
    - right. split; [reflexivity|discriminate].
    - right. split; [reflexivity|discriminate].
    - left. auto.
  Qed.

  Lemma dsd_eq_dec' : forall d d',
    dsd_kind d = dsd_kind d' ->
    match d with DHolder None | DEnum None => False | _ => True end ->
    match d' with DHolder None | DEnum None => False | _ => True end ->
    (forall x y, In x (dsd_children d) -> In y (dsd_children d') -> dec_eq f x y (eqA x y)) ->
    dec_eq (dsd_map f) d d' (dsd_eq eqA d d').
  Proof.
    intros d d' K H1 H2 H.
    assert (L : forall (C : list element -> dsd element) l r,
               (forall u v, C u = C v -> u = v) ->
               (forall x y, In x l -> In y r -> dec_eq f x y (eqA x y)) ->
               (list_eq eqA l r = Some true /\ C (map f l) = C (map f r)) \/
               (list_eq eqA l r = Some false /\ C (map f l) <> C (map f r))).
    { intros C l r Ci Hlr. destruct (list_eq_dec' l r Hlr) as [[E1 E2]|[E1 E2]]; rewrite E1.
      - left. now rewrite E2.
      - right. split; [reflexivity|]. intros G. apply Ci in G. auto. }
    unfold dec_eq.
    destruct d as [|o| s| s| b|l|k v|l|o|s|l|l|l], d' as [|o'| s'| s'| b'|l'|k' v'|l'|o'|s'|l'|l'|l'];
      cbn in K; try discriminate; cbn [dsd_eq dsd_map].
    - left. auto.
    - destruct o as [x|]; [|tauto]. destruct o' as [y|]; [|tauto]. cbn.
      destruct (H x y) as [[E1 E2]|[E1 E2]]; try (now left); rewrite E1.
      + left. cbn. now rewrite E2.
      + right. split; [reflexivity|]. intros G. injection G as G. auto.
    - destruct (String.eqb_spec s s') as [->|N]; [left; auto|right]. split; [reflexivity|congruence].
    - destruct (String.eqb_spec s s') as [->|N]; [left; auto|right]. split; [reflexivity|congruence].
    - destruct (Bool.eqb_spec b b') as [->|N]; [left; auto|right]. split; [reflexivity|congruence].
    - apply (L DArray); [congruence|exact H].
    - cbn in H.
      destruct (ptr_eq_dec' k k') as [[E1 E2]|[E1 E2]].
      { intros x y -> ->. apply H; apply in_or_app; left; now left. }
      + destruct (ptr_eq_dec' v v') as [[F1 F2]|[F1 F2]].
        { intros x y -> ->. apply H; apply in_or_app; right; now left. }
        * left. rewrite E1, F1. cbn. now rewrite E2, F2.
        * right. rewrite E1, F1. cbn. split; [reflexivity|]. intros G. injection G as G1 G2. auto.
      + right. rewrite E1. cbn. split; [reflexivity|]. intros G. injection G as G1 G2. auto.
    - apply (L DObject); [congruence|exact H].
    - destruct o as [x|]; [|tauto]. destruct o' as [y|]; [|tauto]. cbn.
      destruct (H x y) as [[E1 E2]|[E1 E2]]; try (now left); rewrite E1.
      + left. cbn. now rewrite E2.
      + right. split; [reflexivity|]. intros G. injection G as G. auto.
    - destruct (String.eqb_spec s s') as [->|N]; [left; auto|right]. split; [reflexivity|congruence].
    - apply (L DExtend); [congruence|exact H].
    - apply (L DOption); [congruence|exact H].
    - apply (L DSelect); [congruence|exact H].
  Qed.
End DecList.

Lemma elem_eq_unfold : forall n m a h d n' m' a' h' d',
  elem_eq (Elem n m a h d) (Elem n' m' a' h' d') =
  if negb (kind_beq (dsd_kind d) (dsd_kind d')) then Some false else
  oand (oand (oand (Some (Bool.eqb h h')) (info_eq elem_eq a a')) (info_eq elem_eq m m'))
       (if negb h then Some true else dsd_eq elem_eq d d').
Proof. reflexivity. Qed.

Lemma kind_beq_spec : forall a b, reflect (a = b) (kind_beq a b).
Proof.
  intros a b. destruct (kind_beq a b) eqn:E; constructor.
  - now apply internal_kind_dec_bl.
  - intros H. apply internal_kind_dec_lb in H. congruence.
Qed.

(** the main fact: on elements without null mandatory pointers, == is always defined and decides
    equality up to names *)
Theorem elem_eq_decides : forall x y, no_null x -> no_null y -> dec_eq forget x y (elem_eq x y).
Proof.
  induction x as [x IH] using element_ind'. intros y Nx Ny.
  destruct x as [n m a h d], y as [n' m' a' h' d'].
  rewrite elem_eq_unfold.
  destruct (kind_beq_spec (dsd_kind d) (dsd_kind d')) as [K|K]; cbn [negb].
  2:{ right. split; [reflexivity|]. cbn [forget]. intros G. injection G as _ _ G1 G2. apply K.
      subst h'. destruct h.
      - apply (f_equal dsd_kind) in G2. now rewrite !dsd_kind_map in G2.
      - apply (f_equal dsd_kind) in G2. now rewrite !dsd_kind_default in G2. }
  destruct (Bool.eqb_spec h h') as [->|Hh]; cbn [oand].
  2:{ right. split; [reflexivity|]. cbn [forget]. intros G. injection G as _ _ G1 _. auto. }
  destruct (info_eq_dec' elem_eq forget a a') as [[A1 A2]|[A1 A2]].
  { intros k u k' v Hu Hv. apply IH.
    - now apply in_attr_child with k.
    - apply no_null_child with (2 := in_attr_child (Elem n m a h' d) _ _ Hu); exact Nx.
    - apply no_null_child with (2 := in_attr_child (Elem n' m' a' h' d') _ _ Hv); exact Ny. }
  2:{ rewrite A1. right. split; [reflexivity|]. cbn [forget]. intros G. injection G as _ G _. auto. }
  rewrite A1. cbn [oand].
  destruct (info_eq_dec' elem_eq forget m m') as [[M1 M2]|[M1 M2]].
  { intros k u k' v Hu Hv. apply IH.
    - now apply in_meta_child with k.
    - apply no_null_child with (2 := in_meta_child (Elem n m a h' d) _ _ Hu); exact Nx.
    - apply no_null_child with (2 := in_meta_child (Elem n' m' a' h' d') _ _ Hv); exact Ny. }
  2:{ rewrite M1. right. split; [reflexivity|]. cbn [forget]. intros G. injection G as G _ _. auto. }
  rewrite M1. cbn [oand].
  destruct h'; cbn [negb].
  - assert (HX := no_null_head _ Nx eq_refl). assert (HY := no_null_head _ Ny eq_refl).
    cbn [edata] in HX, HY.
    destruct (dsd_eq_dec' elem_eq forget d d') as [[D1 D2]|[D1 D2]]; try exact K.
    + destruct d as [|[]| | | | | | |[]| | | |]; tauto.
    + destruct d' as [|[]| | | | | | |[]| | | |]; tauto.
    + intros u v Hu Hv. apply IH.
      * now apply in_data_child.
      * apply no_null_child with (2 := in_data_child (Elem n m a true d) _ Hu); exact Nx.
      * apply no_null_child with (2 := in_data_child (Elem n' m' a' true d') _ Hv); exact Ny.
    + left. rewrite D1. cbn [forget]. now rewrite A2, M2, D2.
    + right. rewrite D1. split; [reflexivity|]. cbn [forget]. intros G. injection G as _ _ G. auto.
  - left. cbn [forget]. now rewrite A2, M2, K.
Qed.

(** symmetry needs no hypothesis, not even about null pointers *)
Lemma oand_sym_ext : forall a b c d, a = c -> (a = Some true -> b = d) -> oand a b = oand c d.
Proof. intros [[|]|] b c d <- H; cbn; auto. Qed.

Lemma all2_sym : forall (eqA : element -> element -> option bool) l r,
  (forall x y, In x l -> eqA x y = eqA y x) -> all2 eqA l r = all2 eqA r l.
Proof.
  induction l as [|x l IH]; intros [|y r] H; cbn; auto.
  rewrite (H x y) by now left. rewrite (IH r); auto. intros u v Hu. apply H. now right.
Qed.
Lemma iall2_sym : forall (eqA : element -> element -> option bool) l r,
  (forall k x y, In (k, x) l -> eqA x y = eqA y x) -> iall2 eqA l r = iall2 eqA r l.
Proof.
  induction l as [|[k x] l IH]; intros [|[k' y] r] H; cbn; auto.
  rewrite (H k x y) by now left. rewrite String.eqb_sym. rewrite (IH r); auto.
  intros j u v Hu. apply (H j). now right.
Qed.

Theorem elem_eq_sym : forall x y, elem_eq x y = elem_eq y x.
Proof.
  induction x as [x IH] using element_ind'. intros y.
  destruct x as [n m a h d], y as [n' m' a' h' d'].
  rewrite !elem_eq_unfold.
  destruct (kind_beq_spec (dsd_kind d) (dsd_kind d')) as [K|K],
           (kind_beq_spec (dsd_kind d') (dsd_kind d)) as [K'|K']; cbn [negb]; try congruence.
  destruct (Bool.eqb_spec h h') as [->|Hh].
  2:{ destruct (Bool.eqb_spec h' h) as [Hh'|Hh']; [congruence|reflexivity]. }
  rewrite Bool.eqb_reflx. cbn [oand].
  assert (L : forall l r, (forall x y, In x l -> elem_eq x y = elem_eq y x) ->
              list_eq elem_eq l r = list_eq elem_eq r l).
  { intros l r H. unfold list_eq. rewrite Nat.eqb_sym. now rewrite (all2_sym elem_eq l r H). }
  assert (I : forall l r, (forall k x y, In (k, x) l -> elem_eq x y = elem_eq y x) ->
              info_eq elem_eq l r = info_eq elem_eq r l).
  { intros l r H. unfold info_eq. rewrite Nat.eqb_sym. now rewrite (iall2_sym elem_eq l r H). }
  rewrite (I a a'), (I m m').
  2:{ intros k u v Hu. apply IH. now apply in_meta_child with k. }
  2:{ intros k u v Hu. apply IH. now apply in_attr_child with k. }
  f_equal. destruct h'; cbn [negb]; [|reflexivity].
  assert (D : forall u, In u (dsd_children d) -> forall v, elem_eq u v = elem_eq v u).
  { intros u Hu v. apply IH. now apply in_data_child. }
  destruct d as [|[x|]| s| s| b|l|k v|l|[x|]|s|l|l|l], d' as [|[y|]| s'| s'| b'|l'|k' v'|l'|[y|]|s'|l'|l'|l'];
    cbn in K; try discriminate; cbn [dsd_eq deref_eq ptr_eq]; try reflexivity;
    try (rewrite String.eqb_sym; reflexivity); try (apply D; now left);
    try (apply L; intros u w Hu; now apply D).
  - destruct b, b'; reflexivity.
  - cbn [dsd_children] in D. f_equal.
    + destruct k, k'; cbn; try reflexivity. apply D. apply in_or_app. left. now left.
    + destruct v, v'; cbn; try reflexivity. apply D. apply in_or_app. right. now left.
Qed.

(** forget composed with names *)
Lemma forget_set_name : forall e n, forget (set_name e n) = forget e.
Proof. now intros [n0 m a h d] n. Qed.

(** a checker for concrete witnesses *)
Fixpoint no_nullb (e : element) : bool :=
  let 'Elem _ m a h d := e in
  forallb (fun kv => no_nullb (snd kv)) m && forallb (fun kv => no_nullb (snd kv)) a &&
  match d with
  | DHolder None | DEnum None | DMember None None => negb h
  | DMember None (Some x) => negb h && no_nullb x
  | DHolder (Some x) | DEnum (Some x) => no_nullb x
  | DMember (Some x) None => no_nullb x
  | DMember (Some x) (Some y) => no_nullb x && no_nullb y
  | DArray l | DObject l | DExtend l | DOption l | DSelect l => forallb no_nullb l
  | _ => true
  end.

Lemma no_nullb_sound : forall e, no_nullb e = true -> no_null e.
Proof.
  induction e as [e IH] using element_ind'. intros H. destruct e as [n m a h d]. cbn in H.
  apply andb_prop in H as [H Hd]. apply andb_prop in H as [Hm Ha].
  rewrite forallb_forall in Hm, Ha.
  apply no_null_intro.
  - intros E. cbn in E |- *. subst h. destruct d as [|[]| | | | |[] []| |[]| | | |]; try exact I; discriminate.
  - intros c Hc. apply IH; [exact Hc|]. unfold children in Hc. cbn [emeta eattrs edata] in Hc.
    apply in_app_or in Hc as [Hc|Hc]; [|apply in_app_or in Hc as [Hc|Hc]].
    + apply in_map_iff in Hc as ([k x] & <- & Hx). exact (Hm _ Hx).
    + apply in_map_iff in Hc as ([k x] & <- & Hx). exact (Ha _ Hx).
    + destruct d as [|[]| | | |l|[] []|l|[]| |l|l|l]; cbn in Hc; try tauto;
        try (rewrite forallb_forall in Hd; now apply Hd);
        repeat match goal with
        | H : _ && _ = true |- _ => apply andb_prop in H as [? ?]
        | H : _ \/ _ |- _ => destruct H
        end; subst; auto; try tauto.
Qed.
