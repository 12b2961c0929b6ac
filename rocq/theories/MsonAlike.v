(** The comparison of enumeration entries decides whether they are alike *)
From Coq Require Import Sorted.
From Verif Require Import Base Element ElementSpec ElementProofs InfoProofs Extend Registry RegistryProofs Expand ElementUtils SourceMap
  JsonSpec SerializeSpec TypeTables TypeTablesProofs Mson MsonSpec MsonProofs MsonSane.

Lemma compare_trans : forall a b c, String.compare a b = Lt -> String.compare b c = Lt -> String.compare a c = Lt.
Proof.
  induction a as [|x a IH]; intros [|y b] [|z c]; cbn; try discriminate; auto.
  unfold Ascii.compare. destruct (N_of_ascii x ?= N_of_ascii y)%N eqn:E1; try discriminate.
  - apply N.compare_eq_iff in E1. rewrite E1. destruct (_ ?= _)%N; try discriminate; auto; apply IH.
  - intros _. destruct (N_of_ascii y ?= N_of_ascii z)%N eqn:E2; try discriminate; intros _.
    + apply N.compare_eq_iff in E2. rewrite <- E2, E1. reflexivity.
    + apply N.compare_lt_iff in E1, E2. assert (L := N.lt_trans _ _ _ E1 E2). apply N.compare_lt_iff in L. now rewrite L.
Qed.
Definition before (x y : string * element) : Prop := String.compare (fst x) (fst y) = Lt.
Lemma before_not_eq : forall x y, before x y -> fst x <> fst y.
Proof. intros x y H E. unfold before in H. rewrite E, cmp_refl in H. discriminate. Qed.
Lemma insert_in : forall x y l, In y (key_insert x l) <-> y = x \/ In y l.
Proof.
  intros x y l. induction l as [|z l IH]; cbn; [intuition congruence|]. destruct (String.compare (fst x) (fst z)); cbn; try (intuition congruence).
Qed.
Lemma insert_sorted : forall x l, StronglySorted before l -> ~ In (fst x) (map fst l) -> StronglySorted before (key_insert x l).
Proof.
  intros x l S N. induction S as [|z l S IH F]; cbn; [repeat constructor|]. cbn in N.
  destruct (String.compare (fst x) (fst z)) eqn:C.
  - destruct N. left. symmetry. now apply String.compare_eq_iff.
  - constructor; [now constructor|]. constructor; [exact C|]. eapply Forall_impl; [|exact F]. intros y Hy. now apply (compare_trans _ (fst z)).
  - constructor; [apply IH; tauto|]. apply Forall_forall. intros y Hy. apply insert_in in Hy as [->|Hy].
    + unfold before. rewrite String.compare_antisym, C. reflexivity.
    + rewrite Forall_forall in F. now apply F.
Qed.
Lemma sorted_spec : forall ig l, NoDup (map fst l) ->
  StronglySorted before (sorted_info ig l) /\ (forall kv, In kv (sorted_info ig l) <-> In kv l /\ fst kv <> ig).
Proof.
  intros ig l N. unfold sorted_info. set (f := filter (fun kv => negb (String.eqb (fst kv) ig)) l).
  assert (Nf : NoDup (map fst f)).
  { unfold f. clear -N. induction l as [|[k v] l IH]; cbn; [constructor|]. inversion N as [|? ? Nk Nl]; subst. destruct (String.eqb k ig); cbn; [auto|].
    constructor; [|auto]. intros H. apply Nk. apply in_map_iff in H as (kv & <- & H). apply filter_In in H as [H _]. now apply in_map. }
  assert (If : forall kv, In kv f <-> In kv l /\ fst kv <> ig).
  { intros kv. unfold f. rewrite filter_In. destruct (String.eqb_spec (fst kv) ig); cbn; intuition congruence. }
  clearbody f. assert (G : StronglySorted before (fold_right key_insert [] f) /\ (forall kv, In kv (fold_right key_insert [] f) <-> In kv f)).
  { clear If. induction f as [|x f IH]; cbn; [split; [constructor|tauto]|]. inversion Nf as [|? ? Nx Nf']; subst. destruct (IH Nf') as [IH1 IH2]. split.
    - apply insert_sorted; [exact IH1|]. intros H. apply Nx. apply in_map_iff in H as (kv & <- & H). apply IH2 in H. now apply in_map.
    - intros kv. rewrite insert_in, IH2. intuition congruence. }
  destruct G as [G1 G2]. split; [exact G1|]. intros kv. now rewrite G2, If.
Qed.
Definition blur (kv : string * element) : string * element := (fst kv, forget (snd kv)).
Lemma sorted_blur : forall l, StronglySorted before l -> StronglySorted before (map blur l).
Proof.
  intros l S. induction S as [|z l S IH F]; cbn; constructor; [exact IH|]. apply Forall_map. eapply Forall_impl; [|exact F]. now intros y Hy.
Qed.
Lemma sorted_unique : forall a b, StronglySorted before a -> StronglySorted before b -> (forall x, In x a <-> In x b) -> a = b.
Proof.
  intros a b Sa. revert b. induction Sa as [|x a Sa IH Fa]; intros b Sb H.
  - destruct b as [|y b]; [reflexivity|]. destruct (proj2 (H y)). now left.
  - inversion Sb as [|y b' Sb' Fb]; subst; [destruct (proj1 (H x)); now left|]. rewrite Forall_forall in Fa, Fb.
    assert (E : x = y).
    { destruct (proj1 (H x) (or_introl eq_refl)) as [->|Hx]; [reflexivity|]. destruct (proj2 (H y) (or_introl eq_refl)) as [->|Hy]; [reflexivity|].
      assert (L := compare_trans _ _ _ (Fa y Hy) (Fb x Hx)). rewrite cmp_refl in L. discriminate. }
    subst y. f_equal. apply IH; [exact Sb'|]. intros z. split; intros Hz.
    + destruct (proj1 (H z) (or_intror Hz)) as [<-|?]; [|assumption]. now destruct (before_not_eq x x (Fa x Hz)).
    + destruct (proj2 (H z) (or_intror Hz)) as [<-|?]; [|assumption]. now destruct (before_not_eq x x (Fb x Hz)).
Qed.
Lemma in_ifind : forall A (l : list (string * A)) k v, NoDup (map fst l) -> In (k, v) l -> ifind l k = Some v.
Proof.
  intros A l k v N H. induction l as [|[k' v'] l IH]; cbn in *; [contradiction|]. inversion N as [|? ? Nk Nl]; subst.
  destruct H as [H|H]; [injection H as -> ->; now rewrite String.eqb_refl|]. destruct (String.eqb_spec k' k) as [->|]; [|now apply IH].
  destruct Nk. apply in_map_iff. now exists (k, v).
Qed.
Lemma sorted_info_eq : forall ig l r, NoDup (map fst l) -> NoDup (map fst r) ->
  (map blur (sorted_info ig l) = map blur (sorted_info ig r) <-> forall k, k <> ig -> option_map forget (ifind l k) = option_map forget (ifind r k)).
Proof.
  intros ig l r Nl Nr. destruct (sorted_spec ig l Nl) as [Sl Il], (sorted_spec ig r Nr) as [Sr Ir].
  assert (In_blur : forall L, NoDup (map fst L) -> (forall kv, In kv (sorted_info ig L) <-> In kv L /\ fst kv <> ig) ->
    forall k b, In (k, b) (map blur (sorted_info ig L)) <-> k <> ig /\ option_map forget (ifind L k) = Some b).
  { intros L N I k b. rewrite in_map_iff. split.
    - intros ([k' v] & E & H). injection E as <- <-. apply I in H as [H1 H2]. split; [exact H2|]. cbn in *. now rewrite (in_ifind _ _ _ _ N H1).
    - intros [H1 H2]. destruct (ifind L k) as [v|] eqn:F; [|discriminate]. injection H2 as <-. exists (k, v). split; [reflexivity|]. apply I. split; [now apply ifind_In|exact H1]. }
  split.
  - intros E k Hk. assert (P := fun b => In_blur l Nl Il k b). assert (Q := fun b => In_blur r Nr Ir k b). rewrite E in P.
    destruct (option_map forget (ifind l k)) as [b|] eqn:B.
    + symmetry. apply Q, P. now split.
    + destruct (option_map forget (ifind r k)) as [b|] eqn:B'; [|reflexivity]. assert (T : None = Some b); [|discriminate]. apply P, Q. now split.
  - intros H. apply sorted_unique; [now apply sorted_blur..|]. intros [k b]. rewrite (In_blur l Nl Il), (In_blur r Nr Ir). split; intros [H1 H2]; (split; [exact H1|]).
    + now rewrite <- (H k H1).
    + now rewrite (H k H1).
Qed.

Lemma sane_no_null : forall e, sane e -> no_null e.
Proof.
  intros e S x Hx. specialize (S x Hx). destruct S as (_ & _ & _ & _ & _ & S). intros H. destruct (edata x) as [|d| | | | |k v| |o| | | |]; try exact I; try contradiction.
  - destruct S as (_ & _ & (key & -> & _) & _). exact I.
  - destruct (S H) as (v & ->). exact I.
Qed.
(** the comparison never fails on sane elements, except for elements of one name and two kinds *)
Lemma equal_decides : forall x y, sane x -> sane y ->
  (equal_ignoring x y = Some true /\ alike x y /\ (ehas x = true -> ekind x = ekind y)) \/ (equal_ignoring x y = Some false /\ ~ alike x y) \/
  (equal_ignoring x y = None /\ ehas x = true /\ ehas y = true /\ ename x = ename y /\ ekind x <> ekind y).
Proof.
  intros x y Sx Sy. assert (Nx := sane_no_null x Sx). assert (Ny := sane_no_null y Sy).
  assert (Cx : forall c, In c (children x) -> no_null c) by (intros c H; now apply no_null_child with x).
  assert (Cy : forall c, In c (children y) -> no_null c) by (intros c H; now apply no_null_child with y).
  destruct (Sx x (sub_refl x)) as (_ & Mx & Ax & _ & _ & Dx). destruct (Sy y (sub_refl y)) as (_ & My & Ay & _ & _ & Dy).
  assert (I : forall ig l r, NoDup (map fst l) -> NoDup (map fst r) -> (forall k v, In (k, v) l -> no_null v) -> (forall k v, In (k, v) r -> no_null v) ->
    (info_eq elem_eq (sorted_info ig l) (sorted_info ig r) = Some true /\ (forall k, k <> ig -> option_map forget (ifind l k) = option_map forget (ifind r k))) \/
    (info_eq elem_eq (sorted_info ig l) (sorted_info ig r) = Some false /\ ~ (forall k, k <> ig -> option_map forget (ifind l k) = option_map forget (ifind r k)))).
  { intros ig l r Nl Nr Hl Hr. destruct (info_eq_dec' elem_eq forget (sorted_info ig l) (sorted_info ig r)) as [[E1 E2]|[E1 E2]].
    - intros k u k' v Hu Hv. apply (sorted_spec ig l Nl) in Hu as [Hu _]. apply (sorted_spec ig r Nr) in Hv as [Hv _]. apply elem_eq_decides; eauto.
    - left. split; [exact E1|]. now apply sorted_info_eq.
    - right. split; [exact E1|]. intros H. apply E2. now apply sorted_info_eq. }
  destruct x as [n m a h d], y as [n' m' a' h' d']. cbn [emeta eattrs edata] in *. unfold equal_ignoring, alike, meta, attr, eempty, ekind. cbn [emeta eattrs edata ename ehas].
  destruct (Bool.eqb_spec (negb h) (negb h')) as [Eh|Eh].
  2:{ right. left. split; [reflexivity|]. intros [H _]. now apply Eh; rewrite H. }
  assert (h = h') by (destruct h, h'; cbn in Eh; congruence). subst h'. clear Eh. cbn [oand].
  destruct (String.eqb_spec n n') as [<-|En]; [|right; left; split; [reflexivity|now intros (_ & H & _)]].
  destruct (I "description"%string m m' Mx My) as [[Em Hm]|[Em Hm]].
  { intros k v H. apply Cx. now apply in_meta_child with k. }
  { intros k v H. apply Cy. now apply in_meta_child with k. }
  2:{ right. left. rewrite Em. split; [reflexivity|]. now intros (_ & _ & H & _). }
  rewrite Em. destruct (I "sourceMap"%string a a' Ax Ay) as [[Ea Ha]|[Ea Ha]].
  { intros k v H. apply Cx. now apply in_attr_child with k. }
  { intros k v H. apply Cy. now apply in_attr_child with k. }
  2:{ right. left. rewrite Ea. split; [reflexivity|]. now intros (_ & _ & _ & H & _). }
  rewrite Ea. cbn [oand]. destruct h; cbn [negb].
  2:{ left. split; [reflexivity|]. split; [|discriminate]. repeat (split; [assumption || reflexivity|]). discriminate. }
  destruct (kind_beq_spec (dsd_kind d) (dsd_kind d')) as [K|K].
  2:{ right. right. now repeat split. }
  destruct (dsd_eq_dec' elem_eq forget d d' K) as [[Ed Hd]|[Ed Hd]].
  - destruct d as [|o| | | | | | |o| | | |]; try exact Logic.I; try contradiction. destruct o; [exact Logic.I|]. now destruct (Dx eq_refl).
  - destruct d' as [|o| | | | | | |o| | | |]; try exact Logic.I; try contradiction. destruct o; [exact Logic.I|]. now destruct (Dy eq_refl).
  - intros u v Hu Hv. apply elem_eq_decides; [apply Cx|apply Cy]; now apply in_data_child.
  - left. split; [exact Ed|]. split; [|intros _; exact K]. now repeat (split; [assumption || reflexivity|]).
  - right. left. split; [exact Ed|]. intros (_ & _ & _ & _ & H). now apply Hd, H.
Qed.
