From Verif Require Import Base Element ElementSpec ElementProofs InfoProofs Extend MergeSpec MergeProofs.

Definition eqv (x y : element) : bool := match elem_eq x y with Some b => b | None => false end.

Lemma eqv_sym : forall x y, eqv x y = eqv y x.
Proof. intros x y. unfold eqv. now rewrite elem_eq_sym. Qed.

Lemma eqv_total : forall x y, no_null x -> no_null y -> elem_eq x y = Some (eqv x y).
Proof. intros x y Nx Ny. unfold eqv. destruct (elem_eq_decides x y Nx Ny) as [[E _]|[E _]]; now rewrite E. Qed.

Lemma eqv_forget : forall x y, no_null x -> no_null y -> (eqv x y = true <-> forget x = forget y).
Proof.
  intros x y Nx Ny. unfold eqv. destruct (elem_eq_decides x y Nx Ny) as [[E F]|[E F]]; rewrite E; split; intros; congruence.
Qed.

Lemma lasts_eq : forall l, lasts l = match l with [] => [] | x :: r => if existsb (eqv x) r then lasts r else x :: lasts r end.
Proof. intros [|x r]; reflexivity. Qed.

Lemma lasts_snoc : forall l x, lasts (l ++ [x]) = filter (fun y => negb (eqv x y)) (lasts l) ++ [x].
Proof.
  induction l as [|y l IH]; intros x; [reflexivity|]. cbn [app]. rewrite lasts_eq, IH, (lasts_eq (y :: l)).
  rewrite existsb_app. cbn [existsb]. rewrite orb_false_r, (eqv_sym y x). destruct (existsb (eqv y) l); cbn [orb]; [reflexivity|].
  cbn [filter]. destruct (eqv x y); reflexivity.
Qed.

Lemma lasts_in : forall l x, In x (lasts l) -> In x l.
Proof.
  induction l as [|y l IH]; intros x H; [exact H|]. rewrite lasts_eq in H. destruct (existsb _ l); [right; auto|].
  destruct H as [H|H]; [now left|right; auto].
Qed.

Lemma lasts_apart : forall l, ForallOrdPairs (fun x y => eqv x y = false) (lasts l).
Proof.
  induction l as [|x l IH]; [constructor|]. rewrite lasts_eq. destruct (existsb (eqv x) l) eqn:E; [exact IH|]. constructor; [|exact IH].
  rewrite Forall_forall. intros y Hy. apply lasts_in in Hy. destruct (eqv x y) eqn:Ey; [|reflexivity].
  assert (T : existsb (eqv x) l = true) by (apply existsb_exists; eauto). congruence.
Qed.

Lemma drop_equal_filter : forall x l, no_null x -> Forall no_null l -> ForallOrdPairs (fun a b => eqv a b = false) l ->
  drop_equal x l = Some (filter (fun y => negb (eqv x y)) l).
Proof.
  intros x l Nx Nl D. induction D as [|y l F D IH]; [reflexivity|]. inversion Nl as [|? ? Ny Nl']; subst. cbn.
  rewrite (eqv_total x y Nx Ny). destruct (eqv x y) eqn:E; cbn [negb].
  - f_equal. symmetry. apply filter_id. intros z Hz. rewrite Forall_forall in F, Nl'. specialize (F z Hz). specialize (Nl' z Hz).
    destruct (eqv x z) eqn:Ez; [|reflexivity]. exfalso. apply eqv_forget in E; auto. apply eqv_forget in Ez; auto.
    assert (T : eqv y z = true) by (apply eqv_forget; auto; congruence). congruence.
  - rewrite IH by assumption. reflexivity.
Qed.

Lemma add_enumerations : forall r l, Forall no_null l -> Forall no_null r ->
  foldM add_enumeration (lasts l) r = Some (lasts (l ++ r)).
Proof.
  induction r as [|x r IH]; intros l Nl Nr; [now rewrite app_nil_r|]. inversion Nr as [|? ? Nx Nr']; subst. cbn [foldM].
  unfold add_enumeration. rewrite drop_equal_filter.
  - cbn [option_map]. rewrite clone_cAll, <- lasts_snoc. rewrite IH.
    + now rewrite <- app_assoc.
    + apply Forall_app. auto.
    + exact Nr'.
  - exact Nx.
  - rewrite Forall_forall in *. intros y Hy. apply Nl. now apply lasts_in.
  - apply lasts_apart.
Qed.

Lemma ierase_iset_same : forall (l : info) k v, ierase (iset l k v) k = ierase l k.
Proof.
  induction l as [|[k' v'] l IH]; intros k v; cbn.
  - now rewrite String.eqb_refl.
  - destruct (String.eqb_spec k' k) as [->|N]; cbn.
    + now rewrite String.eqb_refl.
    + apply String.eqb_neq in N. rewrite N. cbn. f_equal. apply IH.
Qed.

Lemma ierase_iset_other : forall (l : info) k v k', k <> k' -> ierase (iset l k v) k' = iset (ierase l k') k v.
Proof.
  induction l as [|[k0 v0] l IH]; intros k v k' N; cbn.
  - apply String.eqb_neq in N. now rewrite N.
  - destruct (String.eqb_spec k0 k) as [->|N0]; cbn.
    + apply String.eqb_neq in N. rewrite N. cbn. now rewrite String.eqb_refl.
    + destruct (String.eqb_spec k0 k') as [->|N1]; cbn.
      * now apply IH.
      * apply String.eqb_neq in N0. rewrite N0. f_equal. now apply IH.
Qed.

Lemma merge_erase : forall s t, ierase (info_merge skip_enumerations t s) "enumerations" =
  info_merge skip_enumerations (ierase t "enumerations") s.
Proof.
  unfold info_merge. induction s as [|[k v] s IH]; intros t; [reflexivity|]. cbn [fold_left]. etransitivity; [apply IH|]. cbn [fst snd]. f_equal.
  unfold skip_enumerations. destruct (String.eqb_spec k "enumerations") as [->|N]; [reflexivity|]. now apply ierase_iset_other.
Qed.

Lemma merge_find : forall s t, ifind (info_merge skip_enumerations t s) "enumerations" = ifind t "enumerations".
Proof.
  unfold info_merge. induction s as [|[k v] s IH]; intros t; [reflexivity|]. cbn [fold_left]. etransitivity; [apply IH|].
  unfold skip_enumerations. cbn [fst snd]. destruct (String.eqb_spec k "enumerations") as [->|N]; [reflexivity|]. rewrite iset_find.
  apply String.eqb_neq in N. now rewrite N.
Qed.

(** a level whose enumerations attribute (if any) is an array that holds a value, of pairwise
    different elements without null pointers *)
Definition enum_level (x : element) : Prop :=
  (forall ae, ifind (eattrs x) "enumerations" = Some ae -> ehas ae = true /\ ekind ae = KArray) /\
  Forall no_null (enumerations x) /\ ForallOrdPairs (fun a b => elem_eq a b = Some false) (enumerations x).

Lemma lasts_id : forall l, Forall no_null l -> ForallOrdPairs (fun a b => elem_eq a b = Some false) l -> lasts l = l.
Proof.
  intros l N D. induction D as [|x l F D IH]; [reflexivity|]. inversion N as [|? ? Nx Nl]; subst. rewrite lasts_eq.
  destruct (existsb (eqv x) l) eqn:E; [|now rewrite IH]. apply existsb_exists in E as (y & Hy & Ey).
  rewrite Forall_forall in F. specialize (F y Hy). unfold eqv in Ey. rewrite F in Ey. discriminate.
Qed.

Definition other_attrs (x : element) : info := ierase (eattrs x) "enumerations".

Lemma enum_chain : forall e r, ekind e = KEnum -> Forall (fun x => ekind x = KEnum) r ->
  NoDup (map fst (emeta e)) -> NoDup (map fst (eattrs e)) -> Forall enum_level (e :: r) ->
  exists attrs, merge_from e r = Ok (Elem (ename e) (chain_meta e r) attrs (existsb ehas (e :: r)) (edata (last_valued e r))) /\
    ierase attrs "enumerations" = override_info (flat_map other_attrs (e :: r)) /\
    (forall x, ifind attrs "enumerations" = Some x -> ehas x = true /\ ekind x = KArray) /\
    match ifind attrs "enumerations" with Some x => entries x | None => [] end = lasts (flat_map enumerations (e :: r)).
Proof.
  intros e r Ke Kr Nm Na. induction r as [|x r IH] using rev_ind; intros Lv.
  - inversion Lv as [|? ? (Lv1 & Lv2 & Lv3) _]; subst. exists (eattrs e). cbn [merge_from existsb flat_map]. rewrite orb_false_r, !app_nil_r.
    unfold chain_meta, last_valued. cbn [flat_map filter]. rewrite app_nil_r, override_info_id by assumption.
    split; [destruct e as [n m a h d]; cbn; destruct h; reflexivity|].
    split; [rewrite override_info_id; [reflexivity|]; unfold other_attrs; rewrite ierase_keys; now apply NoDup_filter|].
    split; [exact Lv1|]. rewrite lasts_id by assumption. reflexivity.
  - apply Forall_app in Kr as [Kr Kx]. inversion Kx as [|? ? Kx' _]; subst. rewrite app_comm_cons in Lv. apply Forall_app in Lv as [Lv Lx].
    inversion Lx as [|? ? (Lx1 & Lx2 & Lx3) _]; subst.
    destruct (IH Kr Lv) as (attrs & E & A1 & A2 & A3). rewrite merge_from_snoc, E. unfold merge_step.
    assert (LK := last_valued_kind e r). rewrite Ke in LK. specialize (LK Kr).
    change (ekind (Elem (ename e) (chain_meta e r) attrs (existsb ehas (e :: r)) (edata (last_valued e r)))) with (ekind (last_valued e r)).
    rewrite LK, Kx'. cbn [kind_beq negb]. unfold enum_merge. cbn [set_meta set_attrs emeta eattrs]. rewrite chain_meta_snoc.
    set (attrs1 := info_merge skip_enumerations attrs (eattrs x)).
    assert (B1 : ierase attrs1 "enumerations" = override_info (flat_map other_attrs (e :: r ++ [x]))).
    { unfold attrs1. rewrite merge_erase, A1, info_merge_override. rewrite app_comm_cons, flat_map_app. cbn [flat_map]. now rewrite app_nil_r. }
    assert (B2 : ifind attrs1 "enumerations" = ifind attrs "enumerations") by apply merge_find.
    assert (C : exists attrs2, enumerations_merge attrs1 (eattrs x) = Some attrs2 /\
      ierase attrs2 "enumerations" = ierase attrs1 "enumerations" /\
      (forall y, ifind attrs2 "enumerations" = Some y -> ehas y = true /\ ekind y = KArray) /\
      match ifind attrs2 "enumerations" with Some x => entries x | None => [] end = lasts (flat_map enumerations (e :: r) ++ enumerations x)).
    { unfold enumerations_merge. unfold enumerations at 2. unfold enumerations in Lx2, Lx3.
      destruct (ifind (eattrs x) "enumerations") as [ae|] eqn:Eae.
      - destruct (Lx1 ae eq_refl) as [Ha Ka]. destruct ae as [na ma aa ha da]. cbn in Ha. subst ha. unfold ekind in Ka. cbn in Ka.
        destruct da as [| | | | |la| | | | | | |]; try discriminate. change (entries (Elem na ma aa true (DArray la))) with la in *.
        unfold eget at 1. cbn [ehas edata]. destruct la as [|y la].
        + exists attrs1. rewrite app_nil_r, B2. auto.
        + rewrite B2. destruct (ifind attrs "enumerations") as [te|] eqn:Ete.
          * destruct (A2 te eq_refl) as [Ht Kt]. destruct te as [nt mt at_ ht dt]. cbn in Ht. subst ht. unfold ekind in Kt. cbn in Kt.
            destruct dt as [| | | | |lt| | | | | | |]; try discriminate. change (entries (Elem nt mt at_ true (DArray lt))) with lt in *.
            unfold eget. cbn [ehas edata]. rewrite A3, add_enumerations.
            -- cbn [option_map eset]. eexists. split; [reflexivity|]. rewrite ierase_iset_same. split; [reflexivity|].
               rewrite iset_find, String.eqb_refl. split; [|reflexivity]. intros z [= <-]. split; reflexivity.
            -- apply Forall_forall. intros z Hz. apply in_flat_map in Hz as (w & Hw & Hz). rewrite Forall_forall in Lv.
               destruct (Lv w Hw) as (_ & Nw & _). rewrite Forall_forall in Nw. now apply Nw.
            -- exact Lx2.
          * eexists. split; [reflexivity|]. rewrite ierase_iset_same. split; [reflexivity|]. rewrite iset_find, String.eqb_refl, clone_cAll.
            split; [intros z [= <-]; split; reflexivity|]. cbn [entries ehas edata dsd_children].
            assert (Em : flat_map enumerations (e :: r) = []).
            { assert (A4 : [] = lasts (flat_map enumerations (e :: r))) by exact A3. destruct (flat_map enumerations (e :: r)) as [|z l] eqn:El; [reflexivity|]. exfalso.
              assert (X : forall l, l <> [] -> lasts l <> []).
              { clear. induction l as [|w l IHl]; intros N; [congruence|]. rewrite lasts_eq. destruct (existsb (eqv w) l) eqn:Ex; [|discriminate].
                apply IHl. intros ->. discriminate. }
              apply (X (z :: l)); [discriminate|]. now symmetry. }
            rewrite Em. cbn [app]. symmetry. exact (lasts_id (y :: la) Lx2 Lx3).
      - exists attrs1. rewrite app_nil_r, B2. auto. }
    destruct C as (attrs2 & E2 & C1 & C2 & C3). rewrite E2. cbn [set_attrs].
    exists attrs2. split; [|split; [now rewrite C1|split; [exact C2|]]].
    + rewrite last_valued_snoc, app_comm_cons, existsb_app. cbn [existsb]. rewrite orb_false_r. destruct (ehas x) eqn:Hx.
      * rewrite orb_true_r. unfold value_merge. cbn [edata]. unfold ekind in *. rewrite (dsd_map_id _ clone_all) by (intros; apply clone_all_id).
        destruct (edata (last_valued e r)), (edata x); cbn in *; try congruence; reflexivity.
      * rewrite orb_false_r. reflexivity.
    + rewrite C3, app_comm_cons, flat_map_app. cbn [flat_map]. now rewrite app_nil_r.
Qed.
