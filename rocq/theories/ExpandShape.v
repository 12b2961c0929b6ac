From Verif Require Import Base Element ElementSpec ElementProofs InfoProofs MergeSpec Extend Registry Expand ExpandSpec RegistryProofs ExpandProofs ExpandClosed.

(** *** errors *)
Definition mixin_error (w : string) : Prop :=
  exists s, w = ("named type '" ++ s ++ "' is circularly referencing itself by mixin")%string.
Definition only {A} (m : run A) : Prop := forall w, m = Some (Throws w) -> mixin_error w.
Lemma only_bind : forall A B (m : run A) (k : A -> run B), only m -> (forall a, only (k a)) -> only (bind m k).
Proof. intros A B [[a|w|]|] k H K w' E; cbn in E; try discriminate; [now apply (K a)|]. injection E as ->. now apply H. Qed.
Lemma only_ret : forall A (a : A), only (ret a).
Proof. intros A a w; discriminate. Qed.
Lemma only_undef : forall A, only (@undefined A).
Proof. intros A w; discriminate. Qed.
Lemma only_none : forall A, only (@None (res A)).
Proof. intros A w; discriminate. Qed.
Lemma only_mapR : forall A B (f : A -> run B) l, (forall x, only (f x)) -> only (mapR f l).
Proof.
  induction l as [|x l IH]; intros H; cbn [mapR]; [apply only_ret|]. apply only_bind; [apply H|]. intros y. apply only_bind; [now apply IH|].
  intros; apply only_ret.
Qed.

Lemma expand_only : forall r f members e, only (expand f r members e).
Proof.
  intros r. induction f as [|f IH]; intros members e; cbn [expand]; [apply only_none|].
  assert (Eoc : forall m x, only (expand_or_clone (expand f r) m x)).
  { intros. apply only_bind; [apply IH|]. intros; apply only_ret. }
  assert (Ptr : forall m o, only (expand_or_clone_ptr (expand f r) m o)).
  { intros m [x|]; cbn; [|apply only_ret]. apply only_bind; [apply Eoc|]. intros; apply only_ret. }
  assert (Val : forall m d, only (expand_value (expand f r) m d)).
  { intros m d; destruct d; cbn [expand_value]; try apply only_ret;
      (apply only_bind; [first [apply Ptr|apply only_mapR; intros; apply Eoc]|intros; apply only_ret]). }
  assert (Mem : forall m x, only (expand_members (expand f r) m x)).
  { intros m x. unfold expand_members. apply only_bind; [|intros; apply only_ret]. destruct (ehas x); [|apply only_ret].
    apply only_bind; [apply Val|]. intros; apply only_ret. }
  assert (Nam : forall m x, only (expand_named r (expand f r) (S f) m x)).
  { intros m x. unfold expand_named. destruct (existsb _ m).
    - destruct (FindRootAncestor (S f) r (ename x)) as [[?|]|]; [apply only_ret|apply only_undef|apply only_none].
    - destruct (inheritance_tree (S f) r (ename x)); [|apply only_none]. apply only_bind; [apply Mem|]. intros ext.
      apply only_bind; [apply Mem|]. intros; apply only_ret. }
  assert (SomeP : forall m : run element, only m -> only (bind m (fun x => ret (Some x)))).
  { intros m H. apply only_bind; [exact H|]. intros; apply only_ret. }
  assert (Cond : forall m : run element, only m -> only (match expandable e with None => undefined | Some false => ret None | Some true => bind m (fun x => ret (Some x)) end)).
  { intros m H. destruct (expandable e) as [[|]|]; [now apply SomeP|apply only_ret|apply only_undef]. }
  assert (Attrs : forall m l acc, only (expand_enum_attrs (expand f r) m l acc)).
  { intros m. induction l as [|(k & x) l IHl]; intros acc; cbn [expand_enum_attrs]; [apply only_ret|].
    destruct (String.eqb k "enumerations"); [|apply IHl]. destruct (edata x); try apply only_undef. destruct (ehas x); [|apply only_undef].
    apply only_bind; [apply only_mapR; intros; apply Eoc|]. intros; apply IHl. }
  unfold expand_round.
  destruct (edata e) eqn:Ed; try apply only_ret;
    try (destruct (negb (is_reserved (ename e))); [apply SomeP, Nam|apply only_ret]);
    try (apply Cond; destruct (negb (is_reserved (ename e))); [apply Nam|apply Mem]).
  - apply Cond. destruct (ehas e); [|apply only_undef]. apply only_bind; [apply Ptr|]. intros. apply only_bind; [apply Ptr|]. intros; apply only_ret.
  - apply SomeP. unfold expand_enum. destruct (negb (is_reserved (ename e))); [apply Nam|]. apply only_bind.
    + destruct (ehas e); [|apply only_ret]. apply only_bind; [apply Val|]. intros; apply only_ret.
    + intros. apply only_bind; [apply Attrs|]. intros; apply only_ret.
  - apply SomeP. unfold expand_reference. destruct (eget (clone cAll e)) as [d|]; [|apply only_undef]. destruct d; try apply only_undef.
    destruct (String.eqb s0 ""); [apply only_ret|]. destruct (existsb _ members).
    + intros w E. injection E as <-. now exists s0.
    + destruct (rfind r s0); [|apply only_ret]. apply only_bind; [apply Eoc|]. intros; apply only_ret.
  - apply Cond. destruct (ehas e); [|apply only_undef]. apply only_bind; [|intros; apply only_ret]. apply only_mapR. intros o.
    unfold expand_option. apply only_bind; [apply Eoc|]. intros a. destruct (ekind a); first [apply only_ret|apply only_undef].
Qed.

(** *** partial correctness without undefinedness *)
Definition yields {A} (m : run A) (P : A -> Prop) : Prop := forall a, m = Some (Ok a) -> P a.
Lemma yields_bind : forall A B (m : run A) (k : A -> run B) (P : A -> Prop) (Q : B -> Prop),
  yields m P -> (forall a, P a -> yields (k a) Q) -> yields (bind m k) Q.
Proof. intros A B [[a|w|]|] k P Q H K b E; cbn in E; try discriminate. exact (K a (H a eq_refl) b E). Qed.
Lemma yields_any : forall A (m : run A), yields m (fun _ => True).
Proof. intros A m a _. exact I. Qed.
Lemma yields_ret : forall A (a : A) (P : A -> Prop), P a -> yields (ret a) P.
Proof. intros A a P H b E. injection E as <-. exact H. Qed.

Lemma members_fields : forall rec m e, yields (expand_members rec m e) (fun y =>
  ename y = kind_name (ekind e) /\ ekind y = ekind e /\ eattrs y = eattrs e /\ emeta y = emeta e /\ ehas y = ehas e).
Proof.
  intros rec m e. unfold expand_members.
  eapply yields_bind with (P := fun o => ename o = kind_name (ekind e) /\ ekind o = ekind e /\ ehas o = ehas e).
  - destruct (ehas e) eqn:Eh.
    + eapply yields_bind with (P := fun d => dsd_kind d = dsd_kind (edata e)).
      * destruct (edata e); cbn [expand_value];
          try (apply yields_ret; reflexivity); (eapply yields_bind; [apply yields_any|]; intros; apply yields_ret; reflexivity).
      * intros d Hd. apply yields_ret. unfold ekind. cbn. now rewrite Hd.
    + apply yields_ret. unfold ekind. cbn. rewrite dsd_kind_default. auto.
  - intros [n0 m0 a0 h0 d0] (H1 & H2 & H3). apply yields_ret. cbn in *. unfold copy_info. rewrite !copy_id. auto.
Qed.

(** expanding an element that names no type keeps its meta and its kind *)
Lemma reserved_fields : forall r f members e, is_reserved (ename e) = true \/ ekind e = KHolder ->
  yields (expand f r members e) (fun o => match o with Some y => emeta y = emeta e /\ ekind y = ekind e | None => True end).
Proof.
  intros r [|f] members e Hr; cbn [expand]; [intros a; discriminate|].
  assert (SomeP : forall (m : run element), yields m (fun y => emeta y = emeta e /\ ekind y = ekind e) ->
    yields (bind m (fun x => ret (Some x))) (fun o => match o with Some y => emeta y = emeta e /\ ekind y = ekind e | None => True end)).
  { intros m H. eapply yields_bind; [exact H|]. intros; now apply yields_ret. }
  assert (Cond : forall m : run element, yields m (fun y => emeta y = emeta e /\ ekind y = ekind e) ->
    yields (match expandable e with None => undefined | Some false => ret None | Some true => bind m (fun x => ret (Some x)) end)
      (fun o => match o with Some y => emeta y = emeta e /\ ekind y = ekind e | None => True end)).
  { intros m H. destruct (expandable e) as [[|]|]; [now apply SomeP|now apply yields_ret|intros a; discriminate]. }
  unfold expand_round. destruct Hr as [Er|Ek].
  - rewrite Er. cbn [negb]. destruct (edata e) eqn:Ed; try (now apply yields_ret);
      try (apply Cond; intros y Hy; apply members_fields in Hy as (_ & H2 & _ & H4 & _); split; assumption).
    + apply Cond. destruct (ehas e); [|intros a; discriminate]. eapply yields_bind; [apply yields_any|]. intros k' _.
      eapply yields_bind; [apply yields_any|]. intros v' _. apply yields_ret. unfold ekind at 2. rewrite Ed. split; [|reflexivity].
      unfold clone. cbn. apply copy_id.
    + apply SomeP. unfold expand_enum. rewrite Er. cbn [negb]. unfold ekind at 2. rewrite Ed.
      eapply yields_bind with (P := fun o => ekind o = KEnum).
      * destruct (ehas e); [|now apply yields_ret]. eapply yields_bind with (P := fun d => dsd_kind d = KEnum).
        -- cbn [expand_value]. eapply yields_bind; [apply yields_any|]. intros; now apply yields_ret.
        -- intros d0 Hd. now apply yields_ret.
      * intros [n0 m0 a0 h0 d0] Ho. eapply yields_bind; [apply yields_any|]. intros attrs _. apply yields_ret. cbn. unfold copy_info. rewrite copy_id. split; [reflexivity|exact Ho].
    + apply SomeP. unfold expand_reference. rewrite clone_cAll. destruct (eget e) as [d|]; [|intros a; discriminate]. destruct d; try (intros a; discriminate).
      destruct (String.eqb s0 ""); [now apply yields_ret|]. destruct (existsb _ members); [intros a; discriminate|].
      destruct (rfind r s0); [|now apply yields_ret]. eapply yields_bind; [apply yields_any|]. intros x _. apply yields_ret. destruct e; split; reflexivity.
    + apply Cond. destruct (ehas e); [|intros a; discriminate]. eapply yields_bind; [apply yields_any|]. intros l' _. apply yields_ret.
      unfold copy_info. rewrite copy_id. unfold ekind. rewrite Ed. auto.
  - unfold ekind in Ek. destruct (edata e); try discriminate. now apply yields_ret.
Qed.

Definition keeps_type (e : element) : Prop :=
  match ekind e with KString | KNumber | KBoolean | KArray | KObject | KEnum => True | _ => False end.

(** the shape of the expansion of an element of a named type *)
Theorem named_shape : forall r f members e l x,
  is_reserved (ename e) = false -> keeps_type e -> ~ In (ename e) members -> ancestry r (ename e) l ->
  expand f r members e = Some (Ok x) ->
  exists y links own, x = Some y /\ ename y = "extend"%string /\ ehas y = true /\ edata y = DExtend (links ++ [own]) /\
    Forall2 (fun ne z => ifind (emeta z) "ref" = Some (make_element (DString (fst ne))) /\ ekind z = ekind (snd ne)) (rev l) links /\
    ekind own = ekind e /\ eattrs own = eattrs e /\ ehas own = ehas e /\ emeta own = ierase (emeta e) "id".
Proof.
  intros r [|f] members e l x Er Kt Hm An H; [discriminate|]. cbn [expand] in H.
  set (P := fun y => exists links own, ename y = "extend"%string /\ ehas y = true /\ edata y = DExtend (links ++ [own]) /\
    Forall2 (fun ne z => ifind (emeta z) "ref" = Some (make_element (DString (fst ne))) /\ ekind z = ekind (snd ne)) (rev l) links /\
    ekind own = ekind e /\ eattrs own = eattrs e /\ ehas own = ehas e /\ emeta own = ierase (emeta e) "id").
  assert (Nam : yields (expand_named r (expand f r) (S f) members e) P).
  { unfold expand_named. destruct (existsb (String.eqb (ename e)) members) eqn:Ex; [apply existsb_eqb_In in Ex; contradiction|].
    destruct (inheritance_tree (S f) r (ename e)) as [t|] eqn:Et; [|intros a; discriminate].
    assert (Ht : (l = [] -> t = make_empty KExtend) /\ (l <> [] -> t = make_element (DExtend (rev (map link_of l))))).
    { unfold inheritance_tree in Et. destruct (inheritance (S f) r (ename e) []) as [o|] eqn:Ei; [|discriminate].
      destruct (inheritance_chain r _ _ _ _ Ei) as [I1 _]. specialize (I1 l An (fun k _ F => F)). rewrite app_nil_r in I1. subst o.
      destruct l as [|ne l]; [split; [|congruence]; intros _; now injection Et as <-|]. split; [discriminate|]. intros _.
      cbn [map rev] in Et. destruct (rev (map (fun ne => (fst ne, link_of ne)) l) ++ [(fst ne, link_of ne)])%list as [|q0 q] eqn:Eq;
        [now apply app_eq_nil in Eq as [_ Eq]|]. injection Et as <-. f_equal. f_equal. change (snd q0 :: map snd q) with (map snd (q0 :: q)).
      rewrite <- Eq, map_app, map_rev, map_map. cbn. reflexivity. }
    destruct Ht as [Ht0 Ht1].
    eapply yields_bind with (P := fun ext => ename ext = "extend"%string /\
       Forall2 (fun ne z => ifind (emeta z) "ref" = Some (make_element (DString (fst ne))) /\ ekind z = ekind (snd ne)) (rev l) (extend_content ext)).
    - destruct l as [|ne l0] eqn:El.
      + rewrite (Ht0 eq_refl). apply yields_ret. split; [reflexivity|constructor].
      + rewrite (Ht1 ltac:(discriminate)). rewrite <- El. unfold expand_members. cbn [make_element ehas edata eattrs emeta].
        eapply yields_bind with (P := fun o => ename o = "extend"%string /\
       Forall2 (fun ne z => ifind (emeta z) "ref" = Some (make_element (DString (fst ne))) /\ ekind z = ekind (snd ne)) (rev l) (extend_content o)).
        * eapply yields_bind with (P := fun d => exists l', d = DExtend l' /\
            Forall2 (fun ne z => ifind (emeta z) "ref" = Some (make_element (DString (fst ne))) /\ ekind z = ekind (snd ne)) (rev l) l').
          -- cbn [expand_value]. eapply yields_bind with (P := fun l' => Forall2 (fun ne z => ifind (emeta z) "ref" = Some (make_element (DString (fst ne))) /\ ekind z = ekind (snd ne)) (rev l) l');
               [|intros l' Hl'; apply yields_ret; eauto].
             rewrite <- map_rev. generalize (rev l). clear. induction l as [|ne l IH]; cbn [map mapR].
             ++ apply yields_ret. constructor.
             ++ eapply yields_bind with (P := fun z => ifind (emeta z) "ref" = Some (make_element (DString (fst ne))) /\ ekind z = ekind (snd ne)).
                ** unfold expand_or_clone. destruct (tagged_link (fst ne) (snd ne)) as (L1 & L2 & L3 & L4 & L5 & L6 & L7).
                   assert (Lk : ekind (link_of ne) = ekind (snd ne)) by (unfold ekind, link_of; now rewrite L4).
                   eapply yields_bind; [apply reserved_fields|].
                   --- unfold link_of at 1. rewrite L1. rewrite Lk. destruct (ekind (snd ne)); auto.
                   --- intros [z|] Hz; apply yields_ret.
                       +++ destruct Hz as [Z1 Z2]. rewrite Z1, Z2. auto.
                       +++ rewrite clone_cAll. auto.
                ** intros z Hz. eapply yields_bind; [exact IH|]. intros zs Hzs. apply yields_ret. now constructor.
          -- intros d (l' & -> & Hl'). apply yields_ret. split; [reflexivity|exact Hl'].
        * intros [n0 m0 a0 h0 d0] Ho. apply yields_ret. exact Ho.
    - intros ext (X1 & X2). cbv zeta. eapply yields_bind; [apply members_fields|].
      intros o (O1 & O2 & O3 & O4 & O5). apply yields_ret.
      destruct (copy_meta_id_fields ext e) as (C1 & C2 & C3 & C4).
      assert (Xc : extend_content (copy_meta_id ext e) = extend_content ext) by (unfold extend_content; now rewrite C2, C3).
      exists (extend_content ext), (set_meta o (ierase (emeta o) "id")). rewrite Xc.
      destruct (copy_meta_id ext e) as [n0 m0 a0 h0 d0]. cbn in C1 |- *. destruct o as [n1 m1 a1 h1 d1]. cbn in *.
      unfold ekind in *; cbn in *; repeat apply conj; auto; try congruence. now rewrite <- O4. }
  assert (Fin : yields (expand_round r (expand f r) (S f) members e) (fun o => exists y, o = Some y /\ P y)).
  { unfold expand_round, expand_enum. rewrite Er. cbn [negb]. unfold keeps_type, ekind in Kt.
    assert (Ex : expandable e = Some true \/ ekind e = KEnum).
    { rewrite expandable_unfold. unfold ekind. cbv zeta. rewrite Er. destruct (edata e); auto. }
    unfold ekind in Ex.
    destruct (edata e) eqn:Ed; try contradiction; cbn [dsd_kind] in *;
      try (destruct Ex as [Ex|Ex]; [rewrite Ex|discriminate]); (eapply yields_bind; [exact Nam|]; intros y Hy; apply yields_ret; eauto). }
  destruct (Fin x H) as (y & -> & links & own & Q). exists y, links, own. split; [reflexivity|exact Q].
Qed.
