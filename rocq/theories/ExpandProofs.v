From Verif Require Import Base Element ElementSpec ElementProofs InfoProofs MergeSpec Extend Registry Expand ExpandSpec RegistryProofs.

(** ** the walk to the root ancestor *)
Lemma find_root_mono : forall f f' r n p x, find_root_from f r n p = Some x -> f <= f' -> find_root_from f' r n p = Some x.
Proof.
  induction f as [|f IH]; intros f' r n p x H L; [discriminate|].
  destruct f' as [|f']; [lia|]. cbn [find_root_from] in *. destruct (is_reserved (ename p)); [exact H|].
  destruct (rfind r (ename p)) as [q|]; [|exact H]. destruct (String.eqb (ename p) n); [exact H|].
  apply (IH f' r (ename p) q x H). lia.
Qed.

Lemma rooted_root : forall r n, rooted r n -> exists f o, forall f', f <= f' -> FindRootAncestor f' r n = Some o.
Proof.
  intros r n H. assert (G : rfind r n = None \/ exists p f x, rfind r n = Some p /\ find_root_from f r n p = Some x).
  { induction H as [n H|n e H R|n e H E|n e H R IH].
    - now left.
    - right. exists e, 1, e. split; [exact H|]. cbn [find_root_from]. now rewrite R.
    - right. exists e, 1, e. split; [exact H|]. cbn [find_root_from]. rewrite E, H. rewrite String.eqb_refl. now destruct (is_reserved n).
    - right. exists e. destruct (is_reserved (ename e)) eqn:Er; [exists 1, e; split; [exact H|cbn [find_root_from]; now rewrite Er]|].
      destruct IH as [IH|(p & f & x & Ep & Ef)].
      + exists 1, e. split; [exact H|]. cbn [find_root_from]. now rewrite Er, IH.
      + destruct (String.eqb (ename e) n) eqn:Eq.
        * exists 1, e. split; [exact H|]. cbn [find_root_from]. now rewrite Er, Ep, Eq.
        * exists (S f), x. split; [exact H|]. cbn [find_root_from]. now rewrite Er, Ep, Eq. }
  destruct G as [G|(p & f & x & Ep & Ef)].
  - exists 0, None. intros f' _. unfold FindRootAncestor. now rewrite G.
  - exists f, (Some x). intros f' L. unfold FindRootAncestor. rewrite Ep. now rewrite (find_root_mono _ _ _ _ _ _ Ef L).
Qed.

Lemma root_rooted : forall f r n p x, rfind r n = Some p -> find_root_from f r n p = Some x -> rooted r n.
Proof.
  induction f as [|f IH]; intros r n p x E H; [discriminate|]. cbn [find_root_from] in H.
  destruct (is_reserved (ename p)) eqn:Er; [now apply rooted_reserved with p|].
  destruct (rfind r (ename p)) as [q|] eqn:Eq.
  - destruct (String.eqb_spec (ename p) n) as [En|En]; [now apply rooted_self with p|].
    apply rooted_step with p; [exact E|]. now apply (IH r (ename p) q x).
  - apply rooted_step with p; [exact E|]. now apply rooted_unknown.
Qed.

(** ** the inheritance chain *)
Lemma inheritance_total : forall f r en seen,
  NoDup (map fst seen) -> incl (map fst seen) (map fst r) -> length r < f + length seen ->
  exists o, inheritance f r en seen = Some o.
Proof.
  induction f as [|f IH]; intros r en seen Hn Hi L.
  - exfalso. pose proof (NoDup_incl_length Hn Hi) as K. rewrite !map_length in K. lia.
  - cbn [inheritance]. destruct (rfind r en) as [p|] eqn:E; [|eauto]. destruct (is_reserved en); [eauto|].
    destruct (existsb (fun s => String.eqb en (fst s)) seen) eqn:Ex; [eauto|].
    apply IH.
    + cbn. constructor; [|exact Hn]. intros Hin. apply in_map_iff in Hin as ((k & v) & Ek & Hin). cbn in Ek. subst k.
      rewrite <- not_true_iff_false in Ex. apply Ex, existsb_exists. exists (en, v). split; [exact Hin|apply String.eqb_refl].
    + cbn. intros k [<-|Hk]; [|now apply Hi]. destruct (in_dec string_dec en (map fst r)) as [I|I]; [exact I|].
      apply ifind_None_keys in I. unfold rfind in E. congruence.
    + cbn. lia.
Qed.

Lemma ancestry_det : forall r n l, ancestry r n l -> forall l', ancestry r n l' -> l = l'.
Proof.
  induction 1 as [n H|n H|n e l Hr Hf Ha IH]; intros l' H'; inversion H'; subst; try congruence.
  match goal with A : rfind r n = Some ?x, B : rfind r n = Some e |- _ => assert (x = e) by congruence; subst end.
  f_equal. now apply IH.
Qed.

Lemma ancestry_names_in : forall r n l, ancestry r n l -> forall k, In k (map fst l) ->
  exists l1 l2, l = (l1 ++ l2)%list /\ ancestry r k l2 /\ (exists e l3, l2 = (k, e) :: l3).
Proof.
  induction 1 as [n H|n H|n e l Hr Hf Ha IH]; intros k Hk; cbn in Hk; try contradiction.
  destruct Hk as [->|Hk].
  - exists [], ((k, e) :: l). split; [reflexivity|]. split; [now constructor|eauto].
  - destruct (IH k Hk) as (l1 & l2 & -> & A & B). exists ((n, e) :: l1), l2. auto.
Qed.
Lemma ancestry_nodup : forall r n l, ancestry r n l -> NoDup (map fst l).
Proof.
  induction 1 as [n H|n H|n e l Hr Hf Ha IH]; cbn; [constructor|constructor|]. constructor; [|exact IH].
  intros Hin. destruct (ancestry_names_in _ _ _ Ha n Hin) as (l1 & l2 & E & A & _).
  assert (A2 : ancestry r n ((n, e) :: l)) by now constructor.
  pose proof (ancestry_det _ _ _ A _ A2) as D. subst l2. apply (f_equal (@List.length _)) in E. rewrite app_length in E. cbn in E. lia.
Qed.

Definition link_of (ne : string * element) : element := tagged (fst ne) (snd ne).

Lemma inheritance_chain : forall r f en seen o, inheritance f r en seen = Some o ->
  (forall l, ancestry r en l -> (forall k, In k (map fst l) -> ~ In k (map fst seen)) ->
     o = Some (rev (map (fun ne => (fst ne, link_of ne)) l) ++ seen)%list) /\
  (forall s, o = Some s -> exists l, ancestry r en l).
Proof.
  intros r. induction f as [|f IH]; intros en seen o H; [discriminate|]. cbn [inheritance] in H.
  destruct (rfind r en) as [p|] eqn:E; [destruct (is_reserved en) eqn:Er|].
  - injection H as <-. split; [|intros; exists []; now apply anc_reserved].
    intros l A _. inversion A; subst; try congruence; reflexivity.
  - destruct (existsb (fun s => String.eqb en (fst s)) seen) eqn:Ex.
    + injection H as <-. split; [|discriminate]. intros l A D. exfalso.
      apply existsb_exists in Ex as (kv & Hin & Ek). apply String.eqb_eq in Ek. subst en.
      inversion A; subst; try congruence. apply (D (fst kv)); [now left|now apply in_map].
    + destruct (IH _ _ _ H) as [I1 I2]. split.
      * intros l A D. inversion A as [|? Hf|? e' l' Hr Hf A']; subst; try congruence.
        assert (e' = p) by congruence; subst e'.
        rewrite (I1 l' A').
        -- cbn [map rev fst]. unfold link_of at 2. cbn [fst snd]. now rewrite <- app_assoc.
        -- intros k Hk Hs. cbn in Hs. destruct Hs as [->|Hs]; [|exact (D k (or_intror Hk) Hs)].
           pose proof (ancestry_nodup _ _ _ A) as Nd. cbn in Nd. inversion Nd; tauto.
      * intros s Es. destruct (I2 s Es) as [l A]. exists ((en, p) :: l). now constructor.
  - injection H as <-. split; [|intros; exists []; now apply anc_unknown].
    intros l A _. inversion A; subst; try congruence; reflexivity.
Qed.

Lemma ifind_ierase : forall A (l : list (string * A)) k k',
  ifind (ierase l k) k' = if String.eqb k k' then None else ifind l k'.
Proof.
  unfold ierase. induction l as [|[k0 v0] l IH]; intros k k'; cbn.
  - now destruct (String.eqb k k').
  - destruct (String.eqb_spec k0 k) as [->|N]; cbn.
    + rewrite IH. destruct (String.eqb k k'); reflexivity.
    + destruct (String.eqb_spec k0 k') as [->|N']; [|apply IH].
      destruct (String.eqb_spec k k'); [congruence|reflexivity].
Qed.

Lemma tagged_fields : forall n e,
  ename (tagged n e) = kind_name (ekind e) /\ eattrs (tagged n e) = eattrs e /\
  ehas (tagged n e) = ehas e /\ edata (tagged n e) = edata e /\
  emeta (tagged n e) = iset (ierase (emeta e) "id") "ref" (make_element (DString n)).
Proof.
  intros n [en m a h d]. unfold tagged, clone. cbn [cElement cMeta cNoMetaId cAttributes cValue ename emeta eattrs ehas edata set_meta].
  rewrite !copy_id. repeat apply conj; try reflexivity. rewrite dsd_map_id; [reflexivity|intros; apply clone_all_id].
Qed.

Lemma tagged_link : forall n e, is_link n e (tagged n e).
Proof.
  intros n e. destruct (tagged_fields n e) as (F1 & F2 & F3 & F4 & F5). unfold is_link. rewrite F1, F2, F3, F4, F5.
  repeat apply conj; try reflexivity.
  - rewrite ifind_iset, ifind_ierase. reflexivity.
  - rewrite ifind_iset. reflexivity.
  - intros k K1 K2. rewrite ifind_iset, ifind_ierase.
    destruct (String.eqb_spec "ref" k); [congruence|]. destruct (String.eqb_spec "id" k); [congruence|reflexivity].
Qed.

Theorem tree_spec : forall r name f, length r < f ->
  exists t, inheritance_tree f r name = Some t /\
  (forall l, ancestry r name l -> l <> [] -> t = make_element (DExtend (rev (map link_of l)))) /\
  (ancestry r name [] -> t = make_empty KExtend) /\
  ((forall l, ~ ancestry r name l) -> t = make_empty KExtend).
Proof.
  intros r name f L. unfold inheritance_tree.
  destruct (inheritance_total f r name []) as [o E]; [exact (NoDup_nil _)|intros x []|cbn; lia|].
  rewrite E. destruct (inheritance_chain r f name [] o E) as [I1 I2].
  assert (Z : forall l, ancestry r name l -> o = Some (rev (map (fun ne => (fst ne, link_of ne)) l))).
  { intros l A. specialize (I1 l A (fun k _ F => F)). now rewrite app_nil_r in I1. }
  assert (Y : forall l : list (string * element), map snd (rev (map (fun ne => (fst ne, link_of ne)) l)) = rev (map link_of l)).
  { intros l. rewrite map_rev, map_map. reflexivity. }
  destruct o as [[|s0 s]|].
  - eexists; split; [reflexivity|]. repeat apply conj; auto. intros l A N. exfalso. specialize (Z l A). injection Z as Z.
    destruct l; [congruence|]. cbn in Z. now apply app_cons_not_nil in Z.
  - eexists; split; [reflexivity|]. repeat apply conj.
    + intros l A _. specialize (Z l A). injection Z as Z. rewrite Z, Y. reflexivity.
    + intros A. specialize (Z [] A). discriminate.
    + intros N. destruct (I2 _ eq_refl) as [l A]. destruct (N l A).
  - eexists; split; [reflexivity|]. repeat apply conj; auto. intros l A _. specialize (Z l A). discriminate.
Qed.

Lemma chain_eventually : forall r n, exists t, forall f, length r < f -> inheritance_tree f r n = Some t.
Proof.
  intros r n. destruct (tree_spec r n (S (length r))) as (t & E & _); [lia|]. exists t. intros f L.
  destruct (tree_spec r n f L) as (t' & E' & A & B & C).
  destruct (tree_spec r n (S (length r)) (Nat.lt_succ_diag_r _)) as (t2 & E2 & A2 & B2 & C2).
  assert (t2 = t) by congruence; subst t2. rewrite E'. f_equal.
  unfold inheritance_tree in E. destruct (inheritance_total (S (length r)) r n []) as [o Eo]; [exact (NoDup_nil _)|intros x []|cbn; lia|].
  destruct (inheritance_chain r _ n [] o Eo) as [_ I2]. rewrite Eo in E.
  destruct o as [s|].
  - destruct (I2 s eq_refl) as [l Al]. destruct l as [|ne l].
    + now rewrite (B Al), (B2 Al).
    + now rewrite (A _ Al), (A2 _ Al).
  - assert (Nx : forall l, ~ ancestry r n l).
    { intros l Al. destruct (inheritance_chain r _ n [] None Eo) as [I1 _]. specialize (I1 l Al (fun k _ F => F)). discriminate. }
    now rewrite (C Nx), (C2 Nx).
Qed.

(** ** convergence *)
Definition conv {A} (m : nat -> run A) : Prop := exists x f0, forall f, f0 <= f -> m f = Some x.

Lemma conv_ext : forall A (m m' : nat -> run A), (forall f, m f = m' f) -> conv m -> conv m'.
Proof. intros A m m' E (x & f0 & H). exists x, f0. intros f L. rewrite <- E. auto. Qed.
Lemma conv_const : forall A (x : res A), conv (fun _ => Some x).
Proof. intros A x. exists x, 0. auto. Qed.
Lemma conv_bind : forall A B (m : nat -> run A) (k : nat -> A -> run B),
  conv m -> (forall a, conv (fun f => k f a)) -> conv (fun f => bind (m f) (k f)).
Proof.
  intros A B m k (x & f0 & H) K. destruct x as [a|w|].
  - destruct (K a) as (y & f1 & H1). exists y, (f0 + f1). intros f L. rewrite H by lia. cbn. apply H1. lia.
  - exists (Throws w), f0. intros f L. now rewrite H.
  - exists Undefined, f0. intros f L. now rewrite H.
Qed.
Lemma conv_mapR : forall A B (g : nat -> A -> run B) l,
  (forall x, In x l -> conv (fun f => g f x)) -> conv (fun f => mapR (g f) l).
Proof.
  induction l as [|x l IH]; intros H; cbn [mapR]; [apply conv_const|].
  apply conv_bind; [apply H; now left|]. intros a.
  apply (conv_bind _ _ (fun f => mapR (g f) l) (fun f ys => ret (a :: ys))).
  - apply IH. intros y Hy. apply H. now right.
  - intros. apply conv_const.
Qed.
Lemma conv_shift : forall A (m : nat -> run A), conv (fun f => m (S f)) -> conv m.
Proof. intros A m (x & f0 & H). exists x, (S f0). intros [|f] L; [lia|]. apply H. lia. Qed.

(** names of the registry that are not being expanded *)
Definition unseen (r : registry) (members : list string) : nat :=
  length (filter (fun k => negb (existsb (String.eqb k) members)) (map fst r)).

Lemma existsb_eqb_In : forall k l, existsb (String.eqb k) l = true <-> In k l.
Proof.
  intros k l. rewrite existsb_exists. split.
  - intros (x & H & E). apply String.eqb_eq in E. now subst.
  - intros H. exists k. split; [exact H|apply String.eqb_refl].
Qed.

Lemma unseen_push : forall r members k, rfind r k <> None -> ~ In k members ->
  unseen r (members ++ [k]) < unseen r members.
Proof.
  intros r members k H N. unfold unseen. set (p := fun k0 => negb (existsb (String.eqb k0) members)).
  set (q := fun k0 => negb (existsb (String.eqb k0) (members ++ [k]))).
  assert (Hin : In k (map fst r)).
  { destruct (in_dec string_dec k (map fst r)) as [I|I]; [exact I|]. apply ifind_None_keys in I. contradiction. }
  assert (Q : forall x, q x = (p x && negb (String.eqb x k))%bool).
  { intros x. unfold q, p. rewrite existsb_app. cbn. now rewrite orb_false_r, negb_orb. }
  assert (Le : forall l, length (filter q l) <= length (filter p l)).
  { induction l as [|x l IH]; cbn; [lia|]. rewrite Q. destruct (p x); cbn; [destruct (String.eqb x k)|]; cbn; lia. }
  assert (Pk : p k = true). { unfold p. apply negb_true_iff. rewrite <- not_true_iff_false, existsb_eqb_In. exact N. }
  revert Hin. generalize (map fst r). induction l as [|x l IH]; intros Hin; [destruct Hin|]. cbn.
  rewrite Q. destruct Hin as [->|Hin].
  - rewrite Pk, String.eqb_refl. cbn. specialize (Le l). lia.
  - specialize (IH Hin). destruct (p x); cbn; [destruct (String.eqb x k)|]; cbn; lia.
Qed.

Lemma parts_children : forall e c, In c (parts e) -> In c (children e).
Proof.
  intros e c H. unfold parts in H. apply in_app_or in H as [H|H].
  - unfold entries in H. destruct (ehas e); [|destruct H]. now apply in_data_child.
  - destruct (edata e); try destruct H. apply in_map_iff in H as ((k & x) & <- & H). apply filter_In in H as [H _].
    now apply in_attr_child with k.
Qed.
Lemma parts_smaller : forall e c, In c (parts e) -> esize c < esize e.
Proof. intros e c H. now apply child_smaller, parts_children. Qed.
Lemma entries_part : forall e c, In c (entries e) -> In c (parts e).
Proof. intros e c H. unfold parts. apply in_or_app. now left. Qed.
Lemma enums_part : forall e y o, edata e = DEnum o -> In ("enumerations"%string, y) (eattrs e) -> In y (parts e).
Proof.
  intros e y o E H. unfold parts. rewrite E. apply in_or_app. right. apply in_map_iff. exists ("enumerations"%string, y).
  split; [reflexivity|]. now apply filter_In.
Qed.
Lemma within_part : forall e c, In c (parts e) -> within c e.
Proof. intros e c H. apply within_step with c; [exact H|constructor]. Qed.
Lemma mentions_part : forall r e c, mentions_rooted r e -> In c (parts e) -> mentions_rooted r c.
Proof. intros r e c M H x W. apply M. now apply within_step with c. Qed.

(** the state of an expansion: nothing is being expanded, or everything named inside is rooted *)
Definition safe (r : registry) (members : list string) (e : element) : Prop :=
  members = [] \/
  ((ekind e <> KHolder -> In (ename e) members -> is_reserved (ename e) = false -> rooted r (ename e)) /\
   (forall s, edata e = DRef s -> rooted r s) /\
   forall c, In c (parts e) -> mentions_rooted r c).

Lemma safe_part : forall r members e c, safe r members e -> In c (parts e) -> safe r members c.
Proof.
  intros r members e c [->|[_ [_ H]]] Hc; [now left|]. right. specialize (H c Hc).
  repeat apply conj.
  - intros _ _ _. apply H. constructor.
  - apply H. constructor.
  - intros d Hd. now apply mentions_part with c.
Qed.

Lemma tree_entries : forall r f n t x, inheritance_tree f r n = Some t -> In x (entries t) ->
  exists k p, rfind r k = Some p /\ x = tagged k p.
Proof.
  intros r f n t x E H. unfold inheritance_tree in E.
  destruct (inheritance f r n []) as [o|] eqn:Ei; [|discriminate].
  destruct o as [[|s0 s]|]; injection E as <-; try (exfalso; exact H).
  change (In x (map snd (s0 :: s))) in H.
  assert (G : forall f en seen o, inheritance f r en seen = Some (Some o) ->
     (forall q, In q seen -> exists p, rfind r (fst q) = Some p /\ snd q = tagged (fst q) p) ->
     forall q, In q o -> exists p, rfind r (fst q) = Some p /\ snd q = tagged (fst q) p).
  { clear. induction f as [|f IH]; intros en seen o H Hs; [discriminate|]. cbn [inheritance] in H.
    destruct (rfind r en) as [p|] eqn:E; [|injection H as <-; exact Hs].
    destruct (is_reserved en); [injection H as <-; exact Hs|].
    destruct (existsb _ seen); [discriminate|]. apply (IH _ _ _ H).
    intros q [<-|Hq]; [exists p; auto|now apply Hs]. }
  apply in_map_iff in H as (q & <- & Hq). destruct (G _ _ _ _ Ei (fun q F => match F with end) q Hq) as (p & P1 & P2).
  exists (fst q), p. auto.
Qed.

Lemma parts_tagged : forall k p, parts (tagged k p) = parts p.
Proof.
  intros k p. destruct (tagged_fields k p) as (F1 & F2 & F3 & F4 & F5). unfold parts, entries. now rewrite F2, F3, F4.
Qed.

Definition is_holder (e : element) : Prop := ekind e = KHolder.

Section Termination.
  Context (r : registry) (HR : members_rooted r).

  Lemma expand_value_conv : forall (m : list string) d (g : nat -> list string -> element -> run (option element)),
    (forall c, In c (dsd_children d) -> conv (fun f => g f m c)) ->
    conv (fun f => expand_value (g f) m d).
  Proof.
    intros m d g H.
    assert (E : forall c, In c (dsd_children d) -> conv (fun f => expand_or_clone (g f) m c)).
    { intros c Hc. apply conv_bind; [now apply H|]. intros a. apply conv_const. }
    assert (L : forall l B (k : list element -> B), (forall c, In c l -> conv (fun f => expand_or_clone (g f) m c)) ->
      conv (fun f => bind (mapR (expand_or_clone (g f) m) l) (fun l' => ret (k l')))).
    { intros l B k Hl. apply (conv_bind _ _ (fun f => mapR (expand_or_clone (g f) m) l) (fun f l' => ret (k l'))).
      - apply conv_mapR. exact Hl.
      - intros. apply conv_const. }
    destruct d; cbn [expand_value]; try apply conv_const; try (apply L; exact E).
    apply (conv_bind _ _ (fun f => expand_or_clone_ptr (g f) m d) (fun f o' => ret (DEnum o'))); [|intros; apply conv_const].
    destruct d as [c|]; cbn [expand_or_clone_ptr]; [|apply conv_const].
    apply (conv_bind _ _ (fun f => expand_or_clone (g f) m c) (fun f x => ret (Some x))); [|intros; apply conv_const].
    apply E. now left.
  Qed.

  Lemma expand_members_conv : forall m e (g : nat -> list string -> element -> run (option element)),
    (forall c, In c (entries e) -> conv (fun f => g f m c)) ->
    conv (fun f => expand_members (g f) m e).
  Proof.
    intros m e g H. unfold expand_members.
    apply (conv_bind _ _ (fun f => if ehas e then bind (expand_value (g f) m (edata e)) (fun d => ret (make_element d)) else ret (make_empty (ekind e)))
       (fun f o => ret (set_meta (set_attrs o (copy_info (eattrs e))) (copy_info (emeta e))))).
    - unfold entries in H. destruct (ehas e); [|apply conv_const].
      apply (conv_bind _ _ (fun f => expand_value (g f) m (edata e)) (fun f d => ret (make_element d))).
      + now apply expand_value_conv.
      + intros; apply conv_const.
    - intros; apply conv_const.
  Qed.

  Lemma expand_conv : forall n members, unseen r members <= n -> forall e, safe r members e ->
    conv (fun f => expand f r members e).
  Proof.
    induction n as [n IHn] using lt_wf_ind. intros members Hu e.
    induction e as [e IHe] using (well_founded_induction (well_founded_ltof _ esize)). unfold ltof in IHe.
    intros Sf. apply conv_shift. cbn [expand].
    assert (Part : forall c, In c (parts e) -> conv (fun f => expand f r members c)).
    { intros c Hc. apply IHe; [now apply parts_smaller|]. now apply safe_part with e. }
    assert (Eoc : forall c, In c (parts e) -> conv (fun f => expand_or_clone (expand f r) members c)).
    { intros c Hc. apply conv_bind; [now apply Part|]. intros; apply conv_const. }
    assert (Mem : conv (fun f => expand_members (expand f r) members e)).
    { apply (expand_members_conv members e (fun f => expand f r)). intros c Hc. apply Part, entries_part, Hc. }
    assert (Ptr : forall o, (forall c, o = Some c -> In c (parts e)) -> conv (fun f => expand_or_clone_ptr (expand f r) members o)).
    { intros [c|] Ho; cbn [expand_or_clone_ptr]; [|apply conv_const].
      apply (conv_bind _ _ (fun f => expand_or_clone (expand f r) members c) (fun f x => ret (Some x))); [|intros; apply conv_const].
      apply Eoc. now apply Ho. }
    assert (Named : ekind e <> KHolder -> is_reserved (ename e) = false -> conv (fun f => expand_named r (expand f r) (S f) members e)).
    { intros Hk0 Er. unfold expand_named. destruct (existsb (String.eqb (ename e)) members) eqn:Ex.
      - apply existsb_eqb_In in Ex. assert (Rt : rooted r (ename e)).
        { destruct Sf as [->|[Sf _]]; [destruct Ex|now apply Sf]. }
        destruct (rooted_root _ _ Rt) as (f0 & o & H). destruct o as [root|].
        + exists (Ok (circular (ename e) root)), f0. intros f L. now rewrite H by lia.
        + exists Undefined, f0. intros f L. now rewrite H by lia.
      - destruct (chain_eventually r (ename e)) as [t Ht].
        assert (C : conv (fun f => bind (expand_members (expand f r) (members ++ [ename e]) t) (fun ext =>
            bind (expand_members (expand f r) members e) (fun origin =>
            ret (eset (copy_meta_id ext e) (DExtend (extend_content (copy_meta_id ext e) ++ [set_meta origin (ierase (emeta origin) "id")]))))))).
        { apply conv_bind.
          - apply (expand_members_conv (members ++ [ename e]) t (fun f => expand f r)). intros c Hc.
            assert (Hreg : rfind r (ename e) <> None).
            { intros Z. specialize (Ht _ (Nat.lt_succ_diag_r _)). unfold inheritance_tree in Ht. cbn [inheritance] in Ht. rewrite Z in Ht. injection Ht as <-. destruct Hc. }
            destruct (tree_entries r (S (length r)) (ename e) t c (Ht _ (Nat.lt_succ_diag_r _)) Hc) as (k & p & Hk & ->).
            apply (IHn (unseen r (members ++ [ename e]))); [|lia|].
            + assert (Hl : unseen r (members ++ [ename e]) < unseen r members).
              { apply unseen_push; [exact Hreg|]. intros Hin. apply existsb_eqb_In in Hin. congruence. }
              lia.
            + right. destruct (tagged_fields k p) as (F1 & F2 & F3 & F4 & F5). unfold ekind. rewrite F1, F4, parts_tagged. repeat apply conj.
              * intros Hh _ Hr0. exfalso. unfold ekind in Hr0. destruct (dsd_kind (edata p)) eqn:Ek; try discriminate Hr0. now apply Hh.
              * apply (HR k p Hk).
              * apply (HR k p Hk).
          - intros ext. apply (conv_bind _ _ (fun f => expand_members (expand f r) members e)
              (fun f origin => ret (eset (copy_meta_id ext e) (DExtend (extend_content (copy_meta_id ext e) ++ [set_meta origin (ierase (emeta origin) "id")]))))).
            + exact Mem.
            + intros; apply conv_const. }
        destruct C as (x & f0 & H). exists x, (f0 + S (length r)). intros f L. rewrite Ht by lia. apply H. lia. }
    assert (Cond : forall m : nat -> run element, conv m ->
      conv (fun f => match expandable e with None => undefined | Some false => ret None | Some true => bind (m f) (fun x => ret (Some x)) end)).
    { intros m Hm. destruct (expandable e) as [[|]|]; try apply conv_const. apply conv_bind; [exact Hm|]. intros; apply conv_const. }
    assert (Some_ : forall m : nat -> run element, conv m -> conv (fun f => bind (m f) (fun x => ret (Some x)))).
    { intros m Hm. apply conv_bind; [exact Hm|]. intros; apply conv_const. }
    assert (Prim : ekind e <> KHolder -> conv (fun f => if negb (is_reserved (ename e)) then bind (expand_named r (expand f r) (S f) members e) (fun x => ret (Some x)) else ret None)).
    { intros Hk. destruct (is_reserved (ename e)) eqn:Er; cbn [negb]; [apply conv_const|]. apply Some_, Named; [exact Hk|reflexivity]. }
    assert (Cont : ekind e <> KHolder -> conv (fun f => if negb (is_reserved (ename e)) then expand_named r (expand f r) (S f) members e else expand_members (expand f r) members e)).
    { intros Hk. destruct (is_reserved (ename e)) eqn:Er; cbn [negb]; [exact Mem|]. now apply Named. }
    unfold expand_round. destruct (edata e) as [|o|s|s|b|l|k v|l|o|s|l|l|l] eqn:Ed;
      try apply conv_const; try (apply Prim; unfold ekind; rewrite Ed; discriminate);
      try (apply Cond, Cont; unfold ekind; rewrite Ed; discriminate).
    - (* member *)
      apply Cond. destruct (ehas e) eqn:Eh; [|apply conv_const].
      apply conv_bind.
      + apply Ptr. intros c ->. apply entries_part. unfold entries. rewrite Eh, Ed. cbn. now left.
      + intros k'. apply (conv_bind _ _ (fun f => expand_or_clone_ptr (expand f r) members v)
          (fun f v' => ret (eset (clone (Flags true true false true false) e) (DMember k' v')))); [|intros; apply conv_const].
        apply Ptr. intros c ->. apply entries_part. unfold entries. rewrite Eh, Ed. cbn. apply in_or_app. right. now left.
    - (* enum *)
      apply Some_. unfold expand_enum. destruct (is_reserved (ename e)) eqn:Er; cbn [negb]; [|apply Named; [unfold ekind; rewrite Ed; discriminate|reflexivity]].
      apply conv_bind.
      + destruct (ehas e) eqn:Eh; [|apply conv_const].
        apply (conv_bind _ _ (fun f => expand_value (expand f r) members (edata e)) (fun f d => ret (make_element d))).
        * apply (expand_value_conv members (edata e) (fun f => expand f r)). intros c Hc. apply Part, entries_part. unfold entries. now rewrite Eh.
        * intros; apply conv_const.
      + intros x. apply (conv_bind _ _ (fun f => expand_enum_attrs (expand f r) members (eattrs e) [])
          (fun f attrs => ret (set_attrs (set_meta x (copy_info (emeta e))) attrs))); [|intros; apply conv_const].
        assert (G : forall l acc, (forall y, In ("enumerations"%string, y) l -> In y (parts e)) ->
          conv (fun f => expand_enum_attrs (expand f r) members l acc)).
        { induction l as [|(k & y) l IHl]; intros acc Hl; cbn [expand_enum_attrs]; [apply conv_const|].
          destruct (String.eqb_spec k "enumerations") as [->|Nk].
          - destruct (edata y) eqn:Ey; try apply conv_const. destruct (ehas y) eqn:Ehy; [|apply conv_const].
            apply (conv_bind _ _ (fun f => mapR (expand_or_clone (expand f r) members) l0)
              (fun f l' => expand_enum_attrs (expand f r) members l (iset acc "enumerations" (make_element (DArray l'))))).
            + apply conv_mapR. intros c Hc. apply conv_bind; [|intros; apply conv_const].
              assert (Hy : In y (parts e)) by (apply Hl; now left).
              assert (Hc' : In c (parts y)). { apply entries_part. unfold entries. now rewrite Ehy, Ey. }
              apply IHe.
              * apply parts_smaller in Hy. apply parts_smaller in Hc'. lia.
              * apply safe_part with y; [|exact Hc']. now apply safe_part with e.
            + intros a. apply IHl. intros z Hz. apply Hl. now right.
          - apply IHl. intros z Hz. apply Hl. now right. }
        apply G. intros y Hy. now apply enums_part with o.
    - (* ref *)
      apply Some_. unfold expand_reference.
      assert (Eg : eget (clone cAll e) = eget e). { unfold clone, eget. cbn. destruct e as [n0 m0 a0 h0 d0]. cbn. rewrite dsd_map_id; [reflexivity|intros; apply clone_all_id]. }
      rewrite Eg. unfold eget. destruct (ehas e); [|apply conv_const]. rewrite Ed.
      destruct (String.eqb s ""); [apply conv_const|]. destruct (existsb (String.eqb s) members) eqn:Ex; [apply conv_const|].
      destruct (rfind r s) as [q|] eqn:Eq; [|apply conv_const].
      apply (conv_bind _ _ (fun f => expand_or_clone (expand f r) (members ++ [s]) q)
        (fun f x => ret (set_attrs (clone cAll e) (iset (eattrs (clone cAll e)) "resolved" (meta_id_to_ref x))))); [|intros; apply conv_const].
      apply conv_bind; [|intros; apply conv_const].
      assert (Hl : unseen r (members ++ [s]) < unseen r members).
      { apply unseen_push; [congruence|]. intros Hin. apply existsb_eqb_In in Hin. congruence. }
      apply (IHn (unseen r (members ++ [s]))); [lia|lia|].
      right. destruct (HR s q Eq) as [H1 H2]. repeat apply conj; auto.
      intros _ Hin Hr. destruct Sf as [->|(_ & Sr & _)].
      + cbn in Hin. destruct Hin as [Hin|[]]. rewrite <- Hin. now apply rooted_self with q.
      + specialize (Sr s Ed). inversion Sr as [|? q' Eq' R'|? q' Eq' E'|? q' Eq' R']; subst; try congruence;
          assert (q' = q) by congruence; subst q'; congruence.
    - (* select *)
      apply Cond. destruct (ehas e) eqn:Eh; [|apply conv_const].
      apply (conv_bind _ _ (fun f => mapR (expand_option (expand f r) members) l)
        (fun f l' => ret (set_meta (make_element (DSelect l')) (copy_info (emeta e))))); [|intros; apply conv_const].
      apply conv_mapR. intros o Ho. unfold expand_option. apply conv_bind.
      + apply Eoc, entries_part. unfold entries. now rewrite Eh, Ed.
      + intros a. destruct (ekind a); apply conv_const.
  Qed.
End Termination.
