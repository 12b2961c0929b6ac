From Verif Require Import Base Utf8Spec SoValue SoValueSpec SoValueProofs JsonSpec YamlSpec Element ElementSpec
  ElementProofs SerializeSo SerializeSpec.

Lemma mapM_ext : forall A B C (f : A -> option B) (g : C -> option B) (h : A -> C) l,
  (forall x, In x l -> f x = g (h x)) -> mapM f l = mapM g (map h l).
Proof.
  induction l as [|x l IH]; cbn; intros H; [reflexivity|].
  rewrite (H x) by now left. rewrite IH; [reflexivity|]. intros y Hy. apply H. now right.
Qed.

Lemma ser_content_ext : forall (f g : element -> option value) (h : element -> element) d,
  (forall x, In x (dsd_children d) -> f x = g (h x)) -> ser_content f d = ser_content g (dsd_map h d).
Proof.
  intros f g h d H. destruct d as [|[y|]| | | |l|k v|l|[y|]| |l|l|l]; cbn in *; try reflexivity;
    try (now apply H; left); try (f_equal; now apply mapM_ext).
  destruct k as [k|]; cbn in *; [|reflexivity]. rewrite (H k) by now left.
  destruct (g (h k)); cbn; [|reflexivity]. destruct v as [v|]; cbn in *; [|reflexivity].
  rewrite (H v) by auto. reflexivity.
Qed.

Lemma imapM_drop : forall (f g : element -> option value) (h : element -> element) l,
  (forall k x, In (k, x) l -> f x = g (h x)) ->
  imapM f (keep_info false) l = imapM g (keep_info true) (drop_maps (map (fun kv => (fst kv, h (snd kv))) l)).
Proof.
  induction l as [|[k x] l IH]; cbn; intros H; [reflexivity|].
  destruct (String.eqb_spec k "sourceMap") as [->|N]; cbn.
  - apply IH. intros k' y Hy. apply (H k'). now right.
  - rewrite (H k x) by now left. rewrite IH; [reflexivity|]. intros k' y Hy. apply (H k'). now right.
Qed.

Theorem strip_render : forall e, serialize_any false e = serialize_any true (strip e).
Proof.
  induction e as [e IH] using element_ind'. destruct e as [n m a h d]. cbn [serialize_any strip].
  rewrite (imapM_drop (serialize_any false) (serialize_any true) strip m).
  2:{ intros k x H. apply IH. now apply in_meta_child with k. }
  cbn [orb].
  assert (A : imapM (serialize_any (String.eqb n "annotation")) (keep_info (String.eqb n "annotation")) a
            = imapM (serialize_any true) (keep_info true)
                (if String.eqb n "annotation" then a else drop_maps (map (fun kv => (fst kv, strip (snd kv))) a))).
  { destruct (String.eqb n "annotation"); [reflexivity|].
    apply imapM_drop. intros k x H. apply IH. now apply in_attr_child with k. }
  rewrite A. rewrite <- (ser_content_ext (serialize_any false) (serialize_any true) strip d); [reflexivity|].
  intros x H. apply IH. now apply in_data_child.
Qed.

(** inversion of the loops *)
Lemma imapM_spec : forall A B (f : A -> option B) keep l,
  (forall k x, In (k, x) l -> keep k = true -> exists y, f x = Some y) ->
  exists r, imapM f keep l = Some r /\
    map fst r = filter keep (map fst l) /\
    (forall k y, In (k, y) r -> exists x, In (k, x) l /\ keep k = true /\ f x = Some y).
Proof.
  induction l as [|[k x] l IH]; cbn; intros H.
  - exists []. repeat split. intros ? ? [].
  - destruct IH as (r & E & K & C).
    { intros k' y Hy Hk. apply (H k' y); [now right|exact Hk]. }
    destruct (keep k) eqn:Ek.
    + destruct (H k x (or_introl eq_refl) Ek) as [y Ey]. rewrite Ey, E. eexists. split; [reflexivity|].
      split; [cbn; now rewrite K|]. intros k' z [G|G].
      * injection G as <- <-. exists x. auto.
      * destruct (C k' z G) as (w & Hw & Hk & Hf). exists w. auto.
    + exists r. repeat split; auto. intros k' z G. destruct (C k' z G) as (w & Hw & Hk & Hf). exists w. auto.
Qed.

Lemma mapM_spec : forall A B (f : A -> option B) l,
  (forall x, In x l -> exists y, f x = Some y) ->
  exists r, mapM f l = Some r /\ (forall y, In y r -> exists x, In x l /\ f x = Some y).
Proof.
  induction l as [|x l IH]; cbn; intros H.
  - exists []. split; [reflexivity|]. intros ? [].
  - destruct IH as (r & E & C). { intros y Hy. apply H. now right. }
    destruct (H x (or_introl eq_refl)) as [y Ey]. rewrite Ey, E. eexists. split; [reflexivity|].
    intros z [<-|Hz]; [eauto|]. destruct (C z Hz) as (w & Hw & Hf). eauto.
Qed.

(** the structure of a rendered element *)
Inductive rendered (sm : bool) (e : element) : value -> Prop :=
| rend m a c :
    (forall k y, In (k, y) m -> exists x, In (k, x) (emeta e) /\ serialize_any sm x = Some y) ->
    map fst m = filter (keep_info sm) (map fst (emeta e)) ->
    (forall k y, In (k, y) a -> exists x, In (k, x) (eattrs e) /\
        serialize_any (sm || String.eqb (ename e) "annotation") x = Some y) ->
    map fst a = filter (keep_info (sm || String.eqb (ename e) "annotation")) (map fst (eattrs e)) ->
    (if ehas e then exists v, ser_content (serialize_any sm) (edata e) = Some v /\ c = [("content"%string, v)]
     else c = []) ->
    rendered sm e (VObject ((("element"%string, VString (ename e)) :: info_member "meta" m)
                            ++ info_member "attributes" a ++ c)).

Lemma serialize_rendered : forall e, no_null e -> forall sm,
  exists v, serialize_any sm e = Some v /\ rendered sm e v.
Proof.
  induction e as [e IH] using element_ind'. intros N sm.
  assert (C : forall c, In c (children e) -> forall sm, exists v, serialize_any sm c = Some v).
  { intros c Hc s. destruct (IH c Hc (no_null_child _ _ N Hc) s) as (v & E & _). eauto. }
  assert (HD := no_null_head _ N). unfold head_ok in HD.
  destruct e as [n m a h d]. cbn [serialize_any].
  destruct (imapM_spec _ _ (serialize_any sm) (keep_info sm) m) as (rm & Em & Km & Cm).
  { intros k x H _. apply C. now apply in_meta_child with k. }
  rewrite Em. cbn [obind].
  destruct (imapM_spec _ _ (serialize_any (sm || String.eqb n "annotation")) (keep_info (sm || String.eqb n "annotation")) a) as (ra & Ea & Ka & Ca).
  { intros k x H _. apply C. now apply in_attr_child with k. }
  rewrite Ea. cbn [obind].
  assert (G : h = true -> exists v, ser_content (serialize_any sm) d = Some v).
  { intros ->. specialize (HD eq_refl). cbn [edata] in HD.
    assert (D : forall x, In x (dsd_children d) -> exists v, serialize_any sm x = Some v).
    { intros x Hx. apply C. now apply in_data_child. }
    destruct d as [|[y|]| | | |l|[k|] v|l|[y|]| |l|l|l]; cbn in D |- *; try tauto;
      try (eexists; reflexivity); try (apply D; now left);
      try (destruct (mapM_spec _ _ (serialize_any sm) l D) as (r & E & _); rewrite E; cbn; eexists; reflexivity).
    destruct (D k) as [sk ->]; [now left|]. cbn. destruct v as [v|]; [|eauto].
    destruct (D v) as [sv ->]; [right; now left|]. cbn. eauto. }
  destruct h.
  - destruct (G eq_refl) as [v Ev]. rewrite Ev. cbn. eexists. split; [reflexivity|].
    apply (rend sm (Elem n m a true d) rm ra [("content"%string, v)]); auto; cbn.
    + intros k y H. destruct (Cm k y H) as (x & A & _ & B). eauto.
    + intros k y H. destruct (Ca k y H) as (x & A & _ & B). eauto.
    + eauto.
  - cbn. eexists. split; [reflexivity|].
    apply (rend sm (Elem n m a false d) rm ra []); auto; cbn.
    + intros k y H. destruct (Cm k y H) as (x & A & _ & B). eauto.
    + intros k y H. destruct (Ca k y H) as (x & A & _ & B). eauto.
    + reflexivity.
Qed.

(** what a defined content is made of *)
Inductive content_of (rec : element -> option value) : dsd element -> value -> Prop :=
| c_null : content_of rec DNull VNull
| c_hold x v : rec x = Some v -> content_of rec (DHolder (Some x)) v
| c_str s : content_of rec (DString s) (VString s)
| c_num s : content_of rec (DNumber s) (VNumber s)
| c_bool b : content_of rec (DBoolean b) (if b then VTrue else VFalse)
| c_list d l r : (d = DArray l \/ d = DObject l \/ d = DExtend l \/ d = DOption l \/ d = DSelect l) ->
    (forall y, In y r -> exists x, In x l /\ rec x = Some y) -> content_of rec d (VArray r)
| c_key k v : rec k = Some v -> content_of rec (DMember (Some k) None) (VObject [("key"%string, v)])
| c_pair k v sk sv : rec k = Some sk -> rec v = Some sv ->
    content_of rec (DMember (Some k) (Some v)) (VObject [("key"%string, sk); ("value"%string, sv)])
| c_enum x v : rec x = Some v -> content_of rec (DEnum (Some x)) v
| c_ref s : content_of rec (DRef s) (VString s).

Lemma mapM_in : forall A B (f : A -> option B) l r, mapM f l = Some r ->
  forall y, In y r -> exists x, In x l /\ f x = Some y.
Proof.
  induction l as [|x l IH]; cbn; intros r H; [injection H as <-; intros ? []|].
  destruct (f x) eqn:E; [|discriminate]. destruct (mapM f l) eqn:M; [|discriminate].
  injection H as <-. intros y [<-|Hy]; [eauto|]. destruct (IH _ eq_refl y Hy) as (w & A1 & A2). eauto.
Qed.

Lemma content_inv : forall rec d v, ser_content rec d = Some v -> content_of rec d v.
Proof.
  intros rec d v H. destruct d as [|[y|]| | | |l|[k|] w|l|[y|]| |l|l|l]; cbn in H; try discriminate;
    try (injection H as <-; constructor);
    try (destruct (mapM rec l) eqn:M; [|discriminate]; injection H as <-; eapply c_list; [eauto 6|eapply mapM_in; eassumption]);
    try (now constructor).
  destruct (rec k) eqn:K; [|discriminate]. cbn in H. destruct w as [w|].
  - destruct (rec w) eqn:W; [|discriminate]. injection H as <-. now constructor.
  - injection H as <-. now constructor.
Qed.

Lemma info_member_meta_ok : forall k l, (forall n v, In (n, v) l -> layout v) -> meta_ok k (info_member k l).
Proof. intros k [|[n v] l] H; cbn; constructor; [discriminate|exact H]. Qed.

Lemma rendered_layout : forall e, no_null e -> forall sm v, serialize_any sm e = Some v -> layout v.
Proof.
  induction e as [e IH] using element_ind'. intros N sm v E.
  destruct (serialize_rendered e N sm) as (v' & E' & R). rewrite E in E'. injection E' as <-.
  destruct R as [m a c Hm Km Ha Ka Hc].
  assert (C : forall x, In x (children e) -> forall sm v, serialize_any sm x = Some v -> layout v).
  { intros x Hx. apply IH; [exact Hx|now apply no_null_child with e]. }
  constructor.
  - apply info_member_meta_ok. intros n v H. destruct (Hm n v H) as (x & A & B).
    apply (C x) with sm; [now apply in_meta_child with n|exact B].
  - apply info_member_meta_ok. intros n v H. destruct (Ha n v H) as (x & A & B).
    eapply (C x); [now apply in_attr_child with n|exact B].
  - destruct (ehas e); [|subst; constructor]. destruct Hc as (w & Ew & ->).
    assert (D : forall x, In x (dsd_children (edata e)) -> forall v, serialize_any sm x = Some v -> layout v).
    { intros x Hx w' Hw. apply (C x) with sm; [now apply in_data_child|exact Hw]. }
    apply content_inv in Ew. destruct Ew; cbn in D.
    + apply co_prim. auto.
    + apply co_elem. apply (D x); auto.
    + apply co_prim. eauto 6.
    + apply co_prim. eauto 6.
    + apply co_prim. destruct b; auto.
    + apply co_list. intros y Hy. destruct (H0 y Hy) as (x & A & B). apply (D x); [|exact B].
      destruct H as [->|[->|[->|[->| ->]]]]; exact A.
    + apply co_key. apply (D k); auto.
    + apply co_pair; [apply (D k)|apply (D v)]; auto.
    + apply co_elem. apply (D x); auto.
    + apply co_prim. eauto 6.
Qed.

Lemma info_member_names : forall k l, map fst (info_member k l) = match l with [] => [] | _ => [k] end.
Proof. now intros k [|x l]. Qed.

Lemma filter_nil_existsb : forall A (f : A -> bool) l, (match filter f l with [] => false | _ => true end) = existsb f l.
Proof. induction l as [|x l IH]; cbn; [reflexivity|]. destruct (f x); [reflexivity|exact IH]. Qed.

Lemma rendered_names : forall sm e v, rendered sm e v ->
  member_names v =
    ("element"%string ::
      (if existsb (keep_info sm) (map fst (emeta e)) then ["meta"%string] else []) ++
      (if existsb (keep_info (sm || String.eqb (ename e) "annotation")) (map fst (eattrs e)) then ["attributes"%string] else []) ++
      (if ehas e then ["content"%string] else []))%list /\
  exists ms, v = VObject (("element"%string, VString (ename e)) :: ms).
Proof.
  intros sm e v R. destruct R as [m a c Hm Km Ha Ka Hc].
  split; [|eexists; reflexivity]. cbn [member_names]. rewrite map_app. cbn [map fst app]. f_equal.
  rewrite map_app, !info_member_names.
  rewrite <- !filter_nil_existsb, <- Km, <- Ka.
  assert (Ec : map fst c = if ehas e then ["content"%string] else []).
  { destruct (ehas e); [destruct Hc as (w & _ & ->); reflexivity|now subst]. }
  rewrite Ec. destruct m, a; reflexivity.
Qed.

(** generic traversals of values used by the JSON and YAML specifications *)
Lemma unique_keys_obj : forall l, NoDup (map fst l) -> (forall k v, In (k, v) l -> unique_keys v) -> unique_keys (VObject l).
Proof.
  intros l H G. cbn. split; [exact H|]. clear H. induction l as [|[k v] l IH]; [exact I|]. split.
  - apply (G k). now left.
  - apply IH. intros k' w Hw. apply (G k'). now right.
Qed.
Lemma unique_keys_arr : forall l, (forall v, In v l -> unique_keys v) -> unique_keys (VArray l).
Proof.
  intros l G. cbn. induction l as [|v l IH]; [exact I|]. split; [apply G; now left|].
  apply IH. intros w Hw. apply G. now right.
Qed.
Lemma numbers_ok_obj : forall l, (forall k v, In (k, v) l -> numbers_ok v = true) -> numbers_ok (VObject l) = true.
Proof.
  intros l G. cbn. induction l as [|[k v] l IH]; [reflexivity|]. cbn [snd].
  rewrite (G k v) by now left. apply IH. intros k' w Hw. apply (G k'). now right.
Qed.
Lemma numbers_ok_arr : forall l, (forall v, In v l -> numbers_ok v = true) -> numbers_ok (VArray l) = true.
Proof.
  intros l G. cbn. induction l as [|v l IH]; [reflexivity|].
  rewrite (G v) by now left. apply IH. intros w Hw. apply G. now right.
Qed.
Lemma strings_ok_obj : forall P l, (forall k v, In (k, v) l -> P k /\ strings_ok P v) -> strings_ok P (VObject l).
Proof.
  intros P l G. cbn. induction l as [|[k v] l IH]; [exact I|]. destruct (G k v) as [A B]; [now left|].
  split; [exact A|]. split; [exact B|]. apply IH. intros k' w Hw. apply (G k'). now right.
Qed.
Lemma strings_ok_arr : forall P l, (forall v, In v l -> strings_ok P v) -> strings_ok P (VArray l).
Proof.
  intros P l G. cbn. induction l as [|v l IH]; [exact I|]. split; [apply G; now left|].
  apply IH. intros w Hw. apply G. now right.
Qed.
Lemma yaml_ok_obj : forall l, (forall k v, In (k, v) l -> key_ok k /\ yaml_ok v) -> yaml_ok (VObject l).
Proof.
  intros l G. cbn. induction l as [|[k v] l IH]; [exact I|]. destruct (G k v) as [A B]; [now left|].
  split; [exact A|]. split; [exact B|]. apply IH. intros k' w Hw. apply (G k'). now right.
Qed.
Lemma yaml_ok_arr : forall l, (forall v, In v l -> yaml_ok v) -> yaml_ok (VArray l).
Proof.
  intros l G. cbn. induction l as [|v l IH]; [exact I|]. split; [apply G; now left|].
  apply IH. intros w Hw. apply G. now right.
Qed.

(** One traversal argument for all of them: [Q] holds of the rendered value if it is closed under
    the way elements are rendered. *)
Section Traverse.
  Context (Q : value -> Prop) (Pk Ps Pn : string -> Prop).
  Context (Qnull : Q VNull) (Qtrue : Q VTrue) (Qfalse : Q VFalse)
          (Qstr : forall s, Ps s -> Q (VString s)) (Qnum : forall s, Pn s -> Q (VNumber s))
          (Qarr : forall l, (forall v, In v l -> Q v) -> Q (VArray l))
          (Qobj : forall l, NoDup (map fst l) -> (forall k v, In (k, v) l -> Pk k /\ Q v) -> Q (VObject l))
          (Kw : forall k, In k ["element"; "meta"; "attributes"; "content"; "key"; "value"]%string -> Pk k).

  Lemma info_member_Q : forall k l, In k ["meta"; "attributes"]%string -> NoDup (map fst l) ->
    (forall n v, In (n, v) l -> Pk n /\ Q v) ->
    forall n v, In (n, v) (info_member k l) -> Pk n /\ Q v.
  Proof.
    intros k l Hk ND H n v G. unfold info_member in G. destruct l as [|p l]; [destruct G|].
    destruct G as [G|[]]. injection G as <- <-. split.
    - apply Kw. cbn in *. tauto.
    - now apply Qobj.
  Qed.

  Lemma NoDup_layout : forall n (m a : list (string * value)) c,
    map fst c = [] \/ map fst c = ["content"%string] ->
    NoDup (map fst ((("element"%string, VString n) :: info_member "meta" m) ++ info_member "attributes" a ++ c)).
  Proof.
    intros n m a c Hc. rewrite !map_app. cbn [map fst]. rewrite !info_member_names.
    destruct Hc as [-> | ->]; destruct m, a; cbn; repeat constructor; cbn; intuition discriminate.
  Qed.

  Lemma traverse : forall e, no_null e ->
    (forall x, sub x e -> NoDup (map fst (emeta x)) /\ NoDup (map fst (eattrs x)) /\
       Forall Pk (own_keys x) /\ Forall Ps (own_strings x) /\ Forall Pn (own_numbers x)) ->
    forall sm v, serialize_any sm e = Some v -> Q v.
  Proof.
    induction e as [e IH] using element_ind'. intros N H sm v E.
    destruct (serialize_rendered e N sm) as (v' & E' & R). rewrite E in E'. injection E' as <-.
    destruct (H e (sub_refl e)) as (NDm & NDa & Hk & Hs & Hn).
    unfold own_keys in Hk. rewrite Forall_app in Hk. destruct Hk as [Hkm Hka].
    rewrite Forall_forall in Hkm, Hka.
    destruct R as [m a c Hm Km Ha Ka Hc].
    assert (C : forall x, In x (children e) -> forall sm v, serialize_any sm x = Some v -> Q v).
    { intros x Hx. apply IH; [exact Hx|now apply no_null_child with e|].
      intros y Hy. apply H. now apply sub_step with x. }
    assert (Hm' : forall n v, In (n, v) (info_member "meta" m) -> Pk n /\ Q v).
    { apply info_member_Q; [cbn; auto|rewrite Km; now apply NoDup_filter|]. intros n v G. destruct (Hm n v G) as (x & A & B).
      split; [apply Hkm; now apply (in_map fst) in A|].
      apply (C x) with sm; [now apply in_meta_child with n|exact B]. }
    assert (Ha' : forall n v, In (n, v) (info_member "attributes" a) -> Pk n /\ Q v).
    { apply info_member_Q; [cbn; auto|rewrite Ka; now apply NoDup_filter|]. intros n v G. destruct (Ha n v G) as (x & A & B).
      split; [apply Hka; now apply (in_map fst) in A|].
      eapply (C x); [now apply in_attr_child with n|exact B]. }
    assert (Hc' : (map fst c = [] \/ map fst c = ["content"%string]) /\ forall n v, In (n, v) c -> Pk n /\ Q v).
    { destruct (ehas e) eqn:Eh; [|subst; split; [now left|intros ? ? []]].
      destruct Hc as (w & Ew & ->). split; [now right|]. intros n v [G|[]]. injection G as <- <-.
      split; [apply Kw; cbn; auto|].
      assert (D : forall x, In x (dsd_children (edata e)) -> forall v, serialize_any sm x = Some v -> Q v).
      { intros x Hx u Hu. apply (C x) with sm; [now apply in_data_child|exact Hu]. }
      unfold own_strings in Hs. rewrite Eh in Hs. unfold own_numbers in Hn. rewrite Eh in Hn.
      inversion Hs as [|u1 u2 _ Hs']; subst; clear Hs.
      apply content_inv in Ew. destruct Ew; cbn in D.
      - exact Qnull.
      - apply (D x); auto.
      - apply Qstr. inversion Hs'; auto.
      - apply Qnum. inversion Hn; auto.
      - destruct b; auto.
      - apply Qarr. intros y Hy. destruct (H1 y Hy) as (x & A & B). apply (D x); [|exact B].
        destruct H0 as [->|[->|[->|[->| ->]]]]; exact A.
      - apply Qobj; [repeat constructor; intros []|]. intros k' u [G|[]]. injection G as <- <-.
        split; [apply Kw; cbn; auto 8|apply (D k); auto].
      - apply Qobj; [repeat constructor; cbn; intuition discriminate|].
        intros k' u [G|[G|[]]]; injection G as <- <-.
        + split; [apply Kw; cbn; auto 8|apply (D k); auto].
        + split; [apply Kw; cbn; auto 8|apply (D v); auto].
      - apply (D x); auto.
      - apply Qstr. inversion Hs'; auto. }
    destruct Hc' as [Hc1 Hc2]. apply Qobj.
    - now apply NoDup_layout.
    - intros k w G. apply in_app_or in G as [[G|G]|G].
      + injection G as <- <-. split; [apply Kw; cbn; auto|]. apply Qstr. inversion Hs; auto.
      + now apply Hm'.
      + apply in_app_or in G as [G|G]; [now apply Ha'|now apply Hc2].
  Qed.
End Traverse.
