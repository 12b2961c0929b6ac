(** Shape of generated schemas *)
From Coq Require Import DecimalString DecimalFacts DecimalNat DecimalN Decimal.
From Verif Require Import Base SoValue SoValueSpec SoValueProofs JsonSpec Element ElementSpec ElementProofs InfoProofs Extend MergeProofs
  Registry Expand ExpandProofs ExpandShape ElementUtils JsonValue JsonSchema Depth GenConv BodyProofs.

(** decimal printing *)
Lemma digits_all : forall d, digits0 (NilEmpty.string_of_uint d) = ""%string.
Proof. induction d; cbn; auto. Qed.
Lemma nzhead_not_D0 : forall d d', nzhead d <> D0 d'.
Proof. induction d; cbn; intros d'; try discriminate. apply IHd. Qed.
Lemma to_string_number : forall n, json_number (to_string n) = true.
Proof.
  intros n. unfold to_string.
  assert (E : N.to_uint n = unorm (N.to_uint n)).
  { rewrite <- (DecimalN.Unsigned.to_of (N.to_uint n)), DecimalN.Unsigned.of_to. reflexivity. }
  rewrite E. unfold unorm. pose proof (nzhead_not_D0 (N.to_uint n)) as Z.
  destruct (nzhead (N.to_uint n)) as [|d|d|d|d|d|d|d|d|d|d]; [reflexivity|destruct (Z d eq_refl)|..];
    unfold json_number; cbn; rewrite digits_all; reflexivity.
Qed.

(** anyOf stands alone *)
Definition anyof_alone (fs : list field) : Prop := (exists v, fs = [("anyOf"%string, v)]) \/ ~ In "anyOf"%string (map fst fs).

Lemma alone_wrap : forall o fs, ~ In "anyOf"%string (map fst fs) -> anyof_alone (wrap_nullable o fs).
Proof. intros o fs H. unfold wrap_nullable. destruct (s_nullable o); [left; eauto|now right]. Qed.
Lemma materialize_keys : forall s k, In k (map fst (materialize s)) -> In k ["properties"; "patternProperties"; "allOf"; "required"]%string.
Proof.
  intros s k H. unfold materialize in H. rewrite !map_app, !in_app_iff in H.
  destruct H as [H|[H|[H|H]]]; [destruct (os_props s)|destruct (os_patterns s)|destruct (os_allOf s)|destruct (os_required s)];
    cbn in H; destruct H as [<-|[]] || destruct H; cbn; auto.
Qed.
Lemma alone_single : forall k v, anyof_alone [(k, v)].
Proof.
  intros k v. destruct (String.eqb_spec k "anyOf") as [->|N]; [left; eauto|right]. cbn. intros [H|[]]. congruence.
Qed.
Lemma f_enum_alone : forall vs, anyof_alone [f_enum vs].
Proof. intros vs. unfold f_enum. destruct vs as [|x [|y r]]; apply alone_single. Qed.

Lemma schema_alone : forall n e o, yields (render_schema n e o) anyof_alone.
Proof.
  induction n as [|n IH]; intros e o; [exact (yields_none _ _)|]. cbn [render_schema].
  destruct (edata e) as [|d0|ds|ds|db|l|k v|l|d0|ds|l|l|l] eqn:E; try (apply yields_ret; apply alone_single);
    try (eapply yields_bind; [apply yields_any|]; intros o1 _; destruct (s_fixed o1 && ehas e)%bool;
         [eapply yields_bind; [apply yields_any|]; intros v _; apply yields_ret; apply f_enum_alone|];
         destruct (s_nullable o1); apply yields_ret; apply alone_single).
  - destruct (ehas e), d0; try (apply yields_ret; right; intros []). apply IH.
  - eapply yields_bind; [apply yields_any|]. intros o1 _. cbn zeta.
    destruct (s_ftype o1); [|destruct (s_fixed o1)].
    + eapply yields_bind with (P := fun fs => ~ In "anyOf"%string (map fst fs)).
      * destruct (negb (ehas e)); [apply yields_ret; cbn; intuition discriminate|].
        destruct l as [|x [|y l]]; (eapply yields_bind; [apply yields_any|]; intros fs _; apply yields_ret; cbn; intuition discriminate).
      * intros fs H. apply yields_ret, alone_wrap. cbn. intros [K|K]; [discriminate|contradiction].
    + eapply yields_bind; [apply yields_any|]. intros items _. apply yields_ret, alone_wrap. cbn. intuition discriminate.
    + apply yields_ret, alone_wrap. cbn. intuition discriminate.
  - eapply yields_bind; [apply yields_any|]. intros o1 _. cbn zeta. eapply yields_bind; [apply yields_any|]. intros s _.
    apply yields_ret, alone_wrap. rewrite !map_app, !in_app_iff. intros [H|[H|H]].
    + cbn in H. intuition discriminate.
    + apply materialize_keys in H. cbn in H. intuition discriminate.
    + destruct (s_ftype o1 || s_fixed o1)%bool; cbn in H; intuition discriminate.
  - eapply yields_bind; [apply yields_any|]. intros o1 _. cbn zeta. eapply yields_bind; [apply yields_any|]. intros [enm anyOf] _.
    destruct anyOf; apply yields_ret; [apply f_enum_alone|apply alone_single].
  - eapply yields_bind; [apply yields_any|]. intros x _. apply IH.
  - eapply yields_bind; [apply yields_any|]. intros x _. apply IH.
Qed.

Lemma reduce_alone : forall fs, anyof_alone fs -> reduce (f_schema_version :: fs) = Some (f_schema_version :: fs).
Proof.
  intros fs [(v & ->)|H]; unfold reduce, f_schema_version.
  - cbn. destruct v; reflexivity.
  - assert (G : vfind fs "anyOf" = None).
    { clear -H. induction fs as [|[k v] r IH]; [reflexivity|]. cbn in *. destruct (String.eqb_spec k "anyOf"); [exfalso; auto|]. apply IH. auto. }
    cbn. now rewrite G.
Qed.

(** numbers in schemas *)
Definition nums (fs : list field) : Prop := Forall (fun kv => numbers_ok (snd kv) = true) fs.
Definition nums_os (s : oschema) : Prop :=
  nums (os_props s) /\ nums (os_patterns s) /\ Forall (fun v => numbers_ok v = true) (os_allOf s).
Lemma nums_obj : forall fs, numbers_ok (VObject fs) = true <-> nums fs.
Proof. apply numbers_obj. Qed.
Lemma nums_enum : forall vs, Forall (fun v => numbers_ok v = true) vs -> nums [f_enum vs].
Proof.
  intros vs H. unfold f_enum, nums. destruct vs as [|x [|y r]]; constructor; try constructor; cbn [snd].
  - now inversion H.
  - now apply numbers_arr.
Qed.
Lemma nums_wrap : forall o fs, nums fs -> nums (wrap_nullable o fs).
Proof.
  intros o fs H. unfold wrap_nullable. destruct (s_nullable o); [|exact H]. constructor; [|constructor]. cbn [snd].
  apply numbers_arr. repeat constructor. now apply nums_obj.
Qed.
Lemma nums_materialize : forall s, nums_os s -> nums (materialize s).
Proof.
  intros s (A & B & C). unfold materialize, nums. rewrite !Forall_app. repeat split.
  - destruct (os_props s); constructor; [now apply nums_obj|constructor].
  - destruct (os_patterns s); constructor; [now apply nums_obj|constructor].
  - destruct (os_allOf s); constructor; [now apply numbers_arr|constructor].
  - destruct (os_required s); constructor; [|constructor]. cbn [snd]. apply numbers_arr. rewrite Forall_map. apply Forall_forall. reflexivity.
Qed.
Lemma nums_emplace_arr : forall vs v, Forall (fun v => numbers_ok v = true) vs -> numbers_ok v = true ->
  Forall (fun v => numbers_ok v = true) (emplace_unique_arr vs v).
Proof. intros vs v H V. unfold emplace_unique_arr. destruct (existsb _ _); [exact H|]. apply Forall_app. split; [exact H|now constructor]. Qed.
Lemma nums_emplace_all : forall ws vs, Forall (fun v => numbers_ok v = true) vs -> Forall (fun v => numbers_ok v = true) ws ->
  Forall (fun v => numbers_ok v = true) (emplace_arr_all vs ws).
Proof.
  unfold emplace_arr_all. induction ws as [|w ws IH]; cbn; intros vs H W; [exact H|]. inversion W; subst. apply IH; [|assumption]. now apply nums_emplace_arr.
Qed.
Lemma nums_emplace : forall fs k v, nums fs -> numbers_ok v = true -> nums (emplace_unique fs k v).
Proof.
  intros fs k v H V. unfold nums in *. rewrite Forall_forall in *. intros kv Hk. apply emplace_In in Hk as [->|Hk]; [exact V|now apply H].
Qed.
Lemma nums_add_enum : forall acc fs acc', Forall (fun v => numbers_ok v = true) (fst acc) -> Forall (fun v => numbers_ok v = true) (snd acc) ->
  nums fs -> add_enum_schema acc fs = Some acc' -> Forall (fun v => numbers_ok v = true) (fst acc') /\ Forall (fun v => numbers_ok v = true) (snd acc').
Proof.
  intros [enm an] fs acc' H1 H2 Hf H. cbn in H1, H2. unfold add_enum_schema in H.
  assert (D : Some (enm, emplace_unique_arr an (VObject fs)) = Some acc' ->
    Forall (fun v => numbers_ok v = true) (fst acc') /\ Forall (fun v => numbers_ok v = true) (snd acc')).
  { intros E. injection E as <-. cbn. split; [exact H1|]. apply nums_emplace_arr; [exact H2|now apply nums_obj]. }
  destruct fs as [|[k v] [|y r]]; auto.
  inversion Hf; subst. cbn in H4.
  destruct (String.eqb k "enum"); [destruct v; try discriminate H; injection H as <-; cbn; split; [|exact H2];
    apply nums_emplace_all; [exact H1|now apply numbers_arr]|].
  destruct (String.eqb k "anyOf"); [destruct v; try discriminate H; injection H as <-; cbn; split; [exact H1|];
    apply nums_emplace_all; [exact H2|now apply numbers_arr]|]. auto.
Qed.

Notation anys := (fun _ : string => True).
Notation ok e := (allsub (lit_ok True anys) e).

Lemma body_numbers : forall n e o, ok e -> yields (render_value n e o) (fun v => numbers_ok v = true).
Proof. intros n e o H. eapply yields_impl; [apply (body_good True anys I n e H)|]. intros v (_ & Hv & _). exact (Hv I). Qed.

Lemma schema_nums : forall n e, ok e ->
  (forall o, yields (render_schema n e o) nums) /\ (forall s o, nums_os s -> yields (render_sproperty n s e o) nums_os).
Proof.
  induction n as [|n IH]; intros e He; [split; intros; exact (yields_none _ _)|].
  assert (Kids : forall x, In x (dsd_children (edata e)) -> ok x) by (intros; now apply (ok_data True anys e)).
  assert (Ty : forall t, nums [f_type t]) by (intros; repeat constructor).
  split.
  - intros o. cbn [render_schema].
    destruct (edata e) as [|d0|ds|ds|db|l|k v|l|d0|ds|l|l|l] eqn:E; cbn [dsd_children] in Kids; try (apply yields_ret; repeat constructor);
      try (eapply yields_bind; [apply yields_any|]; intros o1 _; destruct (s_fixed o1 && ehas e)%bool;
           [eapply yields_bind; [apply yields_lift|]; intros v Hv; apply yields_ret; apply nums_enum; rewrite <- E in Hv;
            apply (instantiate_good True anys e v He) in Hv; destruct Hv as (_ & Hv & _); destruct (s_nullable o1); repeat constructor; exact (Hv I)|];
           destruct (s_nullable o1); apply yields_ret; repeat constructor).
    + destruct (ehas e), d0; try (apply yields_ret; constructor). apply IH, Kids. now left.
    + eapply yields_bind; [apply yields_any|]. intros o1 _. cbn zeta.
      assert (MK : forall x, In x l -> yields (bind (s_inherit_or_pass n o1 x) (render_schema n x)) nums).
      { intros x Hx. eapply yields_bind; [apply yields_any|]. intros o2 _. apply IH, Kids, Hx. }
      destruct (s_ftype o1); [|destruct (s_fixed o1)].
      * apply yields_bind with (P := nums); [|intros fs H; apply yields_ret, nums_wrap; constructor; [reflexivity|exact H]].
        destruct (negb (ehas e)); [apply yields_ret; repeat constructor|].
        assert (ML : yields (bind (foldR (fun acc x => bind (bind (s_inherit_or_pass n o1 x) (render_schema n x))
             (fun fs => ret (emplace_unique_arr acc (VObject fs)))) [] l) (fun items => ret [("items"%string, VObject [("anyOf"%string, VArray items)])])) nums).
        { apply yields_bind with (P := Forall (fun v => numbers_ok v = true)).
          - apply yields_foldR; [|constructor]. intros a x Ha Hx. eapply yields_bind; [apply MK, Hx|]. intros fs Hfs. apply yields_ret.
            apply nums_emplace_arr; [exact Ha|now apply nums_obj].
          - intros items Hi. apply yields_ret. constructor; [|constructor]. cbn [snd]. apply nums_obj. constructor; [|constructor]. now apply numbers_arr. }
        destruct l as [|x [|y l]]; try exact ML.
        eapply yields_bind; [apply MK; now left|]. intros fs H. apply yields_ret. constructor; [now apply nums_obj|constructor].
      * apply yields_bind with (P := Forall (fun v => numbers_ok v = true)).
        -- destruct (ehas e); [|apply yields_ret; constructor]. apply yields_mapR. intros x Hx. eapply yields_bind; [apply MK, Hx|].
           intros fs H. apply yields_ret. now apply nums_obj.
        -- intros items Hi. apply yields_ret, nums_wrap. repeat constructor; cbn [snd f_number]; [apply to_string_number|now apply numbers_arr].
      * apply yields_ret, nums_wrap, Ty.
    + eapply yields_bind; [apply yields_any|]. intros o1 _. cbn zeta. apply yields_bind with (P := nums_os).
      * destruct (ehas e); [|apply yields_ret; repeat constructor].
        apply yields_foldR; [|repeat constructor]. intros s x Hs Hx. eapply yields_bind; [apply yields_any|]. intros o2 _.
        apply IH; [now apply Kids|exact Hs].
      * intros s Hs. apply yields_ret, nums_wrap. unfold nums. rewrite !Forall_app. split; [apply Ty|]. split; [now apply nums_materialize|].
        destruct (s_ftype o1 || s_fixed o1)%bool; repeat constructor.
    + eapply yields_bind; [apply yields_any|]. intros o1 _. cbn zeta.
      apply yields_bind with (P := fun acc : list value * list value => Forall (fun v => numbers_ok v = true) (fst acc) /\ Forall (fun v => numbers_ok v = true) (snd acc)).
      * assert (S0 : Forall (fun v => numbers_ok v = true) (if s_nullable o1 then [VNull] else [])) by (destruct (s_nullable o1); repeat constructor).
        destruct (ifind (eattrs e) "enumerations") as [[n' m a h dd]|] eqn:A; [|apply yields_ret; split; [exact S0|constructor]].
        destruct dd; try exact (yields_undefined _ _). destruct h; [|apply yields_ret; split; [exact S0|constructor]].
        apply yields_foldR; [|split; [exact S0|constructor]]. intros acc x [H1 H2] Hx.
        assert (Ox : ok x).
        { apply (ok_data True anys (Elem n' m a true (DArray l))); [now apply (ok_attr True anys e "enumerations")|exact Hx]. }
        eapply yields_bind; [apply yields_any|]. intros c _. destruct (c =? 1)%N.
        -- eapply yields_bind; [apply body_numbers, Ox|]. intros v Hv. apply yields_ret. cbn. split; [now apply nums_emplace_arr|exact H2].
        -- eapply yields_bind; [apply IH, Ox|]. intros fs Hfs. eapply yields_impl; [apply yields_lift|]. intros acc' Ha. cbn beta in Ha.
           now apply (nums_add_enum acc fs).
      * intros [enm an] [H1 H2]. cbn in H1, H2. destruct an as [|a0 an]; apply yields_ret; [now apply nums_enum|].
        constructor; [|constructor]. cbn [snd]. apply numbers_arr. destruct enm as [|e0 enm]; [exact H2|].
        apply nums_emplace_arr; [exact H2|]. apply nums_obj. now apply nums_enum.
    + eapply yields_bind; [apply yields_lift|]. intros x Hx. apply IH. now apply (ok_attr True anys e "resolved").
    + eapply yields_bind; [apply yields_merged|]. intros x (l' & _ & E' & M). apply IH. now apply (ok_merged True anys e l').
  - intros s o Hs. cbn [render_sproperty].
    destruct (edata e) as [|d0|ds|ds|db|l|k v|l|d0|ds|l|l|l] eqn:E; cbn [dsd_children] in Kids; try (now apply yields_ret).
    + destruct (ehas e), d0; try (now apply yields_ret). apply IH; [apply Kids; now left|exact Hs].
    + do 5 (eapply yields_bind; [apply yields_any|]; intros ? _). cbn zeta. destruct (negb (ehas e)); [exact (yields_undefined _ _)|].
      eapply yields_bind; [apply yields_any|]. intros kx _. destruct Hs as (A & B & C). destruct (is_variable e).
      * do 2 (eapply yields_bind; [apply yields_any|]; intros ? _). eapply yields_bind; [apply yields_lift|]. intros x Hx.
        eapply yields_bind; [apply IH, Kids, in_or_app; right; rewrite Hx; now left|]. intros fs Hfs. apply yields_ret.
        split; [exact A|]. split; [|exact C]. apply nums_emplace; [exact B|now apply nums_obj].
      * eapply yields_bind; [apply yields_any|]. intros key _. eapply yields_bind; [apply yields_lift|]. intros x Hx.
        eapply yields_bind; [apply IH, Kids, in_or_app; right; rewrite Hx; now left|]. intros fs Hfs. apply yields_ret.
        split; [|split; [exact B|exact C]]. apply Forall_app. split; [exact A|]. constructor; [now apply nums_obj|constructor].
    + eapply yields_bind; [apply yields_any|]. intros f _. destruct (ehas e); [|now apply yields_ret].
      apply yields_foldR; [|exact Hs]. intros a x Ha Hx. apply IH; [now apply Kids|exact Ha].
    + eapply yields_bind; [apply yields_lift|]. intros x Hx. apply IH; [now apply (ok_attr True anys e "resolved")|exact Hs].
    + eapply yields_bind; [apply yields_merged|]. intros x (l' & _ & E' & M). apply IH; [now apply (ok_merged True anys e l')|exact Hs].
    + destruct (ehas e); [|exact (yields_undefined _ _)].
      apply yields_bind with (P := Forall (fun v => numbers_ok v = true)).
      * apply yields_foldR; [|constructor]. intros acc op Hacc Hop. destruct (edata op) eqn:Eo; try exact (yields_undefined _ _).
        destruct (negb (ehas op)); [now apply yields_ret|]. destruct l0 as [|y l0]; [now apply yields_ret|].
        apply yields_bind with (P := nums_os).
        -- apply yields_foldR; [|repeat constructor]. intros s' x Hs' Hx. apply IH; [|exact Hs'].
           apply (ok_data True anys op); [now apply Kids|]. now rewrite Eo.
        -- intros s' Hs'. apply yields_ret. apply Forall_app. split; [exact Hacc|]. constructor; [|constructor]. apply nums_obj. now apply nums_materialize.
      * intros oneOfs Ho. apply yields_ret. destruct Hs as (A & B & C). split; [exact A|]. split; [exact B|]. cbn [os_allOf].
        apply Forall_app. split; [exact C|]. constructor; [|constructor]. apply nums_obj. constructor; [|constructor]. now apply numbers_arr.
Qed.
