(** The generators come to an end on every element *)
From Verif Require Import Base SoValue Element ElementSpec ElementProofs InfoProofs Extend MergeProofs Registry Expand ExpandProofs
  ElementUtils JsonValue JsonSchema Depth.

Lemma conv_when : forall A B (m : run A) (k : nat -> A -> run B), m <> None ->
  (forall a, m = Some (Ok a) -> conv (fun f => k f a)) -> conv (fun f => bind m (k f)).
Proof.
  intros A B [[a|w|]|] k Hm H; cbn [bind]; try apply conv_const; [|congruence]. now apply H.
Qed.
Lemma conv_foldR : forall A B (g : nat -> A -> B -> run A) l,
  (forall x a, In x l -> conv (fun f => g f a x)) -> forall a, conv (fun f => foldR (g f) a l).
Proof.
  induction l as [|x l IH]; intros H a; cbn [foldR]; [apply conv_const|].
  refine (conv_bind _ _ (fun f => g f a x) (fun f a' => foldR (g f) a' l) _ _); [apply H; now left|].
  intros a'. apply IH. intros y b Hy. apply H. now right.
Qed.
Lemma conv_noexc : forall A (m : nat -> run A), conv m -> conv (fun f => noexc (m f)).
Proof.
  intros A m (x & f0 & H). destruct x as [a|w|]; [exists (Ok a)|exists Undefined|exists Undefined]; exists f0; intros f Hf;
    rewrite (H f Hf); reflexivity.
Qed.

Lemma merged_not_none : forall e, merged e <> None.
Proof.
  intros e. unfold merged. destruct (ehas e); [|discriminate]. destruct (edata e); try discriminate.
  unfold of_res. destruct (merge l) as [[x|]| |]; discriminate.
Qed.
Lemma noexc_not_none : forall A (m : run A), m <> None -> noexc m <> None.
Proof. intros A [[]|] H; cbn; unfold undefined; congruence. Qed.
Lemma noexc_ok : forall A (m : run A) a, noexc m = Some (Ok a) -> m = Some (Ok a).
Proof. intros A [[b|w|]|] a H; cbn in H; unfold undefined in H; congruence. Qed.
Lemma merged_list : forall e x, merged e = Some (Ok x) -> exists l, ehas e = true /\ edata e = DExtend l /\ merge l = Ok (Some x).
Proof.
  intros e x H. unfold merged in H. destruct (ehas e); [|discriminate]. destruct (edata e); try discriminate.
  exists l. unfold of_res in H. destruct (merge l) as [[y|]| |]; cbn in H; try discriminate. injection H as ->. auto.
Qed.
Lemma merged_deep : forall d e x, deep (S d) e -> merged e = Some (Ok x) -> deep d x.
Proof.
  intros d e x H Hm. apply merged_list in Hm as (l & _ & E & Hm). apply (merge_deep d l); [|exact Hm].
  intros y Hy. apply (deep_data d e); [exact H|]. now rewrite E.
Qed.
Lemma lift_not_none : forall A (o : option A), lift o <> None.
Proof. intros A [a|]; discriminate. Qed.
Lemma lift_ok : forall A (o : option A) a, lift o = Some (Ok a) -> o = Some a.
Proof. intros A [b|] a H; cbn in H; unfold ret, undefined in H; congruence. Qed.

Ltac cstep :=
  match goal with
  | |- conv (fun _ => ret _) => apply conv_const
  | |- conv (fun _ => undefined) => apply conv_const
  | |- conv (fun _ => lift ?o) => destruct o; apply conv_const
  | |- conv (fun f => bind (lift ?o) _) =>
      refine (conv_when _ _ (lift o) _ (lift_not_none _ o) _); let a := fresh "a" in let H := fresh "L" in intros a H; apply lift_ok in H
  | |- conv (fun f => noexc _) => refine (conv_noexc _ _ _)
  | |- conv (fun f => bind _ _) => refine (conv_bind _ _ _ _ _ _)
  | |- conv (fun f => if ?b then _ else _) => destruct b eqn:?
  | |- forall _, conv _ => intro
  end.

Lemma inherits_conv : forall d e, deep d e -> conv (fun n => inherits_fixed n e).
Proof.
  induction d as [|d IH]; intros e He; [inversion He|].
  apply conv_shift. cbn [inherits_fixed].
  destruct (edata e) as [|d0|ds|ds|db|l|k v|l|d0|ds|l|l|l] eqn:E; try apply conv_const.
  - repeat cstep. apply IH. apply (deep_data d e); [exact He|]. rewrite E, L. cbn. apply in_or_app. right. now left.
  - repeat cstep. apply IH. apply (deep_data d e); [exact He|]. rewrite E, L. now left.
  - refine (conv_when _ _ _ _ (noexc_not_none _ _ (merged_not_none e)) _). intros a Ha. apply IH.
    apply (merged_deep d e); [exact He|]. now apply noexc_ok.
Qed.

Lemma render_key_conv : forall d e, deep d e -> conv (fun n => render_key n e).
Proof.
  induction d as [|d IH]; intros e He; [inversion He|].
  apply conv_shift. cbn [render_key].
  destruct (edata e) as [|d0|ds|ds|db|l|k v|l|d0|ds|l|l|l] eqn:E; try apply conv_const.
  - cstep; [apply conv_const|]. destruct (find_first_sample e) eqn:F.
    + apply IH. unfold find_first_sample in F. destruct (ifind (eattrs e) "samples") as [a|] eqn:A; [|discriminate].
      destruct a as [n m at' h dd]. destruct h; [|discriminate]. destruct dd; try discriminate. destruct l; [discriminate|]. injection F as ->.
      pose proof (deep_attr _ _ _ _ He A) as Dx. apply (deep_le (pred d)); [|lia].
      destruct d as [|d]; [inversion Dx|]. apply (deep_data d _ _ Dx). now left.
    + destruct (find_default e) eqn:G; [|apply conv_const]. apply IH. apply (deep_attr _ _ _ _ He G).
  - refine (conv_when _ _ _ _ (merged_not_none e) _). intros a Ha. apply IH. now apply (merged_deep d e).
Qed.

Lemma array_attr_deep : forall d e k n m a h l x, deep (S d) e -> ifind (eattrs e) k = Some (Elem n m a h (DArray l)) -> In x l -> deep d x.
Proof.
  intros d e k n m a h l x He A Hx. pose proof (deep_attr _ _ _ _ He A) as Dx.
  destruct d as [|d]; [inversion Dx|]. apply (deep_le d); [|lia]. apply (deep_data d _ _ Dx). exact Hx.
Qed.
Lemma sample_deep : forall d e x, deep (S d) e -> find_first_sample e = Some x -> deep d x.
Proof.
  intros d e x He F. unfold find_first_sample in F. destruct (ifind (eattrs e) "samples") as [[n m a h dd]|] eqn:A; [|discriminate].
  destruct h; [|discriminate]. destruct dd; try discriminate. destruct l; [discriminate|]. injection F as ->.
  apply (array_attr_deep _ _ _ _ _ _ _ _ _ He A). now left.
Qed.

Lemma size_conv : forall d e inh, deep d e -> conv (fun n => size_of n e inh).
Proof.
  induction d as [|d IH]; intros e inh He; [inversion He|].
  apply conv_shift. cbn [size_of].
  assert (M : forall l f a op, (forall x, In x l -> deep d x) ->
    conv (fun n => noexc (foldR (fun a b => bind (size_of n b f) (fun x => ret (op a x) : run N)) a l))).
  { intros l f a op Hl. apply conv_noexc. refine (conv_foldR _ _ (fun n a b => bind (size_of n b f) (fun x => ret (op a x))) l _ a).
    intros x b Hx. repeat cstep. apply IH. now apply Hl. }
  assert (Kids : forall x, In x (dsd_children (edata e)) -> deep d x) by (intros; now apply (deep_data d e)).
  destruct (edata e) as [|d0|ds|ds|db|l|k v|l|d0|ds|l|l|l] eqn:E; cbn [dsd_children] in Kids;
    try (repeat first [apply M; exact Kids | cstep]; fail).
  - (* holder *) destruct (ehas e), d0; try apply conv_const. apply IH, Kids. now left.
  - (* member *) destruct (ehas e), v; try apply conv_const. repeat cstep. apply IH, Kids. apply in_or_app. right. now left.
  - (* enum *) unfold enum_entries. destruct (ifind (eattrs e) "enumerations") as [[n m a h dd]|] eqn:A; [|apply conv_const].
    destruct dd; try (cbn; destruct h; apply conv_const). cbn. destruct h; [|apply conv_const].
    repeat first [apply M; intros; apply (array_attr_deep _ _ _ _ _ _ _ _ _ He A); assumption | cstep].
  - (* ref *) cstep. apply IH. apply (deep_attr _ _ _ _ He L).
  - (* extend *) cstep; [|apply conv_const]. unfold of_res.
    destruct (merge l) as [[x|]| |] eqn:Hm; cbn [bind]; try apply conv_const. apply IH. apply (merge_deep d l); assumption.
Qed.

Lemma sdn_conv : forall d e (g : nat -> element -> vopts -> run value) o, deep (S d) e ->
  (forall x o, deep d x -> conv (fun n => g n x o)) -> conv (fun n => sample_default_null (g n) e o).
Proof.
  intros d e g o He H. unfold sample_default_null.
  destruct (find_first_sample e) eqn:F.
  - repeat cstep. apply H. now apply (sample_deep d e).
  - destruct (find_default e) eqn:G; [|apply conv_const]. repeat cstep. apply H. apply (deep_attr _ _ _ _ He G).
Qed.

Lemma viop_conv : forall d e o, deep d e -> conv (fun n => v_inherit_or_pass n o e).
Proof. intros d e o He. unfold v_inherit_or_pass. repeat cstep. now apply (inherits_conv d). Qed.
Lemma siop_conv : forall d e o, deep d e -> conv (fun n => s_inherit_or_pass n o e).
Proof. intros d e o He. unfold s_inherit_or_pass. repeat cstep. now apply (inherits_conv d). Qed.
Lemma vupdate_conv : forall e o, conv (fun _ => v_update e o).
Proof. intros. unfold v_update. repeat cstep. Qed.
Lemma supdate_conv : forall e o, conv (fun _ => s_update e o).
Proof. intros. unfold s_update. repeat cstep. Qed.

Lemma first_option_In : forall l es x, first_option l = Some es -> In x es -> exists o, In o l /\ In x (dsd_children (edata o)).
Proof.
  induction l as [|[n m a h d] l IH]; cbn; intros es x H Hx; [injection H as <-; destruct Hx|].
  destruct d; try discriminate. destruct h.
  - destruct l0 as [|y l0].
    + destruct (IH _ _ H Hx) as (o & Ho & Hxo). eauto.
    + injection H as <-. eexists. split; [now left|]. exact Hx.
  - destruct (IH _ _ H Hx) as (o & Ho & Hxo). eauto.
Qed.

Lemma value_conv : forall d e, deep d e ->
  (forall o, conv (fun n => render_value n e o)) /\ (forall obj o, conv (fun n => render_property n obj e o)) /\
  (forall arr o, conv (fun n => render_item n arr e o)).
Proof.
  induction d as [|d IH]; intros e He; [inversion He|].
  assert (Kids : forall x, In x (dsd_children (edata e)) -> deep d x) by (intros; now apply (deep_data d e)).
  assert (RV : forall x o, deep d x -> conv (fun n => render_value n x o)) by (intros x o Hx; apply (IH x Hx)).
  assert (RP : forall x obj o, deep d x -> conv (fun n => render_property n obj x o)) by (intros x obj o Hx; apply (IH x Hx)).
  assert (RI : forall x arr o, deep d x -> conv (fun n => render_item n arr x o)) by (intros x arr o Hx; apply (IH x Hx)).
  assert (V : forall o, conv (fun n => render_value n e o)).
  { intros o. apply conv_shift. cbn [render_value].
    assert (SD : forall o, conv (fun n => sample_default_null (render_value n) e o)) by (intros; now apply (sdn_conv d)).
    destruct (edata e) as [|d0|ds|ds|db|l|k v|l|d0|ds|l|l|l] eqn:E; cbn [dsd_children] in Kids; try apply conv_const;
      try (refine (conv_bind _ _ _ _ (vupdate_conv e o) _); intros o1; cstep; [apply conv_const|];
           refine (conv_bind _ _ _ _ (SD o1) _); intros [v|]; apply conv_const).
    - destruct (ehas e), d0; try apply conv_const. apply RV, Kids. now left.
    - refine (conv_bind _ _ _ _ (vupdate_conv e o) _). intros o1. cstep.
      + refine (conv_bind _ _ _ _ _ _); [|intros; apply conv_const].
        refine (conv_foldR _ _ (fun f obj x => bind (v_inherit_or_pass f o1 x) (fun o' => render_item f obj x o')) l _ _).
        intros x obj Hx. refine (conv_bind _ _ _ _ (viop_conv d x o1 (Kids x Hx)) _). intros o2. now apply RI, Kids.
      + refine (conv_bind _ _ _ _ (SD o1) _); intros [v|]; apply conv_const.
    - refine (conv_bind _ _ _ _ (vupdate_conv e o) _). intros o1. cstep.
      + refine (conv_bind _ _ _ _ _ _); [|intros; apply conv_const].
        refine (conv_foldR _ _ (fun f obj x => bind (v_inherit_or_pass f o1 x) (fun o' => render_property f obj x o')) l _ _).
        intros x obj Hx. refine (conv_bind _ _ _ _ (viop_conv d x o1 (Kids x Hx)) _). intros o2. now apply RP, Kids.
      + refine (conv_bind _ _ _ _ (SD o1) _); intros [v|]; apply conv_const.
    - refine (conv_bind _ _ _ _ (vupdate_conv e o) _). intros o1. cstep.
      + cstep. apply RV, Kids. rewrite L. now left.
      + refine (conv_bind _ _ _ _ (SD o1) _); intros [v|]; [apply conv_const|].
        destruct (ifind (eattrs e) "enumerations") as [[n m a h dd]|] eqn:A; [|apply conv_const].
        destruct dd; try apply conv_const. destruct h, l; try apply conv_const.
        apply RV. apply (array_attr_deep _ _ _ _ _ _ _ _ _ He A). now left.
    - cstep. apply RV. apply (deep_attr _ _ _ _ He L).
    - refine (conv_when _ _ _ _ (merged_not_none e) _). intros a Ha. apply RV. now apply (merged_deep d e). }
  split; [exact V|]. split.
  - intros obj o. apply conv_shift. cbn [render_property].
    destruct (edata e) as [|d0|ds|ds|db|l|k v|l|d0|ds|l|l|l] eqn:E; cbn [dsd_children] in Kids; try apply conv_const.
    + destruct (ehas e), d0; try apply conv_const. apply RP, Kids. now left.
    + refine (conv_bind _ _ _ _ (vupdate_conv e o) _). intros o1. cstep; [apply conv_const|]. do 2 cstep.
      refine (conv_bind _ _ _ _ _ _); [repeat cstep|]. intros omit. cstep; [apply conv_const|].
      refine (conv_bind _ _ _ _ (render_key_conv d a _) _); [apply Kids; apply in_or_app; left; rewrite L; now left|].
      intros [|c key]; [apply conv_const|]. repeat cstep. apply RV, Kids. apply in_or_app. right. rewrite L1. now left.
    + refine (conv_bind _ _ _ _ (V o) _). intros []; apply conv_const.
    + cstep. apply RP. apply (deep_attr _ _ _ _ He L).
    + refine (conv_when _ _ _ _ (merged_not_none e) _). intros a Ha. apply RP. now apply (merged_deep d e).
    + cstep; [|apply conv_const]. cstep.
      refine (conv_foldR _ _ (fun f obj x => render_property f obj x o) a _ _). intros x b Hx. apply RP.
      destruct (first_option_In _ _ _ L Hx) as (op & Ho & Hxo). apply Kids in Ho.
      destruct (deep_pos _ _ Ho) as [d' ->]. apply (deep_le d'); [|lia]. now apply (deep_data d' op).
  - intros arr o. apply conv_shift. cbn [render_item].
    assert (Self : conv (fun n => bind (v_inherit_or_pass n o e) (fun o' => bind (render_value n e o') (fun v => ret (arr ++ [v])%list)))).
    { refine (conv_bind _ _ _ _ (viop_conv _ e o He) _). intros o'. refine (conv_bind _ _ _ _ (V o') _). intros; apply conv_const. }
    destruct (edata e) as [|d0|ds|ds|db|l|k v|l|d0|ds|l|l|l] eqn:E; cbn [dsd_children] in Kids; try apply conv_const; try exact Self;
      try (refine (conv_bind _ _ _ _ (vupdate_conv e o) _); intros o1; cstep; [|apply conv_const];
           refine (conv_bind _ _ _ _ (viop_conv _ e o1 He) _); intros o'; refine (conv_bind _ _ _ _ (V o') _); intros; apply conv_const).
    cstep. cstep; [|apply conv_const]. refine (conv_bind _ _ _ _ (RV a o (deep_attr _ _ _ _ He L)) _). intros []; apply conv_const.
Qed.

Lemma schema_conv : forall d e, deep d e ->
  (forall o, conv (fun n => render_schema n e o)) /\ (forall s o, conv (fun n => render_sproperty n s e o)).
Proof.
  induction d as [|d IH]; intros e He; [inversion He|].
  assert (Kids : forall x, In x (dsd_children (edata e)) -> deep d x) by (intros; now apply (deep_data d e)).
  assert (RS : forall x o, deep d x -> conv (fun n => render_schema n x o)) by (intros x o Hx; apply (IH x Hx)).
  assert (RP : forall x s o, deep d x -> conv (fun n => render_sproperty n s x o)) by (intros x s o Hx; apply (IH x Hx)).
  split.
  - intros o. apply conv_shift. cbn [render_schema].
    destruct (edata e) as [|d0|ds|ds|db|l|k v|l|d0|ds|l|l|l] eqn:E; cbn [dsd_children] in Kids; try apply conv_const;
      try (refine (conv_bind _ _ _ _ (supdate_conv e o) _); intros o1; repeat cstep; fail).
    + destruct (ehas e), d0; try apply conv_const. apply RS, Kids. now left.
    + refine (conv_bind _ _ _ _ (supdate_conv e o) _). intros o1. cbn zeta.
      assert (MK : forall x, In x l -> conv (fun n => bind (s_inherit_or_pass n o1 x) (render_schema n x))).
      { intros x Hx. refine (conv_bind _ _ _ _ (siop_conv d x o1 (Kids x Hx)) _). intros o2. now apply RS, Kids. }
      cstep; [|cstep; [|apply conv_const]].
      * refine (conv_bind _ _ _ _ _ _); [|intros; apply conv_const]. cstep; [apply conv_const|].
        assert (ML : forall B (k : list value -> run B), (forall v, conv (fun _ => k v)) ->
          conv (fun f => bind (foldR (fun acc x => bind (bind (s_inherit_or_pass f o1 x) (render_schema f x))
             (fun fs => ret (emplace_unique_arr acc (VObject fs)))) [] l) k)).
        { intros B k Hk. refine (conv_bind _ _ _ _ _ Hk).
          refine (conv_foldR _ _ (fun f acc x => bind (bind (s_inherit_or_pass f o1 x) (render_schema f x))
             (fun fs => ret (emplace_unique_arr acc (VObject fs)))) l _ _).
          intros x b Hx. refine (conv_bind _ _ _ _ (MK x Hx) _). intros; apply conv_const. }
        destruct l as [|x [|y l]]; try (apply ML; intros; apply conv_const).
        refine (conv_bind _ _ _ _ (MK x (or_introl eq_refl)) _). intros; apply conv_const.
      * refine (conv_bind _ _ _ _ _ _); [|intros; apply conv_const]. cstep; [|apply conv_const].
        refine (conv_mapR _ _ (fun f x => bind (bind (s_inherit_or_pass f o1 x) (render_schema f x)) (fun fs => ret (VObject fs))) l _).
        intros x Hx. refine (conv_bind _ _ _ _ (MK x Hx) _). intros; apply conv_const.
    + refine (conv_bind _ _ _ _ (supdate_conv e o) _). intros o1. cbn zeta.
      refine (conv_bind _ _ _ _ _ _); [|intros; apply conv_const]. cstep; [|apply conv_const].
      refine (conv_foldR _ _ (fun f s x => bind (s_inherit_or_pass f o1 x)
        (fun o' => render_sproperty f s x (if (s_ftype o1 || s_fixed o1)%bool then s_require o' else o'))) l _ _).
      intros x s Hx. refine (conv_bind _ _ _ _ (siop_conv d x o1 (Kids x Hx)) _). intros o2. now apply RP, Kids.
    + refine (conv_bind _ _ _ _ (supdate_conv e o) _). intros o1. cbn zeta.
      refine (conv_bind _ _ _ _ _ _).
      * destruct (ifind (eattrs e) "enumerations") as [[n m a h dd]|] eqn:A; [|apply conv_const].
        destruct dd; try apply conv_const. destruct h; [|apply conv_const].
        refine (conv_foldR _ _ (fun f acc x => bind (size_of f x false) (fun c =>
          if (c =? 1)%N then bind (generate_value f x) (fun v => ret (emplace_unique_arr (fst acc) v, snd acc))
          else bind (render_schema f x (s_inherit o1)) (fun fs => lift (add_enum_schema acc fs)))) l _ _).
        intros x acc Hx. pose proof (array_attr_deep _ _ _ _ _ _ _ _ _ He A Hx) as Dx.
        refine (conv_bind _ _ _ _ (size_conv d x false Dx) _). intros c. cstep.
        -- refine (conv_bind _ _ _ _ _ _); [|intros; apply conv_const]. apply (value_conv d x Dx).
        -- refine (conv_bind _ _ _ _ (RS x _ Dx) _). intros fs. cstep.
      * intros [enm anyOf]. destruct anyOf; apply conv_const.
    + cstep. apply RS. apply (deep_attr _ _ _ _ He L).
    + refine (conv_when _ _ _ _ (merged_not_none e) _). intros a Ha. apply RS. now apply (merged_deep d e).
  - intros s o. apply conv_shift. cbn [render_sproperty].
    destruct (edata e) as [|d0|ds|ds|db|l|k v|l|d0|ds|l|l|l] eqn:E; cbn [dsd_children] in Kids; try apply conv_const.
    + destruct (ehas e), d0; try apply conv_const. apply RP, Kids. now left.
    + do 5 cstep. cbn zeta. cstep; [apply conv_const|]. cstep. cstep.
      * refine (conv_bind _ _ _ _ _ _).
        -- destruct (edata a4); try apply conv_const.
           refine (conv_when _ _ _ _ (merged_not_none a4) _). intros m Hm. repeat cstep.
        -- intros k'. refine (conv_bind _ _ _ _ _ _); [unfold render_pattern; repeat cstep; destruct (edata k'); apply conv_const|].
           intros p. do 2 cstep; [|intros; apply conv_const]. apply RS, Kids. apply in_or_app. right. rewrite L5. now left.
      * cstep. do 2 cstep; [|intros; apply conv_const]. apply RS, Kids. apply in_or_app. right. rewrite L6. now left.
    + cstep. cstep; [|apply conv_const].
      refine (conv_foldR _ _ (fun f s x => render_sproperty f s x (SO (s_fixed o || a) false false false)) l _ _).
      intros x b Hx. now apply RP, Kids.
    + cstep. apply RP. apply (deep_attr _ _ _ _ He L).
    + refine (conv_when _ _ _ _ (merged_not_none e) _). intros a Ha. apply RP. now apply (merged_deep d e).
    + cstep; [|apply conv_const]. refine (conv_bind _ _ _ _ _ _); [|intros; apply conv_const].
      refine (conv_foldR _ _ (fun f acc opt => match edata opt with
                | DOption es => if negb (ehas opt) then ret acc else
                  match es with [] => ret acc | _ => bind (foldR (fun s x => render_sproperty f s x o) os_empty es)
                              (fun s' => ret (acc ++ [VObject (materialize s')])%list) end
                | _ => undefined end) l _ _).
      intros op acc Hop. destruct (edata op) eqn:Eo; try apply conv_const. cstep; [apply conv_const|].
      assert (Hes : forall x, In x l0 -> deep d x).
      { intros x Hx. apply Kids in Hop. destruct (deep_pos _ _ Hop) as [d' ->]. apply (deep_le d'); [|lia].
        apply (deep_data d' op); [exact Hop|]. now rewrite Eo. }
      destruct l0 as [|x l0]; [apply conv_const|].
      refine (conv_bind _ _ _ _ _ _); [|intros; apply conv_const].
      refine (conv_foldR _ _ (fun f s x => render_sproperty f s x o) _ _ _). intros y b Hy. apply RP, Hes, Hy.
Qed.
