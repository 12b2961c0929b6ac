(** What generated bodies and schemas consist of *)
From Verif Require Import Base SoValue SoValueSpec SoValueProofs JsonSpec Element ElementSpec ElementProofs InfoProofs Extend MergeProofs
  Registry Expand ExpandProofs ExpandShape ElementUtils JsonValue JsonSchema Depth GenConv.

Lemma yields_foldR : forall A B (f : A -> B -> run A) (I : A -> Prop) l,
  (forall a x, I a -> In x l -> yields (f a x) I) -> forall a, I a -> yields (foldR f a l) I.
Proof.
  induction l as [|x l IH]; intros H a Ha; cbn [foldR]; [now apply yields_ret|].
  eapply yields_bind; [apply H; [exact Ha|now left]|]. intros a' Ha'. apply IH; [|exact Ha'].
  intros b y Hb Hy. apply H; [exact Hb|now right].
Qed.
Lemma yields_mapR : forall A B (f : A -> run B) (P : B -> Prop) l,
  (forall x, In x l -> yields (f x) P) -> yields (mapR f l) (Forall P).
Proof.
  induction l as [|x l IH]; intros H; cbn [mapR]; [apply yields_ret; constructor|].
  eapply yields_bind; [apply H; now left|]. intros y Hy.
  eapply yields_bind; [apply IH; intros z Hz; apply H; now right|]. intros ys Hys. apply yields_ret. now constructor.
Qed.
Lemma yields_lift : forall A (o : option A), yields (lift o) (fun a => o = Some a).
Proof. intros A o a H. now apply lift_ok. Qed.
Lemma yields_undefined : forall A (P : A -> Prop), yields undefined P.
Proof. intros A P a H. discriminate. Qed.
Lemma yields_none : forall A (P : A -> Prop), yields None P.
Proof. intros A P a H. discriminate. Qed.
Lemma yields_impl : forall A (m : run A) (P Q : A -> Prop), yields m P -> (forall a, P a -> Q a) -> yields m Q.
Proof. intros A m P Q H I a E. apply I, H, E. Qed.
Lemma yields_merged : forall e, yields (merged e) (fun x => exists l, ehas e = true /\ edata e = DExtend l /\ merge l = Ok (Some x)).
Proof. intros e x H. now apply merged_list. Qed.

Section Good.
  Context (NF : Prop) (SP : string -> Prop) (SP0 : SP "").

  Definition good (v : value) : Prop := unique_keys v /\ (NF -> numbers_ok v = true) /\ strings_ok SP v.
  Definition good_fields (ms : list (string * value)) : Prop :=
    NoDup (map fst ms) /\ Forall (fun kv => SP (fst kv) /\ good (snd kv)) ms.
  Definition lit_ok (d : dsd element) : Prop :=
    match d with DNumber s => NF -> json_number s = true | DString s => SP s | _ => True end.

  Lemma numbers_obj : forall ms, numbers_ok (VObject ms) = true <-> Forall (fun kv => numbers_ok (snd kv) = true) ms.
  Proof.
    intros ms. cbn [numbers_ok]. induction ms as [|kv r IH]; [split; constructor|].
    rewrite Forall_cons_iff, andb_true_iff, IH. reflexivity.
  Qed.
  Lemma numbers_arr : forall vs, numbers_ok (VArray vs) = true <-> Forall (fun v => numbers_ok v = true) vs.
  Proof.
    intros ms. cbn [numbers_ok]. induction ms as [|kv r IH]; [split; constructor|].
    rewrite Forall_cons_iff, andb_true_iff, IH. reflexivity.
  Qed.
  Lemma strings_obj : forall ms, strings_ok SP (VObject ms) <-> Forall (fun kv => SP (fst kv) /\ strings_ok SP (snd kv)) ms.
  Proof.
    intros ms. cbn [strings_ok]. induction ms as [|kv r IH]; [split; constructor|].
    rewrite Forall_cons_iff, IH. tauto.
  Qed.
  Lemma strings_arr : forall vs, strings_ok SP (VArray vs) <-> Forall (strings_ok SP) vs.
  Proof.
    intros ms. cbn [strings_ok]. induction ms as [|kv r IH]; [split; constructor|].
    rewrite Forall_cons_iff, IH. reflexivity.
  Qed.
  Lemma good_obj : forall ms, good (VObject ms) <-> good_fields ms.
  Proof.
    intros ms. unfold good, good_fields. rewrite unique_keys_obj, numbers_obj, strings_obj. setoid_rewrite Forall_forall.
    split.
    - intros ((N & U) & M & S). split; [exact N|]. intros kv H.
      pose proof (U kv H) as U1. pose proof (fun F => M F kv H) as M1. destruct (S kv H) as [S1 S2]. repeat split; assumption.
    - intros (N & G). split; [split; [exact N|]|split]; [intros kv H|intros F kv H|intros kv H]; destruct (G kv H) as (G1 & G2 & G3 & G4); try split; auto.
  Qed.
  Lemma good_arr : forall vs, good (VArray vs) <-> Forall good vs.
  Proof.
    intros vs. unfold good. rewrite unique_keys_arr, numbers_arr, strings_arr. setoid_rewrite Forall_forall. split.
    - intros (U & M & S) v H. auto.
    - intros G. split; [|split]; [intros v H|intros F v H|intros v H]; destruct (G v H) as (? & ? & ?); auto.
  Qed.
  Lemma emplace_In : forall ms k v kv, In kv (emplace_unique ms k v) -> kv = (k, v) \/ In kv ms.
  Proof.
    induction ms as [|[k' v'] r IH]; cbn; intros k v kv H; [destruct H as [<-|[]]; now left|].
    destruct (String.eqb_spec k' k) as [->|N]; cbn in H; destruct H as [<-|H]; auto.
    destruct (IH _ _ _ H); auto.
  Qed.
  Lemma good_emplace : forall ms k v, good_fields ms -> SP k -> good v -> good_fields (emplace_unique ms k v).
  Proof.
    intros ms k v (N & G) K V. split; [now apply nodup_emplace|]. rewrite Forall_forall in *.
    intros kv H. apply emplace_In in H as [->|H]; [now split|now apply G].
  Qed.
  Lemma good_emplace_all : forall ns ms, good_fields ms -> good_fields ns -> good_fields (emplace_all ms ns).
  Proof.
    induction ns as [|[k v] ns IH]; cbn [emplace_all]; intros ms Hm (N & G); [exact Hm|].
    apply Forall_cons_iff in G as [[K V] G]. inversion N; subst. apply IH; [now apply good_emplace|now split].
  Qed.

  Lemma lit_array : forall l, lit_ok (DArray l). Proof. exact (fun _ => I). Qed.
  Lemma lit_object : forall l, lit_ok (DObject l). Proof. exact (fun _ => I). Qed.

  Notation ok e := (allsub lit_ok e).
  Lemma ok_child : forall e c, ok e -> In c (children e) -> ok c.
  Proof. intros e c H Hc. apply allsub_split in H as [_ K]. now apply K. Qed.
  Lemma ok_data : forall e c, ok e -> In c (dsd_children (edata e)) -> ok c.
  Proof. intros e c H Hc. apply (ok_child e); [exact H|]. now apply in_data_child. Qed.
  Lemma ok_attr : forall e k c, ok e -> ifind (eattrs e) k = Some c -> ok c.
  Proof. intros e k c H Hc. apply (ok_child e); [exact H|]. apply (in_attr_child _ k), ifind_In, Hc. Qed.
  Lemma ok_sample : forall e x, ok e -> find_first_sample e = Some x -> ok x.
  Proof.
    intros e x He F. unfold find_first_sample in F. destruct (ifind (eattrs e) "samples") as [[n m a h dd]|] eqn:A; [|discriminate].
    destruct h; [|discriminate]. destruct dd; try discriminate. destruct l; [discriminate|]. injection F as ->.
    apply (ok_data (Elem n m a true (DArray (x :: l)))); [now apply (ok_attr e "samples")|now left].
  Qed.
  Lemma ok_merged : forall e l x, ok e -> edata e = DExtend l -> merge l = Ok (Some x) -> ok x.
  Proof.
    intros e l x H E. apply (merge_allsub lit_ok lit_array lit_object). intros y Hy. apply (ok_data e); [exact H|]. now rewrite E.
  Qed.
  Lemma ok_here : forall e, ok e -> lit_ok (edata e).
  Proof. intros e H. apply H, sub_refl. Qed.

  Lemma key_good : forall n e, ok e -> yields (render_key n e) SP.
  Proof.
    induction n as [|n IH]; intros e H; [exact (yields_none _ _)|]. cbn [render_key].
    destruct (edata e) eqn:E; try exact (yields_undefined _ _).
    - destruct (ehas e); [apply yields_ret; apply ok_here in H; now rewrite E in H|].
      destruct (find_first_sample e) eqn:F; [apply IH; now apply (ok_sample e)|].
      destruct (find_default e) eqn:G; [apply IH; now apply (ok_attr e "default")|]. now apply yields_ret.
    - eapply yields_bind; [apply yields_merged|]. intros x (l' & _ & E' & M). apply IH. now apply (ok_merged e l').
  Qed.

  Lemma instantiate_good : forall e v, ok e -> instantiate (edata e) = Some v -> good v.
  Proof.
    intros e v H E. apply ok_here in H. destruct (edata e); cbn in E; try discriminate; injection E as <-.
    - repeat split. exact H.
    - repeat split. exact H.
    - destruct b; repeat split.
  Qed.
  Lemma empty_good : forall d v, instantiate_empty d = Some v -> good v.
  Proof. intros d v E; destruct d; cbn in E; try discriminate; injection E as <-; repeat split. exact SP0. Qed.

  Lemma body_good : forall n e, ok e ->
    (forall o, yields (render_value n e o) good) /\
    (forall obj o, good_fields obj -> yields (render_property n obj e o) good_fields) /\
    (forall arr o, Forall good arr -> yields (render_item n arr e o) (Forall good)).
  Proof.
    induction n as [|n IH]; intros e He; [split; [|split]; intros; exact (yields_none _ _)|].
    assert (GN : good VNull) by (repeat split).
    assert (SD : forall o, yields (sample_default_null (render_value n) e o) (fun alt => forall v, alt = Some v -> good v)).
    { intros o. unfold sample_default_null.
      destruct (find_first_sample e) eqn:F.
      - eapply yields_bind; [apply (IH e0 (ok_sample _ _ He F))|]. intros v Hv. apply yields_ret. intros w E. injection E as <-. exact Hv.
      - destruct (find_default e) eqn:G.
        + eapply yields_bind; [apply (IH e0 (ok_attr _ _ _ He G))|]. intros v Hv. apply yields_ret. intros w E. injection E as <-. exact Hv.
        + apply yields_ret. intros w E. destruct (o_nullable o); [|discriminate]. injection E as <-. exact GN. }
    assert (Kids : forall x, In x (dsd_children (edata e)) -> ok x) by (intros; now apply (ok_data e)).
    assert (E0 : good (VObject [])) by (apply good_obj; split; constructor).
    assert (A0 : good (VArray [])) by (apply good_arr; constructor).
    split; [|split].
    - intros o. cbn [render_value].
      destruct (edata e) as [|d0|ds|ds|db|l|k v|l|d0|ds|l|l|l] eqn:E; cbn [dsd_children] in Kids; try (apply yields_ret; exact GN);
        try (eapply yields_bind; [apply yields_any|]; intros o1 _; destruct (ehas e);
             [eapply yields_impl; [apply yields_lift|]; intros v Hv; apply (instantiate_good e); [exact He|]; rewrite E; exact Hv|];
             eapply yields_bind; [apply SD|]; intros [v|] Hv; [apply yields_ret; now apply Hv|];
             eapply yields_impl; [apply yields_lift|]; intros v Hv2; now apply (empty_good _ _ Hv2)).
      + destruct (ehas e), d0; try (apply yields_ret; exact GN). apply IH, Kids. now left.
      + eapply yields_bind; [apply yields_any|]. intros o1 _. destruct (ehas e).
        * apply yields_bind with (P := Forall good); [|intros arr Ha; apply yields_ret; now apply good_arr].
          apply yields_foldR; [|constructor]. intros a x Ha Hx. eapply yields_bind; [apply yields_any|]. intros o2 _.
          apply (IH x (Kids x Hx)). exact Ha.
        * eapply yields_bind; [apply SD|]. intros [v|] Hv; apply yields_ret; auto.
      + eapply yields_bind; [apply yields_any|]. intros o1 _. destruct (ehas e).
        * apply yields_bind with (P := good_fields); [|intros arr Ha; apply yields_ret; now apply good_obj].
          apply yields_foldR; [|split; constructor]. intros a x Ha Hx. eapply yields_bind; [apply yields_any|]. intros o2 _.
          apply (IH x (Kids x Hx)). exact Ha.
        * eapply yields_bind; [apply SD|]. intros [v|] Hv; apply yields_ret; auto.
      + eapply yields_bind; [apply yields_any|]. intros o1 _. destruct (ehas e).
        * eapply yields_bind; [apply yields_lift|]. intros x Hx. apply IH, Kids. rewrite Hx. now left.
        * eapply yields_bind; [apply SD|]. intros [v|] Hv; [apply yields_ret; auto|].
          destruct (ifind (eattrs e) "enumerations") as [[n' m a h dd]|] eqn:A; [|apply yields_ret; exact GN].
          destruct dd; try exact (yields_undefined _ _). destruct h, l; try (apply yields_ret; exact GN).
          apply IH. apply (ok_data (Elem n' m a true (DArray (e0 :: l)))); [now apply (ok_attr e "enumerations")|now left].
      + eapply yields_bind; [apply yields_lift|]. intros x Hx. apply IH. now apply (ok_attr e "resolved").
      + eapply yields_bind; [apply yields_merged|]. intros x (l' & _ & E' & M). apply IH. now apply (ok_merged e l').
    - intros obj o Ho. cbn [render_property].
      destruct (edata e) as [|d0|ds|ds|db|l|k v|l|d0|ds|l|l|l] eqn:E; cbn [dsd_children] in Kids; try (now apply yields_ret).
      + destruct (ehas e), d0; try (now apply yields_ret). apply IH; [apply Kids; now left|exact Ho].
      + eapply yields_bind; [apply yields_any|]. intros o1 _. destruct (negb (ehas e)); [exact (yields_undefined _ _)|].
        eapply yields_bind; [apply yields_lift|]. intros kx Hk. eapply yields_bind; [apply yields_any|]. intros opt _.
        eapply yields_bind; [apply yields_any|]. intros omit _. destruct omit; [now apply yields_ret|].
        eapply yields_bind; [apply (key_good n kx); apply Kids, in_or_app; left; rewrite Hk; now left|].
        intros key Hkey. destruct key; [now apply yields_ret|].
        eapply yields_bind; [apply yields_lift|]. intros vx Hv.
        eapply yields_bind; [apply IH, Kids, in_or_app; right; rewrite Hv; now left|].
        intros val Hval. apply yields_ret. now apply good_emplace.
      + destruct (IH e He) as (V & _ & _). eapply yields_bind; [apply V|]. intros v Hv.
        destruct v; apply yields_ret; try exact Ho. apply good_emplace_all; [exact Ho|now apply good_obj].
      + eapply yields_bind; [apply yields_lift|]. intros x Hx. apply IH; [now apply (ok_attr e "resolved")|exact Ho].
      + eapply yields_bind; [apply yields_merged|]. intros x (l' & _ & E' & M). apply IH; [now apply (ok_merged e l')|exact Ho].
      + destruct (ehas e); [|exact (yields_undefined _ _)]. eapply yields_bind; [apply yields_lift|]. intros es Hes.
        apply yields_foldR; [|exact Ho]. intros a x Ha Hx. apply IH; [|exact Ha].
        destruct (first_option_In _ _ _ Hes Hx) as (op & Hop & Hxo). apply (ok_data op); [now apply Kids|exact Hxo].
    - intros arr o Ha. cbn [render_item].
      destruct (IH e He) as (V & _ & _).
      assert (Self : forall o, yields (bind (v_inherit_or_pass n o e) (fun o' => bind (render_value n e o') (fun v => ret (arr ++ [v])%list))) (Forall good)).
      { intros o1. eapply yields_bind; [apply yields_any|]. intros o' _. eapply yields_bind; [apply V|]. intros v Hv. apply yields_ret.
        apply Forall_app. split; [exact Ha|now constructor]. }
      destruct (edata e) as [|d0|ds|ds|db|l|k v|l|d0|ds|l|l|l] eqn:E; cbn [dsd_children] in Kids; try (now apply yields_ret); try apply Self;
        try (eapply yields_bind; [apply yields_any|]; intros o1 _; destruct (o_fixed o1 || defines_value e)%bool; [apply Self|now apply yields_ret]).
      eapply yields_bind; [apply yields_lift|]. intros x Hx. destruct (is_kind KArray x); [|now apply yields_ret].
      eapply yields_bind; [apply IH; now apply (ok_attr e "resolved")|]. intros v Hv. destruct v; apply yields_ret; try exact Ha.
      apply Forall_app. split; [exact Ha|now apply good_arr].
  Qed.
End Good.
