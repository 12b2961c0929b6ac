From Verif Require Import Base SoValue Element ElementSpec ElementProofs SerializeSo SerializeSpec SerializeProofs.

Lemma mapM_iff : forall A B (f : A -> option B) (R : A -> B -> Prop) l r,
  (forall x, In x l -> forall y, f x = Some y <-> R x y) -> (mapM f l = Some r <-> Forall2 R l r).
Proof.
  intros A B f R l. induction l as [|x l IH]; intros r H; cbn.
  - split; [intros [= <-]; constructor|]. intros F. now inversion F.
  - assert (IH' := fun r => IH r (fun y Hy => H y (or_intror Hy))). assert (Hx := H x (or_introl eq_refl)). split.
    + destruct (f x) as [y|] eqn:E; [|discriminate]. destruct (mapM f l) as [ys|] eqn:El; [|discriminate]. intros [= <-].
      constructor; [now apply Hx|now apply IH'].
    + intros F. inversion F as [|? y ? ys Rx Rl]; subst. apply Hx in Rx. apply IH' in Rl. now rewrite Rx, Rl.
Qed.

Lemma imapM_iff : forall A B (f : A -> option B) (R : A -> B -> Prop) keep l r,
  (forall k x, In (k, x) l -> forall y, f x = Some y <-> R x y) ->
  (imapM f keep l = Some r <-> Forall2 (fun x y => fst x = fst y /\ R (snd x) (snd y)) (filter (fun kv => keep (fst kv)) l) r).
Proof.
  intros A B f R keep l. induction l as [|[k x] l IH]; intros r H; cbn.
  - split; [intros [= <-]; constructor|]. intros F. now inversion F.
  - assert (IH' := fun r => IH r (fun k' y Hy => H k' y (or_intror Hy))). assert (Hx := H k x (or_introl eq_refl)).
    destruct (keep k); [|apply IH']. split.
    + destruct (f x) as [y|] eqn:E; [|discriminate]. destruct (imapM f keep l) as [ys|] eqn:El; [|discriminate]. intros [= <-].
      constructor; [split; [reflexivity|now apply Hx]|now apply IH'].
    + intros F. inversion F as [|? [k' y] ? ys [E Rx] Rl]; subst. cbn in E, Rx. subst k'. apply Hx in Rx. apply IH' in Rl. now rewrite Rx, Rl.
Qed.

Lemma kept_filter : forall sm l, filter (fun kv => keep_info sm (fst kv)) l = kept_entries sm l.
Proof.
  intros [] l; cbn; [|reflexivity]. induction l as [|x l IH]; [reflexivity|]. cbn. now rewrite IH.
Qed.

Lemma info_optional : forall k l, info_member k l = optional_member k l.
Proof. now intros k [|x l]. Qed.

Lemma content_iff : forall sm d, (forall x, In x (dsd_children d) -> forall v, serialize_any sm x = Some v <-> denotes sm x v) ->
  forall v, ser_content (serialize_any sm) d = Some v <-> denotes_content sm d v.
Proof.
  intros sm d H v.
  assert (Li : forall l, dsd_children d = l -> forall c : list value -> value,
    (option_map c (mapM (serialize_any sm) l) = Some v <-> exists vs, Forall2 (denotes sm) l vs /\ v = c vs)).
  { intros l E c. rewrite E in H. split.
    - destruct (mapM _ l) as [vs|] eqn:M; [|discriminate]. intros [= <-]. exists vs. split; [|reflexivity]. now apply (mapM_iff _ _ _ _ _ _ H).
    - intros (vs & F & ->). apply (mapM_iff _ _ _ _ _ _ H) in F. now rewrite F. }
  destruct d as [|o|s|s|b|l|k w|l|o|s|l|l|l]; cbn [ser_content].
  - split; [intros [= <-]; constructor|]. intros F; now inversion F.
  - destruct o as [x|]; cbn; [|split; [discriminate|intros F; inversion F]]. rewrite (H x) by now left.
    split; [now constructor|]. intros F; now inversion F.
  - split; [intros [= <-]; constructor|]. intros F; now inversion F.
  - split; [intros [= <-]; constructor|]. intros F; now inversion F.
  - split; [intros [= <-]; destruct b; constructor|]. intros F; now inversion F.
  - rewrite (Li l eq_refl). split; [intros (vs & F & ->); now constructor|]. intros F; inversion F; subst; eauto.
  - destruct k as [k|]; [|split; [discriminate|intros F; inversion F]]. cbn in H. assert (Hk := H k (or_introl eq_refl)). split.
    + destruct (serialize_any sm k) as [vk|] eqn:Ek; [|discriminate]. cbn [obind]. destruct w as [w|].
      * assert (Hw := H w (or_intror (or_introl eq_refl))). destruct (serialize_any sm w) as [vw|] eqn:Ew; [|discriminate].
        cbn [obind]. intros [= <-]. constructor; [now apply Hk|now apply Hw].
      * intros [= <-]. constructor. now apply Hk.
    + intros F. inversion F as [| | | | | | | | | | | | |? ? vk Dk|? ? x vk vx Dk Dx]; subst.
      * apply Hk in Dk. rewrite Dk. reflexivity.
      * apply Hk in Dk. rewrite Dk. cbn [obind]. apply (H x (or_intror (or_introl eq_refl))) in Dx. rewrite Dx. reflexivity.
  - rewrite (Li l eq_refl). split; [intros (vs & F & ->); now constructor|]. intros F; inversion F; subst; eauto.
  - destruct o as [x|]; cbn; [|split; [discriminate|intros F; inversion F]]. rewrite (H x) by now left.
    split; [now constructor|]. intros F; now inversion F.
  - split; [intros [= <-]; constructor|]. intros F; now inversion F.
  - rewrite (Li l eq_refl). split; [intros (vs & F & ->); now constructor|]. intros F; inversion F; subst; eauto.
  - rewrite (Li l eq_refl). split; [intros (vs & F & ->); now constructor|]. intros F; inversion F; subst; eauto.
  - rewrite (Li l eq_refl). split; [intros (vs & F & ->); now constructor|]. intros F; inversion F; subst; eauto.
Qed.

Theorem render_denotes : forall e sm v, serialize_any sm e = Some v <-> denotes sm e v.
Proof.
  induction e as [e IH] using element_ind'. intros sm v. destruct e as [n m a h d]. cbn [serialize_any].
  assert (Hm := fun r => imapM_iff _ _ (serialize_any sm) (denotes sm) (keep_info sm) m r
     (fun k x Hx => IH x (in_meta_child (Elem n m a h d) k x Hx) sm)).
  set (sma := (sm || String.eqb n "annotation")%bool).
  assert (Ha := fun r => imapM_iff _ _ (serialize_any sma) (denotes sma) (keep_info sma) a r
     (fun k x Hx => IH x (in_attr_child (Elem n m a h d) k x Hx) sma)).
  assert (Hd := content_iff sm d (fun x Hx => IH x (in_data_child (Elem n m a h d) x Hx) sm)).
  rewrite kept_filter in Hm, Ha. split.
  - destruct (imapM _ _ m) as [vm|] eqn:Em; [|discriminate]. cbn [obind].
    destruct (imapM _ _ a) as [va|] eqn:Ea; [|discriminate]. cbn [obind].
    apply Hm in Em || idtac. intros E.
    assert (G : exists vc, (if h then option_map (fun c => [("content"%string, c)]) (ser_content (serialize_any sm) d) else Some []) = Some vc).
    { destruct (if h then _ else _); [eauto|discriminate]. }
    destruct G as (vc & G). rewrite G in E. cbn [obind] in E. injection E as <-. rewrite !info_optional.
    apply (den sm n m a h d vm va vc).
    + now apply Hm.
    + now apply Ha.
    + intros ->. now injection G as <-.
    + intros ->. destruct (ser_content _ d) as [c|] eqn:Ec; [|discriminate]. injection G as <-. exists c. split; [reflexivity|]. now apply Hd.
  - intros D. inversion D as [? ? ? ? ? ? vm va vc Fm Fa H0 H1]; subst. fold sma in Fa.
    apply Hm in Fm. apply Ha in Fa. rewrite Fm. cbn [obind]. rewrite Fa. cbn [obind]. rewrite !info_optional. destruct h.
    + destruct (H1 eq_refl) as (c & -> & Hc). apply Hd in Hc. rewrite Hc. reflexivity.
    + rewrite (H0 eq_refl). reflexivity.
Qed.
