(** Counting: auxiliary facts for C27 *)
From Verif Require Import Base SoValue Element Extend JsonSpec GenSpec ElementUtils JsonValue ConformSpec CountSpec.
From Verif Require ConformProofs.

(** ** extended naturals *)
Lemma eadd_assoc : forall a b c, eadd (eadd a b) c = eadd a (eadd b c).
Proof. intros [a|] [b|] [c|]; cbn; try reflexivity. f_equal. lia. Qed.
Lemma emul_assoc : forall a b c, emul (emul a b) c = emul a (emul b c).
Proof.
  intros [a|] [b|] [c|]; cbn;
    repeat match goal with |- context [(?x =? 0)%N] => destruct (N.eqb_spec x 0); cbn end; subst; try rewrite N.mul_0_r; try reflexivity; try (f_equal; lia); try nia; try (exfalso; nia).
Qed.
Lemma eadd_0_l : forall a, eadd (Fin 0) a = a.
Proof. intros [a|]; reflexivity. Qed.
Lemma emul_1_l : forall a, emul (Fin 1) a = a.
Proof. intros [a|]; [unfold emul; f_equal; lia|reflexivity]. Qed.
Lemma fold_emul : forall ks a, fold_left emul ks a = emul a (product ks).
Proof.
  induction ks as [|k ks IH]; intros a; cbn [fold_left].
  - destruct a as [a|]; [unfold product, fold_left, emul; f_equal; lia|reflexivity].
  - unfold product. cbn [fold_left]. rewrite !IH, emul_1_l. apply emul_assoc.
Qed.
Lemma fold_eadd : forall ks a, fold_left eadd ks a = eadd a (sum ks).
Proof.
  induction ks as [|k ks IH]; intros a; cbn [fold_left].
  - destruct a as [a|]; [unfold sum, fold_left, eadd; f_equal; lia|reflexivity].
  - unfold sum. cbn [fold_left]. rewrite !IH, eadd_0_l. apply eadd_assoc.
Qed.
Lemma product_cons : forall k ks, product (k :: ks) = emul k (product ks).
Proof. intros k ks. unfold product at 1. cbn [fold_left]. now rewrite fold_emul, emul_1_l. Qed.
Lemma sum_cons : forall k ks, sum (k :: ks) = eadd k (sum ks).
Proof. intros k ks. unfold sum at 1. cbn [fold_left]. now rewrite fold_eadd, eadd_0_l. Qed.

(** ** counting *)
Lemma counts_ext : forall A (P Q : A -> Prop) k, (forall v, P v <-> Q v) -> counts P k -> counts Q k.
Proof.
  intros A P Q [n|] E; cbn.
  - intros (l & N & L & H). exists l. split; [exact N|]. split; [exact L|]. intros v. now rewrite <- E.
  - intros H l. destruct (H l) as (v & Pv & Nv). exists v. split; [now apply E|exact Nv].
Qed.
Lemma counts_one : forall A (a : A), counts (fun v => v = a) (Fin 1).
Proof. intros A a. exists [a]. split; [repeat constructor; intros []|]. split; [reflexivity|]. intros v. cbn. intuition congruence. Qed.
Lemma counts_none : forall A (P : A -> Prop), (forall v, ~ P v) -> counts P (Fin 0).
Proof. intros A P H. exists []. split; [constructor|]. split; [reflexivity|]. intros v. split; [intros K; exact (H v K)|intros []]. Qed.
Lemma counts_or : forall A (P Q : A -> Prop) k j, (forall v, P v -> Q v -> False) -> counts P k -> counts Q j -> counts (fun v => P v \/ Q v) (eadd k j).
Proof.
  intros A P Q k j D HP HQ. destruct k as [k|].
  - destruct j as [j|].
    + destruct HP as (l & N & L & H), HQ as (l' & N' & L' & H'). exists (l ++ l')%list. split; [|split].
      * clear L L'. induction l as [|a l IH] in N, P, D, H |- *; [exact N'|]. inversion N as [|? ? Na Nl]; subst. cbn. constructor.
        -- rewrite in_app_iff. intros [K|K]; [contradiction|]. apply (D a); [apply H; now left|now apply H'].
        -- apply (IH (fun v => In v l)); auto; [|reflexivity]. intros v Hv Qv. apply (D v); [apply H; now right|exact Qv].
      * rewrite app_length. lia.
      * intros v. rewrite in_app_iff, H, H'. reflexivity.
    + intros l. destruct (HQ l) as (v & Qv & Nv). exists v. auto.
  - intros l. destruct (HP l) as (v & Pv & Nv). exists v. auto.
Qed.
Lemma counts_map : forall A B (f : A -> B) (g : B -> A) (P : A -> Prop) k, (forall x, g (f x) = x) -> counts P k -> counts (fun w => exists v, w = f v /\ P v) k.
Proof.
  intros A B f g P [n|] I.
  - intros (l & N & L & H). exists (map f l). split; [|split].
    + clear L H. induction N as [|a l Na N IH]; [constructor|]. cbn. constructor; [|exact IH]. intros K. apply in_map_iff in K as (b & E & K).
      assert (b = a) by (rewrite <- (I b), E; apply I). now subst.
    + now rewrite map_length.
    + intros w. rewrite in_map_iff. split; [intros (v & -> & Pv); exists v; split; [reflexivity|now apply H]|intros (v & <- & Hv); exists v; split; [reflexivity|now apply H]].
  - intros H l. destruct (H (map g l)) as (v & Pv & Nv). exists (f v). split; [now exists v|]. intros K. apply Nv. rewrite <- (I v). now apply in_map.
Qed.
Lemma counts_pos : forall A (P : A -> Prop) k, counts P k -> k <> Fin 0 -> exists v, P v.
Proof.
  intros A P [n|] H K.
  - destruct H as (l & _ & L & H). destruct l as [|v l]; [cbn in L; congruence|]. exists v. apply H. now left.
  - destruct (H []) as (v & Pv & _). now exists v.
Qed.
Lemma counts_zero : forall A (P : A -> Prop), counts P (Fin 0) -> forall v, ~ P v.
Proof. intros A P (l & _ & L & H) v Pv. apply H in Pv. destruct l; [destruct Pv|discriminate L]. Qed.

(** pairs *)
Lemma counts_pair : forall A B (P : A -> Prop) (Q : B -> Prop) k j, counts P k -> counts Q j -> counts (fun p => P (fst p) /\ Q (snd p)) (emul k j).
Proof.
  intros A B P Q k j HP HQ.
  assert (Z : k = Fin 0 \/ j = Fin 0 -> counts (fun p : A * B => P (fst p) /\ Q (snd p)) (Fin 0)).
  { intros [-> | ->]; apply counts_none; intros [a b] [X Y]; [exact (counts_zero _ _ HP _ X)|exact (counts_zero _ _ HQ _ Y)]. }
  destruct k as [k|], j as [j|].
  - destruct HP as (l & N & L & H), HQ as (l' & N' & L' & H'). exists (list_prod l l'). split; [|split].
    + clear -N N'. induction N as [|a l Na N IH]; [constructor|]. cbn.
      assert (G : forall r (q : list (A * B)), NoDup r -> NoDup q -> (forall p, In p q -> fst p <> a) -> NoDup (map (fun y => (a, y)) r ++ q)).
      { induction 1 as [|b r Nb Nr IHr]; intros Nq D; [exact Nq|]. cbn. constructor; [|now apply IHr]. rewrite in_app_iff. intros [K|K].
        - apply in_map_iff in K as (c & E & K). congruence.
        - exact (D _ K eq_refl). }
      apply G; auto. intros [x y] K E. cbn in E. subst. apply in_prod_iff in K as [K _]. contradiction.
    + rewrite prod_length. lia.
    + intros [a b]. rewrite in_prod_iff, <- H, <- H'. reflexivity.
  - cbn [emul]. destruct (N.eqb_spec k 0) as [->|K]; [apply Z; now left|]. destruct (counts_pos _ P (Fin k) HP ltac:(congruence)) as (a & Pa).
    intros l. destruct (HQ (map snd l)) as (b & Qb & Nb). exists (a, b). split; [auto|]. intros K'. apply Nb. now apply (in_map snd) in K'.
  - cbn [emul]. destruct (N.eqb_spec j 0) as [->|K]; [apply Z; now right|]. destruct (counts_pos _ Q (Fin j) HQ ltac:(congruence)) as (b & Qb).
    intros l. destruct (HP (map fst l)) as (a & Pa & Na). exists (a, b). split; [auto|]. intros K'. apply Na. now apply (in_map fst) in K'.
  - cbn [emul]. destruct (HQ []) as (b & Qb & _). intros l. destruct (HP (map fst l)) as (a & Pa & Na). exists (a, b). split; [auto|].
    intros K'. apply Na. now apply (in_map fst) in K'.
Qed.

(** infinite types *)
Fixpoint xs (n : nat) : string := match n with O => EmptyString | S n => String "1" (xs n) end.
Lemma xs_length : forall n, String.length (xs n) = n.
Proof. induction n; cbn; congruence. Qed.
Lemma infinite : forall A (P : A -> Prop) (f : nat -> A) (g : A -> nat), (forall n, P (f (S n))) -> (forall n, g (f n) = n) -> counts P Inf.
Proof.
  intros A P f g H I l. set (n := S (fold_right max 0 (map g l))). exists (f n). split; [apply H|]. intros K.
  assert (L : g (f n) <= fold_right max 0 (map g l)).
  { clearbody n. clear -K. revert K. generalize (f n). intros b K. induction l as [|a l IH]; [destruct K|]. cbn. destruct K as [->|K]; [lia|]. specialize (IH K). lia. }
  rewrite I in L. unfold n in L. lia.
Qed.
Lemma xs_number : forall n, json_number (xs (S n)) = true.
Proof.
  intros n. unfold json_number. cbn [xs Ascii.eqb Bool.eqb]. cbn [int_part]. cbn [Ascii.eqb Bool.eqb].
  assert (D : forall n, digits0 (xs n) = EmptyString) by (induction n0; [reflexivity|exact IHn0]).
  cbn [digits1]. change (is_digit "1") with true. cbv iota. now rewrite D.
Qed.
Lemma counts_open : forall e, primitive e -> counts (of_kind (edata e)) (match edata e with DBoolean _ => Fin 2 | _ => Inf end).
Proof.
  intros e P. unfold primitive in P. destruct (edata e); try destruct P.
  - apply (infinite _ _ (fun n => VString (xs n)) (fun v => match v with VString s => String.length s | _ => 0 end)); [intros n; exact I|intros n; apply xs_length].
  - apply (infinite _ _ (fun n => VNumber (xs n)) (fun v => match v with VNumber s => String.length s | _ => 0 end)); [intros n; apply xs_number|intros n; apply xs_length].
  - exists [VTrue; VFalse]. split; [repeat constructor; cbn; intuition discriminate|]. split; [reflexivity|]. intros v. destruct v; cbn; intuition discriminate.
Qed.

(** ** the number of admitted values *)
Scheme counted_mut := Induction for counted Sort Prop
  with all_counted_mut := Induction for all_counted Sort Prop
  with members_mut := Induction for members Sort Prop.
Combined Scheme counted_all from counted_mut, all_counted_mut, members_mut.

Lemma adds_same : forall e n b c c', adds e n b c -> adds e n b c' -> c = c'.
Proof. intros e n b c c' A B. unfold adds in *. apply Bool.eq_iff_eq_true. tauto. Qed.
Lemma counts_null : forall inh e (B : value -> Prop) k k', nullable_kind e -> or_null e k k' -> ~ (declares e "nullable" /\ B VNull) -> counts B k ->
  (forall v, admits inh e v <-> B v \/ (declares e "nullable" /\ v = VNull)) -> counts (admits inh e) k'.
Proof.
  intros inh e B k k' Nk [[N ->]|(D & -> & _)] Z C E.
  - apply counts_ext with (P := B); [|exact C]. intros v. rewrite E. tauto.
  - apply counts_ext with (P := fun v => B v \/ v = VNull); [intros v; rewrite E; tauto|].
    apply counts_or; [|exact C|apply counts_one]. intros v Bv ->. auto.
Qed.
Lemma of_kind_null : forall d, ~ of_kind d VNull.
Proof. intros [] H; exact H. Qed.
Lemma literal_null : forall e v, literal e v -> v <> VNull.
Proof. induction 1; congruence. Qed.

Ltac arrive := match goal with
  | H : edata ?e = _, K : edata ?e = _ |- _ => rewrite H in K; try discriminate K
  | H : edata ?e = _, K : primitive ?e |- _ => unfold primitive in K; rewrite H in K; destruct K
  | H : edata ?e = _, K : nullable_kind ?e |- _ => unfold nullable_kind in K; rewrite H in K; destruct K
  end.

Theorem counted_counts :
  (forall inh e k, counted inh e k -> counts (admits inh e) k) /\
  (forall f l ks, all_counted f l ks ->
     (f = true -> counts (entries_of l) (product ks)) /\
     (ForallOrdPairs (fun x y => forall w, admits f x w -> admits f y w -> False) l -> counts (fun w => exists y, In y l /\ admits f y w) (sum ks)) /\
     Forall2 (fun x k => counts (admits f x) k) l ks) /\
  (forall f l names ks, members f l names ks -> counts (values f l) (product ks)).
Proof.
  apply counted_all.
  - (* null *) intros inh e D. apply counts_ext with (P := fun v => v = VNull); [|apply counts_one]. intros v. split; [intros ->; now apply a_null|].
    intros A. inversion A; subst; try arrive; reflexivity.
  - (* fixed *) intros inh e k P F H O. destruct (Verif.ConformProofs.prim_literal e P H) as (w & _ & L).
    apply (counts_null inh e (fun v => v = w) (Fin 1) k).
    + unfold primitive, nullable_kind in *. destruct (edata e); auto.
    + exact O.
    + intros [_ E]. symmetry in E. now apply literal_null in L.
    + apply counts_one.
    + intros v. split.
      * intros A. inversion A as [? ? D|? ? ? D|? ? ? P' F' L'|? ? ? P' F' N K| | | | | | | | ]; subst; try arrive.
        -- now right. -- left. now apply (Verif.ConformProofs.literal_unique e).
        -- destruct F as [-> |F]; [|contradiction]. exfalso. apply (N eq_refl). now left.
      * intros [-> |[D ->]]; [now apply a_fixed|]. apply a_nullable; [unfold primitive, nullable_kind in *; destruct (edata e); auto|exact D].
  - (* open *) intros inh e k P F N O.
    apply (counts_null inh e (of_kind (edata e)) _ k) in O; auto.
    + unfold primitive, nullable_kind in *. destruct (edata e); auto.
    + intros [_ K]. exact (of_kind_null _ K).
    + now apply counts_open.
    + intros v. split.
      * intros A. inversion A as [? ? D|? ? ? D|? ? ? P' F' L'|? ? ? P' F' N' K| | | | | | | | ]; subst; try arrive; auto.
        destruct F' as [-> |F']; [|contradiction]. exfalso. apply (N eq_refl). left. inversion L'; auto.
      * intros [K|[D ->]]; [now apply a_open|]. apply a_nullable; [unfold primitive, nullable_kind in *; destruct (edata e); auto|exact D].
  - (* object *) intros inh e l f ks names k D Af C He Hm IH Nd Pf O.
    apply (counts_null inh e (fun v => exists ms, v = VObject ms /\ values f l ms) _ k) in O; auto.
    + unfold nullable_kind. now rewrite D.
    + intros [_ (ms & E & _)]. discriminate E.
    + apply (counts_map _ _ VObject (fun v => match v with VObject ms => ms | _ => [] end)); [reflexivity|exact IH].
    + intros v. split.
      * intros A. inversion A as [? ? D'|? ? ? D'|? ? ? P' F' L'|? ? ? P' F' N' K|? ? l' f' ms D' Af' C' E1 E2| | | | | | | ]; subst; try arrive; auto.
        injection D' as ->. rewrite (adds_same _ _ _ _ _ Af Af') in *. left. exists ms. auto.
      * intros [(ms & -> & V)|[Dn ->]]; [|apply a_nullable; [unfold nullable_kind; now rewrite D|exact Dn]].
        apply (a_object inh e l f ms); auto. congruence.
  - (* tuple *) intros inh e l ks k D F He Hm IH Pf O. destruct IH as (IH & _ & _).
    apply (counts_null inh e (fun v => exists vs, v = VArray vs /\ entries_of l vs) _ k) in O; auto.
    + unfold nullable_kind. now rewrite D.
    + intros [_ (ms & E & _)]. discriminate E.
    + apply (counts_map _ _ VArray (fun v => match v with VArray ms => ms | _ => [] end)); [reflexivity|exact (IH eq_refl)].
    + intros v. split.
      * intros A. inversion A as [? ? D'|? ? ? D'|? ? ? P' F' L'|? ? ? P' F' N' K| |? ? l' vs D' F' E1 E2|? ? l' vs D' I' F'|? ? l' vs D' I' F'| | | | ]; subst; try arrive; auto.
        -- injection D' as ->. left. exists vs. auto.
        -- destruct F; [discriminate|contradiction].
        -- destruct F; [discriminate|contradiction].
      * intros [(ms & -> & V)|[Dn ->]]; [|apply a_nullable; [unfold nullable_kind; now rewrite D|exact Dn]].
        apply (a_tuple inh e l ms); auto. congruence.
  - (* object without members *) intros inh e l f k D Af C He O.
    apply (counts_null inh e (fun v => v = VObject []) _ k) in O; auto.
    + unfold nullable_kind. now rewrite D.
    + intros [_ E]. discriminate E.
    + apply counts_one.
    + intros v. split.
      * intros A. inversion A as [? ? D'|? ? ? D'|? ? ? P' F' L'|? ? ? P' F' N' K|? ? l' f' ms D' Af' C' E1 E2| | | | | | | ]; subst; try arrive; auto.
        left. now rewrite (E1 He).
      * intros [-> |[Dn ->]]; [|apply a_nullable; [unfold nullable_kind; now rewrite D|exact Dn]].
        apply (a_object inh e l f []); auto. congruence.
  - (* array without entries *) intros inh e l k D F He O.
    apply (counts_null inh e (fun v => v = VArray []) _ k) in O; auto.
    + unfold nullable_kind. now rewrite D.
    + intros [_ E]. discriminate E.
    + apply counts_one.
    + intros v. split.
      * intros A. inversion A as [? ? D'|? ? ? D'|? ? ? P' F' L'|? ? ? P' F' N' K| |? ? l' vs D' F' E1 E2|? ? l' vs D' I' F'|? ? l' vs D' I' F'| | | | ]; subst; try arrive; auto.
        -- left. now rewrite (E1 He).
        -- destruct F; [discriminate|contradiction].
        -- destruct F; [discriminate|contradiction].
      * intros [-> |[Dn ->]]; [|apply a_nullable; [unfold nullable_kind; now rewrite D|exact Dn]].
        apply (a_tuple inh e l []); auto. congruence.
  - (* typed array *) intros inh e l ks k D Hi F Ft He Hm IH (k' & Hk & Nk) O. destruct IH as (_ & _ & IH). subst inh.
    apply (counts_null false e (fun v => exists vs, v = VArray vs /\ each l vs) Inf k) in O; auto.
    + unfold nullable_kind. now rewrite D.
    + intros [_ (ms & E & _)]. discriminate E.
    + assert (X : exists x v, In x l /\ admits false x v).
      { clear -IH Hk Nk. induction IH as [|x k l ks C IH IH']; [destruct Hk|]. destruct Hk as [->|Hk].
        - destruct (counts_pos _ _ _ C Nk) as (v & Hv). exists x, v. split; [now left|exact Hv].
        - destruct (IH' Hk) as (y & v & Hy & Hv). exists y, v. split; [now right|exact Hv]. }
      destruct X as (x & v & Hx & Hv).
      apply (infinite _ _ (fun n => VArray (repeat v n)) (fun w => match w with VArray vs => List.length vs | _ => 0 end)).
      * intros n. eexists. split; [reflexivity|]. cbn [repeat]. eapply ea_cons; eauto. induction n; cbn [repeat]; econstructor; eauto.
      * intros n. apply repeat_length.
    + intros v. split.
      * intros A. inversion A as [? ? D'|? ? ? D'|? ? ? P' F' L'|? ? ? P' F' N' K| |? ? l' vs D' F' E1 E2|? ? l' vs D' I' F' Ft' E1 E2|? ? l' vs D' I' F'| | | | ]; subst; try arrive; auto.
        -- destruct F'; [discriminate|contradiction].
        -- injection D' as ->. left. exists vs. auto.
        -- contradiction.
      * intros [(vs & -> & V)|[Dn ->]]; [|apply a_nullable; [unfold nullable_kind; now rewrite D|exact Dn]].
        apply (a_typed false e l vs); auto. congruence.
  - (* open array *) intros inh e l k D Hi F Ft O. subst inh.
    apply (counts_null false e (fun v => exists vs, v = VArray vs) Inf k) in O; auto.
    + unfold nullable_kind. now rewrite D.
    + intros [_ (ms & E)]. discriminate E.
    + apply (infinite _ _ (fun n => VArray (repeat VNull n)) (fun w => match w with VArray vs => List.length vs | _ => 0 end)); [intros n; eauto|intros n; apply repeat_length].
    + intros v. split.
      * intros A. inversion A as [? ? D'|? ? ? D'|? ? ? P' F' L'|? ? ? P' F' N' K| |? ? l' vs D' F' E1 E2|? ? l' vs D' I' F' Ft' E1 E2|? ? l' vs D' I' F'| | | | ]; subst; try arrive; auto.
        -- destruct F'; [discriminate|contradiction].
        -- contradiction.
        -- left. eauto.
      * intros [(vs & ->)|[Dn ->]]; [|apply a_nullable; [unfold nullable_kind; now rewrite D|exact Dn]].
        apply (a_array false e l vs); auto.
  - (* enum *) intros inh e v n m a l f ks k D Af En Hl IH Pf Dj Nn O. destruct IH as (_ & IH & _).
    apply (counts_null inh e (fun w => exists y, In y l /\ admits f y w) _ k) in O; auto.
    + unfold nullable_kind. now rewrite D.
    + intros [Dn (y & Hy & A)]. exact (Nn Dn y Hy A).
    + intros w. split.
      * intros A. inversion A as [? ? D'|? ? ? D'|? ? ? P' F' L'|? ? ? P' F' N' K| | | | |? ? v' n' m' a' l' f' y ? D' Af' En' Hy Ay| | | ]; subst; try arrive; auto.
        rewrite En in En'. injection En' as <- <- <- <-. rewrite (adds_same _ _ _ _ _ Af Af') in *. left. eauto.
      * intros [(y & Hy & A)|[Dn ->]]; [|apply a_nullable; [unfold nullable_kind; now rewrite D|exact Dn]].
        eapply a_enum; eauto.
  - intros inh e x k H D C IH. apply counts_ext with (P := admits inh x); [|exact IH]. intros v. split; [intros A; eapply a_holder; eauto|].
    intros A. inversion A; subst; try arrive. match goal with K : DHolder _ = DHolder _ |- _ => injection K as <- end. assumption.
  - intros inh e t x k D R C IH. apply counts_ext with (P := admits inh x); [|exact IH]. intros v. split; [intros A; eapply a_ref; eauto|].
    intros A. inversion A; subst; try arrive. congruence.
  - intros inh e l x k H D M C IH. apply counts_ext with (P := admits inh x); [|exact IH]. intros v. split; [intros A; eapply a_extend; eauto|].
    intros A. inversion A; subst; try arrive. match goal with K : DExtend _ = DExtend _ |- _ => injection K as <- end. congruence.
  - intros f. split; [|split].
    + intros _. apply counts_ext with (P := fun v => v = []); [|apply counts_one]. intros v. split; [intros ->; constructor|intros A; now inversion A].
    + intros _. apply counts_none. intros v (y & [] & _).
    + constructor.
  - intros f x l k ks C IHx Hl (I1 & I2 & I3). split; [|split].
    + intros ->. rewrite product_cons.
      apply counts_ext with (P := fun vs => exists p, vs = fst p :: snd p /\ admits true x (fst p) /\ entries_of l (snd p)).
      * intros vs. split; [intros ((v & r) & -> & A & B); now constructor|]. intros A. inversion A as [|? ? v r Av Ar]; subst. exists (v, r). auto.
      * assert (Q := counts_pair _ _ _ _ _ _ IHx (I1 eq_refl)).
        apply (counts_map _ _ (fun p => fst p :: snd p) (fun o => match o with v :: r => (v, r) | _ => (VNull, []) end) _ _ ltac:(intros [? ?]; reflexivity) Q).
    + intros Dj. inversion Dj as [|? ? D1 D2]; subst. rewrite sum_cons.
      apply counts_ext with (P := fun w => admits f x w \/ exists y, In y l /\ admits f y w).
      * intros w. split; [intros [A|(y & Hy & A)]; [exists x|exists y]; cbn; auto|]. intros (y & [<-|Hy] & A); eauto.
      * apply counts_or; [|exact IHx|now apply I2]. intros w A (y & Hy & B). rewrite Forall_forall in D1. exact (D1 y Hy w A B).
    + constructor; auto.
  - intros f. apply counts_ext with (P := fun v => v = []); [|apply counts_one]. intros v. split; [intros ->; constructor|intros A; now inversion A].
  - intros f m l k x key names kc ks D H Dk Hk V N O C IHx M IHm. rewrite product_cons.
    apply counts_ext with (P := fun vs => exists p, vs = (key, fst p) :: snd p /\ admits f x (fst p) /\ values f l (snd p)).
    + intros vs. split; [intros ((v & r) & -> & A & B); now apply (vs_cons f m l k x)|].
      intros A. inversion A as [|? ? ? k' x' key' v ms D' H' Dk' Hk' Ax Al]; subst. exists (v, ms). rewrite D in D'. injection D' as <- <-. rewrite Dk in Dk'. injection Dk' as <-. auto.
    + assert (Q := counts_pair _ _ _ _ _ _ IHx IHm).
      apply (counts_map _ _ (fun p => (key, fst p) :: snd p) (fun o => match o with (_, v) :: r => (v, r) | _ => (VNull, []) end) _ _ ltac:(intros [? ?]; reflexivity) Q).
Qed.
