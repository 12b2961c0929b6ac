From Verif Require Import Base Element ElementSpec ElementProofs InfoProofs MergeSpec Extend Registry Expand ExpandSpec.

(** ** the registry is a map *)
Definition rstep (r : registry) (o : reg_op) : res (reg_out * registry) :=
  match o with
  | RAdd e => match radd r (Some e) with
              | Ok (b, r') => Ok (OBool b, r')
              | Throws _ => Ok (OThrows, r)
              | Undefined => Undefined
              end
  | RRemove s => let '(b, r') := rremove r s in Ok (OBool b, r')
  | RClear => Ok (ODone, rclear r)
  | RFind s => Ok (OFound (rfind r s), r)
  end.
Fixpoint rruns (r : registry) (l : list reg_op) : res (list reg_out * registry) :=
  match l with
  | [] => Ok ([], r)
  | o :: rest =>
    match rstep r o with
    | Ok (x, r1) => match rruns r1 rest with Ok (xs, r2) => Ok (x :: xs, r2) | Throws w => Throws w | Undefined => Undefined end
    | Throws w => Throws w
    | Undefined => Undefined
    end
  end.

Definition represents (r : registry) (m : amap) : Prop :=
  NoDup (map fst r) /\ forall k, rfind r k = m k.

Lemma ifind_None_keys : forall A (l : list (string * A)) k, ifind l k = None <-> ~ In k (map fst l).
Proof.
  induction l as [|[k' v] l IH]; intros k; cbn; [tauto|].
  destruct (String.eqb_spec k' k) as [->|N]; [split; [discriminate|tauto]|].
  rewrite IH. tauto.
Qed.

Lemma ifind_iset : forall A (l : list (string * A)) k v k',
  ifind (iset l k v) k' = if String.eqb k k' then Some v else ifind l k'.
Proof.
  induction l as [|[k0 v0] l IH]; intros k v k'; cbn.
  - reflexivity.
  - destruct (String.eqb_spec k0 k) as [->|N]; cbn.
    + destruct (String.eqb k k'); reflexivity.
    + destruct (String.eqb_spec k0 k') as [->|N'].
      * destruct (String.eqb_spec k k') as [E|E]; [now subst|reflexivity].
      * apply IH.
Qed.
Lemma keys_iset : forall A (l : list (string * A)) k v,
  NoDup (map fst l) -> NoDup (map fst (iset l k v)) /\ (forall x, In x (map fst (iset l k v)) -> x = k \/ In x (map fst l)).
Proof.
  induction l as [|[k0 v0] l IH]; intros k v H; cbn.
  - split; [repeat constructor; intros []|intros x [->|[]]; now left].
  - destruct (String.eqb_spec k0 k) as [->|N]; cbn.
    + split; [exact H|]. intros x [->|Hx]; auto.
    + cbn in H. inversion H as [|? ? Hn Hd]; subst. destruct (IH k v Hd) as [I1 I2]. split.
      * constructor; [|exact I1]. intros Hx. destruct (I2 _ Hx); [congruence|tauto].
      * intros x [->|Hx]; [auto|]. destruct (I2 _ Hx); auto.
Qed.
Lemma ierase1_spec : forall A (l : list (string * A)) k, NoDup (map fst l) ->
  NoDup (map fst (ierase1 l k)) /\ (forall x, In x (map fst (ierase1 l k)) -> In x (map fst l)) /\
  forall k', ifind (ierase1 l k) k' = if String.eqb k k' then None else ifind l k'.
Proof.
  induction l as [|[k0 v0] l IH]; intros k H; cbn.
  - repeat apply conj; auto. intros k'. now destruct (String.eqb k k').
  - cbn in H. inversion H as [|? ? Hn Hd]; subst. destruct (String.eqb_spec k0 k) as [->|N].
    + repeat apply conj; [exact Hd|auto|]. intros k'. destruct (String.eqb_spec k k') as [->|N]; [|reflexivity].
      now apply ifind_None_keys.
    + destruct (IH k Hd) as (I1 & I2 & I3). cbn. repeat apply conj.
      * constructor; [|exact I1]. intros Hx. apply Hn, I2, Hx.
      * intros x [->|Hx]; auto.
      * intros k'. rewrite I3. destruct (String.eqb_spec k0 k') as [->|N']; [|reflexivity].
        destruct (String.eqb_spec k k'); [congruence|reflexivity].
Qed.

Lemma declared_id : forall e, id_readable e ->
  match element_id e with
  | Ok s => declared e = Some s
  | Throws _ => declared e = None
  | Undefined => False
  end.
Proof.
  intros e H. unfold id_readable in H. unfold element_id, declared. destruct (ifind (emeta e) "id") as [[n m a h d]|]; [|reflexivity].
  destruct d; cbn [ekind edata dsd_kind eget ehas]; try (destruct h; reflexivity).
  destruct h; [reflexivity|contradiction].
Qed.

Definition op_readable (o : reg_op) : Prop := match o with RAdd e => id_readable e | _ => True end.

Lemma rstep_refines : forall r m o, represents r m -> op_readable o ->
  exists x r', rstep r o = Ok (x, r') /\ x = fst (astep m o) /\ represents r' (snd (astep m o)).
Proof.
  intros r m o [Hn Hm] Ho. destruct o as [e|s| |s]; cbn [rstep astep].
  - unfold radd. pose proof (declared_id e Ho) as D. destruct (element_id e) as [id|w|]; [| |contradiction]; rewrite D.
    + destruct (is_reserved id); [exists OThrows, r; repeat split; auto|].
      rewrite Hm. destruct (m id) as [x|] eqn:E.
      * exists (OBool false), r. repeat split; auto.
      * exists (OBool true), (iset r id e). repeat split; [now apply keys_iset|].
        intros k. unfold rfind. rewrite ifind_iset. cbn [snd]. unfold astore. destruct (String.eqb id k); [reflexivity|apply Hm].
    + exists OThrows, r; repeat split; auto.
  - unfold rremove. rewrite Hm. destruct (m s) as [x|] eqn:E.
    + exists (OBool true), (ierase1 r s). destruct (ierase1_spec _ r s Hn) as (I1 & I2 & I3). repeat split; auto.
      intros k. unfold rfind. rewrite I3. cbn [snd]. unfold astore. destruct (String.eqb s k); [reflexivity|apply Hm].
    + exists (OBool false), r; repeat split; auto.
  - exists ODone, []; repeat split. exact (NoDup_nil _).
  - exists (OFound (rfind r s)), r. rewrite Hm. repeat split; auto.
Qed.

Lemma rruns_refines : forall l r m, represents r m -> Forall op_readable l ->
  exists r', rruns r l = Ok (fst (aruns m l), r') /\ represents r' (snd (aruns m l)).
Proof.
  induction l as [|o l IH]; intros r m R F; cbn [rruns aruns].
  - exists r; auto.
  - inversion F as [|? ? Fo Fl]; subst. destruct (rstep_refines r m o R Fo) as (x & r1 & E & Ex & R1). rewrite E.
    destruct (astep m o) as [x' m1]; cbn [fst snd] in *. subst x'.
    destruct (IH r1 m1 R1 Fl) as (r2 & E2 & R2). rewrite E2.
    destruct (aruns m1 l) as [xs m2]. exists r2; auto.
Qed.

Lemma base_represents : represents base_types builtin.
Proof.
  split.
  - cbn. repeat constructor; cbn; intuition discriminate.
  - intros k. unfold rfind, base_types, builtin. cbn [map ifind kind_name].
    rewrite !(String.eqb_sym k).
    repeat (match goal with |- context[if ?b then _ else _] => destruct b; [reflexivity|] end). reflexivity.
Qed.
