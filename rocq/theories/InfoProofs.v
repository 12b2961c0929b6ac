From Coq Require Import Sorting.Sorted.
From Verif Require Import Base Element ElementSpec ElementProofs.

(** dictionary lemmas *)
Lemma ifind_In : forall A (l : list (string * A)) k v, ifind l k = Some v -> In (k, v) l.
Proof.
  induction l as [|[k' v'] l IH]; cbn; intros k v H; [discriminate|].
  destruct (String.eqb_spec k' k) as [->|N]; [injection H as ->; now left|right; auto].
Qed.

Lemma ifind_None : forall A (l : list (string * A)) k, ifind l k = None <-> ~ In k (map fst l).
Proof.
  induction l as [|[k' v'] l IH]; cbn; intros k; [tauto|].
  destruct (String.eqb_spec k' k) as [->|N]; [split; [discriminate|tauto]|].
  rewrite IH. tauto.
Qed.

Lemma ifind_Some_In : forall A (l : list (string * A)) k, In k (map fst l) -> exists v, ifind l k = Some v.
Proof.
  intros A l k H. destruct (ifind l k) eqn:E; [eauto|]. apply ifind_None in E. tauto.
Qed.

Lemma iset_find : forall A (l : list (string * A)) k v k',
  ifind (iset l k v) k' = if String.eqb k k' then Some v else ifind l k'.
Proof.
  induction l as [|[k0 v0] l IH]; cbn; intros k v k'.
  - reflexivity.
  - destruct (String.eqb_spec k0 k) as [->|N]; cbn.
    + destruct (String.eqb_spec k k'); auto.
    + destruct (String.eqb_spec k0 k') as [->|N2].
      * destruct (String.eqb_spec k k'); [congruence|reflexivity].
      * apply IH.
Qed.

Lemma iset_keys : forall A (l : list (string * A)) k v,
  map fst (iset l k v) = if existsb (String.eqb k) (map fst l) then map fst l else (map fst l ++ [k])%list.
Proof.
  induction l as [|[k0 v0] l IH]; cbn; intros k v; [reflexivity|].
  rewrite (String.eqb_sym k k0). destruct (String.eqb_spec k0 k) as [->|N]; cbn; [reflexivity|].
  rewrite IH. destruct (existsb (String.eqb k) (map fst l)); reflexivity.
Qed.

Lemma existsb_In : forall k l, existsb (String.eqb k) l = true <-> In k l.
Proof.
  intros k l. rewrite existsb_exists. split.
  - intros (x & H & E). apply String.eqb_eq in E. now subst.
  - intros H. exists k. split; [exact H|apply String.eqb_refl].
Qed.

Lemma ierase_keys : forall A (l : list (string * A)) k,
  map fst (ierase l k) = filter (fun x => negb (String.eqb x k)) (map fst l).
Proof.
  induction l as [|[k0 v0] l IH]; cbn; intros k; [reflexivity|].
  destruct (String.eqb k0 k); cbn; rewrite <- IH; reflexivity.
Qed.

Lemma ierase_find : forall A (l : list (string * A)) k k',
  ifind (ierase l k) k' = if String.eqb k k' then None else ifind l k'.
Proof.
  induction l as [|[k0 v0] l IH]; cbn; intros k k'.
  - now destruct (String.eqb k k').
  - destruct (String.eqb_spec k0 k) as [->|N]; cbn.
    + destruct (String.eqb_spec k k') as [->|M].
      * assert (E := IH k' k'). rewrite String.eqb_refl in E. exact E.
      * assert (E := IH k k'). destruct (String.eqb_spec k k'); [congruence|exact E].
    + destruct (String.eqb_spec k0 k') as [->|N2].
      * destruct (String.eqb_spec k k'); [congruence|reflexivity].
      * apply IH.
Qed.

Lemma filter_id : forall A (f : A -> bool) l, (forall x, In x l -> f x = true) -> filter f l = l.
Proof.
  induction l as [|x l IH]; cbn; intros H; [reflexivity|].
  rewrite (H x) by now left. f_equal. apply IH. intros y Hy. apply H. now right.
Qed.

(** on duplicate free containers claim erases the key *)
Lemma ierase1_ierase : forall A (l : list (string * A)) k,
  NoDup (map fst l) -> ierase1 l k = ierase l k.
Proof.
  induction l as [|[k0 v0] l IH]; cbn; intros k H; [reflexivity|].
  inversion H as [|x y Hn Hd]; subst.
  destruct (String.eqb_spec k0 k) as [->|N]; cbn.
  - symmetry. unfold ierase. apply filter_id. intros [k' v'] Hin. cbn.
    destruct (String.eqb_spec k' k) as [->|M]; [|reflexivity].
    exfalso. apply Hn. now apply (in_map fst) in Hin.
  - now rewrite IH.
Qed.

Lemma iclaim_snd : forall A (l : list (string * A)) k,
  NoDup (map fst l) -> snd (iclaim l k) = ierase l k.
Proof.
  intros A l k H. unfold iclaim. destruct (ifind l k) eqn:E; cbn.
  - now apply ierase1_ierase.
  - symmetry. unfold ierase. apply filter_id. intros [k' v'] Hin. cbn.
    destruct (String.eqb_spec k' k) as [->|M]; [|reflexivity].
    exfalso. apply ifind_None in E. apply E. now apply (in_map fst) in Hin.
Qed.

(** the container after a history (most recent operation first) *)
Definition apply_op (l : info) (o : info_op) : info :=
  match o with
  | OSet k v => iset l k v
  | OErase k => ierase l k
  | OClaim k => snd (iclaim l k)
  | OClear => []
  end.
Fixpoint run_ops (h : list info_op) : info :=
  match h with
  | [] => []
  | o :: r => apply_op (run_ops r) o
  end.

Lemma birth_lt : forall h k v, last_value h k = Some v -> birth h k < List.length h.
Proof.
  induction h as [|o h IH]; cbn; intros k v H; [discriminate|].
  destruct o as [k' v'|k'|k'|]; cbn in *.
  - destruct (String.eqb_spec k' k) as [->|N].
    + destruct (last_value h k) eqn:E; [specialize (IH k _ E); lia|lia].
    + specialize (IH k v H). lia.
  - destruct (String.eqb_spec k' k); [discriminate|]. specialize (IH k v H). lia.
  - destruct (String.eqb_spec k' k); [discriminate|]. specialize (IH k v H). lia.
  - discriminate.
Qed.

Lemma NoDup_snoc : forall A (l : list A) x, NoDup l -> ~ In x l -> NoDup (l ++ [x]).
Proof.
  induction l as [|y l IH]; cbn; intros x H N; [constructor; [tauto|constructor]|].
  inversion H; subst. constructor.
  - intros G. apply in_app_or in G as [G|[G|[]]]; [tauto|subst; tauto].
  - apply IH; tauto.
Qed.

Lemma Sorted_snoc : forall A (R : A -> A -> Prop) l x,
  StronglySorted R l -> (forall y, In y l -> R y x) -> StronglySorted R (l ++ [x]).
Proof.
  induction l as [|y l IH]; cbn; intros x H G; [repeat constructor|].
  inversion H as [|u w Hs Hf]; subst. constructor.
  - apply IH; auto.
  - apply Forall_app. split; [exact Hf|]. constructor; [now apply G; left|constructor].
Qed.

Lemma Sorted_ext : forall A (R S : A -> A -> Prop) l,
  (forall x y, In x l -> In y l -> R x y -> S x y) -> StronglySorted R l -> StronglySorted S l.
Proof.
  induction l as [|x l IH]; intros H G; [constructor|].
  inversion G as [|u w Hs Hf]; subst. constructor.
  - apply IH; [|exact Hs]. intros a b Ha Hb. apply H; now right.
  - rewrite Forall_forall in *. intros y Hy. apply H; [now left|now right|auto].
Qed.

Lemma Sorted_filter : forall A (R : A -> A -> Prop) f l,
  StronglySorted R l -> StronglySorted R (filter f l).
Proof.
  induction l as [|x l IH]; cbn; intros G; [constructor|].
  inversion G as [|u w Hs Hf]; subst. destruct (f x); [|now apply IH]. constructor; [now apply IH|].
  rewrite Forall_forall in *. intros y Hy. apply filter_In in Hy as [Hy _]. auto.
Qed.

Lemma run_ops_inv : forall h,
  NoDup (map fst (run_ops h)) /\
  (forall k, ifind (run_ops h) k = last_value h k) /\
  StronglySorted (fun a b => birth h a < birth h b) (map fst (run_ops h)).
Proof.
  induction h as [|o h (ND & F & S)].
  { cbn. repeat split; constructor. }
  assert (LT : forall k, In k (map fst (run_ops h)) -> birth h k < List.length h).
  { intros k Hk. apply ifind_Some_In in Hk as [v Hv]. rewrite F in Hv. now apply birth_lt with v. }
  assert (ER : forall k,
    NoDup (map fst (ierase (run_ops h) k)) /\
    (forall k', ifind (ierase (run_ops h) k) k' = if String.eqb k k' then None else last_value h k') /\
    StronglySorted (fun a b => birth h a < birth h b) (map fst (ierase (run_ops h) k))).
  { intros k. rewrite ierase_keys. split; [now apply NoDup_filter|]. split.
    - intros k'. rewrite ierase_find, F. reflexivity.
    - now apply Sorted_filter. }
  destruct o as [k v|k|k|].
  - cbn [run_ops apply_op]. split; [|split].
    + rewrite iset_keys. destruct (existsb (String.eqb k) (map fst (run_ops h))) eqn:E; [exact ND|].
      apply NoDup_snoc; [exact ND|]. intros G. apply existsb_In in G. congruence.
    + intros k'. rewrite iset_find. cbn. destruct (String.eqb k k'); [reflexivity|apply F].
    + rewrite iset_keys. destruct (existsb (String.eqb k) (map fst (run_ops h))) eqn:E.
      * apply existsb_In in E. apply ifind_Some_In in E as [w Hw]. rewrite F in Hw.
        eapply Sorted_ext; [|exact S]. intros x y Hx Hy. cbn.
        destruct (String.eqb_spec k x) as [Ex|Nx]; destruct (String.eqb_spec k y) as [Ey|Ny]; subst; rewrite ?Hw; auto.
      * assert (NI : ~ In k (map fst (run_ops h))).
        { intros G. apply existsb_In in G. congruence. }
        apply Sorted_snoc.
        -- eapply Sorted_ext; [|exact S]. intros x y Hx Hy. cbn.
           destruct (String.eqb_spec k x) as [Ex|Nx]; [subst; tauto|].
           destruct (String.eqb_spec k y) as [Ey|Ny]; [subst; tauto|auto].
        -- intros y Hy. cbn. rewrite String.eqb_refl.
           destruct (String.eqb_spec k y) as [Ey|Ny]; [subst; tauto|].
           apply ifind_None in NI. rewrite F in NI. rewrite NI. auto.
  - exact (ER k).
  - cbn [run_ops apply_op]. rewrite iclaim_snd by exact ND. exact (ER k).
  - cbn. repeat split; constructor.
Qed.

Lemma sorted_before : forall (f : string -> nat) l a b,
  StronglySorted (fun a b => f a < f b) l -> before l a b -> f a < f b.
Proof.
  intros f l a b H (p & q & r & ->). induction p as [|x p IH]; cbn in H.
  - inversion H as [|u w Hs Hf]; subst. rewrite Forall_forall in Hf. apply Hf.
    apply in_or_app. right. now left.
  - inversion H; subst. now apply IH.
Qed.

(** Object members *)
Lemma has_key_spec : forall s e, has_key s e = true <-> string_key e = Some s.
Proof.
  intros s e. unfold has_key. destruct (string_key e) as [k|]; [|split; discriminate].
  rewrite String.eqb_eq. split; [now intros ->|now intros [=]].
Qed.

Lemma member_keys_app : forall a b, member_keys (a ++ b) = (member_keys a ++ member_keys b)%list.
Proof. intros a b. unfold member_keys. apply flat_map_app. Qed.

Lemma remove_first_split : forall p l x, find p l = Some x ->
  exists a b, l = (a ++ x :: b)%list /\ remove_first p l = (a ++ b)%list /\ p x = true /\ (forall y, In y a -> p y = false).
Proof.
  induction l as [|y l IH]; cbn; intros x H; [discriminate|].
  destruct (p y) eqn:E.
  - injection H as ->. exists [], l. cbn. repeat split; auto. intros ? [].
  - destruct (IH x H) as (a & b & -> & R & P & N). exists (y :: a), b. cbn. rewrite R.
    repeat split; auto. intros z [->|Hz]; auto.
Qed.

Lemma remove_first_none : forall p l, find p l = None -> remove_first p l = l.
Proof.
  induction l as [|y l IH]; cbn; intros H; [reflexivity|].
  destruct (p y); [discriminate|]. now rewrite IH.
Qed.

Lemma find_key_none : forall s l, find (has_key s) l = None <-> ~ In s (member_keys l).
Proof.
  intros s l. split.
  - intros H G. unfold member_keys in G. rewrite in_flat_map in G. destruct G as (e & He & G).
    assert (H' := find_none _ _ H e He).
    destruct (string_key e) as [k|] eqn:E; cbn in G; [|tauto]. destruct G as [->|[]].
    apply has_key_spec in E. congruence.
  - intros H. destruct (find (has_key s) l) as [e|] eqn:E; [|reflexivity]. exfalso. apply H.
    apply find_some in E as [He E]. apply has_key_spec in E. apply in_flat_map. exists e.
    split; [exact He|]. rewrite E. now left.
Qed.

Lemma NoDup_remove_mid : forall A (a b : list A) k, NoDup (a ++ k :: b) -> NoDup (a ++ b) /\ ~ In k (a ++ b).
Proof. intros A a b k H. apply NoDup_remove in H. exact H. Qed.

(** removing the entry found by key: what remains *)
Lemma remove_key : forall s l, NoDup (member_keys l) ->
  NoDup (member_keys (remove_first (has_key s) l)) /\
  ~ In s (member_keys (remove_first (has_key s) l)) /\
  remove_first (has_key s) l = filter (fun e => negb (has_key s e)) l.
Proof.
  intros s l ND. destruct (find (has_key s) l) as [e|] eqn:E.
  - apply remove_first_split in E as (a & b & -> & R & P & N). rewrite R.
    apply has_key_spec in P.
    assert (K : member_keys (a ++ e :: b) = (member_keys a ++ s :: member_keys b)%list).
    { rewrite member_keys_app. cbn. now rewrite P. }
    rewrite K in ND. apply NoDup_remove_mid in ND as [ND NI].
    rewrite member_keys_app. repeat split; auto.
    rewrite filter_app. cbn. rewrite (proj2 (has_key_spec s e) P). cbn. f_equal.
    + symmetry. apply filter_id. intros y Hy. now rewrite (N y Hy).
    + symmetry. apply filter_id. intros y Hy. destruct (has_key s y) eqn:F; [|reflexivity].
      exfalso. apply NI. apply in_or_app. right. apply has_key_spec in F. apply in_flat_map.
      exists y. split; [exact Hy|]. rewrite F. now left.
  - rewrite remove_first_none by exact E. assert (NI := E). apply find_key_none in NI.
    repeat split; auto. symmetry. apply filter_id. intros y Hy.
    destruct (has_key s y) eqn:F; [|reflexivity]. assert (E' := find_none _ _ E y Hy). congruence.
Qed.
