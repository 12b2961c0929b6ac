From Coq Require Import Permutation.
From Verif Require Import Base SoValue SoValueSpec SoValueProofs PatternSpec SchemaSpec.

Lemma allP_iff : forall A (f : A -> Prop) l, allP f l <-> Forall f l.
Proof. intros A f l. induction l as [|x l IH]; cbn; [split; constructor|]. rewrite Forall_cons_iff. now rewrite <- IH. Qed.
Lemma anyP_iff : forall A (f : A -> Prop) l, anyP f l <-> Exists f l.
Proof. intros A f l. induction l as [|x l IH]; cbn; [split; [tauto|intros H; inversion H]|]. rewrite Exists_cons. now rewrite <- IH. Qed.

Lemma allP_in : forall A (f : A -> Prop) l, allP f l <-> forall x, In x l -> f x.
Proof. intros. rewrite allP_iff. apply Forall_forall. Qed.
Lemma anyP_in : forall A (f : A -> Prop) l, anyP f l <-> exists x, In x l /\ f x.
Proof. intros. rewrite anyP_iff. apply Exists_exists. Qed.

(** one keyword *)
Definition kw (kws : list (string * value)) (v : value) (kx : string * value) : Prop :=
  let '(k, x) := kx in
      if String.eqb k "type" then match x with VString t => of_type t v | _ => False end
      else if String.eqb k "const" then same v x
      else if String.eqb k "enum" then match x with VArray xs => exists y, In y xs /\ same v y | _ => False end
      else if String.eqb k "minItems" then
        match v, x with VArray vs, VNumber s => exists n, reads s n /\ (n <= N.of_nat (List.length vs))%N | VArray _, _ => False | _, _ => True end
      else if String.eqb k "maxItems" then
        match v, x with VArray vs, VNumber s => exists n, reads s n /\ (N.of_nat (List.length vs) <= n)%N | VArray _, _ => False | _, _ => True end
      else if String.eqb k "items" then
        match v with
        | VArray vs => match x with VArray ss => zipP valid ss vs | _ => allP (valid x) vs end
        | _ => True
        end
      else if String.eqb k "additionalItems" then
        match v with
        | VArray vs => forall ss, has kws "items" (VArray ss) -> allP (valid x) (skipn (List.length ss) vs)
        | _ => True
        end
      else if String.eqb k "properties" then
        match v, x with
        | VObject ms, VObject ps => allP (fun p => allP (fun m => fst m = fst p -> valid (snd p) (snd m)) ms) ps
        | VObject _, _ => False
        | _, _ => True
        end
      else if String.eqb k "patternProperties" then
        match v, x with
        | VObject ms, VObject ps => allP (fun p => allP (fun m => found (fst p) (fst m) -> valid (snd p) (snd m)) ms) ps
        | VObject _, _ => False
        | _, _ => True
        end
      else if String.eqb k "additionalProperties" then
        match v with
        | VObject ms => allP (fun m => additional kws (fst m) -> valid x (snd m)) ms
        | _ => True
        end
      else if String.eqb k "required" then
        match v, x with
        | VObject ms, VArray ns => forall n, In n ns -> exists s, n = VString s /\ In s (map fst ms)
        | VObject _, _ => False
        | _, _ => True
        end
      else if String.eqb k "allOf" then match x with VArray ss => allP (fun s => valid s v) ss | _ => False end
      else if String.eqb k "anyOf" then match x with VArray ss => anyP (fun s => valid s v) ss | _ => False end
      else if String.eqb k "oneOf" then match x with VArray ss => oneP (fun s => valid s v) ss | _ => False end
      else True.
Lemma valid_obj : forall kws v, valid (VObject kws) v <-> Forall (kw kws v) kws.
Proof. intros. rewrite <- allP_iff. reflexivity. Qed.

(** the same schema, up to the order of members, accepts the same values *)
Definition sameP (s : value) : Prop := forall s', same s s' -> forall v, valid s v <-> valid s' v.
Definition alike (xs ys : list (string * value)) : Prop := exists ys', Permutation ys' ys /\
  Forall2 (fun a b => fst a = fst b /\ same (snd a) (snd b)) xs ys'.
Lemma alike_has : forall xs ys k x, alike xs ys -> has xs k x -> exists y, has ys k y /\ same x y.
Proof.
  intros xs ys k x (ys' & P & F) H. unfold has in *. assert (G : exists y, In (k, y) ys' /\ same x y).
  { clear P. induction F as [|[k1 x1] [k2 y2] xs ys' [E S] F IH]; [destruct H|]. cbn in E, S. subst k2. destruct H as [H|H].
    - injection H as -> ->. exists y2. split; [now left|exact S].
    - destruct (IH H) as (y & Hy & Sy). exists y. split; [now right|exact Sy]. }
  destruct G as (y & Hy & Sy). exists y. split; [|exact Sy]. now apply (Permutation_in _ P).
Qed.
Lemma alike_sym : forall xs ys, alike xs ys -> alike ys xs.
Proof.
  intros xs ys (ys' & P & F). assert (S : same (VObject ys) (VObject xs)).
  { apply same_sym. now apply (same_object _ _ ys'). }
  inversion S as [| | | | |? ? zs P' F'|]; subst. now exists zs.
Qed.
Lemma alike_names : forall xs ys, alike xs ys -> forall n, In n (map fst xs) <-> In n (map fst ys).
Proof.
  assert (G : forall xs ys, alike xs ys -> forall n, In n (map fst xs) -> In n (map fst ys)).
  { intros xs ys A n H. apply in_map_iff in H as ([k x] & <- & H). destruct (alike_has _ _ k x A H) as (y & Hy & _).
    apply in_map_iff. now exists (k, y). }
  intros xs ys A n. split; [now apply G|apply G; now apply alike_sym].
Qed.
Lemma same_obj_inv : forall xs s, same (VObject xs) s -> exists ys, s = VObject ys /\ alike xs ys.
Proof. intros xs s S. inversion S; subst. eexists. split; [reflexivity|]. now exists ys'. Qed.
Lemma same_arr_inv : forall xs s, same (VArray xs) s -> exists ys, s = VArray ys /\ Forall2 same xs ys.
Proof. intros xs s S. inversion S; subst. eauto. Qed.
Lemma alike_additional1 : forall xs ys, alike xs ys -> forall n, additional xs n -> additional ys n.
Proof.
  intros xs ys A n (P & Q). apply alike_sym in A. split.
  - intros ps H. destruct (alike_has _ _ _ _ A H) as (y & Hy & S). apply same_obj_inv in S as (qs & -> & B).
    intros I. apply (P qs Hy). now apply (alike_names _ _ B).
  - intros ps p H I. destruct (alike_has _ _ _ _ A H) as (y & Hy & S). apply same_obj_inv in S as (qs & -> & B).
    apply (Q qs p Hy). now apply (alike_names _ _ B).
Qed.
Lemma alike_additional : forall xs ys, alike xs ys -> forall n, additional xs n <-> additional ys n.
Proof. intros xs ys A n. split; [now apply alike_additional1|]. apply alike_additional1. now apply alike_sym. Qed.

Lemma allP_ext2 : forall A B (R : A -> B -> Prop) (f : A -> Prop) (g : B -> Prop) xs ys, Forall2 R xs ys ->
  (forall x y, In x xs -> R x y -> (f x <-> g y)) -> (allP f xs <-> allP g ys).
Proof.
  intros A B R f g xs ys F. induction F as [|x y xs ys H F IH]; intros E; cbn; [tauto|].
  rewrite (E x y (or_introl eq_refl) H), IH; [tauto|]. intros; apply E; auto. now right.
Qed.
Lemma anyP_ext2 : forall A B (R : A -> B -> Prop) (f : A -> Prop) (g : B -> Prop) xs ys, Forall2 R xs ys ->
  (forall x y, In x xs -> R x y -> (f x <-> g y)) -> (anyP f xs <-> anyP g ys).
Proof.
  intros A B R f g xs ys F. induction F as [|x y xs ys H F IH]; intros E; cbn; [tauto|].
  rewrite (E x y (or_introl eq_refl) H), IH; [tauto|]. intros; apply E; auto. now right.
Qed.
Lemma noneP_ext2 : forall A B (R : A -> B -> Prop) (f : A -> Prop) (g : B -> Prop) xs ys, Forall2 R xs ys ->
  (forall x y, In x xs -> R x y -> (f x <-> g y)) -> (noneP f xs <-> noneP g ys).
Proof.
  intros A B R f g xs ys F. induction F as [|x y xs ys H F IH]; intros E; cbn; [tauto|].
  rewrite (E x y (or_introl eq_refl) H), IH; [tauto|]. intros; apply E; auto. now right.
Qed.
Lemma oneP_ext2 : forall A B (R : A -> B -> Prop) (f : A -> Prop) (g : B -> Prop) xs ys, Forall2 R xs ys ->
  (forall x y, In x xs -> R x y -> (f x <-> g y)) -> (oneP f xs <-> oneP g ys).
Proof.
  intros A B R f g xs ys F. induction F as [|x y xs ys H F IH]; intros E; cbn; [tauto|].
  rewrite (E x y (or_introl eq_refl) H), IH, (noneP_ext2 _ _ R f g xs ys); [tauto|exact F| |]; intros; apply E; auto; now right.
Qed.
Lemma zipP_ext2 : forall A B C (R : A -> B -> Prop) (f : A -> C -> Prop) (g : B -> C -> Prop) xs ys, Forall2 R xs ys ->
  (forall x y, In x xs -> R x y -> forall c, f x c <-> g y c) -> forall cs, zipP f xs cs <-> zipP g ys cs.
Proof.
  intros A B C R f g xs ys F. induction F as [|x y xs ys H F IH]; intros E [|c cs]; cbn; try tauto.
  rewrite (E x y (or_introl eq_refl) H), IH; [tauto|]. intros; apply E; auto. now right.
Qed.
Lemma allP_ext : forall A (f g : A -> Prop) xs, (forall x, In x xs -> (f x <-> g x)) -> (allP f xs <-> allP g xs).
Proof. intros A f g xs E. rewrite !allP_in. split; intros H x Hx; apply E; auto. Qed.
Lemma allP_perm : forall A (f : A -> Prop) xs ys, Permutation xs ys -> (allP f xs <-> allP f ys).
Proof.
  intros A f xs ys P. rewrite !allP_in. split; intros H x Hx; apply H; [apply (Permutation_in _ (Permutation_sym P))|apply (Permutation_in _ P)]; exact Hx.
Qed.
Lemma allP_alike : forall (f g : string * value -> Prop) xs ys, alike xs ys ->
  (forall k x y, In (k, x) xs -> same x y -> (f (k, x) <-> g (k, y))) -> (allP f xs <-> allP g ys).
Proof.
  intros f g xs ys (zs & P & F) E. rewrite <- (allP_perm _ g _ _ P). apply (allP_ext2 _ _ _ _ _ _ _ F).
  intros [k x] [k' y] Hx [H1 H2]. cbn in H1, H2. subst k'. now apply E.
Qed.

Definition nested (s : value) : Prop := sameP s /\ (forall ms, s = VObject ms -> Forall (fun kv => sameP (snd kv)) ms) /\
  (forall vs, s = VArray vs -> Forall sameP vs).

Lemma same_not_arr : forall x y, same x y -> (forall ss, x <> VArray ss) -> forall ss, y <> VArray ss.
Proof. intros x y S H ss ->. apply same_sym, same_arr_inv in S as (xs & -> & _). now apply (H xs). Qed.

Lemma kw_same : forall xs ys v k x y, alike xs ys -> same x y -> nested x -> (kw xs v (k, x) <-> kw ys v (k, y)).
Proof.
  intros xs ys v k x y A S (N & No & Na). unfold kw.
  destruct (String.eqb k "type"); [destruct S; tauto|].
  destruct (String.eqb k "const"); [split; intros H; [now apply (same_trans _ x)|apply (same_trans _ y); [exact H|now apply same_sym]]|].
  destruct (String.eqb k "enum").
  { destruct S as [| | | | | |ss ts F]; try tauto. split.
    - intros (z & Hz & Sz). clear -Hz Sz F. induction F as [|a b ss ts H F IH]; [destruct Hz|]. destruct Hz as [->|Hz].
      + exists b. split; [now left|]. now apply (same_trans _ z).
      + destruct (IH Hz) as (w & Hw & Sw). exists w. split; [now right|exact Sw].
    - intros (z & Hz & Sz). clear -Hz Sz F. induction F as [|a b ss ts H F IH]; [destruct Hz|]. destruct Hz as [->|Hz].
      + exists a. split; [now left|]. apply (same_trans _ z); [exact Sz|now apply same_sym].
      + destruct (IH Hz) as (w & Hw & Sw). exists w. split; [now right|exact Sw]. }
  destruct (String.eqb k "minItems"); [destruct S; tauto|].
  destruct (String.eqb k "maxItems"); [destruct S; tauto|].
  destruct (String.eqb k "items").
  { destruct v; try tauto. 
    assert (D : (exists ss, x = VArray ss) \/ (forall ss, x <> VArray ss)) by (destruct x; try (right; discriminate); left; eauto).
    destruct D as [[ss ->]|D].
    - destruct (same_arr_inv _ _ S) as (ts & -> & F). specialize (Na ss eq_refl). rewrite Forall_forall in Na.
      apply (zipP_ext2 _ _ _ same); [exact F|]. intros a b Ha Hab c. now apply Na.
    - assert (E := same_not_arr _ _ S D).
      assert (G : allP (valid x) vs <-> allP (valid y) vs) by (apply allP_ext; intros; now apply N).
      destruct x; try (exfalso; now apply (D vs0)); destruct y; try (exfalso; now apply (E vs0)); exact G. }
  destruct (String.eqb k "additionalItems").
  { destruct v; try tauto. split; intros H ss Hs.
    - destruct (alike_has _ _ _ _ (alike_sym _ _ A) Hs) as (z & Hz & Sz). destruct (same_arr_inv _ _ Sz) as (ts & -> & F).
      specialize (H ts Hz). apply Forall2_len in F. rewrite F. revert H. apply allP_ext. intros c _. symmetry. now apply N.
    - destruct (alike_has _ _ _ _ A Hs) as (z & Hz & Sz). destruct (same_arr_inv _ _ Sz) as (ts & -> & F).
      specialize (H ts Hz). apply Forall2_len in F. rewrite F. revert H. apply allP_ext. intros c _. now apply N. }
  destruct (String.eqb k "properties").
  { destruct v; try tauto. destruct S as [| | | | |ps qs qs' P F|]; try tauto.
    apply allP_alike; [now exists qs'|]. intros k' a b Ha Hab. apply allP_ext. intros m _. cbn.
    specialize (No ps eq_refl). rewrite Forall_forall in No. specialize (No _ Ha b Hab (snd m)). cbn in No. tauto. }
  destruct (String.eqb k "patternProperties").
  { destruct v; try tauto. destruct S as [| | | | |ps qs qs' P F|]; try tauto.
    apply allP_alike; [now exists qs'|]. intros k' a b Ha Hab. apply allP_ext. intros m _. cbn.
    specialize (No ps eq_refl). rewrite Forall_forall in No. specialize (No _ Ha b Hab (snd m)). cbn in No. tauto. }
  destruct (String.eqb k "additionalProperties").
  { destruct v; try tauto. apply allP_ext. intros m _. rewrite (alike_additional _ _ A). specialize (N y S (snd m)). tauto. }
  destruct (String.eqb k "required").
  { destruct v; try tauto. destruct S as [| | | | | |ss ts F]; try tauto.
    assert (E : forall a b, same a b -> ((exists s, a = VString s /\ In s (map fst ms)) <-> (exists s, b = VString s /\ In s (map fst ms)))).
    { intros a b Hab. split; intros (s & -> & Hs); inversion Hab; subst; eauto. }
    clear -E F. induction F as [|a b ss ts H F IH]; [tauto|]. cbn. split; intros G n [<-|Hn].
    - apply (E a b H), G. now left.
    - apply (proj1 IH); [|exact Hn]. intros z Hz. apply G. now right.
    - apply (E a b H), G. now left.
    - apply (proj2 IH); [|exact Hn]. intros z Hz. apply G. now right. }
  destruct (String.eqb k "allOf").
  { destruct S as [| | | | | |ss ts F]; try tauto. specialize (Na ss eq_refl). rewrite Forall_forall in Na.
    apply (allP_ext2 _ _ same); [exact F|]. intros a b Ha Hab. now apply Na. }
  destruct (String.eqb k "anyOf").
  { destruct S as [| | | | | |ss ts F]; try tauto. specialize (Na ss eq_refl). rewrite Forall_forall in Na.
    apply (anyP_ext2 _ _ same); [exact F|]. intros a b Ha Hab. now apply Na. }
  destruct (String.eqb k "oneOf"); [|tauto].
  destruct S as [| | | | | |ss ts F]; try tauto. specialize (Na ss eq_refl). rewrite Forall_forall in Na.
  apply (oneP_ext2 _ _ same); [exact F|]. intros a b Ha Hab. now apply Na.
Qed.

Lemma all_nested : forall s, nested s.
Proof.
  induction s as [ | | | | |ms IH|vs IH] using value_ind'; (split; [|split; intros ? E; try discriminate E]).
  1-5: intros s' S v; destruct s'; inversion S; subst; tauto.
  - intros s' S v. destruct (same_obj_inv _ _ S) as (ys & -> & A). change (allP (kw ms v) ms <-> allP (kw ys v) ys).
    apply allP_alike; [exact A|]. intros k x y Hx Hxy. apply kw_same; [exact A|exact Hxy|].
    rewrite Forall_forall in IH. exact (IH _ Hx).
  - injection E as <-. rewrite Forall_forall in *. intros kv H. apply (IH kv H).
  - intros s' S v. destruct (same_arr_inv _ _ S) as (ys & -> & F). tauto.
  - injection E as <-. rewrite Forall_forall in *. intros kv H. apply (IH kv H).
Qed.
Theorem valid_same : forall s s' v, same s s' -> (valid s v <-> valid s' v).
Proof. intros s s' v S. destruct (all_nested s) as [N _]. now apply N. Qed.
