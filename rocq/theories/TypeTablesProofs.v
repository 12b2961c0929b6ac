(** Lemmas about the tables of named types *)
From Verif Require Import Base TypeTables TypeTablesSpec.

Lemma cmp_refl : forall x, String.compare x x = Eq.
Proof. induction x as [|a x IH]; cbn; [reflexivity|]. unfold Ascii.compare. now rewrite N.compare_refl. Qed.
Lemma in_insert : forall s x y, In x (s_insert y s) <-> x = y \/ In x s.
Proof.
  induction s as [|z s IH]; intros x y; cbn.
  - intuition.
  - destruct (String.compare y z) eqn:E; cbn.
    + apply String.compare_eq_iff in E. subst z. intuition.
    + intuition.
    + rewrite IH. intuition.
Qed.
Lemma in_union : forall b a x, In x (s_union a b) <-> In x a \/ In x b.
Proof.
  unfold s_union. induction b as [|y b IH]; intros a x; cbn.
  - intuition.
  - rewrite IH, in_insert. intuition.
Qed.
Lemma mem_in : forall x s, s_mem x s = true <-> In x s.
Proof.
  intros x s. unfold s_mem. rewrite existsb_exists. split.
  - intros (y & H & E). apply String.eqb_eq in E. now subst.
  - intros H. exists x. split; [exact H|apply String.eqb_refl].
Qed.
Lemma mem_not : forall x s, s_mem x s = false <-> ~ In x s.
Proof. intros x s. rewrite <- mem_in. destruct (s_mem x s); intuition congruence. Qed.

Lemma find_set : forall {V} (m : list (string * V)) k v x, m_find (m_set m k v) x = if String.eqb x k then Some v else m_find m x.
Proof.
  induction m as [|[y w] m IH]; intros k v x; cbn.
  - reflexivity.
  - destruct (String.compare k y) eqn:E; cbn.
    + apply String.compare_eq_iff in E. subst y. now destruct (String.eqb x k).
    + reflexivity.
    + rewrite IH. destruct (String.eqb x y) eqn:E1; [|reflexivity].
      apply String.eqb_eq in E1. subst y. destruct (String.eqb x k) eqn:E2; [|reflexivity].
      apply String.eqb_eq in E2. subst k. now rewrite cmp_refl in E.
Qed.
Lemma find_in : forall {V} (m : list (string * V)) k v, m_find m k = Some v -> In (k, v) m.
Proof.
  induction m as [|[y w] m IH]; intros k v H; cbn in *; [discriminate|].
  destruct (String.eqb k y) eqn:E; [|right; auto]. apply String.eqb_eq in E. left. congruence.
Qed.
Lemma find_none : forall {V} (m : list (string * V)) k v, m_find m k = None -> In (k, v) m -> False.
Proof.
  induction m as [|[y w] m IH]; intros k v H I; cbn in *; [exact I|].
  destruct (String.eqb k y) eqn:E; [discriminate|]. apply String.eqb_neq in E.
  destruct I as [I|I]; [congruence|eauto].
Qed.
Lemma in_set : forall {V} (m : list (string * V)) k v a b, In (a, b) (m_set m k v) -> (a = k /\ b = v) \/ In (a, b) m.
Proof.
  induction m as [|[y w] m IH]; intros k v a b H; cbn in *.
  - destruct H as [H|[]]. left. now inversion H.
  - destruct (String.compare k y) eqn:E; cbn in H.
    + destruct H as [H|H]; [left; now inversion H|]. right. now right.
    + destruct H as [H|H]; [left; now inversion H|]. now right.
    + destruct H as [H|H]; [right; now left|]. destruct (IH _ _ _ _ H); intuition.
Qed.
Lemma set_in : forall {V} (m : list (string * V)) k v a b, m_find m k = None -> In (a, b) m -> In (a, b) (m_set m k v).
Proof.
  induction m as [|[y w] m IH]; intros k v a b N H; cbn in *; [destruct H|].
  destruct (String.eqb k y) eqn:E0; [discriminate|]. apply String.eqb_neq in E0.
  destruct (String.compare k y) eqn:E; cbn.
  - now apply String.compare_eq_iff in E.
  - now right.
  - destruct H as [H|H]; [now left|right; auto].
Qed.
Lemma set_has : forall {V} (m : list (string * V)) k v, In (k, v) (m_set m k v).
Proof. intros V m k v. apply find_in. rewrite find_set, String.eqb_refl. reflexivity. Qed.

Lemma entry_set : forall d k v x, entry (m_set d k v) x = if String.eqb x k then v else entry d x.
Proof. intros. unfold entry. rewrite find_set. now destruct (String.eqb x k). Qed.
Lemma entry_touch : forall d k x, entry (touch d k) x = entry d x.
Proof.
  intros d k x. unfold touch. destruct (m_find d k) eqn:E; [reflexivity|]. rewrite entry_set.
  destruct (String.eqb x k) eqn:E1; [|reflexivity]. apply String.eqb_eq in E1. subst. unfold entry. now rewrite E.
Qed.
Lemma entry_known : forall d k x, In x (entry d k) -> m_find d k <> None.
Proof. intros d k x H E. unfold entry in H. rewrite E in H. exact H. Qed.
Lemma find_touch : forall d k x, m_find (touch d k) x <> None <-> m_find d x <> None \/ x = k.
Proof.
  intros d k x. unfold touch. destruct (m_find d k) eqn:E.
  - split; [tauto|]. intros [H| ->]; [exact H|congruence].
  - rewrite find_set. destruct (String.eqb x k) eqn:E1.
    + apply String.eqb_eq in E1. subst. intuition congruence.
    + apply String.eqb_neq in E1. intuition.
Qed.

Lemma reaches_trans : forall R a b c, reaches R a b -> reaches R b c -> reaches R a c.
Proof. intros R a b c H. induction H; intros H1; eauto using reach_more. Qed.
Lemma reaches_snoc : forall R a b c, reaches R a b -> R b c -> reaches R a c.
Proof. intros R a b c H H1. eapply reaches_trans; [exact H|now apply reach_one]. Qed.
Lemma reaches_mono : forall (R S : string -> string -> Prop) a b, (forall x y, R x y -> S x y) -> reaches R a b -> reaches S a b.
Proof. intros R S a b H Hr. induction Hr; eauto using reach_one, reach_more. Qed.
Lemma reaches_closed : forall (R : string -> string -> Prop) a b,
  (forall x y z, R x y -> R y z -> R x z) -> reaches R a b -> R a b.
Proof. intros R a b H Hr. induction Hr; eauto. Qed.

(** resolving the dependency table *)
Section Resolve.
Context (d0 : list (string * list string)).
Let R := states d0.

Definition between (d : list (string * list string)) : Prop :=
  (forall k x, In x (entry d k) -> reaches R k x) /\ (forall k x, R k x -> In x (entry d k)).

Definition bigger (d d' : list (string * list string)) : Prop :=
  (forall k x, In x (entry d k) -> In x (entry d' k)) /\ (forall k, m_find d k <> None -> m_find d' k <> None).
Lemma bigger_refl : forall d, bigger d d. Proof. split; auto. Qed.
Lemma bigger_trans : forall a b c, bigger a b -> bigger b c -> bigger a c.
Proof. intros a b c [H1 H2] [H3 H4]. split; auto. Qed.

Definition step (id : string) (d : list (string * list string)) (x : string) : list (string * list string) :=
  let d := touch d x in m_set d id (s_union (entry d id) (entry d x)).
Lemma step_entry : forall id d x k y, In y (entry (step id d x) k) <-> In y (entry d k) \/ (k = id /\ In y (entry d x)).
Proof.
  intros id d x k y. unfold step. rewrite entry_set, !entry_touch.
  destruct (String.eqb k id) eqn:E.
  - apply String.eqb_eq in E. subst. rewrite in_union. intuition.
  - apply String.eqb_neq in E. intuition.
Qed.
Lemma step_bigger : forall id d x, bigger d (step id d x).
Proof.
  intros id d x. split.
  - intros k y H. rewrite step_entry. now left.
  - intros k H. unfold step. rewrite find_set. destruct (String.eqb k id); [discriminate|]. rewrite find_touch. now left.
Qed.
Lemma steps_bigger : forall id l d, bigger d (fold_left (step id) l d).
Proof. induction l as [|x l IH]; intros d; cbn; [apply bigger_refl|]. eapply bigger_trans; [apply step_bigger|apply IH]. Qed.
Lemma steps_has : forall id l d x y, In x l -> In y (entry d x) -> In y (entry (fold_left (step id) l d) id).
Proof.
  induction l as [|z l IH]; intros d x y Hx Hy; cbn; [destruct Hx|].
  destruct Hx as [->|Hx].
  - apply steps_bigger. rewrite step_entry. now right.
  - apply (IH _ x); [exact Hx|]. now apply step_bigger.
Qed.
Lemma steps_sound : forall id l d, between d -> (forall x, In x l -> reaches R id x) -> between (fold_left (step id) l d).
Proof.
  induction l as [|z l IH]; intros d [B1 B2] Hl; cbn; [now split|].
  apply IH; [|intros x Hx; apply Hl; now right]. split.
  - intros k x H. apply step_entry in H as [H|[-> H]]; [auto|]. eapply reaches_trans; [apply Hl; now left|auto].
  - intros k x H. apply step_entry. left. auto.
Qed.
Lemma steps_others : forall id l d k, k <> id -> entry (fold_left (step id) l d) k = entry d k.
Proof.
  induction l as [|z l IH]; intros d k Hk; cbn; [reflexivity|]. rewrite IH by exact Hk.
  unfold step. rewrite entry_set. apply String.eqb_neq in Hk. now rewrite Hk, entry_touch.
Qed.

Lemma step_known : forall id d x k, m_find (step id d x) k <> None <-> m_find d k <> None \/ k = id \/ k = x.
Proof.
  intros id d x k. unfold step. rewrite find_set. destruct (String.eqb k id) eqn:E.
  - apply String.eqb_eq in E. split; [tauto|discriminate].
  - apply String.eqb_neq in E. rewrite find_touch. tauto.
Qed.
Lemma steps_known : forall id l d k, m_find (fold_left (step id) l d) k <> None -> m_find d k <> None \/ k = id \/ In k l.
Proof.
  induction l as [|x l IH]; intros d k H; cbn in *; [now left|].
  destruct (IH _ _ H) as [G|[G|G]]; [|tauto|tauto]. apply step_known in G. intuition.
Qed.
Lemma steps_touch : forall id l d k, In k l -> m_find (fold_left (step id) l d) k <> None.
Proof.
  induction l as [|x l IH]; intros d k H; cbn in *; [destruct H|]. destruct H as [->|H]; [|now apply IH].
  apply steps_bigger, step_known. tauto.
Qed.
(** every key is an old one or was reached *)
Definition keyed (d : list (string * list string)) : Prop :=
  forall k, m_find d k <> None -> m_find d0 k <> None \/ exists j, reaches R j k.

Lemma round_steps : forall d id, round d id = fold_left (step id) (entry d id) (touch d id).
Proof. reflexivity. Qed.
Lemma touch_bigger : forall d k, bigger d (touch d k).
Proof.
  intros d k. split; intros j.
  - intros x H. now rewrite entry_touch.
  - intros H. apply find_touch. now left.
Qed.
Lemma round_bigger : forall d id, bigger d (round d id).
Proof. intros d id. rewrite round_steps. eapply bigger_trans; [apply touch_bigger|apply steps_bigger]. Qed.
Lemma round_between : forall d id, between d -> between (round d id).
Proof.
  intros d id [B1 B2]. rewrite round_steps. apply steps_sound.
  - split; intros k x; rewrite entry_touch; auto.
  - intros x H. auto.
Qed.

Lemma round_keyed : forall d id, between d -> keyed d -> m_find d0 id <> None -> keyed (round d id).
Proof.
  intros d id [B1 B2] K I k H. rewrite round_steps in H. apply steps_known in H as [H|[->|H]].
  - apply find_touch in H as [H| ->]; auto.
  - now left.
  - right. exists id. auto.
Qed.

Lemma round_closed : forall d id, between d -> forallb (fun x => s_mem x (entry d id)) (entry (round d id) id) = true ->
  forall x, reaches R id x -> In x (entry d id).
Proof.
  intros d id [B1 B2] H x Hr.
  assert (C : forall y z, In y (entry d id) -> R y z -> In z (entry d id)).
  { intros y z Hy Hz. rewrite forallb_forall in H. apply mem_in, H. rewrite round_steps.
    apply (steps_has _ _ _ y); [exact Hy|]. rewrite entry_touch. now apply B2. }
  assert (D : forall y, In y (entry d id) -> forall z, reaches R y z -> In z (entry d id)).
  { intros y Hy z Hz. induction Hz; eauto. }
  inversion Hr; subst; [now apply B2|]. eapply D; [|eassumption]. now apply B2.
Qed.

Let U := concat (map snd d0).
Lemma R_universe : forall k x, R k x -> In x U.
Proof.
  intros k x H. unfold R, states, entry in H. destruct (m_find d0 k) eqn:E; [|destruct H].
  apply find_in in E. unfold U. apply in_concat. exists l. split; [|exact H]. apply in_map_iff. now exists (k, l).
Qed.
Lemma reach_universe : forall k x, reaches R k x -> In x U.
Proof. intros k x H. induction H; eauto using R_universe. Qed.

Definition missing (s : list string) : nat := List.length (filter (fun x => negb (s_mem x s)) U).
Lemma filter_le : forall {X} (f g : X -> bool) l, (forall x, f x = true -> g x = true) ->
  (List.length (filter f l) <= List.length (filter g l))%nat.
Proof.
  intros X f g l H. induction l as [|x l IH]; cbn; [lia|].
  destruct (f x) eqn:E; [rewrite (H _ E); cbn; lia|]. destruct (g x); cbn; lia.
Qed.
Lemma filter_lt : forall {X} (f g : X -> bool) l y, (forall x, f x = true -> g x = true) -> In y l -> f y = false -> g y = true ->
  (List.length (filter f l) < List.length (filter g l))%nat.
Proof.
  intros X f g l y H Hy Hf Hg. induction l as [|x l IH]; cbn; [destruct Hy|].
  destruct Hy as [->|Hy].
  - rewrite Hf, Hg. cbn. pose proof (filter_le f g l H). lia.
  - specialize (IH Hy). destruct (f x) eqn:E; [rewrite (H _ E); cbn; lia|]. destruct (g x); cbn; lia.
Qed.

Lemma rounds_ok : forall n d id, between d -> (missing (entry d id) < n)%nat ->
  exists d', rounds n d id = Some d' /\ between d' /\ bigger d d' /\ (forall x, reaches R id x -> In x (entry d' id)) /\
    (keyed d -> m_find d0 id <> None -> keyed d') /\ forall x, R id x -> m_find d' x <> None.
Proof.
  induction n as [|n IH]; intros d id B M; [lia|]. cbn [rounds].
  destruct (forallb _ _) eqn:E.
  - exists (round d id). split; [reflexivity|]. split; [now apply round_between|]. split; [apply round_bigger|]. split.
    + intros x Hx. apply round_bigger. now apply (round_closed d id B E).
    + split; [now apply round_keyed|]. intros x Hx. rewrite round_steps. apply steps_touch. now apply B.
  - destruct (IH (round d id) id) as (d' & H1 & H2 & H3 & H4 & H5 & H6).
    + now apply round_between.
    + enough (missing (entry (round d id) id) < missing (entry d id))%nat by lia.
      assert (exists y, In y (entry (round d id) id) /\ ~ In y (entry d id)) as (y & Y1 & Y2).
      { clear - E. induction (entry (round d id) id) as [|z l IHl]; cbn in E; [discriminate|].
        destruct (s_mem z (entry d id)) eqn:Ez.
        - destruct (IHl E) as (y & Y1 & Y2). exists y. split; [now right|exact Y2].
        - exists z. split; [now left|now apply mem_not]. }
      apply filter_lt with (y := y).
      * intros x Hx. apply Bool.negb_true_iff in Hx. apply Bool.negb_true_iff. apply mem_not in Hx. apply mem_not.
        intros C. apply Hx. now apply round_bigger.
      * apply (reach_universe id). now apply (proj1 (round_between d id B)).
      * apply Bool.negb_false_iff. now apply mem_in.
      * apply Bool.negb_true_iff. now apply mem_not.
    + exists d'. split; [exact H1|]. split; [exact H2|]. split; [eapply bigger_trans; [apply round_bigger|exact H3]|]. split; [exact H4|].
      split; [|exact H6]. intros K I. apply H5; [now apply round_keyed|exact I].
Qed.

Lemma rounds_mono : forall n m d id d', (n <= m)%nat -> rounds n d id = Some d' -> rounds m d id = Some d'.
Proof.
  induction n as [|n IH]; intros m d id d' L H; [discriminate|]. destruct m as [|m]; [lia|].
  cbn [rounds] in *. destruct (forallb _ _); [exact H|]. apply IH; [lia|exact H].
Qed.

Definition universe_size : nat := S (List.length U).
Lemma missing_bound : forall s, (missing s < universe_size)%nat.
Proof.
  intros s. unfold missing, universe_size. enough (forall f, (List.length (filter f U) <= List.length U)%nat).
  { specialize (H (fun x => negb (s_mem x s))). lia. }
  intros f. induction U as [|x l IH]; cbn; [lia|]. destruct (f x); cbn; lia.
Qed.

Lemma resolve_ok : forall ids n d, (universe_size <= n)%nat -> between d ->
  exists d', resolve_deps n d ids = Some d' /\ between d' /\ bigger d d' /\
    (forall id, In id ids -> forall x, reaches R id x -> In x (entry d' id)) /\
    (keyed d -> (forall id, In id ids -> m_find d0 id <> None) -> keyed d') /\
    forall id, In id ids -> forall x, R id x -> m_find d' x <> None.
Proof.
  induction ids as [|id ids IH]; intros n d L B; cbn [resolve_deps].
  - exists d. split; [reflexivity|]. split; [exact B|]. split; [apply bigger_refl|]. split; [intros id []|]. split; [auto|]. intros id [].
  - destruct (rounds_ok n d id B) as (d1 & H1 & H2 & H3 & H4 & H5 & H6); [pose proof (missing_bound (entry d id)); lia|].
    rewrite H1. destruct (IH n d1 L H2) as (d2 & G1 & G2 & G3 & G4 & G5 & G6).
    exists d2. split; [exact G1|]. split; [exact G2|]. split; [eapply bigger_trans; eassumption|]. split; [|split].
    + intros i [<-|Hi] x Hx; [|now apply G4]. apply G3. auto.
    + intros K I. apply G5; [apply H5; [exact K|apply I; now left]|]. intros i Hi. apply I. now right.
    + intros i [<-|Hi] x Hx; [|now apply (G6 i)]. apply G3. auto.
Qed.
Lemma resolve_mono : forall ids n m d d', (n <= m)%nat -> resolve_deps n d ids = Some d' -> resolve_deps m d ids = Some d'.
Proof.
  induction ids as [|id ids IH]; intros n m d d' L H; cbn [resolve_deps] in *; [exact H|].
  destruct (rounds n d id) as [d1|] eqn:E; [|discriminate]. rewrite (rounds_mono _ _ _ _ _ L E). now apply (IH n).
Qed.

Lemma between_start : between d0.
Proof. split; [intros k x H; now apply reach_one|auto]. Qed.
Lemma known_listed : forall k, m_find d0 k <> None -> In k (map fst d0).
Proof.
  intros k H. destruct (m_find d0 k) eqn:E; [|congruence]. apply find_in in E. apply in_map_iff. now exists (k, l).
Qed.

Lemma resolve_all : exists d', (forall n, (universe_size <= n)%nat -> resolve_deps n d0 (map fst d0) = Some d') /\
  (forall k x, In x (entry d' k) <-> reaches R k x) /\
  (forall k, m_find d' k <> None <-> m_find d0 k <> None \/ exists j, R j k).
Proof.
  destruct (resolve_ok (map fst d0) universe_size d0 (le_n _) between_start) as (d' & H1 & H2 & H3 & H4 & H5 & H6).
  exists d'. split; [intros n L; now apply (resolve_mono _ universe_size)|].
  assert (LS : forall id, In id (map fst d0) -> m_find d0 id <> None).
  { intros id Hi E. apply in_map_iff in Hi as ([i v] & <- & Hi). cbn in E. eapply find_none; eassumption. }
  split; [|intros k; split].
  2:{ intros H. destruct (H5 (fun k H => or_introl H) LS k H) as [G|[j G]]; [now left|]. right.
      clear - G. induction G; eauto. }
  2:{ intros [H|[j H]]; [now apply H3|]. apply (H6 j); [|exact H]. apply known_listed. eapply entry_known. exact H. }
  intros k x. split; [apply H2|]. intros H. apply H4; [|exact H]. apply known_listed.
  inversion H; subst; eapply entry_known; eassumption.
Qed.
End Resolve.

(** resolving the base types *)
Section Bases.
Context (D : string -> string -> Prop) (sp : list (string * string)) (B0 : list (string * base_type)).
Context (D_trans : forall a b c, D a b -> D b c -> D a c).
Context (sp_D : forall a b, In (a, b) sp -> D a b).

Definition agrees (t : tables) : Prop := supers t = sp /\ forall a x, In x (entry (deps t) a) <-> D a x.
Lemma agrees_touch : forall t k, agrees t -> agrees (set_deps t (touch (deps t) k)).
Proof. intros t k [H1 H2]. split; [exact H1|]. intros a x. cbn. rewrite entry_touch. apply H2. Qed.
Lemma agrees_set : forall t b, agrees t -> agrees (T b (supers t) (deps t)).
Proof. intros t b [H1 H2]. now split. Qed.

(** the root a chain of super types leads to *)
Inductive rooted : string -> base_type -> Prop :=
| rooted_own a k : m_find B0 a = Some k -> rooted a k
| rooted_super a b k : In (a, b) sp -> rooted b k -> rooted a k.

Definition faithful (t : tables) : Prop :=
  (forall a k, m_find (bases t) a = Some k -> rooted a k) /\
  (forall a k, m_find B0 a = Some k -> m_find (bases t) a = Some k) /\
  (forall a, m_find (bases t) a <> None -> m_find B0 a = None -> ~ D a a).

Definition grows (t t' : tables) : Prop := forall a k, m_find (bases t) a = Some k -> m_find (bases t') a = Some k.
Definition blame (e : type_error) : Prop :=
  match e with
  | Twice _ => False
  | Circular x => (exists b, In (x, b) sp) /\ D x x
  | Missing x => (exists a, In (a, x) sp) /\ m_find B0 x = None /\ forall b, ~ In (x, b) sp
  end.

Lemma faithful_set : forall t sub k, faithful t -> m_find (bases t) sub = None -> rooted sub k -> ~ D sub sub ->
  faithful (T (m_set (bases t) sub k) (supers t) (deps t)).
Proof.
  intros t sub k (F1 & F2 & F3) N Rk C. unfold faithful. cbn [bases]. split; [|split].
  - intros a k'. rewrite find_set. destruct (String.eqb a sub) eqn:E; [|auto].
    apply String.eqb_eq in E. intros H. injection H as <-. now subst.
  - intros a k' H. rewrite find_set. destruct (String.eqb a sub) eqn:E; [|auto].
    apply String.eqb_eq in E. subst. apply F2 in H. congruence.
  - intros a. rewrite find_set. destruct (String.eqb a sub) eqn:E; [|auto].
    apply String.eqb_eq in E. subst. intros _ _. exact C.
Qed.
Lemma grows_set : forall t sub k, m_find (bases t) sub = None -> grows t (T (m_set (bases t) sub k) (supers t) (deps t)).
Proof.
  intros t sub k N a k' H. cbn [bases]. rewrite find_set. destruct (String.eqb a sub) eqn:E; [|exact H].
  apply String.eqb_eq in E. subst. congruence.
Qed.

Lemma resolve_base_spec : forall n t sub super t' e, resolve_base n t sub super = Some (t', e) -> agrees t -> faithful t ->
  In (sub, super) sp ->
  agrees t' /\ faithful t' /\ grows t t' /\
  match e with None => m_find (bases t') sub <> None | Some x => blame x end.
Proof.
  induction n as [|n IH]; intros t sub super t' e H A F I; [discriminate|]. cbn [resolve_base] in H.
  destruct (m_find (bases t) sub) eqn:E.
  { injection H as <- <-. split; [exact A|]. split; [exact F|]. split; [now intros a k|]. congruence. }
  set (t1 := set_deps t (touch (deps t) sub)) in *.
  assert (A1 : agrees t1) by now apply agrees_touch.
  assert (F1 : faithful t1) by exact F.
  assert (G1 : grows t t1) by now intros a k.
  destruct (s_mem sub (entry (deps t1) sub)) eqn:C.
  { injection H as <- <-. split; [exact A1|]. split; [exact F1|]. split; [exact G1|]. apply mem_in in C. cbn. split; [now exists super|now apply A1]. }
  apply mem_not in C.
  assert (NC : ~ D sub sub) by (intros HD; apply C; now apply A1).
  destruct (m_find (bases t1) super) as [b|] eqn:Eb.
  { injection H as <- <-. split; [exact (agrees_set t1 _ A1)|]. split.
    - apply (faithful_set t1); try assumption. apply rooted_super with super; [exact I|]. now apply F1.
    - split; [now apply (grows_set t1)|]. cbn [bases]. rewrite find_set, String.eqb_refl. discriminate. }
  destruct (m_find (supers t1) super) as [above|] eqn:Es.
  - assert (I1 : In (super, above) sp) by (rewrite <- (proj1 A1); now apply find_in).
    destruct (resolve_base n t1 super above) as [[t2 [x|]]|] eqn:Er; [| |discriminate].
    + injection H as <- <-. destruct (IH _ _ _ _ _ Er A1 F1 I1) as (P1 & P2 & P3 & P4). auto.
    + destruct (IH _ _ _ _ _ Er A1 F1 I1) as (P1 & P2 & P3 & P4).
      destruct (m_find (bases t2) super) as [b|] eqn:Eb2; [|discriminate].
      injection H as <- <-. split; [exact (agrees_set t2 _ P1)|].
      assert (RS : rooted sub b) by (apply rooted_super with super; [exact I|now apply P2]).
      destruct (m_find (bases t2) sub) as [k|] eqn:Ek.
      * (* cannot happen, but needs no argument *)
        assert (Q : forall a, a <> sub -> m_find (m_set (bases t2) sub b) a = m_find (bases t2) a).
        { intros a Ha. rewrite find_set. apply String.eqb_neq in Ha. now rewrite Ha. }
        split; [|split].
        -- destruct P2 as (Q1 & Q2 & Q3). unfold faithful. cbn [bases]. split; [|split].
           ++ intros a k'. rewrite find_set. destruct (String.eqb a sub) eqn:E1; [|auto].
              apply String.eqb_eq in E1. intros H. injection H as <-. now subst.
           ++ intros a k' H. destruct (String.eqb a sub) eqn:E1.
              ** apply String.eqb_eq in E1. subst. apply (proj1 (proj2 F)) in H. congruence.
              ** apply String.eqb_neq in E1. rewrite Q by exact E1. auto.
           ++ intros a. rewrite find_set. destruct (String.eqb a sub) eqn:E1; [|auto].
              apply String.eqb_eq in E1. subst. intros _ _. exact NC.
        -- intros a k' H. cbn [bases]. rewrite find_set. destruct (String.eqb a sub) eqn:E1; [|now apply P3].
           apply String.eqb_eq in E1. subst. congruence.
        -- cbn [bases]. rewrite find_set, String.eqb_refl. discriminate.
      * split; [now apply (faithful_set t2)|]. split.
        -- intros a k H. apply (grows_set t2); [exact Ek|]. now apply P3.
        -- cbn [bases]. rewrite find_set, String.eqb_refl. discriminate.
  - injection H as <- <-. split; [exact A1|]. split; [exact F1|]. split; [exact G1|]. cbn. split; [now exists sub|]. split.
    + destruct (m_find B0 super) eqn:E0; [|reflexivity]. apply F1 in E0. congruence.
    + intros b Hb. rewrite <- (proj1 A1) in Hb. eapply find_none; eassumption.
Qed.

Lemma resolve_base_total : forall n t sub super seen, agrees t ->
  In (sub, super) sp -> NoDup (sub :: seen) -> incl (sub :: seen) (map fst sp) ->
  (forall s, In s seen -> ~ D s s /\ D s sub) ->
  (List.length sp - List.length seen <= n)%nat ->
  (forall a k, m_find (bases t) a = Some k -> True) ->
  exists r, resolve_base n t sub super = Some r /\ agrees (fst r) /\ (snd r = None -> m_find (bases (fst r)) sub <> None).
Proof.
  induction n as [|n IH]; intros t sub super seen A I ND IN SE L _.
  { exfalso. pose proof (NoDup_incl_length ND IN) as K. rewrite map_length in K. cbn in K. lia. }
  cbn [resolve_base]. destruct (m_find (bases t) sub) eqn:E.
  { exists (t, None). split; [reflexivity|]. split; [exact A|]. cbn. congruence. }
  set (t1 := set_deps t (touch (deps t) sub)) in *.
  assert (A1 : agrees t1) by now apply agrees_touch.
  destruct (s_mem sub (entry (deps t1) sub)) eqn:C.
  { exists (t1, Some (Circular sub)). split; [reflexivity|]. split; [exact A1|]. discriminate. }
  apply mem_not in C. assert (NC : ~ D sub sub) by (intros HD; apply C; now apply A1).
  destruct (m_find (bases t1) super) as [b|] eqn:Eb.
  { eexists. split; [reflexivity|]. split; [exact (agrees_set t1 _ A1)|]. intros _. cbn [fst bases]. rewrite find_set, String.eqb_refl. discriminate. }
  destruct (m_find (supers t1) super) as [above|] eqn:Es.
  2:{ eexists. split; [reflexivity|]. split; [exact A1|]. discriminate. }
  assert (I1 : In (super, above) sp) by (rewrite <- (proj1 A1); now apply find_in).
  destruct (IH t1 super above (sub :: seen)) as (r & R1 & R2 & R3).
  - exact A1.
  - exact I1.
  - constructor; [|exact ND]. intros [<-|Hs].
    + apply NC. now apply sp_D.
    + destruct (SE _ Hs) as [S1 S2]. apply S1. apply D_trans with sub; [exact S2|now apply sp_D].
  - intros x [<-|Hx]; [|now apply IN]. apply in_map_iff. now exists (super, above).
  - intros s [<-|Hs]; [split; [exact NC|now apply sp_D]|]. destruct (SE _ Hs) as [S1 S2]. split; [exact S1|].
    apply D_trans with sub; [exact S2|now apply sp_D].
  - cbn. lia.
  - trivial.
  - rewrite R1. destruct r as [t2 [x|]].
    + eexists. split; [reflexivity|]. split; [exact R2|]. discriminate.
    + cbn in R3. destruct (m_find (bases t2) super) eqn:E2; [|now exfalso; apply R3].
      eexists. split; [reflexivity|]. split; [now apply agrees_set|]. intros _. cbn [fst bases]. rewrite find_set, String.eqb_refl. discriminate.
Qed.

Lemma resolve_base_mono : forall n m t sub super r, (n <= m)%nat -> resolve_base n t sub super = Some r -> resolve_base m t sub super = Some r.
Proof.
  induction n as [|n IH]; intros m t sub super r L H; [discriminate|]. destruct m as [|m]; [lia|].
  cbn [resolve_base] in *. destruct (m_find (bases t) sub); [exact H|]. destruct (s_mem _ _); [exact H|].
  destruct (m_find (bases _) super); [exact H|]. destruct (m_find (supers _) super); [|exact H].
  destruct (resolve_base n _ super s) as [[t2 e2]|] eqn:E; [|discriminate].
  rewrite (IH m _ _ _ _ ltac:(lia) E). exact H.
Qed.
Lemma resolve_bases_mono : forall l n m t e r, (n <= m)%nat -> resolve_bases n t e l = Some r -> resolve_bases m t e l = Some r.
Proof.
  induction l as [|[a b] l IH]; intros n m t e r L H; cbn [resolve_bases] in *; [exact H|].
  destruct (resolve_base n t a b) as [[t2 e2]|] eqn:E; [|discriminate]. rewrite (resolve_base_mono _ _ _ _ _ _ L E).
  destruct (last_error e e2); [exact H|]. now apply (IH n).
Qed.

Lemma resolve_bases_total : forall l t e, agrees t -> incl l sp ->
  exists r, resolve_bases (List.length sp) t e l = Some r.
Proof.
  induction l as [|[a b] l IH]; intros t e A IN; cbn [resolve_bases]; [now eexists|].
  assert (I : In (a, b) sp) by (apply IN; now left).
  destruct (resolve_base_total (List.length sp) t a b []) as ([t2 e2] & R1 & R2 & R3).
  - exact A.
  - exact I.
  - constructor; [easy|constructor].
  - intros x [<-|[]]. apply in_map_iff. now exists (a, b).
  - intros s [].
  - cbn. lia.
  - trivial.
  - rewrite R1. destruct (last_error e e2); [now eexists|]. apply IH; [exact R2|]. intros x Hx. apply IN. now right.
Qed.

Lemma resolve_bases_spec : forall l n t e t' e', resolve_bases n t e l = Some (t', e') -> agrees t -> faithful t -> incl l sp ->
  agrees t' /\ faithful t' /\ grows t t' /\
  match e' with
  | None => e = None /\ forall a b, In (a, b) l -> m_find (bases t') a <> None
  | Some x => e = Some x \/ blame x
  end.
Proof.
  induction l as [|[a b] l IH]; intros n t e t' e' H A F IN; cbn [resolve_bases] in H.
  - injection H as <- <-. split; [exact A|]. split; [exact F|]. split; [now intros a k|]. destruct e; [now left|]. split; [reflexivity|]. intros a b [].
  - destruct (resolve_base n t a b) as [[t2 e2]|] eqn:E; [|discriminate].
    assert (I : In (a, b) sp) by (apply IN; now left).
    destruct (resolve_base_spec _ _ _ _ _ _ E A F I) as (P1 & P2 & P3 & P4).
    destruct (last_error e e2) as [x|] eqn:EL.
    + injection H as <- <-. split; [exact P1|]. split; [exact P2|]. split; [exact P3|].
      destruct e2; cbn in EL; [injection EL as <-; now right|now left].
    + destruct e2; [discriminate|]. cbn in EL.
      destruct (IH _ _ _ _ _ H P1 P2) as (Q1 & Q2 & Q3 & Q4); [intros x Hx; apply IN; now right|].
      split; [exact Q1|]. split; [exact Q2|]. split; [intros x k Hx; now apply Q3, P3|].
      destruct e' as [x|].
      * destruct Q4 as [Q4|Q4]; [discriminate|now right].
      * split; [exact EL|]. intros x y [Hx|Hx]; [|now apply (proj2 Q4 x y)].
        injection Hx as <- <-. destruct (m_find (bases t2) a) eqn:Ea; [|congruence]. rewrite (Q3 _ _ Ea). discriminate.
Qed.
End Bases.

(** addDependency *)
Lemma find_map : forall (f : string * list string -> list string) d k,
  m_find (map (fun kv => (fst kv, f kv)) d) k = option_map (fun s => f (k, s)) (m_find d k).
Proof.
  induction d as [|[y w] d IH]; intros k; cbn; [reflexivity|].
  destruct (String.eqb k y) eqn:E; [|apply IH]. apply String.eqb_eq in E. now subst.
Qed.
Definition widened (dependency dependent : string) (more : list string) (kv : string * list string) : list string :=
  if (String.eqb (fst kv) dependent || s_mem dependent (snd kv))%bool then s_union (s_insert dependency (snd kv)) more else snd kv.
Lemma widen_map : forall d dependency dependent more,
  map (fun kv => if (String.eqb (fst kv) dependent || s_mem dependent (snd kv))%bool
                 then (fst kv, s_union (s_insert dependency (snd kv)) more) else kv) d =
  map (fun kv => (fst kv, widened dependency dependent more kv)) d.
Proof.
  intros. apply map_ext. intros [k s]. unfold widened. cbn [fst snd]. now destruct (_ || _)%bool.
Qed.

Lemma add_outcome : forall d dy dt c d' e, add_dependency d dy dt c = (d', e) ->
  (m_find d dy = None /\ d' = d /\ e = Some (Missing dy)) \/
  (m_find d dy <> None /\ c = true /\ (dt = dy \/ In dt (entry d dy)) /\ d' = d /\ e = Some (Circular dt)) \/
  (m_find d dy <> None /\ (c = true -> dt <> dy /\ ~ In dt (entry d dy)) /\ e = None /\
   (forall k, m_find d' k <> None <-> m_find d k <> None \/ k = dt) /\
   ((In dy (entry d dt) /\ forall k, entry d' k = entry d k) \/
    (forall k x, In x (entry d' k) <-> In x (entry d k) \/ ((k = dt \/ In dt (entry d k)) /\ (x = dy \/ In x (entry d dy)))))).
Proof.
  intros d dy dt c d' e H. unfold add_dependency in H.
  destruct (m_find d dy) as [more|] eqn:E.
  2:{ injection H as <- <-. now left. }
  right. assert (EM : entry d dy = more) by (unfold entry; now rewrite E).
  destruct (c && _)%bool eqn:EC.
  { injection H as <- <-. left. apply andb_prop in EC as [-> EC]. split; [discriminate|]. split; [reflexivity|]. split; [|now split].
    apply orb_prop in EC as [EC|EC]; [left; now apply String.eqb_eq|right; rewrite EM; now apply mem_in]. }
  right. split; [discriminate|]. split.
  { intros ->. cbn in EC. apply orb_false_elim in EC as [E1 E2]. apply String.eqb_neq in E1. apply mem_not in E2. now rewrite EM. }
  destruct (s_mem dy (entry (touch d dt) dt)) eqn:EI.
  { injection H as <- <-. split; [reflexivity|]. split; [intros k; apply find_touch|]. left.
    apply mem_in in EI. rewrite entry_touch in EI. split; [exact EI|]. intros k. apply entry_touch. }
  rewrite widen_map in H. injection H as <- <-. split; [reflexivity|]. split.
  { intros k. rewrite find_map. rewrite <- find_touch. destruct (m_find (touch d dt) k); cbn; intuition congruence. }
  right. intros k x. unfold entry at 1. rewrite find_map.
  assert (K : entry (touch d dt) k = entry d k) by apply entry_touch. unfold entry at 1 in K.
  destruct (m_find (touch d dt) k) as [s|] eqn:Ek; cbn [option_map].
  - rewrite <- K. unfold widened. cbn [fst snd]. clear EC; destruct (_ || _)%bool eqn:Ew.
    + rewrite in_union, in_insert, EM. apply orb_prop in Ew.
      assert (k = dt \/ In dt s) by (destruct Ew as [Ew|Ew]; [left; now apply String.eqb_eq|right; now apply mem_in]).
      intuition.
    + apply orb_false_elim in Ew as [E1 E2]. apply String.eqb_neq in E1. apply mem_not in E2. intuition.
  - rewrite <- K. split; [intros []|]. intros [[]|[[Hk|[]] _]].
    subst k. assert (m_find (touch d dt) dt <> None) by (apply find_touch; now right). congruence.
Qed.

Definition transitive (d : list (string * list string)) : Prop := forall a b c, states d a b -> states d b c -> states d a c.
Definition with_edge (R : string -> string -> Prop) (a b x y : string) : Prop := R x y \/ (x = a /\ y = b).
Lemma reach_edge : forall (R : string -> string -> Prop) dt dy k x, (forall a b c, R a b -> R b c -> R a c) ->
  reaches (with_edge R dt dy) k x <-> R k x \/ ((k = dt \/ R k dt) /\ (x = dy \/ R dy x)).
Proof.
  intros R dt dy k x TR. split.
  - intros H. induction H as [a b H|a b c H H1 IH].
    + destruct H as [H|[-> ->]]; [now left|]. right. tauto.
    + destruct H as [H|[-> ->]].
      * destruct IH as [IH|[[->|IH1] IH2]]; [left; eauto|right; tauto|]. right. split; [right; eauto|exact IH2].
      * right. split; [now left|]. destruct IH as [IH|[_ IH2]]; [now right|exact IH2].
  - assert (O : forall a b, R a b -> reaches (with_edge R dt dy) a b) by (intros a b H; apply reach_one; now left).
    assert (Q : reaches (with_edge R dt dy) dt dy) by (apply reach_one; now right).
    intros [H|[[->|H1] [->|H2]]]; eauto using reaches_trans.
Qed.

(** one call: the table goes on to state a transitive relation, that of before with the dependency added *)
Lemma add_step : forall d dy dt c d' e, add_dependency d dy dt c = (d', e) -> transitive d ->
  match e with
  | Some (Missing x) => x = dy /\ ~ known d dy /\ d' = d
  | Some (Circular x) => x = dt /\ known d dy /\ c = true /\ (dt = dy \/ states d dy dt) /\ d' = d
  | Some (Twice _) => False
  | None => known d dy /\ (c = true -> dt <> dy /\ ~ states d dy dt) /\
      (forall k x, states d' k x <-> reaches (with_edge (states d) dt dy) k x) /\ (forall k, known d' k <-> known d k \/ k = dt)
  end.
Proof.
  assert (KN : forall d k, known d k <-> m_find d k <> None).
  { intros d k. unfold known. destruct (m_find d k); split; [discriminate|eauto|intros [s Hs]; discriminate|congruence]. }
  intros d dy dt c d' e H TR.
  destruct (add_outcome _ _ _ _ _ _ H) as [(P1 & P2 & ->)|[(P1 & P2 & P3 & P4 & ->)|(P1 & P2 & -> & P3 & P4)]].
  - rewrite KN. rewrite P1. split; [reflexivity|]. split; [congruence|exact P2].
  - rewrite KN. tauto.
  - rewrite !KN. split; [exact P1|]. split; [exact P2|]. split; [|intros k; rewrite !KN; apply P3].
    intros k x. rewrite (reach_edge (states d)) by exact TR. unfold states. destruct P4 as [[P4 P5]|P4].
    + rewrite P5. split; [now left|]. intros [Q|[[->|Q1] [->|Q2]]]; try assumption.
      * now apply (TR _ dy).
      * now apply (TR _ dt).
      * apply (TR _ dt); [exact Q1|]. now apply (TR _ dy).
    + rewrite P4. reflexivity.
Qed.

(** filling the tables *)
Lemma names_refers : forall n, names_type (n_symbol n) = true <-> refers n (s_literal (n_symbol n)).
Proof.
  intros n. unfold names_type, refers. destruct (String.eqb_spec (s_literal (n_symbol n)) ""); destruct (s_variable (n_symbol n)); cbn; intuition congruence.
Qed.
Lemma nested_refers : forall l x, In x (map (fun n => s_literal (n_symbol n)) (filter (fun n => names_type (n_symbol n)) l)) <->
  exists n, In n l /\ refers n x.
Proof.
  intros l x. rewrite in_map_iff. split.
  - intros (n & <- & H). apply filter_In in H as [H1 H2]. exists n. split; [exact H1|]. now apply names_refers.
  - intros (n & H1 & H2). exists n. assert (s_literal (n_symbol n) = x) by apply H2. split; [exact H|].
    apply filter_In. split; [exact H1|]. apply names_refers. now rewrite H.
Qed.

(** what parsing a signature does: the entry of the empty name may grow *)
Lemma definition_effect : forall t s, (forall a, ~ In ""%string (entry (deps t) a)) ->
  bases (parse_definition t s) = bases t /\ supers (parse_definition t s) = supers t /\
  (forall a, a <> ""%string -> m_find (deps (parse_definition t s)) a <> None <-> m_find (deps t) a <> None) /\
  (forall a x, a <> ""%string -> In x (entry (deps (parse_definition t s)) a) <-> In x (entry (deps t) a)) /\
  (forall a, ~ In ""%string (entry (deps (parse_definition t s)) a)) /\
  (forall a x, In x (entry (deps t) a) -> In x (entry (deps (parse_definition t s)) a)) /\
  (forall x, In x (entry (deps (parse_definition t s)) "") -> (exists b, In x (entry (deps t) b)) \/ (x <> ""%string /\ m_find (deps t) x <> None)).
Proof.
  intros t s NE. unfold parse_definition.
  assert (TR : bases t = bases t /\ supers t = supers t /\
    (forall a, a <> ""%string -> m_find (deps t) a <> None <-> m_find (deps t) a <> None) /\
    (forall a x, a <> ""%string -> In x (entry (deps t) a) <-> In x (entry (deps t) a)) /\
    (forall a, ~ In ""%string (entry (deps t) a)) /\ (forall a x, In x (entry (deps t) a) -> In x (entry (deps t) a)) /\
    (forall x, In x (entry (deps t) "") -> (exists b, In x (entry (deps t) b)) \/ (x <> ""%string /\ m_find (deps t) x <> None))).
  { split; [reflexivity|]. split; [reflexivity|]. split; [tauto|]. split; [tauto|]. split; [exact NE|]. split; [tauto|eauto]. }
  set (b := match parse_base _ with UndefinedBT => _ | _ => _ end). clearbody b. destruct b; try exact TR.
  destruct (names_type _) eqn:EN; [|exact TR]. clear TR. apply names_refers in EN as (_ & EN & _).
  set (x0 := s_literal (n_symbol (t_name s))) in *.
  destruct (add_dependency (deps t) x0 "" false) as [d' e] eqn:E. cbn [fst bases supers deps set_deps].
  split; [reflexivity|]. split; [reflexivity|].
  destruct (add_outcome _ _ _ _ _ _ E) as [(P1 & -> & ->)|[(P1 & P2 & P3 & P4 & ->)|(P1 & P2 & -> & P3 & P4)]]; [|discriminate|].
  { split; [tauto|]. split; [tauto|]. split; [exact NE|]. split; [tauto|eauto]. }
  split; [intros a Ha; rewrite P3; tauto|].
  destruct P4 as [[P4 P5]|P4].
  - split; [intros a x Ha; now rewrite P5|]. split; [intros a; rewrite P5; apply NE|]. split; [intros a x; now rewrite P5|]. intros x. rewrite P5. eauto.
  - split; [|split; [|split]].
    + intros a x Ha. rewrite P4. split; [|tauto]. intros [H|[[H|H] _]]; [exact H|congruence|]. now apply NE in H.
    + intros a H. apply P4 in H as [H|[_ [H|H]]]; [now apply NE in H|congruence|now apply NE in H].
    + intros a x H. apply P4. now left.
    + intros x H. apply P4 in H as [H|[_ [->|H]]]; eauto.
Qed.

(** the tables against the declarations seen so far; exact if no identifier occurs twice *)
Definition own_kind (ds : list declaration) (a : string) (k : base_type) : Prop :=
  (exists d, In d ds /\ d_id d = a /\ built_in (n_base (t_name (d_spec d))) k) \/
  (exists d, In d ds /\ d_id d = a /\ t_name (d_spec d) = TN UndefinedTN (Sym "" false) /\ k = ImplicitObjectBT).
Record filled (ps : list declaration) (t : tables) : Prop := Filled {
  f_known : forall a, a <> ""%string -> (m_find (deps t) a <> None <-> In a (map d_id ps));
  f_blank : forall a, ~ In ""%string (entry (deps t) a);
  f_void : forall x, In x (entry (deps t) "") -> In x (map d_id ps) \/ exists b, mentions ps b x;
  f_deps : forall a x, a <> ""%string -> In x (entry (deps t) a) -> mentions ps a x;
  f_deps' : NoDup (map d_id ps) -> forall a x, mentions ps a x -> In x (entry (deps t) a);
  f_supers : forall a b, In (a, b) (supers t) -> inherits ps a b;
  f_supers' : NoDup (map d_id ps) -> forall a b, inherits ps a b -> In (a, b) (supers t);
  f_bases : forall a k, m_find (bases t) a = Some k -> own_kind ps a k;
  f_bases' : NoDup (map d_id ps) -> forall a k, own_kind ps a k -> m_find (bases t) a = Some k
}.

Lemma inherits_app : forall ps d a b, inherits (ps ++ [d]) a b <-> inherits ps a b \/ inherits [d] a b.
Proof.
  intros ps d a b. unfold inherits. split.
  - intros (x & H & R). apply in_app_or in H as [H|H]; [left|right]; eauto.
  - intros [(x & H & R)|(x & H & R)]; exists x; (split; [apply in_or_app|exact R]); tauto.
Qed.
Lemma nests_app : forall ps d a b, nests (ps ++ [d]) a b <-> nests ps a b \/ nests [d] a b.
Proof.
  intros ps d a b. unfold nests. split.
  - intros (x & n & H & R). apply in_app_or in H as [H|H]; [left|right]; eauto.
  - intros [(x & n & H & R)|(x & n & H & R)]; exists x, n; (split; [apply in_or_app|exact R]); tauto.
Qed.
Lemma mentions_app : forall ps d a b, mentions (ps ++ [d]) a b <-> mentions ps a b \/ mentions [d] a b.
Proof. intros. unfold mentions. rewrite inherits_app, nests_app. tauto. Qed.
Lemma own_app : forall ps d a k, own_kind (ps ++ [d]) a k <-> own_kind ps a k \/ own_kind [d] a k.
Proof.
  intros ps d a k. unfold own_kind. split.
  - intros [(x & H & R)|(x & H & R)]; (apply in_app_or in H as [H|H]; [left|right]); eauto 6.
  - intros [[(x & H & R)|(x & H & R)]|[(x & H & R)|(x & H & R)]]; [left|right|left|right]; exists x; (split; [apply in_or_app|exact R]); tauto.
Qed.
Lemma mentions_declared : forall ps a x, mentions ps a x -> In a (map d_id ps).
Proof. intros ps a x [(d & H & <- & _)|(d & n & H & <- & _)]; now apply in_map. Qed.
Lemma own_declared : forall ps a k, own_kind ps a k -> In a (map d_id ps).
Proof. intros ps a x [(d & H & <- & _)|(d & H & <- & _)]; now apply in_map. Qed.
Lemma mentions_one : forall d a x, mentions [d] a x <-> a = d_id d /\
  ((n_base (t_name (d_spec d)) = UndefinedTN /\ refers (t_name (d_spec d)) x) \/
   ((n_base (t_name (d_spec d)) = ArrayTN \/ n_base (t_name (d_spec d)) = EnumTN) /\ exists n, In n (t_nested (d_spec d)) /\ refers n x)).
Proof.
  intros d a x. unfold mentions, inherits, nests. split.
  - intros [(y & [<-|[]] & <- & R)|(y & n & [<-|[]] & <- & R)]; [tauto|]. split; [reflexivity|]. right. destruct R as (R1 & R2 & R3). eauto.
  - intros (-> & [R|(R1 & n & R2 & R3)]); [left; exists d|right; exists d, n]; cbn; tauto.
Qed.
Lemma inherits_one : forall d a x, inherits [d] a x <-> a = d_id d /\ n_base (t_name (d_spec d)) = UndefinedTN /\ refers (t_name (d_spec d)) x.
Proof.
  intros d a x. unfold inherits. split.
  - intros (y & [<-|[]] & <- & R). tauto.
  - intros (-> & R). exists d. cbn. tauto.
Qed.
Lemma own_one : forall d a k, own_kind [d] a k <-> a = d_id d /\
  (built_in (n_base (t_name (d_spec d))) k \/ (t_name (d_spec d) = TN UndefinedTN (Sym "" false) /\ k = ImplicitObjectBT)).
Proof.
  intros d a x. unfold own_kind. split.
  - intros [(y & [<-|[]] & <- & R)|(y & [<-|[]] & <- & R)]; tauto.
  - intros (-> & [R|R]); [left|right]; exists d; cbn; tauto.
Qed.
Lemma empty_name : forall n, name_empty n = true <-> n = TN UndefinedTN (Sym "" false).
Proof.
  intros [b [l v]]. unfold name_empty, symbol_empty. cbn. destruct b; try (split; discriminate).
  destruct (String.eqb_spec l ""); destruct v; cbn; split; intros H; try discriminate; try congruence.
Qed.
Lemma nodup_snoc : forall (l : list string) x, NoDup (l ++ [x]) <-> NoDup l /\ ~ In x l.
Proof.
  intros l x. split.
  - intros H. apply NoDup_remove in H. now rewrite app_nil_r in H.
  - intros [H1 H2]. apply NoDup_rev in H1. rewrite <- (rev_involutive (l ++ [x])). apply NoDup_rev. rewrite rev_app_distr. cbn.
    constructor; [now rewrite <- in_rev|exact H1].
Qed.

(** the tables after a new identifier, in one form *)
Definition new_super (d : declaration) : option string :=
  match n_base (t_name (d_spec d)) with
  | UndefinedTN => if names_type (n_symbol (t_name (d_spec d))) then Some (s_literal (n_symbol (t_name (d_spec d)))) else None
  | _ => None
  end.
Definition new_base (d : declaration) : option base_type :=
  match n_base (t_name (d_spec d)) with
  | UndefinedTN => if names_type (n_symbol (t_name (d_spec d))) then None else if name_empty (t_name (d_spec d)) then Some ImplicitObjectBT else None
  | b => Some (parse_base b)
  end.
Lemma fill_new : forall t d t' e, fill t d = (t', e) -> m_find (deps (parse_definition t (d_spec d))) (d_id d) = None ->
  let t1 := parse_definition t (d_spec d) in
  e = None /\
  supers t' = match new_super d with Some x => m_set (supers t1) (d_id d) x | None => supers t1 end /\
  bases t' = match new_base d with Some b => m_set (bases t1) (d_id d) b | None => bases t1 end /\
  (forall a, m_find (deps t') a <> None <-> m_find (deps t1) a <> None \/ a = d_id d) /\
  (forall a, a <> d_id d -> entry (deps t') a = entry (deps t1) a) /\
  (forall x, In x (entry (deps t') (d_id d)) <-> mentions [d] (d_id d) x).
Proof.
  intros t d t' e H N t1. unfold fill in H. fold t1 in H, N. rewrite N in H. cbn [deps set_deps bases supers] in H.
  assert (SET : forall v a, m_find (m_set (m_set (deps t1) (d_id d) []) (d_id d) v) a <> None <-> m_find (deps t1) a <> None \/ a = d_id d).
  { intros v a. rewrite !find_set. destruct (String.eqb a (d_id d)) eqn:E; [apply String.eqb_eq in E|apply String.eqb_neq in E]; [|tauto].
    split; [tauto|discriminate]. }
  assert (SET1 : forall a, m_find (m_set (deps t1) (d_id d) []) a <> None <-> m_find (deps t1) a <> None \/ a = d_id d).
  { intros a. rewrite !find_set. destruct (String.eqb a (d_id d)) eqn:E; [apply String.eqb_eq in E|apply String.eqb_neq in E]; [|tauto].
    split; [tauto|discriminate]. }
  assert (OTH : forall v a, a <> d_id d -> entry (m_set (m_set (deps t1) (d_id d) []) (d_id d) v) a = entry (deps t1) a).
  { intros v a Ha. rewrite !entry_set. apply String.eqb_neq in Ha. now rewrite Ha. }
  assert (OTH1 : forall a, a <> d_id d -> entry (m_set (deps t1) (d_id d) []) a = entry (deps t1) a).
  { intros a Ha. rewrite !entry_set. apply String.eqb_neq in Ha. now rewrite Ha. }
  assert (SELF : forall v, entry (m_set (m_set (deps t1) (d_id d) []) (d_id d) v) (d_id d) = v).
  { intros v. now rewrite entry_set, String.eqb_refl. }
  assert (SELF1 : entry (m_set (deps t1) (d_id d) []) (d_id d) = []).
  { now rewrite entry_set, String.eqb_refl. }
  unfold new_super, new_base.
  destruct (n_base (t_name (d_spec d))) eqn:EB.
  - destruct (names_type _) eqn:EN.
    + injection H as <- <-. cbn [supers bases deps]. split; [reflexivity|]. split; [reflexivity|]. split; [reflexivity|]. split; [apply SET|]. split; [apply OTH|].
      intros x. rewrite SELF, in_insert, SELF1, mentions_one, EB. apply names_refers in EN. cbn.
      split.
      * intros [->|[]]. split; [reflexivity|]. left. now split.
      * intros (_ & [(_ & R)|([R|R] & _)]); [|discriminate|discriminate]. left. symmetry. apply R.
    + assert (NM : forall x, ~ mentions [d] (d_id d) x).
      { intros x M. apply mentions_one in M as (_ & [(_ & R)|(R & _)]); [|rewrite EB in R; destruct R; discriminate].
        assert (names_type (n_symbol (t_name (d_spec d))) = true); [|congruence]. apply names_refers.
        assert (K : s_literal (n_symbol (t_name (d_spec d))) = x) by apply R. now rewrite K. }
      destruct (name_empty _); injection H as <- <-; cbn [supers bases deps set_deps]; (split; [reflexivity|]); (split; [reflexivity|]);
        (split; [reflexivity|]); (split; [apply SET1|]); (split; [apply OTH1|]); intros x; rewrite SELF1; (split; [intros []|apply NM]).
  - injection H as <- <-. cbn [supers bases deps]. split; [reflexivity|]. split; [reflexivity|]. split; [reflexivity|]. split; [apply SET|]. split; [apply OTH|].
    intros x. rewrite SELF, SELF1, mentions_one, EB. cbn. intuition (discriminate || tauto).
  - injection H as <- <-. cbn [supers bases deps]. split; [reflexivity|]. split; [reflexivity|]. split; [reflexivity|]. split; [apply SET|]. split; [apply OTH|].
    intros x. rewrite SELF, SELF1, mentions_one, EB. cbn. intuition (discriminate || tauto).
  - injection H as <- <-. cbn [supers bases deps]. split; [reflexivity|]. split; [reflexivity|]. split; [reflexivity|]. split; [apply SET|]. split; [apply OTH|].
    intros x. rewrite SELF, SELF1, mentions_one, EB. cbn. intuition (discriminate || tauto).
  - injection H as <- <-. cbn [supers bases deps]. split; [reflexivity|]. split; [reflexivity|]. split; [reflexivity|]. split; [apply SET|]. split; [apply OTH|].
    intros x. rewrite SELF, in_union, SELF1, mentions_one, EB, nested_refers. cbn. intuition (discriminate || tauto).
  - injection H as <- <-. cbn [supers bases deps]. split; [reflexivity|]. split; [reflexivity|]. split; [reflexivity|]. split; [apply SET|]. split; [apply OTH|].
    intros x. rewrite SELF, in_union, SELF1, mentions_one, EB, nested_refers. cbn. intuition (discriminate || tauto).
  - injection H as <- <-. cbn [supers bases deps]. split; [reflexivity|]. split; [reflexivity|]. split; [reflexivity|]. split; [apply SET|]. split; [apply OTH|].
    intros x. rewrite SELF, SELF1, mentions_one, EB. cbn. intuition (discriminate || tauto).
Qed.

Lemma new_super_spec : forall d x, new_super d = Some x <-> inherits [d] (d_id d) x.
Proof.
  intros d x. rewrite inherits_one. unfold new_super. destruct (n_base (t_name (d_spec d))); try (split; [discriminate|intros (_ & H & _); discriminate]).
  destruct (names_type _) eqn:EN.
  - apply names_refers in EN. split.
    + intros H. injection H as <-. tauto.
    + intros (_ & _ & R). f_equal. apply R.
  - split; [discriminate|]. intros (_ & _ & R). assert (names_type (n_symbol (t_name (d_spec d))) = true); [|congruence]. apply names_refers.
    assert (K : s_literal (n_symbol (t_name (d_spec d))) = x) by apply R. now rewrite K.
Qed.
Lemma new_base_spec : forall d k, new_base d = Some k <-> own_kind [d] (d_id d) k.
Proof.
  intros d k. rewrite own_one. unfold new_base. destruct (n_base (t_name (d_spec d))) eqn:EB.
  { destruct (names_type _) eqn:EN.
    - split; [discriminate|]. intros (_ & [H|[H _]]); [inversion H|]. rewrite H in EN. discriminate.
    - destruct (name_empty _) eqn:EE.
      + apply empty_name in EE. split.
        * intros H. injection H as <-. tauto.
        * intros (_ & [H|[_ ->]]); [inversion H|reflexivity].
      + split; [discriminate|]. intros (_ & [H|[H _]]); [inversion H|]. apply empty_name in H. congruence. }
  all: cbn; split;
    [intros H; injection H as <-; (split; [reflexivity|left; constructor])
    |intros (_ & [H|[H _]]); [inversion H; reflexivity|rewrite H in EB; discriminate]].
Qed.

Lemma fill_filled : forall ps t d t' e, filled ps t -> d_id d <> ""%string -> fill t d = (t', e) ->
  filled (ps ++ [d]) t' /\
  ((In (d_id d) (map d_id ps) /\ e = Some (Twice (d_id d))) \/ (~ In (d_id d) (map d_id ps) /\ e = None)).
Proof.
  intros ps t d t' e F ND H.
  destruct (definition_effect t (d_spec d) (f_blank _ _ F)) as (E1 & E2 & E3 & E4 & E5 & E6 & E7).
  set (t1 := parse_definition t (d_spec d)) in *.
  destruct (m_find (deps t1) (d_id d)) eqn:EF.
  - assert (ID : In (d_id d) (map d_id ps)) by (apply (f_known _ _ F); [exact ND|]; apply E3; [exact ND|congruence]).
    unfold fill in H. fold t1 in H. rewrite EF in H. injection H as <- <-. split; [|left; now split].
    assert (NN : ~ NoDup (map d_id (ps ++ [d]))) by (rewrite map_app; cbn; rewrite nodup_snoc; tauto).
    constructor; try (intros HN; now apply NN in HN).
    + intros a Ha. rewrite E3, (f_known _ _ F) by exact Ha. rewrite map_app, in_app_iff. cbn. split; [tauto|]. intros [G|[<-|[]]]; assumption.
    + exact E5.
    + intros x Hx. apply E7 in Hx as [[b Hx]|[Hn Hx]].
      * destruct (string_dec b "") as [->|Hb].
        -- destruct (f_void _ _ F _ Hx) as [G|[c G]]; [left; rewrite map_app; apply in_or_app; now left|right; exists c; apply mentions_app; now left].
        -- right. exists b. apply mentions_app. left. now apply (f_deps _ _ F).
      * left. rewrite map_app. apply in_or_app. left. now apply (f_known _ _ F).
    + intros a x Ha Hx. apply mentions_app. left. apply (f_deps _ _ F); [exact Ha|]. now apply E4.
    + rewrite E2. intros a b Hb. apply inherits_app. left. now apply (f_supers _ _ F).
    + rewrite E1. intros a k Hk. apply own_app. left. now apply (f_bases _ _ F).
  - assert (ID : ~ In (d_id d) (map d_id ps)) by (intros C; apply (f_known _ _ F) in C; [|exact ND]; apply E3 in C; [congruence|exact ND]).
    destruct (fill_new _ _ _ _ H EF) as (-> & P2 & P3 & P4 & P5 & P6). fold t1 in P2, P3, P4, P5.
    split; [|right; now split]. rewrite E2 in P2. rewrite E1 in P3. constructor.
    + intros a Ha. rewrite P4, E3, (f_known _ _ F) by exact Ha. rewrite map_app, in_app_iff. cbn. intuition.
    + intros a. destruct (string_dec a (d_id d)) as [->|Ha]; [|rewrite P5 by exact Ha; apply E5].
      rewrite P6, mentions_one. intros (_ & [(_ & _ & C & _)|(_ & n & _ & _ & C & _)]); now apply C.
    + intros x Hx. rewrite P5 in Hx by congruence. apply E7 in Hx as [[b Hx]|[Hn Hx]].
      * destruct (string_dec b "") as [->|Hb].
        -- destruct (f_void _ _ F _ Hx) as [G|[c G]]; [left; rewrite map_app; apply in_or_app; now left|right; exists c; apply mentions_app; now left].
        -- right. exists b. apply mentions_app. left. now apply (f_deps _ _ F).
      * left. rewrite map_app. apply in_or_app. left. now apply (f_known _ _ F).
    + intros a x Ha Hx. apply mentions_app. destruct (string_dec a (d_id d)) as [->|Hd]; [right; now apply P6|left].
      rewrite P5 in Hx by exact Hd. apply (f_deps _ _ F); [exact Ha|]. now apply E4.
    + intros HN a x Hx. rewrite map_app in HN. cbn in HN. apply nodup_snoc in HN as [HN _].
      apply mentions_app in Hx as [Hx|Hx].
      * destruct (string_dec a (d_id d)) as [->|Hd]; [now apply mentions_declared in Hx|]. rewrite P5 by exact Hd.
        apply E6. now apply (f_deps' _ _ F).
      * assert (a = d_id d) by (apply mentions_one in Hx; apply Hx). subst a. now apply P6.
    + rewrite P2. intros a b Hb. apply inherits_app. destruct (new_super d) as [x|] eqn:EX; [|left; now apply (f_supers _ _ F)].
      apply in_set in Hb as [[-> ->]|Hb]; [right; now apply new_super_spec|left; now apply (f_supers _ _ F)].
    + rewrite P2. intros HN a b Hb. rewrite map_app in HN. cbn in HN. apply nodup_snoc in HN as [HN _].
      apply inherits_app in Hb as [Hb|Hb].
      * apply (f_supers' _ _ F HN) in Hb. destruct (new_super d) as [x|] eqn:EX; [|exact Hb]. apply set_in; [|exact Hb].
        destruct (m_find (supers t) (d_id d)) eqn:EM; [|reflexivity]. exfalso. apply ID. apply find_in in EM.
        apply (f_supers _ _ F) in EM. apply (mentions_declared _ _ s). now left.
      * assert (a = d_id d) by (apply inherits_one in Hb; apply Hb). subst a. apply new_super_spec in Hb. rewrite Hb. apply set_has.
    + rewrite P3. intros a k Hk. apply own_app. destruct (new_base d) as [x|] eqn:EX; [|left; now apply (f_bases _ _ F)].
      rewrite find_set in Hk. destruct (String.eqb a (d_id d)) eqn:EA; [|left; now apply (f_bases _ _ F)].
      apply String.eqb_eq in EA. subst a. injection Hk as <-. right. now apply new_base_spec.
    + rewrite P3. intros HN a k Hk. rewrite map_app in HN. cbn in HN. apply nodup_snoc in HN as [HN _].
      apply own_app in Hk as [Hk|Hk].
      * assert (a <> d_id d) by (intros ->; now apply own_declared in Hk). apply (f_bases' _ _ F HN) in Hk.
        destruct (new_base d); [|exact Hk]. rewrite find_set. apply String.eqb_neq in H0. now rewrite H0.
      * assert (a = d_id d) by (apply own_one in Hk; apply Hk). subst a. apply new_base_spec in Hk. rewrite Hk, find_set, String.eqb_refl. reflexivity.
Qed.

Lemma filled_nil : filled [] (T [] [] []).
Proof.
  constructor; cbn; try tauto; try discriminate.
  - intros _ a x [(d & [] & _)|(d & n & [] & _)].
  - intros _ a b (d & [] & _).
  - intros _ a k [(d & [] & _)|(d & [] & _)].
Qed.

Definition dup_error (ds : list declaration) (e : option type_error) : Prop :=
  match e with None => NoDup (map d_id ds) | Some x => exists id, x = Twice id /\ twice ds id end.
Lemma fill_all_filled : forall ds ps t e t' e', filled ps t -> dup_error ps e -> Forall (fun d => d_id d <> ""%string) ds ->
  fill_all t e ds = (t', e') -> filled (ps ++ ds) t' /\ dup_error (ps ++ ds) e'.
Proof.
  induction ds as [|d ds IH]; intros ps t e t' e' F DE NE H; cbn [fill_all] in H.
  - injection H as <- <-. now rewrite app_nil_r.
  - inversion NE as [|? ? N1 N2]; subst. destruct (fill t d) as [t1 e1] eqn:E. destruct (fill_filled _ _ _ _ _ F N1 E) as [F1 R].
    replace (ps ++ d :: ds) with ((ps ++ [d]) ++ ds) by now rewrite <- app_assoc.
    apply (IH _ t1 (last_error e e1)); try assumption.
    destruct R as [[R ->]|[R ->]]; cbn.
    + exists (d_id d). split; [reflexivity|]. exists ps, d, []. tauto.
    + destruct e as [x|]; cbn in *.
      * destruct DE as (id & -> & p & d' & q & -> & Q). exists id. split; [reflexivity|]. exists p, d', (q ++ [d]). rewrite <- app_assoc. tauto.
      * rewrite map_app. cbn. apply nodup_snoc. tauto.
Qed.

(** for every list of declarations: super types are dependencies *)
Definition linked (t : tables) : Prop :=
  (forall a, ~ In ""%string (entry (deps t) a)) /\ forall a b, In (a, b) (supers t) -> In b (entry (deps t) a).
Lemma fill_linked : forall t d t' e, linked t -> fill t d = (t', e) -> linked t'.
Proof.
  intros t d t' e [L1 L2] H. destruct (definition_effect t (d_spec d) L1) as (E1 & E2 & E3 & E4 & E5 & E6 & E7).
  set (t1 := parse_definition t (d_spec d)) in *.
  destruct (m_find (deps t1) (d_id d)) eqn:EF.
  - unfold fill in H. fold t1 in H. rewrite EF in H. injection H as <- <-. split; [exact E5|]. rewrite E2. auto.
  - destruct (fill_new _ _ _ _ H EF) as (-> & P2 & P3 & P4 & P5 & P6). fold t1 in P2, P3, P4, P5. split.
    + intros a. destruct (string_dec a (d_id d)) as [->|Ha]; [|rewrite P5 by exact Ha; apply E5].
      rewrite P6, mentions_one. intros (_ & [(_ & _ & C & _)|(_ & n & _ & _ & C & _)]); now apply C.
    + assert (OLD : forall a b, In (a, b) (supers t) -> In b (entry (deps t') a)).
      { intros a b I. apply L2, E6 in I. destruct (string_dec a (d_id d)) as [->|Ha]; [|now rewrite P5].
        apply entry_known in I. congruence. }
      rewrite P2, E2. intros a b I. destruct (new_super d) as [x|] eqn:EX; [|auto].
      apply in_set in I as [[-> ->]|I]; [|auto]. apply P6. apply new_super_spec in EX. now left.
Qed.
Lemma fill_all_linked : forall ds t e t' e', linked t -> fill_all t e ds = (t', e') -> linked t'.
Proof.
  induction ds as [|d ds IH]; intros t e t' e' L H; cbn [fill_all] in H; [now injection H as <- <-|].
  destruct (fill t d) as [t1 e1] eqn:E. eapply IH; [eapply fill_linked; eassumption|exact H].
Qed.
Lemma reaches_is_trans : forall R a b c, reaches R a b -> reaches R b c -> reaches R a c.
Proof. apply reaches_trans. Qed.

Lemma preprocess_total : forall ds, exists n o, forall m, (n <= m)%nat -> preprocess m ds = Some o.
Proof.
  intros ds. unfold preprocess. destruct (fill_all (T [] [] []) None ds) as [t e] eqn:E.
  assert (L : linked t) by (eapply fill_all_linked; [|exact E]; split; cbn; tauto). destruct L as [_ L].
  destruct (resolve_all (deps t)) as (d & D1 & D2 & D3).
  assert (A : agrees (reaches (states (deps t))) (supers t) (set_deps t d)) by (split; [reflexivity|exact D2]).
  destruct (resolve_bases_total (reaches (states (deps t))) (supers t) (reaches_is_trans _)
    (fun a b I => reach_one _ _ _ (L a b I)) (supers t) (set_deps t d) e A (incl_refl _)) as [r R].
  exists (universe_size (deps t) + List.length (supers t))%nat, r. intros m Hm. rewrite D1 by lia.
  eapply resolve_bases_mono; [|exact R]. lia.
Qed.
Lemma preprocess_mono : forall ds n m o, (n <= m)%nat -> preprocess n ds = Some o -> preprocess m ds = Some o.
Proof.
  intros ds n m o L H. unfold preprocess in *. destruct (fill_all (T [] [] []) None ds) as [t e].
  destruct (resolve_deps n (deps t) (map fst (deps t))) as [d|] eqn:E; [|discriminate].
  rewrite (resolve_mono _ _ _ _ _ L E). eapply resolve_bases_mono; eassumption.
Qed.

(** reaching from a declared name never passes the empty one *)
Lemma reach_states : forall ps t, filled ps t -> NoDup (map d_id ps) -> forall a b, a <> ""%string ->
  reaches (states (deps t)) a b <-> reaches (mentions ps) a b.
Proof.
  intros ps t F ND a b Ha. split; intros H.
  - revert Ha. induction H as [a b H|a b c H H1 IH]; intros Ha.
    + apply reach_one. now apply (f_deps _ _ F).
    + apply (reach_more _ a b c); [now apply (f_deps _ _ F)|]. apply IH. intros ->. now apply (f_blank _ _ F) in H.
  - eapply reaches_mono; [|exact H]. apply (f_deps' _ _ F ND).
Qed.
Lemma reach_states_sound : forall ps t, filled ps t -> forall a b, a <> ""%string ->
  reaches (states (deps t)) a b -> reaches (mentions ps) a b.
Proof.
  intros ps t F a b Ha H. revert Ha. induction H as [a b H|a b c H H1 IH]; intros Ha.
  - apply reach_one. now apply (f_deps _ _ F).
  - apply (reach_more _ a b c); [now apply (f_deps _ _ F)|]. apply IH. intros ->. now apply (f_blank _ _ F) in H.
Qed.
Lemma unique_decl : forall ds d1 d2, NoDup (map d_id ds) -> In d1 ds -> In d2 ds -> d_id d1 = d_id d2 -> d1 = d2.
Proof.
  induction ds as [|d ds IH]; intros d1 d2 N I1 I2 E; [destruct I1|]. cbn in N. inversion N as [|? ? N1 N2]; subst.
  destruct I1 as [<-|I1], I2 as [<-|I2]; auto.
  - exfalso. apply N1. rewrite E. now apply in_map.
  - exfalso. apply N1. rewrite <- E. now apply in_map.
Qed.
Lemma inherits_fun : forall ds a b c, NoDup (map d_id ds) -> inherits ds a b -> inherits ds a c -> b = c.
Proof.
  intros ds a b c N (d1 & I1 & E1 & B1 & R1 & _) (d2 & I2 & E2 & B2 & R2 & _).
  assert (d1 = d2) by (apply (unique_decl ds); congruence). subst d2. congruence.
Qed.
Lemma inherits_not_own : forall ds a b k, NoDup (map d_id ds) -> inherits ds a b -> own_kind ds a k -> False.
Proof.
  intros ds a b k N (d1 & I1 & E1 & B1 & R1 & R2 & _) [(d2 & I2 & E2 & B2)|(d2 & I2 & E2 & B2 & _)];
    (assert (d1 = d2) by (apply (unique_decl ds); congruence)); subst d2.
  - rewrite B1 in B2. inversion B2.
  - rewrite B2 in R1. cbn in R1. congruence.
Qed.
Lemma own_fun : forall ds a k k', NoDup (map d_id ds) -> own_kind ds a k -> own_kind ds a k' -> k = k'.
Proof.
  intros ds a k k' N [(d1 & I1 & E1 & B1)|(d1 & I1 & E1 & B1 & ->)] [(d2 & I2 & E2 & B2)|(d2 & I2 & E2 & B2 & ->)];
    (assert (d1 = d2) by (apply (unique_decl ds); congruence)); subst d2.
  - inversion B1; inversion B2; congruence.
  - rewrite B2 in B1. inversion B1.
  - rewrite B1 in B2. inversion B2.
  - reflexivity.
Qed.
Lemma own_is_kind : forall ds a k, own_kind ds a k -> kind ds a k.
Proof.
  intros ds a k [(d & I & <- & B)|(d & I & <- & B & ->)]; [now apply kind_own|now apply kind_implicit].
Qed.
Lemma kind_cases : forall ds a k, kind ds a k -> own_kind ds a k \/ exists b, inherits ds a b /\ kind ds b k.
Proof.
  intros ds a k H. destruct H.
  - left. left. eauto.
  - left. right. eauto.
  - right. eauto.
Qed.
Lemma kind_fun : forall ds a k, NoDup (map d_id ds) -> kind ds a k -> forall k', kind ds a k' -> k = k'.
Proof.
  intros ds a k N H. induction H as [d k I B|d I B|a b k I H IH]; intros k' H'.
  - assert (O : own_kind ds (d_id d) k) by (left; eauto).
    apply kind_cases in H' as [H'|(b & I' & _)]; [now apply (own_fun ds (d_id d))|]. exfalso. eapply inherits_not_own; eassumption.
  - assert (O : own_kind ds (d_id d) ImplicitObjectBT) by (right; eauto).
    apply kind_cases in H' as [H'|(b & I' & _)]; [now apply (own_fun ds (d_id d))|]. exfalso. eapply inherits_not_own; eassumption.
  - apply kind_cases in H' as [H'|(b' & I' & K')]; [exfalso; eapply inherits_not_own; eassumption|].
    rewrite (inherits_fun _ _ _ _ N I I') in *. auto.
Qed.

Lemma rooted_kind : forall ps t a k, filled ps t -> rooted (supers t) (bases t) a k -> kind ps a k.
Proof.
  intros ps t a k F H. induction H as [a k H|a b k H H1 IH].
  - apply own_is_kind. now apply (f_bases _ _ F).
  - apply kind_inherited with b; [now apply (f_supers _ _ F)|exact IH].
Qed.

Lemma preprocess_spec : forall ds n t e, Forall (fun d => d_id d <> ""%string) ds -> preprocess n ds = Some (t, e) ->
  match e with
  | None => sensible ds /\
      (forall a k, m_find (bases t) a = Some k <-> kind ds a k) /\
      (forall a b, a <> ""%string -> states (deps t) a b <-> reaches (mentions ds) a b) /\
      (forall a, a <> ""%string -> known (deps t) a <-> In a (map d_id ds) \/ exists b, mentions ds b a) /\
      transitive (deps t) /\ (forall a, ~ states (deps t) a ""%string)
  | Some (Twice id) => twice ds id
  | Some (Circular a) => (exists b, inherits ds a b) /\ reaches (mentions ds) a a
  | Some (Missing b) => (exists a, inherits ds a b) /\ (NoDup (map d_id ds) -> forall k, ~ kind ds b k)
  end.
Proof.
  intros ds n t e NE H. unfold preprocess in H. destruct (fill_all (T [] [] []) None ds) as [t0 e0] eqn:E.
  destruct (fill_all_filled ds [] (T [] [] []) None _ _ filled_nil (NoDup_nil _) NE E) as [F DE]. cbn [app] in F, DE.
  destruct (resolve_all (deps t0)) as (d & D1 & D2 & D3).
  destruct (resolve_deps n (deps t0) (map fst (deps t0))) as [d'|] eqn:ED; [|discriminate].
  assert (d' = d).
  { pose proof (resolve_mono (map fst (deps t0)) n (max n (universe_size (deps t0))) _ _ ltac:(lia) ED) as Q.
    rewrite D1 in Q by lia. congruence. }
  subst d'.
  set (D := reaches (states (deps t0))) in *.
  assert (A : agrees D (supers t0) (set_deps t0 d)) by (split; [reflexivity|exact D2]).
  assert (SNE : forall a b, inherits ds a b -> a <> ""%string).
  { intros a b (x & I & <- & _). rewrite Forall_forall in NE. auto. }
  assert (FF : NoDup (map d_id ds) -> faithful D (supers t0) (bases t0) (set_deps t0 d)).
  { intros ND. split; [|split]; cbn [bases set_deps].
    - intros a k Hk. now apply rooted_own.
    - auto.
    - intros a Ha Hn. congruence. }
  assert (FG : faithful D (supers t0) (bases t0) (set_deps t0 d)).
  { split; [|split]; cbn [bases set_deps].
    - intros a k Hk. now apply rooted_own.
    - auto.
    - intros a Ha Hn. congruence. }
  destruct (resolve_bases_spec D (supers t0) (bases t0) _ _ _ _ _ _ H A FG (incl_refl _)) as (P1 & P2 & P3 & P4).
  destruct e as [x|].
  - destruct P4 as [->|P4].
    + destruct DE as (id & -> & Q). exact Q.
    + destruct x as [id|a|b]; cbn in P4; [destruct P4| |].
      * destruct P4 as [(b & I) Q]. apply (f_supers _ _ F) in I. split; [now exists b|]. apply (reach_states_sound _ _ F); [eauto|exact Q].
      * destruct P4 as [(a & I) (Q1 & Q2)]. apply (f_supers _ _ F) in I. split; [now exists a|]. intros ND k K.
        apply kind_cases in K as [K|(c & K & _)].
        -- apply (f_bases' _ _ F ND) in K. congruence.
        -- apply (f_supers' _ _ F ND) in K. now apply Q2 in K.
  - destruct P4 as [-> P4]. cbn in DE. destruct P2 as (Q1 & Q2 & Q3).
    assert (INH : forall a b, inherits ds a b -> m_find (bases t) a <> None /\ m_find (bases t0) a = None).
    { intros a b I. split; [apply (P4 a b); now apply (f_supers' _ _ F DE)|].
      destruct (m_find (bases t0) a) eqn:EM; [|reflexivity]. apply (f_bases _ _ F) in EM. exfalso. eapply inherits_not_own; eassumption. }
    assert (ST : forall a b, a <> ""%string -> states (deps t) a b <-> reaches (mentions ds) a b).
    { intros a b Ha. unfold states. rewrite (proj2 P1). now apply reach_states. }
    assert (BK : forall a k, m_find (bases t) a = Some k -> kind ds a k).
    { intros a k Hk. apply (rooted_kind ds t0); [exact F|]. now apply Q1. }
    split; [|split; [|split; [|split; [|split]]]].
    + split; [exact DE|]. split.
      * intros a b I C. destruct (INH _ _ I) as [I1 I2]. apply (Q3 a I1 I2). unfold D. apply (reach_states _ _ F DE); [eauto|exact C].
      * intros a b I. destruct (INH _ _ I) as [I1 I2]. destruct (m_find (bases t) a) as [k|] eqn:EK; [|congruence].
        apply BK, kind_cases in EK as [EK|(b' & I' & K)]; [exfalso; eapply inherits_not_own; eassumption|].
        rewrite (inherits_fun _ _ _ _ DE I I'). now exists k.
    + intros a k. split; [apply BK|]. intros K. destruct (kind_cases _ _ _ K) as [O|(b & I & _)].
      * apply Q2. now apply (f_bases' _ _ F DE).
      * destruct (INH _ _ I) as [I1 _]. destruct (m_find (bases t) a) as [k'|] eqn:EK; [|congruence].
        f_equal. apply (kind_fun ds a); [exact DE|now apply BK|exact K].
    + exact ST.
    + intros a Ha.
      assert (KD : known (deps t) a <-> m_find d a <> None).
      { assert (forall r, resolve_bases n (set_deps t0 d) None (supers t0) = Some r -> forall k, m_find (deps (fst r)) k <> None <-> m_find d k <> None) as KK.
        2:{ specialize (KK _ H a). cbn [fst] in KK. unfold known. rewrite <- KK. destruct (m_find (deps t) a) as [l|]; split; try discriminate; eauto; try (intros [s ?]; discriminate). congruence. }
        assert (KS : forall m t1 sub super r, resolve_base m t1 sub super = Some r -> In (sub, super) (supers t0) -> supers t1 = supers t0 ->
           (forall k, m_find (deps t1) k <> None <-> m_find d k <> None) -> supers (fst r) = supers t0 /\ forall k, m_find (deps (fst r)) k <> None <-> m_find d k <> None).
        { induction m as [|m IHm]; intros t1 sub super r R I SQ Q; [discriminate|]. cbn [resolve_base] in R.
          destruct (m_find (bases t1) sub); [injection R as <-; now split|].
          assert (T1 : forall k, m_find (touch (deps t1) sub) k <> None <-> m_find d k <> None).
          { intros k. rewrite find_touch, Q. split; [|tauto]. intros [G| ->]; [exact G|]. apply D3. left.
            apply (f_known _ _ F); [apply (f_supers _ _ F) in I; eauto|]. apply (f_supers _ _ F) in I. apply (mentions_declared _ _ super). now left. }
          cbn [deps set_deps bases supers] in R.
          destruct (s_mem _ _); [injection R as <-; now split|]. destruct (m_find (bases t1) super); [injection R as <-; now split|].
          destruct (m_find (supers t1) super) as [ab|] eqn:ES; [|injection R as <-; now split].
          destruct (resolve_base m _ super ab) as [[t2 e2]|] eqn:ER; [|discriminate].
          assert (I2 : In (super, ab) (supers t0)) by (rewrite <- SQ; now apply find_in).
          destruct (IHm _ _ _ _ ER I2 SQ T1) as [S2 K2]. cbn [fst] in S2, K2.
          destruct e2; [injection R as <-; now split|]. destruct (m_find (bases t2) super); [|discriminate]. injection R as <-. now split. }
        assert (KL : forall l t1 e1 r, resolve_bases n t1 e1 l = Some r -> incl l (supers t0) -> supers t1 = supers t0 ->
           (forall k, m_find (deps t1) k <> None <-> m_find d k <> None) -> forall k, m_find (deps (fst r)) k <> None <-> m_find d k <> None).
        { induction l as [|[s u] l IHl]; intros t1 e1 r R I SQ Q; cbn [resolve_bases] in R; [injection R as <-; exact Q|].
          destruct (resolve_base n t1 s u) as [[t2 e2]|] eqn:ER; [|discriminate].
          destruct (KS _ _ _ _ _ ER (I _ (or_introl eq_refl)) SQ Q) as [S2 K2]. cbn [fst] in S2, K2.
          destruct (last_error e1 e2); [injection R as <-; exact K2|]. apply (IHl _ _ _ R); try assumption. intros y Hy. apply I. now right. }
        intros r R. apply (KL _ _ _ _ R); [apply incl_refl|reflexivity|]. intros k. reflexivity. }
      rewrite KD, D3, (f_known _ _ F) by exact Ha. split.
      * intros [G|[j G]]; [now left|]. destruct (string_dec j "") as [->|Hj]; [|right; exists j; now apply (f_deps _ _ F)].
        now apply (f_void _ _ F).
      * intros [G|[b G]]; [now left|]. right. exists b. now apply (f_deps' _ _ F DE).
    + intros a b c Hab Hbc. unfold states in *. rewrite (proj2 P1) in *. eapply reaches_trans; eassumption.
    + intros a Ha. unfold states in Ha. rewrite (proj2 P1) in Ha.
      assert (forall a b, reaches (states (deps t0)) a b -> b <> ""%string) as NB.
      { intros p q R. induction R as [p q R|p q r R R1 IH]; [|exact IH]. intros ->. now apply (f_blank _ _ F) in R. }
      now apply NB in Ha.
Qed.
