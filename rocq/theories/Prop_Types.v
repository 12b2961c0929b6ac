(** C50, C51: the tables of named types (BlueprintParser.h:162-229, 325-533; MSONUtility.h:302-357) *)
From Verif Require Import Base TypeTables TypeTablesSpec TypeTablesProofs.

(** C50: going through the named types of a blueprint comes to an end, whatever they are *)
Theorem C50_ends : forall ds, exists n o, forall m, (n <= m)%nat -> preprocess m ds = Some o.
Proof. exact preprocess_total. Qed.
Theorem C50_ends_once : forall ds n m o p, preprocess n ds = Some o -> preprocess m ds = Some p -> o = p.
Proof.
  intros ds n m o p H1 H2. apply (preprocess_mono _ _ (max n m)) in H1; [|lia]. apply (preprocess_mono _ _ (max n m)) in H2; [|lia]. congruence.
Qed.

(** C50: a blueprint is accepted exactly if no name is declared twice, no sub type depends on itself and every super type has a kind *)
Theorem C50_accepted : forall ds n t e, Forall (fun d => d_id d <> ""%string) ds -> preprocess n ds = Some (t, e) ->
  (e = None <-> sensible ds).
Proof.
  intros ds n t e NE H. pose proof (preprocess_spec _ _ _ _ NE H) as P. split.
  - intros ->. apply P.
  - intros (S1 & S2 & S3). destruct e as [x|]; [exfalso|reflexivity]. destruct x as [id|a|b].
    + destruct P as (p & d & q & -> & <- & I). rewrite map_app in S1. cbn in S1. apply NoDup_remove in S1 as [_ S1].
      apply S1. apply in_or_app. now left.
    + destruct P as [[b I] C]. now apply (S2 a b).
    + destruct P as [[a I] C]. destruct (S3 a b I) as [k K]. now apply (C S1 k).
Qed.
(** C50: an accepted blueprint has the kind of every type, and its dependencies, in the tables *)
Theorem C50_tables : forall ds n t, Forall (fun d => d_id d <> ""%string) ds -> preprocess n ds = Some (t, None) ->
  (forall a k, m_find (bases t) a = Some k <-> kind ds a k) /\
  (forall a b, a <> ""%string -> states (deps t) a b <-> reaches (mentions ds) a b).
Proof. intros ds n t NE H. pose proof (preprocess_spec _ _ _ _ NE H) as P. split; apply P. Qed.
(** C50: the error says what is wrong *)
Theorem C50_errors : forall ds n t x, Forall (fun d => d_id d <> ""%string) ds -> preprocess n ds = Some (t, Some x) ->
  match x with
  | Twice id => twice ds id
  | Circular a => (exists b, inherits ds a b) /\ reaches (mentions ds) a a
  | Missing b => (exists a, inherits ds a b) /\ (NoDup (map d_id ds) -> forall k, ~ kind ds b k)
  end.
Proof. intros ds n t x NE H. exact (preprocess_spec _ _ _ _ NE H). Qed.

(** C51: calls of addDependency: what the table states is what follows from the dependencies added *)
Lemma calls_closed : forall l d d' es, transitive d -> calls d l = (d', es) ->
  (forall a b, states d' a b <-> reaches (fun x y => states d x y \/ added l es x y) a b) /\
  (forall a, known d' a <-> known d a \/ exists b, added l es a b) /\ transitive d'.
Proof.
  induction l as [|c l IH]; intros d d' es TR H; cbn [calls] in H.
  - injection H as <- <-. split; [|split; [|exact TR]].
    + intros a b. split; [intros S; apply reach_one; now left|]. intros S. apply reaches_closed; [exact TR|].
      eapply reaches_mono; [|exact S]. intros x y [Q|[s []]]; exact Q.
    + intros a. split; [now left|]. intros [Q|(b & s & [])]; exact Q.
  - destruct (add_dependency d (c_on c) (c_by c) (c_strict c)) as [d1 e] eqn:E. destruct (calls d1 l) as [d2 es'] eqn:E2. injection H as <- <-.
    pose proof (add_step _ _ _ _ _ _ E TR) as P.
    assert (AD : forall x y, added (c :: l) (e :: es') x y <-> (e = None /\ x = c_by c /\ y = c_on c) \/ added l es' x y).
    { intros x y. unfold added. cbn. destruct c as [o b s]. cbn. split.
      - intros [s' [Q|Q]]; [|right; eauto]. injection Q as -> -> -> ->. now left.
      - intros [(-> & -> & ->)|[s' Q]]; [exists s; now left|exists s'; now right]. }
    assert (SAME : e <> None -> d1 = d) by (destruct e as [[i|a|b]|]; intros; try congruence; tauto).
    destruct e as [x|].
    + rewrite (SAME ltac:(discriminate)) in *. destruct (IH _ _ _ TR E2) as (Q1 & Q2 & Q3). split; [|split; [|exact Q3]].
      * assert (AD' : forall p q, added (c :: l) (Some x :: es') p q <-> added l es' p q) by (intros p q; rewrite AD; intuition discriminate).
        intros a b. rewrite Q1. split; apply reaches_mono; intros p q; rewrite AD'; tauto.
      * assert (AD' : forall p q, added (c :: l) (Some x :: es') p q <-> added l es' p q) by (intros p q; rewrite AD; intuition discriminate).
        intros a. rewrite Q2. split; (intros [W|[b W]]; [now left|right; exists b]); now apply AD'.
    + destruct P as (P1 & P2 & P3 & P4).
      assert (TR1 : transitive d1).
      { intros a b x Hab Hbx. rewrite P3 in *. eapply reaches_trans; eassumption. }
      destruct (IH _ _ _ TR1 E2) as (Q1 & Q2 & Q3). split; [|split; [|exact Q3]].
      * intros a b. rewrite Q1. split; intros W.
        -- induction W as [a b W|a b x W W1 IHW].
           ++ destruct W as [W|W]; [|apply reach_one; right; apply AD; now right].
              apply P3 in W. eapply reaches_mono; [|exact W]. intros p q [V|[-> ->]]; [now left|]. right. apply AD. left. now split.
           ++ eapply reaches_trans; [|exact IHW]. destruct W as [W|W]; [|apply reach_one; right; apply AD; now right].
              apply P3 in W. eapply reaches_mono; [|exact W]. intros p q [V|[-> ->]]; [now left|]. right. apply AD. left. now split.
        -- eapply reaches_mono; [|exact W]. intros p q [V|V].
           ++ left. apply P3. apply reach_one. now left.
           ++ apply AD in V as [(_ & -> & ->)|V]; [|now right]. left. apply P3. apply reach_one. now right.
      * intros a. rewrite Q2, P4. split.
        -- intros [[W| ->]|[b W]]; [now left| |right; exists b; apply AD; now right]. right. exists (c_on c). apply AD. left. now split.
        -- intros [W|[b W]]; [left; now left|]. apply AD in W as [(_ & -> & ->)|W]; [left; now right|right; now exists b].
Qed.

(** C51: at every moment the table states exactly what follows from the declarations and the dependencies added since *)
Theorem C51_closed : forall ds n t l d es, Forall (fun d => d_id d <> ""%string) ds -> preprocess n ds = Some (t, None) ->
  Forall (fun c => c_on c <> ""%string) l -> calls (deps t) l = (d, es) ->
  forall a b, a <> ""%string -> states d a b <-> reaches (fun x y => mentions ds x y \/ added l es x y) a b.
Proof.
  intros ds n t l d es NE H NL HC a b Ha. pose proof (preprocess_spec _ _ _ _ NE H) as (_ & _ & P3 & _ & P5 & P6).
  destruct (calls_closed _ _ _ _ P5 HC) as (Q1 & _ & _). rewrite Q1.
  assert (AN : forall x y, added l es x y -> y <> ""%string).
  { intros x y [s I]. apply in_combine_l in I. rewrite Forall_forall in NL. exact (NL _ I). }
  split; intros W.
  - revert Ha. induction W as [a b W|a b c W W1 IH]; intros Ha.
    + destruct W as [W|W]; [|apply reach_one; now right]. apply P3 in W; [|exact Ha]. eapply reaches_mono; [|exact W]. now left.
    + assert (Hb : b <> ""%string) by (destruct W as [W|W]; [intros ->; now apply P6 in W|now apply AN in W]).
      eapply reaches_trans; [|now apply IH]. destruct W as [W|W]; [|apply reach_one; now right].
      apply P3 in W; [|exact Ha]. eapply reaches_mono; [|exact W]. now left.
  - assert (MN : forall x y, mentions ds x y -> x <> ""%string).
    { intros x y M. apply mentions_declared in M. apply in_map_iff in M as (z & <- & M). rewrite Forall_forall in NE. auto. }
    eapply reaches_mono; [|exact W]. intros x y [V|V]; [|now right]. left. apply P3; [now apply (MN x y)|]. now apply reach_one.
Qed.

(** C51: the answer to a further call *)
Theorem C51_answers : forall ds n t l d es on by_ s, Forall (fun d => d_id d <> ""%string) ds -> preprocess n ds = Some (t, None) ->
  Forall (fun c => c_on c <> ""%string) l -> calls (deps t) l = (d, es) -> on <> ""%string ->
  let R := fun x y => mentions ds x y \/ added l es x y in
  let heard := In on (map d_id ds) \/ (exists b, mentions ds b on) \/ exists b, added l es on b in
  match snd (add_dependency d on by_ s) with
  | Some (Missing x) => x = on /\ ~ heard
  | Some (Circular x) => x = by_ /\ heard /\ s = true /\ (by_ = on \/ reaches R on by_)
  | Some (Twice _) => False
  | None => heard /\ (s = true -> by_ <> on /\ ~ reaches R on by_)
  end.
Proof.
  intros ds n t l d es on by_ s NE H NL HC Ho R heard.
  pose proof (C51_closed _ _ _ _ _ _ NE H NL HC) as CL.
  pose proof (preprocess_spec _ _ _ _ NE H) as (_ & _ & _ & P4 & P5 & _).
  destruct (calls_closed _ _ _ _ P5 HC) as (_ & Q2 & Q3).
  assert (HK : known d on <-> heard) by (rewrite Q2, P4 by exact Ho; unfold heard; tauto).
  destruct (add_dependency d on by_ s) as [d' e] eqn:E. pose proof (add_step _ _ _ _ _ _ E Q3) as A. cbn [snd].
  pose proof (CL on by_ Ho) as CO. fold R in CO. clearbody R heard. destruct e as [[i|x|x]|]; tauto.
Qed.

(** concrete cases *)
Definition plain (x : string) : type_name := TN UndefinedTN (Sym x false).
Definition sub (a b : string) : declaration := Decl a (TS (plain b) []).
Definition none (a : string) : declaration := Decl a (TS (plain "") []).
Definition array_of (a b : string) : declaration := Decl a (TS (TN ArrayTN (Sym "" false)) [plain b]).

Example C50_accepted_instance : exists t, preprocess 9 [sub "C" "B"; sub "B" "A"; none "A"; array_of "L" "C"] = Some (t, None) /\
  m_find (bases t) "C" = Some ImplicitObjectBT /\ m_find (bases t) "L" = Some ValueBT /\ states (deps t) "L" "A".
Proof. eexists. split; [vm_compute; reflexivity|]. split; [reflexivity|]. split; [reflexivity|]. vm_compute. tauto. Qed.
Example C50_errors_instance :
  option_map snd (preprocess 9 [sub "A" "B"; sub "B" "A"]) = Some (Some (Circular "A")) /\
  option_map snd (preprocess 9 [sub "A" "B"; none "A"]) = Some (Some (Missing "B")) /\
  option_map snd (preprocess 9 [none "A"; none "A"]) = Some (Some (Twice "A")).
Proof. repeat split. Qed.
Example C51_instance : exists t d, preprocess 9 [sub "B" "A"; none "A"; none "C"] = Some (t, None) /\
  calls (deps t) [Call "B" "C" false; Call "C" "A" true; Call "C" "A" false] = (d, [None; Some (Circular "A"); None]) /\ states d "A" "A".
Proof. do 2 eexists. split; [vm_compute; reflexivity|]. split; [vm_compute; reflexivity|]. vm_compute. tauto. Qed.

(** C51, what fails: a type that is named as the item of an array counts as defined, so a reference to it raises no error *)
Theorem C51_undefined_refuted : ~ (forall ds n t x by_ s, Forall (fun d => d_id d <> ""%string) ds -> preprocess n ds = Some (t, None) ->
  x <> ""%string -> ~ In x (map d_id ds) -> snd (add_dependency (deps t) x by_ s) = Some (Missing x)).
Proof.
  intros H. destruct (preprocess 9 [array_of "A" "B"]) as [[t e]|] eqn:E; [|discriminate].
  assert (e = None) by (vm_compute in E; congruence). subst e.
  specialize (H [array_of "A" "B"] 9%nat t "B"%string "X"%string false).
  specialize (H ltac:(repeat constructor; discriminate) E ltac:(discriminate) ltac:(cbn; intuition discriminate)).
  vm_compute in E. injection E as <-. vm_compute in H. discriminate.
Qed.
(** C51, what fails: whether two dependencies are accepted depends on the order of the types in the document *)
Theorem C51_order_refuted : ~ (forall ds n t c1 c2 d1 d2 es1 es2, Forall (fun d => d_id d <> ""%string) ds -> preprocess n ds = Some (t, None) ->
  calls (deps t) [c1; c2] = (d1, es1) -> calls (deps t) [c2; c1] = (d2, es2) -> es1 = [None; None] -> es2 = [None; None]).
Proof.
  intros H. destruct (preprocess 9 [none "A"; none "B"]) as [[t e]|] eqn:E; [|discriminate].
  assert (e = None) by (vm_compute in E; congruence). subst e.
  destruct (calls (deps t) [Call "A" "B" true; Call "B" "A" false]) as [d1 es1] eqn:C1.
  destruct (calls (deps t) [Call "B" "A" false; Call "A" "B" true]) as [d2 es2] eqn:C2.
  assert (NE : Forall (fun d => d_id d <> ""%string) [none "A"; none "B"]) by (repeat constructor; discriminate).
  specialize (H _ _ _ _ _ _ _ _ _ NE E C1 C2).
  vm_compute in E. injection E as <-. vm_compute in C1, C2. injection C1 as <- <-. injection C2 as <- <-. now specialize (H eq_refl).
Qed.
(** C50, what is refused although every name has a kind: a sub type that an array of its super type holds *)
Theorem C50_recursion_refused : forall n t e, preprocess n [sub "B" "A"; array_of "A" "B"] = Some (t, e) ->
  e = Some (Circular "B") /\ kind [sub "B" "A"; array_of "A" "B"] "B" ValueBT.
Proof.
  intros n t e H. split.
  - assert (Q : option_map snd (preprocess 9 [sub "B" "A"; array_of "A" "B"]) = Some (Some (Circular "B"))) by reflexivity.
    destruct (preprocess 9 _) as [p|] eqn:E in Q; [|discriminate]. pose proof (C50_ends_once _ _ _ _ _ H E). subst p. cbn in Q. congruence.
  - apply kind_inherited with "A"%string.
    + exists (sub "B" "A"). cbn. repeat split; auto. discriminate.
    + apply (kind_own _ (array_of "A" "B")); [cbn; tauto|constructor].
Qed.
Print Assumptions C50_accepted.
Print Assumptions C51_answers.
