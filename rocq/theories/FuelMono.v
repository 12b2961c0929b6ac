(** More fuel never changes an answer: expansion and the generators of bodies and schemas *)
From Verif Require Import Base SoValue Element Extend Registry Expand ExpandProofs ElementUtils JsonValue JsonSchema GenSpec.

Definition below {A} (m m' : option A) : Prop := forall x, m = Some x -> m' = Some x.
Lemma below_refl : forall A (m : option A), below m m.
Proof. intros A m x H. exact H. Qed.
Lemma below_none : forall A (m : option A), below None m.
Proof. intros A m x H. discriminate H. Qed.
Lemma below_bind : forall A B (m m' : run A) (f f' : A -> run B), below m m' -> (forall a, below (f a) (f' a)) -> below (bind m f) (bind m' f').
Proof. intros A B m m' f f' H K x E. destruct m as [y|]; [|discriminate E]. rewrite (H y eq_refl). destruct y; cbn in *; [now apply K|exact E|exact E]. Qed.
Lemma below_noexc : forall A (m m' : run A), below m m' -> below (noexc m) (noexc m').
Proof. intros A m m' H x E. destruct m as [y|]; [|discriminate E]. now rewrite (H y eq_refl). Qed.
Lemma below_mapR : forall A B (f f' : A -> run B), (forall a, below (f a) (f' a)) -> forall l, below (mapR f l) (mapR f' l).
Proof.
  intros A B f f' H. induction l as [|x l IH]; [apply below_refl|]. cbn [mapR]. apply below_bind; [apply H|]. intros y. apply below_bind; [apply IH|].
  intros ys. apply below_refl.
Qed.
Lemma below_foldR : forall A B (f f' : A -> B -> run A), (forall a b, below (f a b) (f' a b)) -> forall l a, below (foldR f a l) (foldR f' a l).
Proof. intros A B f f' H. induction l as [|x l IH]; intros a; [apply below_refl|]. cbn [foldR]. apply below_bind; [apply H|]. intros y. apply IH. Qed.

Ltac mono IH :=
  first
    [ match goal with |- below ?a ?a => apply below_refl end
    | match goal with |- below None _ => apply below_none end
    | IH
    | match goal with
      | |- below (bind _ _) (bind _ _) => apply below_bind; [mono IH|let a := fresh "a" in intros a; mono IH]
      | |- below (noexc _) (noexc _) => apply below_noexc; mono IH
      | |- below (mapR _ _) (mapR _ _) => apply below_mapR; let a := fresh "a" in intros a; mono IH
      | |- below (foldR _ _ _) (foldR _ _ _) => apply below_foldR; let a := fresh "a" in let b := fresh "b" in intros a b; mono IH
      | |- below (match ?x with _ => _ end) _ => destruct x; mono IH
      | |- below (let x := _ in _) _ => cbv zeta; mono IH
      end ].

Lemma inherits_below : forall n m e, n <= m -> below (inherits_fixed n e) (inherits_fixed m e).
Proof.
  induction n as [|n IH]; intros [|m] e L; try apply below_none; [lia|]. cbn [inherits_fixed]. assert (L' : n <= m) by lia.
  mono ltac:(apply (IH m _ L')).
Qed.
Lemma render_key_below : forall n m e, n <= m -> below (render_key n e) (render_key m e).
Proof.
  induction n as [|n IH]; intros [|m] e L; try apply below_none; [lia|]. cbn [render_key]. assert (L' : n <= m) by lia.
  mono ltac:(apply (IH m _ L')).
Qed.
Lemma size_below : forall n m e i, n <= m -> below (size_of n e i) (size_of m e i).
Proof.
  induction n as [|n IH]; intros [|m] e i L; try apply below_none; [lia|]. cbn [size_of]. cbv zeta. assert (L' : n <= m) by lia.
  mono ltac:(apply (IH m _ _ L')).
Qed.
Lemma sample_below : forall (f f' : element -> vopts -> run value) e o, (forall e o, below (f e o) (f' e o)) ->
  below (sample_default_null f e o) (sample_default_null f' e o).
Proof. intros f f' e o H. unfold sample_default_null. mono ltac:(apply H). Qed.
Lemma v_pass_below : forall n m o e, n <= m -> below (v_inherit_or_pass n o e) (v_inherit_or_pass m o e).
Proof. intros n m o e L. unfold v_inherit_or_pass. mono ltac:(apply (inherits_below n m _ L)). Qed.
Lemma s_pass_below : forall n m o e, n <= m -> below (s_inherit_or_pass n o e) (s_inherit_or_pass m o e).
Proof. intros n m o e L. unfold s_inherit_or_pass. mono ltac:(apply (inherits_below n m _ L)). Qed.

Lemma value_below : forall n m, n <= m -> (forall e o, below (render_value n e o) (render_value m e o)) /\
  (forall obj e o, below (render_property n obj e o) (render_property m obj e o)) /\
  (forall arr e o, below (render_item n arr e o) (render_item m arr e o)).
Proof.
  induction n as [|n IH]; intros [|m] L; try (now repeat split; intros; apply below_none); [lia|]. assert (L' : n <= m) by lia.
  destruct (IH m L') as (V & P & I'). repeat split; intros; cbn [render_value render_property render_item];
  mono ltac:(first [apply V|apply P|apply I'|apply (v_pass_below n m _ _ L')|apply (render_key_below n m _ L')
    |match goal with |- below (sample_default_null _ _ _) _ => apply sample_below, V end]).
Qed.
Lemma schema_below : forall n m, n <= m -> (forall e o, below (render_schema n e o) (render_schema m e o)) /\
  (forall s e o, below (render_sproperty n s e o) (render_sproperty m s e o)).
Proof.
  induction n as [|n IH]; intros [|m] L; try (now repeat split; intros; apply below_none); [lia|]. assert (L' : n <= m) by lia.
  destruct (IH m L') as (V & P). repeat split; intros; cbn [render_schema render_sproperty]; cbv zeta;
  mono ltac:(first [apply V|apply P|apply (s_pass_below n m _ _ L')|apply (size_below n m _ _ L')
    |match goal with |- below (generate_value _ _) _ => apply (value_below n m L') end]).
Qed.
Lemma generate_value_below : forall n m e, n <= m -> below (generate_value n e) (generate_value m e).
Proof. intros n m e L. apply (value_below n m L). Qed.
Lemma generate_schema_below : forall n m e, n <= m -> below (generate_schema n e) (generate_schema m e).
Proof. intros n m e L. unfold generate_schema. mono ltac:(apply (schema_below n m L)). Qed.

Lemma inheritance_below : forall n m r en seen, n <= m -> below (inheritance n r en seen) (inheritance m r en seen).
Proof.
  induction n as [|n IH]; intros [|m] r en seen L; try apply below_none; [lia|]. cbn [inheritance]. assert (L' : n <= m) by lia.
  mono ltac:(apply (IH m _ _ _ L')).
Qed.
Lemma tree_below : forall n m r en, n <= m -> below (inheritance_tree n r en) (inheritance_tree m r en).
Proof.
  intros n m r en L x. unfold inheritance_tree. destruct (inheritance n r en []) as [y|] eqn:E; [|discriminate].
  now rewrite (inheritance_below n m r en [] L y E).
Qed.
Lemma root_below : forall n m r en, n <= m -> below (FindRootAncestor n r en) (FindRootAncestor m r en).
Proof.
  intros n m r en L x. unfold FindRootAncestor. destruct (rfind r en) eqn:E; [|auto]. intros H.
  destruct (find_root_from n r en e) as [y|] eqn:E'; [|discriminate]. now rewrite (find_root_mono n m _ _ _ _ E' L).
Qed.
Section Rounds.
  Context (r : registry) (f f' : list string -> element -> run (option element)) (F : forall ms e, below (f ms e) (f' ms e)) (n m : nat) (L : n <= m).
  Lemma clone_below : forall ms e, below (expand_or_clone f ms e) (expand_or_clone f' ms e).
  Proof. intros ms e. unfold expand_or_clone. mono ltac:(apply F). Qed.
  Lemma clone_ptr_below : forall ms o, below (expand_or_clone_ptr f ms o) (expand_or_clone_ptr f' ms o).
  Proof. intros ms o. unfold expand_or_clone_ptr. mono ltac:(apply clone_below). Qed.
  Lemma expand_value_below : forall ms d, below (expand_value f ms d) (expand_value f' ms d).
  Proof. intros ms d. unfold expand_value. mono ltac:(first [apply clone_below|apply clone_ptr_below]). Qed.
  Lemma expand_members_below : forall ms e, below (expand_members f ms e) (expand_members f' ms e).
  Proof. intros ms e. unfold expand_members. mono ltac:(apply expand_value_below). Qed.
  Lemma expand_named_below : forall ms e, below (expand_named r f n ms e) (expand_named r f' m ms e).
  Proof.
    intros ms e. unfold expand_named. destruct (existsb _ _).
    - intros x. destruct (FindRootAncestor n r (ename e)) as [y|] eqn:E; [|discriminate]. now rewrite (root_below n m _ _ L y E).
    - destruct (inheritance_tree n r (ename e)) as [y|] eqn:E; [|apply below_none]. rewrite (tree_below n m _ _ L y E).
      mono ltac:(apply expand_members_below).
  Qed.
  Lemma expand_reference_below : forall ms e, below (expand_reference r f ms e) (expand_reference r f' ms e).
  Proof. intros ms e. unfold expand_reference. mono ltac:(apply clone_below). Qed.
  Lemma enum_attrs_below : forall ms l acc, below (expand_enum_attrs f ms l acc) (expand_enum_attrs f' ms l acc).
  Proof. intros ms. induction l as [|[k x] l IH]; intros acc; [apply below_refl|]. cbn [expand_enum_attrs]. mono ltac:(first [apply clone_below|apply IH]). Qed.
  Lemma expand_enum_below : forall ms e, below (expand_enum r f n ms e) (expand_enum r f' m ms e).
  Proof. intros ms e. unfold expand_enum. mono ltac:(first [apply expand_named_below|apply expand_value_below|apply enum_attrs_below]). Qed.
  Lemma round_below : forall ms e, below (expand_round r f n ms e) (expand_round r f' m ms e).
  Proof.
    intros ms e. unfold expand_round. cbv zeta. unfold expand_option.
    mono ltac:(first [apply expand_named_below|apply expand_reference_below|apply expand_enum_below|apply clone_below|apply clone_ptr_below|apply expand_members_below]).
  Qed.
End Rounds.
Lemma expand_below : forall n m r ms e, n <= m -> below (expand n r ms e) (expand m r ms e).
Proof.
  induction n as [|n IH]; intros [|m] r ms e L; try apply below_none; [lia|]. cbn [expand]. apply round_below; [|exact L]. intros. apply IH. lia.
Qed.

(** an answer is the answer *)
Lemma value_computes : forall n e x, generate_value n e = Some x -> computes (fun f => generate_value f e) x.
Proof. intros n e x H. exists n. intros f L. exact (generate_value_below n f e L x H). Qed.
Lemma schema_computes : forall n e x, generate_schema n e = Some x -> computes (fun f => generate_schema f e) x.
Proof. intros n e x H. exists n. intros f L. exact (generate_schema_below n f e L x H). Qed.
Lemma expand_computes : forall n r ms e x, expand n r ms e = Some x -> computes (fun f => expand f r ms e) x.
Proof. intros n r ms e x H. exists n. intros f L. exact (expand_below n f r ms e L x H). Qed.
