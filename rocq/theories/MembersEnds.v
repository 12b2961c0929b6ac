(** Lemmas for C80: reading comes to an end *)
From Verif Require Import Base StringUtility StringSpec StringProofs ByteBuffer ByteSpec Markdown MarkdownSpec Regex Keywords KeywordsSpec
  Signature SignatureSpec SignatureWhole TypeTables SourceMap Mson TypeDefs TypeDefsSpec TypeDefsProofs MembersTree MembersSpec MembersLeaves.
From Verif Require Payloads PayloadsSpec.
Import PayloadsSpec(the_text, place, opens, row, padded).
Local Open Scope string_scope.

Definition ends {A} (o : outcome A) : Prop := o <> Endless.
Lemma ends_val : forall {A} (x : A), ends (Val x).
Proof. intros A x. discriminate. Qed.
Lemma ends_wild : forall {A}, ends (@ByteBuffer.Wild A).
Proof. intros A. discriminate. Qed.
Lemma ends_bind : forall {A B} (o : outcome A) (f : A -> outcome B), ends o -> (forall x, o = Val x -> ends (f x)) -> ends (andthen o f).
Proof. intros A B [x| | |] f H F; cbn; [now apply F|discriminate|discriminate|now elim H]. Qed.
Lemma ends_each : forall l, ends (parse_each l).
Proof. induction l as [|x l IH]; [discriminate|]. cbn. destruct (value_total x) as [v V]. rewrite (value_ok _ _ V). cbn. apply ends_bind; [exact IH|discriminate]. Qed.
Lemma ends_signature : forall tr given t s, ends (signature_of tr given t s).
Proof.
  intros tr given t s. unfold signature_of. destruct (signed_total tr (t_text t) given) as [o O]. rewrite (signed_ok tr (t_text t) given o O _ (enough_two _ _)). destruct o as [[p m]|]; discriminate.
Qed.
Lemma ends_define : forall context t l s, ends (define context t l s).
Proof.
  intros context t l s. unfold define. destruct (definition_total (bases (s_tables s)) context l) as (td & e & D). rewrite (definition_ok _ _ _ _ _ D _ (enough_each l)).
  now destruct (performed (deps (s_tables s)) e).
Qed.
Lemma ends_name : forall context property t sg s, ends (member_name context property t sg s).
Proof.
  intros context [] t sg s; [|discriminate]. unfold member_name. destruct (property_total (bases (s_tables s)) context (t_text t) (identifier sg)) as [o O]. rewrite (property_ok _ _ _ _ _ O).
  destruct o as [[[x v] e]|]; [|discriminate]. now destruct (performed (deps (s_tables s)) e).
Qed.
Lemma ends_starting : forall t, ends (Payloads.starting t).
Proof.
  intros t. unfold Payloads.starting. destruct (is_item t); [|discriminate]. apply ends_bind; [|discriminate].
  induction (t_children t) as [|c l IH]; [discriminate|]. cbn [Payloads.start_loop]. destruct (t_map c) as [|x m]; [discriminate|]. destruct (length x =? 0)%N; [exact IH|discriminate].
Qed.
Lemma ends_at : forall s i, ends (at_ s i).
Proof. intros s i. unfold at_. destruct (String.get i s); [discriminate|]. try discriminate; match goal with |- ends (if ?b then _ else _) => destruct b end; discriminate. Qed.
Lemma ends_lines : forall d, ends (if String.eqb d "" then Val "" else two_new_lines d).
Proof.
  intros d. destruct (String.eqb d ""); [discriminate|]. unfold two_new_lines. apply ends_bind; [|intros a _; apply ends_bind; [|discriminate]];
    match goal with |- ends (if ?b then _ else _) => destruct b end; try discriminate; apply ends_at.
Qed.
Lemma ends_map : forall m s, ends (map_ranges m s).
Proof.
  intros m s. unfold map_ranges. destruct s as [|c s]; [discriminate|]. generalize "" as acc. generalize (String c s). clear c s. intros s. induction m as [|r m IH]; intros acc; [discriminate|]. cbn [map_loop].
  assert (S : forall a b, ends (substr s a b)) by (intros a b; unfold substr; destruct (slen s <? a)%N; discriminate).
  destruct (slen s <? wadd (ByteBuffer.location r) (ByteBuffer.length r))%N; [destruct (_ =? _)%N; [apply ends_bind; [apply S|discriminate]|discriminate]|]. apply ends_bind; [apply S|intros t _; apply IH].
Qed.
Section Ends.
Context (source context : string).
Lemma ends_use : forall t sg s, ends (use_signature context t sg s).
Proof.
  intros t sg s. unfold use_signature. apply ends_bind; [apply ends_define|]. intros [td s1] _. cbv zeta.
  destruct (Nat.ltb 1 (List.length (Signature.values sg))), (td_base td); cbn; try (apply ends_bind; [apply ends_each|discriminate]).
  destruct (value_total (Signature.value sg)) as [v V]. rewrite (value_ok _ _ V). discriminate.
Qed.
Lemma ends_block : forall t l, ends (block_description source t l).
Proof.
  intros t l. unfold block_description. destruct l as [|x [|y l]]; [|destruct (sc_class x); try discriminate|discriminate]; (apply ends_bind; [apply ends_lines|intros d _; apply ends_bind; [apply ends_map|discriminate]]).
Qed.
Lemma ends_descriptions : forall r l, ends (descriptions source r l).
Proof.
  induction r as [|t r IH]; intros l; cbn [descriptions]; [discriminate|]. destruct (is_description t); [|discriminate]. apply ends_bind; [apply ends_block|]. intros [l'|] _; [apply IH|discriminate].
Qed.
Lemma ends_walk : forall {A} (step : tree -> A -> st -> outcome (A * bool * st)) l, (forall t a s, In t l -> ends (step t a s)) -> forall a s, ends (walk step l a s).
Proof.
  intros A step l. induction l as [|t r IH]; intros H a s; cbn [walk]; [discriminate|]. apply ends_bind; [apply H; now left|]. intros [[a' []] s'] _; [|discriminate]. apply IH. intros u b s0 I. apply H. now right.
Qed.
Lemma ends_mixin : forall item s, ends (parse_mixin context item s).
Proof.
  intros item s. unfold parse_mixin. apply ends_bind; [apply ends_starting|]. intros [|t r] _; [discriminate|]. apply ends_bind; [apply ends_signature|]. intros [sg s1] _. cbv zeta.
  apply ends_bind; [apply ends_define|]. intros [td s2] _. discriminate.
Qed.
Section Steps.
Context (member : bool -> tree -> st -> outcome (melement * st)) (one_of : tree -> st -> outcome (list melement * st))
  (section : section_type -> base_type -> tree -> st -> outcome (msection melement * st)) (t : tree).
Hypothesis (HM : forall property s, ends (member property t s)) (HO : forall s, ends (one_of t s)) (HS : forall ty b s, ends (section ty b t s)).
Ltac binds := repeat first [discriminate | apply ends_mixin | apply HM | apply HO | apply HS | apply ends_block | apply ends_lines | apply ends_map
  | match goal with |- ends (let '(_, _) := ?p in _) => destruct p end
  | match goal with |- ends (add _ _) => unfold add end | apply ends_bind; [|intros [? ?] _] | apply ends_bind; [|intros ? _]
  | match goal with |- ends (if ?b then _ else _) => destruct b end | match goal with |- ends (match ?x with _ => _ end) => destruct x end].
Lemma ends_member_step : forall a s, ends (member_step source context member one_of section t a s).
Proof. intros [l b] s. unfold member_step, mson_section. cbv zeta. binds. Qed.
Lemma ends_section_step : forall ty b x s, ends (section_step source context member one_of ty b t x s).
Proof. intros ty b x s. unfold section_step. binds. Qed.
Lemma ends_one_of_step : forall l s, ends (one_of_step context member one_of section t l s).
Proof. intros l s. unfold one_of_step. binds. Qed.
End Steps.
Lemma ends_head : forall b t s, ends (section_head b t s).
Proof.
  intros b t s. unfold section_head. apply ends_bind; [apply ends_signature|]. intros [sg s1] _.
  assert (V : forall c, ends (values_section c b t sg s1)).
  { intros c. unfold values_section. apply ends_bind.
    - unfold section_value. repeat match goal with |- ends (if ?b then _ else _) => destruct b end; try discriminate. apply ends_bind; [apply ends_each|discriminate].
    - intros [[[v l] m] s2] _. destruct (_ && _)%bool; discriminate. }
  assert (M : forall f x, ends (MembersTree.members_section f x t sg s1)) by (intros [] x; discriminate).
  repeat match goal with |- ends (if ?b then _ else _) => destruct b end; first [apply V|apply M|discriminate].
Qed.
Lemma depth_below : forall item t r u, opens item t r -> In u r -> depth u < depth item.
Proof.
  intros [ty x z m cs] t r u O I. assert (I' : In u cs).
  { unfold opens in O. destruct ty; try contradiction. destruct O as [(a & -> & _)|[-> _]]; [apply in_or_app; right; now right|now right]. }
  clear O I r t. cbn [depth]. induction cs as [|c cs IH]; [contradiction|]. cbn [fold_right]. destruct I' as [->|I']; [lia|]. specialize (IH I'). lia.
Qed.
Lemma all_end : forall n,
  (forall property t s, depth t <= n -> ends (parse_member source context n property t s)) /\
  (forall t s, depth t <= n -> ends (parse_one_of source context n t s)) /\
  (forall ty b t s, depth t <= n -> ends (parse_section source context n ty b t s)).
Proof.
  induction n as [|n (IM & IO & IS)].
  - repeat split; intros; exfalso; match goal with D : depth ?t <= 0 |- _ => destruct t; cbn in D; lia end.
  - assert (B : forall t u r v, depth t <= S n -> Payloads.starting t = Val (u :: r) -> In v r -> depth v <= n).
    { intros t u r v D E I. apply starting_iff in E. pose proof (depth_below t u r v E I). lia. }
    split; [|split].
    + intros property t s D. cbn [parse_member]. apply ends_bind; [apply ends_starting|]. intros [|u r] E; [discriminate|]. apply ends_bind; [apply ends_signature|]. intros [sg s1] _.
      apply ends_bind; [apply ends_name|]. intros [name s2] _. apply ends_bind; [apply ends_use|]. intros [m s3] _. apply ends_bind; [apply ends_descriptions|]. intros [[l others]|] Eo; [|discriminate].
      apply ends_bind; [|intros [a s4] _; discriminate]. apply ends_walk. intros v a s0 I. assert (D' : depth v <= n).
      { apply (B t u r v D E). clear - Eo I. revert Eo. generalize (m_sections m). induction r as [|w r IH]; intros l0 Eo; cbn [descriptions] in Eo.
        - injection Eo as _ <-. contradiction.
        - destruct (is_description w); [|injection Eo as _ <-; exact I]. destruct (block_description source w l0) as [[l1|]| | |]; try discriminate. cbn [andthen] in Eo. right. exact (IH _ Eo). }
      apply ends_member_step; intros; [now apply IM|now apply IO|now apply IS].
    + intros t s D. cbn [parse_one_of]. apply ends_bind; [apply ends_starting|]. intros [|u r] E; [discriminate|]. apply ends_bind; [apply ends_signature|]. intros [sg s1] _.
      apply ends_bind; [|intros [a s4] _; discriminate]. apply ends_walk. intros v a s0 I. pose proof (B t u r v D E I). apply ends_one_of_step; intros; [now apply IM|now apply IO|now apply IS].
    + intros ty b t s D. cbn [parse_section]. apply ends_bind; [apply ends_starting|]. intros [|u r] E; [discriminate|]. unfold section_body. apply ends_bind; [apply ends_head|]. intros [[x []] s1] _; [|discriminate].
      apply ends_walk. intros v a s0 I. pose proof (B t u r v D E I). apply ends_section_step; intros; [now apply IM|now apply IO].
Qed.
Lemma attributes_end : forall n t s, depth t <= S n -> ends (parse_attributes source context n t s).
Proof.
  intros n t s D. destruct (all_end n) as (IM & IO & IS). unfold parse_attributes. apply ends_bind; [apply ends_starting|]. intros [|u r] E; [discriminate|]. apply ends_bind; [apply ends_signature|]. intros [sg s1] _.
  apply ends_bind; [apply ends_define|]. intros [td s2] _. cbv zeta. apply ends_bind; [apply ends_descriptions|]. intros [[l others]|] Eo; [|discriminate].
  apply ends_bind; [|intros [a s4] _; discriminate]. apply ends_walk. intros v a s0 I. assert (D' : depth v <= n).
  { apply starting_iff in E. pose proof (depth_below t u r v E) as L. enough (X : In v r) by (apply L in X; lia). clear - Eo I. revert Eo. generalize (remaining_content u (Signature.remaining sg)).
    induction r as [|w r IH]; intros l0 Eo; cbn [descriptions] in Eo.
    - injection Eo as _ <-. contradiction.
    - destruct (is_description w); [|injection Eo as _ <-; exact I]. destruct (block_description source w l0) as [[l1|]| | |]; try discriminate. cbn [andthen] in Eo. right. exact (IH _ Eo). }
  apply ends_member_step; intros; [now apply IM|now apply IO|now apply IS].
Qed.
End Ends.
