(** More steps never change what the conversion of MSON answers *)
From Verif Require Import Base Element Extend Registry Expand ElementUtils SourceMap TypeTables SoValue JsonValue JsonSchema GenSpec FuelMono Mson MsonProofs MsonSane MsonKinds.

Lemma below_mbind : forall A B (m m' : M A) (f f' : A -> M B), below m m' -> (forall a, below (f a) (f' a)) -> below (mbind m f) (mbind m' f').
Proof. intros A B m m' f f' H K. unfold mbind. apply below_bind; [exact H|]. intros a. apply below_bind; [apply K|]. intros b. apply below_refl. Qed.
Lemma below_quiet : forall A (m m' : run A), below m m' -> below (quiet m) (quiet m').
Proof. intros A m m' H. unfold quiet. apply below_bind; [exact H|]. intros a. apply below_refl. Qed.
Lemma below_mapM : forall A B (f f' : A -> M B) l, (forall x, In x l -> below (f x) (f' x)) -> below (mapM f l) (mapM f' l).
Proof.
  induction l as [|x l IH]; intros H; [apply below_refl|]. cbn [mapM]. apply below_mbind; [apply H; now left|]. intros a.
  apply below_mbind; [apply IH; intros y Hy; apply H; now right|]. intros b. apply below_refl.
Qed.
Ltac mmono IH :=
  first
    [ match goal with |- below ?a ?a => apply below_refl end
    | match goal with |- below None _ => apply below_none end
    | IH
    | match goal with
      | |- below (mbind _ _) (mbind _ _) => apply below_mbind; [mmono IH|let a := fresh "a" in intros a; mmono IH]
      | |- below (bind _ _) (bind _ _) => apply below_bind; [mmono IH|let a := fresh "a" in intros a; mmono IH]
      | |- below (quiet _) (quiet _) => apply below_quiet; mmono IH
      | |- below (mapM _ _) (mapM _ _) => apply below_mapM; let a := fresh "a" in let H := fresh "H" in intros a H; mmono IH
      | |- below (match ?x with _ => _ end) _ => destruct x; mmono IH
      | |- below (let x := _ in _) _ => cbv zeta; mmono IH
      end ].

Section Mono.
  Context (f f' : nat) (L : f <= f') (r : registry).

  Lemma root_ancestor_below : forall n, below (root_ancestor f r n) (root_ancestor f' r n).
  Proof. intros n x. unfold root_ancestor. destruct (FindRootAncestor f r n) as [y|] eqn:E; [|discriminate]. now rewrite (root_below f f' r n L y E). Qed.
  Lemma type_from_name_below : forall n, below (type_from_name f r n) (type_from_name f' r n).
  Proof. intros n. unfold type_from_name. mmono ltac:(apply root_ancestor_below). Qed.
  Lemma resolve_type_below : forall s, below (resolve_type f r s) (resolve_type f' r s).
  Proof. intros s. unfold resolve_type. mmono ltac:(apply root_ancestor_below). Qed.
  Lemma variable_below : forall v, below (variable_is_string f r v) (variable_is_string f' r v).
  Proof. intros s. unfold variable_is_string. mmono ltac:(apply root_ancestor_below). Qed.
  Lemma nested_below : forall p n, below (nested_type f r p n) (nested_type f' r p n).
  Proof. intros p n. unfold nested_type. mmono ltac:(apply type_from_name_below). Qed.
  Lemma definition_below : forall t p d, below (extract_definition f r t p d) (extract_definition f' r t p d).
  Proof. intros t p d. unfold extract_definition. mmono ltac:(apply nested_below). Qed.
  Lemma property_key_below : forall n, below (property_key f r n) (property_key f' r n).
  Proof. intros n. unfold property_key. mmono ltac:(apply variable_below). Qed.

  Definition under (c c' : melement -> conv) (l : list (msection melement)) : Prop :=
    Forall (fun s => Forall (fun x => forall d, below (c x d) (c' x d)) (sc_elements s)) l.
  Section Members.
    Context (c c' : melement -> conv).
    Lemma sections_to_apie_below : forall d l, Forall (fun x => forall d, below (c x d) (c' x d)) l -> below (sections_to_apie d (map c l)) (sections_to_apie d (map c' l)).
    Proof.
      intros d l H. unfold sections_to_apie. rewrite !mapM_map. apply below_mbind; [|intros; apply below_refl]. apply below_mapM. intros x Hx. rewrite Forall_forall in H. now apply H.
    Qed.
    Lemma extract_section_below : forall V primitive (fetch fetch' : msection conv -> M V) s d, below (fetch (section_map c s)) (fetch' (section_map c' s)) ->
      below (extract_section primitive fetch d (section_map c s)) (extract_section primitive fetch' d (section_map c' s)).
    Proof.
      intros V primitive fetch fetch' s d H. unfold extract_section. rewrite (has_content_agree c c'). cbn [section_map sc_class sc_value_map sc_description sc_description_map].
      mmono ltac:(exact H).
    Qed.
    Lemma sections_below : forall V primitive (fetch : msection conv -> M V) l,
      Forall (fun s => below (fetch (section_map c s)) (fetch (section_map c' s))) l ->
      forall d, below (foldW (extract_section primitive fetch) d (map (section_map c) l)) (foldW (extract_section primitive fetch) d (map (section_map c') l)).
    Proof.
      intros V primitive fetch l H. induction H as [|s l Hs _ IH]; intros d; [apply below_refl|]. cbn [map foldW].
      apply below_mbind; [now apply extract_section_below|apply IH].
    Qed.
    Lemma fetch_elements_below : forall d l, under c c' l -> Forall (fun s => below (fetch_elements d (section_map c s)) (fetch_elements d (section_map c' s))) l.
    Proof. intros d l H. eapply Forall_impl; [|exact H]. intros s Hs. unfold fetch_elements. cbn [section_map sc_elements]. now apply sections_to_apie_below. Qed.
    Lemma fetch_enum_below : forall d l, under c c' l -> Forall (fun s => below (fetch_enum d (section_map c s)) (fetch_enum d (section_map c' s))) l.
    Proof.
      intros d l H. eapply Forall_impl; [|exact H]. intros s Hs. unfold fetch_enum. cbn [section_map sc_elements]. apply below_mbind; [now apply sections_to_apie_below|intros; apply below_refl].
    Qed.
    Lemma fetch_text_below : forall l : list (msection melement), Forall (fun s => below (fetch_text (section_map c s)) (fetch_text (section_map c' s))) l.
    Proof. intros l. apply Forall_forall. intros. apply below_refl. Qed.
    Lemma extract_value_below : forall V vc (fetch : mmember conv -> M V) definition definition' m, below (fetch (member_map c m)) (fetch (member_map c' m)) ->
      (forall d, below (definition d) (definition' d)) -> below (extract_value vc fetch definition (member_map c m)) (extract_value vc fetch definition' (member_map c' m)).
    Proof.
      intros V vc fetch definition definition' m H D. unfold extract_value. cbn [m_value member_map m_description m_map m_value_map m_description_map].
      mmono ltac:(first [exact H|apply D]).
    Qed.
    Lemma element_from_value_below : forall k m, under c c' (m_sections m) -> below (element_from_value f r k (member_map c m)) (element_from_value f' r k (member_map c' m)).
    Proof.
      intros k m H.
      assert (T : forall k, below (value_of_text k (member_map c m)) (value_of_text k (member_map c' m))).
      { intros k0. unfold value_of_text. apply below_mbind; [apply extract_value_below; intros; apply below_refl|]. intros d. apply below_mbind; [apply sections_below, fetch_text_below|intros; apply below_refl]. }
      assert (L' : forall k, below (value_of_list f r k (member_map c m)) (value_of_list f' r k (member_map c' m))).
      { intros k0. unfold value_of_list. apply below_mbind; [apply extract_value_below; [apply below_refl|intros; apply definition_below]|]. intros d.
        apply below_mbind; [apply sections_below; now apply fetch_elements_below|intros; apply below_refl]. }
      destruct k; cbn [element_from_value]; try apply T; try apply L'.
      unfold value_of_enum. apply below_mbind; [apply extract_value_below; [apply below_refl|intros; apply definition_below]|]. intros d.
      apply below_mbind; [apply sections_below; now apply fetch_enum_below|intros; apply below_refl].
    Qed.
    Lemma element_from_property_below : forall k n m, under c c' (m_sections m) -> below (element_from_property f r k n (member_map c m)) (element_from_property f' r k n (member_map c' m)).
    Proof.
      intros k n m H. unfold element_from_property. rewrite (property_descriptions_agree c c'). cbn [m_value member_map].
      mmono ltac:(first [apply property_key_below|now apply element_from_value_below]).
    Qed.
    Lemma element_of_value_below : forall k m, under c c' (m_sections m) -> below (element_of_value f r k (member_map c m)) (element_of_value f' r k (member_map c' m)).
    Proof. intros k m H. unfold element_of_value. cbn [m_value member_map]. mmono ltac:(now apply element_from_value_below). Qed.
    Lemma member_to_refract_below : forall d m invoke invoke', (forall k, below (invoke k) (invoke' k)) ->
      below (member_to_refract f r d (member_map c m) invoke) (member_to_refract f' r d (member_map c' m) invoke').
    Proof.
      intros d m invoke invoke' H. unfold member_to_refract. cbn [member_map m_value m_value_map]. apply below_mbind; [apply below_quiet, resolve_type_below|]. intros name.
      apply below_mbind; [apply below_refl|]. intros _.
      match goal with |- below (invoke ?a) (invoke' ?b) => change a with (choose_kind name d (member_map c m)); change b with (choose_kind name d (member_map c' m)) end.
      rewrite (choose_kind_agree c c'). apply H.
    Qed.
  End Members.

  Lemma convert_below : forall e, (forall d, below (fst (convert f r e) d) (fst (convert f' r e) d)) /\ below (snd (convert f r e)) (snd (convert f' r e)).
  Proof.
    apply melement_ind'.
    - split; intros; apply below_refl.
    - intros n m S. assert (A : under (fun x => fst (convert f r x)) (fun x => fst (convert f' r x)) (m_sections m)).
      { eapply Forall_impl; [|exact S]. intros s Hs. eapply Forall_impl; [|exact Hs]. now intros x [H _]. }
      assert (C : forall d, below (fst (convert f r (MProperty n m)) d) (fst (convert f' r (MProperty n m)) d)).
      { intros d. cbn [convert fst]. apply member_to_refract_below. intros k. now apply element_from_property_below. }
      split; [exact C|]. cbn [convert snd]. apply below_mbind; [apply (C StringTN)|intros; apply below_refl].
    - intros m S. assert (A : under (fun x => fst (convert f r x)) (fun x => fst (convert f' r x)) (m_sections m)).
      { eapply Forall_impl; [|exact S]. intros s Hs. eapply Forall_impl; [|exact Hs]. now intros x [H _]. }
      assert (C : forall d, below (fst (convert f r (MValue m)) d) (fst (convert f' r (MValue m)) d)).
      { intros d. cbn [convert fst]. apply member_to_refract_below. intros k. now apply element_of_value_below. }
      split; [exact C|]. cbn [convert snd]. apply below_mbind; [apply (C StringTN)|intros; apply below_refl].
    - split; intros; apply below_refl.
    - intros l S. assert (E : below (mapM (fun x => snd (convert f r x)) l) (mapM (fun x => snd (convert f' r x)) l)).
      { apply below_mapM. intros x Hx. rewrite Forall_forall in S. now apply S. }
      cbn [convert fst snd]. split; intros; mmono ltac:(exact E).
    - intros l S. split; [intros; apply below_refl|]. cbn [convert snd]. apply below_mbind; [|intros; apply below_refl]. apply sections_to_apie_below. eapply Forall_impl; [|exact S]. now intros x [H _].
  Qed.
  Theorem structure_below : forall s, below (structure_to_refract f r s) (structure_to_refract f' r s).
  Proof.
    intros s. unfold structure_to_refract. destruct (structure_empty s); [apply below_refl|]. apply below_mbind; [apply below_quiet, resolve_type_below|]. intros b.
    assert (A : under (to_apie f r) (to_apie f' r) (ds_sections s)).
    { apply Forall_forall. intros x _. apply Forall_forall. intros y _ d. apply convert_below. }
    assert (G : forall V primitive (fetch : msection conv -> M V) definition definition' finish k, (forall d, below (definition d) (definition' d)) ->
      Forall (fun s => below (fetch (section_map (to_apie f r) s)) (fetch (section_map (to_apie f' r) s))) (ds_sections s) ->
      below (structure_of f r primitive fetch definition finish k s) (structure_of f' r primitive fetch definition' finish k s)).
    { intros V primitive fetch definition definition' finish k D F. unfold structure_of. apply below_mbind; [apply D|]. intros d. apply below_mbind; [now apply sections_below|intros; apply below_refl]. }
    apply below_mbind; [|intros; apply below_refl].
    destruct (kind_of b); first [apply (G string); [intros; apply below_refl|apply fetch_text_below]
      |apply G; [intros; apply definition_below|first [now apply fetch_elements_below|now apply fetch_enum_below]]].
  Qed.
End Mono.
