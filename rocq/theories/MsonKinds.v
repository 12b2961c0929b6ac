(** The conversion of MSON reads nothing of the registry but the kinds of root ancestors *)
From Verif Require Import Base Element Extend Registry Expand ElementUtils SourceMap TypeTables Mson MsonProofs MsonSane.

(** the kind of the root ancestor of a name *)
Definition root_kind (fuel : nat) (r : registry) (name : string) : run (option kind) :=
  bind (root_ancestor fuel r name) (fun o => ret (option_map ekind o)).

Lemma bind_ext : forall A B (m : run A) (f g : A -> run B), (forall a, f a = g a) -> bind m f = bind m g.
Proof. intros A B [[a| |]|] f g H; cbn; auto. Qed.
Lemma mbind_ext : forall A B (m m' : M A) (f g : A -> M B), m = m' -> (forall a, f a = g a) -> mbind m f = mbind m' g.
Proof. intros A B m m' f g <- H. unfold mbind. apply bind_ext. intros a. now rewrite H. Qed.
Lemma mapM_ext : forall A B (f g : A -> M B) l, (forall x, In x l -> f x = g x) -> mapM f l = mapM g l.
Proof.
  induction l as [|x l IH]; intros H; [reflexivity|]. cbn [mapM]. apply mbind_ext; [apply H; now left|]. intros a.
  apply mbind_ext; [apply IH; intros y Hy; apply H; now right|reflexivity].
Qed.
Lemma mapM_map : forall A B C (f : B -> M C) (g : A -> B) l, mapM f (map g l) = mapM (fun x => f (g x)) l.
Proof. induction l as [|x l IH]; [reflexivity|]. cbn [map mapM]. now rewrite IH. Qed.
Lemma bind_bind : forall A B C (m : run A) (f : A -> run B) (g : B -> run C), bind (bind m f) g = bind m (fun a => bind (f a) g).
Proof. intros A B C [[a| |]|] f g; reflexivity. Qed.

Section Kinds.
  Context (f f' : nat) (r r' : registry) (K : forall n, root_kind f r n = root_kind f' r' n).

  Lemma through : forall A n (g : option kind -> run A),
    bind (root_ancestor f r n) (fun o => g (option_map ekind o)) = bind (root_ancestor f' r' n) (fun o => g (option_map ekind o)).
  Proof.
    intros A n g. assert (G : forall m, bind m (fun o : option element => g (option_map ekind o)) = bind (bind m (fun o => ret (option_map ekind o))) g) by (intros m; now rewrite bind_bind).
    rewrite !G. fold (root_kind f r n) (root_kind f' r' n). now rewrite K.
  Qed.
  Lemma type_from_name_kinds : forall n, type_from_name f r n = type_from_name f' r' n.
  Proof.
    intros n. unfold type_from_name. assert (G := through _ n (fun o => ret (match o with Some k => base_of_kind k | None => UndefinedTN end))).
    etransitivity; [|etransitivity; [exact G|]]; apply bind_ext; now intros [e|].
  Qed.
  Lemma resolve_type_kinds : forall s, resolve_type f r s = resolve_type f' r' s.
  Proof.
    intros s. unfold resolve_type. destruct (n_base (t_name s)); try reflexivity. destruct (String.eqb _ ""); [reflexivity|]. apply type_from_name_kinds.
  Qed.
  Lemma variable_is_string_kinds : forall v, variable_is_string f r v = variable_is_string f' r' v.
  Proof.
    intros v. unfold variable_is_string. assert (G := fun n => through _ n (fun o => ret (match o with Some k => kind_beq k KString | None => false end))).
    assert (H : forall n, bind (root_ancestor f r n) (fun o => ret (match o with Some e => is_kind KString e | None => false end)) = bind (root_ancestor f' r' n) (fun o => ret (match o with Some e => is_kind KString e | None => false end))).
    { intros n. etransitivity; [|etransitivity; [exact (G n)|]]; apply bind_ext; now intros [e|]. }
    destruct (n_base (t_name (td_spec (vd_type v)))); first [reflexivity|apply H].
  Qed.
  Lemma nested_type_kinds : forall p n, nested_type f r p n = nested_type f' r' p n.
  Proof.
    intros p n. unfold nested_type. destruct (n_base n); try reflexivity. destruct (String.eqb _ ""); [reflexivity|]. now rewrite type_from_name_kinds.
  Qed.
  Lemma extract_definition_kinds : forall t p d, extract_definition f r t p d = extract_definition f' r' t p d.
  Proof.
    intros t p d. unfold extract_definition. apply mbind_ext; [|reflexivity]. apply mapM_ext. intros n _. apply nested_type_kinds.
  Qed.
  Lemma property_key_kinds : forall n, property_key f r n = property_key f' r' n.
  Proof.
    intros n. unfold property_key. apply mbind_ext; [|reflexivity]. destruct (value_empty _); [reflexivity|]. apply mbind_ext; [reflexivity|]. intros _.
    apply mbind_ext; [|reflexivity]. destruct (def_empty _); [reflexivity|]. now rewrite variable_is_string_kinds.
  Qed.

  (** the parts of a member, converted in two ways that agree *)
  Definition agree (c c' : melement -> conv) (l : list (msection melement)) : Prop :=
    Forall (fun s => Forall (fun x => forall d, c x d = c' x d) (sc_elements s)) l.
  Section Members.
    Context (c c' : melement -> conv).
    Lemma sections_to_apie_agree : forall d l, Forall (fun x => forall d, c x d = c' x d) l -> sections_to_apie d (map c l) = sections_to_apie d (map c' l).
    Proof.
      intros d l H. unfold sections_to_apie. rewrite !mapM_map. apply mbind_ext; [|reflexivity]. apply mapM_ext. intros x Hx. rewrite Forall_forall in H. now apply H.
    Qed.
    Lemma has_content_agree : forall s, has_content (section_map c s) = has_content (section_map c' s).
    Proof. intros s. unfold has_content. cbn. now destruct (sc_elements s). Qed.
    Lemma extract_section_agree : forall V primitive (fetch fetch' : msection conv -> M V) s d, fetch (section_map c s) = fetch' (section_map c' s) ->
      extract_section primitive fetch d (section_map c s) = extract_section primitive fetch' d (section_map c' s).
    Proof.
      intros V primitive fetch fetch' s d H. unfold extract_section. rewrite has_content_agree, H. reflexivity.
    Qed.
    Lemma sections_agree : forall V primitive (fetch : msection conv -> M V) l,
      Forall (fun s => fetch (section_map c s) = fetch (section_map c' s)) l ->
      forall d, foldW (extract_section primitive fetch) d (map (section_map c) l) = foldW (extract_section primitive fetch) d (map (section_map c') l).
    Proof.
      intros V primitive fetch l H. induction H as [|s l Hs _ IH]; intros d; [reflexivity|]. cbn [map foldW].
      apply mbind_ext; [now apply extract_section_agree|apply IH].
    Qed.
    Lemma fetch_elements_agree : forall d l, agree c c' l -> Forall (fun s => fetch_elements d (section_map c s) = fetch_elements d (section_map c' s)) l.
    Proof. intros d l H. eapply Forall_impl; [|exact H]. intros s Hs. unfold fetch_elements. cbn [section_map sc_elements]. now apply sections_to_apie_agree. Qed.
    Lemma fetch_enum_agree : forall d l, agree c c' l -> Forall (fun s => fetch_enum d (section_map c s) = fetch_enum d (section_map c' s)) l.
    Proof.
      intros d l H. eapply Forall_impl; [|exact H]. intros s Hs. unfold fetch_enum. cbn [section_map sc_elements]. apply mbind_ext; [now apply sections_to_apie_agree|reflexivity].
    Qed.
    Lemma fetch_text_agree : forall l : list (msection melement), Forall (fun s => fetch_text (section_map c s) = fetch_text (section_map c' s)) l.
    Proof. intros l. apply Forall_forall. reflexivity. Qed.
    Lemma extract_value_agree : forall V vc (fetch : mmember conv -> M V) definition definition' m, fetch (member_map c m) = fetch (member_map c' m) ->
      (forall d, definition d = definition' d) -> extract_value vc fetch definition (member_map c m) = extract_value vc fetch definition' (member_map c' m).
    Proof.
      intros V vc fetch definition definition' m H D. unfold extract_value. cbn [m_value member_map m_description m_map m_value_map m_description_map]. rewrite H.
      assert (T : forall x : M (data V), mbind x (fun d => let d0 := if String.eqb (m_description m) "" then d else add_description d (m_description m, m_description_map m) in
         match vd_values (m_value m), t_nested (td_spec (vd_type (m_value m))) with [], _ | _, _ :: _ :: _ => definition d0 | _, _ => mret d0 end) =
        mbind x (fun d => let d0 := if String.eqb (m_description m) "" then d else add_description d (m_description m, m_description_map m) in
         match vd_values (m_value m), t_nested (td_spec (vd_type (m_value m))) with [], _ | _, _ :: _ :: _ => definition' d0 | _, _ => mret d0 end)).
      { intros x. apply mbind_ext; [reflexivity|]. intros d. cbv zeta. rewrite D. reflexivity. }
      destruct (td_base (vd_type (m_value m))); try reflexivity; apply T.
    Qed.
    Lemma element_from_value_agree : forall k m, agree c c' (m_sections m) -> element_from_value f r k (member_map c m) = element_from_value f' r' k (member_map c' m).
    Proof.
      intros k m H.
      assert (T : forall k, value_of_text k (member_map c m) = value_of_text k (member_map c' m)).
      { intros k0. unfold value_of_text. apply mbind_ext; [now apply extract_value_agree|]. intros d. apply mbind_ext; [apply sections_agree, fetch_text_agree|reflexivity]. }
      assert (L : forall k, value_of_list f r k (member_map c m) = value_of_list f' r' k (member_map c' m)).
      { intros k0. unfold value_of_list. apply mbind_ext; [apply extract_value_agree; [reflexivity|intros; apply extract_definition_kinds]|]. intros d.
        apply mbind_ext; [apply sections_agree; now apply fetch_elements_agree|reflexivity]. }
      destruct k; cbn [element_from_value]; try apply T; try apply L.
      unfold value_of_enum. apply mbind_ext; [apply extract_value_agree; [reflexivity|intros; apply extract_definition_kinds]|]. intros d.
      apply mbind_ext; [apply sections_agree; now apply fetch_enum_agree|reflexivity].
    Qed.
    Lemma property_descriptions_agree : forall m, property_descriptions (member_map c m) = property_descriptions (member_map c' m).
    Proof.
      intros m. unfold property_descriptions. cbn [member_map m_description m_sections m_description_map].
      rewrite !flat_map_concat_map, !map_map. reflexivity.
    Qed.
    Lemma element_from_property_agree : forall k n m, agree c c' (m_sections m) -> element_from_property f r k n (member_map c m) = element_from_property f' r' k n (member_map c' m).
    Proof.
      intros k n m H. unfold element_from_property. rewrite property_key_kinds. apply mbind_ext; [reflexivity|]. intros key. apply mbind_ext; [reflexivity|]. intros [|]; [|reflexivity].
      rewrite property_descriptions_agree, (element_from_value_agree _ _ H). reflexivity.
    Qed.
    Lemma element_of_value_agree : forall k m, agree c c' (m_sections m) -> element_of_value f r k (member_map c m) = element_of_value f' r' k (member_map c' m).
    Proof. intros k m H. unfold element_of_value. rewrite (element_from_value_agree _ _ H). reflexivity. Qed.
    Lemma existsb_map : forall A B (g : A -> B) p l, existsb p (map g l) = existsb (fun x => p (g x)) l.
    Proof. induction l as [|x l IH]; [reflexivity|]. cbn. now rewrite IH. Qed.
    Lemma choose_kind_agree : forall name d m, choose_kind name d (member_map c m) = choose_kind name d (member_map c' m).
    Proof. intros name d m. unfold choose_kind. cbn [member_map m_value m_sections]. rewrite !existsb_map. reflexivity. Qed.
    Lemma member_to_refract_agree : forall d m invoke invoke', (forall k, invoke k = invoke' k) ->
      member_to_refract f r d (member_map c m) invoke = member_to_refract f' r' d (member_map c' m) invoke'.
    Proof.
      intros d m invoke invoke' H. unfold member_to_refract. cbn [member_map m_value m_value_map]. rewrite resolve_type_kinds. apply mbind_ext; [reflexivity|]. intros name.
      apply mbind_ext; [reflexivity|]. intros _. change (choose_kind name d _) with (choose_kind name d (member_map c m)) at 1.
      match goal with |- invoke ?a = invoke' ?b => change a with (choose_kind name d (member_map c m)); change b with (choose_kind name d (member_map c' m)) end.
      now rewrite choose_kind_agree, H.
    Qed.
  End Members.

  Lemma convert_kinds : forall e, (forall d, fst (convert f r e) d = fst (convert f' r' e) d) /\ snd (convert f r e) = snd (convert f' r' e).
  Proof.
    apply melement_ind'.
    - now split.
    - intros n m S. assert (A : agree (fun x => fst (convert f r x)) (fun x => fst (convert f' r' x)) (m_sections m)).
      { eapply Forall_impl; [|exact S]. intros s Hs. eapply Forall_impl; [|exact Hs]. now intros x [H _]. }
      assert (C : forall d, fst (convert f r (MProperty n m)) d = fst (convert f' r' (MProperty n m)) d).
      { intros d. cbn [convert fst]. apply member_to_refract_agree. intros k. now apply element_from_property_agree. }
      split; [exact C|]. cbn [convert snd]. apply mbind_ext; [apply (C StringTN)|reflexivity].
    - intros m S. assert (A : agree (fun x => fst (convert f r x)) (fun x => fst (convert f' r' x)) (m_sections m)).
      { eapply Forall_impl; [|exact S]. intros s Hs. eapply Forall_impl; [|exact Hs]. now intros x [H _]. }
      assert (C : forall d, fst (convert f r (MValue m)) d = fst (convert f' r' (MValue m)) d).
      { intros d. cbn [convert fst]. apply member_to_refract_agree. intros k. now apply element_of_value_agree. }
      split; [exact C|]. cbn [convert snd]. apply mbind_ext; [apply (C StringTN)|reflexivity].
    - now split.
    - intros l S. assert (E : mapM (fun x => snd (convert f r x)) l = mapM (fun x => snd (convert f' r' x)) l).
      { apply mapM_ext. intros x Hx. rewrite Forall_forall in S. now apply S. }
      cbn [convert fst snd]. rewrite E. now split.
    - intros l S. split; [reflexivity|]. cbn [convert snd]. apply mbind_ext; [|reflexivity]. apply sections_to_apie_agree. eapply Forall_impl; [|exact S]. now intros x [H _].
  Qed.
  Theorem structure_kinds : forall s, structure_to_refract f r s = structure_to_refract f' r' s.
  Proof.
    intros s. unfold structure_to_refract. destruct (structure_empty s); [reflexivity|]. rewrite resolve_type_kinds. apply mbind_ext; [reflexivity|]. intros b.
    assert (A : agree (to_apie f r) (to_apie f' r') (ds_sections s)).
    { apply Forall_forall. intros x _. apply Forall_forall. intros y _ d. apply convert_kinds. }
    assert (G : forall V primitive (fetch : msection conv -> M V) definition definition' finish k, (forall d, definition d = definition' d) ->
      Forall (fun s => fetch (section_map (to_apie f r) s) = fetch (section_map (to_apie f' r') s)) (ds_sections s) ->
      structure_of f r primitive fetch definition finish k s = structure_of f' r' primitive fetch definition' finish k s).
    { intros V primitive fetch definition definition' finish k D F. unfold structure_of. rewrite D. apply mbind_ext; [reflexivity|]. intros d. apply mbind_ext; [now apply sections_agree|reflexivity]. }
    apply mbind_ext; [|reflexivity].
    destruct (kind_of b); first [apply (G string); [reflexivity|apply fetch_text_agree]
      |apply G; [intros; apply extract_definition_kinds|first [now apply fetch_elements_agree|now apply fetch_enum_agree]]].
  Qed.
End Kinds.

(** the conversion ends if the walks to root ancestors do *)
Section Ends.
  Context (f : nat) (r : registry) (E : forall n, FindRootAncestor f r n <> None).
  Lemma ends_bind : forall A B (m : run A) (g : A -> run B), m <> None -> (forall a, g a <> None) -> bind m g <> None.
  Proof. intros A B [[a| |]|] g H G; cbn; [apply G|discriminate|discriminate|now destruct H]. Qed.
  Lemma ends_mbind : forall A B (m : M A) (g : A -> M B), m <> None -> (forall a, g a <> None) -> mbind m g <> None.
  Proof. intros A B m g H G. unfold mbind. apply ends_bind; [exact H|]. intros a. apply ends_bind; [apply G|discriminate]. Qed.
  Lemma ends_ret : forall A (a : A), mret a <> None.
  Proof. discriminate. Qed.
  Lemma ends_quiet : forall A (m : run A), m <> None -> quiet m <> None.
  Proof. intros A m H. unfold quiet. apply ends_bind; [exact H|discriminate]. Qed.
  Lemma ends_lift : forall A (o : option A), lift o <> None.
  Proof. intros A [a|]; discriminate. Qed.
  Lemma ends_when : forall b m, m <> None -> when b m <> None.
  Proof. intros [|] m H; [exact H|discriminate]. Qed.
  Lemma ends_mapM : forall A B (g : A -> M B) l, (forall x, In x l -> g x <> None) -> mapM g l <> None.
  Proof.
    induction l as [|x l IH]; intros H; [discriminate|]. cbn [mapM]. apply ends_mbind; [apply H; now left|]. intros y. apply ends_mbind; [apply IH; intros z Hz; apply H; now right|]. discriminate.
  Qed.
  Lemma ends_mapR : forall A B (g : A -> run B) l, (forall x, g x <> None) -> mapR g l <> None.
  Proof. induction l as [|x l IH]; intros H; [discriminate|]. cbn [mapR]. apply ends_bind; [apply H|]. intros y. apply ends_bind; [now apply IH|discriminate]. Qed.
  Lemma ends_foldW : forall A B (g : A -> B -> M A) l a, (forall a x, In x l -> g a x <> None) -> foldW g a l <> None.
  Proof. induction l as [|x l IH]; intros a H; [discriminate|]. cbn [foldW]. apply ends_mbind; [apply H; now left|]. intros b. apply IH. intros c y Hy. apply H. now right. Qed.
  Lemma ends_root : forall n, root_ancestor f r n <> None.
  Proof. intros n. unfold root_ancestor. specialize (E n). destruct (FindRootAncestor f r n); [discriminate|now destruct E]. Qed.
  Lemma ends_name : forall n, type_from_name f r n <> None.
  Proof. intros n. apply ends_bind; [apply ends_root|discriminate]. Qed.
  Lemma ends_resolve : forall s, resolve_type f r s <> None.
  Proof. intros s. unfold resolve_type. destruct (n_base _); try discriminate. destruct (String.eqb _ ""); [discriminate|]. apply ends_name. Qed.
  Lemma ends_nested : forall p n, nested_type f r p n <> None.
  Proof.
    intros p n. unfold nested_type. destruct (n_base n); try discriminate. destruct (String.eqb _ ""); [discriminate|]. apply ends_mbind; [apply ends_quiet, ends_name|].
    intros b. destruct b, (s_variable (n_symbol n)); discriminate.
  Qed.
  Lemma ends_definition : forall t p d, extract_definition f r t p d <> None.
  Proof. intros t p d. apply ends_mbind; [apply ends_mapM; intros; apply ends_nested|discriminate]. Qed.
  Lemma ends_fix_literal : forall e, fix_literal e <> None.
  Proof. intros e. apply ends_bind; [apply ends_lift|]. intros [|]; [apply ends_lift|discriminate]. Qed.
  Lemma ends_fix_entry : forall e, fix_entry e <> None.
  Proof. intros e. apply ends_bind; [apply ends_lift|]. intros [|]; [apply ends_lift|discriminate]. Qed.
  Lemma ends_add : forall p b enums x, add_to_enumerations p b enums x <> None.
  Proof.
    intros p b enums x. apply ends_mbind; [apply ends_quiet, ends_lift|]. intros [|]; [|discriminate]. apply ends_mbind; [now apply ends_when|discriminate].
  Qed.
  Lemma ends_save_enum : forall d e, save_enum d e <> None.
  Proof.
    intros d e. unfold save_enum. destruct (merge_infos (inlines d)), (merge_infos (values d)), (merge_infos (hints d)), (merge_infos (map _ (samples d))), (merge_infos (map _ (defaults d))).
    apply ends_mbind; [apply ends_quiet, ends_lift|]. intros il. do 5 (apply ends_mbind; [apply ends_foldW; intros; apply ends_add|]; intros ?).
    match goal with |- match ?x with [] => _ | _ => _ end <> None => destruct x; [discriminate|] end. apply ends_mbind; [apply ends_quiet, ends_mapR, ends_fix_entry|discriminate].
  Qed.
  Lemma ends_finish_enum : forall d e, finish_enum d e <> None.
  Proof.
    intros d e. apply ends_mbind; [apply ends_save_enum|]. intros e'. unfold set_enum_default. destruct (defaults d) as [|[v p] l]; [discriminate|]. apply ends_mbind; [now apply ends_when|discriminate].
  Qed.
  Lemma ends_finish_text : forall k d e, finish_text k d e <> None.
  Proof.
    intros k d e. apply ends_mbind; [|discriminate]. apply ends_mapM. intros i _. unfold check_text. destruct k; try discriminate; [destruct (literal_number _)|destruct (literal_boolean _)]; discriminate.
  Qed.
  Lemma ends_section : forall V b (fetch : msection conv -> M V) d s, fetch s <> None -> extract_section b fetch d s <> None.
  Proof.
    intros V b fetch d s H. unfold extract_section. destruct (sc_class s); try discriminate; [destruct b|destruct (has_content s)|destruct (has_content s)]; try discriminate; (apply ends_mbind; [exact H|discriminate]).
  Qed.
  Definition conv_ends (c : conv) : Prop := forall d, c d <> None.
  Definition parts_end (l : list (msection conv)) : Prop := Forall (fun s => Forall conv_ends (sc_elements s)) l.
  Lemma ends_sections_to : forall d l, Forall conv_ends l -> sections_to_apie d l <> None.
  Proof. intros d l H. apply ends_mbind; [|discriminate]. apply ends_mapM. intros c Hc. rewrite Forall_forall in H. now apply H. Qed.
  Lemma ends_fetch_elements : forall d l, parts_end l -> forall b x, foldW (extract_section b (fetch_elements d)) x l <> None.
  Proof. intros d l H b x. apply ends_foldW. intros a s Hs. apply ends_section. unfold parts_end in H. rewrite Forall_forall in H. now apply ends_sections_to, H. Qed.
  Lemma ends_fetch_enum : forall d l, parts_end l -> forall b x, foldW (extract_section b (fetch_enum d)) x l <> None.
  Proof.
    intros d l H b x. apply ends_foldW. intros a s Hs. apply ends_section. unfold parts_end in H. rewrite Forall_forall in H. apply ends_mbind; [now apply ends_sections_to, H|].
    intros es. apply ends_quiet, ends_mapR, ends_fix_literal.
  Qed.
  Lemma ends_fetch_text : forall l b x, foldW (extract_section b fetch_text) x l <> None.
  Proof. intros l b x. apply ends_foldW. intros a s Hs. now apply ends_section. Qed.
  Lemma ends_value : forall V vc (fetch : mmember conv -> M V) definition m, fetch m <> None -> (forall d, definition d <> None) -> extract_value vc fetch definition m <> None.
  Proof.
    intros V vc fetch definition m H D. unfold extract_value.
    assert (G : mbind match vd_values (m_value m) with
        | v :: _ =>
          if N.testbit (td_attrs (vd_type (m_value m))) DefaultTA then mbind (fetch m) (fun x => mret (add_default no_data (x, m_value_map m)))
          else if (N.testbit (td_attrs (vd_type (m_value m))) SampleTA || (vc && v_variable v))%bool
               then mbind (fetch m) (fun x => mret (add_sample no_data (x, m_value_map m)))
               else mbind (fetch m) (fun x => mret (add_inline no_data (x, m_value_map m)))
        | [] =>
          mbind (when (N.testbit (td_attrs (vd_type (m_value m))) DefaultTA) (say (mson_warning "no value present when 'default' is specified" (m_map m)))) (fun _ =>
          mbind (when (N.testbit (td_attrs (vd_type (m_value m))) SampleTA) (say (mson_warning "no value present when 'sample' is specified" (m_map m)))) (fun _ =>
          mret no_data))
        end
        (fun d =>
          let d := if String.eqb (m_description m) "" then d else add_description d (m_description m, m_description_map m) in
          match vd_values (m_value m), t_nested (td_spec (vd_type (m_value m))) with
          | [], _ | _, _ :: _ :: _ => definition d
          | _, _ => mret d
          end) <> None).
    { apply ends_mbind.
      - destruct (vd_values (m_value m)) as [|v l].
        + apply ends_mbind; [now apply ends_when|]. intros _. apply ends_mbind; [now apply ends_when|discriminate].
        + destruct (N.testbit _ DefaultTA); [|destruct (_ || _)%bool]; (apply ends_mbind; [exact H|discriminate]).
      - intros d. cbv zeta. destruct (vd_values (m_value m)), (t_nested (td_spec (vd_type (m_value m)))) as [|? [|? ?]]; first [apply D|discriminate]. }
    destruct (td_base (vd_type (m_value m))); first [discriminate|exact G].
  Qed.
  Lemma ends_from_value : forall k m, parts_end (m_sections m) -> element_from_value f r k m <> None.
  Proof.
    intros k m H.
    assert (T : forall k, value_of_text k m <> None).
    { intros k0. apply ends_mbind; [apply ends_value; [unfold value_text; destruct (vd_values _) as [|? [|? ?]]; discriminate|discriminate]|]. intros d. apply ends_mbind; [apply ends_fetch_text|]. intros d'.
      apply ends_mbind; [apply ends_finish_text|discriminate]. }
    assert (L : forall k, value_of_list f r k m <> None).
    { intros k0. apply ends_mbind; [apply ends_value; [discriminate|intros; apply ends_definition]|]. intros d. apply ends_mbind; [now apply ends_fetch_elements|]. discriminate. }
    destruct k; cbn [element_from_value]; try apply T; try apply L.
    apply ends_mbind; [apply ends_value; [apply ends_quiet, ends_mapR; intros; apply ends_fix_literal|intros; apply ends_definition]|]. intros d. apply ends_mbind; [now apply ends_fetch_enum|]. intros d'.
    apply ends_mbind; [apply ends_finish_enum|discriminate].
  Qed.
  Lemma ends_key : forall n, property_key f r n <> None.
  Proof.
    intros n. apply ends_mbind; [|discriminate]. destruct (value_empty _); [discriminate|]. apply ends_mbind; [now apply ends_when|]. intros _. apply ends_mbind; [|discriminate].
    destruct (def_empty _); [discriminate|]. apply ends_mbind; [apply ends_quiet|intros [|]; discriminate]. unfold variable_is_string.
    destruct (n_base _); try discriminate; (apply ends_bind; [apply ends_root|discriminate]).
  Qed.
  Lemma ends_property : forall k n m, parts_end (m_sections m) -> element_from_property f r k n m <> None.
  Proof.
    intros k n m H. apply ends_mbind; [apply ends_key|]. intros key. apply ends_mbind; [apply ends_quiet, ends_lift|]. intros [|]; [|discriminate]. apply ends_mbind; [now apply ends_from_value|discriminate].
  Qed.
  Lemma ends_of_value : forall k m, parts_end (m_sections m) -> element_of_value f r k m <> None.
  Proof. intros k m H. apply ends_mbind; [now apply ends_from_value|discriminate]. Qed.
  Lemma ends_clash : forall ta p, check_clash ta p <> None.
  Proof. intros ta p. unfold check_clash. do 3 (apply ends_mbind; [now apply ends_when|]; intros _). now apply ends_when. Qed.
  Lemma ends_member : forall d m invoke, (forall k, invoke k <> None) -> member_to_refract f r d m invoke <> None.
  Proof. intros d m invoke H. apply ends_mbind; [apply ends_quiet, ends_resolve|]. intros n. apply ends_mbind; [apply ends_clash|]. intros _. apply H. Qed.
  Lemma parts_map : forall c l, Forall (fun s : msection melement => Forall (fun x => conv_ends (c x)) (sc_elements s)) l -> parts_end (map (section_map c) l).
  Proof. intros c l H. apply Forall_map. eapply Forall_impl; [|exact H]. intros s Hs. cbn. now apply Forall_map. Qed.
  Lemma ends_mixin : forall t, mixin_to_apie t <> None.
  Proof.
    intros t. apply ends_mbind; [apply ends_quiet|discriminate]. unfold apie_symbol. destruct (name_empty _); [discriminate|]. destruct (symbol_empty _); [|discriminate]. destruct (n_base _); discriminate.
  Qed.
  Lemma ends_convert : forall e, conv_ends (fst (convert f r e)) /\ snd (convert f r e) <> None.
  Proof.
    apply melement_ind'.
    - split; [intros d|]; discriminate.
    - intros n m S. assert (P : parts_end (map (section_map (fun x => fst (convert f r x))) (m_sections m))).
      { apply parts_map. eapply Forall_impl; [|exact S]. intros s Hs. eapply Forall_impl; [|exact Hs]. now intros x [H _]. }
      assert (C : conv_ends (fst (convert f r (MProperty n m)))) by (intros d; cbn [convert fst]; apply ends_member; intros k; now apply ends_property).
      split; [exact C|]. cbn [convert snd]. apply ends_mbind; [apply (C StringTN)|discriminate].
    - intros m S. assert (P : parts_end (map (section_map (fun x => fst (convert f r x))) (m_sections m))).
      { apply parts_map. eapply Forall_impl; [|exact S]. intros s Hs. eapply Forall_impl; [|exact Hs]. now intros x [H _]. }
      assert (C : conv_ends (fst (convert f r (MValue m)))) by (intros d; cbn [convert fst]; apply ends_member; intros k; now apply ends_of_value).
      split; [exact C|]. cbn [convert snd]. apply ends_mbind; [apply (C StringTN)|discriminate].
    - intros t. split; [intros d; apply ends_mixin|]. cbn [convert snd]. apply ends_mbind; [apply ends_mixin|discriminate].
    - intros l S. assert (G : mapM (fun x => snd (convert f r x)) l <> None) by (apply ends_mapM; intros x Hx; rewrite Forall_forall in S; now apply S).
      split; [intros d|]; cbn [convert fst snd]; (apply ends_mbind; [apply ends_mbind; [exact G|discriminate]|discriminate]).
    - intros l S. split; [intros d; discriminate|]. cbn [convert snd]. apply ends_mbind; [|discriminate]. apply ends_sections_to. apply Forall_map. eapply Forall_impl; [|exact S]. now intros x [H _].
  Qed.
  Theorem structure_ends : forall s, structure_to_refract f r s <> None.
  Proof.
    intros s. unfold structure_to_refract. destruct (structure_empty s); [discriminate|]. apply ends_mbind; [apply ends_quiet, ends_resolve|]. intros b. apply ends_mbind; [|discriminate].
    assert (P : parts_end (map (section_map (to_apie f r)) (ds_sections s))).
    { apply parts_map. apply Forall_forall. intros x _. apply Forall_forall. intros y _. apply ends_convert. }
    destruct (kind_of b); unfold structure_of; (apply ends_mbind; [first [discriminate|apply ends_definition]|]); intros d;
      (apply ends_mbind; [first [apply ends_fetch_text|now apply ends_fetch_elements|now apply ends_fetch_enum]|]); intros d'; first [apply ends_finish_text|apply ends_finish_enum|discriminate].
  Qed.
End Ends.
