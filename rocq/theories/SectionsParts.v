From Verif Require Import Base StringUtility StringSpec Regex RegexProofs ByteBuffer Markdown MarkdownSpec Keywords KeywordsSpec KeywordsProofs KeywordsOrder Prop_Keywords TypeTables Sections SectionsSpec SectionsKeys SectionsKinds SectionsItems SectionsMeta SectionsLoop SectionsFine.
Local Open Scope string_scope.
Local Open Scope list_scope.

Lemma own_action_header : forall t, action_h t -> is_header t = true.
Proof. intros [[] x z m cs]; cbn; tauto. Qed.
Lemma resource_header : forall t, resource_h t -> is_header t = true.
Proof. intros [[] x z m cs]; cbn; tauto. Qed.
Lemma group_header : forall t, group_h t -> is_header t = true.
Proof. intros [[] x z m cs]; cbn; tauto. Qed.
Lemma structures_header : forall t, structures_h t -> is_header t = true.
Proof. intros [[] x z m cs]; cbn; tauto. Qed.
Lemma defined_true : forall x, x <> UndefinedSection -> negb (undefined x) = true.
Proof. intros []; intros N; try reflexivity. now elim N. Qed.
Lemma in_order_imp : forall (r1 r2 : list part -> part -> list tree -> Prop), (forall d1 d2 p rest, r1 d1 p rest -> r2 d2 p rest) ->
  forall ps d1 d2 rest, in_order r1 d1 ps rest -> in_order r2 d2 ps rest.
Proof. intros r1 r2 H ps. induction ps as [|p ps IH]; intros d1 d2 rest K; [constructor|]. inversion K; subst. constructor; [eapply H; eassumption|eapply IH; eassumption]. Qed.

Lemma shorter : forall kind a (r' : list tree) t r, section_nodes (close kind a) ++ r' = t :: r -> section_head (close kind a) = Some t -> List.length r' <= List.length r.
Proof.
  intros kind a r' t r N H. apply (f_equal (@List.length tree)) in N. rewrite app_length in N. cbn [List.length] in N. unfold section_head in H. destruct (section_nodes (close kind a)); [discriminate|]. cbn in N. lia.
Qed.
Lemma nodes_one : forall s, nodes_of [Sub s] = section_nodes s.
Proof. intros s. unfold nodes_of. cbn [flat_map part_nodes]. apply app_nil_r. Qed.
Lemma model_last : forall ty, a_model ty <-> is_model ty = true.
Proof. intros ty. unfold a_model. cbn [In]. destruct ty; cbn; intuition discriminate. Qed.
Lemma no_model : ~ a_model UndefinedSection.
Proof. unfold a_model. cbn. intuition discriminate. Qed.
Lemma resource_describes_iff : forall t, one_line t -> (resource_is_description t = true <-> resource_describes t).
Proof.
  intros t O. unfold resource_is_description, resource_describes. rewrite <- complete_iff. destruct (complete t); [intuition discriminate|].
  rewrite (description_upper resource_nested_type resource_upper t); [|cbn; intuition discriminate]. destruct (upper_iff t O) as (_ & Up & _ & _). rewrite <- Up.
  destruct (resource_kind t) as [(ty & Hi & E & Nu & Na & Nh)|[(Ow & E & Ni)|(E & Nw & Ni)]]; rewrite E.
  - split; [intros [H _]; now elim Nu|]. intros (_ & _ & _ & H). exfalso. exact (H ty Hi).
  - split; [intros [H _]; discriminate|]. intros (_ & H & _). contradiction.
  - destruct (among resource_upper (section_keyword t)); split; intros H.
    + destruct H. discriminate.
    + destruct H as (_ & _ & H & _). now elim H.
    + split; [discriminate|]. split; [exact Nw|]. split; [discriminate|exact Ni].
    + split; reflexivity.
Qed.
Lemma dependent_action : forall t, action_type_of t = DependentAction -> action_section_type t <> UndefinedSection.
Proof.
  intros t H. unfold action_type_of in H. unfold action_section_type. cbv zeta in *. destruct (regex_match (header_whole t) NamedActionHeaderRegex) eqn:N; [rewrite orb_true_r; discriminate|].
  pose proof (action_capture (header_whole t)) as C. destruct (regex_capture (header_whole t) ActionHeaderRegex 3) as [g|]; [|discriminate].
  destruct C as (Ne & l & m & b & x & E & L & M & B & X & _). assert (R : regex_match (header_whole t) ActionHeaderRegex = true).
  { apply (match_reads ActionHeaderRegex _ ltac:(discriminate) action_text). split; [exact Ne|]. exists l, m, (b +++ x)%string. split; [exact E|]. split; [exact L|]. split; [exact M|]. exists b, x. auto. }
  rewrite R. discriminate.
Qed.
Lemma header_type : forall t x, x = ActionSection -> action_section_type t = x -> is_header t = true.
Proof. intros t x -> H. apply own_action_header. now apply (C75_headers t). Qed.
Lemma group_unexpected_iff : forall t, one_line t -> (group_is_unexpected t = true <-> ~ ends_group t).
Proof.
  intros t O. destruct (upper_iff t O) as (Up & _). unfold group_is_unexpected. rewrite (unexpected_base resource_group_upper t); [|cbn; intuition discriminate].
  destruct (action_type_of t) eqn:A.
  - rewrite <- Up. destruct (among resource_group_upper (section_keyword t)); cbn; intuition discriminate.
  - split; [intros _|reflexivity]. apply dependent_action in A. assert (Hd : is_header t = true) by (destruct (action_range t) as [E|E]; [exact (header_type _ _ eq_refl E)|contradiction]).
    destruct (upper_apart t (action_section_type t) O Hd) as [G S]; [cbn; auto|exact A|]. intros [H|H].
    + apply (C75_headers t) in H. congruence.
    + apply (C75_headers t) in H. congruence.
  - rewrite <- Up. destruct (among resource_group_upper (section_keyword t)); cbn; intuition discriminate.
Qed.
Lemma group_describes_iff : forall t, one_line t -> (group_is_description t = true <-> group_describes t).
Proof.
  intros t O. unfold group_is_description, group_describes. rewrite <- complete_iff. destruct (complete t); [intuition discriminate|].
  rewrite (description_upper resource_group_nested_type resource_group_upper t); [|cbn; intuition discriminate]. destruct (upper_iff t O) as (Up & _). rewrite <- Up.
  destruct (group_kind t) as [(R & E)|(R & E)]; rewrite E; destruct (among resource_group_upper (section_keyword t)); intuition discriminate.
Qed.
Lemma group_not_resource : forall h, one_line h -> group_h h -> resource_group_nested_type h = UndefinedSection.
Proof.
  intros h O G. destruct (st_dec (resource_type h) UndefinedSection) as [E|E]; [exact E|]. exfalso. destruct (upper_apart h (resource_type h) O (group_header _ G)) as [X _]; [cbn; auto|exact E|]. apply (C75_headers h) in G. congruence.
Qed.
Lemma refused_mono : forall a b, refused_in b -> refused_in (a ++ b).
Proof. intros a b (t & I & H). exists t. split; [apply in_or_app; now right|exact H]. Qed.
Lemma ts_defined : forall t, negb (undefined (type_section_nested_type t)) = true.
Proof. intros t. destruct (member_kind t) as [(_ & _ & E)|[(_ & _ & E)|(_ & _ & E)]]; now rewrite E. Qed.
Lemma value_iff : forall b, is_value b = true <-> value_base b.
Proof. intros []; cbn; unfold value_base; intuition discriminate. Qed.
Lemma object_iff : forall b, is_object b = true <-> object_base b.
Proof. intros []; cbn; unfold object_base; intuition discriminate. Qed.
Lemma primitive_iff : forall b, is_primitive b = true <-> primitive_base b.
Proof. intros []; cbn; unfold primitive_base; intuition discriminate. Qed.

Section Parts.
Context (inside : section_type -> tree -> outcome unit).

(** ** resources *)
Definition resource_inv (h : tree) (d : list tree) (done : list part) (last : section_type) (o : out) (cur : list tree) : Prop :=
  o_parts o = Head h :: map Text d ++ done /\ o_examples o = [] /\ track a_model done last cur.
Lemma resource_move : forall h d, good_move inside (resource_processor inside) resource_rule (fun _ => resource_stop) (fun _ => False) (resource_inv h d) eq.
Proof.
  intros h d done last o t r O (P & Ex & Tr). inversion O as [|? ? O1 O2]; subst. unfold move. cbn [resource_processor p_nested_type p_nested p_is_unexpected p_unexpected].
  destruct (resource_kind t) as [(ty & Hi & E & Nu & Na & Nh)|[(Ow & E & Ni)|(E & Nw & Ni)]]; rewrite E.
  - assert (It : is_item t = true) by (destruct Hi as [[[_ H]|[[_ H]|[_ H]]]|[H _]]; exact (says_item _ _ H)).
    rewrite (defined_true _ Nu).
    replace (resource_nested inside ty o (t :: r)) with (list_section inside ty o (t :: r)) by (destruct Hi as [[[-> _]|[[-> _]|[-> _]]]|(_ & _ & _ & [[-> _]|[-> _]])]; reflexivity).
    apply fine_list; [exact It|]. right. exists [Listed ty t]. split; [reflexivity|]. split; [lia|]. split; [apply in_order_one; exact Hi|]. cbn [resource_processor p_nested_type]. rewrite E.
    split; [cbn; rewrite P; cbn; now rewrite <- app_assoc|]. split; [exact Ex|]. now apply track_listed.
  - cbn [undefined negb resource_nested]. unfold take_action. eapply fine_bind; [exact (action_fine inside t r (own_action_header _ (proj1 Ow)) O2)|].
    intros (a & r') (N & H & Ok). cbn -[section_nodes section_head close] in N, H, Ok |- *. right. exists [Sub (close ActionSection a)]. rewrite nodes_one. split; [exact N|]. split; [exact (shorter _ _ _ _ _ N H)|].
    split; [apply in_order_one; split; [exists t; now split|exact Ok]|]. cbn [resource_processor p_nested_type]. rewrite E. split; [cbn; rewrite P; cbn; now rewrite <- app_assoc|]. split; [exact Ex|].
    apply track_sub; [discriminate|]. unfold a_model. cbn. intuition discriminate.
  - cbn [undefined negb]. rewrite (unexpected_base resource_upper t); [|cbn; intuition discriminate].
    destruct (upper_iff t O1) as (_ & Up & _ & _). destruct (among resource_upper (section_keyword t)) eqn:Am.
    + assert (Ea : ends_resource t) by (apply Up; reflexivity). cbn. left. split; [reflexivity|]. split; [now split|reflexivity].
    + assert (Ea : ~ ends_resource t) by (intros H; apply Up in H; discriminate). cbn [negb]. unfold resource_unexpected, with_node.
      destruct (is_text t && is_model last)%bool eqn:B.
      * apply andb_prop in B as [B1 B2]. apply text_iff in B1. destruct Tr as [Tr1 Tr2]. pose proof (Tr1 B1) as Tr3. cbn. right. exists [Dangling t]. split; [reflexivity|]. split; [lia|].
        split; [apply in_order_one; split; [exact B1|apply Tr3; now apply model_last]|]. cbn [resource_processor p_nested_type]. rewrite E. split; [cbn; rewrite P; cbn; now rewrite <- app_assoc|].
        split; [exact Ex|]. apply track_dangling; [exact no_model|exact B1|now split].
      * assert (N : ~ (a_text t /\ right_after a_model done)).
        { intros [H1 H2]. destruct Tr as [Tr1 _]. apply (Tr1 H1) in H2. apply model_last in H2. apply text_iff in H1. rewrite H1, H2 in B. discriminate. }
        cbn. right. exists [Ignored t]. split; [reflexivity|]. split; [lia|]. split; [apply in_order_one; now repeat (split; [assumption|])|]. cbn [resource_processor p_nested_type]. rewrite E.
        split; [cbn; rewrite P; cbn; now rewrite <- app_assoc|]. split; [exact Ex|]. apply track_ignored; [exact no_model|exact N|exact Tr].
Qed.
Lemma resource_fine : forall h l, is_header h = true -> Forall one_line l -> fine inside (h :: l) False (ends_as ResourceSection resource_ok h l) (parse (resource_processor inside) fresh (h :: l)).
Proof.
  intros h l Hd O. destruct (endpoint h) eqn:Ep.
  - unfold parse. cbn [resource_processor p_header p_signature]. rewrite Hd. cbn [andthen]. unfold resource_signature. rewrite Ep. unfold take_action.
    pose proof (action_fine inside h l Hd O) as A. destruct (parse (action_processor inside) fresh (h :: l)) as [[a r]| | |]; cbn in *; auto.
    destruct A as (N & H & Ok). cbn in *. unfold ends_as. cbn. unfold section_head in *. cbn in *. rewrite app_nil_r. split; [exact N|]. split; [exact H|].
    left. exists (close ActionSection a), h. split; [reflexivity|]. split; [exact H|]. split; [now apply endpoint_iff|exact Ok].
  - refine (fine_imp inside _ _ _ False False _ _ _ (incl_refl _) (fun x => x) _
      (section_fine inside (resource_processor inside) (fun _ => resource_rule) (fun _ _ => resource_stop) (fun _ => False) eq (@eq_refl _) resource_describes (resource_inv h) h l fresh (add (Head h) fresh) (told h) eq_refl Hd O _ _ resource_describes_iff _ _ (resource_move h) (fun _ _ x => x))).
    + intros (o' & rest) (d & ps & last & o1 & E & D & Or & (P & T & _) & <- & St). unfold ends_as. cbn [fst snd]. destruct (told_nodes h d ps rest ResourceSection o1 P) as [N H].
      split; [rewrite N, E; reflexivity|]. split; [exact H|]. right. exists h, d, ps. unfold close. rewrite P, T. split; [reflexivity|]. split; [now apply header_iff_a|].
      split; [rewrite <- endpoint_iff, Ep; discriminate|]. auto.
    + cbn. unfold resource_signature. rewrite Ep. reflexivity.
    + split; reflexivity.
    + intros d o t q J _. exact (told_text h d o t q J).
    + intros d o cur [P E]. unfold resource_inv. rewrite P. split; [now rewrite app_nil_r|]. split; [exact E|]. exact (track_start _ _ no_model).
Qed.

(** ** groups *)
Definition group_inv (pre : list part) (done : list part) (last : section_type) (o : out) (cur : list tree) : Prop := o_parts o = pre ++ done /\ o_examples o = [].
Lemma group_move : forall pre, good_move inside (group_processor inside) group_rule (fun _ => ends_group) (fun _ => False) (group_inv pre) eq.
Proof.
  intros pre done last o t r O (P & Ex). inversion O as [|? ? O1 O2]; subst. unfold move. cbn [group_processor p_nested_type p_nested p_is_unexpected p_unexpected].
  destruct (group_kind t) as [(R & E)|(R & E)]; rewrite E.
  - cbn [undefined negb group_nested]. eapply fine_bind; [exact (resource_fine t r (resource_header _ R) O2)|]. intros (a & r') (N & H & Ok). cbn -[section_nodes section_head close] in N, H, Ok |- *. right. exists [Sub (close ResourceSection a)].
    rewrite nodes_one. split; [exact N|]. split; [exact (shorter _ _ _ _ _ N H)|]. split; [apply in_order_one; split; [exists t; now split|exact Ok]|].
    split; [cbn; rewrite P; now rewrite <- app_assoc|exact Ex].
  - cbn [undefined negb]. destruct (group_is_unexpected t) eqn:U.
    + apply (group_unexpected_iff t O1) in U. cbn. right. exists [Ignored t]. split; [reflexivity|]. split; [lia|]. split; [apply in_order_one; now split|]. split; [cbn; rewrite P; now rewrite <- app_assoc|exact Ex].
    + cbn. left. split; [reflexivity|]. split; [|reflexivity]. destruct (upper_iff t O1) as (Up & _). apply Up. unfold group_is_unexpected in U. rewrite (unexpected_base resource_group_upper t) in U; [|cbn; intuition discriminate].
      destruct (action_type_of t); try discriminate; now apply negb_false_iff in U.
Qed.
Lemma group_fine : forall h l, group_h h -> one_line h -> Forall one_line l -> fine inside (h :: l) False (ends_as ResourceGroupSection group_ok h l) (parse (group_processor inside) fresh (h :: l)).
Proof.
  intros h l G Oh O.
  refine (fine_imp inside _ _ _ False False _ _ _ (incl_refl _) (fun x => x) _
    (section_fine inside (group_processor inside) (fun _ => group_rule) (fun _ _ => ends_group) (fun _ => False) eq (@eq_refl _) group_describes (fun d => group_inv (Head h :: map Text d)) h l fresh (add (Head h) fresh) (told h) eq_refl (group_header _ G) O _ _ group_describes_iff _ _ (fun d => group_move _) (fun _ _ x => x))).
  - intros (o' & rest) (d & ps & last & o1 & E & D & Or & (P & T) & <- & St). unfold ends_as. cbn [fst snd]. destruct (told_nodes h d ps rest ResourceGroupSection o1 P) as [N H].
    split; [rewrite N, E; reflexivity|]. split; [exact H|]. exists h, d, ps. unfold close. rewrite P, T. split; [reflexivity|]. split; [exact G|]. auto.
  - cbn. unfold group_signature. rewrite (group_not_resource _ Oh G). reflexivity.
  - split; reflexivity.
  - intros d o t q J _. exact (told_text h d o t q J).
  - intros d o cur [P E]. unfold group_inv. rewrite P, app_nil_r. now split.
Qed.

(** ** type sections *)
Definition kept (h : tree) (b : base_type) (k : klass) (o : out) : Prop := o_base o = b /\ o_sections o = [k].
Definition ts_inv (h : tree) (b : base_type) (k : klass) (d : list tree) (done : list part) (last : section_type) (o : out) (cur : list tree) : Prop :=
  o_parts o = Head h :: map Text d ++ done /\ o_examples o = [] /\ kept h b k o /\ d = [].
Lemma take_part : forall h b k p done o, o_parts o = Head h :: map Text [] ++ done /\ o_examples o = [] /\ kept h b k o /\ @nil tree = [] ->
  o_parts (add p o) = Head h :: map Text [] ++ done ++ [p] /\ o_examples (add p o) = [] /\ kept h b k (add p o) /\ @nil tree = [].
Proof. intros h b k p done o (P & E & K & N). split; [cbn in *; rewrite P; reflexivity|]. split; [exact E|]. split; [exact K|reflexivity]. Qed.
Lemma values_move : forall h b d, b <> UndefinedBT -> good_move inside (type_section_processor inside MSONSampleDefaultSection) (values_rule b) (fun _ => values_stop b) refused_in (ts_inv h b SampleClass d) eq.
Proof.
  intros h b d Nb done last o t r O J. inversion O as [|? ? O1 O2]; subst. unfold move. cbn [type_section_processor p_nested_type p_nested p_is_unexpected p_unexpected]. rewrite ts_defined.
  destruct J as (P & Ex & K & ->). assert (Ob : o_base o = b) by exact (proj1 K). unfold type_section_nested, with_node. destruct (is_header t) eqn:Hd.
  - cbn. left. split; [reflexivity|]. split; [left; now apply header_iff_a|reflexivity].
  - assert (Nh : ~ a_header t) by (rewrite <- header_iff_a, Hd; discriminate).
    destruct (member_kind t) as [(I & No & E)|[(One & Ni & E)|(Ni & No & E)]]; rewrite E.
    + cbn. left. split; [reflexivity|]. split; [right; now left|reflexivity].
    + cbn. left. split; [reflexivity|]. split; [right; right; now left|reflexivity].
    + rewrite Ob. destruct (is_value b) eqn:V, (is_item t) eqn:It, (is_object b) eqn:Bo, (is_primitive b) eqn:Pr; cbn [andb];
        try (exfalso; clear - Nb V Bo Pr; destruct b; first [discriminate|now apply Nb]);
        lazymatch goal with
        | |- context [list_section _ ?ty _ _] => apply fine_list; [exact It|]; right; exists [Listed ty t]; split; [reflexivity|]; split; [lia|]; split;
            [apply in_order_one; cbn; split; [now apply item_iff|]; split; [exact Ni|]; split; [exact No|]; first [left; split; [reflexivity|now apply value_iff]|right; split; [reflexivity|now apply object_iff]]
            |refine (take_part _ _ _ _ _ _ _); auto]
        | |- fine _ _ _ _ (Val (add (Text t) _, _)) => cbn; right; exists [Text t]; split; [reflexivity|]; split; [lia|]; split;
            [apply in_order_one; cbn; split; [exact Nh|]; split; [exact Ni|]; split; [exact No|now apply primitive_iff]|refine (take_part _ _ _ _ _ _ _); auto]
        | |- _ => cbn; left; split; [reflexivity|]; split; [|reflexivity]; right; right; right; split; [rewrite <- item_iff, It; discriminate|rewrite <- primitive_iff, Pr; discriminate]
        end.
Qed.
Definition member_type (ty : section_type) : section_type := match ty with MSONPropertyMembersSection => MSONPropertyMemberSection | _ => MSONValueMemberSection end.
Lemma members_move : forall ty h b d, (ty = MSONValueMembersSection /\ value_base b) \/ (ty = MSONPropertyMembersSection /\ object_base b) ->
  good_move inside (type_section_processor inside ty) (members_rule b) (fun _ => members_stop b) refused_in (ts_inv h b MemberClass d) eq.
Proof.
  intros ty h b d Tb done last o t r O J. inversion O as [|? ? O1 O2]; subst. unfold move. cbn [type_section_processor p_nested_type p_nested p_is_unexpected p_unexpected]. rewrite ts_defined.
  destruct J as (P & Ex & K & ->). assert (Ob : o_base o = b) by exact (proj1 K). unfold type_section_nested, with_node. destruct (is_header t) eqn:Hd.
  - cbn. left. split; [reflexivity|]. split; [left; now apply header_iff_a|reflexivity].
  - assert (Nh : ~ a_header t) by (rewrite <- header_iff_a, Hd; discriminate).
    destruct (member_kind t) as [(I & No & E)|[(One & Ni & E)|(Ni & No & E)]]; rewrite E.
    + assert (It : is_item t = true) by (apply item_iff; apply (item_not_h t); now left).
      replace (match ty with MSONPropertyMembersSection | MSONValueMembersSection => _ | _ => _ end) with (list_section inside MSONMixinSection o (t :: r)) by (destruct Tb as [[-> _]|[-> _]]; reflexivity).
      apply fine_list; [exact It|]. right. exists [Listed MSONMixinSection t]. split; [reflexivity|]. split; [lia|]. split; [apply in_order_one; cbn; right; left; now split|refine (take_part _ _ _ _ _ _ _); auto].
    + assert (It : is_item t = true) by (apply item_iff; apply (item_not_h t); now right). destruct Tb as [[-> V]|[-> Bo]].
      * cbn. left. split; [reflexivity|]. split; [|reflexivity]. right. split; [exact One|]. destruct V as [->| ->]; unfold object_base; intuition discriminate.
      * apply fine_list; [exact It|]. right. exists [Listed MSONOneOfSection t]. split; [reflexivity|]. split; [lia|]. split; [apply in_order_one; cbn; right; right; split; [reflexivity|]; split; [exact One|exact Bo]|refine (take_part _ _ _ _ _ _ _); auto].
    + replace (match ty with MSONPropertyMembersSection | MSONValueMembersSection => _ | _ => _ end) with (list_section inside (member_type ty) o (t :: r)) by (destruct Tb as [[-> _]|[-> _]]; reflexivity).
      destruct (is_item t) eqn:It.
      * apply fine_list; [exact It|]. right. exists [Listed (member_type ty) t]. split; [reflexivity|]. split; [lia|]. split; [|refine (take_part _ _ _ _ _ _ _); auto].
        apply in_order_one. cbn. left. split; [now apply item_iff|]. split; [exact Ni|]. split; [exact No|]. destruct Tb as [[-> V]|[-> V]]; cbn; [left|right]; now split.
      * unfold list_section, with_node. rewrite It. cbn. right. exists t. split; [now left|]. right. split; [exact Nh|]. rewrite <- item_iff, It. discriminate.
Qed.
Definition start_of (b : base_type) : out := Out [] [] [] b.
Definition ts_result (b : base_type) (ty : section_type) (h : tree) (l : list tree) (x : out * list tree) : Prop :=
  (o_sections (fst x) = [] /\ snd x = h :: l /\ ((members_h h /\ ~ value_base b) \/ (properties_h h /\ ~ object_base b))) \/
  (exists k, o_sections (fst x) = [k] /\ k <> BlockClass /\ ends_as ty (type_section_ok b) h l x).
Lemma nothing_described : forall p, p_is_description p = no_description -> forall t : tree, one_line t -> (p_is_description p t = true <-> False).
Proof. intros p E t _. rewrite E. cbn. intuition discriminate. Qed.
Definition ts_told (h : tree) (b : base_type) (k : klass) (d : list tree) (o : out) : Prop := o_parts o = Head h :: map Text d /\ o_examples o = [] /\ kept h b k o /\ d = [].
Lemma type_section_fine : forall ty b h l, b <> UndefinedBT -> is_header h = true -> Forall one_line l -> type_section_type h = ty -> ty <> UndefinedSection ->
  fine inside (h :: l) (refused_in (h :: l)) (ts_result b ty h l) (parse (type_section_processor inside ty) (start_of b) (h :: l)).
Proof.
  intros ty b h l Nb Hd O T N.
  assert (Go : forall k rule stop o0, k <> BlockClass -> o0 = add (Head h) (push_class k (start_of b)) -> p_signature (type_section_processor inside ty) (start_of b) (h :: l) = Val (DefaultLayout, o0, l) ->
    (forall d, good_move inside (type_section_processor inside ty) (rule b) (fun _ => stop b) refused_in (ts_inv h b k d) eq) ->
    (forall ps rest, in_order (rule b) [] ps rest -> stops (stop b) rest -> type_section_ok b (Sec ty (Head h :: ps) []) rest) ->
    fine inside (h :: l) (refused_in (h :: l)) (ts_result b ty h l) (parse (type_section_processor inside ty) (start_of b) (h :: l))).
  { intros k rule stop o0 Nk E0 Sg Mv Ok.
    refine (fine_imp inside _ _ _ (refused_in l) _ _ _ _ (incl_refl _) (refused_mono [h] l) _
      (section_fine inside (type_section_processor inside ty) (fun _ => rule b) (fun _ _ => stop b) refused_in eq (@eq_refl _) (fun _ => False) (ts_inv h b k) h l (start_of b) o0 (ts_told h b k) eq_refl Hd O Sg _ (nothing_described (type_section_processor inside ty) eq_refl) _ _ Mv refused_mono)).
    - intros (o' & rest) (d & ps & last & o1 & E & D & Or & (P & Ex & K & Ed) & <- & St). subst d. right. exists k. split; [exact (proj2 K)|]. split; [exact Nk|]. unfold ends_as. cbn [fst snd].
      destruct (told_nodes h [] ps rest ty o1 P) as [Nd H]. split; [rewrite Nd, E; reflexivity|]. split; [exact H|]. unfold close. rewrite P, Ex. apply Ok; assumption.
    - rewrite E0. split; [reflexivity|]. split; [reflexivity|]. split; [split; reflexivity|reflexivity].
    - intros d o t q _ [].
    - intros d o cur (P & E & K & Ed). unfold ts_inv. rewrite P, app_nil_r. auto. }
  destruct (type_section_range h) as [E|[E|[E|[E|[]]]]]; rewrite T in E; destruct E.
  - now elim N.
  - apply (Go SampleClass values_rule values_stop _ ltac:(discriminate) eq_refl eq_refl (fun d => values_move h b d Nb)). intros ps rest Or St. left. exists h, ps. split; [reflexivity|].
    split; [now apply (values_iff h Hd)|]. now split.
  - destruct (is_value b) eqn:V.
    + apply (Go MemberClass members_rule members_stop (add (Head h) (push_class MemberClass (start_of b))) ltac:(discriminate) eq_refl).
      * cbn. unfold type_section_signature. cbn [start_of o_base]. rewrite V. reflexivity.
      * intros d. apply members_move. left. split; [reflexivity|now apply value_iff].
      * intros ps rest Or St. right. left. exists h, ps. split; [reflexivity|]. split; [now apply (members_iff h Hd)|]. split; [now apply value_iff|]. now split.
    + unfold parse. cbn [type_section_processor p_header p_signature]. rewrite Hd. cbn [andthen]. unfold type_section_signature. cbn [start_of o_base]. rewrite V. cbn [andthen].
      replace (same (h :: l) (h :: l)) with true by (symmetry; unfold same; apply Nat.eqb_refl). cbn. left. split; [reflexivity|]. split; [reflexivity|]. left. split; [now apply (members_iff h Hd)|rewrite <- value_iff, V; discriminate].
  - destruct (is_object b) eqn:V.
    + apply (Go MemberClass members_rule members_stop (add (Head h) (push_class MemberClass (start_of b))) ltac:(discriminate) eq_refl).
      * cbn. unfold type_section_signature. cbn [start_of o_base]. rewrite V. reflexivity.
      * intros d. apply members_move. right. split; [reflexivity|now apply object_iff].
      * intros ps rest Or St. right. right. exists h, ps. split; [reflexivity|]. split; [now apply (properties_iff h Hd)|]. split; [now apply object_iff|]. now split.
    + unfold parse. cbn [type_section_processor p_header p_signature]. rewrite Hd. cbn [andthen]. unfold type_section_signature. cbn [start_of o_base]. rewrite V. cbn [andthen].
      replace (same (h :: l) (h :: l)) with true by (symmetry; unfold same; apply Nat.eqb_refl). cbn. left. split; [reflexivity|]. split; [reflexivity|]. right. split; [now apply (properties_iff h Hd)|rewrite <- object_iff, V; discriminate].
Qed.
End Parts.
