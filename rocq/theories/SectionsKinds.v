From Verif Require Import Base StringUtility StringSpec StringProofs Regex RegexSpec RegexProofs ByteBuffer Markdown MarkdownSpec Keywords KeywordsSpec KeywordsProofs KeywordsOrder Prop_Keywords RegexCaps TypeTables Sections SectionsSpec SectionsKeys.
Local Open Scope string_scope.

(** ** a header says one thing only *)
Definition res_pats : list string := [NamedResourceHeaderRegex; NamedEndpointHeaderRegex; ResourceHeaderRegex; ActionHeaderRegex; NamedActionHeaderRegex].
Definition member_pats : list string := [MSONValueMembersTypeSectionRegex; MSONPropertyMembersTypeSectionRegex].
Definition value_pats : list string := [MSONDefaultTypeSectionRegex; MSONSampleTypeSectionRegex].
Definition none_common (a b : list string) : bool := forallb (fun p => forallb (fun q => apart 1000 (whole p) (whole q)) b) a.
Lemma headers_checked : none_common (res_pats ++ member_pats ++ value_pats) [GroupHeaderRegex; DataStructureGroupRegex] = true /\ none_common res_pats member_pats = true /\
  none_common [GroupHeaderRegex] [DataStructureGroupRegex] = true.
Proof. vm_compute. auto. Qed.
Lemma none_common_spec : forall a b, none_common a b = true -> forall p q s, In p a -> In q b -> regex_match s p = true -> regex_match s q = true -> False.
Proof.
  intros a b H p q s P Q. unfold none_common in H. rewrite forallb_forall in H. specialize (H _ P). rewrite forallb_forall in H. specialize (H _ Q).
  now apply (apart_match 1000).
Qed.
Lemma resource_pat : forall t, resource_type t <> UndefinedSection -> exists p, In p res_pats /\ regex_match (header_whole t) p = true.
Proof. intros t H. apply if_not in H. apply orb_prop in H as [H|H]; [apply orb_prop in H as [H|H]|]; eexists; (split; [|exact H]); unfold res_pats; cbn [In]; auto 10. Qed.
Lemma action_pat : forall t, action_section_type t <> UndefinedSection -> exists p, In p res_pats /\ regex_match (header_whole t) p = true.
Proof. intros t H. apply if_not in H. apply orb_prop in H as [H|H]; eexists; (split; [|exact H]); unfold res_pats; cbn [In]; auto 10. Qed.
Lemma type_section_pat : forall t, is_header t = true -> one_line t -> type_section_type t <> UndefinedSection ->
  exists p, In p (member_pats ++ value_pats) /\ regex_match (header_whole t) p = true.
Proof.
  intros t Hd O H. unfold type_section_type in H. rewrite Hd, (header_line_whole _ O) in H. unfold member_pats, value_pats.
  destruct (regex_match (header_whole t) MSONDefaultTypeSectionRegex) eqn:A; [eexists; split; [|exact A]; cbn [In app]; auto|].
  destruct (regex_match (header_whole t) MSONSampleTypeSectionRegex) eqn:C; [eexists; split; [|exact C]; cbn [In app]; auto 6|]. cbn [orb] in H.
  destruct (regex_match (header_whole t) MSONValueMembersTypeSectionRegex) eqn:D; [eexists; split; [|exact D]; cbn [In app]; auto|].
  apply if_not in H. eexists; split; [|exact H]; cbn [In app]; auto.
Qed.
Lemma group_pat : forall t, resource_group_type t <> UndefinedSection -> regex_match (header_whole t) GroupHeaderRegex = true.
Proof. intros t H. now apply if_not in H. Qed.
Lemma structures_pat : forall t, one_line t -> data_structures_type t <> UndefinedSection -> regex_match (header_whole t) DataStructureGroupRegex = true.
Proof. intros t O H. unfold data_structures_type in H. rewrite (header_line_whole _ O) in H. now apply if_not in H. Qed.
Definition none (x : section_type) : Prop := x = UndefinedSection.
Lemma upper_apart : forall t x, one_line t -> is_header t = true -> In x [type_section_type t; resource_type t; action_section_type t] -> x <> UndefinedSection -> resource_group_type t = UndefinedSection /\ data_structures_type t = UndefinedSection.
Proof.
  intros t x O Hd I N. pose proof (proj1 headers_checked) as H. assert (X : exists p, In p (res_pats ++ member_pats ++ value_pats) /\ regex_match (header_whole t) p = true).
  { destruct I as [<-|[<-|[<-|[]]]].
    - apply type_section_pat in N as (p & I & M); [|assumption|assumption]. exists p. split; [apply in_or_app; now right|exact M].
    - apply resource_pat in N as (p & I & M). exists p. split; [apply in_or_app; now left|exact M].
    - apply action_pat in N as (p & I & M). exists p. split; [apply in_or_app; now left|exact M]. }
  destruct X as (p & I' & M). split.
  - destruct (st_dec (resource_group_type t) UndefinedSection) as [E|E]; [exact E|]. exfalso. refine (none_common_spec _ _ H p GroupHeaderRegex _ I' _ M (group_pat _ E)). now left.
  - destruct (st_dec (data_structures_type t) UndefinedSection) as [E|E]; [exact E|]. exfalso. refine (none_common_spec _ _ H p DataStructureGroupRegex _ I' _ M (structures_pat _ O E)). right. now left.
Qed.
Lemma group_apart : forall t, one_line t -> resource_group_type t <> UndefinedSection -> data_structures_type t = UndefinedSection.
Proof.
  intros t O N. destruct (st_dec (data_structures_type t) UndefinedSection) as [E|E]; [exact E|]. exfalso.
  refine (none_common_spec _ _ (proj2 (proj2 headers_checked)) GroupHeaderRegex DataStructureGroupRegex _ _ _ (group_pat _ N) (structures_pat _ O E)); now left.
Qed.
Lemma values_iff : forall t, is_header t = true -> (type_section_type t = MSONSampleDefaultSection <-> values_h t).
Proof.
  intros t Hd. rewrite (proj1 (C75_type_sections t)). unfold values_h. rewrite header_line_or. unfold says.
  destruct t as [[] x z m cs]; try discriminate. cbn. tauto.
Qed.
Lemma members_iff : forall t, is_header t = true -> (type_section_type t = MSONValueMembersSection <-> members_h t).
Proof. intros t Hd. rewrite (proj1 (proj2 (C75_type_sections t))). unfold members_h, says. destruct t as [[] x z m cs]; try discriminate. cbn. tauto. Qed.
Lemma properties_iff : forall t, is_header t = true -> (type_section_type t = MSONPropertyMembersSection <-> properties_h t).
Proof. intros t Hd. rewrite (proj2 (proj2 (C75_type_sections t))). unfold properties_h, says. destruct t as [[] x z m cs]; try discriminate. cbn. tauto. Qed.
Lemma type_section_range : forall t, In (type_section_type t) [UndefinedSection; MSONSampleDefaultSection; MSONValueMembersSection; MSONPropertyMembersSection].
Proof.
  intros t. unfold type_section_type. cbv zeta. destruct (_ || _)%bool; [cbn; auto|]. destruct (regex_match _ _); [cbn; auto|]. destruct (regex_match _ _); cbn; auto.
Qed.
Lemma member_apart : forall t x, one_line t -> is_header t = true -> type_section_type t <> MSONSampleDefaultSection -> type_section_type t <> UndefinedSection ->
  In x [resource_type t; action_section_type t] -> x = UndefinedSection.
Proof.
  intros t x O Hd Nv N I. destruct (st_dec x UndefinedSection) as [E|E]; [exact E|]. exfalso.
  assert (X : exists p, In p res_pats /\ regex_match (header_whole t) p = true) by (destruct I as [<-|[<-|[]]]; [now apply resource_pat|now apply action_pat]).
  assert (Y : exists p, In p member_pats /\ regex_match (header_whole t) p = true).
  { unfold type_section_type in N, Nv. rewrite Hd, (header_line_whole _ O) in N, Nv. unfold member_pats.
    destruct (regex_match (header_whole t) MSONDefaultTypeSectionRegex) eqn:A; [now elim Nv|].
    destruct (regex_match (header_whole t) MSONSampleTypeSectionRegex) eqn:C; [now elim Nv|]. cbn [orb] in N.
    destruct (regex_match (header_whole t) MSONValueMembersTypeSectionRegex) eqn:D; [eexists; split; [|exact D]; cbn [In]; auto|].
    apply if_not in N. eexists; split; [|exact N]; cbn [In]; auto. }
  destruct X as (p & P & M), Y as (q & Q & K). exact (none_common_spec _ _ (proj1 (proj2 headers_checked)) p q _ P Q M K).
Qed.
(** ** the keyword of a header *)
Lemma kw_header : forall t, is_header t = true -> section_keyword t =
  or_else (type_section_type t) (or_else (resource_type t) (or_else (action_section_type t) (or_else (resource_group_type t) (data_structures_type t)))).
Proof.
  intros t Hd. unfold section_keyword, keyword_checks, first_check. cbn [fold_right]. rewrite or_undefined. f_equal. destruct t as [[] x z m cs]; try discriminate.
  unfold mixin_type, one_of_type, headers_type, asset_type, attributes_type, payload_type, values_type, parameters_type, relation_type, item_line, item_whole, item_text, is_item.
  cbn [t_type]. rewrite !empty_no_match. reflexivity.
Qed.
Lemma if_range : forall b x, if_ b x = x \/ if_ b x = UndefinedSection.
Proof. intros []; cbn; auto. Qed.
Lemma kw_other : forall t, is_header t = false -> among action_upper (section_keyword t) = false.
Proof.
  intros t Hd. destruct (st_dec (section_keyword t) UndefinedSection) as [E|E]; [now rewrite E|].
  unfold section_keyword in *. rewrite first_check_firsts in *. apply firsts_in in E. revert E. generalize (firsts (map (fun f => f t) keyword_checks)). intros x I.
  assert (Hw : header_whole t = "" /\ header_line t = "") by (unfold header_whole, header_line; now rewrite Hd). destruct Hw as [Hw Hl].
  unfold keyword_checks in I. cbn [map In] in I.
  destruct I as [<-|[<-|[<-|[<-|[<-|[<-|[<-|[<-|[<-|[<-|[<-|[<-|[<-|[<-|[]]]]]]]]]]]]]]].
  - destruct (type_section_range t) as [<-|[<-|[<-|[<-|[]]]]]; reflexivity.
  - unfold mixin_type. destruct (if_range (regex_match (item_whole t) MSONMixinRegex) MSONMixinSection) as [->| ->]; reflexivity.
  - unfold one_of_type. destruct (if_range (regex_match (item_line t) MSONOneOfRegex) MSONOneOfSection) as [->| ->]; reflexivity.
  - unfold headers_type. destruct (if_range (regex_match (item_line t) HeadersRegex) HeadersSection) as [->| ->]; reflexivity.
  - unfold asset_type. destruct (regex_match (item_line t) BodyRegex); [reflexivity|]. destruct (if_range (regex_match (item_line t) SchemaRegex) SchemaSection) as [->| ->]; reflexivity.
  - unfold attributes_type. destruct (if_range (regex_match (item_line t) AttributesRegex) AttributesSection) as [->| ->]; reflexivity.
  - unfold payload_type. cbv zeta. destruct (regex_match (item_line t) RequestRegex); [destruct (fold_right _ _ _); reflexivity|].
    destruct (regex_match (item_line t) ResponseRegex); [destruct (fold_right _ _ _); reflexivity|].
    destruct (regex_match (item_line t) ModelRegex); [destruct (fold_right _ _ _); reflexivity|reflexivity].
  - unfold values_type. destruct (if_range (regex_match (item_whole t) ValuesRegex) ValuesSection) as [->| ->]; reflexivity.
  - unfold parameters_type. destruct (if_range (regex_match (item_line t) ParametersRegex) ParametersSection) as [->| ->]; reflexivity.
  - unfold relation_type. destruct (if_range (regex_match (item_line t) RelationRegex) RelationSection) as [->| ->]; reflexivity.
  - unfold resource_type. rewrite Hw, !empty_no_match. reflexivity.
  - unfold action_section_type. rewrite Hw, !empty_no_match. reflexivity.
  - unfold resource_group_type. rewrite Hw, !empty_no_match. reflexivity.
  - unfold data_structures_type. rewrite Hl, !empty_no_match. reflexivity.
Qed.
Lemma among_sub : forall a b x, incl a b -> among b x = false -> among a x = false.
Proof.
  intros a b x I H. destruct (among a x) eqn:E; [|reflexivity]. unfold among in *. apply existsb_exists in E as (y & Y & E). apply I in Y.
  assert (existsb (section_eqb x) b = true) by (apply existsb_exists; eauto). congruence.
Qed.
Lemma not_header_h : forall t, is_header t = false -> ~ resource_h t /\ ~ action_h t /\ ~ group_h t /\ ~ structures_h t /\ ~ values_h t /\ ~ members_h t /\ ~ properties_h t.
Proof. intros [[] x z m cs] H; try discriminate; cbn; tauto. Qed.
Lemma resource_range : forall t, resource_type t = ResourceSection \/ resource_type t = UndefinedSection.
Proof. intros t. apply if_range. Qed.
Lemma action_range : forall t, action_section_type t = ActionSection \/ action_section_type t = UndefinedSection.
Proof. intros t. apply if_range. Qed.
Lemma group_range : forall t, resource_group_type t = ResourceGroupSection \/ resource_group_type t = UndefinedSection.
Proof. intros t. apply if_range. Qed.
Lemma structures_range : forall t, data_structures_type t = DataStructureGroupSection \/ data_structures_type t = UndefinedSection.
Proof. intros t. apply if_range. Qed.
Lemma upper_iff : forall t, one_line t ->
  (among resource_group_upper (section_keyword t) = true <-> ends_group t) /\ (among resource_upper (section_keyword t) = true <-> ends_resource t) /\
  (among action_upper (section_keyword t) = true <-> ends_action t) /\ (among data_structures_upper (section_keyword t) = true <-> ends_resource t).
Proof.
  intros t O. unfold ends_action, ends_resource, ends_group, resource_h, action_h, group_h, structures_h.
  destruct (C75_headers t) as (HR & HA & HG & HS). rewrite <- HR, <- HA, <- HG, <- HS.
  destruct (is_header t) eqn:Hd.
  - rewrite <- (values_iff _ Hd). rewrite (kw_header _ Hd).
    pose proof (fun x => upper_apart t x O Hd) as U. pose proof (group_apart t O) as G. pose proof (fun x => member_apart t x O Hd) as Mb.
    pose proof (type_section_range t) as T.
    destruct (resource_range t) as [R|R], (action_range t) as [A|A], (group_range t) as [Gr|Gr], (structures_range t) as [S|S];
      rewrite R, A, Gr, S in *;
      try (exfalso; destruct (U ResourceSection ltac:(cbn; auto) ltac:(discriminate)); discriminate);
      try (exfalso; destruct (U ActionSection ltac:(cbn; auto) ltac:(discriminate)); discriminate);
      try (exfalso; discriminate (G ltac:(discriminate)));
      destruct T as [T|[T|[T|[T|[]]]]]; rewrite <- T in *; cbn; clear HR HA HG HS O;
      try (exfalso; discriminate (Mb ResourceSection ltac:(discriminate) ltac:(discriminate) ltac:(cbn; auto)));
      try (exfalso; discriminate (Mb ActionSection ltac:(discriminate) ltac:(discriminate) ltac:(cbn; auto)));
      try (exfalso; destruct (U _ ltac:(left; reflexivity) ltac:(discriminate)); discriminate);
      clear; intuition (try discriminate; congruence).
  - pose proof (kw_other _ Hd) as K. destruct (not_header_h _ Hd) as (N1 & N2 & N3 & N4 & N5 & _). unfold resource_h, action_h, group_h, structures_h in *.
    rewrite HR, HA, HG, HS.
    assert (forall l, incl l action_upper -> among l (section_keyword t) = false) as K' by (intros l I; exact (among_sub _ _ _ I K)).
    rewrite !K'; [|intros x; cbn; tauto..]. intuition discriminate.
Qed.
(** ** named types *)
Lemma named_iff : forall t, named_type_type t = MSONNamedTypeSection <-> type_h t.
Proof.
  intros t. rewrite C75_named_types. unfold type_h, keyword_header, resource_h, group_h, structures_h, action_h, type_section_h, values_h, members_h, properties_h.
  rewrite !header_line_or, !header_or. unfold a_header. split.
  - intros [(x & z & m & cs & ->) N]. split; [exact I|tauto].
  - intros [H N]. split; [|tauto]. destruct t as [[] x z m cs]; try contradiction. eauto.
Qed.
Lemma named_range : forall t, named_type_type t = MSONNamedTypeSection \/ named_type_type t = UndefinedSection.
Proof. intros t. unfold named_type_type. destruct (section_keyword t); auto. apply if_range. Qed.
