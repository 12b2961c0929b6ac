From Verif Require Import Base StringUtility StringSpec Regex RegexProofs ByteBuffer Markdown MarkdownSpec Keywords KeywordsSpec KeywordsProofs KeywordsOrder Prop_Keywords TypeTables Sections SectionsSpec SectionsKeys SectionsKinds SectionsItems SectionsMeta SectionsLoop SectionsFine SectionsParts.
Local Open Scope string_scope.
Local Open Scope list_scope.

Lemma type_item_iff : forall t, is_item t = true -> (type_section_type t = UndefinedSection <-> ~ type_section_item t).
Proof.
  intros t It. rewrite type_section_none. unfold type_section_item. rewrite !item_or. unfold says. destruct t as [[] x z m cs]; try discriminate. cbn. tauto.
Qed.
Lemma other_none : forall t, is_item t = false -> is_header t = false -> member_nested_type t = MSONSection /\ ~ type_section_item t /\ ~ include_item t /\ ~ one_of_item t.
Proof. intros [[] x z m cs]; try discriminate; intros _ _; cbn; (split; [reflexivity|]); unfold one_of_item, include_item; cbn; tauto. Qed.
Lemma header_kind : forall t, is_header t = true -> member_nested_type t = or_else (type_section_type t) MSONSection /\ ~ include_item t /\ ~ one_of_item t.
Proof.
  intros [[] x z m cs]; try discriminate; intros _. split.
  - unfold member_nested_type. f_equal.
  - unfold one_of_item, include_item; cbn; tauto.
Qed.
Lemma type_section_h_iff : forall t, is_header t = true -> (type_section_type t = UndefinedSection <-> ~ type_section_h t).
Proof.
  intros t Hd. unfold type_section_h. rewrite <- (values_iff _ Hd), <- (members_iff _ Hd), <- (properties_iff _ Hd).
  destruct (type_section_range t) as [<-|[<-|[<-|[<-|[]]]]]; intuition discriminate.
Qed.
Lemma last_push : forall k o, last_class (push_class k o) = Some k.
Proof. intros. unfold last_class, push_class. cbn. now rewrite rev_unit. Qed.
Lemma named_describes_iff : forall t, one_line t -> (member_is_description t = true <-> ~ a_header t /\ ~ an_item t).
Proof.
  intros t _. rewrite <- header_iff_a, <- item_iff. unfold member_is_description. destruct (is_header t) eqn:Hd.
  - split; [|intuition]. destruct (member_nested_type t); discriminate.
  - destruct (is_item t) eqn:It.
    + split; [|intuition]. destruct (member_nested_type t) eqn:E; try discriminate. unfold base_is_description. rewrite E. discriminate.
    + destruct (other_none t It Hd) as (-> & _). intuition discriminate.
Qed.
Definition is_told (d : list tree) : bool := match d with [] => false | _ => true end.
Lemma still_snoc : forall d done p, still_told d (done ++ [p]) <-> still_told d done /\ exists t, p = Text t.
Proof.
  intros d done p. unfold still_told. split.
  - intros [D H]. split; [split; [exact D|]|]; [intros q I; apply H; apply in_or_app; now left|apply H; apply in_or_app; right; now left].
  - intros [[D H] K]. split; [exact D|]. intros q I. apply in_app_or in I as [I|[<-|[]]]; auto.
Qed.

Section Doc.
Context (inside : section_type -> tree -> outcome unit) (base : tree -> base_type).

(** ** named types *)
Definition nt_told (h : tree) (b : base_type) (d : list tree) (o : out) : Prop :=
  o_parts o = Head h :: map Text d /\ o_examples o = [] /\ o_base o = b /\ o_sections o = if is_told d then [BlockClass] else [].
Definition nt_inv (h : tree) (b : base_type) (d : list tree) (done : list part) (last : section_type) (o : out) (cur : list tree) : Prop :=
  o_parts o = Head h :: map Text d ++ done /\ o_examples o = [] /\ o_base o = b /\
  ((still_told (is_told d) done /\ o_sections o = [BlockClass]) \/ (~ still_told (is_told d) done /\ last_class o <> Some BlockClass)).
Definition nt_keeps (o o' : out) : Prop := o_parts o' = o_parts o /\ o_examples o' = o_examples o.
Definition nt_stop (b : base_type) (d : list tree) (done : list part) : tree -> Prop := named_type_stop b (is_told d) done.
Lemma nt_move : forall h b d, b <> UndefinedBT ->
  good_move inside (named_type_processor inside base) (named_type_rule b (is_told d)) (nt_stop b d) refused_in (nt_inv h b d) nt_keeps.
Proof.
  intros h b d Nb done last o t r O (P & Ex & Ob & Told). inversion O as [|? ? O1 O2]; subst. rename O into O'. set (b := o_base o) in *.
  unfold move. cbn [named_type_processor p_nested_type p_nested p_is_unexpected p_unexpected].
  assert (Df : negb (undefined (member_nested_type t)) = true).
  { unfold member_nested_type. destruct (type_section_type t); try reflexivity. cbn. exact (ts_defined t). }
  rewrite Df. destruct (st_dec (type_section_type t) UndefinedSection) as [U|U].
  - (* no type section *)
    assert (E : member_nested_type t = type_section_nested_type t) by (unfold member_nested_type; rewrite U; reflexivity).
    assert (Ems : named_type_nested inside (member_nested_type t) o (t :: r) = mson_section inside (member_nested_type t) o (t :: r))
      by (rewrite E; destruct (member_kind t) as [(_ & _ & ->)|[(_ & _ & ->)|(_ & _ & ->)]]; reflexivity).
    rewrite Ems. unfold mson_section, with_node. destruct (is_header t) eqn:Hd.
    + cbn. left. split; [reflexivity|]. split; [|now split]. left. split; [now apply header_iff_a|now apply type_section_h_iff].
    + assert (Nh : ~ a_header t) by (rewrite <- header_iff_a, Hd; discriminate).
      assert (Nt : ~ type_section_item t) by (destruct (is_item t) eqn:It; [now apply type_item_iff|now apply (other_none t It Hd)]).
      assert (Nk : forall p, (forall u, p <> Text u) -> ~ still_told (is_told d) (done ++ [p])) by (intros p Np K; apply still_snoc in K as [_ (u & K)]; exact (Np u K)).
      destruct Told as [(St & Bs)|(St & Bs)].
      * unfold last_class. rewrite Bs. cbn [rev app]. unfold block_description, with_node. rewrite Bs. cbn. right. exists [Text t]. split; [reflexivity|]. split; [lia|].
        split; [apply in_order_one; cbn; now repeat (split; [assumption|])|]. split; [cbn; rewrite P; cbn; now rewrite <- app_assoc|]. split; [exact Ex|]. split; [reflexivity|].
        left. split; [|exact Bs]. apply still_snoc. split; [exact St|now exists t].
      * assert (Ok : exists o2, (match last_class o with Some MemberClass => o | _ => push_class MemberClass o end) = o2 /\ o_parts o2 = o_parts o /\ o_examples o2 = o_examples o /\ o_base o2 = b /\ last_class o2 <> Some BlockClass).
        { destruct (last_class o) as [[]|] eqn:L; eexists; (split; [reflexivity|]); (split; [reflexivity|]); (split; [reflexivity|]); (split; [reflexivity|]); rewrite ?last_push, ?L; discriminate. }
        destruct Ok as (o2 & E2 & P2 & X2 & B2 & L2).
        replace (match last_class o with Some BlockClass => _ | _ => _ end) with
          (match member_nested_type t with
           | MSONMixinSection => list_section inside MSONMixinSection o2 (t :: r)
           | MSONOneOfSection => if is_object (o_base o2) then list_section inside MSONOneOfSection o2 (t :: r) else Val (o2, t :: r)
           | _ => if (is_value (o_base o2) && is_item t)%bool then list_section inside MSONValueMemberSection o2 (t :: r)
                  else if (is_object (o_base o2) && is_item t)%bool then list_section inside MSONPropertyMemberSection o2 (t :: r)
                  else if is_primitive (o_base o2) then Val (o2, t :: r) else ignore o2 (t :: r)
           end).
        2:{ rewrite <- E2. rewrite E. destruct (member_kind t) as [(_ & _ & ->)|[(_ & _ & ->)|(_ & _ & ->)]]; destruct (last_class o) as [[]|] eqn:L; try reflexivity; now elim Bs. }
        assert (Li : forall ty, (type_member b ty t \/ (ty = MSONMixinSection /\ include_item t) \/ (ty = MSONOneOfSection /\ one_of_item t /\ object_base b)) -> is_item t = true ->
          fine inside (t :: r) (refused_in (t :: r)) (fun '(o', cur') => stays (nt_stop b d) nt_keeps done o t r o' cur' \/ takes (named_type_processor inside base) (named_type_rule b (is_told d)) (nt_inv h b d) done last t r o' cur') (list_section inside ty o2 (t :: r))).
        { intros ty R It. apply fine_list; [exact It|]. right. exists [Listed ty t]. split; [reflexivity|]. split; [lia|]. split; [apply in_order_one; cbn; now repeat (split; [assumption|])|].
          split; [cbn; rewrite P2, P; cbn; now rewrite <- app_assoc|]. split; [cbn; now rewrite X2|]. split; [exact B2|]. right. split; [apply Nk; discriminate|exact L2]. }
        assert (Stay : ((one_of_item t /\ ~ object_base b) \/ (~ include_item t /\ ~ one_of_item t /\ primitive_base b)) ->
          stays (nt_stop b d) nt_keeps done o t r o2 (t :: r)).
        { intros R. split; [reflexivity|]. split; [|split; [exact P2|exact X2]]. right. right. right. now repeat (split; [assumption|]). }
        rewrite E, B2. destruct (member_kind t) as [(I & No & ->)|[(One & Ni & ->)|(Ni & No & ->)]].
        -- apply Li; [right; left; now split|]. apply item_iff. apply (item_not_h t). now left.
        -- destruct (is_object b) eqn:Bo.
           ++ apply Li; [right; right; split; [reflexivity|]; split; [exact One|now apply object_iff]|]. apply item_iff. apply (item_not_h t). now right.
           ++ cbn. left. apply Stay. left. split; [exact One|]. rewrite <- object_iff, Bo. discriminate.
        -- destruct (is_item t) eqn:It.
           ++ rewrite !andb_true_r. destruct (is_value b) eqn:V.
              ** apply Li; [|reflexivity]. left. split; [now apply item_iff|]. split; [exact Ni|]. split; [exact No|]. left. split; [reflexivity|now apply value_iff].
              ** destruct (is_object b) eqn:Bo.
                 --- apply Li; [|reflexivity]. left. split; [now apply item_iff|]. split; [exact Ni|]. split; [exact No|]. right. split; [reflexivity|now apply object_iff].
                 --- assert (Pr : is_primitive b = true) by (clear - Nb V Bo; destruct b; try discriminate; try reflexivity; now elim Nb). rewrite Pr. cbn. left. apply Stay. right. split; [exact Ni|]. split; [exact No|now apply primitive_iff].
           ++ rewrite !andb_false_r. destruct (is_primitive b) eqn:Pr.
              ** cbn. left. apply Stay. right. split; [exact Ni|]. split; [exact No|now apply primitive_iff].
              ** cbn. right. exists [Ignored t]. split; [reflexivity|]. split; [lia|]. split.
                 { apply in_order_one. cbn. split; [exact Nh|]. split; [rewrite <- item_iff, It; discriminate|]. split; [exact St|]. rewrite <- primitive_iff, Pr. discriminate. }
                 split; [cbn; rewrite P2, P; cbn; now rewrite <- app_assoc|]. split; [cbn; now rewrite X2|]. split; [exact B2|]. right. split; [apply Nk; discriminate|exact L2].
  - (* a type section *)
    assert (E : member_nested_type t = type_section_type t) by (unfold member_nested_type; destruct (type_section_type t); try reflexivity; now elim U).
    set (ty := type_section_type t) in *.
    assert (Ems : named_type_nested inside (member_nested_type t) o (t :: r) =
      andthen (parse (type_section_processor inside ty) (start_of b) (t :: r)) (fun '(a, r) => match o_sections a with [] => Val (o, r) | k :: _ => Val (push_class k (add (Sub (close ty a)) o), r) end)).
    { rewrite E. pose proof (type_section_range t) as R. fold ty in R. clear - R U. destruct R as [R|[R|[R|[R|[]]]]]; rewrite <- R in *; try reflexivity; now elim U. }
    rewrite Ems. destruct (is_header t) eqn:Hd.
    + eapply fine_bind; [exact (type_section_fine inside ty b t r Nb Hd O2 eq_refl U)|]. intros (a & r') [(S & N & Bad)|(k & S & Nk & N & H & Ok)]; cbn [fst snd] in *; rewrite S.
      * subst r'. cbn. left. split; [reflexivity|]. split; [|now split]. right. destruct Bad as [Bad|Bad]; [now left|right; now left].
      * cbn -[section_nodes section_head close]. right. exists [Sub (close ty a)]. rewrite nodes_one. split; [exact N|]. split; [exact (shorter _ _ _ _ _ N H)|].
        split; [apply in_order_one; exact Ok|]. split; [cbn -[close]; rewrite P; cbn -[close]; now rewrite <- app_assoc|]. split; [exact Ex|]. split; [reflexivity|].
        right. split; [|rewrite last_push; congruence]. intros K. apply still_snoc in K as [_ (u & K)]. discriminate.
    + unfold parse. cbn [type_section_processor p_header]. rewrite Hd. cbn. right. exists t. split; [now left|].
      destruct (is_item t) eqn:It.
      * left. assert (Dn : ~ ~ type_section_item t) by (intros X; apply U; now apply type_item_iff).
        revert Dn. unfold type_section_item. rewrite !item_or. unfold ty in U. rewrite type_section_none in U. unfold says in U.
        rewrite <- (check_item MSONDefaultTypeSectionRegex _ ltac:(discriminate) default_text), <- (check_item MSONSampleTypeSectionRegex _ ltac:(discriminate) sample_text),
          <- (check_item MSONValueMembersTypeSectionRegex _ ltac:(discriminate) members_text), <- (check_item MSONPropertyMembersTypeSectionRegex _ ltac:(discriminate) properties_text).
        destruct (regex_match (item_line t) MSONDefaultTypeSectionRegex), (regex_match (item_line t) MSONSampleTypeSectionRegex), (regex_match (item_line t) MSONValueMembersTypeSectionRegex),
          (regex_match (item_line t) MSONPropertyMembersTypeSectionRegex); intuition discriminate.
      * right. rewrite <- header_iff_a, <- item_iff, Hd, It. split; discriminate.
Qed.
Lemma named_type_fine : forall h l, type_h h -> Forall one_line l -> fine inside (h :: l) (refused_in (h :: l)) (ends_as MSONNamedTypeSection (named_type_ok base) h l) (parse (named_type_processor inside base) fresh (h :: l)).
Proof.
  intros h l T O. set (b := implicit (base h)). assert (Nb : b <> UndefinedBT) by (unfold b; destruct (base h); discriminate).
  assert (Hd : is_header h = true) by (apply header_iff_a; exact (proj1 T)).
  refine (fine_imp inside _ _ _ (refused_in l) _ _ _ _ (incl_refl _) (refused_mono [h] l) _
    (section_fine inside (named_type_processor inside base) (fun d => named_type_rule b (is_told d)) (nt_stop b) refused_in nt_keeps (fun o => conj eq_refl eq_refl) (fun t => ~ a_header t /\ ~ an_item t) (nt_inv h b) h l fresh _ (nt_told h b) eq_refl Hd O eq_refl _ named_describes_iff _ _ (fun d => nt_move h b d Nb) refused_mono)).
  - intros (o' & rest) (d & ps & last & o1 & E & D & Or & (P & Ex & _) & (K1 & K2) & St). unfold ends_as. cbn [fst snd]. rewrite P in K1. rewrite Ex in K2. destruct (told_nodes h d ps rest MSONNamedTypeSection o' K1) as [N H].
    split; [rewrite N, E; reflexivity|]. split; [exact H|]. exists h, d, ps. unfold close. rewrite K1, K2. split; [reflexivity|]. split; [exact T|]. split; [exact D|]. split; [exact Or|exact St].
  - split; [reflexivity|]. split; [reflexivity|]. split; [unfold b; cbn; destruct (base h); reflexivity|reflexivity].
  - intros d o t q (P & Ex & Ob & S) _. exists (match d with [] => add (Text t) (push_class BlockClass o) | _ => add (Text t) o end). destruct d as [|u d]; cbn [is_told] in S.
    + cbn [named_type_processor p_description]. unfold block_description, with_node. rewrite S. split; [reflexivity|]. split; [cbn; rewrite P; reflexivity|]. split; [exact Ex|]. split; [exact Ob|cbn; now rewrite S].
    + cbn [named_type_processor p_description]. unfold block_description, with_node. rewrite S. split; [reflexivity|]. split; [cbn; rewrite P, map_app; reflexivity|]. split; [exact Ex|]. split; [exact Ob|exact S].
  - intros d o cur (P & Ex & Ob & S). unfold nt_inv. rewrite P, app_nil_r. split; [reflexivity|]. split; [exact Ex|]. split; [exact Ob|]. unfold still_told. destruct d as [|u d]; cbn [is_told] in *.
    + right. split; [intros [X _]; discriminate|]. unfold last_class. rewrite S. discriminate.
    + left. split; [split; [reflexivity|intros p []]|exact S].
Qed.

(** ** data structures *)
Lemma structures_move : forall pre, good_move inside (structures_processor inside base) (structures_rule base) (fun _ => ends_resource) refused_in (group_inv pre) eq.
Proof.
  intros pre done last o t r O (P & Ex). inversion O as [|? ? O1 O2]; subst. unfold move. cbn [structures_processor p_nested_type p_nested p_is_unexpected p_unexpected].
  destruct (named_range t) as [E|E]; rewrite E.
  - cbn [undefined negb structures_nested]. assert (T : type_h t) by now apply named_iff. eapply fine_bind; [exact (named_type_fine t r T O2)|]. intros (a & r') (N & H & Ok).
    cbn -[section_nodes section_head close] in N, H, Ok |- *. right. exists [Sub (close MSONNamedTypeSection a)]. rewrite nodes_one. split; [exact N|]. split; [exact (shorter _ _ _ _ _ N H)|].
    split; [apply in_order_one; exact Ok|]. split; [cbn -[close]; rewrite P; now rewrite <- app_assoc|exact Ex].
  - cbn [undefined negb]. rewrite (unexpected_base data_structures_upper t); [|cbn; intuition discriminate]. destruct (upper_iff t O1) as (_ & _ & _ & Up). destruct (among data_structures_upper (section_keyword t)) eqn:Am.
    + cbn. left. split; [reflexivity|]. split; [apply Up; reflexivity|reflexivity].
    + cbn. right. exists [Ignored t]. split; [reflexivity|]. split; [lia|]. split; [|split; [cbn; rewrite P; now rewrite <- app_assoc|exact Ex]].
      apply in_order_one. cbn. split; [rewrite <- named_iff, E; discriminate|]. intros X. apply Up in X. discriminate.
Qed.
Lemma structures_fine : forall h l, structures_h h -> Forall one_line l -> fine inside (h :: l) (refused_in l) (ends_as DataStructureGroupSection (structures_ok base) h l) (parse (structures_processor inside base) fresh (h :: l)).
Proof.
  intros h l G O.
  refine (fine_imp inside _ _ _ (refused_in l) (refused_in l) _ _ _ (incl_refl _) (fun x => x) _
    (section_fine inside (structures_processor inside base) (fun _ => structures_rule base) (fun _ _ => ends_resource) refused_in eq (@eq_refl _) (fun _ => False) (fun d done last o cur => d = [] /\ group_inv [Head h] done last o cur) h l fresh (add (Head h) fresh)
      (fun d o => d = [] /\ o_parts o = [Head h] /\ o_examples o = []) eq_refl (structures_header _ G) O eq_refl _ (nothing_described (structures_processor inside base) eq_refl) _ _ _ refused_mono)).
  - intros (o' & rest) (d & ps & last & o1 & E & D & Or & (-> & P & T) & <- & St). unfold ends_as. cbn [fst snd]. destruct (told_nodes h [] ps rest DataStructureGroupSection o1 P) as [N H].
    split; [rewrite N, E; reflexivity|]. split; [exact H|]. exists h, ps. unfold close. rewrite P, T. split; [reflexivity|]. split; [exact G|]. auto.
  - now split.
  - intros d o t q _ [].
  - intros d o cur (-> & P & E). split; [reflexivity|]. unfold group_inv. rewrite P. now split.
  - intros d done last o t r Oh (-> & J). pose proof (structures_move [Head h] done last o t r Oh J) as M.
    refine (fine_imp inside _ _ _ _ _ _ _ _ (incl_refl _) (fun x => x) _ M). intros (o' & cur') [K|(ps & N & L & Or & I)]; [now left|right]. exists ps. auto.
Qed.

(** ** the document *)
Lemma doc_refused_mono : forall a b, doc_refused b -> doc_refused (a ++ b).
Proof. intros a b (x & h & y & -> & H). exists (a ++ x), h, y. rewrite <- app_assoc. auto. Qed.
Lemma group_open : forall t r, resource_h t -> Forall one_line (t :: r) ->
  fine inside (t :: r) False (fun x => exists ps, o_parts (fst x) = ps /\ o_examples (fst x) = [] /\ nodes_of ps ++ snd x = t :: r /\ in_order group_rule [] ps (snd x) /\ stops ends_group (snd x)) (parse (group_processor inside) fresh (t :: r)).
Proof.
  intros t r R O. unfold parse. cbn [group_processor p_header p_signature]. rewrite (resource_header _ R). cbn [andthen]. unfold group_signature.
  destruct (group_kind t) as [(_ & E)|(N & _)]; [|contradiction]. rewrite E. cbn [undefined andthen]. unfold parse_nested.
  refine (fine_imp inside _ _ _ False False _ _ _ (incl_refl _) (fun x => x) _ (loop_fine inside (group_processor inside) group_rule (fun _ => ends_group) (fun _ => False) (group_inv []) eq (@eq_refl _) (group_move inside []) (fun _ _ x => x) _ [] UndefinedSection fresh (t :: r) (Nat.lt_succ_diag_r _) O (conj eq_refl eq_refl))).
  intros (o' & rest). unfold looped. cbn [fst snd app]. intros (ps & last & o1 & N & Or & (P & Ex) & <- & St). exists ps. auto.
Qed.
Lemma document_move : forall pre, good_move inside (blueprint_processor inside base) (document_rule base) (fun _ _ => False) doc_refused (group_inv pre) eq.
Proof.
  intros pre done last o t r O (P & Ex). inversion O as [|? ? O1 O2]; subst. unfold move. cbn [blueprint_processor p_nested_type p_nested p_is_unexpected p_unexpected].
  destruct (blueprint_kind t O1) as [(R & E)|[(G & Nr & E)|[(S & Nr & Ng & E)|(N & E)]]]; rewrite E; cbn [undefined negb blueprint_nested].
  - eapply fine_bind; [refine (fine_imp inside _ _ _ False _ _ _ _ (incl_refl _) (fun x : False => match x with end) (fun _ x => x) (group_open t r R O))|].
    intros (a & r') (ps & Pa & Ea & N & Or & St). cbn [fst snd] in *. cbn. right. exists ps. split; [exact N|]. split.
    { destruct ps as [|p ps].
      - exfalso. cbn in N. rewrite N in St. destruct St as [St|St]; [discriminate|]. cbn in St. destruct (upper_apart t (resource_type t) O1 (resource_header _ R)) as [X Y]; [cbn; auto| |].
        + intros Z. apply (C75_headers t) in R. congruence.
        + destruct St as [St|St]; apply (C75_headers t) in St; congruence.
      - inversion Or as [|? ? ? ? Hr Or']; subst. assert (L : 1 <= List.length (part_nodes p)).
        { destruct p; cbn [group_rule] in Hr; try contradiction; [cbn; lia|]. destruct Hr as [(h & Hh & _) _]. cbn [part_nodes]. unfold section_head in Hh. destruct (section_nodes s); [discriminate|cbn; lia]. }
        apply (f_equal (@List.length tree)) in N. unfold nodes_of in N. cbn [flat_map List.length] in N. rewrite !app_length in N. lia. }
    split.
    { refine (in_order_imp group_rule (document_rule base) _ ps [] done r' Or). intros d1 d2 p rest H. destruct p; cbn in *; try contradiction; [|now left]. unfold begins_section, ends_group in *. tauto. }
    split; [cbn; rewrite P, Pa; now rewrite <- app_assoc|exact Ex].
  - eapply fine_bind; [refine (fine_imp inside _ _ _ False _ _ _ _ (incl_refl _) (fun x : False => match x with end) (fun _ x => x) (group_fine inside t r G O1 O2))|].
    intros (a & r') (N & H & Ok). cbn -[section_nodes section_head close] in N, H, Ok |- *. right. exists [Sub (close ResourceGroupSection a)]. rewrite nodes_one. split; [exact N|]. split; [exact (shorter _ _ _ _ _ N H)|].
    split; [apply in_order_one; right; left; exact Ok|]. split; [cbn -[close]; rewrite P; now rewrite <- app_assoc|exact Ex].
  - eapply fine_bind; [refine (fine_imp inside _ _ _ (refused_in r) _ _ _ _ (incl_refl _) _ (fun _ x => x) (structures_fine t r S O2)); intros X; exists [], t, r; auto|].
    intros (a & r') (N & H & Ok). cbn -[section_nodes section_head close] in N, H, Ok |- *. right. exists [Sub (close DataStructureGroupSection a)]. rewrite nodes_one. split; [exact N|]. split; [exact (shorter _ _ _ _ _ N H)|].
    split; [apply in_order_one; right; right; exact Ok|]. split; [cbn -[close]; rewrite P; now rewrite <- app_assoc|exact Ex].
  - cbn. right. exists [Ignored t]. split; [reflexivity|]. split; [lia|]. split; [apply in_order_one; exact N|]. split; [cbn; rewrite P; now rewrite <- app_assoc|exact Ex].
Qed.
Lemma document_loop : forall pre o cur, Forall one_line cur -> o_parts o = pre -> o_examples o = [] ->
  fine inside cur (doc_refused cur) (fun x => snd x = [] /\ exists ps, o_parts (fst x) = pre ++ ps /\ o_examples (fst x) = [] /\ nodes_of ps = cur /\ in_order (document_rule base) [] ps []) (parse_nested (blueprint_processor inside base) o cur).
Proof.
  intros pre o cur O P Ex. unfold parse_nested. refine (fine_imp inside _ _ _ _ _ _ _ _ (incl_refl _) (fun x => x) _ (loop_fine inside (blueprint_processor inside base) (document_rule base) (fun _ _ => False) doc_refused (group_inv pre) eq (@eq_refl _) (document_move pre) doc_refused_mono _ [] UndefinedSection o cur (Nat.lt_succ_diag_r _) O _)).
  - intros (o' & rest). unfold looped. cbn [fst snd app]. intros (ps & last & o1 & N & Or & (P1 & E1) & <- & St). assert (R : rest = []) by (destruct St as [St|St]; [exact St|destruct rest; contradiction]). subst rest. rewrite app_nil_r in N.
    split; [reflexivity|]. exists ps. auto.
  - split; [now rewrite app_nil_r|exact Ex].
Qed.
Lemma blueprint_describes_iff : forall t, one_line t -> (base_is_description blueprint_nested_type [] t = true <-> ~ begins_section t).
Proof.
  intros t O. rewrite description_base. destruct (blueprint_kind t O) as [(R & E)|[(G & Nr & E)|[(S & Nr & Ng & E)|(N & E)]]]; rewrite E; unfold begins_section in *; cbn; intuition discriminate.
Qed.
Lemma signature_spec : forall l o, Forall one_line l -> exists m q, l = m ++ q /\ Forall metadata_p m /\
  ((q = [] /\ blueprint_signature o l = Val (DefaultLayout, append_parts (map Meta m) o, [])) \/
   (exists t r, q = t :: r /\ begins_section t /\ blueprint_signature o l = Val (ExclusiveLayout, append_parts (map Meta m) o, q)) \/
   (exists t r p, q = t :: r /\ blueprint_signature o l = Val (DefaultLayout, append_parts (map Meta m ++ [p]) o, r) /\
     ((p = Head t /\ a_header t /\ ~ begins_section t) \/ (p = Text t /\ ~ a_header t /\ ~ metadata_p t)))).
Proof.
  assert (A0 : forall o, append_parts [] o = o) by (intros [p e s b]; unfold append_parts; cbn; now rewrite app_nil_r).
  assert (A1 : forall p ps o, append_parts ps (add p o) = append_parts (p :: ps) o) by (intros; unfold append_parts, add; cbn; now rewrite <- app_assoc).
  assert (A2 : forall p o, add p o = append_parts [p] o) by reflexivity.
  induction l as [|t r IH]; intros o O.
  - exists [], []. split; [reflexivity|]. split; [constructor|]. left. split; [reflexivity|]. cbn. now rewrite A0.
  - inversion O as [|? ? O1 O2]; subst.
    assert (Oth : t_type t <> ParagraphNode -> t_type t <> HeaderNode -> ~ a_header t /\ ~ metadata_p t) by (destruct t as [[] x z m cs]; cbn; intuition).
    assert (Ot : forall p, p = Text t /\ ~ a_header t /\ ~ metadata_p t \/ p = Head t /\ a_header t /\ ~ begins_section t -> blueprint_signature o (t :: r) = Val (DefaultLayout, add p o, r) ->
      exists m q, t :: r = m ++ q /\ Forall metadata_p m /\
  ((q = [] /\ blueprint_signature o (t :: r) = Val (DefaultLayout, append_parts (map Meta m) o, [])) \/
   (exists t0 r0, q = t0 :: r0 /\ begins_section t0 /\ blueprint_signature o (t :: r) = Val (ExclusiveLayout, append_parts (map Meta m) o, q)) \/
   (exists t0 r0 p, q = t0 :: r0 /\ blueprint_signature o (t :: r) = Val (DefaultLayout, append_parts (map Meta m ++ [p]) o, r0) /\
     ((p = Head t0 /\ a_header t0 /\ ~ begins_section t0) \/ (p = Text t0 /\ ~ a_header t0 /\ ~ metadata_p t0))))).
    { intros p Hp Es. exists [], (t :: r). split; [reflexivity|]. split; [constructor|]. right. right. exists t, r, p. split; [reflexivity|]. split; [exact Es|]. tauto. }
    destruct (t_type t) eqn:Ty; try (apply (Ot (Text t)); [left; split; [reflexivity|]; apply Oth; congruence|cbn; rewrite Ty; reflexivity]).
    + destruct (blueprint_kind t O1) as [(R & E)|[(G & Nr & E)|[(S & Nr & Ng & E)|(N & E)]]];
        try (exists [], (t :: r); split; [reflexivity|]; split; [constructor|]; right; left; exists t, r; split; [reflexivity|]; split; [unfold begins_section; tauto|]; cbn; rewrite Ty, E; cbn; now rewrite A0).
      apply (Ot (Head t)); [right; split; [reflexivity|]; split; [destruct t as [[] x z m cs]; try discriminate; exact I|exact N]|cbn; rewrite Ty, E; reflexivity].
    + destruct (metadata t) eqn:Me.
      * destruct (IH (add (Meta t) o) O2) as (m & q & -> & F & C). exists (t :: m), q. split; [reflexivity|]. split; [constructor; [now apply metadata_iff|exact F]|].
        assert (Es : blueprint_signature o (t :: m ++ q) = blueprint_signature (add (Meta t) o) (m ++ q)) by (cbn; rewrite Ty, Me; reflexivity). rewrite Es.
        destruct C as [(Q & E)|[(u & r' & Q & B & E)|(u & r' & p & Q & E & C)]].
        -- left. split; [exact Q|]. rewrite E, A1. reflexivity.
        -- right. left. exists u, r'. split; [exact Q|]. split; [exact B|]. rewrite E, A1. reflexivity.
        -- right. right. exists u, r', p. split; [exact Q|]. split; [rewrite E, A1; reflexivity|exact C].
      * apply (Ot (Text t)); [left; split; [reflexivity|]; split; [destruct t as [[] x z m cs]; try discriminate; intros []|]|cbn; rewrite Ty, Me; reflexivity].
        intros K. apply (metadata_iff t Ty) in K. congruence.
Qed.
Definition document_result (nodes : list tree) (x : section * list tree) : Prop := snd x = [] /\ section_nodes (fst x) = nodes /\ document_ok base (fst x).
Lemma outline_fine : forall nodes, Forall one_line nodes -> fine inside nodes (doc_refused nodes) (document_result nodes) (outline inside base nodes).
Proof.
  intros nodes O. unfold outline. apply (fine_bind inside _ _ nodes (doc_refused nodes) (fun x => document_result nodes (close BlueprintSection (fst x), snd x))); [|intros (o & r) H; exact H].
  destruct (signature_spec nodes fresh O) as (m & q & E & F & C). unfold parse. cbn [blueprint_processor p_header p_signature andthen].
  assert (Oq : Forall one_line q) by (rewrite E in O; now apply Forall_app in O as [_ O]).
  assert (Dr : forall l, (exists a, nodes = a ++ l) -> incl l nodes /\ (doc_refused l -> doc_refused nodes)) by (intros l (a & ->); split; [intros x X; apply in_or_app; now right|apply doc_refused_mono]).
  destruct C as [(Q & Es)|[(t & r & Q & B & Es)|(t & r & p & Q & Es & C)]]; rewrite Es; cbn [andthen].
  - subst q. rewrite app_nil_r in E. subst nodes.
    assert (R : document_result m (close BlueprintSection (append_parts (map Meta m) fresh), [])).
    { split; [reflexivity|]. split; [unfold close; cbn; exact (nodes_meta m)|]. exists m, [], [], []. split; [unfold close; cbn; now rewrite app_nil_r|]. split; [exact F|].
      split; [left; split; [reflexivity|now left]|]. split; [reflexivity|]. split; [split; [constructor|easy]|constructor]. }
    destruct (same m []) eqn:Sm; [exact R|]. cbn. exact R.
  - refine (fine_imp inside _ q _ _ _ _ _ _ _ _ _ (document_loop (map Meta m) (append_parts (map Meta m) fresh) q Oq eq_refl eq_refl)); [apply Dr; now exists m|apply Dr; now exists m|].
    intros (o & rest) (R & ps & P & Ex & N & Or). cbn [fst snd] in *. split; [exact R|]. split; [unfold close; cbn [section_nodes fst]; rewrite P; fold (nodes_of (map Meta m ++ ps)); rewrite nodes_app, nodes_meta, N; now rewrite E|].
    exists m, [], [], ps. unfold close. cbn [fst]. rewrite P, Ex. split; [reflexivity|]. split; [exact F|]. split; [left; split; [reflexivity|right]; cbn [map app]; rewrite N, Q; exact B|]. split; [reflexivity|].
    split; [split; [constructor|]|exact Or]. rewrite N, Q. cbn. tauto.
  - assert (Sm : same nodes r = false) by (unfold same; apply Nat.eqb_neq; rewrite E, Q, app_length; cbn; lia). rewrite Sm.
    assert (Or' : Forall one_line r) by (rewrite Q in Oq; now inversion Oq).
    pose (J := fun (d : list tree) (o : out) => o_parts o = map Meta m ++ [p] ++ map Text d /\ o_examples o = []).
    eapply (fine_bind inside).
    + apply (describe_fine inside (blueprint_processor inside base) (fun t => ~ begins_section t) J nodes (doc_refused nodes) blueprint_describes_iff) with (d := []); [|apply Nat.lt_succ_diag_r|exact Or'|].
      * intros d o u v (P & Ex) _. eexists. split; [reflexivity|]. split; [cbn; rewrite P, map_app, <- !app_assoc; reflexivity|exact Ex].
      * split; reflexivity.
    + intros ((go & o) & cur) (-> & d & Ed & Fd & Nd & (P & Ex)). cbn [app] in P. assert (Oc : Forall one_line cur) by (rewrite <- Ed in Or'; now apply Forall_app in Or' as [_ Or']).
      assert (Sub : exists a, nodes = a ++ cur) by (exists (m ++ t :: d); rewrite E, Q, <- Ed, <- app_assoc; reflexivity).
      refine (fine_imp inside _ cur _ _ _ _ _ _ _ _ _ (document_loop (o_parts o) o cur Oc eq_refl Ex)); [now apply Dr|now apply Dr|].
      intros (o' & rest) (R & ps & P' & Ex' & N & Ord). cbn [fst snd] in *. assert (Pt : part_nodes p = [t]) by (destruct C as [(-> & _)|(-> & _)]; reflexivity).
      split; [exact R|]. split.
      { unfold close. cbn [section_nodes fst]. rewrite P', P. change (nodes_of ((map Meta m ++ [p] ++ map Text d) ++ ps) = nodes). rewrite !nodes_app, nodes_meta, nodes_text, N. change (nodes_of [p]) with (part_nodes p ++ []). rewrite Pt, E, Q, <- Ed, <- !app_assoc. reflexivity. }
      exists m, [p], d, ps. unfold close. cbn [fst]. rewrite P', P, Ex'. split; [rewrite <- !app_assoc; reflexivity|]. split; [exact F|]. split; [right|].
      { destruct C as [(-> & C1 & C2)|(-> & C1 & C2)]; [left|right]; exists t; auto. }
      split; [discriminate|]. rewrite N. split; [split; [exact Fd|exact Nd]|exact Ord].
Qed.
End Doc.
