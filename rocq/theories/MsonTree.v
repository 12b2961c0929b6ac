(** What the members of the MSON tree and data structures become, as a whole *)
From Verif Require Import Base Element ElementSpec ElementProofs InfoProofs Extend Registry RegistryProofs Expand ElementUtils SourceMap
  JsonSpec SerializeSpec TypeTables Mson MsonSpec MsonProofs MsonSane MsonShape MsonAlike MsonEnum MsonMember.

(** * Descriptions *)
Lemma join_snd : forall l a, fst (fold_left (fun (r : string * places) i =>
    if String.eqb (fst i) "" then r
    else ((if String.eqb (fst r) "" then fst r else fst r +++ nl) +++ fst i, append_places (snd r) (snd i))%string) l a) =
  match filter (fun s => negb (String.eqb s "")) (map fst l) with
  | [] => fst a
  | t => if String.eqb (fst a) "" then String.concat nl t else (fst a +++ nl +++ String.concat nl t)%string
  end.
Proof.
  assert (A : forall a b c : string, ((a +++ b) +++ c)%string = (a +++ b +++ c)%string) by (intros a b c; induction a; cbn; [reflexivity|now rewrite IHa]).
  induction l as [|[s p] l IH]; intros [t q]; [reflexivity|]. cbn [fold_left map filter fst snd]. rewrite IH. cbn [fst].
  destruct (String.eqb_spec s ""); cbn [negb].
  - reflexivity.
  - cbn [fst]. set (f := filter _ (map fst l)).
    assert (E : forall x, (String.eqb (x +++ s) "") = false) by (intros [|c x]; [now apply String.eqb_neq|reflexivity]). rewrite E.
    destruct f as [|y f]; destruct (String.eqb_spec t ""); subst; cbn [String.concat append]; rewrite ?A; reflexivity.
Qed.
Lemma join_joined : forall l, fst (join_descriptions l) = joined (map fst l).
Proof.
  intros l. unfold join_descriptions. rewrite join_snd. cbn [fst]. unfold joined. now destruct (filter _ _).
Qed.
Lemma described : forall e l, meta e "description" = None -> described_as (set_description e (description_to_refract l)) (joined (map fst l)).
Proof.
  intros e l N. rewrite <- join_joined. unfold description_to_refract, described_as. destruct l as [|i l]; [cbn [set_description]; now rewrite N|].
  destruct (join_descriptions (i :: l)) as [t p]. cbn [fst]. destruct (String.eqb_spec t ""); [cbn [set_description]; now rewrite N|].
  cbn [set_description]. rewrite meta_set. cbn [String.eqb Ascii.eqb Bool.eqb]. split; [assumption|]. destruct p as [|x p]; (split; [reflexivity|split; [reflexivity|split; [reflexivity|split; [reflexivity|]]]]).
  - reflexivity.
  - intros k Nk. cbn [attach]. rewrite attr_set. destruct (String.eqb_spec "sourceMap" k); [congruence|reflexivity].
Qed.

(** * Type attributes *)
Lemma type_attributes_eq : forall t, attributes_to_refract (td_attrs t) = type_attribute_of t.
Proof.
  intros t. unfold attributes_to_refract, type_attribute_of, type_names, attribute_names. set (n := td_attrs t). cbn [filter fst].
  destruct (N.testbit n RequiredTA), (N.testbit n OptionalTA), (N.testbit n FixedTA), (N.testbit n FixedTypeTA), (N.testbit n NullableTA); reflexivity.
Qed.
Lemma typed : forall e t, attr e "typeAttributes" = None -> attr (set_type_attributes e (td_attrs t)) "typeAttributes" = type_attribute_of t.
Proof. intros e t N. unfold set_type_attributes. rewrite type_attributes_eq. destruct (type_attribute_of t); [now rewrite attr_set|exact N]. Qed.

Section Tree.
  Context (fuel : nat) (r : registry).
  Notation thunk := (member_map (to_apie fuel r)).
  Notation secs := (map (section_map (to_apie fuel r))).

  Lemma value_bodies : forall k m e ds w, value_kind k -> element_from_value fuel r k (thunk m) = ret ((e, ds), w) ->
    value_body fuel r k m e w /\ kept (start_value k (thunk m)) e /\ ds = (own_texts fuel r m ++ block_texts (secs (m_sections m)))%list.
  Proof.
    intros k m e ds w V H.
    assert (T : is_primitive k = true -> element_from_value fuel r k (thunk m) = value_of_text k (thunk m)) by now destruct k.
    assert (Tb : is_primitive k = true -> (List.length (inline_values (m_value m)) <= 1 /\ exists w', w = (missing_warnings m ++ w')%list /\
      text_body k (use_of true (m_value m)) (inline_texts m) (m_sections m) (m_map m) e w') /\ kept (start_value k (thunk m)) e /\ ds = (own_texts fuel r m ++ block_texts (secs (m_sections m)))%list).
    { intros P. rewrite (T P) in H. apply value_of_text_shape in H as ((Ho & Sa & De & W) & En & K & L & Hd); [|exact P].
      split; [|now split]. split; [unfold inline_values; destruct (object_base _); [cbn; lia|now apply L]|]. eexists. split; [exact W|].
      unfold text_body. cbv zeta. now repeat (split; [eassumption|]). }
    unfold value_body. cbv zeta. destruct V as [<-|[<-|[<-|[<-|[<-|[<-|[]]]]]]]; try (now apply Tb); clear T Tb; cbn [element_from_value] in H.
    - apply value_of_list_shape in H as (hs & vs & ss & dd & wh & ws & A1 & Aw & Ar & A2 & A3 & A4 & (A5 & A6 & A7) & A8 & A9 & A10 & A11). split; [|now split].
      exists hs, wh, ws. split; [exact Aw|]. split; [exact A1|]. split; [exact Ar|]. split; [|exact A10]. exists vs, ss, dd. now repeat (split; [eassumption|]).
    - apply value_of_enum_shape in H as (hs & its & vs & ss & dd & es & en & wh & ws & w1 & w2 & A0 & A1 & Ar & A2 & A3 & A4 & A5 & (A6 & A7 & A8 & A9 & A10 & A11 & A12 & A13 & A14) & A15 & A16 & A17).
      split; [|now split]. exists hs, its, wh, ws, (w1 ++ w2)%list. split; [exact A0|]. split; [exact A1|]. split; [exact Ar|]. split; [exact A2|]. split; [|exact A16]. exists vs, ss, dd, es, en, w1, w2. split; [reflexivity|]. now repeat (split; [eassumption|]).
    - apply value_of_list_shape in H as (hs & vs & ss & dd & wh & ws & A1 & Aw & Ar & A2 & A3 & A4 & (A5 & A6 & A7) & A8 & A9 & A10 & A11). split; [|now split].
      exists hs, wh, ws. split; [exact Aw|]. split; [exact A1|]. split; [exact Ar|]. split; [|exact A10]. exists vs, ss, dd. now repeat (split; [eassumption|]).
  Qed.

  Lemma list_body_same : forall k t hs u items l e e', same_but ["typeAttributes"%string] ["description"; "id"]%string e' e -> list_body fuel r k t hs u items l e -> list_body fuel r k t hs u items l e'.
  Proof.
    intros k t hs u items l e e' [_ S1 S2 S3 _] (vs & ss & dd & A1 & A2 & A3 & A4 & A5 & A6 & A7). exists vs, ss, dd.
    split; [exact A1|]. split; [exact A2|]. split; [exact A3|]. rewrite !S3 by (cbn; intuition discriminate). split; [|now split].
    unfold holds in *. now rewrite S1, S2.
  Qed.
  Lemma text_body_same : forall k u l sec p w e e', same_but ["typeAttributes"%string] ["description"; "id"]%string e' e -> text_body k u l sec p e w -> text_body k u l sec p e' w.
  Proof.
    intros k u l sec p w e e' [_ S1 S2 S3 _] H. unfold text_body in *. cbv zeta in *. now rewrite S1, S2, !S3 by (cbn; intuition discriminate).
  Qed.
  Lemma enum_body_same : forall t hs u its l w e e', same_but ["typeAttributes"%string] ["description"; "id"]%string e' e -> enum_body fuel r t hs u its l e w -> enum_body fuel r t hs u its l e' w.
  Proof.
    intros t hs u its l w e e' [_ S1 S2 S3 _] H. unfold enum_body in *. now rewrite S1, S2, !S3 by (cbn; intuition discriminate).
  Qed.
  Lemma value_body_same : forall k m w e e', same_but ["typeAttributes"%string] ["description"; "id"]%string e' e -> value_body fuel r k m e w -> value_body fuel r k m e' w.
  Proof.
    intros k m w e e' S H. assert (S3 := sb_attr _ _ _ _ S "sourceMap"). unfold value_body in *. cbv zeta in *.
    assert (T : text_body k (use_of true (m_value m)) (inline_texts m) (m_sections m) (m_map m) e = text_body k (use_of true (m_value m)) (inline_texts m) (m_sections m) (m_map m) e) by reflexivity.
    destruct k; try (destruct H as (L & w' & W & H); split; [exact L|]; exists w'; split; [exact W|]; eapply text_body_same; eassumption).
    - destruct H as (hs & wh & ws & Aw & A1 & Ar & A2 & A3). exists hs, wh, ws. split; [exact Aw|]. split; [exact A1|]. split; [exact Ar|]. split; [eapply list_body_same; eassumption|]. rewrite S3; [exact A3|cbn; intuition discriminate].
    - destruct H as (hs & wh & ws & Aw & A1 & Ar & A2 & A3). exists hs, wh, ws. split; [exact Aw|]. split; [exact A1|]. split; [exact Ar|]. split; [eapply list_body_same; eassumption|]. rewrite S3; [exact A3|cbn; intuition discriminate].
    - destruct H as (hs & its & wh & ws & wl & Aw & A1 & Ar & A2 & A3 & A4). exists hs, its, wh, ws, wl. split; [exact Aw|]. split; [exact A1|]. split; [exact Ar|]. split; [exact A2|]. split; [eapply enum_body_same; eassumption|]. rewrite S3; [exact A4|cbn; intuition discriminate].
  Qed.

  (** * The kind of a member *)
  Lemma known_dec_of : forall s o, root_ancestor fuel r s = ret o ->
    match (match o with Some e => base_of_kind (ekind e) | None => UndefinedTN end) with
    | UndefinedTN => forall k, ~ known fuel r s k
    | b => known fuel r s (kind_of b)
    end.
  Proof.
    intros s o H. unfold root_ancestor in H. destruct (FindRootAncestor fuel r s) as [x|] eqn:F; [|discriminate]. injection H as ->.
    destruct o as [e|].
    - destruct (base_of_kind (ekind e)) eqn:B; try (exists e; split; [exact F|]; rewrite <- B; rewrite kind_base by (apply base_of_known; congruence); split; [reflexivity|apply base_of_known; congruence]).
      intros k (e' & F' & <- & I). rewrite F in F'. injection F' as <-. now apply base_of_known in I.
    - intros k (e' & F' & _). congruence.
  Qed.
  Lemma chosen_kind : forall d m name, resolve_type fuel r (td_spec (vd_type (m_value m))) = ret name -> member_kind fuel r d m (choose_kind name d (thunk m)).
  Proof.
    intros d m name H. unfold resolve_type in H. unfold choose_kind. cbn [member_map m_value m_sections].
    assert (Mb : existsb (fun s : msection conv => match sc_class s with MemberTypeClass => true | _ => false end) (secs (m_sections m)) = true <-> members (m_sections m) <> []).
    { unfold members, of_class. clear. induction (m_sections m) as [|s l IH]; [cbn; split; [discriminate|congruence]|]. cbn [map existsb filter]. unfold section_map at 1. cbn [sc_class].
      destruct (sc_class s); cbn [same_class orb]; try exact IH. split; [discriminate|reflexivity]. }
    assert (U : untyped fuel r (vd_type (m_value m)) -> member_kind fuel r d m (if (1 <? List.length (vd_values (m_value m)))%nat then KArray
      else if (negb (String.eqb (s_literal (n_symbol (t_name (td_spec (vd_type (m_value m)))))) "")
               || existsb (fun s : msection conv => match sc_class s with MemberTypeClass => true | _ => false end) (secs (m_sections m)))%bool then KObject
      else match d with UndefinedTN => KString | d => kind_of d end)).
    { intros U. destruct (Nat.ltb_spec 1 (List.length (vd_values (m_value m)))); [now apply mk_several|].
      fold (type_literal (vd_type (m_value m))). destruct (String.eqb_spec (type_literal (vd_type (m_value m))) ""); cbn [negb orb].
      - destruct (existsb _ _) eqn:X.
        + apply mk_object; [exact U|assumption|right; now apply Mb].
        + assert (K : members (m_sections m) = []) by (destruct (members (m_sections m)) eqn:Q; [reflexivity|]; assert (false = true) by (apply Mb; congruence); discriminate).
          assert (G := mk_default fuel r d m U H0 e K). now destruct d.
      - apply mk_object; [exact U|assumption|now left]. }
    destruct (n_base (t_name (td_spec (vd_type (m_value m))))) eqn:B; try (injection H as <-; apply mk_base; [exact B|congruence]).
    destruct (String.eqb_spec (s_literal (n_symbol (t_name (td_spec (vd_type (m_value m)))))) "") as [Z|Z].
    - injection H as <-. apply U. split; [exact B|now left].
    - apply bind_ret in H as (o & Ho & E). assert (X : (match o with Some e => base_of_kind (ekind e) | None => UndefinedTN end) = name) by (unfold ret in E; congruence). clear E. assert (Kn := known_dec_of _ _ Ho). rewrite X in Kn.
      destruct name; try (apply mk_named; [exact B|exact Z|exact Kn]). apply U. split; [exact B|right; exact Kn].
  Qed.
  Lemma clash_spec : forall (m : mmember melement) u w, check_clash (td_attrs (vd_type (m_value m))) (m_value_map m) = ret (u, w) -> w = clash_warnings m.
  Proof.
    intros m u w H. unfold check_clash in H. unfold clash_warnings. cbv zeta in *. set (ta := td_attrs _) in *.
    destruct (N.testbit ta FixedTA), (N.testbit ta OptionalTA), (N.testbit ta RequiredTA), (N.testbit ta DefaultTA), (N.testbit ta SampleTA), (N.testbit ta FixedTypeTA);
      cbn in H |- *; injection H as _ <-; reflexivity.
  Qed.

  Definition text_of (m : mmember melement) : list (string * places) := (own_texts fuel r m ++ block_texts (secs (m_sections m)))%list.
  Lemma plain_value : forall k m v ds w, value_kind k -> element_from_value fuel r k (thunk m) = ret ((v, ds), w) ->
    is_of k v /\ ename v = label (vd_type (m_value m)) k /\ emeta v = [] /\ value_body fuel r k m v w /\ attr v "typeAttributes" = None /\
    only_attributes ["samples"; "default"; "enumerations"; "sourceMap"]%string v /\ ds = text_of m.
  Proof.
    intros k m v ds w Vk H.
    assert (Ok : is_of k v). { apply element_from_value_of in H; [exact H|exact Vk|]. unfold member_sane. cbn. apply secs_sane. }
    apply value_bodies in H; [|exact Vk]. destruct H as (B & (N1 & N2 & N3) & ->). destruct (start_value_shape k (thunk m)) as (F & S1 & S2 & S3).
    rewrite S1 in N1. rewrite S2 in N2. cbn [member_map m_value m_map] in *.
    assert (O : only_attributes ["samples"; "default"; "enumerations"; "sourceMap"]%string v).
    { intros x Nx. rewrite N3 by exact Nx. rewrite S3. destruct (String.eqb_spec "sourceMap" x) as [<-|]; [exfalso; apply Nx; cbn; tauto|reflexivity]. }
    split; [exact Ok|]. split; [exact N1|]. split; [exact N2|]. split; [exact B|]. split; [apply O; cbn; intuition discriminate|]. now split.
  Qed.

  (** * Value members *)
  Theorem value_member : forall d m o w, to_apie fuel r (MValue m) d = ret (o, w) ->
    exists e k w', o = Some e /\ w = (clash_warnings m ++ w')%list /\ member_kind fuel r d m k /\ ekind e = k /\ ename e = label (vd_type (m_value m)) k /\
      value_body fuel r k m e w' /\
      attr e "typeAttributes" = type_attribute_of (vd_type (m_value m)) /\ only_attributes value_attributes e /\
      described_as e (value_description m) /\ (forall x, x <> "description"%string -> meta e x = None).
  Proof.
    intros d m o w H. unfold to_apie in H. cbn [convert fst] in H. fold (to_apie fuel r) in H. change (fun x => fst (convert fuel r x)) with (to_apie fuel r) in H.
    unfold member_to_refract in H. minv H. minv H. cbn [member_map m_value m_value_map] in *. minv H0. apply clash_spec in H1.
    rename a into name. subst. cbn [fst snd app] in *. unfold element_of_value in H. minv H. minv H. cbn [member_map m_value] in *. subst. rewrite app_nil_r.
    rename a into v. destruct v as [v ds]. cbn [fst snd] in *. set (k := choose_kind name d (thunk m)) in *.
    assert (Vk : value_kind k) by apply choose_kind_value.
    assert (K := chosen_kind d m name H0). fold k in K.
    apply plain_value in H1; [|exact Vk]. destruct H1 as (Ok & N1 & N2 & B & Tn & N3 & ->).
    assert (Dn : meta v "description" = None) by (unfold meta; now rewrite N2).
    set (e1 := set_type_attributes v (td_attrs (vd_type (m_value m)))). set (L := text_of m).
    assert (Sd : same_but ["typeAttributes"%string] ["description"; "id"]%string (set_description e1 (description_to_refract L)) v).
    { eapply same_trans; [apply same_description; now left|apply same_types; now left]. }
    assert (Sd' : same_but [] ["description"]%string (set_description e1 (description_to_refract L)) e1) by (apply same_description; now left).
    assert (Se : same_but ["typeAttributes"]%string [] e1 v) by (apply same_types; now left).
    exists (set_description e1 (description_to_refract L)), k, w. split; [reflexivity|]. split; [reflexivity|]. split; [exact K|]. split; [|split; [|split; [|split; [|split; [|split]]]]].
    - apply (description_of k); apply type_attributes_of; exact Ok.
    - rewrite (sb_name _ _ _ _ Sd). exact N1.
    - eapply value_body_same; [exact Sd|exact B].
    - rewrite (sb_attr _ _ _ _ Sd') by (intros []). now apply typed.
    - intros x Nx. rewrite (sb_attr _ _ _ _ Sd) by (intros [<-|[]]; apply Nx; cbn; tauto). apply N3. intros I; apply Nx; cbn in *; intuition.
    - replace (value_description m) with (joined (map fst L)).
      + apply described. rewrite (sb_meta _ _ _ _ Se) by (intros []). exact Dn.
      + unfold value_description, L, text_of, own_texts, own_description. cbn [member_map m_description m_description_map]. rewrite map_app, blocks_map.
        destruct (object_base (m_value m)); [reflexivity|]. unfold joined. destruct (String.eqb_spec (m_description m) "") as [->|]; [reflexivity|reflexivity].
    - intros x Nx. rewrite (sb_meta _ _ _ _ Sd') by (intros [<-|[]]; now apply Nx). rewrite (sb_meta _ _ _ _ Se) by (intros []). unfold meta. now rewrite N2.
  Qed.

  (** * Property members *)
  Lemma append_nil : forall p, append_places [] p = p.
  Proof. intros [|x p]; reflexivity. Qed.
  Lemma name_empty_literal : forall n, name_empty n = true -> s_literal (n_symbol n) = ""%string.
  Proof.
    intros [b [s v]] H. unfold name_empty in H. cbn in *. destruct b; try discriminate. unfold symbol_empty in H. cbn in H. destruct (String.eqb_spec s ""); [assumption|now destruct v].
  Qed.
  Lemma def_empty_label : forall t, def_empty t = true -> type_literal t = ""%string.
  Proof.
    intros t H. unfold def_empty, spec_empty in H. apply andb_prop in H as [_ H]. destruct (t_nested (td_spec t)); [|discriminate]. now apply name_empty_literal.
  Qed.
  Lemma key_typed : forall v x w, (if def_empty (vd_type v) then mret (make_empty KString) else mbind (quiet (variable_is_string fuel r v)) (fun b => if (b : bool) then mret (set_element_type (make_empty KString) (vd_type v)) else throw "'variable named property' must be string or its sub-type")) = ret (x, w) ->
    w = [] /\ ename x = (if String.eqb (type_literal (vd_type v)) "" then kind_name KString else type_literal (vd_type v)) /\ emeta x = [] /\ eattrs x = [] /\ ehas x = false /\ (def_empty (vd_type v) = false -> string_typed fuel r (vd_type v)).
  Proof.
    intros v x wx X. destruct (def_empty (vd_type v)) eqn:D.
    - apply mret_ret in X as [<- ->]. rewrite (def_empty_label _ D). now repeat split.
    - apply mbind_ret in X as (b & w1 & w2 & X1 & X2 & ->). apply quiet_ret in X1 as [X1 ->]. destruct b; [|discriminate]. apply mret_ret in X2 as [<- ->].
      unfold set_element_type. fold (type_literal (vd_type v)).
      assert (T : string_typed fuel r (vd_type v)).
      { unfold variable_is_string in X1; unfold string_typed.
        destruct (n_base (t_name (td_spec (vd_type v)))) eqn:B; try (now left); right;
          (apply bind_ret in X1 as (o & Ho & Eo); unfold root_ancestor in Ho; fold (type_literal (vd_type v)) in Ho;
          destruct (FindRootAncestor fuel r _) as [y|] eqn:F; [|discriminate]; injection Ho as ->;
          destruct o as [e|]; [|discriminate]; exists e; (split; [reflexivity|]); injection Eo as Eo; unfold is_kind in Eo; destruct (ekind e); try discriminate; reflexivity). }
      destruct (String.eqb (type_literal (vd_type v)) ""); now repeat split.
  Qed.
  Lemma property_key_shape : forall n key w, property_key fuel r n = ret (key, w) ->
    key_of n key /\ w = key_warnings n /\ (def_empty (vd_type (p_variable n)) = false -> string_typed fuel r (vd_type (p_variable n))).
  Proof.
    intros n key w H. unfold property_key in H. cbv zeta in H. rewrite append_nil in H. apply mbind_ret in H as (a & w0 & w1 & H0 & H & ->). apply mret_ret in H as [<- ->]. rewrite app_nil_r.
    assert (G : (ename a = key_name n /\ emeta a = [] /\ eattrs a = [] /\
      match vd_values (p_variable n) with v :: _ => ehas a = true /\ edata a = DString (v_literal v) | [] => ehas a = false end) /\
      w0 = key_warnings n /\ (def_empty (vd_type (p_variable n)) = false -> string_typed fuel r (vd_type (p_variable n)))).
    { unfold key_name, label, key_warnings. unfold value_empty in H0. set (v := p_variable n) in *.
      destruct (vd_values v) as [|x l] eqn:Vv; cbn [List.length] in H0.
      - destruct (def_empty (vd_type v)) eqn:D.
        + apply mret_ret in H0 as [<- ->]. rewrite (def_empty_label _ D). now repeat split.
        + apply mbind_ret in H0 as (u & w1 & w2 & H1 & H2 & ->). apply mret_ret in H1 as [_ ->]. apply mbind_ret in H2 as (k & w3 & w4 & H1 & H2 & ->).
          apply mret_ret in H2 as [<- ->]. assert (T := key_typed v k w3). rewrite D in T. apply T in H1 as (-> & A2 & A3 & A4 & A5 & A6). now repeat split; intros; auto.
      - apply mbind_ret in H0 as (u & w1 & w2 & H1 & H2 & ->). apply mbind_ret in H2 as (k & w3 & w4 & H3 & H2 & ->).
        apply mret_ret in H2 as [<- ->]. apply key_typed in H3 as (-> & A2 & A3 & A4 & A5 & A6). cbn [app]. rewrite app_nil_r.
        split; [destruct k as [na ma aa ha da]; cbn in *; now repeat split|]. split; [|exact A6]. unfold when in H1.
        destruct l as [|y l]; cbn in H1; [now apply mret_ret in H1|]. unfold say in H1. now injection H1 as _ <-. }
    destruct G as ((A1 & A2 & A3 & A4) & W & T). split; [|now split]. clear H0. unfold key_of, key_text.
    assert (P : forall e, ename (attach e (p_map n)) = ename e /\ emeta (attach e (p_map n)) = emeta e /\ ehas (attach e (p_map n)) = ehas e /\ edata (attach e (p_map n)) = edata e /\
      (eattrs e = [] -> eattrs (attach e (p_map n)) = match p_map n with [] => [] | p => [("sourceMap"%string, SourceMapToRefract p)] end)).
    { intros e. unfold attach. destruct (p_map n); [now repeat split|]. destruct e as [ne me ae he de]. cbn. repeat split. now intros ->. }
    destruct (String.eqb_spec (p_literal n) "").
    - destruct (P a) as (P1 & P2 & P3 & P4 & P5). rewrite P1, P2, P3, P4, P5 by exact A3. now destruct (vd_values (p_variable n)).
    - destruct (P (eset a (DString (p_literal n)))) as (P1 & P2 & P3 & P4 & P5). rewrite P1, P2, P3, P4, P5; destruct a as [na ma aa ha da]; cbn in *; now repeat split.
  Qed.
  Lemma valid_key_spec : forall n key b, key_of n key -> valid_key key = Some b -> b = negb (keyless n).
  Proof.
    intros n key b (N1 & N2 & N3 & N4) H. unfold valid_key in H. unfold keyless. rewrite N1 in H. destruct (is_reserved (key_name n)); [|injection H as <-; reflexivity].
    unfold find_value, find_first_sample, find_default in H. rewrite N3 in H. cbn [andb]. destruct (key_text n) as [s|].
    - destruct N4 as [N4 N5]. rewrite N4, N5, N4 in H. injection H as <-. destruct s; reflexivity.
    - rewrite N4 in H. destruct (p_map n); cbn in H; now injection H as <-.
  Qed.
  Theorem property_member : forall d n m o w, to_apie fuel r (MProperty n m) d = ret (o, w) ->
    (def_empty (vd_type (p_variable n)) = false -> string_typed fuel r (vd_type (p_variable n))) /\
    match o with
    | None => keyless n = true /\ w = (clash_warnings m ++ key_warnings n)%list
    | Some e =>
      keyless n = false /\ ename e = "member"%string /\ ehas e = true /\
      attr e "typeAttributes" = type_attribute_of (vd_type (m_value m)) /\
      attr e "variable" = (if value_empty (p_variable n) then None else Some (make_element (DBoolean true))) /\
      only_attributes ["typeAttributes"; "variable"]%string e /\
      described_as e (property_description m) /\ (forall x, x <> "description"%string -> meta e x = None) /\
      exists key v k w', edata e = DMember (Some key) (Some v) /\ w = (clash_warnings m ++ key_warnings n ++ w')%list /\
        key_of n key /\ member_kind fuel r d m k /\ ekind v = k /\ ename v = label (vd_type (m_value m)) k /\
        value_body fuel r k m v w' /\ emeta v = [] /\ only_attributes ["samples"; "default"; "enumerations"; "sourceMap"]%string v
    end.
  Proof.
    intros d n m o w H. unfold to_apie in H. cbn [convert fst] in H. fold (to_apie fuel r) in H. change (fun x => fst (convert fuel r x)) with (to_apie fuel r) in H.
    unfold member_to_refract in H. apply mbind_ret in H as (name & w0 & w1 & H0 & H & ->). apply quiet_ret in H0 as [H0 ->]. cbn [member_map m_value m_value_map] in *.
    apply mbind_ret in H as (u & w2 & w3 & H1 & H & ->). apply clash_spec in H1. subst w2. cbn [app] in *.
    unfold element_from_property in H. apply mbind_ret in H as (key & w4 & w5 & H1 & H & ->). apply mbind_ret in H as (b & w6 & w7 & H2 & H & ->). apply quiet_ret in H2 as [H2 ->].
    apply lift_ret in H2. apply property_key_shape in H1 as (Ky & -> & St). apply (valid_key_spec n) in H2; [|exact Ky]. subst b. split; [exact St|]. cbn [app].
    destruct (keyless n); cbn [negb] in H.
    { apply mret_ret in H as [<- ->]. now rewrite app_nil_r. }
    apply mbind_ret in H as ([v ds] & w8 & w9 & H1 & H & ->). apply mret_ret in H as [<- ->]. rewrite app_nil_r. cbn [fst member_map m_value]. set (k := choose_kind name d (thunk m)) in *.
    assert (Vk : value_kind k) by apply choose_kind_value. assert (K := chosen_kind d m name H0). fold k in K.
    apply plain_value in H1; [|exact Vk]. destruct H1 as (Ok & N1 & N2 & B & Tn & N3 & ->).
    set (e0 := make_element (DMember (Some key) (Some v))).
    set (e1 := if value_empty (p_variable n) then e0 else set_attrs e0 (iset (eattrs e0) "variable" (make_element (DBoolean true)))).
    assert (E1 : ename e1 = "member"%string /\ ehas e1 = true /\ edata e1 = DMember (Some key) (Some v) /\ emeta e1 = [] /\
      (forall x, attr e1 x = if String.eqb "variable" x then (if value_empty (p_variable n) then None else Some (make_element (DBoolean true))) else None)).
    { unfold e1. destruct (value_empty (p_variable n)); (split; [reflexivity|split; [reflexivity|split; [reflexivity|split; [reflexivity|]]]]); intros x.
      - change (attr e0 x) with (@None element). now destruct (String.eqb "variable" x).
      - rewrite attr_set. reflexivity. }
    clearbody e1. destruct E1 as (E1 & E2 & E3 & E4 & E5). set (e2 := set_type_attributes e1 (td_attrs (vd_type (m_value m)))).
    assert (Se : same_but ["typeAttributes"]%string [] e2 e1) by (apply same_types; now left).
    set (L := property_descriptions (thunk m)).
    assert (Sd : same_but [] ["description"]%string (set_description e2 (description_to_refract L)) e2) by (apply same_description; now left).
    split; [reflexivity|]. rewrite (sb_name _ _ _ _ Sd), (sb_name _ _ _ _ Se), (sb_has _ _ _ _ Sd), (sb_has _ _ _ _ Se), (sb_data _ _ _ _ Sd), (sb_data _ _ _ _ Se).
    split; [exact E1|]. split; [exact E2|]. rewrite !(sb_attr _ _ _ _ Sd) by (intros []). split; [apply typed; now rewrite E5|].
    split; [rewrite (sb_attr _ _ _ _ Se) by (intros [X|[]]; discriminate); now rewrite E5|]. split; [|split; [|split]].
    - intros x Nx. rewrite (sb_attr _ _ _ _ Sd) by (intros []). rewrite (sb_attr _ _ _ _ Se) by (intros [<-|[]]; apply Nx; now left). rewrite E5.
      destruct (String.eqb_spec "variable" x) as [<-|]; [exfalso; apply Nx; cbn; tauto|reflexivity].
    - replace (property_description m) with (joined (map fst L)).
      + apply described. rewrite (sb_meta _ _ _ _ Se) by (intros []). unfold meta. now rewrite E4.
      + unfold L, property_descriptions, property_description. cbn [member_map m_description m_description_map m_sections].
        set (bl := flat_map _ _). assert (Bl : map fst bl = blocks (m_sections m)).
        { unfold bl, blocks, of_class. clear. induction (m_sections m) as [|s l IH]; [reflexivity|]. cbn [map flat_map filter]. unfold section_map at 1. cbn [sc_class].
          destruct (sc_class s) eqn:C; cbn [same_class app map]; rewrite IH; reflexivity. }
        destruct (m_description m) as [|c t] eqn:Dm; [now rewrite <- Bl|]. cbn [String.eqb]. destruct bl as [|b bl]; [cbn in Bl; now rewrite <- Bl|].
        cbn [map] in *. rewrite <- Bl. reflexivity.
    - intros x Nx. rewrite (sb_meta _ _ _ _ Sd) by (intros [<-|[]]; now apply Nx). rewrite (sb_meta _ _ _ _ Se) by (intros []). unfold meta. now rewrite E4.
    - exists key, v, k, w8. destruct Ok as [_ Ok]. now repeat (split; [eassumption || reflexivity|]).
  Qed.

  (** * One-of, mixins *)
  Lemma alternatives : forall x e w, snd (convert fuel r x) = ret (e, w) -> alternative fuel r x e w.
  Proof.
    intros x e w H.
    assert (G : forall c : M (option element), mbind c (fun o => mret (option_of o)) = ret (e, w) -> (exists w', c = to_apie fuel r x StringTN /\ w' = w) ->
      exists l, e = make_element (DOption l) /\ exists o, to_apie fuel r x StringTN = ret (o, w) /\ l = somes [o]).
    { intros c Hc (_ & -> & _). apply mbind_ret in Hc as (o & w1 & w2 & Hc & X & ->). apply mret_ret in X as [<- ->]. eexists. split; [reflexivity|].
      exists o. rewrite app_nil_r. split; [exact Hc|]. now destruct o. }
    destruct x; cbn [convert snd] in H; unfold alternative.
    - discriminate.
    - eapply G; [exact H|]. now exists w.
    - eapply G; [exact H|]. now exists w.
    - eapply G; [exact H|]. now exists w.
    - cbv zeta in H. cbn [snd] in H. apply mbind_ret in H as (s & w1 & w2 & H1 & X & ->). apply mret_ret in X as [<- ->]. exists [s]. split; [reflexivity|]. exists (Some s). split; [|reflexivity].
      unfold to_apie. cbn [convert fst]. cbv zeta. cbn [fst]. unfold mbind at 1. rewrite H1. reflexivity.
    - apply mbind_ret in H as (es & w1 & w2 & H1 & X & ->). apply mret_ret in X as [<- ->]. exists es. split; [reflexivity|]. rewrite app_nil_r.
      unfold sections_to_apie in H1. apply mbind_ret in H1 as (os & w0 & w2 & H0 & H & ->). apply mret_ret in H as [<- ->]. rewrite app_nil_r.
      apply mapM_ret in H0 as (rs & R & -> & ->). exists rs. split; [|now split]. change (fun x => fst (convert fuel r x)) with (to_apie fuel r) in R.
      remember (map (to_apie fuel r) l) as L eqn:HL. clear -R HL. revert l HL. induction R as [|c o L rs Ex R IH]; intros l HL.
      + destruct l; [constructor|discriminate].
      + destruct l as [|x l]; [discriminate|]. cbn in HL. injection HL as -> ->. constructor; [exact Ex|now apply IH].
  Qed.
  Theorem one_of_member : forall d l o w, to_apie fuel r (MOneOf l) d = ret (o, w) ->
    exists rs, Forall2 (fun x y => alternative fuel r x (fst y) (snd y)) l rs /\ o = Some (select_element (map fst rs)) /\ w = concat (map snd rs).
  Proof.
    intros d l o w H. unfold to_apie in H. cbn [convert] in H. cbv zeta in H. cbn [fst] in H. apply mbind_ret in H as (s & w1 & w2 & H & X & ->). apply mret_ret in X as [<- ->].
    apply mbind_ret in H as (es & w3 & w4 & H & X & ->). apply mret_ret in X as [<- ->].
    apply mapM_ret in H as (rs & R & -> & ->). exists rs. split; [|split; [reflexivity|now rewrite !app_nil_r]]. clear -R. induction R as [|x [e w] l rs E R IH]; [constructor|]. constructor; [now apply (alternatives x e w)|exact IH].
  Qed.
  Theorem mixin_member : forall d t o w, to_apie fuel r (MMixin t) d = ret (o, w) ->
    w = [] /\ o = Some (reference (mixin_name t)).
  Proof.
    intros d t o w H. unfold to_apie in H. cbn [convert fst] in H. unfold mixin_to_apie in H. apply mbind_ret in H as (s & w1 & w2 & H & X & ->). apply mret_ret in X as [<- ->].
    apply quiet_ret in H as [H ->]. split; [reflexivity|]. unfold reference. f_equal. unfold apie_symbol in H. destruct (name_empty (t_name (td_spec t))) eqn:Ne; [discriminate|].
    unfold mixin_name. destruct (t_name (td_spec t)) as [b [l v]]. cbn in *. unfold symbol_empty in H. cbn in H.
    destruct (String.eqb l "" && negb v)%bool; [|now injection H as <-]. now destruct b; try discriminate; injection H as <-.
  Qed.
  Theorem group_member : forall d l, to_apie fuel r (MGroup l) d = throw "unable to handle element group".
  Proof. reflexivity. Qed.

  (** * Data structures *)
  Lemma start_structure_shape : forall k s, fresh_element (start_structure k s) /\ ename (start_structure k s) = label (ds_type s) k /\
    (forall x, attr (start_structure k s) x = if String.eqb "typeAttributes" x then type_attribute_of (ds_type s) else if String.eqb "sourceMap" x then map_attribute (ds_map s) else None) /\
    (forall x, meta (start_structure k s) x = if String.eqb "id" x then id_element s else None).
  Proof.
    intros k s. unfold start_structure.
    set (e0 := set_element_type (make_empty k) (ds_type s)).
    assert (E0 : ehas e0 = false /\ eattrs e0 = [] /\ emeta e0 = [] /\ ename e0 = label (ds_type s) k).
    { unfold e0, set_element_type, label. fold (type_literal (ds_type s)). destruct (String.eqb _ ""); now destruct k. }
    clearbody e0. destruct E0 as (A1 & A2 & A3 & A4). cbv zeta. rewrite append_nil.
    set (e1 := if String.eqb _ "" then e0 else _).
    assert (E1 : ehas e1 = false /\ eattrs e1 = [] /\ ename e1 = label (ds_type s) k /\ (forall x, meta e1 x = if String.eqb "id" x then id_element s else None)).
    { unfold e1, id_element. destruct (s_literal (n_symbol (ds_name s))) as [|c t] eqn:L.
      - change (String.eqb "" "") with true. cbv iota. repeat (split; [assumption|]). intros x. unfold meta. rewrite A3. cbn [ifind]. now destruct (String.eqb "id" x).
      - change (String.eqb (String c t) "") with false. cbv iota. destruct e0 as [n mm aa h dd]. cbn in A1, A2, A3, A4. subst. repeat (split; [reflexivity|]). intros x. unfold meta. cbn [set_meta emeta iset ifind].
        destruct (String.eqb "id" x); [|reflexivity]. now destruct (ds_name_map s). }
    clearbody e1. clear A1 A2 A3 A4. destruct E1 as (A1 & A2 & A3 & A4).
    assert (B : ehas (attach e1 (ds_map s)) = false /\ ename (attach e1 (ds_map s)) = label (ds_type s) k /\ (forall x, meta (attach e1 (ds_map s)) x = if String.eqb "id" x then id_element s else None) /\
      (forall x, attr (attach e1 (ds_map s)) x = if String.eqb "sourceMap" x then map_attribute (ds_map s) else None)).
    { unfold attach, map_attribute. destruct (ds_map s) as [|q p].
      - repeat (split; [assumption|]). intros x. unfold attr. rewrite A2. now destruct (String.eqb "sourceMap" x).
      - split; [now destruct e1|]. split; [now destruct e1|]. split; [now destruct e1|]. intros x. rewrite attr_set. unfold attr. now rewrite A2. }
    set (e2 := attach e1 (ds_map s)) in *. clearbody e2. destruct B as (B1 & B2 & B3 & B4).
    assert (S : same_but ["typeAttributes"%string] [] (set_type_attributes e2 (td_attrs (ds_type s))) e2) by (apply same_types; now left).
    set (e3 := set_type_attributes e2 (td_attrs (ds_type s))) in *.
    assert (At : forall x, attr e3 x = if String.eqb "typeAttributes" x then type_attribute_of (ds_type s) else if String.eqb "sourceMap" x then map_attribute (ds_map s) else None).
    { intros x. destruct (String.eqb_spec "typeAttributes" x) as [<-|N].
      - apply typed. now rewrite B4.
      - rewrite (sb_attr _ _ _ _ S) by (intros [X|[]]; now apply N). apply B4. }
    split; [|split; [|split; [exact At|]]].
    - unfold fresh_element. rewrite !At. split; [|now repeat split]. now rewrite (sb_has _ _ _ _ S).
    - now rewrite (sb_name _ _ _ _ S).
    - intros x. rewrite (sb_meta _ _ _ _ S) by (intros []). apply B3.
  Qed.
  Lemma resolved_kind : forall t b, resolve_type fuel r (td_spec t) = ret b -> structure_kind fuel r t (kind_of b).
  Proof.
    intros t b H. unfold resolve_type in H. destruct (n_base (t_name (td_spec t))) eqn:B; try (injection H as <-; apply sk_base; [exact B|congruence]).
    fold (type_literal t) in H. destruct (String.eqb_spec (type_literal t) "") as [Z|Z].
    - injection H as <-. apply sk_object. split; [exact B|now left].
    - apply bind_ret in H as (o & Ho & E). assert (X : (match o with Some e => base_of_kind (ekind e) | None => UndefinedTN end) = b) by (unfold ret in E; congruence). clear E.
      assert (Kn := known_dec_of _ _ Ho). rewrite X in Kn. destruct b; try (apply sk_named; [exact B|exact Z|exact Kn]). apply sk_object. split; [exact B|right; exact Kn].
  Qed.
  Lemma kept_description : forall e l e', kept (set_description e (description_to_refract l)) e' -> meta e "description" = None ->
    described_as e' (joined (map fst l)) /\ ename e' = ename e /\ (forall x, x <> "description"%string -> meta e' x = meta e x) /\
    (forall k, ~ In k ["samples"; "default"; "enumerations"; "sourceMap"]%string -> attr e' k = attr e k).
  Proof.
    intros e l e' (K1 & K2 & K3) N. assert (D := described e l N). assert (S : same_but [] ["description"]%string (set_description e (description_to_refract l)) e) by (apply same_description; now left).
    split; [|split; [|split]].
    - unfold described_as, meta in *. now rewrite K2.
    - rewrite K1. apply (sb_name _ _ _ _ S).
    - intros x Nx. unfold meta at 1. rewrite K2. apply (sb_meta _ _ _ _ S). intros [X|[]]; congruence.
    - intros k Nk. rewrite K3 by exact Nk. apply (sb_attr _ _ _ _ S). intros [].
  Qed.
  Lemma fresh_description : forall e l, fresh_element e -> fresh_element (set_description e (description_to_refract l)).
  Proof. intros e l F. unfold fresh_element, attr in *. destruct (description_to_refract l); [|exact F]. now destruct e. Qed.
  Lemma nested_select : forall t, select_nested (t_nested (td_spec t)) = nested_default t.
  Proof. intros t. unfold select_nested, nested_default, entry_kind. destruct (t_nested (td_spec t)) as [|n [|? ?]]; try reflexivity. now destruct (n_base n). Qed.
  Lemma start_of : forall k s l, value_kind k -> is_of k (set_description (start_structure k s) (description_to_refract l)).
  Proof. intros k s l V. apply description_of, start_structure_of. destruct V as [<-|[<-|[<-|[<-|[<-|[<-|[]]]]]]]; exact I. Qed.
  Lemma structure_lists : forall k s e w, k = KArray \/ k = KObject ->
    structure_of fuel r false (fetch_elements (select_nested (t_nested (td_spec (ds_type s))))) (extract_definition fuel r (ds_type s) (ds_type_map s)) (finish_list k) k s = ret (e, w) ->
    ekind e = k /\ kept (set_description (start_structure k s) (description_to_refract (block_texts (secs (ds_sections s))))) e /\ structure_body fuel r k s e w.
  Proof.
    intros k s e w Hk H. unfold structure_of in H. apply mbind_ret in H as (d0 & w0 & w1 & H0 & H & ->). apply mbind_ret in H as (d & w2 & w3 & H1 & H & ->).
    assert (Vk : value_kind k) by (unfold value_kind; destruct Hk; subst; cbn; tauto).
    assert (Sd : sane_data d). { apply extract_sections_sane in H1; [exact H1|apply secs_sane|intros; eapply fetch_elements_sane; eassumption|]. eapply extract_definition_sane; [apply no_data_sane|exact H0]. }
    assert (Wr := list_reports _ _ _ _ _ _ _ H1). rewrite nested_select in Wr.
    apply hints_of_definition in H0 as (hs & Hh & ->). apply sections_data in H1 as (_ & vs & ss & dd & P1 & P2 & P3 & ->). rewrite nested_select in P1, P2, P3.
    unfold members in P1. unfold sample_sections in P2. unfold default_sections in P3. rewrite of_class_map in P1, P2, P3. rewrite written_map in P2, P3.
    apply picked_elements in P1, P2, P3. cbn [add_hint no_data inlines values hints samples defaults descriptions app] in *.
    assert (K := H). apply finish_list_of in K as [_ K]; [|exact Hk|exact Sd|now apply start_of]. split; [exact K|].
    destruct (start_structure_shape k s) as (F & N & At & Me). apply finish_list_shape in H; [|now apply fresh_description].
    destruct H as (Wf & Ke & Sm & Ho & Sa & De & En). cbn [inlines values hints samples defaults descriptions map fst concat app] in *. split; [exact Ke|]. rewrite app_nil_r in Ho.
    assert (SM : attr e "sourceMap" = map_attribute (ds_map s)).
    { rewrite Sm. assert (S : same_but [] ["description"]%string (set_description (start_structure k s) (description_to_refract (block_texts (secs (ds_sections s))))) (start_structure k s)) by (apply same_description; now left).
      rewrite (sb_attr _ _ _ _ S) by (intros []). now rewrite At. }
    assert (B : exists hs wh ws, (w0 ++ w2 ++ w3)%list = (wh ++ ws)%list /\ nested_hints fuel r (ds_type s) (ds_type_map s) hs wh /\ sections_report fuel r (nested_default (ds_type s)) (ds_sections s) ws /\
      list_body fuel r k (ds_type s) hs NoUse [] (ds_sections s) e /\ attr e "sourceMap" = map_attribute (ds_map s)).
    { exists hs, w0, w2. split; [subst w3; now rewrite app_nil_r|]. split; [exact Hh|]. split; [exact Wr|]. split; [|exact SM]. exists (map fst vs), (map fst ss), (map fst dd). cbn [if_use app]. now repeat (split; [eassumption|]). }
    unfold structure_body. destruct Hk as [-> | ->]; exact B.
  Qed.
  Lemma structure_texts : forall k s e w, is_primitive k = true -> structure_of fuel r true fetch_text mret (finish_text k) k s = ret (e, w) ->
    ekind e = k /\ kept (set_description (start_structure k s) (description_to_refract (block_texts (secs (ds_sections s))))) e /\ structure_body fuel r k s e w.
  Proof.
    intros k s e w Hk H. unfold structure_of in H. apply mbind_ret in H as (d0 & w0 & w1 & H0 & H & ->). apply mbind_ret in H as (d & w2 & w3 & H1 & H & ->).
    assert (Vk : value_kind k) by (unfold value_kind; destruct k; try discriminate; cbn; tauto). apply mret_ret in H0 as [<- ->]. assert (W := text_sections_quiet _ _ _ _ H1). subst w2. cbn [app].
    apply sections_data in H1 as (_ & vs & ss & dd & P1 & P2 & P3 & ->). inversion P1; subst vs. clear P1.
    unfold sample_sections in P2. unfold default_sections in P3. rewrite of_class_map, written_map in P2, P3. apply picked_text in P2, P3.
    cbn [no_data inlines values hints samples defaults descriptions app] in *.
    assert (K := H). apply finish_text_of in K as [_ K]; [|exact Hk|now apply start_of]. split; [exact K|].
    destruct (start_structure_shape k s) as (F & N & At & Me). apply finish_text_shape in H; [|exact Hk|now apply fresh_description|reflexivity|reflexivity].
    destruct H as (Wt & Ke & Ho & Sa & De & En). cbn [inlines values hints samples defaults descriptions app] in *. split; [exact Ke|].
    assert (SM : attr (set_description (start_structure k s) (description_to_refract (block_texts (secs (ds_sections s))))) "sourceMap" = map_attribute (ds_map s)).
    { assert (S : same_but [] ["description"]%string (set_description (start_structure k s) (description_to_refract (block_texts (secs (ds_sections s))))) (start_structure k s)) by (apply same_description; now left).
      rewrite (sb_attr _ _ _ _ S) by (intros []). now rewrite At. }
    assert (B : text_body k NoUse [] (ds_sections s) (ds_map s) e w3).
    { unfold text_body. cbv zeta. cbn [if_use app]. subst ss dd. rewrite <- SM. now repeat (split; [eassumption|]). }
    unfold structure_body. destruct k; try discriminate; exact B.
  Qed.
  Lemma structure_enums : forall s e w,
    structure_of fuel r false (fetch_enum (select_nested (t_nested (td_spec (ds_type s))))) (extract_definition fuel r (ds_type s) (ds_type_map s)) finish_enum KEnum s = ret (e, w) ->
    ekind e = KEnum /\ kept (set_description (start_structure KEnum s) (description_to_refract (block_texts (secs (ds_sections s))))) e /\ structure_body fuel r KEnum s e w.
  Proof.
    intros s e w H. unfold structure_of in H. apply mbind_ret in H as (d0 & w0 & w1 & H0 & H & ->). apply mbind_ret in H as (d & w2 & w3 & H1 & H & ->).
    assert (Vk : value_kind KEnum) by (unfold value_kind; cbn; tauto).
    assert (Sd : sane_data d). { apply extract_sections_sane in H1; [exact H1|apply secs_sane|intros; eapply fetch_enum_sane; eassumption|]. eapply extract_definition_sane; [apply no_data_sane|exact H0]. }
    assert (Wr := enum_reports _ _ _ _ _ _ _ H1). rewrite nested_select in Wr.
    apply hints_of_definition in H0 as (hs & Hh & ->). apply sections_data in H1 as (_ & vs & ss & dd & P1 & P2 & P3 & ->). rewrite nested_select in P1, P2, P3.
    unfold members in P1. unfold sample_sections in P2. unfold default_sections in P3. rewrite of_class_map in P1, P2, P3. rewrite written_map in P2, P3.
    apply picked_enum in P1, P2, P3. cbn [add_hint no_data inlines values hints samples defaults descriptions app] in *.
    assert (K := H). apply finish_enum_of in K as [_ K]; [|exact Sd|now apply start_of]. split; [exact K|].
    destruct (start_structure_shape KEnum s) as (F & N & At & Me). apply finish_enum_shape in H; [|exact Sd|now apply fresh_description].
    destruct H as (es & entries & w1' & w2' & Ew & Q1 & Q2 & Q3 & Q4 & Q5 & Q6 & Q7 & Q8 & Q9 & Q10 & Q11).
    cbn [inlines values hints samples defaults descriptions map fst concat app] in *. split; [exact Q10|]. rewrite app_nil_r in Q1.
    assert (SM : attr e "sourceMap" = map_attribute (ds_map s)).
    { rewrite Q11. assert (S : same_but [] ["description"]%string (set_description (start_structure KEnum s) (description_to_refract (block_texts (secs (ds_sections s))))) (start_structure KEnum s)) by (apply same_description; now left).
      rewrite (sb_attr _ _ _ _ S) by (intros []). now rewrite At. }
    exists hs, w0, w2, w3. split; [reflexivity|]. split; [exact Hh|]. split; [exact Wr|]. split; [|exact SM]. exists (map fst vs), (map fst ss), (map fst dd), es, entries, w1', w2'.
    split; [exact Ew|]. cbn [if_use app]. split; [exact P1|]. split; [exact P2|]. split; [exact P3|]. split; [exact Q1|]. split; [exact Q2|]. split; [exact Q3|].
    split; [rewrite Q4; destruct dd as [|[[|? [|? ?]] ?] [|? ?]]; cbn; tauto|]. split; [exact Q5|]. split; [exact Q6|]. split; [exact Q7|]. split; [exact Q8|]. rewrite Q9. now destruct dd.
  Qed.
  Theorem structure_shape : forall s o w, structure_to_refract fuel r s = ret (o, w) ->
    match o with
    | None => structure_empty s = true /\ w = []
    | Some e => structure_empty s = false /\
      exists k, structure_kind fuel r (ds_type s) k /\ ekind e = k /\ ename e = label (ds_type s) k /\ structure_body fuel r k s e w /\
        attr e "typeAttributes" = type_attribute_of (ds_type s) /\ only_attributes value_attributes e /\
        meta e "id" = id_element s /\ described_as e (joined (blocks (ds_sections s))) /\ (forall x, ~ In x ["id"; "description"]%string -> meta e x = None)
    end.
  Proof.
    intros s o w H. unfold structure_to_refract in H. destruct (structure_empty s); [apply mret_ret in H as [<- ->]; now split|].
    apply mbind_ret in H as (b & w0 & w1 & H0 & H & ->). apply quiet_ret in H0 as [H0 ->]. apply mbind_ret in H as (e & w2 & w3 & H & X & ->). apply mret_ret in X as [<- ->].
    rewrite app_nil_r. cbn [app]. split; [reflexivity|]. apply resolved_kind in H0. exists (kind_of b). split; [exact H0|].
    assert (G : ekind e = kind_of b /\ kept (set_description (start_structure (kind_of b) s) (description_to_refract (block_texts (secs (ds_sections s))))) e /\ structure_body fuel r (kind_of b) s e w2).
    { destruct b; cbn [kind_of] in *; first [now apply structure_texts|now apply structure_enums|apply structure_lists; tauto]. }
    destruct G as (G1 & G2 & G3). split; [exact G1|]. destruct (start_structure_shape (kind_of b) s) as (F & N & At & Me).
    apply kept_description in G2; [|now rewrite Me]. destruct G2 as (D1 & D2 & D3 & D4). rewrite blocks_map in D1.
    split; [now rewrite D2|]. split; [exact G3|]. split; [rewrite D4 by (cbn; intuition discriminate); now rewrite At|]. split; [|split; [|split; [exact D1|]]].
    - intros x Nx. rewrite D4 by (intros I; apply Nx; cbn in *; intuition). rewrite At.
      destruct (String.eqb_spec "typeAttributes" x) as [<-|]; [exfalso; apply Nx; cbn; tauto|]. destruct (String.eqb_spec "sourceMap" x) as [<-|]; [exfalso; apply Nx; cbn; tauto|reflexivity].
    - rewrite D3 by discriminate. now rewrite Me.
    - intros x Nx. rewrite D3 by (intros ->; apply Nx; cbn; tauto). rewrite Me. destruct (String.eqb_spec "id" x) as [<-|]; [exfalso; apply Nx; cbn; tauto|reflexivity].
  Qed.
End Tree.
