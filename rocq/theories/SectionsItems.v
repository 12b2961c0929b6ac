From Verif Require Import Base StringUtility StringSpec StringProofs Regex RegexSpec RegexProofs ByteBuffer Markdown MarkdownSpec Keywords KeywordsSpec KeywordsProofs KeywordsOrder Prop_Keywords RegexCaps TypeTables Sections SectionsSpec SectionsKeys SectionsKinds.
Local Open Scope string_scope.

Fixpoint pairwise (l : list string) : bool := match l with p :: r => if none_common [p] r then pairwise r else false | [] => true end.
Definition action_pats : list string := [RelationRegex; ParametersRegex; HeadersRegex; AttributesRegex; RequestRegex; ResponseRegex].
Lemma items_checked : pairwise action_pats = true /\ none_common [ModelRegex] [ParametersRegex; HeadersRegex; AttributesRegex] = true.
Proof. vm_compute. auto. Qed.
Lemma pairwise_spec : forall l a p b q c, pairwise l = true -> l = (a ++ p :: b ++ q :: c)%list -> forall s, regex_match s p = true -> regex_match s q = true -> False.
Proof.
  intros l. induction l as [|x l IH]; intros a p b q c H E s; [destruct a; discriminate|]. cbn [pairwise] in H.
  destruct (none_common [x] l) eqn:N; [|discriminate]. destruct a as [|y a]; injection E as -> E.
  - apply (none_common_spec _ _ N); [now left|]. rewrite E. apply in_or_app. right. now left.
  - now apply (IH a p b q c H E).
Qed.
Lemma holds_dec : forall t, holds_sections t \/ ~ holds_sections t.
Proof.
  intros t. destruct (proj1 C75_payloads t) as [_ _]. pose proof (holds_section_iff t) as H. change (holds_section t) with (holds_sections t) in H.
  destruct t as [ty x z m cs]. cbn [t_children holds_sections] in *. clear H. induction cs as [|c cs IH]; [right; intros (c & [] & _)|].
  destruct IH as [(d & I & S)|N]; [left; exists d; split; [now right|exact S]|].
  assert (X : (item_says reads_headers c \/ item_says reads_body c \/ item_says reads_schema c \/ item_says reads_attributes c \/ item_says reads_parameters c) \/
    ~ (item_says reads_headers c \/ item_says reads_body c \/ item_says reads_schema c \/ item_says reads_attributes c \/ item_says reads_parameters c)).
  { rewrite <- (check_item HeadersRegex _ ltac:(discriminate) headers_text), <- (check_item BodyRegex _ ltac:(discriminate) body_text), <- (check_item SchemaRegex _ ltac:(discriminate) schema_text),
      <- (check_item AttributesRegex _ ltac:(discriminate) attributes_text), <- (check_item ParametersRegex _ ltac:(discriminate) parameters_text).
    destruct (regex_match (item_line c) HeadersRegex), (regex_match (item_line c) BodyRegex), (regex_match (item_line c) SchemaRegex),
      (regex_match (item_line c) AttributesRegex), (regex_match (item_line c) ParametersRegex); intuition discriminate. }
  destruct X as [S|S]; [left; exists c; split; [now left|exact S]|right]. intros (d & [<-|I] & S'); [now apply S|]. apply N. now exists d.
Qed.
Definition pick (h : bool) (full short : section_type) : section_type := if h then full else short.
Lemma payload_value : forall t, exists h : bool, (h = true <-> holds_sections t) /\ payload_type t =
  if regex_match (item_line t) RequestRegex then pick h RequestSection RequestBodySection
  else if regex_match (item_line t) ResponseRegex then pick h ResponseSection ResponseBodySection
  else if regex_match (item_line t) ModelRegex then pick h ModelSection ModelBodySection else UndefinedSection.
Proof.
  intros t. pose proof (holds_section_iff t) as H. change (holds_section t) with (holds_sections t) in H. unfold payload_type. cbv zeta. set (f := fold_right _ _ _) in *. clearbody f.
  destruct (holds_dec t) as [K|K].
  - exists true. split; [tauto|]. assert (N : f <> UndefinedSection) by tauto. unfold pick. destruct f; try reflexivity. now elim N.
  - exists false. split; [split; [discriminate|contradiction]|]. rewrite (proj2 H K). reflexivity.
Qed.
Lemma pick_range : forall h x y, pick h x y = x \/ pick h x y = y.
Proof. intros []; cbn; auto. Qed.
Ltac reg t := rewrite <- ?(check_item RelationRegex _ ltac:(discriminate) relation_text t), <- ?(check_item ParametersRegex _ ltac:(discriminate) parameters_text t),
  <- ?(check_item HeadersRegex _ ltac:(discriminate) headers_text t), <- ?(check_item AttributesRegex _ ltac:(discriminate) attributes_text t),
  <- ?(check_item RequestRegex _ ltac:(discriminate) request_text t), <- ?(check_item ResponseRegex _ ltac:(discriminate) response_text t), <- ?(check_item ModelRegex _ ltac:(discriminate) model_text t).
Lemma eleven : forall rel par hea att req res mdl : bool,
  (rel = true -> par = true -> False) -> (rel = true -> hea = true -> False) -> (rel = true -> att = true -> False) -> (rel = true -> req = true -> False) -> (rel = true -> res = true -> False) ->
  (par = true -> hea = true -> False) -> (par = true -> att = true -> False) -> (par = true -> req = true -> False) -> (par = true -> res = true -> False) ->
  (hea = true -> att = true -> False) -> (hea = true -> req = true -> False) -> (hea = true -> res = true -> False) -> (att = true -> req = true -> False) -> (att = true -> res = true -> False) ->
  (req = true -> res = true -> False) -> (mdl = true -> par = true -> False) -> (mdl = true -> hea = true -> False) -> (mdl = true -> att = true -> False) ->
  In (rel, par, hea, att, req, res, mdl) [(true, false, false, false, false, false, true); (true, false, false, false, false, false, false);
    (false, true, false, false, false, false, false); (false, false, true, false, false, false, false); (false, false, false, true, false, false, false);
    (false, false, false, false, true, false, true); (false, false, false, false, true, false, false); (false, false, false, false, false, true, true); (false, false, false, false, false, true, false);
    (false, false, false, false, false, false, true); (false, false, false, false, false, false, false)].
Proof.
  assert (T : forall P, (true = true -> true = true -> False) -> P) by (intros P H; elim H; reflexivity).
  intros [] [] [] [] [] [] []; intros; try (eapply T; eassumption); cbn [In]; repeat (first [left; reflexivity|right]).
Qed.
Lemma items_value : forall t, exists rel par hea att req res mdl h : bool,
  (rel = true <-> item_says reads_relation t) /\ (par = true <-> item_says reads_parameters t) /\ (hea = true <-> item_says reads_headers t) /\ (att = true <-> item_says reads_attributes t) /\
  (req = true <-> item_says reads_request t) /\ (res = true <-> item_says reads_response t) /\ (mdl = true <-> item_says reads_model t) /\ (h = true <-> holds_sections t) /\
  relation_type t = if_ rel RelationSection /\ parameters_type t = if_ par ParametersSection /\ headers_type t = if_ hea HeadersSection /\ attributes_type t = if_ att AttributesSection /\
  payload_type t = (if req then pick h RequestSection RequestBodySection else if res then pick h ResponseSection ResponseBodySection
    else if mdl then pick h ModelSection ModelBodySection else UndefinedSection) /\
  In (rel, par, hea, att, req, res, mdl) [(true, false, false, false, false, false, true); (true, false, false, false, false, false, false);
    (false, true, false, false, false, false, false); (false, false, true, false, false, false, false); (false, false, false, true, false, false, false);
    (false, false, false, false, true, false, true); (false, false, false, false, true, false, false); (false, false, false, false, false, true, true); (false, false, false, false, false, true, false);
    (false, false, false, false, false, false, true); (false, false, false, false, false, false, false)].
Proof.
  intros t. destruct (payload_value t) as (h & Hh & E).
  exists (regex_match (item_line t) RelationRegex), (regex_match (item_line t) ParametersRegex), (regex_match (item_line t) HeadersRegex), (regex_match (item_line t) AttributesRegex),
    (regex_match (item_line t) RequestRegex), (regex_match (item_line t) ResponseRegex), (regex_match (item_line t) ModelRegex), h.
  reg t. do 7 (split; [tauto|]). split; [exact Hh|]. do 4 (split; [reflexivity|]). split; [exact E|]. clear E Hh h.
  generalize (item_line t). intros s.
  pose proof (fun a p b q c => pairwise_spec action_pats a p b q c (proj1 items_checked)) as D.
  pose proof (fun q I => none_common_spec _ _ (proj2 items_checked) ModelRegex q s (or_introl eq_refl) I) as M.
  pose proof (D [] RelationRegex [] ParametersRegex _ eq_refl s) as D1. pose proof (D [] RelationRegex [ParametersRegex] HeadersRegex _ eq_refl s) as D2.
  pose proof (D [] RelationRegex [ParametersRegex; HeadersRegex] AttributesRegex _ eq_refl s) as D3. pose proof (D [] RelationRegex [ParametersRegex; HeadersRegex; AttributesRegex] RequestRegex _ eq_refl s) as D4.
  pose proof (D [] RelationRegex [ParametersRegex; HeadersRegex; AttributesRegex; RequestRegex] ResponseRegex _ eq_refl s) as D5.
  pose proof (D [RelationRegex] ParametersRegex [] HeadersRegex _ eq_refl s) as D6. pose proof (D [RelationRegex] ParametersRegex [HeadersRegex] AttributesRegex _ eq_refl s) as D7.
  pose proof (D [RelationRegex] ParametersRegex [HeadersRegex; AttributesRegex] RequestRegex _ eq_refl s) as D8. pose proof (D [RelationRegex] ParametersRegex [HeadersRegex; AttributesRegex; RequestRegex] ResponseRegex _ eq_refl s) as D9.
  pose proof (D [RelationRegex; ParametersRegex] HeadersRegex [] AttributesRegex _ eq_refl s) as D10. pose proof (D [RelationRegex; ParametersRegex] HeadersRegex [AttributesRegex] RequestRegex _ eq_refl s) as D11.
  pose proof (D [RelationRegex; ParametersRegex] HeadersRegex [AttributesRegex; RequestRegex] ResponseRegex _ eq_refl s) as D12.
  pose proof (D [RelationRegex; ParametersRegex; HeadersRegex] AttributesRegex [] RequestRegex _ eq_refl s) as D13. pose proof (D [RelationRegex; ParametersRegex; HeadersRegex] AttributesRegex [RequestRegex] ResponseRegex _ eq_refl s) as D14.
  pose proof (D [RelationRegex; ParametersRegex; HeadersRegex; AttributesRegex] RequestRegex [] ResponseRegex _ eq_refl s) as D15.
  pose proof (M ParametersRegex ltac:(left; reflexivity)) as M1. pose proof (M HeadersRegex ltac:(right; left; reflexivity)) as M2. pose proof (M AttributesRegex ltac:(right; right; left; reflexivity)) as M3.
  clear D M.
  exact (eleven _ _ _ _ _ _ _ D1 D2 D3 D4 D5 D6 D7 D8 D9 D10 D11 D12 D13 D14 D15 M1 M2 M3).
Qed.

Lemma action_kind : forall t,
  (exists ty, action_item ty t /\ action_nested_type t = ty /\ ty <> UndefinedSection /\ ~ is_model ty = true) \/
  (exists ty, model_item ty t /\ ~ item_says reads_relation t /\ action_nested_type t = ty /\ (forall x, ~ action_item x t) /\ is_model ty = true) \/
  (action_nested_type t = UndefinedSection /\ forall ty, ~ action_item ty t /\ ~ model_item ty t).
Proof.
  intros t. destruct (items_value t) as (rel & par & hea & att & req & res & mdl & h & Hrel & Hpar & Hhea & Hatt & Hreq & Hres & Hmdl & Hh & E1 & E2 & E3 & E4 & E5 & I).
  unfold action_nested_type, action_item, common_item, request_item, response_item, model_item. rewrite E1, E2, E3, E4, E5. setoid_rewrite <- Hrel. setoid_rewrite <- Hpar. setoid_rewrite <- Hhea. setoid_rewrite <- Hatt. setoid_rewrite <- Hreq. setoid_rewrite <- Hres. setoid_rewrite <- Hmdl. setoid_rewrite <- Hh. clear E1 E2 E3 E4 E5 Hrel Hpar Hhea Hatt Hreq Hres Hmdl Hh.
  destruct I as [E|[E|[E|[E|[E|[E|[E|[E|[E|[E|[E|[]]]]]]]]]]]]; injection E as <- <- <- <- <- <- <-; destruct h; cbn;
    first [left; eexists; split; [|split; [reflexivity|split; discriminate]]; intuition congruence
          |right; left; eexists; split; [|split; [|split; [reflexivity|split; [|reflexivity]]]]; intuition congruence
          |right; right; split; [reflexivity|]; intuition congruence].
Qed.
Lemma resource_kind : forall t,
  (exists ty, resource_item ty t /\ resource_nested_type t = ty /\ ty <> UndefinedSection /\ ty <> ActionSection /\ ~ a_header t) \/
  (own_action t /\ resource_nested_type t = ActionSection /\ forall ty, ~ resource_item ty t) \/
  (resource_nested_type t = UndefinedSection /\ ~ own_action t /\ forall ty, ~ resource_item ty t).
Proof.
  intros t. destruct (items_value t) as (rel & par & hea & att & req & res & mdl & h & Hrel & Hpar & Hhea & Hatt & Hreq & Hres & Hmdl & Hh & E1 & E2 & E3 & E4 & E5 & I).
  assert (Hd : par = true \/ hea = true \/ att = true \/ mdl = true -> ~ a_header t).
  { rewrite Hpar, Hhea, Hatt, Hmdl. intros H. destruct t as [[] x z m cs]; cbn in *; tauto. }
  unfold resource_nested_type, resource_item, common_item, request_item, response_item, model_item, own_action. rewrite E2, E3, E4, E5. setoid_rewrite <- Hpar. setoid_rewrite <- Hhea. setoid_rewrite <- Hatt. setoid_rewrite <- Hreq. setoid_rewrite <- Hres. setoid_rewrite <- Hmdl. setoid_rewrite <- Hh.
  destruct (C75_headers t) as (_ & HA & _). unfold action_h. rewrite <- HA, <- complete_iff. unfold complete. clear E1 E2 E3 E4 E5 Hrel Hpar Hhea Hatt Hreq Hres Hmdl Hh HA.
  destruct (action_range t) as [A|A]; rewrite A; destruct (action_type_of t);
  destruct I as [E|[E|[E|[E|[E|[E|[E|[E|[E|[E|[E|[]]]]]]]]]]]]; injection E as <- <- <- <- <- <- <-; destruct h; cbn;
    first [left; eexists; split; [|split; [reflexivity|split; [discriminate|split; [discriminate|intuition congruence]]]]; intuition congruence
          |right; left; split; [|split; [reflexivity|]]; intuition congruence
          |right; right; split; [reflexivity|split]; intuition congruence].
Qed.
Lemma group_kind : forall t, (resource_h t /\ resource_group_nested_type t = ResourceSection) \/ (~ resource_h t /\ resource_group_nested_type t = UndefinedSection).
Proof.
  intros t. destruct (C75_headers t) as (H & _). unfold resource_h, resource_group_nested_type. rewrite <- H. destruct (resource_range t) as [E|E]; rewrite E; [left|right]; split; congruence.
Qed.
Lemma blueprint_kind : forall t, one_line t ->
  (resource_h t /\ blueprint_nested_type t = ResourceSection) \/ (group_h t /\ ~ resource_h t /\ blueprint_nested_type t = ResourceGroupSection) \/
  (structures_h t /\ ~ resource_h t /\ ~ group_h t /\ blueprint_nested_type t = DataStructureGroupSection) \/ (~ begins_section t /\ blueprint_nested_type t = UndefinedSection).
Proof.
  intros t O. destruct (C75_headers t) as (H & _ & G & S). unfold begins_section, resource_h, group_h, structures_h, blueprint_nested_type. rewrite <- H, <- G, <- S.
  destruct (resource_range t) as [E|E], (group_range t) as [E'|E'], (structures_range t) as [E''|E'']; rewrite E, E', E''; cbn; intuition congruence.
Qed.
Lemma include_iff : forall t, mixin_type t = MSONMixinSection <-> include_item t.
Proof. intros t. exact (proj1 (proj2 (proj2 (proj2 (proj2 (proj2 (C75_items t))))))). Qed.
Lemma one_iff : forall t, one_of_type t = MSONOneOfSection <-> item_says reads_one_of t.
Proof. intros t. exact (proj1 (proj2 (proj2 (proj2 (proj2 (C75_items t)))))). Qed.
Lemma member_kind : forall t,
  (include_item t /\ ~ one_of_item t /\ type_section_nested_type t = MSONMixinSection) \/ (one_of_item t /\ ~ include_item t /\ type_section_nested_type t = MSONOneOfSection) \/
  (~ include_item t /\ ~ one_of_item t /\ type_section_nested_type t = MSONSection).
Proof.
  intros t. unfold one_of_item, type_section_nested_type. rewrite <- include_iff, <- one_iff. unfold mixin_type, one_of_type.
  destruct (if_range (regex_match (item_whole t) MSONMixinRegex) MSONMixinSection) as [E|E], (if_range (regex_match (item_line t) MSONOneOfRegex) MSONOneOfSection) as [E'|E'];
    rewrite E, E'; cbn; intuition congruence.
Qed.
Lemma item_not_h : forall t, include_item t \/ one_of_item t -> an_item t /\ ~ a_header t.
Proof. intros t. unfold include_item, one_of_item. destruct t as [[] x z m cs]; cbn; tauto. Qed.
