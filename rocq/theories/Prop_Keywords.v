(** C75: which section a Markdown node begins *)
From Coq Require Import Permutation.
From Verif Require Import Base StringUtility StringSpec StringProofs Regex RegexSpec RegexProofs ByteBuffer Markdown MarkdownSpec Keywords KeywordsSpec KeywordsProofs KeywordsOrder.
Local Open Scope string_scope.

(** ** the matcher: a text matches a pattern iff the expression the pattern denotes describes a part of it, at the places the
    pattern is anchored to *)
Theorem C75_regex : forall target pattern b r e, pattern <> "" -> compile pattern = Some (b, r, e) -> target <> "" ->
  (regex_match target pattern = true <-> found b r e (c_text target)).
Proof. exact regex_match_spec. Qed.
Print Assumptions C75_regex.

(** ** list items *)
Lemma apart_match : forall n p q, apart n (whole p) (whole q) = true -> forall s, regex_match s p = true -> regex_match s q = true -> False.
Proof. intros n p q A s H K. apply match_lang in H. apply match_lang in K. exact (apart_sound _ _ _ A _ H K). Qed.
Lemma if_iff : forall b x P, x <> UndefinedSection -> (b = true <-> P) -> (if_ b x = x <-> P).
Proof. intros [] x P N H; cbn; [tauto|]. split; [intros E; now elim N|]. intros p. now apply H in p. Qed.
Ltac item_check L := apply if_iff; [discriminate|apply check_item; [discriminate|exact L]].
Ltac whole_check L := apply if_iff; [discriminate|apply check_item_whole; [discriminate|exact L]].
Theorem C75_items : forall t,
  (headers_type t = HeadersSection <-> item_says reads_headers t) /\ (attributes_type t = AttributesSection <-> item_says reads_attributes t) /\
  (parameters_type t = ParametersSection <-> item_says reads_parameters t) /\ (relation_type t = RelationSection <-> item_says reads_relation t) /\
  (one_of_type t = MSONOneOfSection <-> item_says reads_one_of t) /\
  (mixin_type t = MSONMixinSection <-> item_says_whole reads_include t) /\ (values_type t = ValuesSection <-> item_says_whole reads_values t) /\
  (asset_type t = BodySection <-> item_says reads_body t) /\ (asset_type t = SchemaSection <-> item_says reads_schema t).
Proof.
  intros t. split; [item_check headers_text|]. split; [item_check attributes_text|]. split; [item_check parameters_text|]. split; [item_check relation_text|].
  split; [item_check one_of_text|]. split; [whole_check include_text|]. split; [whole_check values_text|].
  unfold asset_type. rewrite <- (check_item BodyRegex _ ltac:(discriminate) body_text), <- (check_item SchemaRegex _ ltac:(discriminate) schema_text).
  assert (D : forall s, regex_match s BodyRegex = true -> regex_match s SchemaRegex = true -> False)
    by (apply (apart_match 200); vm_compute; reflexivity).
  pose proof (D (item_line t)) as D'. destruct (regex_match (item_line t) BodyRegex), (regex_match (item_line t) SchemaRegex); cbn;
    (split; split; intros ?; try reflexivity; try discriminate); now elim D'.
Qed.
Print Assumptions C75_items.

(** ** requests, responses and models: in full if a section stands within, abbreviated otherwise *)
Definition holds_section (t : tree) : Prop :=
  match t with Tree _ _ _ _ cs => exists c, In c cs /\
    (item_says reads_headers c \/ item_says reads_body c \/ item_says reads_schema c \/ item_says reads_attributes c \/ item_says reads_parameters c) end.
Lemma payload_nested_none : forall c, payload_nested_type c = UndefinedSection <->
  ~ (item_says reads_headers c \/ item_says reads_body c \/ item_says reads_schema c \/ item_says reads_attributes c \/ item_says reads_parameters c).
Proof.
  intros c. rewrite <- (check_item HeadersRegex _ ltac:(discriminate) headers_text), <- (check_item BodyRegex _ ltac:(discriminate) body_text), <- (check_item SchemaRegex _ ltac:(discriminate) schema_text),
    <- (check_item AttributesRegex _ ltac:(discriminate) attributes_text), <- (check_item ParametersRegex _ ltac:(discriminate) parameters_text).
  unfold payload_nested_type, headers_type, asset_type, attributes_type, parameters_type.
  destruct (regex_match (item_line c) HeadersRegex), (regex_match (item_line c) BodyRegex), (regex_match (item_line c) SchemaRegex),
    (regex_match (item_line c) AttributesRegex), (regex_match (item_line c) ParametersRegex); cbn; intuition discriminate.
Qed.
Lemma holds_section_iff : forall t, fold_right (fun c r => or_else (payload_nested_type c) r) UndefinedSection (t_children t) = UndefinedSection <-> ~ holds_section t.
Proof.
  intros [ty x z m cs]. cbn [t_children holds_section]. induction cs as [|c cs IH]; cbn [fold_right].
  - split; [intros _ (c & [] & _)|reflexivity].
  - split.
    + intros H (d & [<-|I] & S); [|apply IH; [|now exists d]; destruct (payload_nested_type c); try discriminate; exact H].
      revert S. apply payload_nested_none. destruct (payload_nested_type c); try discriminate; reflexivity.
    + intros H. assert (E : payload_nested_type c = UndefinedSection) by (apply payload_nested_none; intros S; apply H; exists c; split; [now left|exact S]).
      rewrite E. cbn. apply IH. intros (d & I & S). apply H. exists d. split; [now right|exact S].
Qed.
Definition payload_section (x y : section_type) (says : tree -> Prop) : Prop :=
  forall t, (payload_type t = x <-> says t /\ holds_section t) /\ (payload_type t = y <-> says t /\ ~ holds_section t).
Theorem C75_payloads :
  payload_section RequestSection RequestBodySection (item_says reads_request) /\
  payload_section ResponseSection ResponseBodySection (item_says reads_response) /\
  payload_section ModelSection ModelBodySection (fun t => item_says reads_model t /\ ~ item_says reads_request t /\ ~ item_says reads_response t).
Proof.
  assert (D : forall s, regex_match s RequestRegex = true -> regex_match s ResponseRegex = true -> False)
    by (apply (apart_match 200); vm_compute; reflexivity).
  assert (X : forall t,
    ((payload_type t = RequestSection <-> item_says reads_request t /\ holds_section t) /\ (payload_type t = RequestBodySection <-> item_says reads_request t /\ ~ holds_section t)) /\
    ((payload_type t = ResponseSection <-> item_says reads_response t /\ holds_section t) /\ (payload_type t = ResponseBodySection <-> item_says reads_response t /\ ~ holds_section t)) /\
    ((payload_type t = ModelSection <-> (item_says reads_model t /\ ~ item_says reads_request t /\ ~ item_says reads_response t) /\ holds_section t) /\
     (payload_type t = ModelBodySection <-> (item_says reads_model t /\ ~ item_says reads_request t /\ ~ item_says reads_response t) /\ ~ holds_section t))).
  { intros t. specialize (D (item_line t)). pose proof (holds_section_iff t) as H.
    rewrite <- !(check_item RequestRegex _ ltac:(discriminate) request_text), <- !(check_item ResponseRegex _ ltac:(discriminate) response_text),
      <- !(check_item ModelRegex _ ltac:(discriminate) model_text).
    unfold payload_type. cbv zeta. set (f := fold_right _ _ _) in *.
    assert (Hh : holds_section t \/ ~ holds_section t).
    { destruct (st_dec f UndefinedSection) as [E|E]; [right; now apply H|]. left. destruct t as [ty x z m cs]. cbn [t_children] in f. subst f. clear H D. cbn [holds_section].
      induction cs as [|c cs IH]; [now elim E|]. cbn [fold_right] in E. destruct (st_dec (payload_nested_type c) UndefinedSection) as [U|U].
      - rewrite U in E. destruct (IH E) as (d & I & S). exists d. split; [now right|exact S].
      - exists c. split; [now left|]. revert U. rewrite payload_nested_none.
        rewrite <- (check_item HeadersRegex _ ltac:(discriminate) headers_text), <- (check_item BodyRegex _ ltac:(discriminate) body_text), <- (check_item SchemaRegex _ ltac:(discriminate) schema_text),
          <- (check_item AttributesRegex _ ltac:(discriminate) attributes_text), <- (check_item ParametersRegex _ ltac:(discriminate) parameters_text).
        destruct (regex_match (item_line c) HeadersRegex), (regex_match (item_line c) BodyRegex), (regex_match (item_line c) SchemaRegex),
          (regex_match (item_line c) AttributesRegex), (regex_match (item_line c) ParametersRegex); intuition discriminate. }
    set (req := regex_match (item_line t) RequestRegex) in *. set (res := regex_match (item_line t) ResponseRegex) in *. set (mdl := regex_match (item_line t) ModelRegex) in *.
    clearbody f req res mdl.
    destruct Hh as [Hh|Hh].
    - assert (N : f <> UndefinedSection) by tauto. destruct req, res, mdl; try (now elim D); destruct f; try (now elim N);
        repeat split; try discriminate; try reflexivity; intros; try tauto; intuition discriminate.
    - assert (E : f = UndefinedSection) by tauto. subst f. destruct req, res, mdl; try (now elim D);
        repeat split; try discriminate; try reflexivity; intros; try tauto; intuition discriminate. }
  split; [|split]; intros t; apply X.
Qed.
Print Assumptions C75_payloads.

(** ** members and samples of types, in list items and in headers *)
Definition says (P : string -> Prop) (t : tree) : Prop := item_says P t \/ header_says P t.
Lemma check_says : forall p P, p <> "" -> (forall s, lang (whole p) s <-> P s) -> forall t,
  regex_match (if is_header t then header_line t else item_line t) p = true <-> says P t.
Proof.
  intros p P N H t. unfold says. rewrite <- (check_item p P N H), <- (check_header p P N H). destruct t as [[] x z m cs]; cbn; rewrite ?empty_no_match; intuition discriminate.
Qed.
Theorem C75_type_sections : forall t,
  (type_section_type t = MSONSampleDefaultSection <-> says reads_default t \/ says reads_sample t) /\
  (type_section_type t = MSONValueMembersSection <-> says reads_members t) /\
  (type_section_type t = MSONPropertyMembersSection <-> says reads_properties t).
Proof.
  intros t. rewrite <- (check_says MSONDefaultTypeSectionRegex _ ltac:(discriminate) default_text), <- (check_says MSONSampleTypeSectionRegex _ ltac:(discriminate) sample_text),
    <- (check_says MSONValueMembersTypeSectionRegex _ ltac:(discriminate) members_text), <- (check_says MSONPropertyMembersTypeSectionRegex _ ltac:(discriminate) properties_text).
  unfold type_section_type. cbv zeta. set (s := if is_header t then _ else _). clearbody s.
  assert (D1 : regex_match s MSONDefaultTypeSectionRegex = true -> regex_match s MSONValueMembersTypeSectionRegex = true -> False) by (generalize s; apply (apart_match 200); vm_compute; reflexivity).
  assert (D2 : regex_match s MSONSampleTypeSectionRegex = true -> regex_match s MSONValueMembersTypeSectionRegex = true -> False) by (generalize s; apply (apart_match 200); vm_compute; reflexivity).
  assert (D3 : regex_match s MSONDefaultTypeSectionRegex = true -> regex_match s MSONPropertyMembersTypeSectionRegex = true -> False) by (generalize s; apply (apart_match 200); vm_compute; reflexivity).
  assert (D4 : regex_match s MSONSampleTypeSectionRegex = true -> regex_match s MSONPropertyMembersTypeSectionRegex = true -> False) by (generalize s; apply (apart_match 200); vm_compute; reflexivity).
  assert (D5 : regex_match s MSONValueMembersTypeSectionRegex = true -> regex_match s MSONPropertyMembersTypeSectionRegex = true -> False) by (generalize s; apply (apart_match 200); vm_compute; reflexivity).
  destruct (regex_match s MSONDefaultTypeSectionRegex), (regex_match s MSONSampleTypeSectionRegex), (regex_match s MSONValueMembersTypeSectionRegex),
    (regex_match s MSONPropertyMembersTypeSectionRegex); cbn; try (now elim D1); try (now elim D2); try (now elim D3); try (now elim D4); try (now elim D5); intuition discriminate.
Qed.
Print Assumptions C75_type_sections.

(** ** headers *)
Lemma header_or : forall P Q t, header_says_whole (fun s => P s \/ Q s) t <-> header_says_whole P t \/ header_says_whole Q t.
Proof.
  intros P Q [[] x z m cs]; cbn; try tauto. split.
  - intros (a & s & b & u & T & N & U & [H|H]); [left|right]; now exists a, s, b, u.
  - intros [(a & s & b & u & T & N & U & H)|(a & s & b & u & T & N & U & H)]; exists a, s, b, u; tauto.
Qed.
Lemma header_iff : forall (P Q : string -> Prop) t, (forall s, P s <-> Q s) -> header_says_whole P t <-> header_says_whole Q t.
Proof. intros P Q [[] x z m cs] H; cbn; try tauto. split; intros (a & s & b & u & T & N & U & K); exists a, s, b, u; (split; [exact T|split; [exact N|split; [exact U|apply H; exact K]]]). Qed.
Theorem C75_headers : forall t,
  (resource_type t = ResourceSection <-> header_says_whole reads_resource t) /\ (action_section_type t = ActionSection <-> header_says_whole reads_action t) /\
  (resource_group_type t = ResourceGroupSection <-> header_says_whole reads_group t) /\ (data_structures_type t = DataStructureGroupSection <-> header_says reads_data_structures t).
Proof.
  intros t. split; [|split; [|split]].
  - apply if_iff; [discriminate|]. rewrite !orb_true_iff. rewrite (check_header_whole NamedResourceHeaderRegex _ ltac:(discriminate) named_resource_text),
      (check_header_whole NamedEndpointHeaderRegex _ ltac:(discriminate) named_endpoint_text), (check_header_whole ResourceHeaderRegex _ ltac:(discriminate) resource_text).
    rewrite <- !header_or. apply header_iff. unfold reads_resource. tauto.
  - apply if_iff; [discriminate|]. rewrite !orb_true_iff. rewrite (check_header_whole ActionHeaderRegex _ ltac:(discriminate) action_text),
      (check_header_whole NamedActionHeaderRegex _ ltac:(discriminate) named_action_text).
    rewrite <- !header_or. apply header_iff. unfold reads_action. tauto.
  - apply if_iff; [discriminate|]. apply check_header_whole; [discriminate|exact group_text].
  - apply if_iff; [discriminate|]. apply check_header; [discriminate|exact data_structures_text].
Qed.
Print Assumptions C75_headers.

(** ** no keyword: such a header under "Data Structures" names a type *)
Lemma item_or : forall P Q t, item_says (fun s => P s \/ Q s) t <-> item_says P t \/ item_says Q t.
Proof.
  intros P Q [[] x z m [|[ty y z' m' cs'] cs]]; cbn; try tauto. split.
  - intros (l & a & s & b & u & B & T & N & U & [H|H]); [left|right]; now exists l, a, s, b, u.
  - intros [(l & a & s & b & u & B & T & N & U & H)|(l & a & s & b & u & B & T & N & U & H)]; exists l, a, s, b, u; tauto.
Qed.
Lemma item_whole_or : forall P Q t, item_says_whole (fun s => P s \/ Q s) t <-> item_says_whole P t \/ item_says_whole Q t.
Proof.
  intros P Q [[] x z m [|[ty y z' m' cs'] cs]]; cbn; try tauto. split.
  - intros (a & s & b & u & T & N & U & [H|H]); [left|right]; now exists a, s, b, u.
  - intros [(a & s & b & u & T & N & U & H)|(a & s & b & u & T & N & U & H)]; exists a, s, b, u; tauto.
Qed.
Lemma header_line_or : forall P Q t, header_says (fun s => P s \/ Q s) t <-> header_says P t \/ header_says Q t.
Proof.
  intros P Q [[] x z m cs]; cbn; try tauto. split.
  - intros (l & a & s & b & u & B & T & N & U & [H|H]); [left|right]; now exists l, a, s, b, u.
  - intros [(l & a & s & b & u & B & T & N & U & H)|(l & a & s & b & u & B & T & N & U & H)]; exists l, a, s, b, u; tauto.
Qed.
Lemma if_none : forall b x (P : Prop), x <> UndefinedSection -> (b = true <-> P) -> (if_ b x = UndefinedSection <-> ~ P).
Proof. intros [] x P N H; cbn; intuition congruence. Qed.
Lemma if_other : forall b x (P : Prop), x <> UndefinedSection -> (if_ b x = x <-> P) -> (if_ b x = UndefinedSection <-> ~ P).
Proof. intros [] x P N H; cbn in *; intuition congruence. Qed.
Lemma or_none : forall x y, or_else x y = UndefinedSection <-> x = UndefinedSection /\ y = UndefinedSection.
Proof. intros [] y; cbn; intuition discriminate. Qed.
Lemma type_section_none : forall t, type_section_type t = UndefinedSection <-> ~ (says reads_default t \/ says reads_sample t \/ says reads_members t \/ says reads_properties t).
Proof.
  intros t. rewrite <- (check_says MSONDefaultTypeSectionRegex _ ltac:(discriminate) default_text), <- (check_says MSONSampleTypeSectionRegex _ ltac:(discriminate) sample_text),
    <- (check_says MSONValueMembersTypeSectionRegex _ ltac:(discriminate) members_text), <- (check_says MSONPropertyMembersTypeSectionRegex _ ltac:(discriminate) properties_text).
  unfold type_section_type. cbv zeta. set (s := if is_header t then _ else _).
  destruct (regex_match s MSONDefaultTypeSectionRegex), (regex_match s MSONSampleTypeSectionRegex), (regex_match s MSONValueMembersTypeSectionRegex),
    (regex_match s MSONPropertyMembersTypeSectionRegex); cbn; intuition discriminate.
Qed.
Lemma asset_none : forall t, asset_type t = UndefinedSection <-> ~ (item_says reads_body t \/ item_says reads_schema t).
Proof.
  intros t. rewrite <- (check_item BodyRegex _ ltac:(discriminate) body_text), <- (check_item SchemaRegex _ ltac:(discriminate) schema_text). unfold asset_type.
  destruct (regex_match (item_line t) BodyRegex), (regex_match (item_line t) SchemaRegex); cbn; intuition discriminate.
Qed.
Lemma payload_none : forall t, payload_type t = UndefinedSection <-> ~ (item_says reads_request t \/ item_says reads_response t \/ item_says reads_model t).
Proof.
  intros t. rewrite <- (check_item RequestRegex _ ltac:(discriminate) request_text), <- (check_item ResponseRegex _ ltac:(discriminate) response_text),
    <- (check_item ModelRegex _ ltac:(discriminate) model_text). unfold payload_type. cbv zeta. set (f := fold_right _ _ _).
  destruct (regex_match (item_line t) RequestRegex), (regex_match (item_line t) ResponseRegex), (regex_match (item_line t) ModelRegex); destruct f; intuition discriminate.
Qed.
Ltac item_none L := apply if_none; [discriminate|]; first [apply check_item|apply check_item_whole|apply check_header_whole|apply check_header]; [discriminate|exact L].
Theorem C75_no_keyword : forall t, section_keyword t = UndefinedSection <-> ~ keyword_item t /\ ~ keyword_header t.
Proof.
  intros t. unfold section_keyword, keyword_checks, first_check. cbn [fold_right]. rewrite !or_none.
  assert (H1 : mixin_type t = UndefinedSection <-> ~ item_says_whole reads_include t) by (item_none include_text).
  assert (H2 : one_of_type t = UndefinedSection <-> ~ item_says reads_one_of t) by (item_none one_of_text).
  assert (H3 : headers_type t = UndefinedSection <-> ~ item_says reads_headers t) by (item_none headers_text).
  assert (H4 : attributes_type t = UndefinedSection <-> ~ item_says reads_attributes t) by (item_none attributes_text).
  assert (H5 : values_type t = UndefinedSection <-> ~ item_says_whole reads_values t) by (item_none values_text).
  assert (H6 : parameters_type t = UndefinedSection <-> ~ item_says reads_parameters t) by (item_none parameters_text).
  assert (H7 : relation_type t = UndefinedSection <-> ~ item_says reads_relation t) by (item_none relation_text).
  assert (H8 : resource_group_type t = UndefinedSection <-> ~ header_says_whole reads_group t) by (item_none group_text).
  assert (H9 : data_structures_type t = UndefinedSection <-> ~ header_says reads_data_structures t) by (item_none data_structures_text).
  assert (H10 : resource_type t = UndefinedSection <-> ~ header_says_whole reads_resource t)
    by (apply if_other; [discriminate|exact (proj1 (C75_headers t))]).
  assert (H11 : action_section_type t = UndefinedSection <-> ~ header_says_whole reads_action t)
    by (apply if_other; [discriminate|exact (proj1 (proj2 (C75_headers t)))]).
  rewrite type_section_none, asset_none, payload_none, H1, H2, H3, H4, H5, H6, H7, H8, H9, H10, H11.
  unfold keyword_item, keyword_header. rewrite !item_or, item_whole_or, !header_line_or, !header_or. unfold says. clear. tauto.
Qed.
Print Assumptions C75_no_keyword.
Theorem C75_named_types : forall t, named_type_type t = MSONNamedTypeSection <-> (exists x z m cs, t = Tree HeaderNode x z m cs) /\ ~ keyword_header t.
Proof.
  intros t. unfold named_type_type. pose proof (C75_no_keyword t) as K. split.
  - intros H. destruct (section_keyword t); try discriminate. destruct t as [ty x z m cs]. destruct ty; try discriminate. split; [now exists x, z, m, cs|]. now apply K.
  - intros [(x & z & m & cs & ->) N]. destruct (section_keyword _) eqn:E; [reflexivity|..]; exfalso; enough (X : section_keyword (Tree HeaderNode x z m cs) = UndefinedSection) by congruence;
      rewrite E; apply K; (split; [|exact N]); unfold keyword_item; cbn; tauto.
Qed.
Print Assumptions C75_named_types.

(** ** order: nodes that cannot be read in two ways begin the same section whatever order the keywords are tried in *)
Theorem C75_order : forall l t, Permutation l keyword_checks -> one_line t -> ~ ambiguous t -> first_check l t = section_keyword t.
Proof. exact any_order. Qed.
Print Assumptions C75_order.
(** ... and what a parent section takes it for, if anything, is what it is anywhere else *)
Theorem C75_nested : forall t f, one_line t -> ~ ambiguous t ->
  In f [payload_nested_type; action_nested_type; resource_nested_type; resource_group_nested_type; blueprint_nested_type] -> f t = UndefinedSection \/ f t = section_keyword t.
Proof. exact nested_agrees. Qed.
Print Assumptions C75_nested.
Theorem C75_nested_members : forall t f, one_line t -> ~ ambiguous t -> In f [member_nested_type; type_section_nested_type; one_of_nested_type] ->
  In (f t) [UndefinedSection; MSONSection; MSONPropertyMemberSection] \/ f t = section_keyword t.
Proof. exact members_agree. Qed.
Print Assumptions C75_nested_members.

(** ** the first line of a code block *)
Theorem C75_code_block : forall s,
  (recognize_first_line s = HeadersSection <-> s <> "" /\ reads_headers (c_text s)) /\
  (recognize_first_line s = BodySection <-> s <> "" /\ reads_body (c_text s)) /\ (recognize_first_line s = SchemaSection <-> s <> "" /\ reads_schema (c_text s)).
Proof.
  intros s. rewrite <- (match_reads HeadersRegex _ ltac:(discriminate) headers_text), <- (match_reads BodyRegex _ ltac:(discriminate) body_text), <- (match_reads SchemaRegex _ ltac:(discriminate) schema_text). unfold recognize_first_line.
  assert (D1 : regex_match s HeadersRegex = true -> regex_match s BodyRegex = true -> False) by (generalize s; apply (apart_match 200); vm_compute; reflexivity).
  assert (D2 : regex_match s HeadersRegex = true -> regex_match s SchemaRegex = true -> False) by (generalize s; apply (apart_match 200); vm_compute; reflexivity).
  assert (D3 : regex_match s BodyRegex = true -> regex_match s SchemaRegex = true -> False) by (generalize s; apply (apart_match 200); vm_compute; reflexivity).
  destruct (regex_match s HeadersRegex), (regex_match s BodyRegex), (regex_match s SchemaRegex); cbn; try (now elim D1); try (now elim D2); try (now elim D3); intuition discriminate.
Qed.
Print Assumptions C75_code_block.

(** ** what is read in two ways, and differently *)
Definition paragraph (s : string) : tree := Tree ParagraphNode s 0 [] [].
Definition list_item (s : string) (l : list tree) : tree := Tree ItemNode "" 0 [] (paragraph s :: l).
Definition heading (s : string) : tree := Tree HeaderNode s 1 [] [].
Theorem C75_order_refuted : exists t, one_line t /\ ambiguous t /\ section_keyword t = ModelBodySection /\ action_nested_type t = RelationSection.
Proof.
  exists (list_item "Relation: a model" []). split; [exact I|]. split.
  - left. split; [apply (check_item ModelRegex); [discriminate|exact model_text|vm_compute; reflexivity]|]. left. apply item_or. right. apply item_or. right.
    apply (check_item RelationRegex); [discriminate|exact relation_text|vm_compute; reflexivity].
  - vm_compute. auto.
Qed.
Print Assumptions C75_order_refuted.
Theorem C75_two_readings_refuted : exists t, one_line t /\ resource_type t = ResourceSection /\ action_section_type t = ActionSection.
Proof. exists (heading "GET /x"). split; [now intros [H|[H|[H|[H|[H|[H|[]]]]]]]|]. vm_compute. auto. Qed.
(** any item that only begins with the word is a request *)
Theorem C75_prefix_refuted : exists s, item_says (word_then ["Requested"] anything_else) (list_item s []) /\ payload_type (list_item s []) = RequestBodySection.
Proof.
  exists "Requested by the client". split; [|vm_compute; reflexivity]. apply (proj1 (says_line "Requested by the client" _)). split; [vm_compute; discriminate|].
  exists "", "Requested", " by the client". split; [vm_compute; reflexivity|]. split; [apply Forall_nil || exact I || (intros ? [])|]. split; [now left|exact I].
Qed.
Print Assumptions C75_prefix_refuted.

(** the hypotheses are met *)
Example C75_full : section_keyword (list_item "Response 200 (text/plain)" [list_item "Body" []]) = ResponseSection.
Proof. vm_compute. reflexivity. Qed.
Example C75_short : section_keyword (list_item "Response 200 (text/plain)" [list_item "Bodies" []]) = ResponseBodySection.
Proof. vm_compute. reflexivity. Qed.
Example C75_unambiguous : exists t, one_line t /\ ~ ambiguous t /\ section_keyword t = ResourceGroupSection.
Proof.
  exists (heading "Group A"). split; [cbn; intuition discriminate|]. split; [|vm_compute; reflexivity].
  intros [[[] _]|[H|H]].
  - assert (E : header_says_whole (fun s => reads_default s \/ reads_sample s) (heading "Group A")).
    { revert H. cbn. intros (a & s & b & u & T & N & U & [R _]). now exists a, s, b, u. }
    apply header_or in E as [E|E].
    + apply (check_header_whole MSONDefaultTypeSectionRegex _ ltac:(discriminate) default_text) in E. vm_compute in E. discriminate.
    + apply (check_header_whole MSONSampleTypeSectionRegex _ ltac:(discriminate) sample_text) in E. vm_compute in E. discriminate.
  - assert (E : header_says_whole reads_resource (heading "Group A")).
    { revert H. cbn. intros (a & s & b & u & T & N & U & [R _]). now exists a, s, b, u. }
    apply C75_headers in E. vm_compute in E. discriminate.
Qed.
Print Assumptions C75_two_readings_refuted.
