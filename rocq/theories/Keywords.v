(** Model of packages/apib-parser/src/snowcrash: which section a Markdown node begins. The nodes are trees (MarkdownSpec): a node's
    children come with it. *)
From Verif Require Import Base StringUtility Regex ByteBuffer Markdown MarkdownSpec.
Local Open Scope string_scope.

(** Section.h:20-57 SectionType *)
Inductive section_type : Type :=
| UndefinedSection | BlueprintSection | DataStructureGroupSection | ResourceGroupSection | ResourceSection | ActionSection | RelationSection
| RequestSection | RequestBodySection | ResponseSection | ResponseBodySection | AttributesSection | ModelSection | ModelBodySection | BodySection
| DanglingBodySection | SchemaSection | DanglingSchemaSection | HeadersSection | ForeignSection | ParametersSection | ParameterSection
| MSONParameterSection | ValuesSection | ValueSection | MSONMixinSection | MSONNamedTypeSection | MSONOneOfSection | MSONPropertyMemberSection
| MSONSampleDefaultSection | MSONPropertyMembersSection | MSONValueMembersSection | MSONValueMemberSection | MSONSection.

(** ** the patterns *)
(** ModelTable.h:25 SYMBOL_IDENTIFIER *)
Definition SYMBOL := "([^][()]+)".
(** PayloadParser.h:20 MEDIA_TYPE: the source's "\\(" is the pattern's "\(" *)
Definition MEDIA := "([[:blank:]]*\(([^\)]*)\))".
(** HTTP.h:22-30 HTTP_REQUEST_METHOD, URI_TEMPLATE *)
Definition METHOD := "(GET|POST|PUT|DELETE|OPTIONS|PATCH|PROPPATCH|LOCK|UNLOCK|COPY|MOVE|MKCOL|HEAD|LINK|UNLINK|CONNECT)".
Definition URI := "(/.*)".
(** ActionParser.h:19 ACTION_SYMBOL_IDENTIFIER *)
Definition ACTION_SYMBOL := "(.+)".
(** HeadersParser.h:25 *)
Definition HeadersRegex := "^[[:blank:]]*[Hh]eaders?[[:blank:]]*$".
(** AssetParser.h:30, 33 *)
Definition BodyRegex := "^[[:blank:]]*[Bb]ody[[:blank:]]*$".
Definition SchemaRegex := "^[[:blank:]]*[Ss]chema[[:blank:]]*$".
(** AttributesParser.h:21 *)
Definition AttributesRegex := "^[[:blank:]]*[Aa]ttributes?[[:blank:]]*(\(.*\))?$".
(** DataStructureGroupParser.h:20 *)
Definition DataStructureGroupRegex := "^[[:blank:]]*[Dd]ata[[:blank:]]+[Ss]tructures?[[:blank:]]*$".
(** MSONMixinParser.h:21 *)
Definition MSONMixinRegex := "^[[:blank:]]*([Ii]nclude[[:blank:]]+)".
(** MSONOneOfParser.h:20 *)
Definition MSONOneOfRegex := "^[[:blank:]]*[Oo]ne[[:blank:]]+[Oo]f[[:blank:]]*$".
(** MSONTypeSectionParser.h:21-30 *)
Definition MSONDefaultTypeSectionRegex := "^[[:blank:]]*[Dd]efault[[:blank:]]*(:.*)?$".
Definition MSONSampleTypeSectionRegex := "^[[:blank:]]*[Ss]ample[[:blank:]]*(:.*)?$".
Definition MSONValueMembersTypeSectionRegex := "^[[:blank:]]*([Ii]tems|[Mm]embers)[[:blank:]]*$".
Definition MSONPropertyMembersTypeSectionRegex := "^[[:blank:]]*([Pp]roperties)[[:blank:]]*$".
(** ParametersParser.h:25 *)
Definition ParametersRegex := "^[[:blank:]]*[Pp]arameters?[[:blank:]]*$".
(** PayloadParser.h:40-48 *)
Definition RequestRegex := "^[[:blank:]]*[Rr]equest([[:blank:]]" +++ SYMBOL +++ ")?" +++ MEDIA +++ "?[[:blank:]]*".
Definition ResponseRegex := "^[[:blank:]]*[Rr]esponse([[:blank:][:digit:]]+)?" +++ MEDIA +++ "?[[:blank:]]*".
Definition ModelRegex := "^[[:blank:]]*(" +++ SYMBOL +++ "[[:blank:]]+)?[Mm]odel" +++ MEDIA +++ "?[[:blank:]]*$".
(** RelationParser.h:16-22 *)
Definition RelationRegex := "^[[:blank:]]*[Rr]elation[[:blank:]]*:".
(** ResourceGroupParser.h:19 *)
Definition GroupHeaderRegex := "^[[:blank:]]*[Gg]roup[[:blank:]]+" +++ SYMBOL +++ "[[:blank:]]*$".
(** ResourceParser.h:24-31 *)
Definition ResourceHeaderRegex := "^[[:blank:]]*(" +++ METHOD +++ "[[:blank:]]+)?" +++ URI +++ "$".
Definition NamedResourceHeaderRegex := "^[[:blank:]]*" +++ SYMBOL +++ "[[:blank:]]+\[" +++ URI +++ "]$".
Definition NamedEndpointHeaderRegex := "^[[:blank:]]*" +++ SYMBOL +++ "[[:blank:]]+\[" +++ METHOD +++ "[[:blank:]]+" +++ URI +++ "]$".
(** ActionParser.h:25-33 *)
Definition ActionHeaderRegex := "^[[:blank:]]*" +++ METHOD +++ "[[:blank:]]*" +++ URI +++ "?$".
Definition NamedActionHeaderRegex := "^[[:blank:]]*" +++ ACTION_SYMBOL +++ "\[" +++ METHOD +++ "[[:blank:]]*" +++ URI +++ "?]$".
Definition NamedActionNonAbsoluteURIRegex := "^[[:blank:]]*" +++ ACTION_SYMBOL +++ "\[" +++ METHOD +++ "[[:blank:]]+[^/]+]$".
(** ValuesParser.h:23 *)
Definition ValuesRegex := "^[[:blank:]]*[Vv]alues[[:blank:]]*$".

(** ** the parts of a node *)
Definition t_type (t : tree) : node_type := match t with Tree t _ _ _ _ => t end.
Definition t_text (t : tree) : string := match t with Tree _ s _ _ _ => s end.
Definition t_map (t : tree) : list range := match t with Tree _ _ _ m _ => m end.
Definition t_children (t : tree) : list tree := match t with Tree _ _ _ _ l => l end.
Definition is_header (t : tree) : bool := match t_type t with HeaderNode => true | _ => false end.
Definition is_item (t : tree) : bool := match t_type t with ItemNode => true | _ => false end.

(** node->type == ListItemMarkdownNodeType && !node->children().empty(): the text of the first child *)
Definition item_text (t : tree) : option string :=
  if is_item t then match t_children t with c :: _ => Some (t_text c) | [] => None end else None.
(** GetFirstLine and TrimString *)
Definition line_of (s : string) : string := trim (fst (first_line s "")).
(** the subject of most checks of list items; the empty text matches no pattern *)
Definition item_line (t : tree) : string := match item_text t with Some s => line_of s | None => "" end.
(** the whole text, trimmed *)
Definition item_whole (t : tree) : string := match item_text t with Some s => trim s | None => "" end.
(** node->type == HeaderMarkdownNodeType && !node->text.empty(): the text, trimmed *)
Definition header_whole (t : tree) : string := if is_header t then trim (t_text t) else "".
Definition header_line (t : tree) : string := if is_header t then line_of (t_text t) else "".

(** the value of the first that holds *)
Definition if_ (b : bool) (x : section_type) : section_type := if b then x else UndefinedSection.
Definition or_else (x y : section_type) : section_type := match x with UndefinedSection => y | _ => x end.

(** ** SectionProcessor<T>::sectionType *)
(** MSONTypeSectionParser.h:169-199. A header with an empty text has no list item's text either *)
Definition type_section_type (t : tree) : section_type :=
  let subject := if is_header t then header_line t else item_line t in
  if (regex_match subject MSONDefaultTypeSectionRegex || regex_match subject MSONSampleTypeSectionRegex)%bool then MSONSampleDefaultSection
  else if regex_match subject MSONValueMembersTypeSectionRegex then MSONValueMembersSection
  else if_ (regex_match subject MSONPropertyMembersTypeSectionRegex) MSONPropertyMembersSection.
(** MSONMixinParser.h:82-96 *)
Definition mixin_type (t : tree) : section_type := if_ (regex_match (item_whole t) MSONMixinRegex) MSONMixinSection.
(** MSONOneOfParser.h:55-71 *)
Definition one_of_type (t : tree) : section_type := if_ (regex_match (item_line t) MSONOneOfRegex) MSONOneOfSection.
(** HeadersParser.h:156-173 *)
Definition headers_type (t : tree) : section_type := if_ (regex_match (item_line t) HeadersRegex) HeadersSection.
(** AssetParser.h:84-121 sectionType, assetSignature *)
Definition asset_type (t : tree) : section_type :=
  if regex_match (item_line t) BodyRegex then BodySection else if_ (regex_match (item_line t) SchemaRegex) SchemaSection.
(** AttributesParser.h:93-109 *)
Definition attributes_type (t : tree) : section_type := if_ (regex_match (item_line t) AttributesRegex) AttributesSection.
(** ParametersParser.h:116-132 *)
Definition parameters_type (t : tree) : section_type := if_ (regex_match (item_line t) ParametersRegex) ParametersSection.
(** PayloadParser.h:292-327 nestedSectionType *)
Definition payload_nested_type (t : tree) : section_type :=
  or_else (headers_type t) (or_else (asset_type t) (or_else (attributes_type t) (parameters_type t))).
(** PayloadParser.h:264-290, 344-385 sectionType, payloadSignature, getSectionType *)
Definition payload_type (t : tree) : section_type :=
  let nested := fold_right (fun c r => or_else (payload_nested_type c) r) UndefinedSection (t_children t) in
  let pick (full short : section_type) := match nested with UndefinedSection => short | _ => full end in
  if regex_match (item_line t) RequestRegex then pick RequestSection RequestBodySection
  else if regex_match (item_line t) ResponseRegex then pick ResponseSection ResponseBodySection
  else if regex_match (item_line t) ModelRegex then pick ModelSection ModelBodySection
  else UndefinedSection.
(** ValuesParser.h:73-87 *)
Definition values_type (t : tree) : section_type := if_ (regex_match (item_whole t) ValuesRegex) ValuesSection.
(** RelationParser.h:68-84 *)
Definition relation_type (t : tree) : section_type := if_ (regex_match (item_line t) RelationRegex) RelationSection.
(** ResourceParser.h:197-214 *)
Definition resource_type (t : tree) : section_type :=
  let subject := header_whole t in
  if_ (regex_match subject NamedResourceHeaderRegex || regex_match subject NamedEndpointHeaderRegex || regex_match subject ResourceHeaderRegex) ResourceSection.
(** ActionParser.h:255-270 *)
Definition action_section_type (t : tree) : section_type :=
  let subject := header_whole t in
  if_ (regex_match subject ActionHeaderRegex || regex_match subject NamedActionHeaderRegex) ActionSection.
(** ResourceGroupParser.h:193-207 *)
Definition resource_group_type (t : tree) : section_type := if_ (regex_match (header_whole t) GroupHeaderRegex) ResourceGroupSection.
(** DataStructureGroupParser.h:89-105 *)
Definition data_structures_type (t : tree) : section_type := if_ (regex_match (header_line t) DataStructureGroupRegex) DataStructureGroupSection.

(** Signature.cc:28-56 SectionKeywordSignature *)
Definition keyword_checks : list (tree -> section_type) :=
  [type_section_type; mixin_type; one_of_type; headers_type; asset_type; attributes_type; payload_type; values_type; parameters_type; relation_type;
   resource_type; action_section_type; resource_group_type; data_structures_type].
Definition first_check (l : list (tree -> section_type)) (t : tree) : section_type := fold_right (fun f r => or_else (f t) r) UndefinedSection l.
Definition section_keyword (t : tree) : section_type := first_check keyword_checks t.

(** Signature.cc:58-71 RecognizeCodeBlockFirstLine *)
Definition recognize_first_line (subject : string) : section_type :=
  if regex_match subject HeadersRegex then HeadersSection
  else if regex_match subject BodyRegex then BodySection
  else if_ (regex_match subject SchemaRegex) SchemaSection.

(** ActionParser.h:36-42 ActionType; 465-489 actionType *)
Inductive action_type : Type := NotAction | DependentAction | CompleteAction.
Definition action_type_of (t : tree) : action_type :=
  let subject := header_whole t in
  if regex_match subject NamedActionHeaderRegex then DependentAction
  else match regex_capture subject ActionHeaderRegex 3 with
       | Some g => if String.eqb (nth 2 g "") "" then DependentAction else CompleteAction
       | None => NotAction
       end.

(** ** SectionProcessor<T>::nestedSectionType *)
(** ActionParser.h:272-313 *)
Definition action_nested_type (t : tree) : section_type :=
  or_else (relation_type t) (or_else (parameters_type t) (or_else (headers_type t) (or_else (attributes_type t) (payload_type t)))).
(** ResourceParser.h:216-264 *)
Definition resource_nested_type (t : tree) : section_type :=
  or_else (parameters_type t) (or_else (headers_type t)
  (or_else (match payload_type t with ModelSection => ModelSection | ModelBodySection => ModelBodySection | _ => UndefinedSection end)
  (or_else (attributes_type t)
  (match action_section_type t with
   | ActionSection => match action_type_of t with CompleteAction => UndefinedSection | _ => ActionSection end
   | _ => UndefinedSection
   end)))).
(** ResourceGroupParser.h:209-214 *)
Definition resource_group_nested_type : tree -> section_type := resource_type.
(** BlueprintParser.h:251-279 *)
Definition blueprint_nested_type (t : tree) : section_type := or_else (resource_type t) (or_else (resource_group_type t) (data_structures_type t)).
(** MSONNamedTypeParser.h:110-121 sectionType, DataStructureGroupParser.h:107-111 nestedSectionType *)
Definition named_type_type (t : tree) : section_type :=
  match section_keyword t with UndefinedSection => if_ (is_header t) MSONNamedTypeSection | _ => UndefinedSection end.
(** MSONValueMemberParser.cc:16-42, also for attributes, named types and property members *)
Definition member_nested_type (t : tree) : section_type :=
  or_else (type_section_type t) (or_else (mixin_type t) (or_else (one_of_type t) MSONSection)).
(** MSONTypeSectionParser.cc:183-203 *)
Definition type_section_nested_type (t : tree) : section_type := or_else (mixin_type t) (or_else (one_of_type t) MSONSection).
(** MSONOneOfParser.cc:98-129 *)
Definition one_of_nested_type (t : tree) : section_type :=
  or_else (mixin_type t) (or_else (one_of_type t) (or_else (type_section_type t) (if_ (is_item t) MSONPropertyMemberSection))).
(** ValuesParser.h:89-104 *)
Definition values_nested_type (t : tree) : section_type :=
  if_ (negb (String.eqb (item_whole t) "") && Nat.eqb (List.length (t_children t)) 1) ValueSection.

(** ** SectionProcessor<T>::upperSectionTypes *)
(** ActionParser.h:315-318, ResourceParser.h:266-269, ResourceGroupParser.h:216-219, DataStructureGroupParser.h:113-116 *)
Definition action_upper : list section_type := [ActionSection; ResourceSection; ResourceGroupSection; DataStructureGroupSection].
Definition resource_upper : list section_type := [ResourceGroupSection; ResourceSection; DataStructureGroupSection].
Definition resource_group_upper : list section_type := [ResourceGroupSection; DataStructureGroupSection].
Definition data_structures_upper : list section_type := [DataStructureGroupSection; ResourceGroupSection; ResourceSection].
