(** Specification for C76: the outline of a document. The keywords are those of KeywordsSpec; of Sections only the types of the result
    are used. *)
From Verif Require Import Base StringSpec ByteBuffer Markdown MarkdownSpec KeywordsSpec TypeTables Keywords Sections.
Local Open Scope string_scope.

(** ** the nodes of an outline, in order *)
Fixpoint part_nodes (p : part) : list tree :=
  match p with
  | Head t | Meta t | Text t | Listed _ t | Dangling t | Ignored t => [t]
  | Sub s => section_nodes s
  end
with section_nodes (s : section) : list tree := match s with Sec _ ps _ => flat_map part_nodes ps end.
Definition nodes_of (ps : list part) : list tree := flat_map part_nodes ps.

(** ** headers *)
Definition a_header (t : tree) : Prop := match t with Tree HeaderNode _ _ _ _ => True | _ => False end.
Definition an_item (t : tree) : Prop := match t with Tree ItemNode _ _ _ _ => True | _ => False end.
Definition a_text (t : tree) : Prop := match t with Tree ParagraphNode _ _ _ _ | Tree CodeNode _ _ _ _ => True | _ => False end.
Definition resource_h : tree -> Prop := header_says_whole reads_resource.
Definition group_h : tree -> Prop := header_says_whole reads_group.
Definition structures_h : tree -> Prop := header_says reads_data_structures.
Definition action_h : tree -> Prop := header_says_whole reads_action.
Definition values_h : tree -> Prop := header_says (fun s => reads_default s \/ reads_sample s).
Definition members_h : tree -> Prop := header_says reads_members.
Definition properties_h : tree -> Prop := header_says reads_properties.
Definition type_section_h (t : tree) : Prop := values_h t \/ members_h t \/ properties_h t.
(** a method and a path, not in brackets *)
Definition complete_h : tree -> Prop :=
  header_says_whole (fun s => word_then methods (fun t => exists b x, t = b +++ x /\ blanks b /\ path x) s /\ ~ in_brackets s).
(** no keyword at all: under "Data Structures" it names a type *)
Definition type_h (t : tree) : Prop :=
  a_header t /\ ~ resource_h t /\ ~ group_h t /\ ~ structures_h t /\ ~ action_h t /\ ~ type_section_h t.
(** a method and a path, perhaps in brackets behind a name that is no path itself: both, resource and action. The text is taken as it
    stands *)
Definition endpoint_h (t : tree) : Prop :=
  match t with Tree _ x _ _ _ => exists u, x <> "" /\ before "000" x u /\ (reads_method_path u \/ (named (method_then (gap_then path)) u /\ ~ reads_path u)) end.

(** ** the header a section goes up to. A header that says "Sample: ..." or "Default: ..." ends nothing *)
Definition ends_group (t : tree) : Prop := group_h t \/ structures_h t.
Definition ends_resource (t : tree) : Prop := ends_group t \/ (resource_h t /\ ~ values_h t).
Definition ends_action (t : tree) : Prop := ends_resource t \/ (action_h t /\ ~ values_h t).

(** ** list items *)
Definition holds_sections (t : tree) : Prop :=
  match t with Tree _ _ _ _ cs => exists c, In c cs /\
    (item_says reads_headers c \/ item_says reads_body c \/ item_says reads_schema c \/ item_says reads_attributes c \/ item_says reads_parameters c) end.
(** the list items both an action and a resource can hold *)
Definition common_item (ty : section_type) (t : tree) : Prop :=
  (ty = ParametersSection /\ item_says reads_parameters t) \/ (ty = HeadersSection /\ item_says reads_headers t) \/
  (ty = AttributesSection /\ item_says reads_attributes t).
(** requests and responses: in full if they hold sections *)
Definition request_item (ty : section_type) (t : tree) : Prop :=
  item_says reads_request t /\ ((ty = RequestSection /\ holds_sections t) \/ (ty = RequestBodySection /\ ~ holds_sections t)).
Definition response_item (ty : section_type) (t : tree) : Prop :=
  item_says reads_response t /\ ((ty = ResponseSection /\ holds_sections t) \/ (ty = ResponseBodySection /\ ~ holds_sections t)).
Definition model_item (ty : section_type) (t : tree) : Prop :=
  item_says reads_model t /\ ~ item_says reads_request t /\ ~ item_says reads_response t /\
  ((ty = ModelSection /\ holds_sections t) \/ (ty = ModelBodySection /\ ~ holds_sections t)).
Definition action_item (ty : section_type) (t : tree) : Prop :=
  (ty = RelationSection /\ item_says reads_relation t) \/ common_item ty t \/ request_item ty t \/ response_item ty t.
Definition resource_item (ty : section_type) (t : tree) : Prop := common_item ty t \/ model_item ty t.
Definition a_payload (ty : section_type) : Prop := In ty [RequestSection; RequestBodySection; ResponseSection; ResponseBodySection].
Definition a_model (ty : section_type) : Prop := In ty [ModelSection; ModelBodySection].

(** ** a sequence of parts: each follows its rule, which sees the parts before it and the nodes behind it *)
Inductive in_order (rule : list part -> part -> list tree -> Prop) : list part -> list part -> list tree -> Prop :=
| nothing : forall done rest, in_order rule done [] rest
| more : forall done p ps rest, rule done p (nodes_of ps ++ rest)%list -> in_order rule (done ++ [p])%list ps rest -> in_order rule done (p :: ps) rest.
(** the nodes left begin so *)
Definition first_is (P : tree -> Prop) (rest : list tree) : Prop := match rest with t :: _ => P t | [] => False end.
(** a description: every node up to the first that is none *)
Definition described (describes : tree -> Prop) (d rest : list tree) : Prop := Forall describes d /\ ~ first_is describes rest.
(** the section goes up to here *)
Definition stops (P : tree -> Prop) (rest : list tree) : Prop := rest = [] \/ first_is P rest.

(** ** a paragraph or a code block behind a payload (a model) is added to its body. At most one block of another kind may stand between
    the payload and all these *)
Definition right_after (kinds : section_type -> Prop) (done : list part) : Prop :=
  exists a ty t x d, done = (a ++ Listed ty t :: x ++ map Dangling d)%list /\ kinds ty /\ Forall a_text d /\ (x = [] \/ exists u, x = [Ignored u] /\ ~ a_text u).

(** ** actions *)
Definition action_describes (t : tree) : Prop := ~ ends_action t /\ forall ty, ~ action_item ty t /\ ~ model_item ty t.
Definition action_rule (done : list part) (p : part) (rest : list tree) : Prop :=
  match p with
  | Listed ty t => action_item ty t
  | Dangling t => a_text t /\ right_after a_payload done
  | Ignored t => ~ ends_action t /\ (forall ty, ~ action_item ty t /\ ~ model_item ty t) /\ ~ (a_text t /\ right_after a_payload done)
  | _ => False
  end.
(** a model says nothing about an action: it ends it, unless it also reads "Relation: ..." *)
Definition action_stop (t : tree) : Prop := ends_action t \/ ((exists ty, model_item ty t) /\ ~ item_says reads_relation t).
(** the requests and the responses, with the nodes added to them *)
Definition about_payload (p : part) : bool :=
  match p with
  | Dangling _ => true
  | Listed ty _ => match ty with RequestSection | RequestBodySection | ResponseSection | ResponseBodySection => true | _ => false end
  | _ => false
  end.
Definition payload_parts (y : payload) : list part := Listed (y_type y) (y_node y) :: map Dangling (y_added y).
(** transactions: requests, then responses; a request behind a response begins another *)
Definition transactions (ps : list part) (ex : list example) : Prop :=
  filter about_payload ps = flat_map payload_parts (flat_map (fun e => fst e ++ snd e)%list ex) /\
  (forall e, In e ex -> Forall (fun y => In (y_type y) [RequestSection; RequestBodySection]) (fst e) /\ Forall (fun y => In (y_type y) [ResponseSection; ResponseBodySection]) (snd e)) /\
  (forall a e b, ex = (a ++ e :: b)%list -> (b <> [] -> snd e <> []) /\ (a <> [] -> fst e <> []) /\ e <> ([], [])).
Definition action_ok (s : section) (rest : list tree) : Prop :=
  exists h d ps ex, s = Sec ActionSection (Head h :: map Text d ++ ps) ex /\ a_header h /\ described action_describes d (nodes_of ps ++ rest) /\
    in_order action_rule [] ps rest /\ stops action_stop rest /\ transactions ps ex.

(** ** resources *)
(** a header that begins an action of the resource *)
Definition own_action (t : tree) : Prop := action_h t /\ ~ complete_h t.
Definition section_head (s : section) : option tree := match section_nodes s with t :: _ => Some t | [] => None end.
Definition resource_stop (t : tree) : Prop := ends_resource t /\ ~ own_action t.
Definition resource_describes (t : tree) : Prop :=
  ~ complete_h t /\ ~ own_action t /\ ~ ends_resource t /\ forall ty, ~ resource_item ty t.
Definition resource_rule (done : list part) (p : part) (rest : list tree) : Prop :=
  match p with
  | Sub s => (exists h, section_head s = Some h /\ own_action h) /\ action_ok s rest
  | Listed ty t => resource_item ty t
  | Dangling t => a_text t /\ right_after a_model done
  | Ignored t => ~ ends_resource t /\ ~ own_action t /\ (forall ty, ~ resource_item ty t) /\ ~ (a_text t /\ right_after a_model done)
  | _ => False
  end.
Definition resource_ok (s : section) (rest : list tree) : Prop :=
  (exists a h, s = Sec ResourceSection [Sub a] [] /\ section_head a = Some h /\ endpoint_h h /\ action_ok a rest) \/
  (exists h d ps, s = Sec ResourceSection (Head h :: map Text d ++ ps) [] /\ a_header h /\ ~ endpoint_h h /\
    described resource_describes d (nodes_of ps ++ rest) /\ in_order resource_rule [] ps rest /\ stops resource_stop rest).

(** ** groups of resources *)
Definition group_describes (t : tree) : Prop := ~ complete_h t /\ ~ resource_h t /\ ~ ends_group t.
Definition group_rule (done : list part) (p : part) (rest : list tree) : Prop :=
  match p with
  | Sub s => (exists h, section_head s = Some h /\ resource_h h) /\ resource_ok s rest
  | Ignored t => ~ resource_h t /\ ~ ends_group t
  | _ => False
  end.
Definition group_ok (s : section) (rest : list tree) : Prop :=
  exists h d ps, s = Sec ResourceGroupSection (Head h :: map Text d ++ ps) [] /\ group_h h /\
    described group_describes d (nodes_of ps ++ rest) /\ in_order group_rule [] ps rest /\ stops ends_group rest.

(** ** data structures *)
Definition object_base (b : base_type) : Prop := b = ObjectBT \/ b = ImplicitObjectBT.
Definition value_base (b : base_type) : Prop := b = ValueBT \/ b = ImplicitValueBT.
Definition primitive_base (b : base_type) : Prop := b = PrimitiveBT \/ b = ImplicitPrimitiveBT.
Definition include_item : tree -> Prop := item_says_whole reads_include.
Definition one_of_item (t : tree) : Prop := item_says reads_one_of t /\ ~ include_item t.
Definition type_section_item : tree -> Prop := item_says (fun s => reads_default s \/ reads_sample s \/ reads_members s \/ reads_properties s).
Definition type_member (b : base_type) (ty : section_type) (t : tree) : Prop :=
  an_item t /\ ~ include_item t /\ ~ one_of_item t /\ ((ty = MSONValueMemberSection /\ value_base b) \/ (ty = MSONPropertyMemberSection /\ object_base b)).
(** *** "## Sample", "## Default" *)
Definition values_rule (b : base_type) (done : list part) (p : part) (rest : list tree) : Prop :=
  match p with
  | Listed ty t => type_member b ty t
  | Text t => ~ a_header t /\ ~ include_item t /\ ~ one_of_item t /\ primitive_base b
  | _ => False
  end.
Definition values_stop (b : base_type) (t : tree) : Prop := a_header t \/ include_item t \/ one_of_item t \/ (~ an_item t /\ ~ primitive_base b).
(** *** "## Items", "## Members", "## Properties" *)
Definition members_rule (b : base_type) (done : list part) (p : part) (rest : list tree) : Prop :=
  match p with
  | Listed ty t => type_member b ty t \/ (ty = MSONMixinSection /\ include_item t) \/ (ty = MSONOneOfSection /\ one_of_item t /\ object_base b)
  | _ => False
  end.
Definition members_stop (b : base_type) (t : tree) : Prop := a_header t \/ (one_of_item t /\ ~ object_base b).
Definition type_section_ok (b : base_type) (s : section) (rest : list tree) : Prop :=
  (exists h ps, s = Sec MSONSampleDefaultSection (Head h :: ps) [] /\ values_h h /\ in_order (values_rule b) [] ps rest /\ stops (values_stop b) rest) \/
  (exists h ps, s = Sec MSONValueMembersSection (Head h :: ps) [] /\ members_h h /\ value_base b /\ in_order (members_rule b) [] ps rest /\ stops (members_stop b) rest) \/
  (exists h ps, s = Sec MSONPropertyMembersSection (Head h :: ps) [] /\ properties_h h /\ object_base b /\ in_order (members_rule b) [] ps rest /\ stops (members_stop b) rest).
(** *** a named type. Behind a description everything up to the next header is description too; [told] says there is one *)
Definition still_told (told : bool) (done : list part) : Prop := told = true /\ forall p, In p done -> exists t, p = Text t.
Definition named_type_rule (b : base_type) (told : bool) (done : list part) (p : part) (rest : list tree) : Prop :=
  match p with
  | Text t => ~ a_header t /\ ~ type_section_item t /\ still_told told done
  | Listed ty t => ~ type_section_item t /\ ~ still_told told done /\
      (type_member b ty t \/ (ty = MSONMixinSection /\ include_item t) \/ (ty = MSONOneOfSection /\ one_of_item t /\ object_base b))
  | Ignored t => ~ a_header t /\ ~ an_item t /\ ~ still_told told done /\ ~ primitive_base b
  | Sub s => type_section_ok b s rest
  | _ => False
  end.
Definition named_type_stop (b : base_type) (told : bool) (done : list part) (t : tree) : Prop :=
  (a_header t /\ ~ type_section_h t) \/ (members_h t /\ ~ value_base b) \/ (properties_h t /\ ~ object_base b) \/
  (~ a_header t /\ ~ type_section_item t /\ ~ still_told told done /\
   ((one_of_item t /\ ~ object_base b) \/ (~ include_item t /\ ~ one_of_item t /\ primitive_base b))).
Definition implicit (b : base_type) : base_type := match b with UndefinedBT => ImplicitObjectBT | _ => b end.
Definition named_type_ok (base : tree -> base_type) (s : section) (rest : list tree) : Prop :=
  exists h d ps, s = Sec MSONNamedTypeSection (Head h :: map Text d ++ ps) [] /\ type_h h /\
    described (fun t => ~ a_header t /\ ~ an_item t) d (nodes_of ps ++ rest) /\
    in_order (named_type_rule (implicit (base h)) (match d with [] => false | _ => true end)) [] ps rest /\
    stops (named_type_stop (implicit (base h)) (match d with [] => false | _ => true end) ps) rest.
Definition structures_rule (base : tree -> base_type) (done : list part) (p : part) (rest : list tree) : Prop :=
  match p with
  | Sub s => named_type_ok base s rest
  | Ignored t => ~ type_h t /\ ~ ends_resource t
  | _ => False
  end.
Definition structures_ok (base : tree -> base_type) (s : section) (rest : list tree) : Prop :=
  exists h ps, s = Sec DataStructureGroupSection (Head h :: ps) [] /\ structures_h h /\ in_order (structures_rule base) [] ps rest /\ stops ends_resource rest.

(** ** the document *)
(** a line "key: value" with something on both sides *)
Definition solid (s : string) : Prop := exists c, has c s /\ ~ In c [" "; "009"; "010"; "011"; "012"; "013"]%char.
Definition metadata_p (t : tree) : Prop :=
  match t with
  | Tree ParagraphNode x _ _ _ =>
    exists a k v b, x = a +++ k +++ ":" +++ v +++ b /\ (a = "" \/ exists a', a = a' +++ String "010" "") /\
      ~ has "010" k /\ ~ has ":" k /\ ~ has "010" v /\ solid k /\ solid v
  | _ => False
  end.
Definition begins_section (t : tree) : Prop := resource_h t \/ group_h t \/ structures_h t.
(** a section is what its first node says; a resource outside of groups belongs to the document itself *)
Definition document_rule (base : tree -> base_type) (done : list part) (p : part) (rest : list tree) : Prop :=
  match p with
  | Sub s => ((exists h, section_head s = Some h /\ resource_h h) /\ resource_ok s rest) \/ group_ok s rest \/ structures_ok base s rest
  | Ignored t => ~ begins_section t
  | _ => False
  end.
(** the title is the first header behind the metadata, unless it begins a section; if there is another block in its place, there is no title *)
Definition opening (ps : list part) (rest : list tree) : Prop :=
  (ps = [] /\ (rest = [] \/ first_is begins_section rest)) \/
  (exists h, ps = [Head h] /\ a_header h /\ ~ begins_section h) \/
  (exists t, ps = [Text t] /\ ~ a_header t /\ ~ metadata_p t).
Definition document_ok (base : tree -> base_type) (s : section) : Prop :=
  exists m o d ps, s = Sec BlueprintSection (map Meta m ++ o ++ map Text d ++ ps) [] /\ Forall metadata_p m /\ opening o (nodes_of (map Text d ++ ps)) /\
    (o = [] -> d = []) /\ described (fun t => ~ begins_section t) d (nodes_of ps) /\ in_order (document_rule base) [] ps [].

(** ** refused documents: behind "# Data Structures" there is a list item "Sample", "Default", "Items", "Members" or "Properties", or a
    node that is neither a header nor a list item *)
Definition refused_in (l : list tree) : Prop := exists t, In t l /\ (type_section_item t \/ (~ a_header t /\ ~ an_item t)).
Definition doc_refused (l : list tree) : Prop := exists a h b, l = (a ++ h :: b)%list /\ structures_h h /\ refused_in b.
