(** Model of packages/apib-parser/src/snowcrash: how the top level nodes of a document are shared out among its sections. Only the
    outline is modelled: which section takes which node, as what. Siblings are the list of the nodes not yet taken: an iterator is
    such a list, [end()] the empty one, two iterators of one collection are equal iff the lists are equally long. What a list item
    holds is read by a parser of its own ([inside]: it ends or throws); the base type a named type's header resolves to is [base].
    Names, report and source maps are left out here, and so are preprocessNestedSections and finalize, which read no node. *)
From Verif Require Import Base StringUtility Regex ByteBuffer Markdown MarkdownSpec TypeTables Keywords.
Local Open Scope string_scope.

(** A payload (Blueprint.h Payload): its kind, its list item, the nodes added to its body later. A transaction example: the requests and
    the responses *)
Record payload : Type := Payload { y_type : section_type; y_node : tree; y_added : list tree }.
Definition example : Type := list payload * list payload.

(** What became of a node: it is the section's header; metadata; description; a list section; added to the body of the last payload;
    nothing, with a warning; or it belongs to a section of its own *)
Inductive part : Type :=
| Head (t : tree) | Meta (t : tree) | Text (t : tree) | Listed (ty : section_type) (t : tree) | Dangling (t : tree) | Ignored (t : tree) | Sub (s : section)
with section : Type := Sec (kind : section_type) (parts : list part) (examples : list example).

(** MSON.h TypeSection::Class; a sample and a default value are not told apart *)
Inductive klass : Type := BlockClass | MemberClass | SampleClass.

(** ParseResultRef<T>: what has been parsed of the section. [o_sections] and [o_base] are a named type's or a type section's *)
Record out : Type := Out { o_parts : list part; o_examples : list example; o_sections : list klass; o_base : base_type }.
Definition fresh : out := Out [] [] [] UndefinedBT.
Definition add (p : part) (o : out) : out := Out (o_parts o ++ [p])%list (o_examples o) (o_sections o) (o_base o).
Definition close (kind : section_type) (o : out) : section := Sec kind (o_parts o) (o_examples o).

(** ** SectionParser.h *)
(** SectionParserData.h SectionLayout *)
Inductive layout : Type := DefaultLayout | ExclusiveLayout | RedirectLayout.
Definition step : Type := outcome (out * list tree).
(** SectionProcessor<T> and the adapter *)
Record processor : Type := Processor {
  p_header : bool;                                                     (* HeaderSectionAdapter rather than BlueprintSectionAdapter *)
  p_signature : out -> list tree -> outcome (layout * out * list tree);
  p_is_description : tree -> bool;
  p_description : out -> list tree -> step;
  p_nested_type : tree -> section_type;
  p_nested : section_type -> out -> list tree -> step;
  p_is_unexpected : tree -> bool;
  p_unexpected : section_type -> out -> list tree -> step }.

Definition same (a b : list tree) : bool := Nat.eqb (List.length a) (List.length b).
(** *cur, ++cur: neither is defined at the end *)
Definition with_node (l : list tree) (f : tree -> list tree -> step) : step := match l with t :: r => f t r | [] => ByteBuffer.Wild end.

(** SectionParser.h:62-71: false if the section is to end here *)
Fixpoint describe (fuel : nat) (p : processor) (o : out) (cur : list tree) : outcome (bool * out * list tree) :=
  match fuel with
  | O => Endless
  | S n =>
    match cur with
    | [] => Val (true, o, [])
    | t :: _ =>
      if p_is_description p t then
        andthen (p_description p o cur) (fun '(o', cur') => if same cur cur' then Val (false, o', cur') else describe n p o' cur')
      else Val (true, o, cur)
    end
  end.
Definition undefined (ty : section_type) : bool := match ty with UndefinedSection => true | _ => false end.
(** SectionParser.h:124-130 *)
Definition next_last (ty last : section_type) (cur : list tree) : section_type :=
  match cur with
  | [] => last
  | t :: _ => if (negb (undefined ty) || match t_type t with ParagraphNode | CodeNode => false | _ => true end)%bool then ty else last
  end.
(** SectionParser.h:96-140 parseNestedSections. Neither adapter here skips unexpected nodes *)
Fixpoint nested_loop (fuel : nat) (p : processor) (last : section_type) (o : out) (cur : list tree) : step :=
  match fuel with
  | O => Endless
  | S n =>
    match cur with
    | [] => Val (o, [])
    | t :: _ =>
      let ty := p_nested_type p t in
      andthen (if negb (undefined ty) then p_nested p ty o cur
               else if p_is_unexpected p t then p_unexpected p last o cur
               else Val (o, cur))
        (fun '(o', cur') => if same cur cur' then Val (o', cur') else nested_loop n p (next_last ty last cur') o' cur')
    end
  end.
Definition fuel_of (l : list tree) : nat := S (List.length l).
Definition parse_nested (p : processor) (o : out) (cur : list tree) : step := nested_loop (fuel_of cur) p UndefinedSection o cur.
(** SectionParser.h:32-93 parse, 147-158 HeaderSectionAdapter::startingNode. The content nodes (73-82) are those of list sections *)
Definition parse (p : processor) (o : out) (node : list tree) : step :=
  andthen (if p_header p then match node with [] => ByteBuffer.Wild | t :: _ => if is_header t then Val tt else Thrown end else Val tt) (fun _ =>
  andthen (p_signature p o node) (fun '(l, o, cur) =>
  match l with
  | ExclusiveLayout => parse_nested p o cur
  | RedirectLayout => Val (o, cur)
  | DefaultLayout =>
    if same node cur then Val (o, cur)
    else andthen (describe (fuel_of cur) p o cur) (fun '(go, o, cur) => if (go : bool) then parse_nested p o cur else Val (o, cur))
  end)).

(** ** SectionProcessorBase *)
(** SectionProcessor.h:139-147 processSignature *)
Definition take_head (o : out) (l : list tree) : outcome (layout * out * list tree) :=
  match l with t :: r => Val (DefaultLayout, add (Head t) o, r) | [] => ByteBuffer.Wild end.
(** SectionProcessor.h:150-170 processDescription *)
Definition take_text (o : out) (l : list tree) : step := with_node l (fun t r => Val (add (Text t) o, r)).
(** SectionProcessor.h:211-233 processUnexpectedNode *)
Definition ignore (o : out) (l : list tree) : step := with_node l (fun t r => Val (add (Ignored t) o, r)).
Definition section_eqb (x y : section_type) : bool := if (ltac:(decide equality) : {x = y} + {x <> y}) then true else false.
Definition among (l : list section_type) (ty : section_type) : bool := existsb (section_eqb ty) l.
(** SectionProcessor.h:239-261 isDescriptionNode, with isContentNode false *)
Definition base_is_description (nested : tree -> section_type) (upper : list section_type) (t : tree) : bool :=
  if negb (undefined (nested t)) then false
  else if undefined (section_keyword t) then true
  else negb (among upper (section_keyword t)).
(** SectionProcessor.h:270-283 isUnexpectedNode *)
Definition base_is_unexpected (upper : list section_type) (t : tree) : bool :=
  if negb (among upper (section_keyword t)) then true else undefined (section_keyword t).
Definition no_description (t : tree) : bool := false.

Section Outline.
(** the parsers of list sections: whether they end *)
Context (inside : section_type -> tree -> outcome unit).
(** what MSONUtility.h:parseTypeDefinition finds for the base type of a named type *)
Context (base : tree -> base_type).

(** ListSectionAdapter: SectionParser.h:187-221 *)
Definition list_section (ty : section_type) (o : out) (l : list tree) : step :=
  with_node l (fun t r => if is_item t then andthen (inside ty t) (fun _ => Val (add (Listed ty t) o, r)) else Thrown).

(** ** ActionParser.h *)
Definition is_text (t : tree) : bool := match t_type t with ParagraphNode | CodeNode => true | _ => false end.
Definition with_examples (f : list example -> list example) (o : out) : out := Out (o_parts o) (f (o_examples o)) (o_sections o) (o_base o).
(** examples.back() *)
Definition on_last {A} (f : A -> A) (l : list A) : list A :=
  match rev l with x :: r => rev (f x :: r) | [] => [] end.
Definition last_example (l : list example) : option example := match rev l with x :: _ => Some x | [] => None end.
(** 113-136 *)
Definition push_request (y : payload) (l : list example) : list example :=
  let l := match last_example l with None => [([], [])] | Some (_, []) => l | Some (_, _ :: _) => (l ++ [([], [])])%list end in
  on_last (fun e => (fst e ++ [y], snd e)%list) l.
(** 138-160 *)
Definition push_response (y : payload) (l : list example) : list example :=
  let l := match last_example l with None => [([], [])] | Some _ => l end in
  on_last (fun e => (fst e, snd e ++ [y])%list) l.
(** 205-220, 222-237: the body of the last response, of the last request *)
Definition add_body (t : tree) (y : payload) : payload := Payload (y_type y) (y_node y) (y_added y ++ [t])%list.
Definition body_of_response (t : tree) : list example -> list example := on_last (fun e => (fst e, on_last (add_body t) (snd e))).
Definition body_of_request (t : tree) : list example -> list example := on_last (fun e => (on_last (add_body t) (fst e), snd e)).
Definition is_request (ty : section_type) : bool := match ty with RequestSection | RequestBodySection => true | _ => false end.
Definition is_response (ty : section_type) : bool := match ty with ResponseSection | ResponseBodySection => true | _ => false end.
(** 91-186 processNestedSection. A model has no case of its own: the iterator stays *)
Definition action_nested (ty : section_type) (o : out) (l : list tree) : step :=
  match ty with
  | RelationSection | ParametersSection | HeadersSection | AttributesSection => list_section ty o l
  | RequestSection | RequestBodySection =>
    with_node l (fun t _ => andthen (list_section ty o l) (fun '(o, r) => Val (with_examples (push_request (Payload ty t [])) o, r)))
  | ResponseSection | ResponseBodySection =>
    with_node l (fun t _ => andthen (list_section ty o l) (fun '(o, r) => Val (with_examples (push_response (Payload ty t [])) o, r)))
  | _ => Val (o, l)
  end.
(** 188-196 isUnexpectedNode *)
Definition action_is_unexpected (t : tree) : bool :=
  if negb (undefined (asset_type t)) then true else base_is_unexpected action_upper t.
(** 198-253 processUnexpectedNode *)
Definition action_unexpected (last : section_type) (o : out) (l : list tree) : step :=
  with_node l (fun t r =>
    if (is_text t && is_response last && match last_example (o_examples o) with Some (_, _ :: _) => true | _ => false end)%bool then
      Val (add (Dangling t) (with_examples (body_of_response t) o), r)
    else if (is_text t && is_request last && match last_example (o_examples o) with Some (_ :: _, _) => true | _ => false end)%bool then
      Val (add (Dangling t) (with_examples (body_of_request t) o), r)
    else if negb (undefined (asset_type t)) then Val (add (Ignored t) o, r)
    else ignore o l).
Definition action_processor : processor :=
  Processor true take_head (base_is_description action_nested_type action_upper) take_text action_nested_type action_nested
    action_is_unexpected action_unexpected.

(** ** ResourceParser.h *)
(** 331-350 processNestedAction, 353-395 processAction *)
Definition take_action (o : out) (l : list tree) : step :=
  andthen (parse action_processor fresh l) (fun '(a, r) => Val (add (Sub (close ActionSection a)) o, r)).
(** the method and the path in a resource's header: 52-63, on the text as it stands *)
Definition endpoint (t : tree) : bool :=
  match regex_capture (t_text t) ResourceHeaderRegex 4 with
  | Some g => negb (String.eqb (nth 2 g "") "")
  | None => match regex_capture (t_text t) NamedEndpointHeaderRegex 5 with Some _ => true | None => false end
  end.
(** 42-82 processSignature *)
Definition resource_signature (o : out) (l : list tree) : outcome (layout * out * list tree) :=
  match l with
  | t :: _ => if endpoint t then andthen (take_action o l) (fun '(o, r) => Val (RedirectLayout, o, r)) else take_head o l
  | [] => ByteBuffer.Wild
  end.
(** 84-151 processNestedSection *)
Definition resource_nested (ty : section_type) (o : out) (l : list tree) : step :=
  match ty with
  | ActionSection => take_action o l
  | ParametersSection | ModelSection | ModelBodySection | HeadersSection | AttributesSection => list_section ty o l
  | _ => Val (o, l)
  end.
(** 153-185 processUnexpectedNode *)
Definition is_model (ty : section_type) : bool := match ty with ModelSection | ModelBodySection => true | _ => false end.
Definition resource_unexpected (last : section_type) (o : out) (l : list tree) : step :=
  with_node l (fun t r => if (is_text t && is_model last)%bool then Val (add (Dangling t) o, r) else ignore o l).
(** 187-195 isDescriptionNode *)
Definition complete (t : tree) : bool := match action_type_of t with CompleteAction => true | _ => false end.
Definition resource_is_description (t : tree) : bool :=
  if complete t then false else base_is_description resource_nested_type resource_upper t.
Definition resource_processor : processor :=
  Processor true resource_signature resource_is_description take_text resource_nested_type resource_nested
    (base_is_unexpected resource_upper) resource_unexpected.

(** ** ResourceGroupParser.h *)
(** 33-61 processSignature *)
Definition group_signature (o : out) (l : list tree) : outcome (layout * out * list tree) :=
  match l with
  | t :: _ => if undefined (resource_group_nested_type t) then take_head o l else Val (ExclusiveLayout, o, l)
  | [] => ByteBuffer.Wild
  end.
(** 100-147 processNestedSection *)
Definition group_nested (ty : section_type) (o : out) (l : list tree) : step :=
  match ty with
  | ResourceSection => andthen (parse resource_processor fresh l) (fun '(a, r) => Val (add (Sub (close ResourceSection a)) o, r))
  | _ => Val (o, l)
  end.
(** 149-178 processUnexpectedNode: both ways skip the node with a warning *)
Definition group_unexpected (last : section_type) (o : out) (l : list tree) : step := ignore o l.
(** 221-231 isDescriptionNode *)
Definition group_is_description (t : tree) : bool :=
  if complete t then false else base_is_description resource_group_nested_type resource_group_upper t.
(** 233-241 isUnexpectedNode *)
Definition group_is_unexpected (t : tree) : bool :=
  match action_type_of t with DependentAction => true | _ => base_is_unexpected resource_group_upper t end.
Definition group_processor : processor :=
  Processor true group_signature group_is_description take_text resource_group_nested_type group_nested group_is_unexpected group_unexpected.

(** ** MSONTypeSectionParser.h *)
Definition is_value (b : base_type) : bool := match b with ValueBT | ImplicitValueBT => true | _ => false end.
Definition is_object (b : base_type) : bool := match b with ObjectBT | ImplicitObjectBT => true | _ => false end.
Definition is_primitive (b : base_type) : bool := match b with PrimitiveBT | ImplicitPrimitiveBT => true | _ => false end.
Definition push_class (k : klass) (o : out) : out := Out (o_parts o) (o_examples o) (o_sections o ++ [k])%list (o_base o).
(** 46-153 finalizeSignature, by the section's type: the header's identifier is the word that decided it. [o_sections] holds the class *)
Definition type_section_signature (ty : section_type) (o : out) (l : list tree) : outcome (layout * out * list tree) :=
  match ty with
  | MSONSampleDefaultSection => take_head (push_class SampleClass o) l
  | MSONValueMembersSection => if is_value (o_base o) then take_head (push_class MemberClass o) l else Val (DefaultLayout, o, l)
  | MSONPropertyMembersSection => if is_object (o_base o) then take_head (push_class MemberClass o) l else Val (DefaultLayout, o, l)
  | _ => take_head o l
  end.
(** MSONTypeSectionParser.cc:16-180 processNestedSection; [parent] is parentSectionContext() *)
Definition type_section_nested (parent ty : section_type) (o : out) (l : list tree) : step :=
  with_node l (fun t r =>
    if is_header t then Val (o, l)
    else match parent with
         | MSONPropertyMembersSection | MSONValueMembersSection =>
           match ty with
           | MSONMixinSection => list_section ty o l
           | MSONOneOfSection => match parent with MSONPropertyMembersSection => list_section ty o l | _ => Val (o, l) end
           | MSONSection => list_section (match parent with MSONPropertyMembersSection => MSONPropertyMemberSection | _ => MSONValueMemberSection end) o l
           | _ => Val (o, l)
           end
         | MSONSampleDefaultSection =>
           match ty with
           | MSONSection =>
             if (is_value (o_base o) && is_item t)%bool then list_section MSONValueMemberSection o l
             else if (is_object (o_base o) && is_item t)%bool then list_section MSONPropertyMemberSection o l
             else if is_primitive (o_base o) then Val (add (Text t) o, r)
             else Val (o, l)
           | _ => Val (o, l)
           end
         | _ => Val (o, l)
         end).
Definition type_section_processor (ty : section_type) : processor :=
  Processor true (type_section_signature ty) no_description (fun o l => Val (o, l)) type_section_nested_type (type_section_nested ty)
    (base_is_unexpected []) (fun _ => ignore).

(** ** MSONNamedTypeParser.h *)
(** 36-78 finalizeSignature *)
Definition named_type_signature (o : out) (l : list tree) : outcome (layout * out * list tree) :=
  match l with
  | t :: r => Val (DefaultLayout, add (Head t) (Out (o_parts o) (o_examples o) (o_sections o) (match base t with UndefinedBT => ImplicitObjectBT | b => b end)), r)
  | [] => ByteBuffer.Wild
  end.
(** MSONValueMemberParser.h:237-278 blockDescription *)
Definition block_description (o : out) (l : list tree) : step :=
  with_node l (fun t r =>
    match o_sections o with
    | [] => Val (add (Text t) (push_class BlockClass o), r)
    | [BlockClass] => Val (add (Text t) o, r)
    | _ => Val (o, l)
    end).
Definition last_class (o : out) : option klass := match rev (o_sections o) with k :: _ => Some k | [] => None end.
(** MSONValueMemberParser.cc:46-213 processMSONSection. The base type is never undefined here *)
Definition mson_section (ty : section_type) (o : out) (l : list tree) : step :=
  with_node l (fun t r =>
    if is_header t then Val (o, l)
    else match last_class o with
         | Some BlockClass => block_description o l
         | k =>
           let o := match k with Some MemberClass => o | _ => push_class MemberClass o end in
           match ty with
           | MSONMixinSection => list_section ty o l
           | MSONOneOfSection => if is_object (o_base o) then list_section ty o l else Val (o, l)
           | _ =>
             if (is_value (o_base o) && is_item t)%bool then list_section MSONValueMemberSection o l
             else if (is_object (o_base o) && is_item t)%bool then list_section MSONPropertyMemberSection o l
             else if is_primitive (o_base o) then Val (o, l)
             else ignore o l
           end
         end).
(** MSONValueMemberParser.h:287-327 processNestedMembers<MSONTypeSectionHeaderParser> *)
Definition named_type_nested (ty : section_type) (o : out) (l : list tree) : step :=
  match ty with
  | MSONSection | MSONMixinSection | MSONOneOfSection => mson_section ty o l
  | _ =>
    andthen (parse (type_section_processor ty) (Out [] [] [] (o_base o)) l) (fun '(a, r) =>
      match o_sections a with
      | [] => Val (o, r)
      | k :: _ => Val (push_class k (add (Sub (close ty a)) o), r)
      end)
  end.
(** MSONValueMemberParser.h:86-100 isDescriptionNode; for a list item the base class says no, as every node has a nested type *)
Definition member_is_description (t : tree) : bool :=
  match member_nested_type t with
  | MSONSection => if is_header t then false else if is_item t then base_is_description member_nested_type [] t else true
  | _ => false
  end.
Definition named_type_processor : processor :=
  Processor true named_type_signature member_is_description block_description member_nested_type named_type_nested
    (base_is_unexpected []) (fun _ => ignore).

(** ** DataStructureGroupParser.h *)
(** 30-73 processNestedSection *)
Definition structures_nested (ty : section_type) (o : out) (l : list tree) : step :=
  match ty with
  | MSONNamedTypeSection => andthen (parse named_type_processor fresh l) (fun '(a, r) => Val (add (Sub (close MSONNamedTypeSection a)) o, r))
  | _ => Val (o, l)
  end.
Definition structures_processor : processor :=
  Processor true take_head no_description (fun o l => Val (o, l)) named_type_type structures_nested
    (base_is_unexpected data_structures_upper) (fun _ => ignore).

(** ** BlueprintParser.h *)
(** CodeBlockUtility.h:174-187 keyValueFromLine *)
Definition key_value (line : string) : bool :=
  match split_on_first line ":" with
  | [k; v] => (negb (String.eqb (trim k) "") && negb (String.eqb (trim v) ""))%bool
  | _ => false
  end.
(** 535-557 parseMetadata: whether it finds any *)
Definition metadata (t : tree) : bool := existsb key_value (split (trim_end (t_text t)) LF).
(** 35-94 processSignature *)
Fixpoint blueprint_signature (o : out) (l : list tree) : outcome (layout * out * list tree) :=
  match l with
  | [] => Val (DefaultLayout, o, [])
  | t :: r =>
    match t_type t with
    | ParagraphNode => if metadata t then blueprint_signature (add (Meta t) o) r else Val (DefaultLayout, add (Text t) o, r)
    | HeaderNode => if undefined (blueprint_nested_type t) then Val (DefaultLayout, add (Head t) o, r) else Val (ExclusiveLayout, o, l)
    | _ => Val (DefaultLayout, add (Text t) o, r)
    end
  end.
Definition append_parts (ps : list part) (o : out) : out := Out (o_parts o ++ ps)%list (o_examples o) (o_sections o) (o_base o).
(** 96-157 processNestedSection: what a group without header holds goes to the blueprint itself *)
Definition blueprint_nested (ty : section_type) (o : out) (l : list tree) : step :=
  match ty with
  | ResourceGroupSection => andthen (parse group_processor fresh l) (fun '(a, r) => Val (add (Sub (close ResourceGroupSection a)) o, r))
  | ResourceSection => andthen (parse group_processor fresh l) (fun '(a, r) => Val (append_parts (o_parts a) o, r))
  | DataStructureGroupSection => andthen (parse structures_processor fresh l) (fun '(a, r) => Val (add (Sub (close DataStructureGroupSection a)) o, r))
  | _ => Val (o, l)
  end.
(** 310-315 isUnexpectedNode *)
Definition blueprint_processor : processor :=
  Processor false blueprint_signature (base_is_description blueprint_nested_type []) take_text blueprint_nested_type blueprint_nested
    (fun _ => true) (fun _ => ignore).
(** snowcrash.cc:74 BlueprintParser::parse on the children of the root *)
Definition outline (nodes : list tree) : outcome (section * list tree) :=
  andthen (parse blueprint_processor fresh nodes) (fun '(o, r) => Val (close BlueprintSection o, r)).
End Outline.
