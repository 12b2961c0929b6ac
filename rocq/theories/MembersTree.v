(** Model of packages/apib-parser/src/snowcrash/MSONValueMemberParser.{h,cc}, MSONPropertyMemberParser.h, MSONTypeSectionParser.{h,cc}, MSONOneOfParser.{h,cc}, MSONMixinParser.h,
    MSONNamedTypeParser.h and AttributesParser.h: from the Markdown nodes of attributes, named types and their members to the MSON tree of Mson.v, with its source maps.
    The remarks are kept with the byte ranges of their node: C33 makes character ranges of them. [context] is namedTypeContext. *)
From Verif Require Import Base ByteBuffer StringUtility StringSpec Markdown MarkdownSpec Regex Keywords TypeTables SourceMap Mson Signature TypeDefs.
From Verif Require Payloads.
Local Open Scope string_scope.

(** the report, and the tables of SectionParserData *)
Record st : Type := St { s_tables : tables; s_notes : list (places * remark) }.
(** the source map of a node: byte ranges *)
Definition spot (t : tree) : places := map (fun r => Range (ByteBuffer.location r) (ByteBuffer.length r)) (t_map t).
Definition note (m : places) (l : list remark) (s : st) : st := St (s_tables s) (s_notes s ++ map (pair m) l)%list.
Definition FormattingCode : N := 3%N.

(** the sources and the named type at hand *)
Section Members.
Context (source context : string).

(** SignatureSectionProcessor.h:43-60 processSignature; MSONValueMemberParser.h:29-43, MSONPropertyMemberParser.h:25-40 parseSignature; StringUtility.h:317-335
    ReconstructMarkdownHeader: the level of a header is not negative *)
Definition reconstructed (t : tree) : string := match t with Tree HeaderNode x z _ _ => run_of (Z.to_nat z) "#"%char +++ x | _ => "" end.
Definition signature_of (tr : traits) (given : string) (t : tree) (s : st) : outcome (signature * st) :=
  andthen (parse_signature (enough_for [t_text t; given]) tr (t_text t) given) (fun '(sg, w) => Val (sg, note (spot t) (map (Warns EmptyDefinitionCode) w) s)).
Definition define (t : tree) (attrs : list string) (s : st) : outcome (type_def * st) :=
  andthen (parse_type_definition (enough_for attrs) context attrs (s_tables s)) (fun '(td, tb, w) => Val (td, note (spot t) w (St tb (s_notes s)))).
(** MSONUtility.h:308-358 addDependency: see TypeTables.v *)
Definition depend (t : tree) (on : string) (strict : bool) (s : st) : st :=
  let '(d, e) := add_dependency (deps (s_tables s)) on context strict in note (spot t) (failed_by e) (St (set_deps (s_tables s) d) (s_notes s)).
Definition depend_on (t : tree) (strict : bool) (n : symbol) (s : st) : st := if names_type n then depend t (s_literal n) strict s else s.

(** MSONValueMemberParser.h:211-233 parseRemainingContent *)
Definition block_section (d : string) (m : places) : msection melement := Sec BlockDescriptionClass d "" [] m [].
Definition remaining_content (t : tree) (d : string) : list (msection melement) := if String.eqb d "" then [] else [block_section d (spot t)].
Fixpoint parse_each (l : list string) : outcome (list mvalue) :=
  match l with [] => Val [] | x :: r => andthen (parse_value x) (fun v => andthen (parse_each r) (fun vs => Val (v :: vs))) end.
Definition set_base (b : base_type) (td : type_def) : type_def := TD b (td_spec td) (td_attrs td).
(** MSONValueMemberParser.h:126-200 useSignatureData *)
Definition use_signature (t : tree) (sg : signature) (s : st) : outcome (mmember melement * st) :=
  andthen (define t (attributes sg) s) (fun '(td, s) =>
  let sections := remaining_content t (remaining sg) in
  let ts := td_spec td in
  let s := match n_base (t_name ts) with
           | ArrayTN | EnumTN => fold_left (fun s n => depend_on t false (n_symbol n) s) (t_nested ts) s
           | UndefinedTN => depend_on t false (n_symbol (t_name ts)) s
           | _ => s
           end in
  let dmap := if String.eqb (content sg) "" then [] else spot t in
  let several := Nat.ltb 1 (List.length (values sg)) in
  match several, td_base td with
  | true, PrimitiveBT => andthen (parse_value (Signature.value sg)) (fun v => Val (Mem (content sg) (VD [v] td) sections [] dmap (spot t), s))
  | _, _ =>
    let td := match several, td_base td with true, UndefinedBT => set_base ImplicitValueBT td | _, _ => td end in
    andthen (parse_each (values sg)) (fun vs =>
    Val (Mem (content sg) (VD vs td) sections (spot t) dmap (if value_empty (VD vs td) then [] else spot t), s))
  end).
(** MSONValueMemberParser.h:237-278 blockDescription; None: the node is not taken *)
Definition block_description (t : tree) (l : list (msection melement)) : outcome (option (list (msection melement))) :=
  let add (d : string) (m : places) :=
    andthen (if String.eqb d "" then Val "" else two_new_lines d) (fun d =>
    andthen (map_ranges (t_map t) source) (fun c =>
    let c := trim c in
    Val (Some [block_section (d +++ c) (if String.eqb c "" then m else append_places m (spot t))]))) in
  match l with
  | [] => add "" []
  | [x] => match sc_class x with BlockDescriptionClass => add (sc_description x) (sc_description_map x) | _ => Val None end
  | _ => Val None
  end.
(** MSONValueMemberParser.h:86-100 isDescriptionNode; for a list item the base class says no, as every node has a nested type *)
Definition is_description (t : tree) : bool :=
  match member_nested_type t with MSONSection => (negb (is_header t) && negb (is_item t))%bool | _ => false end.
(** SectionParser.h:62-71: None: a node was not taken, parse ends without finalize *)
Fixpoint descriptions (l : list tree) (sections : list (msection melement)) : outcome (option (list (msection melement) * list tree)) :=
  match l with
  | t :: r =>
    if is_description t then
      andthen (block_description t sections) (fun o => match o with Some sections => descriptions r sections | None => Val None end)
    else Val (Some (sections, l))
  | [] => Val (Some (sections, []))
  end.

Definition is_object (b : base_type) : bool := match b with ObjectBT | ImplicitObjectBT => true | _ => false end.
Definition is_values (b : base_type) : bool := match b with ValueBT | ImplicitValueBT => true | _ => false end.
Definition is_primitive (b : base_type) : bool := match b with PrimitiveBT | ImplicitPrimitiveBT => true | _ => false end.
(** MSONUtility.h:468-481 isSameBaseType *)
Definition same_base (a b : base_type) : bool :=
  match a, b with UndefinedBT, UndefinedBT => true | _, _ => (is_object a && is_object b || is_values a && is_values b || is_primitive a && is_primitive b)%bool end.
(** MSONValueMemberParser.h:365-395 resolveImplicitBaseType *)
Definition resolve (t : tree) (ty : section_type) (b : base_type) : base_type :=
  match b, ty with
  | UndefinedBT, (MSONSection | MSONOneOfSection | MSONMixinSection) => if is_item t then ImplicitObjectBT else b
  | UndefinedBT, MSONPropertyMembersSection => ImplicitObjectBT
  | UndefinedBT, MSONSampleDefaultSection => ImplicitPrimitiveBT
  | _, _ => b
  end.

(** SectionParser.h:96-140 parseNestedSections: [step] tells whether the iterator was moved behind the node; what is left of the nodes is never read *)
Fixpoint walk {A} (step : tree -> A -> st -> outcome (A * bool * st)) (l : list tree) (a : A) (s : st) : outcome (A * st) :=
  match l with
  | [] => Val (a, s)
  | t :: r => andthen (step t a s) (fun '(a, on, s) => if on : bool then walk step r a s else Val (a, s))
  end.
(** SectionProcessor.h:211-233 processUnexpectedNode *)
Definition unexpected (t : tree) (s : st) : st :=
  note (spot t) [Warns IgnoringCode
    (if is_header t then "unexpected header block, expected a group, resource or an action definition, e.g. '# Group <name>', '# <resource name> [<URI>]' or '# <HTTP method> <URI>'"
     else "ignoring unrecognized block")] s.

(** ** MSONMixinParser.h:37-77; all other nodes of the item are unexpected *)
Definition names_traits : traits := Traits true false true false ":" "-".
Definition parse_mixin (item : tree) (s : st) : outcome (type_def * st) :=
  andthen (Payloads.starting item) (fun l =>
  match l with
  | [] => ByteBuffer.Wild
  | t :: r =>
    andthen (signature_of names_traits "" t s) (fun '(sg, s) =>
    let g := match regex_capture (identifier sg) MSONMixinRegex 2 with Some g => nth 1 g "" | None => "" end in
    let attrs := if String.eqb g "" then attributes sg else from (identifier sg) (String.length g) :: attributes sg in
    andthen (define t attrs s) (fun '(td, s) =>
    let s := match td_base td with
             | PrimitiveBT | UndefinedBT => note (spot t) [Warns FormattingCode "mixin type may not include a type of a primitive sub-type"] s
             | _ => s
             end in
    let s := match n_base (t_name (td_spec td)) with UndefinedTN => depend_on t true (n_symbol (t_name (td_spec td))) s | _ => s end in
    Val (td, fold_left (fun s t => unexpected t s) r s)))
  end).

(** ** the parsers that call each other *)
Section Steps.
(** MSONPropertyMemberParser ([true]) and MSONValueMemberParser, MSONOneOfParser, MSONTypeSectionListParser *)
Context (member : bool -> tree -> st -> outcome (melement * st)) (one_of : tree -> st -> outcome (list melement * st))
  (section : section_type -> base_type -> tree -> st -> outcome (msection melement * st)).

Definition members : Type := (list (msection melement) * base_type)%type.
Definition add_element (x : melement) (y : msection melement) : msection melement :=
  Sec (sc_class y) (sc_description y) (sc_value y) (sc_elements y ++ [x])%list (sc_description_map y) (sc_value_map y).
(** sections.back().content.elements().push_back *)
Definition push (x : melement) (l : list (msection melement)) : list (msection melement) :=
  match rev l with y :: r => (rev r ++ [add_element x y])%list | [] => l end.
Definition last_class (l : list (msection melement)) : section_class := match rev l with y :: _ => sc_class y | [] => UndefinedClass end.
Definition logical (text : string) : list remark := [Warns LogicalErrorCode text].
Definition member_of (x : melement) : value_def := match x with MProperty _ m | MValue m => m_value m | _ => VD [] (TD UndefinedBT no_spec 0%N) end.
Definition has_value_of_object (x : melement) : bool :=
  (is_object (td_base (vd_type (member_of x))) && match vd_values (member_of x) with [] => false | _ => true end)%bool.
(** MSONValueMemberParser.cc:46-213 processMSONSection; 62-63: [told], 70-84: [grown] *)
Definition told (l : list (msection melement)) : bool := match last_class l with BlockDescriptionClass => true | _ => false end.
Definition grown (l : list (msection melement)) : list (msection melement) :=
  match last_class l with MemberTypeClass => l | _ => (l ++ [Sec MemberTypeClass "" "" [] [] []])%list end.
Definition mson_section (ty : section_type) (t : tree) (a : members) (s : st) : outcome (members * bool * st) :=
  let '(l, b) := a in
  if is_header t then Val (a, false, s)
  else if told l then andthen (block_description t l) (fun o => Val (match o with Some l => ((l, b), true, s) | None => (a, false, s) end))
  else
    let b := resolve t ty b in
    let l := grown l in
    match ty with
    | MSONMixinSection =>
      andthen (parse_mixin t s) (fun '(td, s) =>
      if same_base b (td_base td) then Val ((push (MMixin td) l, b), true, s)
      else Val ((l, b), true, note (spot t) (logical "mixin base type should be the same as parent base type. objects should contain object mixins. arrays should contain array mixins") s))
    | MSONOneOfSection =>
      if is_object b then andthen (one_of t s) (fun '(x, s) => Val ((push (MOneOf x) l, b), true, s))
      else Val ((l, b), false, note (spot t) (logical "one of may be a nested member of a object sub-types only") s)
    | _ =>
      if (is_values b && is_item t)%bool then
        andthen (member false t s) (fun '(x, s) =>
        Val ((push x l, b), true, if has_value_of_object x then note (spot t) (logical "array member definition of type 'object' contains value. You should use type definition without value eg. '- (object)'") s else s))
      else if (is_object b && is_item t)%bool then
        andthen (member true t s) (fun '(x, s) =>
        Val ((push x l, b), true, if has_value_of_object x then note (spot t) (logical "'object' with value definition. You should use type definition without value eg. '- key (object)'") s else s))
      else if is_primitive b then Val ((l, b), false, note (spot t) (logical "sub-types of primitive types should not have nested members") s)
      else Val ((l, b), true, note (spot t) [Warns IgnoringCode "ignoring unrecognized block"] s)
    end.
(** MSONValueMemberParser.h:310-321: the section is kept unless it has no class *)
Definition keep_section (t : tree) (x : msection melement) (l : list (msection melement)) : list (msection melement) :=
  match sc_class x with
  | UndefinedClass => l
  | _ => (l ++ [Sec (sc_class x) (sc_description x) (sc_value x) (sc_elements x) (sc_description_map x) (match sc_value_map x with [] => spot t | m => m end)])%list
  end.
(** MSONValueMemberParser.h:287-327 processNestedMembers<MSONTypeSectionListParser> *)
Definition member_step (t : tree) (a : members) (s : st) : outcome (members * bool * st) :=
  match member_nested_type t with
  | MSONSection | MSONMixinSection | MSONOneOfSection => mson_section (member_nested_type t) t a s
  | ty =>
    let '(l, b) := a in
    let b := resolve t ty b in
    andthen (section ty b t s) (fun '(x, s) => Val ((keep_section t x l, b), true, s))
  end.

(** ** MSONTypeSectionParser.h:44-155 finalizeSignature: the section, and whether the iterator was moved behind the node *)
Definition section_traits : traits := Traits true true false false ":" "-".
Definition plain_value (t : tree) (v : mvalue) : melement := MValue (Mem "" (VD [v] (TD UndefinedBT no_spec 0%N)) [] [] [] (spot t)).
Definition section_value (b : base_type) (t : tree) (sg : signature) (s : st) : outcome (string * list melement * places * st) :=
  if match values sg with [] => negb (String.eqb (Signature.value sg) "") | _ => true end then
    if is_primitive b then Val (Signature.value sg, [], spot t, s)
    else if is_values b then andthen (parse_each (values sg)) (fun vs => Val ("", map (plain_value t) vs, [], s))
    else if is_object b then
      Val ("", [], [], note (spot t) (logical "a sample and/or default type section for a type which is sub-typed from an object cannot have value(s) beside the keyword") s)
    else Val ("", [], [], s)
  else Val ("", [], [], s).
Definition values_section (c : section_class) (b : base_type) (t : tree) (sg : signature) (s : st) : outcome (msection melement * bool * st) :=
  andthen (section_value b t sg s) (fun '(v, l, m, s) =>
  let '(v, m) := if (negb (String.eqb (remaining sg) "") && is_primitive b)%bool then (v +++ remaining sg, append_places m (spot t)) else (v, m) in
  Val (Sec c "" v l [] m, true, s)).
Definition no_class : msection melement := Sec UndefinedClass "" "" [] [] [].
Definition members_section (fits : bool) (text : string) (t : tree) (sg : signature) (s : st) : outcome (msection melement * bool * st) :=
  if fits then Val (Sec MemberTypeClass "" "" [] [] [], true, s)
  else Val (no_class, false, note (spot t) (logical ("type section `" +++ identifier sg +++ text)) s).
Definition section_head (b : base_type) (t : tree) (s : st) : outcome (msection melement * bool * st) :=
  andthen (signature_of section_traits "" t s) (fun '(sg, s) =>
  if iequal (identifier sg) "Default" then values_section DefaultClass b t sg s
  else if iequal (identifier sg) "Sample" then values_section SampleClass b t sg s
  else if (iequal (identifier sg) "Items" || iequal (identifier sg) "Members")%bool then
    members_section (is_values b) "` not allowed for a type sub-typed from a primitive or object type" t sg s
  else if iequal (identifier sg) "Properties" then members_section (is_object b) "` is only allowed for a type sub-typed from an object type" t sg s
  else Val (no_class, true, s)).
(** MSONTypeSectionParser.cc:16-180 processNestedSection; [parent]: parentSectionContext() *)
Definition add (x : msection melement) (r : outcome (melement * st)) : outcome (msection melement * bool * st) :=
  andthen r (fun '(e, s) => Val (add_element e x, true, s)).
Definition section_step (parent : section_type) (b : base_type) (t : tree) (x : msection melement) (s : st) : outcome (msection melement * bool * st) :=
  if is_header t then Val (x, false, s)
  else match parent with
       | MSONPropertyMembersSection | MSONValueMembersSection =>
         match type_section_nested_type t with
         | MSONMixinSection => add x (andthen (parse_mixin t s) (fun '(td, s) => Val (MMixin td, s)))
         | MSONOneOfSection =>
           match parent with
           | MSONPropertyMembersSection => add x (andthen (one_of t s) (fun '(l, s) => Val (MOneOf l, s)))
           | _ => Val (x, false, note (spot t) (logical "one-of can not be a nested member for a type not sub typed from object") s)
           end
         | MSONSection => add x (member (match parent with MSONPropertyMembersSection => true | _ => false end) t s)
         | _ => Val (x, false, s)
         end
       | MSONSampleDefaultSection =>
         match type_section_nested_type t with
         | MSONMixinSection => Val (x, false, note (spot t) (logical "sample and default type sections cannot have `mixin` type") s)
         | MSONOneOfSection => Val (x, false, note (spot t) (logical "sample and default type sections cannot have `one of` type") s)
         | MSONSection =>
           if (is_values b && is_item t)%bool then add x (member false t s)
           else if (is_object b && is_item t)%bool then add x (member true t s)
           else if is_primitive b then
             andthen (if String.eqb (sc_value x) "" then Val "" else two_new_lines (sc_value x)) (fun v =>
             andthen (map_ranges (t_map t) source) (fun c =>
             Val (Sec (sc_class x) (sc_description x) (v +++ c) (sc_elements x) (sc_description_map x)
                      (if String.eqb c "" then sc_value_map x else append_places (sc_value_map x) (spot t)), true, s)))
           else Val (x, false, s)
         | _ => Val (x, false, s)
         end
       | _ => Val (x, false, s)
       end.
(** SectionParser.h:32-93 with the nodes [t] and [r] *)
Definition section_body (ty : section_type) (b : base_type) (t : tree) (r : list tree) (s : st) : outcome (msection melement * st) :=
  andthen (section_head b t s) (fun '(x, on, s) => if on : bool then walk (section_step ty b) r x s else Val (x, s)).

(** ** MSONOneOfParser.cc:16-95 processNestedSection *)
Definition one_of_step (t : tree) (l : list melement) (s : st) : outcome (list melement * bool * st) :=
  match one_of_nested_type t with
  | MSONMixinSection => andthen (parse_mixin t s) (fun '(td, s) => Val ((l ++ [MMixin td])%list, true, s))
  | MSONOneOfSection => andthen (one_of t s) (fun '(x, s) => Val ((l ++ [MOneOf x])%list, true, s))
  | MSONPropertyMembersSection => andthen (section MSONPropertyMembersSection ObjectBT t s) (fun '(x, s) => Val ((l ++ [MGroup (sc_elements x)])%list, true, s))
  | MSONPropertyMemberSection => andthen (member true t s) (fun '(x, s) => Val ((l ++ [x])%list, true, s))
  | UndefinedSection => Val (l, true, unexpected t s)
  | _ => Val (l, false, s)
  end.
End Steps.

(** MSONValueMemberParser.h:349-355 finalizeImplicitBaseType *)
Definition finalize_base (b : base_type) : base_type := match b with UndefinedBT => ImplicitPrimitiveBT | _ => b end.
Definition value_traits : traits := Traits false true true true ":" "-".
Definition member_traits : traits := Traits true true true true ":" "-".
Definition one_of_traits : traits := Traits true false false false ":" "-".
(** MSONPropertyMemberParser.h:42-75: the name of the property *)
Definition member_name (property : bool) (t : tree) (sg : signature) (s : st) : outcome (prop_name * st) :=
  if property then
    andthen (parse_property_name context (t_text t) (identifier sg) (s_tables s)) (fun '(x, v, tb, w) =>
    Val (PN x v (if (String.eqb x "" && value_empty v)%bool then [] else spot t), note (spot t) w (St tb (s_notes s))))
  else Val (PN "" (VD [] (TD UndefinedBT no_spec 0%N)) [], s).
Definition made (property : bool) (name : prop_name) (m : mmember melement) (l : list (msection melement)) (b : base_type) : melement :=
  let m := Mem (m_description m) (VD (vd_values (m_value m)) (set_base b (vd_type (m_value m)))) l (m_map m) (m_description_map m) (m_value_map m) in
  if property then MProperty name m else MValue m.
Fixpoint parse_member (fuel : nat) (property : bool) (item : tree) (s : st) : outcome (melement * st) :=
  match fuel with
  | O => Endless
  | S fuel =>
    andthen (Payloads.starting item) (fun l =>
    match l with
    | [] => ByteBuffer.Wild
    | t :: r =>
      andthen (signature_of (if property then member_traits else value_traits) (reconstructed t) t s) (fun '(sg, s) =>
      andthen (member_name property t sg s) (fun '(name, s) =>
      andthen (use_signature t sg s) (fun '(m, s) =>
      andthen (descriptions r (m_sections m)) (fun o =>
      match o with
      | None => Val (made property name m (m_sections m) (td_base (vd_type (m_value m))), s)
      | Some (l, r) =>
        andthen (walk (member_step (parse_member fuel) (parse_one_of fuel) (parse_section fuel)) r (l, td_base (vd_type (m_value m))) s) (fun '(a, s) =>
        Val (made property name m (fst a) (finalize_base (snd a)), s))
      end))))
    end)
  end
with parse_one_of (fuel : nat) (item : tree) (s : st) : outcome (list melement * st) :=
  match fuel with
  | O => Endless
  | S fuel =>
    andthen (Payloads.starting item) (fun l =>
    match l with
    | [] => ByteBuffer.Wild
    | t :: r =>
      andthen (signature_of one_of_traits "" t s) (fun '(_, s) =>
      andthen (walk (one_of_step (parse_member fuel) (parse_one_of fuel) (parse_section fuel)) r [] s) (fun '(l, s) =>
      Val (l, match l with [] => note (spot item) [Warns EmptyDefinitionCode "one of type must have nested members"] s | _ => s end)))
    end)
  end
with parse_section (fuel : nat) (ty : section_type) (b : base_type) (item : tree) (s : st) : outcome (msection melement * st) :=
  match fuel with
  | O => Endless
  | S fuel =>
    andthen (Payloads.starting item) (fun l =>
    match l with
    | [] => ByteBuffer.Wild
    | t :: r => section_body (parse_member fuel) (parse_one_of fuel) ty b t r s
    end)
  end.

(** ** AttributesParser.h:37-66, 68-88 *)
Definition attributes_traits : traits := Traits true false true false ":" "-".
Definition parse_attributes (fuel : nat) (item : tree) (s : st) : outcome (structure * st) :=
  andthen (Payloads.starting item) (fun l =>
  match l with
  | [] => ByteBuffer.Wild
  | t :: r =>
    andthen (signature_of attributes_traits "" t s) (fun '(sg, s) =>
    andthen (define t (attributes sg) s) (fun '(td, s) =>
    let made (l : list (msection melement)) (b : base_type) := Str (TN UndefinedTN no_symbol) (set_base b td) l (spot t) [] (if def_empty td then [] else spot t) in
    let b := match td_base td with UndefinedBT => ImplicitObjectBT | b => b end in
    let l := remaining_content t (remaining sg) in
    andthen (descriptions r l) (fun o =>
    match o with
    | None => Val (made l b, s)
    | Some (l, r) =>
      andthen (walk (member_step (parse_member fuel) (parse_one_of fuel) (parse_section fuel)) r (l, b) s) (fun '(a, s) => Val (made (fst a) (snd a), s))
    end)))
  end).
End Members.
