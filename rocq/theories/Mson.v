(** Model of the conversion of MSON to API Elements: packages/drafter/src/RefractDataStructure.cc, MsonTypeSectionToApie.{h,cc},
    MsonOneOfSectionToApie.cc, RefractElementFactory.cc, Serialize.cc, ElementData.h, ElementInfoUtils.h, ElementComparator.h,
    and of the MSON tree it reads: packages/apib-parser/src/snowcrash/MSON.{h,cc}. *)
From Verif Require Import Base Element Extend Registry Expand ElementUtils SourceMap TypeTables StringUtility.

(** * The MSON tree. The source maps (MSONSourcemap.h) are put beside the nodes they belong to; NodeInfo.h:103-150 pairs them
      the same way and falls back to empty ones if the number of maps differs from the number of nodes. *)
Definition places := list range.
(** MSON.h:69-82 Value *)
Record mvalue : Type := MV { v_literal : string; v_variable : bool }.
(** MSON.h:129-139 TypeAttribute: the bits of an unsigned int *)
Definition RequiredTA : N := 0. Definition OptionalTA : N := 1. Definition FixedTA : N := 2. Definition SampleTA : N := 3.
Definition DefaultTA : N := 4. Definition NullableTA : N := 5. Definition FixedTypeTA : N := 6.
(** MSON.h:159-180 TypeDefinition, 182-193 ValueDefinition; MSON.cc:28-41 empty *)
Record type_def : Type := TD { td_base : base_type; td_spec : type_spec; td_attrs : N }.
Record value_def : Type := VD { vd_values : list mvalue; vd_type : type_def }.
Definition spec_empty (s : type_spec) : bool := match t_nested s with [] => name_empty (t_name s) | _ => false end.
Definition def_empty (t : type_def) : bool := ((td_attrs t =? 0)%N && spec_empty (td_spec t))%bool.
Definition value_empty (v : value_def) : bool := match vd_values v with [] => def_empty (vd_type v) | _ => false end.
(** MSON.h:202-260 TypeSection. Content's pointer to its elements is never null (MSON.cc:59-77). *)
Inductive section_class := UndefinedClass | BlockDescriptionClass | MemberTypeClass | SampleClass | DefaultClass.
Record msection (A : Type) : Type := Sec {
  sc_class : section_class; sc_description : string; sc_value : string; sc_elements : list A;
  sc_description_map : places; sc_value_map : places }.
Arguments Sec {A} _ _ _ _ _ _. Arguments sc_class {A} _. Arguments sc_description {A} _. Arguments sc_value {A} _.
Arguments sc_elements {A} _. Arguments sc_description_map {A} _. Arguments sc_value_map {A} _.
(** MSON.h:281-294 ValueMember *)
Record mmember (A : Type) : Type := Mem {
  m_description : string; m_value : value_def; m_sections : list (msection A);
  m_map : places; m_description_map : places; m_value_map : places }.
Arguments Mem {A} _ _ _ _ _ _. Arguments m_description {A} _. Arguments m_value {A} _. Arguments m_sections {A} _.
Arguments m_map {A} _. Arguments m_description_map {A} _. Arguments m_value_map {A} _.
(** MSON.h:297-316 PropertyName; PropertyMember is a ValueMember with a name *)
Record prop_name : Type := PN { p_literal : string; p_variable : value_def; p_map : places }.
(** MSON.h:325-345 Element: the variant *)
Inductive melement : Type :=
| MEmpty
| MProperty (n : prop_name) (m : mmember melement)
| MValue (m : mmember melement)
| MMixin (t : type_def)
| MOneOf (l : list melement)
| MGroup (l : list melement).
(** MSON.h:263-278 NamedType; snowcrash::DataStructure *)
Record structure : Type := Str {
  ds_name : type_name; ds_type : type_def; ds_sections : list (msection melement);
  ds_map : places; ds_name_map : places; ds_type_map : places }.
(** MSON.cc:86-89 *)
Definition structure_empty (d : structure) : bool :=
  (def_empty (ds_type d) && name_empty (ds_name d) && match ds_sections d with [] => true | _ => false end)%bool.

Definition section_map {A B} (f : A -> B) (s : msection A) : msection B :=
  Sec (sc_class s) (sc_description s) (sc_value s) (map f (sc_elements s)) (sc_description_map s) (sc_value_map s).
Definition member_map {A B} (f : A -> B) (m : mmember A) : mmember B :=
  Mem (m_description m) (m_value m) (map (section_map f) (m_sections m)) (m_map m) (m_description_map m) (m_value_map m).

(** the string of one newline *)
Definition nl : string := String "010"%char EmptyString.

(** * Results: a value with the calls of context.warn on the way, in order; or an exception, undefined behaviour, no end *)
Definition M (A : Type) := run (A * list annotation).
Definition mret {A} (a : A) : M A := ret (a, []).
Definition mbind {A B} (m : M A) (f : A -> M B) : M B :=
  bind m (fun aw => bind (f (fst aw)) (fun bw => ret (fst bw, snd aw ++ snd bw)))%list.
Definition say (w : annotation) : M unit := ret (tt, [w]).
Definition quiet {A} (m : run A) : M A := bind m (fun a => ret (a, [])).
Definition when (b : bool) (m : M unit) : M unit := if b then m else mret tt.
Section MapM.
  Context {A B : Type} (f : A -> M B).
  Fixpoint mapM (l : list A) : M (list B) :=
    match l with
    | [] => mret []
    | x :: r => mbind (f x) (fun y => mbind (mapM r) (fun ys => mret (y :: ys)))
    end.
End MapM.
Fixpoint foldW {A B} (f : A -> B -> M A) (a : A) (l : list B) : M A :=
  match l with [] => mret a | x :: r => mbind (f a x) (fun a' => foldW f a' r) end.
(** SourceAnnotation.h:103-110 MSONError *)
Definition mson_warning (text : string) (at_ : places) : annotation := Annotation text 4 at_.

(** ByteBuffer.h:46-63 RangeSet::append on the source maps *)
Definition append_places (this val : places) : places :=
  match val, rev this with
  | [], _ => this
  | v :: vr, b :: br =>
    if (location v =? (location b + len b) mod two64)%N then (rev br ++ Range (location b) ((len b + len v) mod two64) :: vr)%list
    else (this ++ val)%list
  | _, [] => val
  end.

(** * Literals *)
(** Serialize.cc:16-23 *)
Definition literal_boolean (s : string) : option bool :=
  if String.eqb s "true" then Some true else if String.eqb s "false" then Some false else None.
(** Serialize.cc:42-49 many *)
Definition digit (a : ascii) : bool := ((48 <=? byte a) && (byte a <=? 57))%N%bool.
Fixpoint many_digits (s : string) : string :=
  match s with String a r => if digit a then many_digits r else s | EmptyString => s end.
(** Serialize.cc:51-57 optional *)
Definition skip_if (p : ascii -> bool) (s : string) : string :=
  match s with String a r => if p a then r else s | EmptyString => s end.
(** Serialize.cc:110-132 the exponent; the text is not empty *)
Definition number_exponent (s : string) : bool :=
  match s with
  | String c r =>
    if ((byte c =? 101) || (byte c =? 69))%N%bool then
      match skip_if (fun a => (byte a =? 43) || (byte a =? 45))%N%bool r with
      | String d t => (digit d && match many_digits (String d t) with EmptyString => true | _ => false end)%bool
      | EmptyString => false
      end
    else false
  | EmptyString => false
  end.
(** Serialize.cc:92-108 the fraction; the text is not empty *)
Definition number_fraction (s : string) : bool :=
  match s with
  | String c r =>
    if (byte c =? 46)%N then
      match r with
      | String d _ =>
        if digit d then match many_digits r with EmptyString => true | t => number_exponent t end else false
      | EmptyString => false
      end
    else number_exponent s
  | EmptyString => false
  end.
(** Serialize.cc:59-133 isValidNumber *)
Definition is_valid_number (s : string) : bool :=
  match skip_if (fun a => byte a =? 45)%N s with
  | EmptyString => false
  | String c r =>
    if (byte c =? 48)%N then match r with EmptyString => true | _ => number_fraction r end
    else if digit c then match many_digits r with EmptyString => true | t => number_fraction t end
    else false
  end.
(** Serialize.cc:142-147 spaces to the right are ignored. Simplification: isspace is that of the C locale. *)
Fixpoint without_trailing_space (s : string) : string :=
  match s with
  | EmptyString => EmptyString
  | String a r => match without_trailing_space r with
                  | EmptyString => if is_space a then EmptyString else String a EmptyString
                  | t => String a t
                  end
  end.
(** Serialize.cc:136-154 *)
Definition literal_number (s : string) : option string :=
  let t := without_trailing_space s in if is_valid_number t then Some t else None.
(** Serialize.cc:156-160 *)
Definition literal_string (s : string) : option string := if String.eqb s "" then None else Some s.
(** LiteralTo of the value type of a primitive element: whether it converted, and the value (the default value if not;
    the given string in any case for strings) *)
Definition literal_to (k : kind) (s : string) : bool * dsd element :=
  match k with
  | KBoolean => match literal_boolean s with Some b => (true, DBoolean b) | None => (false, DBoolean false) end
  | KNumber => match literal_number s with Some n => (true, DNumber n) | None => (false, DNumber "0") end
  | _ => (match literal_string s with Some _ => true | None => false end, DString s)
  end.

(** * Elements made from literals: RefractElementFactory.cc *)
Inductive method := eValue | eSample | eElement.
(** RefractElementFactory.h:48-54, .cc:14-58 for primitives, 60-81 for the others *)
Definition create_primitive (k : kind) (literal : string) (m : method) : element :=
  if String.eqb literal "" then make_empty k else
  match m with
  | eSample =>
    set_attrs (make_empty k)
      (iset [] "samples" (let (ok, v) := literal_to k literal in
                          if ok then make_element (DArray [make_element v]) else make_empty KArray))
  | eValue => let (ok, v) := literal_to k literal in if ok then make_element v else make_empty k
  | eElement => set_name (make_empty k) literal
  end.
Definition create_complex (k : kind) (literal : string) (m : method) : element :=
  match m with
  | eSample => set_name (make_element (DString literal)) "generic"
  | _ => if String.eqb literal "" then make_empty k else set_name (make_empty k) literal
  end.
(** RefractElementFactory.cc:83-112 FactoryFromType *)
Definition kind_of (b : base_name) : kind :=
  match b with
  | BooleanTN => KBoolean | NumberTN => KNumber | StringTN => KString
  | ArrayTN => KArray | EnumTN => KEnum | ObjectTN | UndefinedTN => KObject
  end.
(** ElementData.h:17-39 is_primitive *)
Definition is_primitive (k : kind) : bool := match k with KBoolean | KNumber | KString => true | _ => false end.
Definition create (b : base_name) (literal : string) (m : method) : element :=
  if is_primitive (kind_of b) then create_primitive (kind_of b) literal m else create_complex (kind_of b) literal m.

(** * Queries *)
(** RefractDataStructure.cc:152-171 SelectNestedTypeSpecification *)
Definition select_nested (l : list type_name) : base_name :=
  match l with
  | [n] => match n_base n with BooleanTN => BooleanTN | NumberTN => NumberTN | _ => StringTN end
  | _ => StringTN
  end.
(** MsonTypeSectionToApie.cc:25-54 NamedTypeFromElement, RefractDataStructure.cc:333-366 RefractElementTypeToMsonType *)
Definition base_of_kind (k : kind) : base_name :=
  match k with
  | KBoolean => BooleanTN | KNumber => NumberTN | KString => StringTN
  | KArray => ArrayTN | KEnum => EnumTN | KObject => ObjectTN | _ => UndefinedTN
  end.
(** RefractDataStructure.cc:117-150 MsonTypeAttributesToRefract *)
Definition attribute_names (ta : N) : list string :=
  map snd (filter (fun bn => N.testbit ta (fst bn))
             [(RequiredTA, "required"); (OptionalTA, "optional"); (FixedTA, "fixed"); (FixedTypeTA, "fixedType"); (NullableTA, "nullable")]%string).
Definition attributes_to_refract (ta : N) : option element :=
  match attribute_names ta with [] => None | l => Some (make_element (DArray (map str_elem l))) end.
(** VisitorUtils.h:22-48 HasTypeAttribute; None: get() of an empty element *)
Fixpoint any_string (name : string) (l : list element) : option bool :=
  match l with
  | [] => Some false
  | x :: r =>
    match edata x with
    | DString s => if ehas x then (if String.eqb s name then Some true else any_string name r) else None
    | _ => any_string name r
    end
  end.
Definition has_type_attribute (e : element) (name : string) : option bool :=
  match ifind (eattrs e) "typeAttributes" with
  | Some (Elem _ _ _ h (DArray l)) => if h then any_string name l else None
  | _ => Some false
  end.
(** VisitorUtils.cc:74-92 IsLiteral. TypeQueryVisitor::Null and ::Unknown are one. *)
Definition is_literal (e : element) : option bool :=
  match ekind e with
  | KNull => Some false
  | KString | KNumber | KBoolean => if ehas e then Some true else has_type_attribute e "fixed"
  | _ => has_type_attribute e "fixed"
  end.
(** ElementUtils.cc:196-218 setTypeAttribute(e, "fixed"). None: get() of an empty array *)
Definition set_fixed (e : element) : option element :=
  match ifind (eattrs e) "typeAttributes" with
  | None => Some (set_attrs e (iset (eattrs e) "typeAttributes" (make_element (DArray [str_elem "fixed"]))))
  | Some (Elem n m a h (DArray l)) =>
    if h then
      if existsb (type_entry "fixed") l then Some e
      else Some (set_attrs e (iset (eattrs e) "typeAttributes" (Elem n m a h (DArray (l ++ [str_elem "fixed"])))))
    else None
  | Some _ => Some e
  end.
(** InfoElementsUtils.h:48-83 AppendInfoElement<ArrayElement>(attributes, "typeAttributes", "fixed") *)
Definition append_fixed (e : element) : option element :=
  match ifind (eattrs e) "typeAttributes" with
  | None => Some (set_attrs e (iset (eattrs e) "typeAttributes" (make_element (DArray [str_elem "fixed"]))))
  | Some (Elem n m a h (DArray l)) =>
    if h then
      match any_string "fixed" l with
      | None => None
      | Some true => Some e
      | Some false => Some (set_attrs e (iset (eattrs e) "typeAttributes" (Elem n m a h (DArray (l ++ [str_elem "fixed"])))))
      end
    else Some (set_attrs e (iset (eattrs e) "typeAttributes" (Elem n m a true (DArray [str_elem "fixed"]))))
  | Some _ => None
  end.

(** ElementComparator.h:26-46 SortedRef: ignored keys dropped, the rest in the order of the keys. Simplification: std::sort
    of equal keys keeps their order. *)
Fixpoint key_insert (x : string * element) (l : info) : info :=
  match l with
  | [] => [x]
  | y :: r => match String.compare (fst x) (fst y) with Gt => y :: key_insert x r | _ => x :: l end
  end.
Definition sorted_info (ignore : string) (l : info) : info :=
  fold_right key_insert [] (filter (fun kv => negb (String.eqb (fst kv) ignore)) l).
(** ElementComparator.h:68-135 Equal with "sourceMap" ignored in the attributes and "description" in the meta data. None: the
    elements have the same name and hold values of different types (a null pointer is dereferenced, :121), or == fails. *)
Definition equal_ignoring (x y : element) : option bool :=
  oand (Some (Bool.eqb (eempty x) (eempty y)))
    (oand (Some (String.eqb (ename x) (ename y)))
       (oand (info_eq elem_eq (sorted_info "description" (emeta x)) (sorted_info "description" (emeta y)))
          (oand (info_eq elem_eq (sorted_info "sourceMap" (eattrs x)) (sorted_info "sourceMap" (eattrs y)))
             (if eempty x then Some true
              else if kind_beq (ekind x) (ekind y) then dsd_eq elem_eq (edata x) (edata y) else None)))).

(** * The data collected for an element: ElementData.h:53-99; V is the stored type *)
Record data (V : Type) : Type := Data {
  inlines : list (V * places); values : list (V * places); defaults : list (V * places);
  samples : list (V * places); hints : list (V * places); descriptions : list (string * places) }.
Arguments Data {V} _ _ _ _ _ _. Arguments inlines {V} _. Arguments values {V} _. Arguments defaults {V} _.
Arguments samples {V} _. Arguments hints {V} _. Arguments descriptions {V} _.
Definition no_data {V} : data V := Data [] [] [] [] [] [].
Definition add_inline {V} (d : data V) (x : V * places) := Data (inlines d ++ [x])%list (values d) (defaults d) (samples d) (hints d) (descriptions d).
Definition add_value {V} (d : data V) (x : V * places) := Data (inlines d) (values d ++ [x])%list (defaults d) (samples d) (hints d) (descriptions d).
Definition add_default {V} (d : data V) (x : V * places) := Data (inlines d) (values d) (defaults d ++ [x])%list (samples d) (hints d) (descriptions d).
Definition add_sample {V} (d : data V) (x : V * places) := Data (inlines d) (values d) (defaults d) (samples d ++ [x])%list (hints d) (descriptions d).
Definition add_hint {V} (d : data V) (x : V * places) := Data (inlines d) (values d) (defaults d) (samples d) (hints d ++ [x])%list (descriptions d).
Definition add_description {V} (d : data V) (x : string * places) := Data (inlines d) (values d) (defaults d) (samples d) (hints d) (descriptions d ++ [x])%list.

(** ElementInfoUtils.h:38-56 Merge for lists *)
Definition merge_infos (l : list (list element * places)) : list element * places :=
  fold_left (fun r i => (fst r ++ fst i, append_places (snd r) (snd i)))%list l ([], []).

(** RefractSourceMap.h:20-26 AttachSourceMap *)
Definition attach (e : element) (p : places) : element :=
  match p with [] => e | _ => set_attrs e (iset (eattrs e) "sourceMap" (SourceMapToRefract p)) end.
(** RefractDataStructure.cc:110-115 SetElementType *)
Definition set_element_type (e : element) (t : type_def) : element :=
  let s := s_literal (n_symbol (t_name (td_spec t))) in if String.eqb s "" then e else set_name e s.
(** RefractDataStructure.cc:929-961 DescriptionToRefract *)
Definition join_descriptions (l : list (string * places)) : string * places :=
  fold_left (fun r i =>
    if String.eqb (fst i) "" then r
    else ((if String.eqb (fst r) "" then fst r else fst r +++ nl) +++ fst i, append_places (snd r) (snd i))%string) l (""%string, []).
Definition description_to_refract (l : list (string * places)) : option element :=
  match l with
  | [] => None
  | _ => let (t, p) := join_descriptions l in if String.eqb t "" then None else Some (attach (str_elem t) p)
  end.
Definition set_description (e : element) (o : option element) : element :=
  match o with Some d => set_meta e (iset (emeta e) "description" d) | None => e end.
Definition set_type_attributes (e : element) (ta : N) : element :=
  match attributes_to_refract ta with Some a => set_attrs e (iset (eattrs e) "typeAttributes" a) | None => e end.

Section Conversion.
  (** context.typeRegistry(), and the number of steps granted to FindRootAncestor *)
  Context (fuel : nat) (r : registry).

  Definition root_ancestor (name : string) : run (option element) :=
    match FindRootAncestor fuel r name with Some x => ret x | None => None end.
  (** MsonTypeSectionToApie.cc:57-71 ResolveType *)
  Definition resolve_type (s : type_spec) : run base_name :=
    let n := t_name s in
    match n_base n with
    | UndefinedTN =>
      if String.eqb (s_literal (n_symbol n)) "" then ret UndefinedTN
      else bind (root_ancestor (s_literal (n_symbol n)))
             (fun o => ret (match o with Some e => base_of_kind (ekind e) | None => UndefinedTN end))
    | b => ret b
    end.
  (** RefractDataStructure.cc:368-378 GetMsonTypeFromName *)
  Definition type_from_name (name : string) : run base_name :=
    bind (root_ancestor name) (fun o => ret (match o with Some e => base_of_kind (ekind e) | None => UndefinedTN end)).

  (** An element of the tree, ready to be converted: what MsonTypeSectionToApie does with it, given the default nested type.
      The null pointer is None. *)
  Definition conv := base_name -> M (option element).

  (** MsonTypeSectionToApie.h:72-84 MsonTypeSectionsToApie *)
  Definition sections_to_apie (d : base_name) (l : list conv) : M (list element) :=
    mbind (mapM (fun c => c d) l) (fun os => mret (flat_map (fun o => match o with Some e => [e] | None => [] end) os)).

  (** RefractDataStructure.cc:44-47 hasContent *)
  Definition has_content (s : msection conv) : bool :=
    negb (String.eqb (sc_value s) "" && match sc_elements s with [] => true | _ => false end)%bool.

  (** RefractDataStructure.cc:229-246: literals among the elements of an enumeration become fixed *)
  Definition fix_literal (e : element) : run element :=
    bind (lift (is_literal e)) (fun b => if (b : bool) then lift (set_fixed e) else ret e).

  (** RefractDataStructure.cc:196-246 ExtractTypeSection::Fetch *)
  Definition fetch_text (s : msection conv) : M string := mret (sc_value s).
  Definition fetch_elements (d : base_name) (s : msection conv) : M (list element) := sections_to_apie d (sc_elements s).
  Definition fetch_enum (d : base_name) (s : msection conv) : M (list element) :=
    mbind (sections_to_apie d (sc_elements s)) (fun l => quiet (mapR fix_literal l)).

  (** RefractDataStructure.cc:303-330 ExtractTypeSection: the members of a primitive are not stored (252-264) *)
  Definition extract_section {V} (primitive : bool) (fetch : msection conv -> M V) (d : data V) (s : msection conv) : M (data V) :=
    let with_map v := (v, sc_value_map s) in
    match sc_class s with
    | MemberTypeClass => if primitive then mret d else mbind (fetch s) (fun v => mret (add_value d (with_map v)))
    | SampleClass => if has_content s then mbind (fetch s) (fun v => mret (add_sample d (with_map v))) else mret d
    | DefaultClass => if has_content s then mbind (fetch s) (fun v => mret (add_default d (with_map v))) else mret d
    | BlockDescriptionClass => mret (add_description d (sc_description s, sc_description_map s))
    | UndefinedClass => throw "unknown section type"
    end.

  (** RefractDataStructure.cc:396-435 ExtractTypeDefinition::Fetch for one nested type *)
  Definition nested_type (at_ : places) (n : type_name) : M (list element) :=
    let literal := s_literal (n_symbol n) in
    match n_base n with
    | UndefinedTN =>
      if String.eqb literal "" then mret [create UndefinedTN literal eValue]
      else mbind (quiet (type_from_name literal)) (fun b =>
             match b, s_variable (n_symbol n) with
             | UndefinedTN, false =>
               mbind (say (mson_warning ("Undefined named type '" +++ literal +++ "' referenced in type definition") at_)%string)
                 (fun _ => mret [])
             | b, v => mret [create b literal (if v then eSample else eElement)]
             end)
    | b => mret [create b literal eValue]
    end.
  (** RefractDataStructure.cc:396-464 ExtractTypeDefinition of an array, an object or an enumeration *)
  Definition extract_definition (t : type_def) (at_ : places) (d : data (list element)) : M (data (list element)) :=
    mbind (mapM (nested_type at_) (t_nested (td_spec t))) (fun l => mret (add_hint d (concat l, []))).

  (** RefractDataStructure.cc:484-543 ExtractValueMember::Fetch *)
  Definition value_text (m : mmember conv) : M string :=
    match vd_values (m_value m) with
    | [v] => mret (v_literal v)
    | [] => undefined
    | _ => throw "only one value is supported for primitive types"
    end.
  Definition nested_of (m : mmember conv) : base_name := select_nested (t_nested (td_spec (vd_type (m_value m)))).
  Definition value_elements (m : mmember conv) : M (list element) :=
    mret (map (fun v => create (nested_of m) (v_literal v) (if v_variable v then eSample else eValue)) (vd_values (m_value m))).
  Definition value_enum (m : mmember conv) : M (list element) :=
    quiet (mapR (fun v => fix_literal (create (nested_of m) (v_literal v) eValue)) (vd_values (m_value m))).

  (** RefractDataStructure.cc:566-630 ExtractValueMember. [variable_counts]: the value type is not iterable (545-559);
      [definition]: ExtractTypeDefinition. *)
  Definition extract_value {V} (variable_counts : bool) (fetch : mmember conv -> M V) (definition : data V -> M (data V))
      (m : mmember conv) : M (data V) :=
    let t := vd_type (m_value m) in
    match td_base t with
    | ObjectBT | ImplicitObjectBT => mret no_data
    | _ =>
      mbind
        match vd_values (m_value m) with
        | v :: _ =>
          if N.testbit (td_attrs t) DefaultTA then mbind (fetch m) (fun x => mret (add_default no_data (x, m_value_map m)))
          else if (N.testbit (td_attrs t) SampleTA || (variable_counts && v_variable v))%bool
               then mbind (fetch m) (fun x => mret (add_sample no_data (x, m_value_map m)))
               else mbind (fetch m) (fun x => mret (add_inline no_data (x, m_value_map m)))
        | [] =>
          mbind (when (N.testbit (td_attrs t) DefaultTA) (say (mson_warning "no value present when 'default' is specified" (m_map m)))) (fun _ =>
          mbind (when (N.testbit (td_attrs t) SampleTA) (say (mson_warning "no value present when 'sample' is specified" (m_map m)))) (fun _ =>
          mret no_data))
        end
        (fun d =>
          let d := if String.eqb (m_description m) "" then d else add_description d (m_description m, m_description_map m) in
          match vd_values (m_value m), t_nested (td_spec t) with
          | [], _ | _, _ :: _ :: _ => definition d
          | _, _ => mret d
          end)
    end.

  (** * From the data to the element *)
  (** RefractDataStructure.cc:68-108 CheckValueValidity *)
  Definition check_text (k : kind) (i : string * places) : M unit :=
    match k with
    | KNumber => match literal_number (fst i) with
                 | Some _ => mret tt
                 | None => say (mson_warning "invalid value format for 'number' type. please check mson specification for valid format" (snd i))
                 end
    | KBoolean => match literal_boolean (fst i) with
                  | Some _ => mret tt
                  | None => say (mson_warning "invalid value for 'boolean' type. allowed values are 'true' or 'false'" (snd i))
                  end
    | _ => mret tt
    end.
  (** RefractDataStructure.cc:682-704 SaveValue of a primitive. data.values is moved from when it is asked for being empty:
      always the first of the inlines, or no literal at all, is taken. *)
  Definition save_text (k : kind) (d : data string) (e : element) : element :=
    match inlines d, values d with
    | [], [] => e
    | _, _ =>
      let (v, p) := match inlines d with x :: _ => x | [] => (""%string, []) end in
      attach (eset e (snd (literal_to k v))) p
    end.
  (** RefractDataStructure.cc:633-642 ElementInfoToElement of a primitive *)
  Definition text_element (k : kind) (i : string * places) : element :=
    let (ok, v) := literal_to k (fst i) in if ok then make_element v else make_empty k.
  (** RefractDataStructure.cc:644-652 of an array or an object: push_back, one after another *)
  Definition content_of (k : kind) (l : list element) : dsd element :=
    match k with KObject => DObject (fold_left obj_push_back l []) | _ => DArray l end.
  Definition list_element (k : kind) (i : list element * places) : element := make_element (content_of k (fst i)).
  (** RefractDataStructure.cc:706-722 SaveValue of an array or an object *)
  Definition save_list (k : kind) (d : data (list element)) (e : element) : element :=
    let h := fst (merge_infos (hints d)) in
    let i := fst (merge_infos (inlines d)) in
    let v := fst (merge_infos (values d)) in
    match (h ++ i ++ v)%list with
    | [] => e
    | l => if eempty e then eset e (content_of k l) else e
    end.
  (** RefractDataStructure.cc:730-739: the value of an enumeration *)
  Definition single (l : list (list element * places)) : option element :=
    match l with
    | ([x], _) :: _ => if eempty x then None else Some (clone_all x)
    | _ => None
    end.
  (** RefractDataStructure.cc:747-768 addToEnumerations, and the same test at 772-783 *)
  Fixpoint found (p : element -> option bool) (l : list element) : option bool :=
    match l with [] => Some false | x :: t => match p x with Some true => Some true | Some false => found p t | None => None end end.
  Definition add_to_enumerations (p : places) (report : bool) (enums : list element) (x : element) : M (list element) :=
    mbind (quiet (lift (found (equal_ignoring x) enums))) (fun b =>
      if (b : bool) then mbind (when report (say (mson_warning "duplicit value in enumeration" p))) (fun _ => mret enums)
      else mret (enums ++ [x])%list).
  Fixpoint filterO (p : element -> option bool) (l : list element) : option (list element) :=
    match l with
    | [] => Some []
    | x :: t => match p x, filterO p t with Some b, Some t' => Some (if b then x :: t' else t') | _, _ => None end
    end.
  Definition not_in (l : list element) (x : element) : option bool := option_map negb (found (fun v => equal_ignoring v x) l).
  (** RefractDataStructure.cc:809-822 *)
  Definition fix_entry (e : element) : run element :=
    bind (lift (is_literal e)) (fun b => if (b : bool) then lift (append_fixed e) else ret e).
  (** RefractDataStructure.cc:725-823 SaveValue of an enumeration *)
  Definition save_enum (d : data (list element)) (e : element) : M element :=
    let e := match single (inlines d) with
             | Some x => eset e (DEnum (Some x))
             | None => match single (values d) with Some x => eset e (DEnum (Some x)) | None => e end
             end in
    let (il, ip) := merge_infos (inlines d) in
    let (vl, vp) := merge_infos (values d) in
    let (hl, hp) := merge_infos (hints d) in
    let (sl, sp) := merge_infos (map (fun i => (map clone_all (fst i), snd i)) (samples d)) in
    let (dl, dp) := merge_infos (map (fun i => (map clone_all (fst i), snd i)) (defaults d)) in
    mbind (quiet (lift (filterO (not_in vl) il))) (fun il =>
    mbind (foldW (add_to_enumerations ip true) [] il) (fun enums =>
    mbind (foldW (add_to_enumerations vp true) enums vl) (fun enums =>
    mbind (foldW (add_to_enumerations sp false) enums sl) (fun enums =>
    mbind (foldW (add_to_enumerations dp false) enums dl) (fun enums =>
    mbind (foldW (add_to_enumerations hp true) enums hl) (fun enums =>
    match enums with
    | [] => mret e
    | _ => mbind (quiet (mapR fix_entry enums)) (fun enums =>
             mret (set_attrs e (iset (eattrs e) "enumerations" (make_element (DArray (map clone_all enums))))))
    end)))))).

  (** RefractDataStructure.cc:826-843 AllElementsToAtribute, 845-864 of an enumeration *)
  Definition set_samples (l : list element) (e : element) : element :=
    match l with [] => e | _ => set_attrs e (iset (eattrs e) "samples" (make_element (DArray l))) end.
  Definition enum_of (x : element) : element := make_element (DEnum (Some x)).
  (** RefractDataStructure.cc:866-877 LastElementToAttribute *)
  Definition set_last_default {V} (f : V * places -> element) (l : list (V * places)) (e : element) : element :=
    match rev l with [] => e | i :: _ => set_attrs e (iset (eattrs e) "default" (f i)) end.
  (** RefractDataStructure.cc:879-895 CheckForMultipleDefaultDefinitions, 897-920 LastElementToAttribute of an enumeration *)
  Definition set_enum_default (l : list (list element * places)) (e : element) : M element :=
    match l with
    | [] => mret e
    | (v, _) :: more =>
      mbind (when match more, v with [], [] | [], [_] => false | _, _ => true end
                  (say (mson_warning "multiple definitions of 'default' value" (fold_left (fun p i => append_places p (snd i)) l []))))
        (fun _ =>
          mret (set_attrs e (iset (eattrs e) "default"
            match rev (fst (merge_infos l)) with [] => make_empty KEnum | x :: _ => enum_of x end)))
    end.

  (** RefractDataStructure.cc:922-942 ElementDataToElement *)
  Definition finish_text (k : kind) (d : data string) (e : element) : M element :=
    mbind (mapM (check_text k) (inlines d ++ values d ++ samples d ++ defaults d ++ hints d)%list) (fun _ =>
      mret (set_last_default (text_element k) (defaults d) (set_samples (map (text_element k) (samples d)) (save_text k d e)))).
  Definition finish_list (k : kind) (d : data (list element)) (e : element) : M element :=
    mret (set_last_default (list_element k) (defaults d) (set_samples (map (list_element k) (samples d)) (save_list k d e))).
  Definition finish_enum (d : data (list element)) (e : element) : M element :=
    mbind (save_enum d e) (fun e =>
      set_enum_default (defaults d) (set_samples (map enum_of (fst (merge_infos (samples d)))) e)).

  (** * Members *)
  (** RefractDataStructure.cc:966-994 RefractElementFromValue, once per kind of element; with the descriptions *)
  Definition described := (element * list (string * places))%type.
  Definition start_value (k : kind) (m : mmember conv) : element :=
    attach (set_element_type (make_empty k) (vd_type (m_value m))) (m_map m).
  Definition value_of_text (k : kind) (m : mmember conv) : M described :=
    mbind (extract_value true value_text mret m) (fun d =>
    mbind (foldW (extract_section true fetch_text) d (m_sections m)) (fun d =>
    mbind (finish_text k d (start_value k m)) (fun e => mret (e, descriptions d)))).
  Definition value_of_list (k : kind) (m : mmember conv) : M described :=
    mbind (extract_value false value_elements (extract_definition (vd_type (m_value m)) []) m) (fun d =>
    mbind (foldW (extract_section false (fetch_elements (nested_of m))) d (m_sections m)) (fun d =>
    mbind (finish_list k d (start_value k m)) (fun e => mret (e, descriptions d)))).
  Definition value_of_enum (m : mmember conv) : M described :=
    mbind (extract_value true value_enum (extract_definition (vd_type (m_value m)) []) m) (fun d =>
    mbind (foldW (extract_section false (fetch_enum (nested_of m))) d (m_sections m)) (fun d =>
    mbind (finish_enum d (start_value KEnum m)) (fun e => mret (e, descriptions d)))).
  Definition element_from_value (k : kind) (m : mmember conv) : M described :=
    match k with
    | KEnum => value_of_enum m
    | KArray | KObject => value_of_list k m
    | _ => value_of_text k m
    end.

  (** RefractDataStructure.cc:996-1009 VariablePropertyIsString *)
  Definition variable_is_string (v : value_def) : run bool :=
    match n_base (t_name (td_spec (vd_type v))) with
    | StringTN => ret true
    | _ => bind (root_ancestor (s_literal (n_symbol (t_name (td_spec (vd_type v))))))
             (fun o => ret (match o with Some e => is_kind KString e | None => false end))
    end.
  (** RefractDataStructure.cc:1011-1052 GetPropertyKey *)
  Definition property_key (n : prop_name) : M element :=
    let at_ := append_places [] (p_map n) in
    let v := p_variable n in
    mbind
      (if value_empty v then mret (make_empty KString)
       else
         mbind (when (1 <? List.length (vd_values v))%nat
                  (say (mson_warning "multiple variables in property definition is not implemented" at_))) (fun _ =>
         mbind (if def_empty (vd_type v) then mret (make_empty KString)
                else mbind (quiet (variable_is_string v)) (fun b =>
                       if (b : bool) then mret (set_element_type (make_empty KString) (vd_type v))
                       else throw "'variable named property' must be string or its sub-type")) (fun key =>
         mret (match vd_values v with x :: _ => eset key (DString (v_literal x)) | [] => key end))))
      (fun key =>
        let key := if String.eqb (p_literal n) "" then key else eset key (DString (p_literal n)) in
        mret (attach key at_)).
  (** RefractDataStructure.cc:1054-1068 validKey. None: get() of an empty element *)
  Definition valid_key (key : element) : option bool :=
    if is_reserved (ename key) then
      match find_value key with
      | Some x => match edata x with
                  | DString s => if ehas x then Some (negb (String.eqb s "")) else None
                  | _ => Some false
                  end
      | None => Some false
      end
    else Some true.

  (** RefractDataStructure.cc:1070-1119 RefractElementFromProperty *)
  Definition property_descriptions (m : mmember conv) : list (string * places) :=
    let blocks := flat_map (fun s => match sc_class s with BlockDescriptionClass => [(sc_description s, sc_description_map s)] | _ => [] end) (m_sections m) in
    if String.eqb (m_description m) "" then blocks
    else match blocks with
         | [] => [(m_description m, m_description_map m)]
         | _ => ((m_description m +++ nl)%string, m_description_map m) :: blocks
         end.
  Definition element_from_property (k : kind) (n : prop_name) (m : mmember conv) : M (option element) :=
    mbind (property_key n) (fun key =>
    mbind (quiet (lift (valid_key key))) (fun ok =>
    if (ok : bool) then
      mbind (element_from_value k m) (fun v =>
        let e := make_element (DMember (Some key) (Some (fst v))) in
        let e := if value_empty (p_variable n) then e else set_attrs e (iset (eattrs e) "variable" (make_element (DBoolean true))) in
        let e := set_type_attributes e (td_attrs (vd_type (m_value m))) in
        mret (Some (set_description e (description_to_refract (property_descriptions m)))))
    else mret None)).

  (** RefractDataStructure.cc:1157-1178 ValueTrait *)
  Definition element_of_value (k : kind) (m : mmember conv) : M (option element) :=
    mbind (element_from_value k m) (fun v =>
      mret (Some (set_description (set_type_attributes (fst v) (td_attrs (vd_type (m_value m)))) (description_to_refract (snd v))))).

  (** RefractDataStructure.cc:1180-1212 CheckTypeAttributesClash *)
  Definition check_clash (ta : N) (at_ : places) : M unit :=
    let both a b text := when (N.testbit ta a && N.testbit ta b) (say (mson_warning text at_)) in
    mbind (both FixedTA OptionalTA "cannot use 'fixed' and 'optional' together"%string) (fun _ =>
    mbind (both RequiredTA OptionalTA "cannot use 'required' and 'optional' together"%string) (fun _ =>
    mbind (both DefaultTA SampleTA "cannot use 'default' and 'sample' together"%string) (fun _ =>
    both FixedTA FixedTypeTA "cannot use 'fixed' and 'fixed-type' together"%string))).
  (** RefractDataStructure.cc:1121-1142, 1214-1262 MsonMemberToRefract: the kind of the element *)
  Definition choose_kind (name default : base_name) (m : mmember conv) : kind :=
    match name with
    | UndefinedTN =>
      if (1 <? List.length (vd_values (m_value m)))%nat then KArray
      else if (negb (String.eqb (s_literal (n_symbol (t_name (td_spec (vd_type (m_value m)))))) "")
               || existsb (fun s => match sc_class s with MemberTypeClass => true | _ => false end) (m_sections m))%bool then KObject
      else match default with UndefinedTN => KString | d => kind_of d end
    | b => kind_of b
    end.
  Definition member_to_refract (default : base_name) (m : mmember conv) (invoke : kind -> M (option element)) : M (option element) :=
    mbind (quiet (resolve_type (td_spec (vd_type (m_value m))))) (fun name =>
    mbind (check_clash (td_attrs (vd_type (m_value m))) (m_value_map m)) (fun _ =>
    invoke (choose_kind name default m))).

  (** MsonTypeSectionToApie.cc:106-147 the reference of a mixin. The failing assertions are undefined. *)
  Definition apie_symbol (n : type_name) : run string :=
    if name_empty n then undefined
    else if symbol_empty (n_symbol n) then
      match n_base n with UndefinedTN => undefined | b => ret (kind_name (kind_of b)) end
    else ret (s_literal (n_symbol n)).
  Definition mixin_to_apie (t : type_def) : M (option element) :=
    mbind (quiet (apie_symbol (t_name (td_spec t)))) (fun s =>
      mret (Some (set_attrs (make_element (DRef s)) (iset [] "path" (str_elem "content"))))).

  (** MsonOneOfSectionToApie.cc:17-90: an option per alternative; without an element an option without content *)
  Definition option_of (o : option element) : element :=
    make_element (DOption match o with Some e => [e] | None => [] end).
  Definition select_of (l : list element) : element :=
    match l with [] => make_empty KSelect | _ => make_element (DSelect l) end.

  (** MsonTypeSectionToApie.cc:73-197. A group is converted only as an alternative (MsonOneOfSectionToApie.cc:61-71): the
      second result is the element as an alternative. *)
  Fixpoint convert (e : melement) : conv * M element :=
    match e with
    | MEmpty => (fun _ => throw "unknown type of mson element", throw "unknown type of mson element")
    | MProperty n m =>
      let m := member_map (fun x => fst (convert x)) m in
      let c d := member_to_refract d m (fun k => element_from_property k n m) in
      (c, mbind (c StringTN) (fun o => mret (option_of o)))
    | MValue m =>
      let m := member_map (fun x => fst (convert x)) m in
      let c d := member_to_refract d m (fun k => element_of_value k m) in
      (c, mbind (c StringTN) (fun o => mret (option_of o)))
    | MMixin t => (fun _ => mixin_to_apie t, mbind (mixin_to_apie t) (fun o => mret (option_of o)))
    | MOneOf l =>
      let s := mbind (mapM (fun x => snd (convert x)) l) (fun os => mret (select_of os)) in
      (fun _ => mbind s (fun e => mret (Some e)), mbind s (fun e => mret (option_of (Some e))))
    | MGroup l =>
      (fun _ => throw "unable to handle element group",
       mbind (sections_to_apie StringTN (map (fun x => fst (convert x)) l)) (fun es => mret (make_element (DOption es))))
    end.
  Definition to_apie (e : melement) : conv := fst (convert e).

  (** * Data structures: RefractDataStructure.cc:1265-1338 *)
  Definition start_structure (k : kind) (s : structure) : element :=
    let e := set_element_type (make_empty k) (ds_type s) in
    let id := s_literal (n_symbol (ds_name s)) in
    let e := if String.eqb id "" then e else set_meta e (iset (emeta e) "id" (attach (str_elem id) (append_places [] (ds_name_map s)))) in
    set_type_attributes (attach e (ds_map s)) (td_attrs (ds_type s)).
  Definition structure_of {V} (primitive : bool) (fetch : msection conv -> M V) (definition : data V -> M (data V))
      (finish : data V -> element -> M element) (k : kind) (s : structure) : M element :=
    mbind (definition no_data) (fun d =>
    mbind (foldW (extract_section primitive fetch) d (map (section_map to_apie) (ds_sections s))) (fun d =>
    finish d (set_description (start_structure k s) (description_to_refract (descriptions d))))).
  Definition structure_to_refract (s : structure) : M (option element) :=
    if structure_empty s then mret None else
    let nested := select_nested (t_nested (td_spec (ds_type s))) in
    mbind (quiet (resolve_type (td_spec (ds_type s)))) (fun b =>
    mbind match kind_of b with
          | KEnum => structure_of false (fetch_enum nested) (extract_definition (ds_type s) (ds_type_map s)) finish_enum KEnum s
          | KArray => structure_of false (fetch_elements nested) (extract_definition (ds_type s) (ds_type_map s)) (finish_list KArray) KArray s
          | KObject => structure_of false (fetch_elements nested) (extract_definition (ds_type s) (ds_type_map s)) (finish_list KObject) KObject s
          | k => structure_of true fetch_text mret (finish_text k) k s
          end
      (fun e => mret (Some e))).
End Conversion.
