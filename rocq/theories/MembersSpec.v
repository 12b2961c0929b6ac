(** Specification for C80: the MSON tree a list item of attributes or of a member stands for, and what is said about it on the way. Texts are read as in C74 and C79,
    keywords are those of C75; of Mson only the types of the tree are used. *)
From Verif Require Import Base StringSpec ByteBuffer ByteSpec Markdown MarkdownSpec KeywordsSpec SignatureSpec TypeTables SourceMap Mson TypeDefsSpec.
From Verif Require SectionsSpec PayloadsSpec.
Import SectionsSpec(a_header, an_item, include_item, one_of_item, object_base, value_base, primitive_base).
Import PayloadsSpec(the_text, place, opens, row, padded).
Local Open Scope string_scope.

(** ** nodes *)
Definition says (P : string -> Prop) (t : tree) : Prop := item_says P t \/ header_says P t.
Inductive kind : Type := ValuesKind | ItemsKind | PropertiesKind.
Inductive kind_says : tree -> kind -> Prop :=
| kind_values : forall t, says reads_default t \/ says reads_sample t -> kind_says t ValuesKind
| kind_items : forall t, says reads_members t -> kind_says t ItemsKind
| kind_properties : forall t, says reads_properties t -> kind_says t PropertiesKind.
Definition section_node (t : tree) : Prop := exists k, kind_says t k.
(** neither a header nor a list item *)
Definition text_node (t : tree) : Prop := ~ a_header t /\ ~ an_item t.
Definition other_item (t : tree) : Prop := an_item t /\ ~ section_node t /\ ~ include_item t /\ ~ one_of_item t.
(** the source map of a node *)
Definition lies (t : tree) : places := map (fun r => Range (ByteBuffer.location r) (ByteBuffer.length r)) (place t).
Definition lies_unless (nothing : bool) (t : tree) : places := if nothing then [] else lies t.
(** a header in a list item is read with its signs *)
Definition given_text (t : tree) : string := match t with Tree HeaderNode x z _ _ => run_of (Z.to_nat z) "#"%char +++ x | _ => "" end.

(** ** what is done on the way, and at which node *)
Notation located := (list (places * effect)).
Definition on (t : tree) (l : list effect) : located := map (pair (lies t)) l.
Definition unexpected_node (t : tree) : located :=
  on t [Says 5 (match t with
                | Tree HeaderNode _ _ _ _ =>
                  "unexpected header block, expected a group, resource or an action definition, e.g. '# Group <name>', '# <resource name> [<URI>]' or '# <HTTP method> <URI>'"
                | _ => "ignoring unrecognized block"
                end)].

Notation sections := (list (msection melement)).
Definition text_section (d : string) (m : places) : msection melement := Sec BlockDescriptionClass d "" [] m [].
Definition members_section (l : list melement) : msection melement := Sec MemberTypeClass "" "" l [] [].
(** put into the last section if it is one of members, or into a new one; not behind a text *)
Inductive into (x : list melement) : sections -> sections -> Prop :=
| into_last : forall k d v es m n, into x (k ++ [Sec MemberTypeClass d v es m n])%list (k ++ [Sec MemberTypeClass d v (es ++ x) m n])%list
| into_new : forall l, (forall k s, l = (k ++ [s])%list -> sc_class s <> MemberTypeClass /\ sc_class s <> BlockDescriptionClass) ->
    into x l (l ++ [members_section x])%list.
(** the base type, if none is known, is told from the node *)
Inductive told_by_member (t : tree) : base_type -> base_type -> Prop :=
| told_known : forall b, b <> UndefinedBT -> told_by_member t b b
| told_item : an_item t -> told_by_member t UndefinedBT ImplicitObjectBT
| told_nothing : ~ an_item t -> told_by_member t UndefinedBT UndefinedBT.
Inductive told_by_section : kind -> base_type -> base_type -> Prop :=
| section_known : forall k b, b <> UndefinedBT -> told_by_section k b b
| section_values : told_by_section ValuesKind UndefinedBT ImplicitPrimitiveBT
| section_properties : told_by_section PropertiesKind UndefinedBT ImplicitObjectBT
| section_items : told_by_section ItemsKind UndefinedBT UndefinedBT.
Definition same_kind (a b : base_type) : Prop :=
  (object_base a /\ object_base b) \/ (value_base a /\ value_base b) \/ (primitive_base a /\ primitive_base b) \/ (a = UndefinedBT /\ b = UndefinedBT).
(** a member that is an object with a value *)
Definition object_value (x : melement) : Prop :=
  match x with MProperty _ m | MValue m => object_base (td_base (vd_type (m_value m))) /\ vd_values (m_value m) <> [] | _ => False end.
Inductive odd_object (text : string) (x : melement) : list effect -> Prop :=
| odd_is : object_value x -> odd_object text x [Says 8 text]
| odd_not : ~ object_value x -> odd_object text x [].

(** nodes that lie in the source *)
Definition within_source (source : string) : tree -> Prop := every_node (fun t => Forall (fun r => ByteBuffer.location r + ByteBuffer.length r <= slen source)%N (place t)).
Fixpoint depth (t : tree) : nat := match t with Tree _ _ _ _ cs => S (fold_right (fun c n => Nat.max (depth c) n) 0 cs) end.

Section Spec.
(** the base types of the named types, the source, the named type at hand *)
Context (known : list (string * base_type)) (source context : string).

(** ** texts *)
Definition source_of (t : tree) : string := text_at source (covered (place t)).
(** a blank line is put behind a text that goes on *)
Definition spaced (d d' : string) : Prop := (d = "" /\ d' = "") \/ (d <> "" /\ d <> String "010" "" /\ padded d d').
Inductive adds_text (t : tree) : string * places -> string * places -> Prop :=
| adds_by : forall d m d' c, spaced d d' -> trims (source_of t) c -> adds_text t (d, m) (d' +++ c, if String.eqb c "" then m else append_places m (lies t)).
Inductive adds_texts : list tree -> sections -> sections -> Prop :=
| adds_none : forall l, adds_texts [] l l
| adds_first : forall t r d m l, adds_text t ("", []) (d, m) -> adds_texts r [text_section d m] l -> adds_texts (t :: r) [] l
| adds_more : forall t r d m d' m' l, adds_text t (d, m) (d', m') -> adds_texts r [text_section d' m'] l -> adds_texts (t :: r) [text_section d m] l.
Definition rest_section (t : tree) (rest : string) : sections := if String.eqb rest "" then [] else [text_section rest (lies t)].

(** ** the first node of a member *)
Definition value_shape : shape := Shape false true true true ":" "-".
Definition member_shape : shape := Shape true true true true ":" "-".
Definition referring (strict : bool) (l : list symbol) : list effect :=
  flat_map (fun n => if String.eqb (s_literal n) "" then [] else if s_variable n then [] else [Depends (s_literal n) context strict]) l.
Definition refers_to (ts : type_spec) : list symbol :=
  match n_base (t_name ts) with
  | ArrayTN | EnumTN => map n_symbol (t_nested ts)
  | UndefinedTN => [n_symbol (t_name ts)]
  | _ => []
  end.
(** several values of a primitive type are one: the whole text; several values of an unknown type make it an array. [mapped]: the member has a source map *)
Inductive values_say (p : parts) (base : base_type) : list mvalue -> base_type -> bool -> Prop :=
| values_one : forall v, 1 < List.length (p_values p) -> base = PrimitiveBT -> value_says (p_value p) v -> values_say p base [v] base false
| values_each : forall vs, List.length (p_values p) <= 1 \/ base <> PrimitiveBT -> Forall2 value_says (p_values p) vs ->
    values_say p base vs (match base with UndefinedBT => if 1 <? List.length (p_values p) then ImplicitValueBT else UndefinedBT | b => b end)%nat true.
Inductive named_says (t : tree) : bool -> string -> prop_name -> list effect -> Prop :=
| named_value : forall id, named_says t false id (PN "" (VD [] no_definition) []) []
| named_property : forall id x v e, property_says known context (the_text t) id (Some (x, v, e)) ->
    named_says t true id (PN x v (lies_unless (String.eqb x "" && value_empty v) t)) e.
Inductive opening_says (property : bool) (t : tree) : prop_name -> mmember melement -> located -> Prop :=
| opening_by : forall p m name e1 td e2 vs b mapped,
    signed (if property then member_shape else value_shape) (the_text t) (given_text t) (Some (p, m)) ->
    named_says t property (p_id p) name e1 -> definition_says known context (p_attributes p) td e2 -> values_say p (td_base td) vs b mapped ->
    opening_says property t name
      (Mem (p_content p) (VD vs (TD b (td_spec td) (td_attrs td))) (rest_section t (p_rest p)) (lies_unless (negb mapped) t) (lies_unless (String.eqb (p_content p) "") t)
           (lies_unless (value_empty (VD vs td)) t))
      (on t (map (Says 6) m ++ e1 ++ e2 ++ referring false (refers_to (td_spec td)))).
Definition finished (b : base_type) : base_type := match b with UndefinedBT => ImplicitPrimitiveBT | b => b end.
Definition member_with (property : bool) (name : prop_name) (m : mmember melement) (l : sections) (b : base_type) : melement :=
  let m' := Mem (m_description m) (VD (vd_values (m_value m)) (TD b (td_spec (vd_type (m_value m))) (td_attrs (vd_type (m_value m))))) l
                (m_map m) (m_description_map m) (m_value_map m) in
  if property then MProperty name m' else MValue m'.

(** ** "Include": the name behind the word, or in parentheses *)
Definition names_shape : shape := Shape true false true false ":" "-".
Inductive included (id : string) (l : list string) : list string -> Prop :=
| included_name : forall w c g x, id = w +++ String c g +++ x -> In w ["Include"; "include"] -> blank_char c -> blanks g -> (forall c y, x = String c y -> ~ blank_char c) ->
    included id l (x :: l)
| included_none : (forall w c x, In w ["Include"; "include"] -> blank_char c -> id <> w +++ String c x) -> included id l l.
Inductive mixin_says (item : tree) : type_def -> located -> Prop :=
| mixin_by : forall t r p m attrs td e1 e2 e3, opens item t r -> signed names_shape (the_text t) "" (Some (p, m)) -> included (p_id p) (p_attributes p) attrs ->
    definition_says known context attrs td e1 ->
    e2 = (match td_base td with PrimitiveBT | UndefinedBT => [Says 3 "mixin type may not include a type of a primitive sub-type"] | _ => [] end) ->
    e3 = (match n_base (t_name (td_spec td)) with UndefinedTN => referring true [n_symbol (t_name (td_spec td))] | _ => [] end) ->
    mixin_says item td (on t (map (Says 6) m ++ e1 ++ e2 ++ e3) ++ flat_map unexpected_node r)%list.

Section Nested.
(** what nested members, one-of items and type sections say *)
Context (Member : bool -> tree -> melement -> located -> Prop) (OneOf : tree -> list melement -> located -> Prop)
  (Section_ : kind -> base_type -> tree -> msection melement -> located -> Prop).

(** ** the nodes below a member. [true]: the next node is read; [false]: it is the last that is looked at *)
Inductive node_says (t : tree) : sections * base_type -> sections * base_type -> located -> bool -> Prop :=
| node_text : forall d m d' m' b, ~ section_node t -> ~ a_header t -> adds_text t (d, m) (d', m') ->
    node_says t ([text_section d m], b) ([text_section d' m'], b) [] true
| node_header : forall l b, ~ section_node t -> a_header t -> node_says t (l, b) (l, b) [] false
| node_include : forall l b b' td e l', ~ section_node t -> include_item t -> told_by_member t b b' ->
    mixin_says t td e -> same_kind b' (td_base td) -> into [MMixin td] l l' -> node_says t (l, b) (l', b') e true
| node_other_include : forall l b b' td e l', ~ section_node t -> include_item t -> told_by_member t b b' -> mixin_says t td e -> ~ same_kind b' (td_base td) -> into [] l l' ->
    node_says t (l, b) (l', b')
      (e ++ on t [Says 8 "mixin base type should be the same as parent base type. objects should contain object mixins. arrays should contain array mixins"])%list true
| node_one_of : forall l b b' x e l', ~ section_node t -> one_of_item t -> told_by_member t b b' -> object_base b' -> OneOf t x e -> into [MOneOf x] l l' ->
    node_says t (l, b) (l', b') e true
| node_no_one_of : forall l b b' l', ~ section_node t -> one_of_item t -> told_by_member t b b' -> ~ object_base b' -> into [] l l' ->
    node_says t (l, b) (l', b') (on t [Says 8 "one of may be a nested member of a object sub-types only"]) false
| node_value : forall l b x e w l', other_item t -> value_base b -> Member false t x e -> into [x] l l' ->
    odd_object "array member definition of type 'object' contains value. You should use type definition without value eg. '- (object)'" x w ->
    node_says t (l, b) (l', b) (e ++ on t w)%list true
| node_property : forall l b b' x e w l', other_item t -> told_by_member t b b' -> object_base b' -> Member true t x e -> into [x] l l' ->
    odd_object "'object' with value definition. You should use type definition without value eg. '- key (object)'" x w ->
    node_says t (l, b) (l', b') (e ++ on t w)%list true
| node_primitive : forall l b l', other_item t \/ text_node t -> primitive_base b -> into [] l l' ->
    node_says t (l, b) (l', b) (on t [Says 8 "sub-types of primitive types should not have nested members"]) false
| node_ignored : forall l b l', text_node t -> ~ primitive_base b -> into [] l l' -> node_says t (l, b) (l', b) (on t [Says 5 "ignoring unrecognized block"]) true
| node_section : forall k l b b' c d v es m n e, kind_says t k -> told_by_section k b b' -> Section_ k b' t (Sec c d v es m n) e ->
    node_says t (l, b) ((if match c with UndefinedClass => true | _ => false end then l else l ++ [Sec c d v es m (match n with [] => lies t | _ => n end)])%list, b') e true.
Inductive nodes_say {A} (step : tree -> A -> A -> located -> bool -> Prop) : list tree -> A -> A -> located -> Prop :=
| nodes_end : forall a, nodes_say step [] a a []
| nodes_next : forall t r a a' a'' e e', step t a a' e true -> nodes_say step r a' a'' e' -> nodes_say step (t :: r) a a'' (e ++ e')%list
| nodes_last : forall t r a a' e, step t a a' e false -> nodes_say step (t :: r) a a' e.

(** ** the nodes of a section of values, items or properties *)
Definition section_shape : shape := Shape true true false false ":" "-".
Definition plain_member (t : tree) (v : mvalue) : melement := MValue (Mem "" (VD [v] no_definition) [] [] [] (lies t)).
Definition gives_value (p : parts) : Prop := p_values p <> [] \/ p_value p <> "".
Inductive own_value (b : base_type) (t : tree) (p : parts) : string -> list melement -> places -> list effect -> Prop :=
| own_text : primitive_base b -> gives_value p ->
    own_value b t p (p_value p +++ p_rest p) [] (if String.eqb (p_rest p) "" then lies t else append_places (lies t) (lies t)) []
| own_rest : primitive_base b -> ~ gives_value p -> own_value b t p (p_rest p) [] (lies_unless (String.eqb (p_rest p) "") t) []
| own_items : forall vs, value_base b -> Forall2 value_says (p_values p) vs -> own_value b t p "" (map (plain_member t) vs) [] []
| own_object : object_base b -> gives_value p ->
    own_value b t p "" [] [] [Says 8 "a sample and/or default type section for a type which is sub-typed from an object cannot have value(s) beside the keyword"]
| own_none : (object_base b /\ ~ gives_value p) \/ b = UndefinedBT -> own_value b t p "" [] [] [].
Inductive value_word (id : string) : section_class -> Prop :=
| word_default : same_but_case id "Default" -> value_word id DefaultClass
| word_sample : same_but_case id "Sample" -> value_word id SampleClass.
Inductive members_word (id : string) : (base_type -> Prop) -> string -> Prop :=
| word_items : same_but_case id "Items" \/ same_but_case id "Members" ->
    members_word id value_base "` not allowed for a type sub-typed from a primitive or object type"
| word_properties : same_but_case id "Properties" -> members_word id object_base "` is only allowed for a type sub-typed from an object type".
Definition no_section : msection melement := Sec UndefinedClass "" "" [] [] [].
Inductive head_says (b : base_type) (t : tree) : msection melement -> located -> bool -> Prop :=
| head_values : forall p m c v es n w, signed section_shape (the_text t) "" (Some (p, m)) -> value_word (p_id p) c -> own_value b t p v es n w ->
    head_says b t (Sec c "" v es [] n) (on t (map (Says 6) m ++ w)) true
| head_members : forall p m P text, signed section_shape (the_text t) "" (Some (p, m)) -> members_word (p_id p) P text -> P b ->
    head_says b t (members_section []) (on t (map (Says 6) m)) true
| head_refused : forall p m (P : base_type -> Prop) text, signed section_shape (the_text t) "" (Some (p, m)) -> members_word (p_id p) P text -> ~ P b ->
    head_says b t no_section (on t (map (Says 6) m ++ [Says 8 ("type section `" +++ p_id p +++ text)])) false
| head_other : forall p m, signed section_shape (the_text t) "" (Some (p, m)) -> (forall c, ~ value_word (p_id p) c) -> (forall P text, ~ members_word (p_id p) P text) ->
    head_says b t no_section (on t (map (Says 6) m)) true.
Definition with_element (x : melement) (s : msection melement) : msection melement :=
  Sec (sc_class s) (sc_description s) (sc_value s) (sc_elements s ++ [x])%list (sc_description_map s) (sc_value_map s).
Inductive entry_says (k : kind) (b : base_type) (t : tree) (s : msection melement) : msection melement -> located -> bool -> Prop :=
| entry_header : a_header t -> entry_says k b t s s [] false
| entry_include : forall td e, k <> ValuesKind -> include_item t -> mixin_says t td e -> entry_says k b t s (with_element (MMixin td) s) e true
| entry_one_of : forall x e, k = PropertiesKind -> one_of_item t -> OneOf t x e -> entry_says k b t s (with_element (MOneOf x) s) e true
| entry_no_one_of : k = ItemsKind -> one_of_item t -> entry_says k b t s s (on t [Says 8 "one-of can not be a nested member for a type not sub typed from object"]) false
| entry_member : forall x e, k <> ValuesKind -> ~ a_header t -> ~ include_item t -> ~ one_of_item t -> Member (match k with PropertiesKind => true | _ => false end) t x e ->
    entry_says k b t s (with_element x s) e true
| entry_no_include : k = ValuesKind -> include_item t -> entry_says k b t s s (on t [Says 8 "sample and default type sections cannot have `mixin` type"]) false
| entry_no_choice : k = ValuesKind -> one_of_item t -> entry_says k b t s s (on t [Says 8 "sample and default type sections cannot have `one of` type"]) false
| entry_sample : forall x e (property : bool), k = ValuesKind -> an_item t -> ~ include_item t -> ~ one_of_item t -> (if property then object_base b else value_base b) ->
    Member property t x e -> entry_says k b t s (with_element x s) e true
| entry_text : forall v, k = ValuesKind -> ~ a_header t -> ~ include_item t -> ~ one_of_item t -> primitive_base b -> spaced (sc_value s) v ->
    entry_says k b t s (Sec (sc_class s) (sc_description s) (v +++ source_of t) (sc_elements s) (sc_description_map s)
                            (if String.eqb (source_of t) "" then sc_value_map s else append_places (sc_value_map s) (lies t))) [] true
| entry_end : k = ValuesKind -> ~ a_header t -> ~ include_item t -> ~ one_of_item t -> ~ primitive_base b -> b = UndefinedBT \/ ~ an_item t -> entry_says k b t s s [] false.
Inductive section_by (k : kind) (b : base_type) (item : tree) : msection melement -> located -> Prop :=
| section_whole : forall t r s s' e e', opens item t r -> head_says b t s e true -> nodes_say (entry_says k b) r s s' e' -> section_by k b item s' (e ++ e')%list
| section_refused : forall t r s e, opens item t r -> head_says b t s e false -> section_by k b item s e.

(** ** the choices of a one-of item *)
Definition one_of_shape : shape := Shape true false false false ":" "-".
Inductive choice_says (t : tree) (l : list melement) : list melement -> located -> bool -> Prop :=
| choice_include : forall td e, include_item t -> mixin_says t td e -> choice_says t l (l ++ [MMixin td])%list e true
| choice_one_of : forall x e, one_of_item t -> OneOf t x e -> choice_says t l (l ++ [MOneOf x])%list e true
| choice_group : forall s e, ~ include_item t -> ~ one_of_item t -> kind_says t PropertiesKind -> Section_ PropertiesKind ObjectBT t s e ->
    choice_says t l (l ++ [MGroup (sc_elements s)])%list e true
| choice_member : forall x e, other_item t -> Member true t x e -> choice_says t l (l ++ [x])%list e true
| choice_ignored : ~ an_item t -> ~ section_node t -> choice_says t l l (unexpected_node t) true
| choice_end : forall k, ~ include_item t -> ~ one_of_item t -> kind_says t k -> k <> PropertiesKind -> choice_says t l l [] false.
Inductive one_of_by (item : tree) : list melement -> located -> Prop :=
| one_of_whole : forall t r p m l e, opens item t r -> signed one_of_shape (the_text t) "" (Some (p, m)) -> nodes_say choice_says r [] l e ->
    one_of_by item l (on t (map (Says 6) m) ++ e ++ match l with [] => on item [Says 6 "one of type must have nested members"] | _ => [] end)%list.

(** ** a member *)
Inductive member_by (property : bool) (item : tree) : melement -> located -> Prop :=
| member_whole : forall t r name m e texts others l0 l b e', opens item t r -> opening_says property t name m e -> row text_node r texts others ->
    adds_texts texts (m_sections m) l0 -> nodes_say node_says others (l0, td_base (vd_type (m_value m))) (l, b) e' ->
    member_by property item (member_with property name m l (finished b)) (e ++ e')%list.
End Nested.

(** ** all of them *)
Inductive member_says : bool -> tree -> melement -> located -> Prop :=
| a_member : forall property item x e, member_by member_says one_of_says section_says property item x e -> member_says property item x e
with one_of_says : tree -> list melement -> located -> Prop :=
| a_one_of : forall item x e, one_of_by member_says one_of_says section_says item x e -> one_of_says item x e
with section_says : kind -> base_type -> tree -> msection melement -> located -> Prop :=
| a_section : forall k b item s e, section_by member_says one_of_says k b item s e -> section_says k b item s e.

(** ** attributes: an object unless another type is named *)
Inductive attributes_say (item : tree) : structure -> located -> Prop :=
| attributes_by : forall t r p m td e texts others l0 l b e', opens item t r -> signed names_shape (the_text t) "" (Some (p, m)) ->
    definition_says known context (p_attributes p) td e -> row text_node r texts others -> adds_texts texts (rest_section t (p_rest p)) l0 ->
    nodes_say (node_says member_says one_of_says section_says) others (l0, match td_base td with UndefinedBT => ImplicitObjectBT | b => b end) (l, b) e' ->
    attributes_say item (Str (TN UndefinedTN (Sym "" false)) (TD b (td_spec td) (td_attrs td)) l (lies t) [] (lies_unless (def_empty td) t))
      (on t (map (Says 6) m ++ e) ++ e')%list.
End Spec.
