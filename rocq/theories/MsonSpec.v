(** Specification vocabulary for the conversion of MSON, independent of the conversion *)
From Verif Require Import Base Element ElementSpec JsonSpec SerializeSpec Extend Registry Expand SourceMap TypeTables Mson.

(** ** What every element inside a converted data structure is like *)
(** the entries of an array that holds a value *)
Definition entries_of (v : element) (P : element -> Prop) : Prop := ehas v = true /\ exists l, edata v = DArray l /\ Forall P l.
Definition text_in (allowed : list string) (v : element) : Prop :=
  ehas v = true /\ exists s, edata v = DString s /\ In s allowed.
Definition type_attribute_names : list string := ["required"; "optional"; "fixed"; "fixedType"; "nullable"]%string.
(** the attributes an element of the kind may have, and what they hold *)
Definition attribute_ok (k : kind) (name : string) (v : element) : Prop :=
  (name = "typeAttributes" /\ entries_of v (text_in type_attribute_names)) \/
  (name = "samples" /\ exists l, edata v = DArray l /\ Forall (fun s => ekind s = k) l) \/
  (name = "default" /\ ekind v = k) \/
  (name = "enumerations" /\ k = KEnum /\ entries_of v (fun _ => True)) \/
  (name = "sourceMap" /\ entries_of v (fun m => ename m = "sourceMap" /\
     entries_of m (fun r => entries_of r (fun n => ehas n = true /\ ekind n = KNumber)))) \/
  (name = "variable" /\ k = KMember /\ ehas v = true /\ edata v = DBoolean true) \/
  (name = "path" /\ k = KRef /\ text_in ["content"] v).
(** the meta data *)
Definition meta_ok (name : string) (v : element) : Prop :=
  (name = "id" \/ name = "description") /\ ehas v = true /\ exists s, edata v = DString s /\ s <> ""%string.
Definition sane_piece (x : element) : Prop :=
  (ename x <> ""%string /\ (ehas x = false -> dsd_children (edata x) = [])) /\
  NoDup (map fst (emeta x)) /\ NoDup (map fst (eattrs x)) /\
  (forall k v, In (k, v) (emeta x) -> meta_ok k v) /\
  (forall k v, In (k, v) (eattrs x) -> attribute_ok (ekind x) k v) /\
  match edata x with
  | DNumber n => json_number n = true
  | DObject l => NoDup (member_keys l)
  | DMember k v => ename x = "member"%string /\ ehas x = true /\ (exists key, k = Some key /\ ekind key = KString) /\ (exists value, v = Some value)
  | DEnum o => ehas x = true -> exists value, o = Some value
  | DSelect l => ename x = "select"%string /\ Forall (fun o => ekind o = KOption) l
  | DOption _ => ename x = "option"%string /\ ehas x = true
  | DRef _ => ename x = "ref"%string /\ ehas x = true
  | DNull | DHolder _ | DExtend _ => False
  | DString _ | DBoolean _ | DArray _ => True
  end.
Definition sane (e : element) : Prop := forall x, sub x e -> sane_piece x.

(** ** Reading an element *)
Definition attr (e : element) (k : string) : option element := ifind (eattrs e) k.
Definition meta (e : element) (k : string) : option element := ifind (emeta e) k.
Definition somes {A} (l : list (option A)) : list A := flat_map (fun o => match o with Some x => [x] | None => [] end) l.

(** ** The sections of a type, by class; sample and default sections with neither a value nor elements do not count *)
Definition same_class (a b : section_class) : bool :=
  match a, b with
  | UndefinedClass, UndefinedClass | BlockDescriptionClass, BlockDescriptionClass | MemberTypeClass, MemberTypeClass
  | SampleClass, SampleClass | DefaultClass, DefaultClass => true
  | _, _ => false
  end.
Definition of_class {A} (c : section_class) (l : list (msection A)) : list (msection A) := filter (fun s => same_class c (sc_class s)) l.
Definition written {A} (s : msection A) : bool := match sc_value s, sc_elements s with EmptyString, [] => false | _, _ => true end.
Definition members {A} (l : list (msection A)) : list (msection A) := of_class MemberTypeClass l.
Definition sample_sections {A} (l : list (msection A)) : list (msection A) := filter written (of_class SampleClass l).
Definition default_sections {A} (l : list (msection A)) : list (msection A) := filter written (of_class DefaultClass l).

(** ** Conversion as a relation *)
Definition converts (fuel : nat) (r : registry) (d : base_name) (x : melement) (o : option element) : Prop :=
  exists w, to_apie fuel r x d = ret (o, w).
(** the elements of a section, in the order of the document *)
Definition section_gives (fuel : nat) (r : registry) (d : base_name) (s : msection melement) (l : list element) : Prop :=
  exists os, Forall2 (converts fuel r d) (sc_elements s) os /\ l = somes os.
(** the warnings on the way: those of the elements, one after another, of the sections that are read *)
Definition reports (fuel : nat) (r : registry) (d : base_name) (x : melement) (w : list annotation) : Prop :=
  exists o, to_apie fuel r x d = ret (o, w).
Definition section_reports (fuel : nat) (r : registry) (d : base_name) (s : msection melement) (w : list annotation) : Prop :=
  exists ws, Forall2 (reports fuel r d) (sc_elements s) ws /\ w = concat ws.
Definition read_sections {A} (l : list (msection A)) : list (msection A) :=
  filter (fun s => match sc_class s with MemberTypeClass => true | SampleClass | DefaultClass => written s | _ => false end) l.
Definition sections_report (fuel : nat) (r : registry) (d : base_name) (l : list (msection melement)) (w : list annotation) : Prop :=
  exists ws, Forall2 (section_reports fuel r d) (read_sections l) ws /\ w = concat ws.

(** ** Objects: of the members with one key the last stays; elements without a key all stay *)
Fixpoint last_per_key (l : list element) : list element :=
  match l with
  | [] => []
  | x :: t =>
    match string_key x with
    | Some s => if existsb (has_key s) t then last_per_key t else x :: last_per_key t
    | None => x :: last_per_key t
    end
  end.
Definition collection (k : kind) (l : list element) : dsd element := match k with KObject => DObject (last_per_key l) | _ => DArray l end.
(** the element holds the entries, or nothing if there are none *)
Definition holds (k : kind) (l : list element) (e : element) : Prop :=
  match l with [] => ehas e = false | _ => ehas e = true /\ edata e = collection k l end.

(** ** Values written beside the name of a member *)
Inductive use := NoUse | AsValue | AsSample | AsDefault.
(** members whose type is an object have no values of their own *)
Definition object_base (v : value_def) : bool := match td_base (vd_type v) with ObjectBT | ImplicitObjectBT => true | _ => false end.
Definition inline_values (v : value_def) : list mvalue := if object_base v then [] else vd_values v.
(** [variables]: whether a variable value between stars is a sample *)
Definition use_of (variables : bool) (v : value_def) : use :=
  match inline_values v with
  | [] => NoUse
  | x :: _ =>
    if N.testbit (td_attrs (vd_type v)) DefaultTA then AsDefault
    else if N.testbit (td_attrs (vd_type v)) SampleTA then AsSample
    else if (variables && v_variable x)%bool then AsSample else AsValue
  end.
Definition if_use {A} (u u' : use) (l : list A) : list A :=
  match u, u' with NoUse, NoUse | AsValue, AsValue | AsSample, AsSample | AsDefault, AsDefault => l | _, _ => [] end.

(** a literal as the content of a primitive; None: it is none of the kind *)
Definition literal_of (k : kind) (s : string) : option (dsd element) :=
  match k with
  | KString => if String.eqb s "" then None else Some (DString s)
  | KNumber => option_map (fun n => DNumber n) (literal_number s)
  | KBoolean => if String.eqb s "true" then Some (DBoolean true) else if String.eqb s "false" then Some (DBoolean false) else None
  | _ => None
  end.
Definition literal_element (k : kind) (s : string) : element :=
  match literal_of k s with Some d => make_element d | None => make_empty k end.
(** the type of the entries given by values: the one nested type if it is a boolean or a number, else string *)
Definition entry_kind (t : type_def) : kind :=
  match t_nested (td_spec t) with
  | [n] => match n_base n with BooleanTN => KBoolean | NumberTN => KNumber | _ => KString end
  | _ => KString
  end.
Definition with_sample (k : kind) (s : string) : element :=
  Elem (kind_name k) [] [("samples"%string, match literal_of k s with Some d => make_element (DArray [make_element d]) | None => make_empty KArray end)]
       false (dsd_default k).
(** an entry of an array: a variable value is the sample of an entry *)
Definition item (k : kind) (v : mvalue) : element :=
  if (v_variable v && negb (String.eqb (v_literal v) ""))%bool then with_sample k (v_literal v) else literal_element k (v_literal v).

(** ** The entries that stand for the nested types, as in array[Name] *)
Definition known (fuel : nat) (r : registry) (name : string) (k : kind) : Prop :=
  exists e, FindRootAncestor fuel r name = Some (Some e) /\ ekind e = k /\ In k [KBoolean; KNumber; KString; KArray; KEnum; KObject].
Inductive hint (fuel : nat) (r : registry) (p : places) : type_name -> list element -> list annotation -> Prop :=
| hint_base b : b <> UndefinedTN -> hint fuel r p (TN b (Sym "" false)) [make_empty (kind_of b)] []
| hint_named s k : s <> ""%string -> known fuel r s k -> hint fuel r p (TN UndefinedTN (Sym s false)) [set_name (make_empty k) s] []
| hint_unknown s : s <> ""%string -> (forall k, ~ known fuel r s k) -> hint fuel r p (TN UndefinedTN (Sym s false)) []
    [mson_warning ("Undefined named type '" +++ s +++ "' referenced in type definition") p]
(** [*s*] as a nested type is a sample *)
| hint_sample s k : s <> ""%string -> known fuel r s k -> In k [KBoolean; KNumber; KString] -> hint fuel r p (TN UndefinedTN (Sym s true)) [with_sample k s] []
| hint_generic s : s <> ""%string -> (forall k, known fuel r s k -> ~ In k [KBoolean; KNumber; KString]) ->
    hint fuel r p (TN UndefinedTN (Sym s true)) [set_name (make_element (DString s)) "generic"] []
(** never read from a document *)
| hint_nameless v : hint fuel r p (TN UndefinedTN (Sym "" v)) [make_empty KObject] []
| hint_other b s v l : b <> UndefinedTN -> (s <> ""%string \/ v = true) -> hint fuel r p (TN b (Sym s v)) l [].
(** whether the nested types of a member are looked at *)
Definition hinted (v : value_def) : bool :=
  negb (object_base v) && match vd_values v, t_nested (td_spec (vd_type v)) with [], _ | _, _ :: _ :: _ => true | _, _ => false end.

(** what an attribute that holds a list is: absent if the list is empty *)
Definition list_attribute (l : list element) : option element := match l with [] => None | _ => Some (make_element (DArray l)) end.
Definition last_of {A} (l : list A) : option A := match rev l with [] => None | x :: _ => Some x end.
Definition collected (k : kind) (l : list element) : element := make_element (collection k l).

(** ** Warnings *)
Definition missing_warnings {A} (m : mmember A) : list annotation :=
  let warn b := if N.testbit (td_attrs (vd_type (m_value m))) (fst b) then [mson_warning (snd b) (m_map m)] else [] in
  if object_base (m_value m) then []
  else match vd_values (m_value m) with
       | [] => (warn (DefaultTA, "no value present when 'default' is specified") ++ warn (SampleTA, "no value present when 'sample' is specified"))%list
       | _ => []
       end.
Definition clash_warnings {A} (m : mmember A) : list annotation :=
  let ta := td_attrs (vd_type (m_value m)) in
  let warn a b text := if (N.testbit ta a && N.testbit ta b)%bool then [mson_warning text (m_value_map m)] else [] in
  (warn FixedTA OptionalTA "cannot use 'fixed' and 'optional' together" ++ warn RequiredTA OptionalTA "cannot use 'required' and 'optional' together" ++
   warn DefaultTA SampleTA "cannot use 'default' and 'sample' together" ++ warn FixedTA FixedTypeTA "cannot use 'fixed' and 'fixed-type' together")%list.
(** one for each literal that is none of the kind; strings never are wrong *)
Definition literal_warnings (k : kind) (l : list (string * places)) : list annotation :=
  flat_map (fun i =>
    match k, literal_of k (fst i) with
    | KNumber, None => [mson_warning "invalid value format for 'number' type. please check mson specification for valid format" (snd i)]
    | KBoolean, None => [mson_warning "invalid value for 'boolean' type. allowed values are 'true' or 'false'" (snd i)]
    | _, _ => []
    end) l.
(** the first value as text, with its place *)
Definition inline_texts {A} (m : mmember A) : list (string * places) :=
  match inline_values (m_value m) with v :: _ => [(v_literal v, m_value_map m)] | [] => [] end.
Definition section_texts {A} (l : list (msection A)) : list (string * places) := map (fun s => (sc_value s, sc_value_map s)) l.

(** ** Entries of enumerations: alike if they differ at most in their descriptions and source maps. [forget] leaves out the
    names of the elements inside and what elements without a value hold. *)
Definition alike (x y : element) : Prop :=
  ehas x = ehas y /\ ename x = ename y /\
  (forall k, k <> "description"%string -> option_map forget (meta x k) = option_map forget (meta y k)) /\
  (forall k, k <> "sourceMap"%string -> option_map forget (attr x k) = option_map forget (attr y k)) /\
  (ehas x = true -> dsd_map forget (edata x) = dsd_map forget (edata y)).
Definition literal_or_default (k : kind) (s : string) : dsd element :=
  match literal_of k s with Some d => d | None => dsd_default k end.
Inductive subsequence {A} : list A -> list A -> Prop :=
| ss_nil : subsequence [] []
| ss_keep x l l' : subsequence l l' -> subsequence (x :: l) (x :: l')
| ss_skip x l l' : subsequence l l' -> subsequence l (x :: l').
(** all of them, each kind once: the first of those alike *)
Definition distinct (l : list element) : Prop := ForallOrdPairs (fun x y => ~ alike x y) l.
Definition one_each (l es : list element) : Prop :=
  subsequence es l /\ distinct es /\ forall x, In x l -> exists y, In y es /\ alike x y.
(** those of the first list that are like none of the second *)
Definition unlike (l others l' : list element) : Prop :=
  subsequence l' l /\ (forall x, In x l -> In x l' \/ exists y, In y others /\ alike y x) /\ (forall x, In x l' -> forall y, In y others -> ~ alike y x).
(** literals become fixed, everything else stays *)
Definition is_literal_value (e : element) : Prop := In (ekind e) [KString; KNumber; KBoolean] /\ ehas e = true.
Definition type_entries (e : element) : list element := match attr e "typeAttributes" with Some v => match edata v with DArray l => l | _ => [] end | None => [] end.
Definition says_fixed (e : element) : Prop := exists t, In t (type_entries e) /\ edata t = DString "fixed".
Definition fixed_version (x y : element) : Prop :=
  ename y = ename x /\ ehas y = ehas x /\ edata y = edata x /\ emeta y = emeta x /\ (forall k, k <> "typeAttributes"%string -> attr y k = attr x k) /\
  (is_literal_value x -> says_fixed y) /\ (~ is_literal_value x \/ says_fixed x -> y = x) /\
  subsequence (type_entries x) (type_entries y) /\ (forall t, In t (type_entries y) -> In t (type_entries x) \/ t = make_element (DString "fixed")).
(** the value of an enumeration: a single entry that has a value *)
Definition single_entry (l : list (list element)) : option element := match l with [x] :: _ => if ehas x then Some x else None | _ => None end.
Definition enum_element (x : element) : element := make_element (DEnum (Some x)).
(** the entries of an enumeration, [es], from those written beside the name [il], the members [vl], samples [sl], defaults [dl]
    and nested types [hl]; [n] counts what is left out and reported *)
Definition enumeration (il vl sl dl hl es : list element) (n : nat) : Prop :=
  exists il' ei ev ea ed eh, unlike il vl il' /\ es = (ei ++ ev ++ ea ++ ed ++ eh)%list /\
    subsequence ei il' /\ subsequence ev vl /\ subsequence ea sl /\ subsequence ed dl /\ subsequence eh hl /\
    distinct es /\ (forall x, In x (il ++ vl ++ sl ++ dl ++ hl) -> exists y, In y es /\ alike x y) /\
    n + (List.length ei + List.length ev + List.length eh) = List.length il' + List.length vl + List.length hl.
Definition duplicate_warning (p : places) : annotation := mson_warning "duplicit value in enumeration" p.
Definition section_fixed (fuel : nat) (r : registry) (d : base_name) (s : msection melement) (l : list element) : Prop :=
  exists l0, section_gives fuel r d s l0 /\ Forall2 fixed_version l0 l.

(** ** The kind, name and decorations of a member *)
Definition type_literal (t : type_def) : string := s_literal (n_symbol (t_name (td_spec t))).
Definition label (t : type_def) (k : kind) : string := if String.eqb (type_literal t) "" then kind_name k else type_literal t.
Definition nested_default (t : type_def) : base_name := match entry_kind t with KBoolean => BooleanTN | KNumber => NumberTN | _ => StringTN end.
(** no base type and no type name whose definition is known *)
Definition untyped (fuel : nat) (r : registry) (t : type_def) : Prop :=
  n_base (t_name (td_spec t)) = UndefinedTN /\ (type_literal t = ""%string \/ forall k, ~ known fuel r (type_literal t) k).
Inductive member_kind {A} (fuel : nat) (r : registry) (d : base_name) (m : mmember A) : kind -> Prop :=
| mk_base b : n_base (t_name (td_spec (vd_type (m_value m)))) = b -> b <> UndefinedTN -> member_kind fuel r d m (kind_of b)
| mk_named k : n_base (t_name (td_spec (vd_type (m_value m)))) = UndefinedTN -> type_literal (vd_type (m_value m)) <> ""%string ->
    known fuel r (type_literal (vd_type (m_value m))) k -> member_kind fuel r d m k
| mk_several : untyped fuel r (vd_type (m_value m)) -> 2 <= List.length (vd_values (m_value m)) -> member_kind fuel r d m KArray
| mk_object : untyped fuel r (vd_type (m_value m)) -> List.length (vd_values (m_value m)) <= 1 ->
    (type_literal (vd_type (m_value m)) <> ""%string \/ members (m_sections m) <> []) -> member_kind fuel r d m KObject
| mk_default : untyped fuel r (vd_type (m_value m)) -> List.length (vd_values (m_value m)) <= 1 ->
    type_literal (vd_type (m_value m)) = ""%string -> members (m_sections m) = [] ->
    member_kind fuel r d m match d with UndefinedTN => KString | _ => kind_of d end.
Definition type_names (ta : N) : list string :=
  let name b s := if N.testbit ta b then [s] else [] in
  (name RequiredTA "required" ++ name OptionalTA "optional" ++ name FixedTA "fixed" ++ name FixedTypeTA "fixedType" ++ name NullableTA "nullable")%list%string.
Definition type_attribute_of (t : type_def) : option element := list_attribute (map (fun s => make_element (DString s)) (type_names (td_attrs t))).
Definition map_attribute (p : places) : option element := match p with [] => None | _ => Some (SourceMapToRefract p) end.
(** descriptions: those that are not empty, on lines of their own *)
Definition blocks {A} (l : list (msection A)) : list string := map sc_description (of_class BlockDescriptionClass l).
Definition joined (l : list string) : string := String.concat nl (filter (fun s => negb (String.eqb s "")) l).
Definition described_as (e : element) (text : string) : Prop :=
  match meta e "description" with
  | None => text = ""%string
  | Some d => text <> ""%string /\ ename d = "string"%string /\ ehas d = true /\ edata d = DString text /\ emeta d = [] /\
              (forall k, k <> "sourceMap"%string -> attr d k = None)
  end.
(** the description of a value comes from the member and its blocks; a type that is an object has only the blocks *)
Definition value_description {A} (m : mmember A) : string :=
  joined ((if object_base (m_value m) then [] else [m_description m]) ++ blocks (m_sections m)).
(** that of a property is separated from the blocks by an empty line *)
Definition property_description {A} (m : mmember A) : string :=
  joined (match m_description m, blocks (m_sections m) with
          | EmptyString, b => b
          | s, [] => [s]
          | s, b => (s +++ nl)%string :: b
          end).

(** ** The content of an element, from its sections and the values written beside its name, used as [u] *)
(** an array or an object: [hs] are the entries that stand for the nested types, [items] those given by values *)
Definition list_body (fuel : nat) (r : registry) (k : kind) (t : type_def) (hs : list element) (u : use) (items : list element)
    (sections : list (msection melement)) (e : element) : Prop :=
  exists vs ss dd,
    Forall2 (section_gives fuel r (nested_default t)) (members sections) vs /\
    Forall2 (section_gives fuel r (nested_default t)) (sample_sections sections) ss /\
    Forall2 (section_gives fuel r (nested_default t)) (default_sections sections) dd /\
    holds k (hs ++ if_use AsValue u items ++ concat vs) e /\
    attr e "samples" = list_attribute (map (collected k) (if_use AsSample u [items] ++ ss)) /\
    attr e "default" = option_map (collected k) (last_of (if_use AsDefault u [items] ++ dd)) /\
    attr e "enumerations" = None.
(** a primitive: [texts] are the values with their places; [p] is the place of the element *)
Definition text_body (k : kind) (u : use) (texts : list (string * places)) (sections : list (msection melement)) (p : places)
    (e : element) (w : list annotation) : Prop :=
  let ss := (if_use AsSample u texts ++ section_texts (sample_sections sections))%list in
  let dd := (if_use AsDefault u texts ++ section_texts (default_sections sections))%list in
  (match if_use AsValue u texts with
   | [] => ehas e = false /\ attr e "sourceMap" = map_attribute p
   | (s, q) :: _ => ehas e = true /\ edata e = literal_or_default k s /\
       attr e "sourceMap" = match q with [] => map_attribute p | _ => Some (SourceMapToRefract q) end
   end) /\
  attr e "samples" = list_attribute (map (fun i => literal_element k (fst i)) ss) /\
  attr e "default" = option_map (fun i => literal_element k (fst i)) (last_of dd) /\
  attr e "enumerations" = None /\
  w = literal_warnings k (if_use AsValue u texts ++ ss ++ dd).
(** an enumeration: [its] are the entries given by values *)
Definition enum_body (fuel : nat) (r : registry) (t : type_def) (hs : list element) (u : use) (its : list element)
    (sections : list (msection melement)) (e : element) (w : list annotation) : Prop :=
  exists vs ss dd es entries w1 w2, w = (w1 ++ w2)%list /\
    Forall2 (section_fixed fuel r (nested_default t)) (members sections) vs /\
    Forall2 (section_fixed fuel r (nested_default t)) (sample_sections sections) ss /\
    Forall2 (section_fixed fuel r (nested_default t)) (default_sections sections) dd /\
    enumeration (if_use AsValue u its) (concat vs) (if_use AsSample u its ++ concat ss) (if_use AsDefault u its ++ concat dd) hs es (List.length w1) /\
    Forall (fun a => exists p, a = duplicate_warning p) w1 /\
    (w2 = [] \/ exists p, w2 = [mson_warning "multiple definitions of 'default' value" p]) /\
    (w2 = [] <-> match (if_use AsDefault u [its] ++ dd)%list with [] | [[]] | [[_]] => True | _ => False end) /\
    Forall2 fixed_version es entries /\ attr e "enumerations" = list_attribute entries /\
    (match (match single_entry (if_use AsValue u [its]) with Some x => Some x | None => single_entry vs end) with
     | Some x => ehas e = true /\ edata e = DEnum (Some x) | None => ehas e = false end) /\
    attr e "samples" = list_attribute (map enum_element (if_use AsSample u its ++ concat ss)) /\
    attr e "default" = match (if_use AsDefault u [its] ++ dd)%list with [] => None
      | _ => Some match last_of (if_use AsDefault u its ++ concat dd) with Some x => enum_element x | None => make_empty KEnum end end.

(** with the place [p] of the type *)
Definition nested_hints (fuel : nat) (r : registry) (t : type_def) (p : places) (hs : list element) (w : list annotation) : Prop :=
  exists rs, Forall2 (fun n x => hint fuel r p n (fst x) (snd x)) (t_nested (td_spec t)) rs /\ hs = concat (map fst rs) /\ w = concat (map snd rs).
Definition member_hints (fuel : nat) (r : registry) (v : value_def) (hs : list element) (w : list annotation) : Prop :=
  if hinted v then nested_hints fuel r (vd_type v) [] hs w else hs = [] /\ w = [].
(** the content of the value of a member of kind [k], and the warnings *)
Definition value_body (fuel : nat) (r : registry) (k : kind) (m : mmember melement) (e : element) (w : list annotation) : Prop :=
  let v := m_value m in
  match k with
  | KArray | KObject =>
    exists hs wh ws, w = (missing_warnings m ++ wh ++ ws)%list /\ member_hints fuel r v hs wh /\
      sections_report fuel r (nested_default (vd_type v)) (m_sections m) ws /\
      list_body fuel r k (vd_type v) hs (use_of false v) (map (item (entry_kind (vd_type v))) (inline_values v)) (m_sections m) e /\
      attr e "sourceMap" = map_attribute (m_map m)
  | KEnum =>
    exists hs its wh ws wl, w = (missing_warnings m ++ wh ++ ws ++ wl)%list /\ member_hints fuel r v hs wh /\
      sections_report fuel r (nested_default (vd_type v)) (m_sections m) ws /\
      Forall2 fixed_version (map (fun x => literal_element (entry_kind (vd_type v)) (v_literal x)) (inline_values v)) its /\
      enum_body fuel r (vd_type v) hs (use_of true v) its (m_sections m) e wl /\
      attr e "sourceMap" = map_attribute (m_map m)
  | _ =>
    List.length (inline_values v) <= 1 /\
    exists w', w = (missing_warnings m ++ w')%list /\ text_body k (use_of true v) (inline_texts m) (m_sections m) (m_map m) e w'
  end.
(** the content of a data structure: there are no values beside the name, and nested types always count *)
Definition structure_body (fuel : nat) (r : registry) (k : kind) (s : structure) (e : element) (w : list annotation) : Prop :=
  let t := ds_type s in
  match k with
  | KArray | KObject => exists hs wh ws, w = (wh ++ ws)%list /\ nested_hints fuel r t (ds_type_map s) hs wh /\
      sections_report fuel r (nested_default t) (ds_sections s) ws /\
      list_body fuel r k t hs NoUse [] (ds_sections s) e /\ attr e "sourceMap" = map_attribute (ds_map s)
  | KEnum => exists hs wh ws wl, w = (wh ++ ws ++ wl)%list /\ nested_hints fuel r t (ds_type_map s) hs wh /\
      sections_report fuel r (nested_default t) (ds_sections s) ws /\
      enum_body fuel r t hs NoUse [] (ds_sections s) e wl /\ attr e "sourceMap" = map_attribute (ds_map s)
  | _ => text_body k NoUse [] (ds_sections s) (ds_map s) e w
  end.
(** no other attributes *)
Definition only_attributes (l : list string) (e : element) : Prop := forall k, ~ In k l -> attr e k = None.
Definition value_attributes : list string := ["samples"; "default"; "enumerations"; "sourceMap"; "typeAttributes"]%string.

(** ** Keys of properties *)
Definition key_text (n : prop_name) : option string :=
  if String.eqb (p_literal n) "" then match vd_values (p_variable n) with v :: _ => Some (v_literal v) | [] => None end else Some (p_literal n).
Definition key_name (n : prop_name) : string := label (vd_type (p_variable n)) KString.
(** there is no property without a key; a key of a named type needs no text *)
Definition keyless (n : prop_name) : bool :=
  (is_reserved (key_name n) && match key_text n with None | Some EmptyString => true | _ => false end)%bool.
Definition key_of (n : prop_name) (key : element) : Prop :=
  ename key = key_name n /\ emeta key = [] /\ eattrs key = match p_map n with [] => [] | p => [("sourceMap"%string, SourceMapToRefract p)] end /\
  match key_text n with Some s => ehas key = true /\ edata key = DString s | None => ehas key = false end.
Definition key_warnings (n : prop_name) : list annotation :=
  match vd_values (p_variable n) with _ :: _ :: _ => [mson_warning "multiple variables in property definition is not implemented" (p_map n)] | _ => [] end.
(** what is written of type and attributes in the name of a property whose key is variable is that of a string *)
Definition string_typed (fuel : nat) (r : registry) (t : type_def) : Prop :=
  n_base (t_name (td_spec t)) = StringTN \/ exists e, FindRootAncestor fuel r (type_literal t) = Some (Some e) /\ ekind e = KString.

(** ** One-of, mixins, groups *)
(** an alternative becomes an option: with what a group holds, or with what the alternative becomes *)
Definition alternative (fuel : nat) (r : registry) (x : melement) (e : element) (w : list annotation) : Prop :=
  exists l, e = make_element (DOption l) /\
    match x with
    | MGroup es => exists rs, Forall2 (fun y o => to_apie fuel r y StringTN = ret o) es rs /\ l = somes (map fst rs) /\ w = concat (map snd rs)
    | _ => exists o, to_apie fuel r x StringTN = ret (o, w) /\ l = somes [o]
    end.
Definition select_element (l : list element) : element := match l with [] => make_empty KSelect | _ => make_element (DSelect l) end.
(** a mixin refers to the content of the type, by its name or that of the base type *)
Definition mixin_name (t : type_def) : string :=
  let y := n_symbol (t_name (td_spec t)) in
  if (String.eqb (s_literal y) "" && negb (s_variable y))%bool then kind_name (kind_of (n_base (t_name (td_spec t)))) else s_literal y.
Definition reference (name : string) : element :=
  Elem "ref" [] [("path"%string, make_element (DString "content"))] true (DRef name).

(** ** Data structures *)
Inductive structure_kind (fuel : nat) (r : registry) (t : type_def) : kind -> Prop :=
| sk_base b : n_base (t_name (td_spec t)) = b -> b <> UndefinedTN -> structure_kind fuel r t (kind_of b)
| sk_named k : n_base (t_name (td_spec t)) = UndefinedTN -> type_literal t <> ""%string -> known fuel r (type_literal t) k -> structure_kind fuel r t k
| sk_object : untyped fuel r t -> structure_kind fuel r t KObject.
Definition id_element (s : structure) : option element :=
  match s_literal (n_symbol (ds_name s)) with
  | EmptyString => None
  | id => Some (Elem "string" [] match ds_name_map s with [] => [] | p => [("sourceMap"%string, SourceMapToRefract p)] end true (DString id))
  end.

(** ** What can be converted *)
Definition ancestors_end (fuel : nat) (r : registry) : Prop := forall name, FindRootAncestor fuel r name <> None.
Definition primitive_type (fuel : nat) (r : registry) (t : type_def) : Prop :=
  In (n_base (t_name (td_spec t))) [BooleanTN; NumberTN; StringTN] \/
  (n_base (t_name (td_spec t)) = UndefinedTN /\ type_literal t <> ""%string /\
   exists k, known fuel r (type_literal t) k /\ In k [KBoolean; KNumber; KString]).
Definition enum_type (fuel : nat) (r : registry) (t : type_def) : Prop :=
  n_base (t_name (td_spec t)) = EnumTN \/
  (n_base (t_name (td_spec t)) = UndefinedTN /\ type_literal t <> ""%string /\ known fuel r (type_literal t) KEnum).
(** no type name, or that of a type whose definition is known *)
Definition plain_type (fuel : nat) (r : registry) (t : type_def) : Prop :=
  type_literal t = ""%string \/
  (n_base (t_name (td_spec t)) = UndefinedTN /\ (exists k, known fuel r (type_literal t) k) /\
   is_reserved (type_literal t) = false /\ type_literal t <> "generic"%string).
Definition sections_fine (fuel : nat) (r : registry) (t : type_def) (l : list (msection melement)) : Prop :=
  Forall (fun s => sc_class s <> UndefinedClass) l /\
  (enum_type fuel r t -> Forall (fun s => forall m, In (MValue m) (sc_elements s) -> plain_type fuel r (vd_type (m_value m))) l).
Definition member_fine (fuel : nat) (r : registry) (m : mmember melement) : Prop :=
  sections_fine fuel r (vd_type (m_value m)) (m_sections m) /\
  (primitive_type fuel r (vd_type (m_value m)) -> List.length (inline_values (m_value m)) <= 1).
Inductive convertible (fuel : nat) (r : registry) : melement -> Prop :=
| cv_property n m : (def_empty (vd_type (p_variable n)) = false -> string_typed fuel r (vd_type (p_variable n))) ->
    member_fine fuel r m -> Forall (fun s => Forall (convertible fuel r) (sc_elements s)) (m_sections m) -> convertible fuel r (MProperty n m)
| cv_value m : member_fine fuel r m -> Forall (fun s => Forall (convertible fuel r) (sc_elements s)) (m_sections m) -> convertible fuel r (MValue m)
| cv_mixin t : name_empty (t_name (td_spec t)) = false -> convertible fuel r (MMixin t)
(** groups are alternatives only *)
| cv_one_of l : Forall (fun x => convertible fuel r x \/ exists g, x = MGroup g /\ Forall (convertible fuel r) g) l -> convertible fuel r (MOneOf l).
Definition structure_fine (fuel : nat) (r : registry) (s : structure) : Prop :=
  sections_fine fuel r (ds_type s) (ds_sections s) /\ Forall (fun x => Forall (convertible fuel r) (sc_elements x)) (ds_sections s).
