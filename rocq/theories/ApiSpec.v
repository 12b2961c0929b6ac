(** Specification for C64-C70: the API Elements of a document, spelled out. Elements are written as they are: name, meta, attributes,
    whether they hold a value, the value. *)
From Verif Require Import Base SoValue JsonIo JsonSpec SourceMap Capi Element ElementSpec Extend Registry Expand JsonValue JsonSchema GenSpec Peg MediaType TypeTables Mson MsonSpec Blueprint.
Local Open Scope string_scope.
Local Open Scope list_scope.

(** ** Texts *)
Definition placed (p : places) : info := match p with [] => [] | _ => [("sourceMap", SourceMapToRefract p)] end.
Definition plain (s : string) : element := Elem "string" [] [] true (DString s).
Definition texts (l : list string) : element := Elem "array" [] [] true (DArray (map plain l)).
(** the text and its place *)
Definition text_at (t : text) : element := Elem "string" [] (placed (snd t)) true (DString (fst t)).
(** a value that may be missing *)
Definition value_at (t : text) : element := Elem "string" [] (placed (snd t)) (negb (blank t)) (DString (fst t)).
Definition entry_unless_blank (k : string) (t : text) : info := if blank t then [] else [(k, text_at t)].
Definition copies (t : text) : list element := if blank t then [] else [Elem "copy" [] (placed (snd t)) true (DString (fst t))].

(** ** Parameters of a URI template *)
Definition variable_value (p : parameter) : element :=
  match pa_values p with
  | [] => Elem "string" [] ((if blank (pa_example p) then [] else placed (snd (pa_example p))) ++ entry_unless_blank "default" (pa_default p))
            (negb (blank (pa_example p))) (DString (fst (pa_example p)))
  | vs => Elem "enum" []
            ((if blank (pa_default p) then [] else [("default", Elem "enum" [] [] true (DEnum (Some (text_at (pa_default p)))))]) ++
             [("enumerations", Elem "array" [] [] true (DArray (map value_at vs)))])
            (negb (blank (pa_example p))) (DEnum (if blank (pa_example p) then None else Some (text_at (pa_example p))))
  end.
Definition variable (p : parameter) : element :=
  Elem "member" (entry_unless_blank "description" (pa_description p) ++ entry_unless_blank "title" (pa_type p))
    [("typeAttributes", texts [match pa_use p with OptionalUse => "optional" | _ => "required" end])]
    true (DMember (Some (text_at (pa_name p))) (Some (variable_value p))).
(** of the parameters with one name the last counts *)
Fixpoint effective (l : list parameter) : list parameter :=
  match l with
  | [] => []
  | p :: t => if existsb (fun q => String.eqb (fst (pa_name p)) (fst (pa_name q))) t then effective t else p :: effective t
  end.
Definition variables (l : list parameter) : info :=
  match l with [] => [] | _ => [("hrefVariables", Elem "hrefVariables" [] [] true (DObject (map variable (effective l))))] end.

(** ** Headers, metadata *)
Definition pair_element (m : info) (h : pair_text) : element :=
  let '(k, v, p) := h in Elem "member" m (placed p) true (DMember (Some (plain k)) (Some (plain v))).
Definition headers (l : list pair_text) : info :=
  match l with [] => [] | _ => [("headers", Elem "httpHeaders" [] [] true (DArray (map (pair_element []) l)))] end.
Definition metadata (l : list pair_text) : info :=
  match l with [] => [] | _ => [("metadata", Elem "array" [] [] true (DArray (map (pair_element [("classes", texts ["user"])]) l)))] end.

(** ** The content of a message *)
Definition asset_element (content role type : string) (p : places) : element :=
  Elem "asset" [("classes", texts [role])] (placed p ++ match type with EmptyString => [] | _ => [("contentType", plain type)] end) true (DString content).
(** the value of the first header called Content-Type *)
Inductive declared_type : list pair_text -> string -> Prop :=
| dt_none l : (forall h, In h l -> fst (fst h) <> "Content-Type") -> declared_type l ""
| dt_first l v p l' : (forall h, In h l -> fst (fst h) <> "Content-Type") -> declared_type (l ++ ("Content-Type", v, p) :: l') v.
Definition schema_type : string := "application/schema+json".
Definition generates_bodies (o : option parse_options) : bool := match o with Some o => negb (skip_bodies o) | None => true end.
Definition generates_schemas (o : option parse_options) : bool := match o with Some o => negb (skip_schemas o) | None => true end.

(** the data structure of attributes, with the warnings of its conversion; None if there are no attributes *)
Inductive shape (fuel : nat) (r : registry) (s : structure) : option element -> list annotation -> Prop :=
| shape_none : structure_empty s = true -> shape fuel r s None []
| shape_some d w : structure_empty s = false -> structure_to_refract fuel r s = ret (Some d, w) -> shape fuel r s (Some d) w.
(** everything a data structure says, its named types included; an element that needs no expansion stays as it is *)
Definition expands (r : registry) (d x : element) : Prop :=
  exists o, computes (fun f => expand f r [] d) (Ok o) /\ x = match o with Some y => y | None => d end.
Definition structure_entry (o : option element) : list element :=
  match o with Some d => [Elem "dataStructure" [] [] true (DHolder (Some d))] | None => [] end.

(** the body: the one written, else one generated from the data structure if the type is JSON *)
Inductive body_asset_of (o : option parse_options) (y : payload) (m : media) (full : option element) : list element -> Prop :=
| body_written : fst (py_body y) <> "" -> body_asset_of o y m full [asset_element (fst (py_body y)) "messageBody" (print_media m) (snd (py_body y))]
| body_generated x v : fst (py_body y) = "" -> full = Some x -> generates_bodies o = true -> is_json m = true ->
    computes (fun f => generate_value f x) (Ok v) -> body_asset_of o y m full [asset_element (serialize_json v) "messageBody" (print_media m) []]
| body_none : fst (py_body y) = "" -> full = None \/ generates_bodies o = false \/ is_json m = false -> body_asset_of o y m full [].
(** likewise the schema *)
Inductive schema_asset_of (o : option parse_options) (y : payload) (m : media) (full : option element) : list element -> Prop :=
| schema_written : fst (py_schema y) <> "" ->
    schema_asset_of o y m full [asset_element (fst (py_schema y)) "messageBodySchema" (if is_json m then schema_type else "text/plain") (snd (py_schema y))]
| schema_generated x fs : fst (py_schema y) = "" -> full = Some x -> generates_schemas o = true -> is_json m = true ->
    computes (fun f => generate_schema f x) (Ok fs) -> schema_asset_of o y m full [asset_element (serialize_json (VObject fs)) "messageBodySchema" schema_type []]
| schema_none : fst (py_schema y) = "" -> full = None \/ generates_schemas o = false \/ is_json m = false -> schema_asset_of o y m full [].
(** what a message holds; [attributes]: those of the action, used if the message is a request that has none *)
Inductive message (fuel : nat) (r : registry) (o : option parse_options) (y : payload) (attributes : option structure) : list element -> list annotation -> Prop :=
| message_intro own w from w' full type m body schema :
    shape fuel r (py_attributes y) own w ->
    match own, attributes with
    | None, Some s => shape fuel r s from w'
    | _, _ => from = own /\ w' = []
    end ->
    match from with Some d => exists x, full = Some x /\ expands r d x | None => full = None end ->
    declared_type (py_headers y) type -> parse_media type = Some m ->
    body_asset_of o y m full body -> schema_asset_of o y m full schema ->
    message fuel r o y attributes (copies (py_description y) ++ structure_entry own ++ body ++ schema) (w ++ w').

(** ** Requests, responses, transactions *)
Definition details (y : payload) : info := placed (py_map y) ++ variables (py_parameters y) ++ headers (py_headers y).
(** a request of an action with a method; an example may have none *)
Inductive request (fuel : nat) (r : registry) (o : option parse_options) (a : action) : option payload -> element -> list annotation -> Prop :=
| request_none : request fuel r o a None (Elem "httpRequest" [] [("method", text_at (ac_method a))] true (DArray [])) []
| request_some y l w : message fuel r o y (Some (ac_attributes a)) l w ->
    request fuel r o a (Some y) (Elem "httpRequest" (entry_unless_blank "title" (py_name y)) (("method", text_at (ac_method a)) :: details y) true (DArray l)) w.
Inductive response (fuel : nat) (r : registry) (o : option parse_options) : option payload -> element -> list annotation -> Prop :=
| response_none : response fuel r o None (Elem "httpResponse" [] [] true (DArray [])) []
| response_some y l w : message fuel r o y None l w ->
    response fuel r o (Some y) (Elem "httpResponse" [] (("statusCode", text_at (py_name y)) :: details y) true (DArray l)) w.
Inductive transaction (fuel : nat) (r : registry) (o : option parse_options) (a : action) (t : text) (q s : option payload) : element -> list annotation -> Prop :=
| transaction_intro eq es wq ws : request fuel r o a q eq wq -> response fuel r o s es ws ->
    transaction fuel r o a t q s (Elem "httpTransaction" [] [] true (DArray (copies t ++ [eq; es]))) (wq ++ ws).
(** every request with every response; alone if there are no others *)
Definition pairs (x : example) : list (option payload * option payload) :=
  match ex_requests x, ex_responses x with
  | [], l => map (fun s => (None, Some s)) l
  | l, [] => map (fun q => (Some q, None)) l
  | l, l' => map (fun p => (Some (fst p), Some (snd p))) (list_prod l l')
  end.

(** ** Lists of things, one after the other, with their warnings *)
Definition each {A B} (P : A -> B -> list annotation -> Prop) (l : list A) (es : list B) (w : list annotation) : Prop :=
  exists rs, Forall2 (fun a b => P a (fst b) (snd b)) l rs /\ es = map fst rs /\ w = concat (map snd rs).

(** ** Transitions, resources, categories *)
Inductive transition (fuel : nat) (r : registry) (o : option parse_options) (a : action) : element -> list annotation -> Prop :=
| transition_intro d w ts w' : shape fuel r (ac_attributes a) d w ->
    each (fun x => each (fun p => transaction fuel r o a (ex_description x) (fst p) (snd p)) (pairs x)) (ac_examples a) ts w' ->
    transition fuel r o a
      (Elem "transition" [("title", text_at (ac_name a))]
        (entry_unless_blank "relation" (ac_relation a) ++ entry_unless_blank "href" (ac_uri a) ++ variables (ac_parameters a) ++
         match structure_entry d with [] => [] | e :: _ => [("data", e)] end)
        true (DArray (copies (ac_description a) ++ concat ts))) (w ++ w').
Inductive resource_element (fuel : nat) (r : registry) (o : option parse_options) (s : resource) : element -> list annotation -> Prop :=
| resource_intro d w l w' : shape fuel r (re_attributes s) d w -> each (transition fuel r o) (re_actions s) l w' ->
    resource_element fuel r o s
      (Elem "resource" [("title", text_at (re_name s))] (("href", text_at (re_uri s)) :: variables (re_parameters s))
        true (DArray (copies (re_description s) ++ structure_entry d ++ l))) (w ++ w').
(** the meta data of a category *)
Definition category_meta (b : belement) : info :=
  match b_category b with
  | ResourceGroupCategory => [("classes", texts ["resourceGroup"]); ("title", text_at (b_name b))]
  | DataStructureGroupCategory => [("classes", texts ["dataStructures"])]
  | UndefinedCategory => []
  end.
(** what an element of the document gives: at most one element *)
Inductive gives (fuel : nat) (r : registry) (o : option parse_options) : belement -> list element -> list annotation -> Prop :=
| gives_resource b e w : b_class b = ResourceElement -> resource_element fuel r o (b_resource b) e w -> gives fuel r o b [e] w
| gives_structure b d w : b_class b = DataStructureElement -> shape fuel r (b_structure b) d w -> gives fuel r o b (structure_entry d) w
| gives_copy b : b_class b = CopyElement -> gives fuel r o b (copies (b_copy b)) []
| gives_category b rs : b_class b = CategoryElement -> Forall2 (fun c x => gives fuel r o c (fst x) (snd x)) (b_elements b) rs ->
    gives fuel r o b [Elem "category" (category_meta b) [] true (DArray (concat (map fst rs)))] (concat (map snd rs)).
Inductive document_element (fuel : nat) (r : registry) (o : option parse_options) (b : blueprint) : element -> list annotation -> Prop :=
| document_intro ls w : each (gives fuel r o) (bp_elements b) ls w ->
    document_element fuel r o b
      (Elem "category" [("classes", texts ["api"]); ("title", text_at (bp_name b))] (metadata (bp_metadata b))
        true (DArray (copies (bp_description b) ++ concat ls))) w.

(** ** Where things are in a document *)
Definition of_resource_class (b : belement) : Prop := b_class b = ResourceElement.
Inductive inside : belement -> belement -> Prop :=
| inside_here b : inside b b
| inside_below b c d : b_class b = CategoryElement -> In c (b_elements b) -> inside c d -> inside b d.
(** every action of the document has a method *)
Definition methods_given (b : blueprint) : Prop :=
  forall top x, In top (bp_elements b) -> inside top x -> b_class x = ResourceElement -> forall a, In a (re_actions (b_resource x)) -> fst (ac_method a) <> "".

(** ** Sound elements *)
Definition sound_piece (x : element) : Prop :=
  ename x <> "" /\ NoDup (map fst (emeta x)) /\ NoDup (map fst (eattrs x)) /\
  match edata x with
  | DNumber n => json_number n = true
  | DObject l => NoDup (member_keys l)
  | DMember k v => ehas x = true /\ k <> None /\ v <> None
  | DEnum o | DHolder o => ehas x = true -> o <> None
  | _ => True
  end.
Definition sound (e : element) : Prop := forall x, sub x e -> sound_piece x.
