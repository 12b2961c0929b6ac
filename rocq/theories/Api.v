(** Model of the conversion of the abstract syntax tree to API Elements: packages/drafter/src/RefractAPI.cc, RefractSourceMap.{h,cc},
    Render.cc:47-60, and ExpandRefract of RefractDataStructure.cc. The AST carries its source maps (Blueprint.v). *)
From Coq Require Import Permutation.
From Verif Require Import Base SoValue JsonIo SourceMap Capi Element Extend Registry Expand JsonValue JsonSchema Peg MediaType TypeTables Mson Blueprint Register.
Local Open Scope string_scope.

(** RefractSourceMap.h:31-37 PrimitiveToRefract *)
Definition primitive (t : text) : element := attach (str_elem (fst t)) (snd t).
(** RefractSourceMap.cc:58-71 LiteralToRefract *)
Definition literal (t : text) : element :=
  attach (let (ok, v) := literal_to KString (fst t) in if ok then make_element v else make_empty KString) (snd t).
(** element->meta().set, element->attributes().set *)
Definition with_meta (e : element) (k : string) (v : element) : element := set_meta e (iset (emeta e) k v).
Definition with_attr (e : element) (k : string) (v : element) : element := set_attrs e (iset (eattrs e) k v).
Definition with_attr_if (c : bool) (e : element) (k : string) (v : element) : element := if c then with_attr e k v else e.
Definition with_meta_if (c : bool) (e : element) (k : string) (v : element) : element := if c then with_meta e k v else e.
(** make_element<ArrayElement>(from_primitive(s)) *)
Definition one_text (s : string) : element := make_element (DArray [str_elem s]).
(** make_element<ArrayElement>() and element->element(name) *)
Definition array_named (name : string) (l : list element) : element := set_name (make_element (DArray l)) name.
(** RefractAPI.cc:143-153 CopyToRefract *)
Definition copy_to_refract (t : text) : list element := if blank t then [] else [set_name (primitive t) "copy"].

(** RefractAPI.cc:128-141 MetadataToRefract *)
Definition metadata_to_refract (m : pair_text) : element :=
  let '(k, v, p) := m in attach (with_meta (make_element (DMember (Some (str_elem k)) (Some (str_elem v)))) "classes" (one_text "user")) p.
(** RefractAPI.cc:155-174 ParameterValuesToRefract *)
Definition parameter_values (p : parameter) : element :=
  let e := if blank (pa_example p) then make_empty KEnum else make_element (DEnum (Some (literal (pa_example p)))) in
  let e := with_attr_if (negb (blank (pa_default p))) e "default" (make_element (DEnum (Some (literal (pa_default p))))) in
  with_attr e "enumerations" (make_element (DArray (map literal (pa_values p)))).
(** RefractAPI.cc:176-197 ExtractParameter *)
Definition extract_parameter (p : parameter) : element :=
  match pa_values p with
  | [] =>
    let e := if blank (pa_example p) then make_empty KString else literal (pa_example p) in
    with_attr_if (negb (blank (pa_default p))) e "default" (primitive (pa_default p))
  | _ => parameter_values p
  end.
(** RefractAPI.cc:199-229 ParameterToRefract *)
Definition parameter_to_refract (p : parameter) : element :=
  let e := make_element (DMember (Some (primitive (pa_name p))) (Some (extract_parameter p))) in
  let e := with_meta_if (negb (blank (pa_description p))) e "description" (primitive (pa_description p)) in
  let e := with_meta_if (negb (blank (pa_type p))) e "title" (primitive (pa_type p)) in
  with_attr e "typeAttributes" (one_text (match pa_use p with OptionalUse => "optional" | _ => "required" end)).
(** RefractAPI.cc:231-235 ParametersToRefract: std::back_inserter calls push_back of the object *)
Definition parameters_to_refract (l : list parameter) : element :=
  set_name (make_element (DObject (fold_left obj_push_back (map parameter_to_refract l) []))) "hrefVariables".
(** RefractAPI.cc:237-244 HeaderToRefract *)
Definition header_to_refract (h : pair_text) : element :=
  let '(k, v, p) := h in attach (make_element (DMember (Some (str_elem k)) (Some (str_elem v)))) p.
(** RefractAPI.cc:246-273 make_asset_element *)
Definition asset (content klass type : string) (p : places) : element :=
  let e := set_name (str_elem content) "asset" in
  let e := with_meta_if (negb (String.eqb klass "")) e "classes" (one_text klass) in
  let e := attach e p in
  with_attr_if (negb (String.eqb type "")) e "contentType" (str_elem type).
(** RefractAPI.cc:280-288 *)
Definition json_schema_type : media := MT "application" "schema" "json" [].
Definition text_plain_type : media := MT "text" "plain" "" [].
(** Render.cc:47-60 getContentTypeFromHeaders *)
Definition content_type (l : list pair_text) : string :=
  match find (fun h => String.eqb (fst (fst h)) "Content-Type") l with Some h => snd (fst h) | None => "" end.
(** RefractAPI.cc:100-103 isRequest; a null NodeInfo is None *)
Definition is_request (a : option action) : bool := match a with Some a => negb (blank (ac_method a)) | None => false end.
(** RefractAPI.cc:114-116, 315-318 *)
Definition held_structure (e : element) : element := set_name (make_element (DHolder (Some e))) "dataStructure".

Section Conversion.
  (** context: the steps granted to every recursion, the registry of named types, the options. expandMson() is false: only unit tests set it. *)
  Context (fuel : nat) (r : registry) (opts : option parse_options).

  (** MSONToRefract *)
  Definition mson (s : structure) : X (option element) := of_mson (structure_to_refract fuel r s).
  Definition mson_if (s : structure) : X (option element) := if structure_empty s then xret None else mson s.
  (** RefractDataStructure.cc:1329-1343 ExpandRefract of an element *)
  Definition expand_refract (e : element) : X element :=
    of_run (bind (expand fuel r [] e) (fun o => ret (match o with Some x => x | None => e end))).
  (** RefractAPI.cc:106-126 DataStructureToRefract *)
  Definition data_structure (s : structure) : X (option element) := xbind (mson s) (fun o => xret (option_map held_structure o)).

  (** options.cc:13-19 *)
  Definition no_bodies : bool := match opts with Some o => skip_bodies o | None => false end.
  Definition no_schemas : bool := match opts with Some o => skip_schemas o | None => false end.

  (** RefractAPI.cc:290-302, 386-398 the body asset *)
  Definition body_asset (p : payload) (m : media) (expanded : option element) : X (list element) :=
    if negb (blank (py_body p)) then xret [asset (fst (py_body p)) "messageBody" (print_media m) (snd (py_body p))]
    else match expanded with
         | Some e =>
           if (negb no_bodies && is_json m)%bool
           then xbind (of_run (generate_value fuel e)) (fun v => xret [asset (serialize_json v) "messageBody" (print_media m) []])
           else xret []
         | None => xret []
         end.
  (** RefractAPI.cc:304-316, 400-412 the schema asset *)
  Definition schema_asset (p : payload) (m : media) (expanded : option element) : X (list element) :=
    if negb (blank (py_schema p))
    then xret [asset (fst (py_schema p)) "messageBodySchema" (print_media (if is_json m then json_schema_type else text_plain_type)) (snd (py_schema p))]
    else match expanded with
         | Some e =>
           if (negb no_schemas && is_json m)%bool
           then xbind (of_run (generate_schema fuel e)) (fun s => xret [asset (serialize_json (VObject s)) "messageBodySchema" (print_media json_schema_type) []])
           else xret []
         | None => xret []
         end.

  (** RefractAPI.cc:328-358 name, attributes and meta of a payload *)
  Definition payload_head (p : option payload) (a : option action) : element :=
    let e :=
      if is_request a then
        let e := array_named "httpRequest" [] in
        let e := match a with Some a => with_attr e "method" (primitive (ac_method a)) | None => e end in
        match p with Some p => with_meta_if (negb (blank (py_name p))) e "title" (primitive (py_name p)) | None => e end
      else
        let e := array_named "httpResponse" [] in
        match p with Some p => with_attr e "statusCode" (primitive (py_name p)) | None => e end in
    match p with
    | None => e
    | Some p =>
      let e := attach e (py_map p) in
      let e := match py_parameters p with [] => e | l => with_attr e "hrefVariables" (parameters_to_refract l) end in
      match py_headers p with [] => e | l => with_attr e "headers" (array_named "httpHeaders" (map header_to_refract l)) end
    end.
  (** RefractAPI.cc:320-415 PayloadToRefract; a null payload is None *)
  Definition payload_to_refract (p : option payload) (a : option action) : X element :=
    match p with
    | None => xret (payload_head p a)
    | Some y =>
      xbind (mson_if (py_attributes y)) (fun own =>
      match parse_media (content_type (py_headers y)) with
      | None => ([], Breaks)
      | Some m =>
        xbind (match own, a with
               | Some _, _ => xret own
               | None, Some a => mson_if (ac_attributes a)
               | None, None => xret None
               end) (fun shape =>
        xbind (match shape with Some e => xbind (expand_refract e) (fun x => xret (Some x)) | None => xret None end) (fun expanded =>
        xbind (body_asset y m expanded) (fun body =>
        xbind (schema_asset y m expanded) (fun schema =>
        xret (eset (payload_head p a)
               (DArray (copy_to_refract (py_description y) ++ match own with Some e => [held_structure e] | None => [] end ++ body ++ schema)%list))))))
      end)
    end.
  (** RefractAPI.cc:417-436 TransactionToRefract: the response is converted without an action *)
  Definition transaction_to_refract (t : text) (a : action) (request response : option payload) : X element :=
    xbind (payload_to_refract request (Some a)) (fun q =>
    xbind (payload_to_refract response None) (fun s =>
    xret (array_named "httpTransaction" (copy_to_refract t ++ [q; s])%list))).

  (** RefractAPI.cc:474-507 the transactions of an example, in the order they are converted *)
  Definition exchanges (x : example) : list (option payload * option payload) :=
    ((match ex_requests x with [] => map (fun s => (None, Some s)) (ex_responses x) | _ => [] end) ++
     flat_map (fun q => (match ex_responses x with [] => [(Some q, None)] | _ => [] end) ++ map (fun s => (Some q, Some s)) (ex_responses x)) (ex_requests x))%list.
  Definition example_to_refract (a : action) (x : example) : X (list element) :=
    xmap (fun qs => transaction_to_refract (ex_description x) a (fst qs) (snd qs)) (exchanges x).
  (** RefractAPI.cc:438-512 ActionToRefract. Simplified: attributes().set(Data, nullptr) is undefined; it is not reached, the
      structure is not empty. *)
  Definition action_to_refract (a : action) : X element :=
    let e := with_meta (array_named "transition" []) "title" (primitive (ac_name a)) in
    let e := with_attr_if (negb (blank (ac_relation a))) e "relation" (primitive (ac_relation a)) in
    let e := with_attr_if (negb (blank (ac_uri a))) e "href" (primitive (ac_uri a)) in
    let e := match ac_parameters a with [] => e | l => with_attr e "hrefVariables" (parameters_to_refract l) end in
    xbind (if structure_empty (ac_attributes a) then xret e
           else xbind (data_structure (ac_attributes a)) (fun o => match o with Some d => xret (with_attr e "data" d) | None => ([], Breaks) end)) (fun e =>
    xbind (xmap (example_to_refract a) (ac_examples a)) (fun ts =>
    xret (eset e (DArray (copy_to_refract (ac_description a) ++ concat ts)%list)))).
  (** RefractAPI.cc:514-543 ResourceToRefract; RemoveEmptyElements drops a null data structure *)
  Definition resource_to_refract (s : resource) : X element :=
    let e := with_meta (array_named "resource" []) "title" (primitive (re_name s)) in
    let e := with_attr e "href" (primitive (re_uri s)) in
    let e := match re_parameters s with [] => e | l => with_attr e "hrefVariables" (parameters_to_refract l) end in
    xbind (if structure_empty (re_attributes s) then xret None else data_structure (re_attributes s)) (fun d =>
    xbind (xmap action_to_refract (re_actions s)) (fun l =>
    xret (eset e (DArray (copy_to_refract (re_description s) ++ match d with Some d => [d] | None => [] end ++ l)%list)))).

  (** RefractAPI.cc:551-583 CategoryToRefract without its children *)
  Definition category_head (b : belement) : element :=
    let e := array_named "category" [] in
    match b_category b with
    | ResourceGroupCategory => with_meta (with_meta e "classes" (one_text "resourceGroup")) "title" (primitive (b_name b))
    | DataStructureGroupCategory => with_meta e "classes" (one_text "dataStructures")
    | UndefinedCategory => e
    end.
  (** RefractAPI.cc:585-604 ElementToRefract; the children of a category are converted by ElementToRefract, null ones dropped *)
  Definition somes {A} (l : list (option A)) : list A := flat_map (fun o => match o with Some x => [x] | None => [] end) l.
  Fixpoint element_to_refract (b : belement) : X (option element) :=
    match b_class b with
    | ResourceElement => xbind (resource_to_refract (b_resource b)) (fun e => xret (Some e))
    | DataStructureElement => data_structure (b_structure b)
    | CopyElement => xret (match copy_to_refract (b_copy b) with e :: _ => Some e | [] => None end)
    | CategoryElement =>
      xbind (xmap element_to_refract (let 'BElem _ _ _ _ _ l _ := b in l)) (fun l => xret (Some (eset (category_head b) (DArray (somes l)))))
    | _ => ([], Refused (Annotation "unknown type of api description element" 1 []))
    end.
  (** RefractAPI.cc:606-633 BlueprintToRefract *)
  Definition blueprint_to_refract (b : blueprint) : X element :=
    let e := with_meta (with_meta (array_named "category" []) "classes" (one_text "api")) "title" (primitive (bp_name b)) in
    let e := match bp_metadata b with [] => e | l => with_attr e "metadata" (make_element (DArray (map metadata_to_refract l))) end in
    xbind (xmap element_to_refract (bp_elements b)) (fun l =>
    xret (eset e (DArray (copy_to_refract (bp_description b) ++ somes l)%list))).
End Conversion.

(** SerializeResult.cc:52-60: the named types are registered, then the blueprint is converted. [order]: what std::sort makes of the types found. *)
Definition convert (fuel : nat) (opts : option parse_options) (order : list structure) (b : blueprint) : X element :=
  xbind (register fuel (find_named_types (bp_elements b)) order) (fun r => blueprint_to_refract fuel r opts b).
