(** Model of packages/apib-parser/src/snowcrash/ResourceParser.h, ActionParser.h, of HeadersParser.h:300-375 and of BlueprintParser.h:619-845: the resources, the actions,
    their requests and responses, the table of models and the references to them. Which node belongs to which section is given by the outline (Sections.v): the
    nodes of a resource and of an action are gone through in the order they were taken, and each is read as what the outline says it was taken for. Left out: descriptions, relations,
    parameters, attributes and the named types, with their warnings; the URI template's warnings; groups: the resources of a document are one list. Source maps of the
    result are not modelled. *)
From Verif Require Import Base StringUtility Regex ByteBuffer Markdown MarkdownSpec Source Headers Keywords Sections Payloads.
Local Open Scope string_scope.

(** Blueprint.h: TransactionExample, Action, Resource *)
Definition transaction : Type := list payload * list payload.
Record action : Type := Action { a_name : string; a_method : string; a_uri : string; a_headers : list header; a_examples : list transaction }.
Record resource : Type := Resource { e_name : string; e_uri : string; e_model : payload; e_headers : list header; e_actions : list action }.
(** SectionParserData::modelTable: a std::map, no key twice; the Report: one error, the last, and the warnings *)
Record state : Type := State { s_models : list (string * payload); s_error : option annotation; s_warnings : list annotation }.
Definition find_model (l : list (string * payload)) (id : string) : option payload :=
  match find (fun e => String.eqb (fst e) id) l with Some e => Some (snd e) | None => None end.

(** SourceAnnotation.h:103-136 *)
Definition ModelError : N := 3%N.
Definition DuplicateWarning : N := 2%N.
Definition DeprecatedWarning : N := 9%N.

(** ** headers of sections *)
(** ActionParser.h:493-514 actionHTTPMethodAndName, and the trimming of the name (57): name, method, path *)
Definition action_signature (t : tree) : string * string * string :=
  let subject := trim (fst (first_line (t_text t) "")) in
  match regex_capture subject ActionHeaderRegex 3 with
  | Some g => ("", nth 1 g "", "")
  | None =>
    match regex_capture subject NamedActionHeaderRegex 4 with
    | Some g => (trim (nth 1 g ""), nth 2 g "", nth 3 g "")
    | None => ("", "", "")
    end
  end.
(** ResourceParser.h:52-68 processSignature, 316-326 matchNamedResourceHeader: name and path *)
Definition resource_header (t : tree) : string * string :=
  match regex_capture (t_text t) ResourceHeaderRegex 4 with
  | Some g => ("", nth 3 g "")
  | None =>
    match regex_capture (t_text t) NamedEndpointHeaderRegex 5 with
    | Some g => (trim (nth 1 g ""), nth 3 g "")
    | None => match regex_capture (t_text t) NamedResourceHeaderRegex 4 with Some g => (trim (nth 1 g ""), nth 2 g "") | None => ("", "") end
    end
  end.

Section Parser.
(** as in Payloads.v *)
Context (source : string) (index : list N).
Context (nested : section_type -> list tree -> tree -> outcome (list annotation)).
Context (found_none : section_type -> list tree -> bool).

Definition with_warnings (w : list annotation) (st : state) : state := State (s_models st) (s_error st) w.
Definition warned (code : N) (message : string) (m : list range) (st : state) : outcome state :=
  andthen (warn index code message m (s_warnings st)) (fun w => Val (with_warnings w st)).
(** report.error = Error(...) *)
Definition failed (message : string) (m : list range) (st : state) : outcome state :=
  andthen (index_set_to_characters m index) (fun loc => Val (State (s_models st) (Some (An loc ModelError message)) (s_warnings st))).
(** PayloadParser::parse *)
Definition read_payload (ty : section_type) (t : tree) (st : state) : outcome (payload * state) :=
  andthen (parse_payload source index (find_model (s_models st)) nested found_none ty t (s_warnings st)) (fun '(p, w) => Val (p, with_warnings w st)).
(** ActionParser.h:418-437 handleDeprecatedHeaders *)
Definition read_headers (parent : section_type) (t : tree) (hs : list header) (st : state) : outcome (list header * state) :=
  andthen (parse_headers source index parent t hs (s_warnings st)) (fun '(hs, w) =>
  andthen (warned DeprecatedWarning "the 'headers' section at this level is deprecated and will be removed in a future, use respective payload header section(s) instead" (t_map t) (with_warnings w st))
    (fun st => Val (hs, st))).
(** CodeBlockUtility.h:197-229 addDanglingAsset *)
Definition read_dangling (last : section_type) (t : tree) (st : state) : outcome (string * state) :=
  andthen (dangling source index last t (s_warnings st)) (fun '(c, w) => Val (c, with_warnings w st)).
Definition ignoring (t : tree) (st : state) : outcome state := andthen (unexpected index t (s_warnings st)) (fun w => Val (with_warnings w st)).

(** ** actions *)
(** BlueprintUtility.h:58-90 MatchPayload *)
Definition first_header (name : string) (hs : list header) : string :=
  match find (fun h => String.eqb (fst h) name) hs with Some h => snd h | None => "" end.
Definition match_payload (x y : payload) : bool :=
  if String.eqb (q_name x) (q_name y) then String.eqb (first_header "Content-Type" (q_headers x)) (first_header "Content-Type" (q_headers y)) else false.
(** ActionParser.h:398-416 isPayloadDuplicate *)
Definition duplicate_payload (ty : section_type) (p : payload) (e : transaction) : bool :=
  match ty with
  | RequestSection => existsb (fun x => match_payload x p) (fst e)
  | ResponseSection => existsb (fun x => match_payload x p) (snd e)
  | _ => false
  end.
(** HTTP.cc:36-48 GetMethodTrait *)
Definition method_allows_body (method : string) : bool := negb (String.eqb method "HEAD" || String.eqb method "CONNECT").
(** ActionParser.h:350-392 checkPayload. The name of a response is never empty: [code] is set *)
Definition check_payload (ty : section_type) (t : tree) (p : payload) (method : string) (e : transaction) (st : state) : outcome state :=
  andthen (if duplicate_payload ty p e
           then warned DuplicateWarning (section_name ty +++ " payload `" +++ q_name p +++ "` already defined for `" +++ method +++ "` method") (t_map t) st
           else Val st) (fun st =>
  if Payloads.is_response ty then
    let code := read_code (q_name p) in
    if (negb (method_allows_body method) && negb (String.eqb (q_body p) ""))%bool then
      if (String.eqb method "CONNECT" && (code / 100 =? 2)%N)%bool
      then warned EmptyDefinitionWarning ("the response for " +++ decimal code +++ " " +++ method +++ " request MUST NOT include a message-body") (t_map t) st
      else if (negb (String.eqb method "CONNECT") && negb (method_allows_body method))%bool
      then warned EmptyDefinitionWarning ("the response for " +++ method +++ " request MUST NOT include a message-body") (t_map t) st
      else Val st
    else Val st
  else Val st).
(** examples.back() *)
Definition back (l : list transaction) : transaction := last l ([], []).
Definition on_back (f : transaction -> transaction) (l : list transaction) : list transaction :=
  match l with [] => [] | _ => (removelast l ++ [f (back l)])%list end.
(** 118-128: a request behind a response begins a transaction; 143-151 *)
Definition open_request (l : list transaction) : list transaction :=
  match l with [] => [([], [])] | _ => match snd (back l) with [] => l | _ => (l ++ [([], [])])%list end end.
Definition open_response (l : list transaction) : list transaction := match l with [] => [([], [])] | _ => l end.
Definition set_examples (l : list transaction) (a : action) : action := Action (a_name a) (a_method a) (a_uri a) (a_headers a) l.
Definition add_text (s : string) (p : payload) : payload := set_body (q_body p +++ s) p.
Definition on_last_payload (f : payload -> payload) (l : list payload) : list payload :=
  match l with [] => [] | _ => (removelast l ++ [f (last l empty_payload)])%list end.
(** 91-186 processNestedSection, 198-253 processUnexpectedNode; [last]: lastSectionType *)
Definition action_part (last : section_type) (x : part) (a : action) (st : state) : outcome (section_type * action * state) :=
  match x with
  | Head t => let '(name, method, uri) := action_signature t in Val (last, Action name method uri (a_headers a) (a_examples a), st)
  | Listed ty t =>
    match ty with
    | RequestSection | RequestBodySection =>
      andthen (read_payload ty t st) (fun '(p, st) =>
      let l := open_request (a_examples a) in
      andthen (check_payload ty t p (a_method a) (back l) st) (fun st => Val (ty, set_examples (on_back (fun e => (fst e ++ [p], snd e)%list) l) a, st)))
    | ResponseSection | ResponseBodySection =>
      andthen (read_payload ty t st) (fun '(p, st) =>
      let l := open_response (a_examples a) in
      andthen (check_payload ty t p (a_method a) (back l) st) (fun st => Val (ty, set_examples (on_back (fun e => (fst e, snd e ++ [p])%list) l) a, st)))
    | HeadersSection =>
      andthen (read_headers ActionSection t (a_headers a) st) (fun '(hs, st) => Val (ty, Action (a_name a) (a_method a) (a_uri a) hs (a_examples a), st))
    | _ => Val (ty, a, st)
    end
  | Dangling t =>
    andthen (read_dangling last t st) (fun '(c, st) =>
    Val (last, set_examples (on_back (fun e => if Payloads.is_response last then (fst e, on_last_payload (add_text c) (snd e)) else (on_last_payload (add_text c) (fst e), snd e)) (a_examples a)) a, st))
  | Ignored t =>
    andthen (match asset_type t with
             | UndefinedSection => ignoring t st
             | ty => warned IgnoringWarning ("Ignoring " +++ section_name ty +++ " list item, " +++ section_name ty +++ " list item is expected to be indented by 4 spaces or 1 tab") (t_map t) st
             end) (fun st => Val (last, a, st))
  | _ => Val (last, a, st)
  end.
Fixpoint action_parts (last : section_type) (l : list part) (a : action) (st : state) : outcome (action * state) :=
  match l with [] => Val (a, st) | x :: r => andthen (action_part last x a st) (fun '(last, a, st) => action_parts last r a st) end.
(** HeadersParser.h:309-375 injectDeprecatedHeaders *)
Definition put_headers (hs : list header) (p : payload) : payload := set_headers (hs ++ q_headers p)%list p.
Definition inject (hs : list header) (l : list transaction) : list transaction := map (fun e => (map (put_headers hs) (fst e), map (put_headers hs) (snd e))) l.
(** 306-340 finalize; [t]: the header *)
Definition action_finalize (t : tree) (a : action) (st : state) : outcome (action * state) :=
  let a := match a_headers a with [] => a | hs => Action (a_name a) (a_method a) (a_uri a) [] (inject hs (a_examples a)) end in
  andthen (match a_examples a with
           | [] => warned EmptyDefinitionWarning "action is missing a response" (t_map t) st
           | _ =>
             match back (a_examples a) with
             | ((_ :: _) as rs, []) =>
               let name := q_name (last rs empty_payload) in
               warned EmptyDefinitionWarning ("action is missing a response for " +++ (if String.eqb name "" then "a request" else "the '" +++ name +++ "' request")) (t_map t) st
             | _ => Val st
             end
           end) (fun st => Val (a, st)).
Definition new_action : action := Action "" "" "" [] [].
(** the node a section begins with *)
Definition head_of (l : list part) : option tree := match l with Head t :: _ => Some t | _ => None end.
Definition read_action (l : list part) (st : state) : outcome (action * state) :=
  match head_of l with
  | Some t => andthen (action_parts UndefinedSection l new_action st) (fun '(a, st) => action_finalize t a st)
  | None => ByteBuffer.Wild
  end.

(** ** resources *)
Definition set_model (p : payload) (r : resource) : resource := Resource (e_name r) (e_uri r) p (e_headers r) (e_actions r).
(** ResourceParser.h:430-500 processModel *)
Definition read_model (ty : section_type) (t : tree) (r : resource) (st : state) : outcome (resource * state) :=
  andthen (read_payload ty t st) (fun '(p, st) =>
  andthen (if String.eqb (q_name (e_model r)) "" then Val st
           else warned DuplicateWarning ("overshadowing previous model definition for '" +++ (if String.eqb (e_name r) "" then e_uri r else e_name r +++ "(" +++ e_uri r +++ ")") +++
                  "' resource, a resource can be represented by a single model only") (t_map t) st) (fun st =>
  let named := negb (String.eqb (q_name p) "") in
  andthen (if (named || negb (String.eqb (e_name r) ""))%bool then Val st
           else failed ("resource model can be specified only for a named resource, name your resource, e.g. '# <resource name> [" +++ e_uri r +++ "]'") (t_map t) st) (fun st =>
  let p := if named then p else set_name (e_name r) p in
  andthen (match find_model (s_models st) (q_name p) with
           | None => Val (State (s_models st ++ [(q_name p, p)])%list (s_error st) (s_warnings st))
           | Some _ => failed ("symbol '" +++ q_name p +++ "' already defined") (t_map t) st
           end) (fun st => Val (set_model p r, st))))).
(** 153-185 processUnexpectedNode: the text is added to the body of the last model, and this becomes the body of the entry in the table of that name *)
Definition update_model (id body : string) (l : list (string * payload)) : list (string * payload) :=
  map (fun e => if String.eqb (fst e) id then (fst e, set_body body (snd e)) else e) l.
Definition model_text (last : section_type) (t : tree) (r : resource) (st : state) : outcome (resource * state) :=
  andthen (read_dangling last t st) (fun '(c, st) =>
  let m := add_text c (e_model r) in
  Val (set_model m r, State (update_model (q_name m) (q_body m) (s_models st)) (s_error st) (s_warnings st))).
Definition add_action (a : action) (r : resource) : resource := Resource (e_name r) (e_uri r) (e_model r) (e_headers r) (e_actions r ++ [a])%list.
(** BlueprintUtility.h:100-105 MatchAction *)
Definition match_action (x y : action) : bool := (String.eqb (a_uri x) (a_uri y) && String.eqb (a_method x) (a_method y))%bool.
(** ResourceParser.h:353-395 processAction *)
Definition take_action (l : list part) (r : resource) (st : state) : outcome (resource * state) :=
  andthen (read_action l st) (fun '(a, st) =>
  andthen (if existsb (fun x => match_action x a) (e_actions r)
           then warned DuplicateWarning ("action with method '" +++ a_method a +++ "' already defined for resource '" +++ e_uri r +++ "'")
                  (match head_of l with Some t => t_map t | None => [] end) st
           else Val st) (fun st => Val (add_action a r, st))).
(** 42-82 processSignature, 84-185 *)
Definition resource_part (last : section_type) (x : part) (r : resource) (st : state) : outcome (section_type * resource * state) :=
  match x with
  | Head t => let '(name, uri) := resource_header t in Val (last, Resource name uri (e_model r) (e_headers r) (e_actions r), st)
  | Listed ty t =>
    match ty with
    | ModelSection | ModelBodySection => andthen (read_model ty t r st) (fun '(r, st) => Val (ty, r, st))
    | HeadersSection =>
      andthen (read_headers ResourceSection t (e_headers r) st) (fun '(hs, st) => Val (ty, Resource (e_name r) (e_uri r) (e_model r) hs (e_actions r), st))
    | _ => Val (ty, r, st)
    end
  | Sub (Sec _ l _) => andthen (take_action l r st) (fun '(r, st) => Val (ActionSection, r, st))
  | Dangling t => andthen (model_text last t r st) (fun '(r, st) => Val (last, r, st))
  | Ignored t => andthen (ignoring t st) (fun st => Val (last, r, st))
  | _ => Val (last, r, st)
  end.
Fixpoint resource_parts (last : section_type) (l : list part) (r : resource) (st : state) : outcome (resource * state) :=
  match l with [] => Val (r, st) | x :: l => andthen (resource_part last x r st) (fun '(last, r, st) => resource_parts last l r st) end.
(** 288-304 finalize *)
Definition resource_finalize (r : resource) : resource :=
  match e_headers r with
  | [] => r
  | hs => Resource (e_name r) (e_uri r) (e_model r) [] (map (fun a => set_examples (inject hs (a_examples a)) a) (e_actions r))
  end.
Definition new_resource : resource := Resource "" "" empty_payload [] [].
(** 331-350 processNestedAction: a method and a path in one header. The action is the only one *)
Definition read_resource (l : list part) (st : state) : outcome (resource * state) :=
  match l with
  | [Sub (Sec _ k _)] =>
    match head_of k with
    | Some t =>
      let (name, uri) := resource_header t in
      andthen (read_action k st) (fun '(a, st) => Val (resource_finalize (Resource name uri empty_payload [] [a]), st))
    | None => ByteBuffer.Wild
    end
  | _ => andthen (resource_parts UndefinedSection l new_resource st) (fun '(r, st) => Val (resource_finalize r, st))
  end.
(** ResourceGroupParser.h:100-130: a path some resource before has. Groups and resources of the document are searched *)
Definition take_resource (l : list part) (rs : list resource) (st : state) : outcome (list resource * state) :=
  andthen (read_resource l st) (fun '(r, st) =>
  andthen (if existsb (fun x => String.eqb (e_uri x) (e_uri r)) rs
           then warned DuplicateWarning ("the resource '" +++ e_uri r +++ "' is already defined")
                  (match l with Head t :: _ => t_map t | Sub (Sec _ (Head t :: _) _) :: _ => t_map t | _ => [] end) st
           else Val st) (fun st => Val (rs ++ [r], st)%list)).
Fixpoint take_resources (l : list (list part)) (rs : list resource) (st : state) : outcome (list resource * state) :=
  match l with [] => Val (rs, st) | x :: l => andthen (take_resource x rs st) (fun '(rs, st) => take_resources l rs st) end.

(** ** BlueprintParser.h: references to models that come later *)
(** 816-845 resolvePendingModels *)
Definition resolve (p : payload) (st : state) : outcome (payload * state) :=
  let r := q_reference p in
  match find_model (s_models st) (r_id r) with
  | None => andthen (failed ("Undefined resource model " +++ r_id r) (r_place r) st) (fun st => Val (set_reference (Ref (r_id r) Unresolved (r_place r)) p, st))
  | Some m =>
    andthen (refer index UndefinedSection m (set_reference (Ref (r_id r) Resolved (r_place r)) p) (s_warnings st)) (fun '(p, w) => Val (p, with_warnings w st))
  end.
(** 733-809 checkRequestLazyReferencing, checkResponseLazyReferencing; [check]: checkRequest or checkResponse, at the reference *)
Definition late (check : list range -> payload -> report -> outcome report) (p : payload) (st : state) : outcome (payload * state) :=
  if (negb (String.eqb (r_id (q_reference p)) "") && match r_state (q_reference p) with Pending => true | _ => false end)%bool
  then andthen (resolve p st) (fun '(p, st) => andthen (check (r_place (q_reference p)) p (s_warnings st)) (fun w => Val (p, with_warnings w st)))
  else Val (p, st).
Fixpoint each {A} (f : A -> state -> outcome (A * state)) (l : list A) (st : state) : outcome (list A * state) :=
  match l with [] => Val ([], st) | x :: l => andthen (f x st) (fun '(y, st) => andthen (each f l st) (fun '(l, st) => Val (y :: l, st))) end.
(** 704-731 *)
Definition late_example (e : transaction) (st : state) : outcome (transaction * state) :=
  andthen (each (late (check_request index found_none)) (fst e) st) (fun '(rs, st) =>
  andthen (each (late (check_response index)) (snd e) st) (fun '(ps, st) => Val ((rs, ps), st))).
(** 682-702 *)
Definition late_action (a : action) (st : state) : outcome (action * state) :=
  andthen (each late_example (a_examples a) st) (fun '(l, st) => Val (set_examples l a, st)).
(** 625-680 *)
Definition late_resource (r : resource) (st : state) : outcome (resource * state) :=
  andthen (each late_action (e_actions r) st) (fun '(l, st) => Val (Resource (e_name r) (e_uri r) (e_model r) (e_headers r) l, st)).

(** ** the document *)
(** the resources, in and outside of groups *)
Definition resource_of (x : part) : list (list part) :=
  match x with
  | Sub (Sec ResourceSection l _) => [l]
  | Sub (Sec ResourceGroupSection l _) => flat_map (fun y => match y with Sub (Sec ResourceSection l _) => [l] | _ => [] end) l
  | _ => []
  end.
Definition no_state : state := State [] None [].
Definition read_document (l : list part) : outcome (list resource * state) :=
  andthen (take_resources (flat_map resource_of l) [] no_state) (fun '(rs, st) => each late_resource rs st).
End Parser.
