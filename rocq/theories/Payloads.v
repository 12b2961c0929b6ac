(** Model of packages/apib-parser/src/snowcrash/PayloadParser.h, AssetParser.h, CodeBlockUtility.h and of the section part of HeadersParser.h:
    what a list item of a request, a response or a model holds. Every process* function of these parsers returns the iterator behind its node: the
    loops of SectionParser.h go down the list of nodes, and [lastCur == cur] never holds. Source maps of the result are not modelled.
    Attributes and parameters are the list items given to their parsers, in order: what these parsers add to the report, given the earlier items, is
    [nested]; whether they find nothing is [found_none]. *)
From Coq Require Import DecimalString.
From Verif Require Import Base StringUtility Regex ByteBuffer Markdown MarkdownSpec Source Headers Keywords.
Local Open Scope string_scope.

(** Blueprint.h:149-177 Reference; the node is kept as its source map *)
Inductive ref_state : Type := Unresolved | Pending | Resolved.
Record reference : Type := Ref { r_id : string; r_state : ref_state; r_place : list range }.
(** Blueprint.h:196-221 Payload *)
Record payload : Type := Load {
  q_name : string; q_description : string; q_parameters : list tree; q_headers : list header; q_attributes : list tree;
  q_body : string; q_schema : string; q_reference : reference }.
Definition empty_payload : payload := Load "" "" [] [] [] "" "" (Ref "" Unresolved []).
Definition set_name (x : string) (p : payload) : payload := Load x (q_description p) (q_parameters p) (q_headers p) (q_attributes p) (q_body p) (q_schema p) (q_reference p).
Definition set_description (x : string) (p : payload) : payload := Load (q_name p) x (q_parameters p) (q_headers p) (q_attributes p) (q_body p) (q_schema p) (q_reference p).
Definition set_parameters (x : list tree) (p : payload) : payload := Load (q_name p) (q_description p) x (q_headers p) (q_attributes p) (q_body p) (q_schema p) (q_reference p).
Definition set_headers (x : list header) (p : payload) : payload := Load (q_name p) (q_description p) (q_parameters p) x (q_attributes p) (q_body p) (q_schema p) (q_reference p).
Definition set_attributes (x : list tree) (p : payload) : payload := Load (q_name p) (q_description p) (q_parameters p) (q_headers p) x (q_body p) (q_schema p) (q_reference p).
Definition set_body (x : string) (p : payload) : payload := Load (q_name p) (q_description p) (q_parameters p) (q_headers p) (q_attributes p) x (q_schema p) (q_reference p).
Definition set_schema (x : string) (p : payload) : payload := Load (q_name p) (q_description p) (q_parameters p) (q_headers p) (q_attributes p) (q_body p) x (q_reference p).
Definition set_reference (x : reference) (p : payload) : payload := Load (q_name p) (q_description p) (q_parameters p) (q_headers p) (q_attributes p) (q_body p) (q_schema p) x.

(** SourceAnnotation.h:120-136 WarningCode (some are in Headers) *)
Definition RedefinitionWarning : N := 4%N.
Definition IgnoringWarning : N := 5%N.
Definition EmptyDefinitionWarning : N := 6%N.
Definition IndentationWarning : N := 10%N.
(** Section.cc:13-48 SectionName *)
Definition section_name (ty : section_type) : string :=
  match ty with
  | ModelSection | ModelBodySection => "model"
  | RequestSection | RequestBodySection => "request"
  | ResponseSection | ResponseBodySection => "response"
  | BodySection | DanglingBodySection => "message-body"
  | SchemaSection | DanglingSchemaSection => "message-schema"
  | HeadersSection => "headers"
  | MSONMixinSection => "mixin"
  | MSONOneOfSection => "one of"
  | _ => "section"
  end.
(** stream << unsigned number *)
Definition decimal (n : N) : string := NilZero.string_of_uint (N.to_uint n).
(** ModelTable.h:31 *)
Definition ModelReferenceRegex := "^[[:blank:]]*\[" +++ SYMBOL +++ "]\[][[:blank:]]*$".
(** ModelTable.h:41-53 GetModelReference *)
Definition model_reference (source : string) : option string :=
  match regex_capture source ModelReferenceRegex 3 with Some g => Some (trim (nth 1 g "")) | None => None end.

Section Parser.
(** SectionParserData: sourceData, sourceCharacterIndex, modelTable *)
Context (source : string) (index : list N) (models : string -> option payload).
(** AttributesParser::parse, ParametersParser::parse *)
Context (nested : section_type -> list tree -> tree -> outcome (list annotation)).
(** Attributes::empty(), Parameters::empty() *)
Context (found_none : section_type -> list tree -> bool).

(** report.warnings.push_back *)
Definition report : Type := list annotation.
Definition warn (code : N) (message : string) (m : list range) (w : report) : outcome report :=
  andthen (index_set_to_characters m index) (fun loc => Val (w ++ [An loc code message])%list).

(** ** CodeBlockUtility.h *)
(** 28-42 codeBlockIndentationLevel *)
Definition level_of (ty : section_type) : N :=
  match ty with
  | BlueprintSection | ResourceGroupSection | ResourceSection | ActionSection => 1%N
  | RequestBodySection | ResponseBodySection | ModelBodySection => 2%N
  | _ => 3%N
  end.
(** "<4 * level> spaces or <level> tabs" *)
Definition indented (level : N) : string := decimal (level * 4) +++ " spaces or " +++ decimal level +++ " tabs".
Definition asset_name (ty : section_type) : string := section_name ty +++ (match ty with BodySection => " asset" | _ => "" end).
(** 231-256 checkPossibleReference; [ctx]: sectionContext() *)
Definition check_reference (ctx : section_type) (t : tree) (w : report) : outcome report :=
  match model_reference (trim (t_text t)) with
  | Some symbol =>
    warn IgnoringWarning ("found a possible '" +++ symbol +++ "' model reference, a reference must be directly in the " +++ section_name ctx +++
      " section, indented by 4 spaces or 1 tab, without any additional sections") (t_map t) w
  | None => Val w
  end.
(** 122-170 checkExcessiveIndentation *)
Definition check_indentation (ctx : section_type) (t : tree) (w : report) : outcome report :=
  match line_of (t_text t) with
  | String c rest =>
    if (Ascii.eqb c "-" || Ascii.eqb c "+" || Ascii.eqb c "*")%bool then
      match recognize_first_line (trim_start rest) with
      | UndefinedSection => Val w
      | ty =>
        let level := (level_of ctx - 1)%N in
        warn IndentationWarning ("excessive indentation, " +++ section_name ty +++ " " +++
          (if (level =? 0)%N then "section is not expected to be indented"
           else "section is expected to be indented by just " +++ decimal (level * 4) +++ " spaces or " +++ decimal level +++ " tab" +++ (if (1 <? level)%N then "s" else "")))
          (t_map t) w
      end
    else Val w
  | EmptyString => Val w
  end.
(** 50-80 contentAsCodeBlock: the content and the report; [parent]: parentSectionContext() *)
Definition content_of (ctx parent : section_type) (t : tree) (w : report) : outcome (string * report) :=
  andthen (check_reference ctx t w) (fun w =>
  match t_type t with
  | CodeNode => andthen (check_indentation ctx t w) (fun w => Val (t_text t, w))
  | _ =>
    andthen (map_ranges (t_map t) source) (fun content =>
    Val (content, w ++ [An (set_to_consecutive (t_map t) index) IndentationWarning
      (asset_name ctx +++ " is expected to be a pre-formatted code block, every of its line indented by exactly " +++ indented (level_of parent))])%list)
  end).
(** GetFirstLine(node->text, remainingContent) *)
Definition remaining (t : tree) : string := snd (first_line (t_text t) "").
(** 83-116 signatureContentAsCodeBlock: what is added to the content *)
Definition signature_content (ctx parent : section_type) (t : tree) (w : report) : outcome (string * report) :=
  if String.eqb (remaining t) "" then Val ("", w)
  else andthen (warn IndentationWarning (asset_name ctx +++ " is expected to be a pre-formatted code block, separate it by a newline and indent every of its line by " +++
         indented (level_of parent)) (t_map t) w) (fun w => Val (remaining t +++ String LF "", w)).
(** 197-229 addDanglingAsset: what is added. [last]: the section before. sectionContext() is undefined then *)
Definition dangling (last : section_type) (t : tree) (w : report) : outcome (string * report) :=
  andthen (match t_type t with CodeNode => Val (t_text t) | _ => map_ranges (t_map t) source end) (fun asset =>
  andthen (two_new_lines asset) (fun asset =>
  let level := match t_type t with CodeNode => (level_of last - 1)%N | _ => level_of last end in
  andthen (check_reference UndefinedSection t w) (fun w =>
  andthen (if (level =? 0)%N then Val w
           else warn IndentationWarning ("dangling message-body asset, expected a pre-formatted code block, indent every of it's line by " +++ indented level) (t_map t) w) (fun w =>
  Val (asset, w))))).

(** ** SectionParser.h *)
(** 187-205 ListSectionAdapter::startingNode: the children from there on *)
Fixpoint start_loop (l : list tree) : outcome (option (list tree)) :=
  match l with
  | [] => Val None
  | t :: r => match t_map t with [] => ByteBuffer.Wild | x :: _ => if (length x =? 0)%N then start_loop r else Val (Some l) end
  end.
Definition starting (t : tree) : outcome (list tree) :=
  if is_item t then andthen (start_loop (t_children t)) (fun o => Val (match o with Some l => l | None => t_children t end)) else Thrown.
(** 73-82: the content nodes *)
Fixpoint contents {A} (is_content : tree -> bool) (f : tree -> A -> report -> outcome (A * report)) (l : list tree) (a : A) (w : report) : outcome (A * report * list tree) :=
  match l with
  | [] => Val (a, w, [])
  | t :: r => if is_content t then andthen (f t a w) (fun '(a, w) => contents is_content f r a w) else Val (a, w, l)
  end.
(** SectionProcessor.h:211-233 processUnexpectedNode *)
Definition unexpected (t : tree) (w : report) : outcome report :=
  warn IgnoringWarning
    (if is_header t then "unexpected header block, expected a group, resource or an action definition, e.g. '# Group <name>', '# <resource name> [<URI>]' or '# <HTTP method> <URI>'"
     else "ignoring unrecognized block") (t_map t) w.
(** 96-140 parseNestedSections of a section without nested sections *)
Fixpoint skip_all (l : list tree) (w : report) : outcome report :=
  match l with [] => Val w | t :: r => andthen (unexpected t w) (fun w => skip_all r w) end.
(** AssetParser.h:78-82, HeadersParser.h:150-154 isContentNode *)
Definition no_keyword (t : tree) : bool := match section_keyword t with UndefinedSection => true | _ => false end.

(** ** AssetParser.h:41-76: the new value; the old one is lost. [ctx]: the body or the schema, [parent]: the payload *)
Definition parse_asset (ctx parent : section_type) (item : tree) (w : report) : outcome (string * report) :=
  andthen (starting item) (fun l =>
  match l with
  | [] => ByteBuffer.Wild
  | t :: r =>
    andthen (signature_content ctx parent t w) (fun '(text, w) =>
    andthen (contents no_keyword (fun t text w => andthen (content_of ctx parent t w) (fun '(c, w) => Val (text +++ c, w))) r text w) (fun '(text, w, r) =>
    andthen (skip_all r w) (fun w => Val (text, w))))
  end).

(** ** HeadersParser.h:109-148, 175-186: the headers are added to those there are *)
Definition headers_of (ranges : list range) (hs : list header) (w : report) : outcome (list header * report) := headers_from_content ranges source index hs w.
Definition parse_headers (parent : section_type) (item : tree) (hs : list header) (w : report) : outcome (list header * report) :=
  andthen (starting item) (fun l =>
  match l with
  | [] => ByteBuffer.Wild
  | t :: r =>
    andthen (signature_content HeadersSection parent t w) (fun '(_, w) =>
    andthen (match t_map t with [] => ByteBuffer.Wild | _ :: ranges => headers_of ranges hs w end) (fun '(hs, w) =>
    andthen (contents no_keyword (fun t hs w => andthen (content_of HeadersSection parent t w) (fun '(_, w) => headers_of (t_map t) hs w)) r hs w) (fun '(hs, w, r) =>
    andthen (skip_all r w) (fun w =>
    andthen (match hs with [] => warn FormattingWarning "no valid headers specified" (t_map item) w | _ => Val w end) (fun w =>
    Val (hs, w))))))
  end).

(** ** PayloadParser.h *)
(** 387-393 isAbbreviated *)
Definition abbreviated (ty : section_type) : bool := match ty with RequestBodySection | ResponseBodySection | ModelBodySection => true | _ => false end.
Definition is_request (ty : section_type) : bool := match ty with RequestSection | RequestBodySection => true | _ => false end.
Definition is_response (ty : section_type) : bool := match ty with ResponseSection | ResponseBodySection => true | _ => false end.
(** 405-423: the pattern, the group of the name and that of the media type: 471-483 *)
Definition signature_pattern (ty : section_type) : option (string * nat * nat) :=
  match ty with
  | RequestSection | RequestBodySection => Some (RequestRegex, 1, 4)
  | ResponseSection | ResponseBodySection => Some (ResponseRegex, 1, 3)
  | ModelSection | ModelBodySection => Some (ModelRegex, 2, 4)
  | _ => None
  end.
Definition expected_signature (ty : section_type) : string :=
  if is_request ty then "'request [<identifier>] [(<media type>)]'"
  else if is_response ty then "'response [<HTTP status code>] [(<media type>)]'" else "'model [(<media type>)]'".
(** 395-510 parseSignature: its result is not used. The match begins at the start of the signature, find finds it there *)
Definition parse_signature (ty : section_type) (t : tree) (signature : string) (p : payload) (w : report) : outcome (payload * report) :=
  match signature_pattern ty with
  | None => Val (p, w)
  | Some (pattern, name, media) =>
    match regex_capture signature pattern 5 with
    | None => Val (p, w)
    | Some g =>
      if negb (String.eqb (trim (from signature (String.length (nth 0 g "")))) "") then
        andthen (warn FormattingWarning ("unable to parse " +++ section_name ty +++ " signature, expected " +++ expected_signature ty) (t_map t) w) (fun w => Val (p, w))
      else
        let p := set_name (trim (nth name g "")) p in
        let m := trim (nth media g "") in
        Val (if String.eqb m "" then p else set_headers (q_headers p ++ [("Content-Type", m)])%list p, w)
    end
  end.
(** 552-610 assingReferredPayload. [place]: reference.meta.node->sourceMap *)
Definition content_type (hs : list header) : bool := existsb (fun h => String.eqb (fst h) "Content-Type") hs.
Definition refer (ty : section_type) (model : payload) (p : payload) (w : report) : outcome (payload * report) :=
  let mine := match q_headers p with [] => false | _ => true end in
  let its := content_type (q_headers model) in
  andthen (if (mine && its)%bool
           then warn IgnoringWarning ("ignoring additional " +++ section_name ty +++ " header(s), specify this header(s) in the referenced model definition instead") (r_place (q_reference p)) w
           else Val w) (fun w =>
  Val (Load (q_name p) (q_description model) (q_parameters model) (if (mine && negb its)%bool then q_headers p ++ q_headers model else q_headers model)%list (q_attributes p)
         (q_body model) (q_schema model) (q_reference p), w)).
(** 512-550 parseModelReference: none if the text is no reference *)
Definition parse_reference (ty : section_type) (t : tree) (text : string) (p : payload) (w : report) : option (outcome (payload * report)) :=
  match model_reference (trim text) with
  | None => None
  | Some symbol =>
    Some (match models symbol with
          | None => Val (set_reference (Ref symbol Pending (t_map t)) p, w)
          | Some model => refer ty model (set_reference (Ref symbol Resolved (t_map t)) p) w
          end)
  end.
(** 56-107 processSignature *)
Definition payload_signature (ty : section_type) (t : tree) (p : payload) (w : report) : outcome (payload * report) :=
  let (signature, rest) := first_line (t_text t) "" in
  andthen (parse_signature ty t signature p w) (fun '(p, w) =>
  andthen (if (String.eqb (q_name p) "" && is_response ty)%bool
           then andthen (warn EmptyDefinitionWarning "missing response HTTP status code, assuming 'Response 200'" (t_map t) w) (fun w => Val (set_name "200" p, w))
           else Val (p, w)) (fun '(p, w) =>
  if String.eqb rest "" then Val (p, w)
  else if negb (abbreviated ty) then Val (set_description rest p, w)
  else match parse_reference ty t rest p w with
       | Some o => o
       | None =>
         andthen (signature_content BodySection ty t w) (fun '(c, w) =>
         andthen (two_new_lines (q_body p +++ c)) (fun body => Val (set_body body p, w)))
       end)).
(** SectionProcessor.h:150-170 processDescription *)
Definition payload_description (t : tree) (p : payload) (w : report) : outcome (payload * report) :=
  andthen (if String.eqb (q_description p) "" then Val "" else two_new_lines (q_description p)) (fun d =>
  andthen (map_ranges (t_map t) source) (fun c => Val (set_description (d +++ trim c) p, w))).
(** 109-149 processContent *)
Definition payload_content (ty : section_type) (t : tree) (p : payload) (w : report) : outcome (payload * report) :=
  if negb (String.eqb (r_id (q_reference p)) "") then
    andthen (warn IgnoringWarning ("ignoring extraneous content after model reference, expected model reference only e.g. '[" +++ r_id (q_reference p) +++ "][]'") (t_map t) w)
      (fun w => Val (p, w))
  else
    let asset := andthen (content_of BodySection ty t w) (fun '(c, w) => Val (set_body (q_body p +++ c) p, w)) in
    if (negb (String.eqb (q_body p) "") || match t_type t with ParagraphNode => false | _ => true end)%bool then asset
    else match parse_reference ty t (t_text t) p w with Some o => o | None => asset end.
(** 151-217 processNestedSection; [ctx]: the nested section, [ty]: parentSectionContext() *)
Definition payload_nested (ty ctx : section_type) (t : tree) (p : payload) (w : report) : outcome (payload * report) :=
  match ctx with
  | HeadersSection => andthen (parse_headers ty t (q_headers p) w) (fun '(hs, w) => Val (set_headers hs p, w))
  | AttributesSection => andthen (nested ctx (q_attributes p) t) (fun a => Val (set_attributes (q_attributes p ++ [t])%list p, (w ++ a)%list))
  | ParametersSection =>
    match ty with
    | RequestSection => andthen (nested ctx (q_parameters p) t) (fun a => Val (set_parameters (q_parameters p ++ [t])%list p, (w ++ a)%list))
    | _ => andthen (warn IgnoringWarning "ignoring parameters section in a non request payload section" (t_map t) w) (fun w => Val (p, w))
    end
  | BodySection =>
    andthen (if String.eqb (q_body p) "" then Val w else warn RedefinitionWarning "ignoring additional 'body' content, it is already defined" (t_map t) w) (fun w =>
    andthen (parse_asset ctx ty t w) (fun '(s, w) => Val (set_body s p, w)))
  | SchemaSection =>
    andthen (if String.eqb (q_schema p) "" then Val w else warn RedefinitionWarning "ignoring additional 'schema' content, it is already defined" (t_map t) w) (fun w =>
    andthen (parse_asset ctx ty t w) (fun '(s, w) => Val (set_schema s p, w)))
  | _ => Val (p, w)
  end.
Definition text_node (t : tree) : bool := match t_type t with ParagraphNode | CodeNode => true | _ => false end.
(** 219-242 processUnexpectedNode *)
Definition payload_unexpected (last : section_type) (t : tree) (p : payload) (w : report) : outcome (payload * report) :=
  if (text_node t && match last with BodySection => true | _ => false end)%bool
  then andthen (dangling last t w) (fun '(c, w) => Val (set_body (q_body p +++ c) p, w))
  else andthen (unexpected t w) (fun w => Val (p, w)).
(** SectionParser.h:96-140 parseNestedSections *)
Fixpoint payload_loop (ty last : section_type) (l : list tree) (p : payload) (w : report) : outcome (payload * report) :=
  match l with
  | [] => Val (p, w)
  | t :: r =>
    let ctx := payload_nested_type t in
    andthen (match ctx with UndefinedSection => payload_unexpected last t p w | _ => payload_nested ty ctx t p w end) (fun '(p, w) =>
    let last := match r with
                | [] => last
                | u :: _ => match ctx with UndefinedSection => if text_node u then last else ctx | _ => ctx end
                end in
    payload_loop ty last r p w)
  end.
(** 612-668 checkRequest *)
Definition last_header (name : string) (hs : list header) : string := fold_left (fun v h => if String.eqb (fst h) name then snd h else v) hs "".
Definition check_request (m : list range) (p : payload) (w : report) : outcome report :=
  let len := last_header "Content-Length" (q_headers p) in
  let enc := last_header "Transfer-Encoding" (q_headers p) in
  if (String.eqb (q_body p) "" && found_none AttributesSection (q_attributes p) && match r_state (q_reference p) with Pending => false | _ => true end)%bool then
    if (if (match q_headers p with [] => true | _ => false end && found_none ParametersSection (q_parameters p))%bool then true else (negb (String.eqb len "") || negb (String.eqb enc ""))%bool)
    then warn EmptyDefinitionWarning ("empty request message-body" +++
           (if negb (String.eqb len "") then ", expected message-body for '" +++ len +++ "' Content-Length"
            else if negb (String.eqb enc "") then ", expected message-body for '" +++ enc +++ "' Transfer-Encoding" else "")) m w
    else Val w
  else Val w.
(** std::stringstream(name) >> code, an unsigned int: whitespace is skipped, then a sign and digits; what does not fit becomes the largest number, without
    digits it is 0. Names of responses have no sign *)
Fixpoint read_digits (s : string) (n : N) : N :=
  match s with String a r => if in_range 48 57 (byte a) then read_digits r (n * 10 + (byte a - 48)) else n | EmptyString => n end.
Definition read_code (s : string) : N := N.min (read_digits (trim_start s) 0) (2 ^ 32 - 1).
(** HTTP.cc:23-34 GetStatusCodeTrait *)
Definition allows_body (code : N) : bool := negb ((code =? 204) || (code =? 304) || (code / 100 =? 1))%N.
(** 670-698 checkResponse *)
Definition check_response (m : list range) (p : payload) (w : report) : outcome report :=
  let code := if String.eqb (q_name p) "" then 200%N else read_code (q_name p) in
  if (negb (allows_body code) && negb (String.eqb (q_body p) "") && match r_state (q_reference p) with Pending => false | _ => true end)%bool
  then warn EmptyDefinitionWarning ("the " +++ decimal code +++ " response MUST NOT include a message-body") m w
  else Val w.
(** 329-342 finalize *)
Definition payload_finalize (ty : section_type) (item : tree) (p : payload) (w : report) : outcome report :=
  if is_request ty then check_request (t_map item) p w else if is_response ty then check_response (t_map item) p w else Val w.
(** 244-262 isDescriptionNode, isContentNode *)
Definition payload_is_description (ty : section_type) (t : tree) : bool :=
  (negb (abbreviated ty) && match payload_nested_type t with UndefinedSection => true | _ => false end)%bool.
Definition payload_is_content (ty : section_type) (t : tree) : bool := (abbreviated ty && no_keyword t)%bool.
(** SectionParser.h:32-93 parse, the payload being a new one (ActionParser.h:113-116, 138-141, ResourceParser.h:433-436) *)
Definition parse_payload (ty : section_type) (item : tree) (w : report) : outcome (payload * report) :=
  andthen (starting item) (fun l =>
  match l with
  | [] => ByteBuffer.Wild
  | t :: r =>
    andthen (payload_signature ty t empty_payload w) (fun '(p, w) =>
    andthen (contents (payload_is_description ty) (fun t p w => payload_description t p w) r p w) (fun '(p, w, r) =>
    andthen (contents (payload_is_content ty) (fun t p w => payload_content ty t p w) r p w) (fun '(p, w, r) =>
    andthen (payload_loop ty UndefinedSection r p w) (fun '(p, w) =>
    andthen (payload_finalize ty item p w) (fun w =>
    Val (p, w))))))
  end).
End Parser.
