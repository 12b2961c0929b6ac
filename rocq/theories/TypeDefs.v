(** Model of packages/apib-parser/src/snowcrash/MSONUtility.h:24-453 and StringUtility.h:303-315: values, names of types, type attributes and type definitions of
    MSON. The base types and dependencies of the named types are those of TypeTables.v. Remarks on a node are given without its source map; the order of
    errors among the warnings is kept. *)
From Verif Require Import Base ByteBuffer StringUtility Regex Signature TypeTables Mson.
Local Open Scope string_scope.
Local Open Scope nat_scope.

(** SourceAnnotation.h:103-136 *)
Inductive remark : Type := Warns (code : N) (message : string) | Fails (e : type_error).
Definition IgnoringCode : N := 5%N.
Definition EmptyDefinitionCode : N := 6%N.
Definition LogicalErrorCode : N := 8%N.

(** MSONUtility.h:25-37 checkVariable; markdown-parser/MarkdownParser.h:19 MarkdownEmphasisChars. No char is emphasis in an empty text: subject[0] is NUL *)
Definition check_variable (subject : string) : outcome bool :=
  andthen (at_ subject 0) (fun a =>
  if (Ascii.eqb a "*" || Ascii.eqb a "_")%bool then
    andthen (if String.length subject =? 0 then ByteBuffer.Wild else at_ subject (String.length subject - 1)) (fun z => Val (Ascii.eqb a z))
  else Val false).
(** MSONUtility.h:73-99 parseValue *)
Definition parse_value (subject : string) : outcome mvalue :=
  andthen (check_variable subject) (fun variable =>
  andthen (if variable then retrieve_escaped subject 0 true else Val ("", subject)) (fun '(literal, buffer) =>
  andthen (if String.eqb literal "" then andthen (strip_backticks buffer) (fun r => Val (fst r)) else Val literal) (fun literal =>
  Val (if String.eqb literal "*" then MV "" true else MV literal variable)))).
(** MSONUtility.h:108-118 parseSymbol *)
Definition parse_symbol (subject : string) : outcome symbol := andthen (parse_value subject) (fun v => Val (Sym (v_literal v) (v_variable v))).
(** MSONUtility.h:127-145 parseTypeName, for a new type name *)
Definition no_symbol : symbol := Sym "" false.
Definition parse_type_name (subject : string) (is_base : bool) : outcome type_name :=
  if (is_base && String.eqb subject "boolean")%bool then Val (TN BooleanTN no_symbol)
  else if (is_base && String.eqb subject "string")%bool then Val (TN StringTN no_symbol)
  else if (is_base && String.eqb subject "number")%bool then Val (TN NumberTN no_symbol)
  else if (is_base && String.eqb subject "array")%bool then Val (TN ArrayTN no_symbol)
  else if (is_base && String.eqb subject "enum")%bool then Val (TN EnumTN no_symbol)
  else if (is_base && String.eqb subject "object")%bool then Val (TN ObjectTN no_symbol)
  else andthen (parse_symbol subject) (fun s => Val (TN UndefinedTN s)).
(** MSONUtility.h:155-182 parseTypeAttribute: the bits with that of the attribute, or none *)
Definition parse_type_attribute (attribute : string) (bits : N) : option N :=
  if String.eqb attribute "required" then Some (N.setbit bits RequiredTA)
  else if String.eqb attribute "optional" then Some (N.setbit bits OptionalTA)
  else if String.eqb attribute "fixed" then Some (N.setbit bits FixedTA)
  else if String.eqb attribute "sample" then Some (N.setbit bits SampleTA)
  else if String.eqb attribute "default" then Some (N.setbit bits DefaultTA)
  else if String.eqb attribute "nullable" then Some (N.setbit bits NullableTA)
  else if String.eqb attribute "fixed-type" then Some (N.setbit bits FixedTypeTA)
  else None.

(** markdown-parser/MarkdownParser.h:25-26 MarkdownLinkRegex *)
Definition MarkdownLinkRegex : string := "^[[:blank:]]*\[(.*)][[:blank:]]*(\[([^][()]*)]|\(([^][()]+)\))[[:blank:]]*$".
(** StringUtility.h:303-315 StripMarkdownLink; posix/RegexMatch.cc:45-52 RegexCaptureFirst *)
Definition strip_markdown_link (subject : string) : outcome string :=
  andthen (at_ subject 0) (fun a =>
  if negb (Ascii.eqb a "[") then Val subject
  else Val (trim (match regex_capture subject MarkdownLinkRegex 8 with Some g => nth 1 g "" | None => "" end))).

(** MSONUtility.h:190-298 parseTypeSpecification: the loop, with lookingAtNested, lookingForEndLink and alreadyParsedLink. Result: the text left in the buffer,
    lookingAtNested, alreadyParsedLink and the specification *)
Definition add_nested (text : string) (ts : type_spec) : outcome type_spec :=
  andthen (parse_type_name text true) (fun n => Val (TS (t_name ts) (t_nested ts ++ [n])%list)).
Fixpoint spec_loop (fuel : nat) (subject : string) (i : nat) (buffer : string) (nested ending parsed : bool) (ts : type_spec)
    : outcome (string * bool * bool * type_spec) :=
  match fuel with
  | O => Endless
  | S fuel =>
    if String.length subject <=? i then Val (buffer, nested, parsed, ts) else
    andthen (at_ subject i) (fun c =>
    let next := trim (from subject (S i)) in
    let text := trim buffer in
    if (Ascii.eqb c "[" && negb parsed)%bool then
      if nested then spec_loop fuel next 0 "" true true parsed ts
      else
        andthen (if String.eqb text "" then Val ts else andthen (parse_type_name text true) (fun n => Val (TS n (t_nested ts)))) (fun ts =>
        spec_loop fuel next 0 "" true ending parsed ts)
    else if (Ascii.eqb c "]" && nested && ending)%bool then
      andthen (if String.eqb text "" then Val ts else add_nested text ts) (fun ts => spec_loop fuel next 0 "" nested false true ts)
    else if (Ascii.eqb c "," && nested && negb ending)%bool then
      if parsed then spec_loop fuel next 0 "" nested ending false ts
      else andthen (if String.eqb text "" then Val ts else add_nested text ts) (fun ts => spec_loop fuel next 0 "" nested ending parsed ts)
    else spec_loop fuel subject (S i) (buffer +++ String c "") nested ending parsed ts)
  end.
Definition no_spec : type_spec := TS (TN UndefinedTN no_symbol) [].
Definition parse_type_specification (fuel : nat) (attribute : string) : outcome type_spec :=
  andthen (strip_markdown_link attribute) (fun subject =>
  andthen (spec_loop fuel subject 0 "" false false false no_spec) (fun '(buffer, nested, parsed, ts) =>
  let buffer := trim buffer in
  if (String.eqb buffer "" || parsed)%bool then Val ts else
  andthen (at_ buffer (String.length buffer - 1)) (fun z =>
  let buffer := if (nested && Ascii.eqb z "]")%bool then substring 0 (String.length buffer - 1) buffer else buffer in
  let buffer := trim buffer in
  if nested then add_nested buffer ts else andthen (parse_type_name buffer true) (fun n => Val (TS n (t_nested ts)))))).

(** MSONUtility.h:368-421 parseTypeDefinition: the loop over the attributes. [found]: foundTypeSpecification *)
Fixpoint definition_loop (fuel : nat) (attributes : list string) (found : bool) (bits : N) (ts : type_spec) (w : list remark) : outcome (N * type_spec * list remark) :=
  match attributes with
  | [] => Val (bits, ts, w)
  | a :: r =>
    match parse_type_attribute a bits with
    | Some bits => definition_loop fuel r found bits ts w
    | None =>
      if found then definition_loop fuel r found bits ts (w ++ [Warns IgnoringCode "ignoring unrecognized type attribute"])%list
      else andthen (parse_type_specification fuel a) (fun ts => definition_loop fuel r true bits ts w)
    end
  end.
Definition failed_by (e : option type_error) : list remark := match e with Some e => [Fails e] | None => [] end.
(** [context]: namedTypeContext *)
Definition parse_type_definition (fuel : nat) (context : string) (attributes : list string) (t : tables) : outcome (type_def * tables * list remark) :=
  andthen (definition_loop fuel attributes false 0%N no_spec []) (fun '(bits, ts, w) =>
  let s := n_symbol (t_name ts) in
  let base := match parse_base (n_base (t_name ts)), m_find (bases t) (s_literal s) with UndefinedBT, Some b => b | b, _ => b end in
  let '(d, e) := match base with
                 | UndefinedBT => if names_type s then add_dependency (deps t) (s_literal s) context false else (deps t, None)
                 | _ => (deps t, None)
                 end in
  let odd := match base, t_nested ts with
             | ValueBT, _ | ImplicitValueBT, _ | _, [] => []
             | _, _ => [Warns LogicalErrorCode "nested types should be present only for types which are sub typed from either array or enum structure type"]
             end in
  Val (TD base ts bits, set_deps t d, (w ++ failed_by e ++ odd)%list)).

(** MSONUtility.h:432-462 parsePropertyName; SignatureSectionProcessor.h:74-145: the node's own text is read if nothing is given. The warnings of the signature
    have the code EmptyDefinitionWarning (SignatureSectionProcessor.h:100, 122); checkVariable is true of texts of an emphasis char only *)
Definition property_traits : traits := Traits false true true false ":" "-".
(** more than the length of each: no loop needs more steps (C74, C79) *)
Definition enough_for (l : list string) : nat := S (list_sum (map String.length l)).
Definition parse_property_name (context text subject : string) (t : tables) : outcome (string * value_def * tables * list remark) :=
  andthen (check_variable subject) (fun variable =>
  if variable then
    andthen (retrieve_escaped subject 0 true) (fun '(inner, _) =>
    andthen (parse_signature (enough_for [text; inner]) property_traits text inner) (fun '(sg, w) =>
    andthen (if String.eqb (Signature.value sg) "" then Val [] else andthen (parse_value (Signature.value sg)) (fun v => Val [v])) (fun vs =>
    andthen (parse_type_definition (enough_for (attributes sg)) context (attributes sg) t) (fun '(td, t, w') =>
    Val ("", VD vs td, t, (map (Warns EmptyDefinitionCode) w ++ w')%list)))))
  else andthen (strip_backticks subject) (fun r => Val (fst r, VD [] (TD UndefinedBT no_spec 0%N), t, []))).
