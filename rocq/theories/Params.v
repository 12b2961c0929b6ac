(** Model of packages/apib-parser/src/snowcrash/ParametersParser.h, ParameterParser.h, MSONParameterParser.h and ValuesParser.h: the parameters of a URI template,
    from the Markdown nodes of their section. The remarks are kept with the byte ranges of their node, as in MembersTree.v. The source map of the flag
    "required" is left out: drafter never reads it. *)
From Verif Require Import Base ByteBuffer StringUtility StringSpec Markdown MarkdownSpec Regex Keywords TypeTables SourceMap Mson Signature TypeDefs MembersTree.
From Verif Require Blueprint Payloads UriTemplate.
Import Blueprint(text, blank, parameter_use, UndefinedUse, OptionalUse, RequiredUse, parameter, Param, pa_name, pa_description, pa_type, pa_use, pa_default, pa_example, pa_values).
Local Open Scope string_scope.

(** ParameterParser.h:19-25, 28-68; ValuesParser.h:16 *)
Definition ParameterIdentifierRegex := "^`?(([[:alnum:]_.-])*|(%[A-Fa-f0-9]{2})*)+`?[[:blank:]]*".
Definition ParameterRequiredRegex := "^[[:blank:]]*[Rr]equired[[:blank:]]*$".
Definition ParameterOptionalRegex := "^[[:blank:]]*[Oo]ptional[[:blank:]]*$".
Definition AdditionalTraitsExampleRegex := "`([^`]*)`".
Definition ParameterValueRegex := "`([^`]+)`".
Definition EnumRegex := "^enum\[([^][]+)]$".
Definition SomeEnumRegex := "enum\[[^][]+]".
Definition BacktickRegex := "`".

(** ** which items are parameters *)
(** ParameterParser.h:70-77 ParameterType *)
Inductive syntax : Type := NotParameter | OldParameter | NewParameter.
(** ParameterParser.h:404-480 getParameterType. The bracket that closes the attributes is left in them *)
Definition plain_syntax (s : string) : syntax :=
  if prefix "-" s then NewParameter else if prefix "..." s then OldParameter else NotParameter.
Definition bracket_syntax (s : string) : outcome syntax :=
  andthen (match_brackets (enough_for [s]) s 0 ")" false false) (fun '(inner, s) =>
  if (Nat.eqb (String.length inner) 2 || String.eqb inner s)%bool then Val NotParameter
  else
    let attributes := from inner 1 in
    if regex_match attributes SomeEnumRegex then Val NewParameter
    else if regex_match attributes BacktickRegex then Val OldParameter
    else let s := trim s in Val (if String.eqb s "" then NewParameter else plain_syntax s)).
Definition parameter_syntax (s : string) : outcome syntax :=
  let s := trim s in
  if String.eqb s "" then Val NotParameter else
  match regex_capture s ParameterIdentifierRegex 1 with
  | None => Val NotParameter
  | Some g =>
    if String.eqb (nth 0 g "") "" then Val NotParameter else
    match trim (from s (String.length (nth 0 g ""))) with
    | EmptyString => Val NewParameter
    | String c r as s =>
      if (Ascii.eqb c ":" || Ascii.eqb c "=")%bool then
        Val (if String.eqb (trim r) "" then NotParameter else if Ascii.eqb c ":" then NewParameter else OldParameter)
      else if Ascii.eqb c "(" then bracket_syntax s
      else Val (plain_syntax s)
    end
  end.
(** ParameterParser.h:183-226 sectionType: the look ahead into nested list items *)
Fixpoint look_ahead (l : list tree) : section_type :=
  match l with
  | [] => UndefinedSection
  | t :: r =>
    if (regex_match (item_line t) MSONDefaultTypeSectionRegex || regex_match (item_line t) MSONSampleTypeSectionRegex || regex_match (item_line t) MSONValueMembersTypeSectionRegex)%bool
    then MSONParameterSection
    else if regex_match (item_line t) ValuesRegex then ParameterSection
    else look_ahead r
  end.
Definition parameter_type (t : tree) : outcome section_type :=
  match item_text t with
  | None => Val UndefinedSection
  | Some _ =>
    match look_ahead (t_children t) with
    | UndefinedSection =>
      andthen (parameter_syntax (item_line t)) (fun k => Val (match k with NotParameter => UndefinedSection | OldParameter => ParameterSection | NewParameter => MSONParameterSection end))
    | ty => Val ty
    end
  end.

(** ** the attributes of a parameter *)
(** ParameterParser.h:235-297 parseAttributes: the loop; None: warnAboutAdditionalTraits. [use]: None, as long as definedUse is false *)
Fixpoint trait_loop (old : bool) (l : list string) (use : option parameter_use) (ty ex : string) : option (option parameter_use * string * string) :=
  match l with
  | [] => Some (use, ty, ex)
  | a :: r =>
    let undefined := match use with None => true | Some _ => false end in
    if (regex_match a ParameterOptionalRegex && undefined)%bool then trait_loop old r (Some OptionalUse) ty ex
    else if (regex_match a ParameterRequiredRegex && undefined)%bool then trait_loop old r (Some RequiredUse) ty ex
    else match (if old then regex_find a AdditionalTraitsExampleRegex 2 else None) with
         | Some g => trait_loop old r use ty (nth 1 g "")
         | None => if String.eqb ty "" then trait_loop old r use a ex else None
         end
  end.
Definition max_traits (old : bool) : nat := if old then 3 else 2.
(** use, type, example, and whether it failed. [ex]: the example given before *)
Definition parse_traits (old : bool) (l : list string) (ex : string) : parameter_use * string * string * bool :=
  match (if Nat.ltb (max_traits old) (List.length l) then None else trait_loop old l None "" ex) with
  | None => (UndefinedUse, "", if old then "" else ex, true)
  | Some (use, ty, ex) =>
    let inner := trim (match regex_capture ty EnumRegex 2 with Some g => nth 1 g "" | None => "" end) in
    (match use with Some u => u | None => UndefinedUse end, if (negb old && negb (String.eqb ty "") && negb (String.eqb inner ""))%bool then inner else ty, ex, false)
  end.
(** ParameterParser.h:300-329 warnAboutAdditionalTraits *)
Definition traits_remark (old : bool) : remark :=
  Warns FormattingCode ("unable to parse additional parameter traits" +++
    (if old then ", expected '([required | optional], [<type>], [`<example value>`])', e.g. '(optional, string, `Hello World`)'"
     else ", expected '([required | optional], [<type> | enum[<type>])', e.g. '(optional, string)'")).

(** ** final checks *)
(** ParameterParser.h:332-349 checkDefaultAndRequiredClash *)
Definition clash_remarks (p : parameter) : list remark :=
  match pa_use p with
  | OptionalUse => []
  | _ =>
    if blank (pa_default p) then []
    else logical ("specifying parameter '" +++ fst (pa_name p) +++ "' as required supersedes its default value, declare the parameter as 'optional' to specify its default value")
  end.
(** ParameterParser.h:352-399 checkExampleAndDefaultValue *)
Definition missing_value (what value : string) (p : parameter) : string :=
  if (negb (String.eqb value "") && negb (existsb (fun v => String.eqb value (fst v)) (pa_values p)))%bool
  then "the " +++ what +++ " value '" +++ value +++ "' of parameter '" +++ fst (pa_name p) +++ "' is not in its list of expected values" else "".
Definition value_remarks (p : parameter) : list remark :=
  if ((blank (pa_example p) && blank (pa_default p)) || match pa_values p with [] => true | _ => false end)%bool then []
  else let text := missing_value "example" (fst (pa_example p)) p +++ missing_value "default" (fst (pa_default p)) p in
       if String.eqb text "" then [] else logical text.
(** ParameterParser.h:175-181, MSONParameterParser.h:146-152 finalize *)
Definition final_checks (item : tree) (p : parameter) (s : st) : st := note (spot item) (value_remarks p) (note (spot item) (clash_remarks p) s).

(** SourceAnnotation.h:120-136 *)
Definition RedefinitionCode : N := 4%N.
(** a text, with the source map of its node unless it is empty *)
Definition placed (t : tree) (x : string) : text := (x, if String.eqb x "" then [] else spot t).

Section Parameters.
(** pd.sourceData, pd.namedTypeContext *)
Context (source context : string).

(** SectionProcessor.h:150-170 processDescription, 239-262 isDescriptionNode: these sections have no upper sections, so all nodes in front of the first nested section
    are descriptions *)
Fixpoint described (nested : tree -> section_type) (l : list tree) (d : text) : outcome (text * list tree) :=
  match l with
  | [] => Val (d, [])
  | t :: r =>
    match nested t with
    | UndefinedSection =>
      andthen (if String.eqb (fst d) "" then Val "" else two_new_lines (fst d)) (fun x =>
      andthen (map_ranges (t_map t) source) (fun c =>
      described nested r (x +++ trim c, if String.eqb c "" then snd d else append_places (snd d) (spot t))))
    | _ => Val (d, l)
    end
  end.

(** ** ValuesParser.h:31-69 processNestedSection *)
Definition values_step (t : tree) (l : list text) (s : st) : outcome (list text * bool * st) :=
  match values_nested_type t, item_text t with
  | ValueSection, Some content =>
    match regex_find content ParameterValueRegex 2 with
    | Some g => Val ((l ++ [(nth 1 g "", spot t)])%list, true, s)
    | None => Val (l, true, note (spot t) [Warns IgnoringCode ("ignoring the '" +++ trim content +++ "' element, expected '`" +++ trim content +++ "`'")] s)
    end
  | _, _ => Val (l, true, unexpected t s)
  end.
Definition parse_values (item : tree) (s : st) : outcome (list text * st) :=
  andthen (Payloads.starting item) (fun l => match l with [] => ByteBuffer.Wild | _ :: r => walk values_step r [] s end).

(** ** ParameterParser.h:85-128 signatureTraits, finalizeSignature *)
Definition old_traits : traits := Traits true true true true "=" "...".
(** ParameterParser.h:130-173 processNestedSection *)
Definition old_step (name : string) (t : tree) (l : list text) (s : st) : outcome (list text * bool * st) :=
  match values_type t with
  | ValuesSection =>
    let s := match l with [] => s | _ => note (spot t) [Warns RedefinitionCode ("overshadowing previous 'values' definition for parameter '" +++ name +++ "'")] s end in
    andthen (parse_values t s) (fun '(l, s) =>
    Val (l, true, match l with [] => note (spot t) [Warns EmptyDefinitionCode ("no possible values specified for parameter '" +++ name +++ "'")] s | _ => s end))
  | _ => Val (l, true, unexpected t s)
  end.
Definition parse_old (item : tree) (s : st) : outcome (parameter * st) :=
  andthen (Payloads.starting item) (fun l =>
  match l with
  | [] => ByteBuffer.Wild
  | t :: r =>
    andthen (signature_of old_traits "" t s) (fun '(sg, s) =>
    let d := trim (if String.eqb (remaining sg) "" then content sg else content sg +++ String "010" (remaining sg)) in
    let '(use, ty, ex, failed) := parse_traits true (attributes sg) "" in
    let s := if failed : bool then note (spot t) [traits_remark true] s else s in
    andthen (described values_type r (placed t d)) (fun '(d, r) =>
    andthen (walk (old_step (identifier sg)) r [] s) (fun '(vs, s) =>
    let p := Param (placed t (identifier sg)) d (placed t ty) use (placed t (Signature.value sg)) (placed t ex) vs in
    Val (p, final_checks item p s))))
  end).

(** ** MSONParameterParser.h:27-67 signatureTraits, finalizeSignature *)
Definition new_traits : traits := Traits true true true true ":" "-".
(** MSONParameterParser.h:69-144 processNestedSection: default, example, values *)
Definition values_of (l : list melement) : list text :=
  flat_map (fun x => match x with MValue m => match vd_values (m_value m) with [v] => [(v_literal v, m_value_map m)] | _ => [] end | _ => [] end) l.
Definition new_step (fuel : nat) (t : tree) (a : text * text * list text) (s : st) : outcome (text * text * list text * bool * st) :=
  let '(default, example, vs) := a in
  match type_section_type t with
  | MSONSampleDefaultSection =>
    andthen (parse_section source context fuel MSONSampleDefaultSection ImplicitPrimitiveBT t s) (fun '(x, s) =>
    let v := (sc_value x, sc_value_map x) in
    Val (if String.eqb (sc_value x) "" then a
         else match sc_class x with DefaultClass => (v, example, vs) | SampleClass => (default, v, vs) | _ => a end, true, s))
  | MSONValueMembersSection =>
    andthen (parse_section source context fuel MSONValueMembersSection ImplicitValueBT t s) (fun '(x, s) => Val (default, example, values_of (sc_elements x), true, s))
  | UndefinedSection => Val (a, true, unexpected t s)
  | _ => Val (a, false, s)
  end.
Definition parse_new (fuel : nat) (item : tree) (s : st) : outcome (parameter * st) :=
  andthen (Payloads.starting item) (fun l =>
  match l with
  | [] => ByteBuffer.Wild
  | t :: r =>
    andthen (signature_of new_traits "" t s) (fun '(sg, s) =>
    andthen (strip_backticks (identifier sg)) (fun '(name, _) =>
    let d := if String.eqb (remaining sg) "" then content sg else content sg +++ String "010" (remaining sg +++ String "010" "") in
    let '(use, ty, ex, failed) := parse_traits false (attributes sg) (Signature.value sg) in
    let s := if failed : bool then note (spot t) [traits_remark false] s else s in
    andthen (described type_section_type r (placed t d)) (fun '(d, r) =>
    andthen (walk (new_step fuel) r (("", []), placed t ex, []) s) (fun '(default, example, vs, s) =>
    let p := Param (placed t name) d (placed t ty) use default example vs in
    Val (p, final_checks item p s)))))
  end).

(** ** ParametersParser.h:68-114 processNestedSection, 153-170 findParameter, removeParameter *)
Fixpoint remove_named (x : string) (l : list parameter) : option (list parameter) :=
  match l with
  | [] => None
  | p :: r => if String.eqb (fst (pa_name p)) x then Some r else option_map (cons p) (remove_named x r)
  end.
Definition add_parameter (t : tree) (p : parameter) (l : list parameter) (s : st) : list parameter * st :=
  match remove_named (fst (pa_name p)) l with
  | Some l => ((l ++ [p])%list, note (spot t) [Warns RedefinitionCode ("overshadowing previous parameter '" +++ fst (pa_name p) +++ "' definition")] s)
  | None => ((l ++ [p])%list, s)
  end.
Definition parameters_step (fuel : nat) (t : tree) (l : list parameter) (s : st) : outcome (list parameter * bool * st) :=
  andthen (parameter_type t) (fun ty =>
  match ty with
  | ParameterSection => andthen (parse_old t s) (fun '(p, s) => let '(l, s) := add_parameter t p l s in Val (l, true, s))
  | MSONParameterSection => andthen (parse_new fuel t s) (fun '(p, s) => let '(l, s) := add_parameter t p l s in Val (l, true, s))
  | _ => Val (l, true, unexpected t s)
  end).
(** ParametersParser.h:40-64 processSignature, 140-151 finalize *)
Definition parse_parameters (fuel : nat) (item : tree) (s : st) : outcome (list parameter * st) :=
  andthen (Payloads.starting item) (fun l =>
  match l with
  | [] => ByteBuffer.Wild
  | t :: r =>
    let s := if String.eqb (Payloads.remaining t) "" then s
             else note (spot t) [Warns IgnoringCode "ignoring additional content after 'parameters' keyword, expected a nested list of parameters, one parameter per list item"] s in
    andthen (walk (parameters_step fuel) r [] s) (fun '(l, s) =>
    Val (l, match l with [] => note (spot item) [Warns FormattingCode "no parameters specified, expected a nested list of parameters, one parameter per list item"] s | _ => s end))
  end).
End Parameters.

(** ** ParametersParser.h:173-233 checkParametersEligibility: the remarks about the parameters of a resource or an action with this URI template and this name *)
Definition template_variables (uri : string) : option (list string) :=
  option_map (flat_map (fun p => match p with
    | UriTemplate.Expression x => flat_map (fun v => match v with UriTemplate.GoodItem v => [UriTemplate.v_name v] | UriTemplate.InvalidItem _ => [] end) (UriTemplate.x_vars x)
    | _ => []
    end)) (UriTemplate.parse_parts uri).
Definition not_found (uri name : string) (p : parameter) : remark :=
  Warns LogicalErrorCode ("parameter '" +++ fst (pa_name p) +++ "' is not found within the URI template '" +++ uri +++ "'" +++
    (if String.eqb name "" then "" else " for '" +++ name +++ "' ")).
Definition eligibility (uri name : string) (l : list parameter) : option (list remark) :=
  option_map (fun vs => flat_map (fun p => if existsb (String.eqb (fst (pa_name p))) vs then [] else [not_found uri name p]) l) (template_variables uri).
