# Formal model of apiaryio/drafter in Rocq (Coq 8.16.1)

## Conventions

* A C++ `std::string` is a Coq `string` (list of 8-bit `ascii`), so every byte value is
  representable and no well-formedness hypothesis on bytes is needed.
* `size_t` / `uint32_t` values are `N` or `nat`; wherever wrap-around can matter
  (`Cardinal`: 32 bits, `BytesRangeToCharactersRange` and `fetchLine`: 64 bits) the modulus is written in the model.
* Undefined behaviour (out-of-bounds access, null dereference, use after free) and
  non-termination are *distinct outcomes* of the model (`option`/result type, or a fuel-indexed
  function returning `None` when exhausted plus a theorem that no fuel suffices).
* `X.v` holds executable definitions only, each with a comment citing file and lines;
  `XProofs.v` holds lemmas; `Prop_*.v` files hold the property theorems, a concrete
  satisfying `Example` and `Print Assumptions`.
* A property the code violates is stated as `..._refuted` with a witness; the strongest
  true version is proved beside it.

## Plan per property

| id | what is modelled | how it is proved |
|----|------------------|------------------|
| C01-C03 | `so::Value`, `json_printer<Packed>`, `escape_json_string`, `break_indent` | independent RFC 8259 reader (fuelled recursive descent with whitespace); `read (print v) = Some v` by nested induction; byte-range induction |
| C04-C06 | `utf8::decode_one`, `encode`, `input_iterator` | arithmetic on bit fields; RFC 3629 well-formedness as separate spec; for C06 an independent relation saying which code points any byte string (well formed or not) is read as, proved exact, with the refutation witness beside it |
| C07-C08 | `escape_yaml_string`, `yaml_printer`, `is_alphanum_dash` | independent reader of YAML 1.2 double-quoted scalars and of block collections |
| C09-C10 | `emplace_unique`, `find`, `operator==` | induction, `Permutation` as spec |
| C11-C13 | refract element tree, `clone`, `==`, `InfoElements` | nested induction; dictionary refinement over op lists |
| C14-C15 | `SerializeSo.cc` | nested induction against a separate strip function |
| C16-C19 | C API with the snowcrash parser + converter as oracle, heap ledger | case analysis, induction over call sequences |
| C20-C22 | `Extend::merge`, `Object::push_back` | induction; key-map specification |
| C23-C25 | `Registry`, `ExpandVisitor` | termination measure: registry names not in `members` + element size; divergence witness |
| C26-C27 | `Cardinal.h`, `ElementSize.cc` | `N` mod 2^32; counting denotation |
| C28-C31 | `JsonValue.cc`, `JsonSchema.cc`, `renderPattern` | JSON Schema draft-07 validator as specification; literal-regex semantics |
| C32-C35, C49 | `ByteBuffer`, `SourceMapUtils` | induction over well-formed UTF-8; OOB outcome |
| C36-C37 | media type grammar (PEG), printer, `isJSON` | PEG model; round trip on a decidable fragment; refutations |
| C38-C39 | `NamedTypesRegistry.cc` | comparator laws; refutation by 3-cycle; fuel divergence |
| C40-C43 | `snowcrash.cc` `CheckSource`, `StringUtility.h` | induction on strings |
| C44-C45 | `ConversionContext::warn`, options objects of the C API | induction over histories of calls |
| C46 | `ExpandVisitor` | invariant: nothing reachable names a registered type |
| C47 | the three generators | nesting depth does not grow under merging |
| C50-C51 | named type tables of the parser (`fillNamedTypeTables`, `resolve...`, `addDependency`) | fuel with a measure, transitive closure as independent relation |
| C52 | `snowcrash::parse` around an arbitrary parsing proper | case analysis over all endings |
| C53 | `HeadersParser` with its regular expression | relation between lines and headers, induction over ranges |
| C54-C61 | MSON tree, `RefractDataStructure.cc` and what it calls; warnings are part of the result | nested induction over MSON trees; specification as relations (`MsonSpec`) over sections in document order |
| C62-C63 | AST of blueprints, `RegisterNamedTypes`, `FindNamedTypes`; the sort is an arbitrary arrangement | invariant: every type is held with the kind of its nearest ancestor; conversion depends on kinds only; refinement to C23, C50, C55 |
| C64-C68 | `RefractAPI.cc`: payloads, transactions, actions, resources, categories, parameters, headers, metadata | the expected elements are written out in `ApiSpec`; equality by induction over documents |
| C69 | the same, composed with registration | fuel monotonicity of every part, measure from C23/C47/C61; invariant `sound` over all pieces |
| C70 | C API + conversion; only the snowcrash parser is arbitrary | composition of C16, C18, C62, C67 |
| C48 | generators, expansion and MSON conversion composed | invariants `decent` (MSON) => `tame` (elements) => `ready` (expanded elements) => no assertion of the generators fails |
| C71 | the whole conversion of documents | C48, C61, C62, C63, C69 composed; every outcome but success and the mixin error excluded |
| C72 | `UriTemplateParser.cc` with its PEGTL grammar, recovery rules and error locator | determinism of cutting; every rule shown to accept exactly the texts of the spec; the texts of the warnings in full |
| C73 | `MarkdownParser.cc`, `MarkdownNode`: nodes with addresses and parent pointers; the calls of sundown are arbitrary | refinement: heap -> stack of open nodes (for every call sequence) -> nested blocks; separation by address lists |
| C74 | `SignatureSectionProcessor.h`: parseSignature and its four stages, matchBrackets; traits and delimiters arbitrary | relations for literals, nested brackets, lists; total and unique; the loops compute them (induction over the readings) |
| C75 | `RegexMatch.cc` over a model of POSIX extended regular expressions (regcomp of the patterns as written), all `sectionType` and `nestedSectionType` checks, `Signature.cc` | languages of expressions by derivatives; a verified checker for disjointness and inclusion of languages (partial derivatives), run by `vm_compute` on all pairs of patterns |
| C76 | `SectionParser.h`, `SectionProcessor.h`, the processors of blueprint, groups, resources, actions, data structures, named types and type sections: which block goes where | a relational specification of outlines (each part by a rule that sees the parts before it); an invariant for the nested-sections loop with the last section type; determinism of the specification by induction over parts |
| C77 | `PayloadParser.h`, `AssetParser.h`, `CodeBlockUtility.h`, the section part of `HeadersParser.h`, `GetModelReference`, `assingReferredPayload`, `checkRequest`, `checkResponse`; the parsers of attributes and parameters are arbitrary functions | relations for the first line, descriptions, sections with what follows them, references, and the report in order; every relation shown total and computed by the code (so unique), by induction over the relations |
| C78 | `ActionParser.h`, `ResourceParser.h`, `injectDeprecatedHeaders`, `MatchPayload`, `MatchAction`, the model table and the late references of `BlueprintParser.h`, over the outline of C76 and the items of C77 | relations for each part of an action and a resource in turn, the table of models being passed from part to part; transactions and the texts added to payloads as decompositions of the list of parts; invariants of the loops; from the relations alone: references and models of an error-free document |
| C79 | `MSONUtility.h:25-453`, `StripMarkdownLink`, `MarkdownLinkRegex` | values by what is in emphasis or backticks; nested types by three mutually inductive relations (at a type, in a link, behind a link); attributes by the list of keywords; totality and uniqueness of the relations, the loop by their induction; the link regex by its language |
| C80 | `MSONValueMemberParser.h`, `MSONPropertyMemberParser.h`, `MSONTypeSectionParser.{h,cc}`, `MSONOneOfParser.h`, `MSONMixinParser.h`, `AttributesParser.h`, the list part of `SectionParser.h`; trees of nodes as in C73, source maps as byte ranges | mutually inductive grammar of members, one-ofs, sections and attributes, without fuel and state, its side effects a list that is performed afterwards; a small calculus of readers (`reads`, closed under sequence, choice and loops with invariants), induction on the fuel; laws of members from the grammar alone |
| C81 | `ParametersParser.h`, `ParameterParser.h`, `MSONParameterParser.h`, `ValuesParser.h`, on the readers of C80 and the signatures of C74, the template parser of C72 for eligibility | grammar of lines (names, attributes with brackets and literals), of items (look ahead into nested items) and of whole parameters in both forms, total and at most one; the calculus of readers of C80; `lasting` (last definition of a name) as invariant of the loop |
| C82 | `MSONNamedTypeParser.h`, `DataStructureGroupParser.h`, `MSONTypeSectionHeaderParser` of `MSONTypeSectionParser.h`, `SectionParser.h:32-140` on siblings, on the readers of C80 | grammar of named types that says which nodes are left (`named_type_says`, `structures_say`); the calculus of readers of C80 with the left nodes as part of the value; fuel bounded by the number of siblings, each reader leaving a suffix |
| C83 | `BlueprintParser.h:162-240, 325-399`, `ActionParser.h:530-546`, `ResourceParser.h:315-326`, on the tables of C50 and the readers of C74, C75, C79 | the document's declarations by what stands before each node (`declared`); invariant: the context variables say in which section the nodes so far end (`stands`); captures of `NamedResourceHeaderRegex` by its language; composition with C50 and C82 |
| C84 | `BlueprintParser.h:36-158, 281-315, 535-618`, `ResourceGroupParser.h:33-178, 280-320`, on the outline of C76 | the parts of the outline read in turn (`preface_says`); equal to the loop with its accumulated texts and elements; captures of `GroupHeaderRegex` by its language; totality over every outline; elements matched with the resources of C78 |
| C85 | `RelationParser.h:15-84`, `ActionParser.h:105-108, 523-528`, `ResourceParser.h:331-400` (descriptions and relations), `BlueprintUtility.h:108-113`, `SectionProcessor.h:150-170`, on the outline of C76 | the parts of each resource and action read in turn (`resources_tell`); captures of `RelationIdentifierRegex` by its language, with at most one name in a line; totality over every outline; number of actions matched with C78 |
| C86 | `ResourceParser.h:49-92, 331-428`, `ActionParser.h:110-113, 320-325`, `ParametersParser.h:40-151, 193-233` for a list that is not empty, on the outline of C76 | the readers with a report of C80 over the parts (`reads_steps`), against `all_parameters` without state; last definitions by `lasting` of C81; variables by C72; number of actions matched with C85 |
| C87 | `ResourceParser.h:49-80, 106-144`, `ActionParser.h:176-179` on the outline of C76, for at most one `Attributes` item of each (a second one is refused by the model); whether a type exists (`DataStructureGroupParser.h:124-159`) is a parameter | the readers with a report of C80 over the parts (`reads_steps`), against `all_attributes` without state; number of actions matched with C85 |
| C88 | `PayloadParser.h:612-668` with `Attributes::empty` (`MSON.cc:86-89`) and the parameters of the request, which C77 leaves open (`found_none`), read by `AttributesParser.h` and `ParametersParser.h` | C77_item with `found_none` replaced; C80 and C81's readers against `says_nothing` and `define_nothing`; what a request collects is among the children of its item (induction over its sections) |
| C89 | `ResourceParser.h:52-68, 316-326`, `ActionParser.h:57, 493-514` (`resource_header`, `action_signature` in `Transactions.v`), against headings described without regular expressions (`HeadingsSpec.v`) | groups of a match by the structure of the expression (`caps`), the longest first part for `(.+)\[`; uniqueness by the longest run of blanks, of capitals and up to the first bracket or slash. Found missing by a mutant of C87: names were not known to be trimmed |

## Files

Model files (`rocq/theories`): `SoValue JsonIo YamlIo Utf8` (utils/so, utils/Utf8), `Element ElementUtils Extend Registry Expand
JsonValue JsonSchema SerializeSo` (refract), `SourceMap` (SourceMapUtils, RefractSourceMap), `Capi` (drafter.cc, options,
SerializeResult, ConversionContext), `ByteBuffer Markdown` (markdown-parser), `StringUtility Source Headers TypeTables Signature Regex Keywords Sections Payloads Transactions TypeDefs MembersTree Params MsonTypes Lookahead Preface Relations Given Owned Vacant Headings` (snowcrash),
`NamedTypes` (NamedTypesRegistry), `Peg MediaType` (apib, MediaTypeParser, MediaTypeS11n), `UriTemplate` (UriTemplateParser, grammar/Uritemplate.h, grammar/recover.h),
`Mson` (RefractDataStructure, RefractElementFactory, MsonTypeSectionToApie, MsonOneOfSectionToApie, Serialize, ElementComparator), `Blueprint` (AST of snowcrash with source maps), `Register` (RegisterNamedTypes), `Api` (RefractAPI, Render getContentType).
Every `*Spec.v` states what is expected without using the model's functions (model types only); `*Proofs.v` and the files
`Depth Gen* Conform* Denote* Valid*` hold lemmas; `Prop_*.v` hold the theorems named in MANIFEST.json.

## Trusted base

* Coq 8.16.1's kernel (with `vm_compute`/`reflexivity` for closed examples), and the reading of the C++ code that the comments
  of the model cite. No axiom is used: `Print Assumptions` answers "Closed under the global context" for every theorem listed in
  MANIFEST.json (the build prints it below each). The axioms `vcheck` counts are those that loading the standard library's
  ssreflect files (`Coq.ssr.ssrunder`) brings into scope; no theorem rests on them.
* The specifications: `JsonSpec` (RFC 8259), `Utf8Spec` (RFC 3629), `YamlSpec` (double quoted scalars and block collections of
  YAML 1.2), `SchemaSpec` (the keywords of JSON Schema draft 4-7 the code emits), `MediaSpec`, and the small `*Spec.v` files.
* Library behaviour taken from documentation: `std::string`, `std::map`, `std::set`, `std::vector` (unbounded memory, no
  `bad_alloc`), iostream formatting, PEGTL's rules (its source is not in the repository), POSIX regular expressions
  (`HeadersParser` only), the "C" locale for `tolower`, `isalnum`.
* Undefined behaviour, failed assertions, exceptions and endless loops are separate outcomes; what a concrete compiler does in
  these cases is not modelled. Assertions are taken as enabled (a failed one is an undefined state).

### Modelled

packages/drafter/src: utils/so/{Value,JsonIo,YamlIo}, utils/Utf8.h, refract/{Element,InfoElements,dsd/*,Registry,ExpandVisitor,
IsExpandableVisitor,JsonValue,JsonSchema,ElementSize,ElementUtils,Cardinal.h,SerializeSo,Query/FilterVisitor/Iterate (as used by
the C API)}, SourceMapUtils, RefractSourceMap, SerializeResult, ConversionContext (warnings), NamedTypesRegistry, drafter.cc,
options, backend/MediaTypeS11n, RefractDataStructure, RefractElementFactory, MsonTypeSectionToApie, MsonOneOfSectionToApie,
Serialize, ElementData.h, ElementInfoUtils.h, ElementComparator.h, RefractAPI, Render (getContentType), ConversionContext. packages/apib: MediaType. packages/apib-parser/src: MediaTypeParser, grammar/Mediatype.h,
markdown-parser/ByteBuffer, snowcrash/{StringUtility.h, snowcrash.cc, HeadersParser (lines), BlueprintParser (named type tables),
MSONUtility (addDependency, base types)}.

### Not modelled

The Markdown parser (sundown) and the section parsers of snowcrash apart from the parts above: what the parser yields for a source
is arbitrary in C16-C19 and C70 (in C16-C19 the conversion is arbitrary too, C70 puts the modelled one in its place; an outcome
`ThrowsOther` there stands for a conversion without a result or a known exception); of MSON errors only the message is kept; `StripMarkdownLink` and the other regular expressions; reporting.cc, the command line tool, threads, memory limits.

### Findings

Where the English property is false of the code, the theorem with the suffix `_refuted` (or `_diverges`, `_endless`) gives the
witness; the notes in MANIFEST.json say which. Among them: an empty pattern makes `ReplaceString` run forever; a source ending
in a truncated UTF-8 sequence makes `BuildCharacterIndex` write out of bounds, one with a tab behind such a sequence makes
`CheckSource` read out of bounds; the comparator named types are sorted with is not transitive; `FindRootAncestor` runs forever
on circles of parents; `drafter`'s cardinals take 2^32-1 for infinity; blank ranges in a headers section take the rest of the
source for a header; several media type parameters do not survive printing and parsing. MSON: the description and nested types of a value whose base type is an object are dropped; literals that are no
numbers are stored as 0 after a warning; comparing two enumeration entries with one type name and two kinds reads one as the
other; several values of a declared primitive throw; a one-of without alternatives is an empty select,
from which no body can be generated (an assertion fails); the same happens for mixins within samples, and for objects that inherit a
property whose variable name has a named type (C71_*_refuted). URI templates: the encoding proposed for a byte below 16
lacks a digit, an allowed character behind a modifier may be blamed, prefixes of four digits are refused, `{a:}` and `{a.}` accepted (C72_*_refuted);
the scheme, host and path the parser has room for are never filled in. Markdown: the paragraph added to a list item may
be placed behind the end of the source or, if the item has several ranges, at another text (C73_*_refuted); a copied node's children keep the original as
their parent (no node with children is ever copied by the code modelled). Signatures: `()`, `(a,)`, `(`, `(a,` and `([x,` make
`attribute[length - 1]` read in front of the text (C74_empty_refuted); the last value keeps its backticks while all others lose theirs; the text
behind a literal in attributes that are never closed is also read as content. Keywords: the patterns of
requests and responses have no end, so a list item such as `Requested by ...` is a request (C75_prefix_refuted); `Relation: a model` is a model for
the keyword check and a relation within an action (C75_order_refuted); `GET /x` is both a resource and an action. Outline:
a list item `Sample: x` directly in a named type, or a paragraph below `## Properties`, throws and refuses the whole document (C76_sample_item, C76_properties_text);
a list item behind the description of a named type is description (C76_type_description); a model ends an action, and below a bare endpoint nobody takes it
(C76_model_in_action, C76_model_in_endpoint); `# B [GET /b]` below `# A [/a]` is an action of A (C76_named_endpoint); `# /a [GET /b]` is no endpoint but a
resource; `isResourcePresent` in `ResourceGroupParser.h` tells the two warnings apart the wrong way round. In C76 the contents of list items are an arbitrary
function that ends, throws or fails; names, warnings and source maps are left out. Payloads:
a second body or schema is reported as ignored but replaces the first (C77_second_body_refuted); the attributes of a model do not come with a reference
(C77_attributes_refuted); `[ ][]` is a pending reference to nothing and is lost without a warning (C77_blank_reference_refuted); an empty text behind a body makes `TwoNewLines`
read in front of the text (C77_dangling_refuted); the kind of a list item is decided by its first child, its text by the first child that takes source (C77_no_source);
`no valid headers specified` counts the header made of the media type. In C77 the source maps of the result are left out. Transactions: a text behind a reference to a model
that comes later is lost, behind a reference to an earlier one it is kept (C78_order_refuted); of several errors only the last is kept (C78_first_error_refuted); a model that
refers to a later model stays empty, and so do those who refer to it, without an error or a warning (C78_chain_refuted); repeated payloads in short form are not reported;
`GET /a` and `POST /a` are two resources, with a warning; a text behind a model whose name was defined before replaces the body of the other model in the table.
Type definitions: `array[array[A]]` is read like `array[A]` (C79_arrays_refuted); an attribute in brackets that is no link is no type (C79_brackets_refuted); `array[]` has a nested
type without a name (C79_empty_refuted); a star in backticks is a variable and so is a lone emphasis char (C79_star_refuted); a second type is ignored even if the first is a typo
(C79_types_refuted); a property named by a lone emphasis char reads the whole text of its node as the value of its name (C79_lone_refuted).
Members: an item below a primitive type gives one warning and everything behind it is lost, samples too, while an empty section of members is left (C80_primitive_refuted); properties
behind a description become part of the description, without a warning (C80_description_refuted); a one-of in an array ends the array (C80_one_of_refuted); `Items` in an object
is skipped with everything below (C80_items_refuted); several values of a primitive type are one value and the member loses its source map (C80_several_refuted); a header that names a section
inside a list item throws `expected list item block` and so ends the whole parse (C80_header_refuted); dependencies of attributes are entered under the empty name.
Parameters: of `(required, optional)` the second word is the type (C81_use_refuted); a lone backtick is a parameter named by it (C81_tick_refuted); `id ([a]`, never closed, is a parameter of
type `[a]` while `id (a)(a)` is none (C81_open_refuted); `id: 1 ()` is undefined behaviour (C81_empty_refuted); `Properties` below an MSON parameter silently ends it (C81_properties_refuted);
any text is a parameter if a nested item is a default, sample, members or values section (C81_name_refuted); a nested header `Default` throws; `removeParameter` erases and then uses the iterator
(undefined by the letter of the standard; ignored in the model); an example value out of the list is reported at the parameter, not at the value.
Named types: the group's duplicate check looks only at resources and at groups that are finished, so two structures of one group keep one name (C82_twice_refuted; in a document the error of
preprocessing comes first); a named type without a name counts as taken by any resource without named attributes (C82_nameless_refuted); a paragraph below `## Properties` (C82_text_refuted) and a
list item `+ Sample` right below a named type (C82_item_refuted) throw logic errors of the parser; of a type derived from a primitive the items, samples too, are passed over one by one as
unrecognized (C82_primitive_refuted).
Looking ahead: an action header such as `## GET` inside a group of data structures ends the context of preprocessing but not the group, so types behind it are parsed but never declared and cannot be
used (C83_action_refuted); attributes of a named endpoint, `# User [GET /user]`, are not declared under its name (C83_endpoint_refuted); a type in emphasis, `## *User*`, is declared as `*User*` and
parsed as the variable `User` (C83_emphasis_refuted); an error of preprocessing overwrites an earlier one, so the last of several is reported.
The document itself: a key in two paragraphs of metadata is not reported, only within one (C84_keys_refuted); a paragraph with one line that is no pair is said to be ignored, but its pairs are kept, and
repeated keys are then not reported (C84_ignoring_refuted); `ResourceGroupParser.h` `isResourcePresent` is true if there is no resource, so after `# GET /a` a `# POST` gets the generic warning, and without a
resource the hint speaks of the resource '' (C84_hint_refuted); a first header of white space only is no name, so a document with it and a description is told to have none.
Relations: `+ Relation:` without a name is accepted and removes the relation before it (C85_erased_refuted); of two relations the last is kept without a warning (C85_twice_refuted); lines of the item below
the first are not read and not reported (C85_lines_refuted).
Parameters: two `Parameters` items of a resource may define one name, both are kept, without a warning (C86_twice_refuted; in an action the later replaces the earlier, with a warning); the parameters of an endpoint
`# GET /a/{id}` are never compared with its path, those of `# N [GET /a/{id}]` are (C86_endpoint_refuted); an empty `Parameters` item behind one with parameters of the same action is not reported (C86_empty_refuted).
Attributes: those of a resource whose name is that of an existing type are left out with a warning, but the dependencies they mention are added to the existing type (C87_left_out_refuted); an endpoint `# N [GET /b]` with
attributes does not make a type `N`, without a warning (C87_endpoint_refuted).
Headers: `# /a [/b]` is a path `/a [/b]` without a name, `# A [/a ]` has the path `/a ` with its blank, and a name with brackets (`# A [B] [/a]`) is neither name nor path for a resource, while
`# A [B] [GET /a]` is an action named `A [B]` (C89_forms, C89_action_forms).
`ResourceParser.h:197-214` decides on the trimmed text of a header, `316-326` read the name and the path from the untrimmed one: a header `A [/a] ` that ends in white space (if the Markdown parser keeps it)
begins a resource that has neither name nor path (C89_trailing_refuted, C89_trailing for all such headers); for actions both look at the trimmed line (C89_taken_action).
