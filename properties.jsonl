{"id": "C01", "title": "JSON output is lossless valid JSON", "statement": "For every simple-object value tree whose numbers are JSON numbers, the text written by the pretty JSON serializer is a JSON document (RFC 8259 grammar) and reading it back with an independent JSON reader yields exactly the same tree: same member order, same strings byte for byte, same numbers.", "quantifier": "all value trees of any size, depth and string content (all 256 byte values)", "why_tests_cant": "escaping and nesting interact for every byte and depth; tests try a few strings", "anchors": ["packages/drafter/src/utils/so/JsonIo.cc: serialize_json, json_printer, escape_json_string, json_utf_char, break_indent"]}
{"id": "C02", "title": "Packed and pretty JSON denote the same document", "statement": "For every value tree the packed and the pretty JSON outputs read back to the same tree, and the packed output is the pretty output minus insignificant whitespace; the packed output contains no whitespace outside strings.", "quantifier": "all value trees", "why_tests_cant": "agreement of two printers on all trees", "anchors": ["packages/drafter/src/utils/so/JsonIo.cc: json_printer<true>, json_printer<false>"]}
{"id": "C03", "title": "Serialized text contains no NUL or raw control byte", "statement": "Both drafter_serialize formats produce text with no NUL byte (so the C string returned is never cut short by strdup); the JSON text contains no byte below 0x20 other than the newlines the pretty printer inserts.", "quantifier": "all value trees whose number literals contain no control bytes, all string contents", "why_tests_cant": "strdup truncation would be silent and depends on arbitrary bytes", "anchors": ["packages/drafter/src/drafter.cc: drafter_serialize", "packages/drafter/src/utils/so/JsonIo.cc", "packages/drafter/src/utils/so/YamlIo.cc"]}
{"id": "C04", "title": "UTF-8 encode/decode round trip", "statement": "Decoding the encoding of a Unicode scalar value yields that scalar value and leaves exactly the following bytes; decoding the concatenated encodings of any sequence of scalar values yields the sequence; re-encoding the decoded code points of well formed UTF-8 gives the same bytes.", "quantifier": "all scalar values and all finite sequences of them, any trailing bytes", "why_tests_cant": "1.1 million scalars times arbitrary suffixes", "anchors": ["packages/drafter/src/utils/Utf8.h: decode_one, encode, input_iterator"]}
{"id": "C05", "title": "UTF-8 decoding is total, in bounds and makes progress", "statement": "On every byte string, including malformed and truncated ones, decoding never reads past the end, consumes at least one byte per code point, terminates, and only ever reports Unicode scalar values (U+FFFD for what it rejects).", "quantifier": "all byte strings", "why_tests_cant": "all malformed inputs", "anchors": ["packages/drafter/src/utils/Utf8.h: decode_one, input_iterator"]}
{"id": "C06", "title": "How malformed UTF-8 is read", "statement": "The decoder's documentation promises U+FFFD for every invalid sequence; the code does not keep this. Exactly: a character takes as many bytes as its first byte announces (stray continuation bytes announce two, F8 to FF four), whatever the other bytes are; it is read as if the marks of UTF-8 (110xxxxx, 11110xxx, 10xxxxxx) stood where they belong, and replaced by U+FFFD iff it is overlong, a surrogate or above U+10FFFF even so; a character cut off by the end of input becomes one U+FFFD.", "quantifier": "all byte strings", "why_tests_cant": "space of malformed sequences", "anchors": ["packages/drafter/src/utils/Utf8.h: decode_one, input_iterator"]}
{"id": "C07", "title": "YAML string scalars are lossless", "statement": "For every well formed UTF-8 string the double quoted scalar emitted by the YAML serializer is read back by the YAML 1.2 double-quoted escape rules as the same string, contains no line break and only YAML-printable characters.", "quantifier": "all well formed UTF-8 strings", "why_tests_cant": "escape classes over all code points", "anchors": ["packages/drafter/src/utils/so/YamlIo.cc: escape_yaml_string, serialize_escaped, is_yaml_printable"]}
{"id": "C08", "title": "YAML documents are lossless", "statement": "For every value tree (well formed UTF-8 strings, keys that do not collide with YAML keywords, plain number literals) the YAML text read back by an independent block-YAML reader is the same tree; keys that collide with keywords or are empty are not read back as strings.", "quantifier": "all value trees of any shape", "why_tests_cant": "indentation based structure over all nestings", "anchors": ["packages/drafter/src/utils/so/YamlIo.cc: yaml_printer, is_alphanum_dash"]}
{"id": "C09", "title": "Object insertion keeps keys unique", "statement": "Inserting a property into a simple object replaces the value in place if the key exists and appends it otherwise; key uniqueness is preserved, other entries and the order are unchanged, and lookup afterwards finds the inserted value.", "quantifier": "all objects, keys, values and insertion histories", "why_tests_cant": "histories of inserts", "anchors": ["packages/drafter/src/utils/so/Value.h: emplace_unique", "packages/drafter/src/utils/so/Value.cc: emplace_unique, find"]}
{"id": "C10", "title": "Simple value equality is an equivalence that ignores member order", "statement": "On values whose objects have unique keys, == is reflexive, symmetric and transitive, equates objects exactly when they have the same members up to order and arrays exactly when pointwise equal. With duplicate keys symmetry must be examined.", "quantifier": "all pairs/triples of values", "why_tests_cant": "relations over unbounded trees", "anchors": ["packages/drafter/src/utils/so/Value.cc: operator==, hasEqualMembers"]}
{"id": "C11", "title": "Cloning an element yields an equal independent element", "statement": "clone with all flags yields an element that compares equal and serializes identically; each flag subset keeps exactly the named parts; the no-meta-id flag drops exactly the meta entry id.", "quantifier": "all element trees and flag sets", "why_tests_cant": "all element shapes times 32 flag sets", "anchors": ["packages/drafter/src/refract/Element.h: clone", "packages/drafter/src/refract/ElementIfc.h: cloneFlags", "packages/drafter/src/refract/InfoElements.cc: erase"]}
{"id": "C12", "title": "Element equality is an equivalence relation", "statement": "== on API elements is reflexive, symmetric and transitive; equal elements agree on kind, emptiness, meta, attributes and content (the element name is not compared).", "quantifier": "all element trees", "why_tests_cant": "unbounded trees", "anchors": ["packages/drafter/src/refract/Utils.cc: operator==", "packages/drafter/src/refract/dsd/*.cc: operator=="]}
{"id": "C13", "title": "Meta and attribute maps behave as insertion ordered dictionaries", "statement": "set/find/erase/claim on an element's meta or attributes behave as an insertion-ordered map: after any history keys are unique, find returns the last value set and not erased, order is that of first insertion.", "quantifier": "all operation histories", "why_tests_cant": "histories", "anchors": ["packages/drafter/src/refract/InfoElements.cc"]}
{"id": "C14", "title": "Source maps are filtered exactly when not requested", "statement": "Serializing without source maps equals serializing with source maps the tree from which every sourceMap meta/attribute entry is removed except inside the attributes of annotation elements; nothing else changes.", "quantifier": "all element trees", "why_tests_cant": "every position in every tree", "anchors": ["packages/drafter/src/refract/SerializeSo.cc: serializeAny, serialize, renderSo"]}
{"id": "C15", "title": "Serialized elements follow the API Elements member layout", "statement": "Every serialized element is an object whose members are element, then meta (iff some meta survives), then attributes (iff some survives), then content (iff the element is not empty), with no duplicate member names.", "quantifier": "all element trees", "why_tests_cant": "every node in every tree", "anchors": ["packages/drafter/src/refract/SerializeSo.cc: serializeAny"]}
{"id": "C16", "title": "C API return code and outputs", "statement": "drafter_parse_blueprint_to, drafter_parse_blueprint, drafter_check_blueprint and drafter_serialize: a NULL source gives EINVALID_INPUT and touches no output; otherwise the return code is the report's error code, the same for all three entry points; the _to variant's text is drafter_serialize of the parse result; a NULL out pointer is never written; check returns NULL result iff there is no annotation.", "quantifier": "all sources, options and combinations of NULL pointers", "why_tests_cant": "all front-end outcomes", "anchors": ["packages/drafter/src/drafter.cc: drafter_parse_blueprint_to, drafter_parse_blueprint, drafter_check_blueprint, drafter_serialize"]}
{"id": "C17", "title": "C API ownership", "statement": "Every entry point frees everything it allocates except what it hands to the caller through an out parameter or return value, never frees twice, for all pointer combinations.", "quantifier": "all call sequences and NULL combinations", "why_tests_cant": "histories of calls", "anchors": ["packages/drafter/src/drafter.cc"]}
{"id": "C18", "title": "Parse result shape and error code agree", "statement": "The parse result lists at most one API category first, then at most one error annotation, then all warnings in order; the returned code is nonzero iff an error annotation is present; when parsing or conversion fails no API category is present.", "quantifier": "all parser outcomes (reports, exceptions, warnings)", "why_tests_cant": "every error path", "anchors": ["packages/drafter/src/SerializeResult.cc: WrapRefract", "packages/drafter/src/drafter.cc: drafter_parse_blueprint"]}
{"id": "C19", "title": "check_blueprint returns exactly the annotations of the parse result", "statement": "The result of drafter_check_blueprint is a parseResult holding copies of exactly the direct children of the parse result that are annotations, in order, or NULL if none.", "quantifier": "all parse results", "why_tests_cant": "all result shapes", "anchors": ["packages/drafter/src/drafter.cc: drafter_check_blueprint", "packages/drafter/src/refract/Iterate.h: Children", "packages/drafter/src/refract/FilterVisitor.h"]}
{"id": "C20", "title": "Type inheritance merging", "statement": "Merging an inheritance chain of same-kind elements: for objects, members are keyed; a later member with the same key replaces the earlier one in its position, new members are appended in order; meta and attributes of later elements override except id, prefix and namespace; merging different kinds is rejected.", "quantifier": "all chains of elements", "why_tests_cant": "unbounded chains and member lists", "anchors": ["packages/drafter/src/refract/dsd/Extend.cc: merge, ElementMerger, ValueMerge, InfoMerge"]}
{"id": "C21", "title": "Merged enumerations", "statement": "Merging enum elements keeps every enumeration of every level exactly once (up to ==), with re-declared ones moved to the end.", "quantifier": "all chains of enums", "why_tests_cant": "unbounded", "anchors": ["packages/drafter/src/refract/dsd/Extend.cc: ElementMerge<EnumElement>"]}
{"id": "C22", "title": "Objects never hold two members with the same key", "statement": "Building an object through push_back/addMember leaves at most one member per (string) key: the newest, at the end.", "quantifier": "all insertion sequences", "why_tests_cant": "histories", "anchors": ["packages/drafter/src/refract/dsd/Object.cc: push_back, addMember, find"]}
{"id": "C23", "title": "Named type expansion terminates", "statement": "Expanding any element against any type registry terminates - including recursive types, mutually recursive members and cyclic inheritance - or reports a circular mixin error; find which registries make it diverge.", "quantifier": "all registries and elements", "why_tests_cant": "nontermination is not testable", "anchors": ["packages/drafter/src/refract/ExpandVisitor.cc: ExpandNamedType, GetInheritanceTree, ExpandReference", "packages/drafter/src/refract/Registry.cc: FindRootAncestor"]}
{"id": "C24", "title": "Inheritance chains are complete and ordered", "statement": "The inheritance tree computed for a type is the chain from its most remote registered ancestor down to the type itself, each tagged with a ref to its name; it is empty if the chain is cyclic.", "quantifier": "all registries and names", "why_tests_cant": "unbounded chains, cycles", "anchors": ["packages/drafter/src/refract/ExpandVisitor.cc: GetInheritanceTree"]}
{"id": "C25", "title": "Registry is a map guarded by reserved names", "statement": "Registry add/find/remove behave like a finite map on names: reserved names and elements without a string id are rejected, a duplicate is refused and leaves the registry unchanged.", "quantifier": "all operation histories", "why_tests_cant": "histories", "anchors": ["packages/drafter/src/refract/Registry.cc", "packages/drafter/src/refract/Element.cc: isReserved"]}
{"id": "C26", "title": "Type cardinality arithmetic", "statement": "cardinal + and * agree with addition and multiplication of natural numbers extended by infinity as long as no finite result reaches 2^32-1 (cardinals are 32-bit unsigned, the largest number standing for infinity); beyond that results wrap around and infinity is mistaken (exhibited).", "quantifier": "all pairs of 32-bit cardinals", "why_tests_cant": "2^64 pairs", "anchors": ["packages/drafter/src/refract/Cardinal.h"]}
{"id": "C27", "title": "Computed cardinality counts the values of a type", "statement": "For types built from null, strings, numbers, booleans, nullable, fixed objects with required members of different names, tuples, typed and open arrays, enums with disjoint entries, references and inheritance, whose intermediate counts fit 32 bits, the computed cardinality is the number of JSON values the type admits (infinite included); a type of size 1 admits exactly one value. Outside, exhibit where the number is wrong (overflow, valueless fixed types, empty typed arrays, optional members, repeated enum entries).", "quantifier": "all such element trees", "why_tests_cant": "unbounded trees and counts", "anchors": ["packages/drafter/src/refract/ElementSize.cc: sizeOf", "packages/drafter/src/refract/Cardinal.h"]}
{"id": "C28", "title": "Generated JSON bodies have unique keys and are JSON", "statement": "generateJsonValue always produces a value whose objects have unique member names at every level, and, when the number literals of the data structure are JSON numbers and its strings are UTF-8, prints as a JSON text in UTF-8 that denotes that value; schemas likewise denote JSON, but may repeat names (exhibited).", "quantifier": "all elements", "why_tests_cant": "every nesting", "anchors": ["packages/drafter/src/refract/JsonValue.cc: generateJsonValue, renderProperty", "packages/drafter/src/refract/JsonSchema.cc: generateJsonSchema"]}
{"id": "C29", "title": "Generated body validates against generated schema", "statement": "For data structures whose values, samples and defaults are of their types, whose enum values are listed, whose fixed arrays have no valueless entries, and whose objects have different nonempty member names, no alternatives and no variable name beside other members, the generated JSON body satisfies the generated JSON Schema under draft-07 semantics, and no object of the schema repeats a name. Each condition is needed: counterexamples are exhibited.", "quantifier": "all data structures in that fragment, including mixins, references, inheritance and nesting to any depth", "why_tests_cant": "relation between two recursive generators over all structures", "anchors": ["packages/drafter/src/refract/JsonValue.cc: generateJsonValue", "packages/drafter/src/refract/JsonSchema.cc: generateJsonSchema"]}
{"id": "C30", "title": "Schema reduction changes nothing", "statement": "The post-processing step that flattens anyOf never changes the meaning of a generated schema.", "quantifier": "all generated schemas", "why_tests_cant": "all schemas", "anchors": ["packages/drafter/src/refract/JsonSchema.cc: reduce, flattenAnyOfs"]}
{"id": "C31", "title": "Schema key patterns match the literal key", "statement": "For a fixed variable property the emitted pattern, read as an ECMA-262 regular expression, matches a property name iff it contains the key literally (no metacharacter leaks).", "quantifier": "all keys and property names", "why_tests_cant": "all strings", "anchors": ["packages/drafter/src/refract/JsonSchema.cc: renderPattern"]}
{"id": "C32", "title": "Byte to character index", "statement": "For well formed UTF-8 sources, the character index maps each byte offset to the number of characters before the one containing it; for sources ending in a truncated multi-byte sequence the construction must be examined for out of bounds writes.", "quantifier": "all byte strings", "why_tests_cant": "all inputs, memory safety", "anchors": ["packages/apib-parser/src/markdown-parser/ByteBuffer.cc: BuildCharacterIndex"]}
{"id": "C33", "title": "Byte ranges convert to character ranges", "statement": "For well formed sources and byte ranges on character boundaries inside the source the converted range has location and length equal to the numbers of characters before and inside the byte range; both conversions (index based and direct) agree; out of range inputs must be examined.", "quantifier": "all sources and ranges", "why_tests_cant": "all offsets", "anchors": ["packages/apib-parser/src/markdown-parser/ByteBuffer.cc: BytesRangeToCharactersRange, strnlen_utf8"]}
{"id": "C34", "title": "Range sets stay coalesced", "statement": "Appending range sets preserves the covered bytes in order and merges adjacent blocks; a set built by appends of ordered blocks is ordered and has no two adjacent contiguous blocks.", "quantifier": "all append histories", "why_tests_cant": "histories", "anchors": ["packages/apib-parser/src/markdown-parser/ByteBuffer.h: RangeSet::append"]}
{"id": "C35", "title": "Line and column of annotations", "statement": "For every source and in-range character position, the reported start line is one plus the number of newlines before it and the column is one plus the distance from the line start; find where the code departs from this.", "quantifier": "all sources and ranges", "why_tests_cant": "all positions", "anchors": ["packages/drafter/src/SourceMapUtils.cc: GetLineFromMap, GetLinesEndIndex"]}
{"id": "C36", "title": "Media type serialization round trip", "statement": "A media type printed and parsed again is the same media type; determine for which media types this holds.", "quantifier": "all media types", "why_tests_cant": "all strings in all fields", "anchors": ["packages/drafter/src/backend/MediaTypeS11n.cc", "packages/apib-parser/src/grammar/Mediatype.h", "packages/apib-parser/src/MediaTypeParser.cc"]}
{"id": "C37", "title": "JSON media type recognition", "statement": "A body is treated as JSON iff type is application and the syntax suffix (or the subtype when there is none) is json, ignoring ASCII case; schema recognition implies JSON recognition.", "quantifier": "all media types", "why_tests_cant": "all strings", "anchors": ["packages/apib/src/MediaType.cc: isJSON, isJSONSchema"]}
{"id": "C38", "title": "Named types are ordered by dependency", "statement": "Named types are sorted so that a type comes after its ancestors and members. The comparator must be a strict weak ordering for the sort to be defined; decide whether it is.", "quantifier": "all sets of named types", "why_tests_cant": "comparator laws over all triples", "anchors": ["packages/drafter/src/NamedTypesRegistry.cc: InheritanceComparator, DependencyTypeInfo"]}
{"id": "C39", "title": "Base type resolution terminates", "statement": "Resolving the base type of a named type terminates for every inheritance graph and yields the base of the nearest ancestor that declares one; decide for cyclic graphs.", "quantifier": "all inheritance graphs", "why_tests_cant": "nontermination", "anchors": ["packages/drafter/src/NamedTypesRegistry.cc: ResolveType, hasAncestor, collectMembers"]}
{"id": "C40", "title": "Tabs and carriage returns are rejected with their position", "statement": "A source containing a tab or a carriage return is rejected with an error whose location is the character offset of the first such byte (tabs first), and nothing is parsed.", "quantifier": "all sources", "why_tests_cant": "all positions and prefixes", "anchors": ["packages/apib-parser/src/snowcrash/snowcrash.cc: CheckSource, parse"]}
{"id": "C41", "title": "String utilities", "statement": "Trimming removes exactly the whitespace around a text, and the computed offset and length are those of the trimmed part (decide for texts of whitespace only); splitting at a delimiter finds the pieces again that were joined, losing nothing but a delimiter at the end; the first line and the rest are separated at the first line feed; comparison ignores exactly the case of ASCII letters; a text is made to end with two line feeds by adding as few as possible (decide for short texts).", "quantifier": "all strings", "why_tests_cant": "all strings", "anchors": ["packages/apib-parser/src/snowcrash/StringUtility.h: TrimString, Split, SplitOnFirst, GetTrimInfo, GetFirstLine, IEqual, TwoNewLines"]}
{"id": "C42", "title": "Escaped literals", "statement": "Text wrapped in runs of n escape characters, not containing such a run nor touching its ends with that character, is retrieved unchanged, with or without the runs; an unclosed run yields nothing and leaves the subject alone; a backticked literal is stripped and trimmed, text not in backticks is left alone. Decide what happens to text between two literals and at the end of the subject.", "quantifier": "all literals and fence widths", "why_tests_cant": "all strings", "anchors": ["packages/apib-parser/src/snowcrash/StringUtility.h: RetrieveEscaped, StripBackticks"]}
{"id": "C43", "title": "Replacement terminates and is complete", "statement": "Replacing a nonempty pattern terminates and replaces exactly the occurrences found from left to right without overlap; if pattern and replacement share no character, none is left (decide in general); with an empty pattern it diverges.", "quantifier": "all strings", "why_tests_cant": "nontermination", "anchors": ["packages/apib-parser/src/snowcrash/StringUtility.h: ReplaceString"]}
{"id": "C44", "title": "Conversion warnings are reported once", "statement": "Warnings raised while converting a blueprint appear in the report exactly once each (same message, code and location), in the order they were first raised.", "quantifier": "all sequences of raised warnings", "why_tests_cant": "unbounded sequences", "anchors": ["packages/drafter/src/ConversionContext.cc: warn"]}
{"id": "C45", "title": "Options objects", "statement": "Freshly initialised options hold the documented defaults (no name required, nothing skipped, no source maps, YAML); every setter changes its own field of its own object and nothing else; NULL serialize options behave like fresh ones.", "quantifier": "all heaps, histories and option values", "why_tests_cant": "all combinations of setters", "anchors": ["packages/drafter/src/drafter.cc: drafter_init_parse_options, drafter_set_name_required, drafter_set_format", "packages/drafter/src/options.cc"]}
{"id": "C46", "title": "Expanded data structures name no types", "statement": "After expansion no element reachable through values, enumerations or resolved mixins refers to a named type any more (it is self-contained) and every mixin of a registered type is resolved; recursive occurrences are stand-ins that carry a ref.", "quantifier": "all registries and elements", "why_tests_cant": "all type graphs, including recursive ones", "anchors": ["packages/drafter/src/refract/ExpandVisitor.cc", "packages/drafter/src/refract/IsExpandableVisitor.cc"]}
{"id": "C47", "title": "Body, schema and size generation terminate", "statement": "Generating a JSON body, a JSON Schema, or the number of values of any data structure terminates; the only other outcomes are a merge error or an undefined state.", "quantifier": "all element trees", "why_tests_cant": "termination on every input", "anchors": ["packages/drafter/src/refract/JsonValue.cc: generateJsonValue", "packages/drafter/src/refract/JsonSchema.cc: generateJsonSchema", "packages/drafter/src/refract/ElementSize.cc: sizeOf"]}
{"id": "C49", "title": "The text of a set of ranges", "statement": "For ranges inside the source, mapping a set of byte ranges to text gives exactly the covered bytes in order, and appending sets appends texts; ranges beyond the end must be examined.", "quantifier": "all sources and range sets", "why_tests_cant": "all offsets", "anchors": ["packages/apib-parser/src/markdown-parser/ByteBuffer.cc: MapBytesRangeSet"]}
{"id": "C50", "title": "Named types are checked before parsing", "statement": "Going through the named types of a blueprint always ends; a blueprint is accepted exactly if no name is declared twice, no sub type depends on itself and every super type has a kind; then the tables hold the kind of every type (its own, object if none is given, or that of its super type) and all its dependencies, direct and indirect; otherwise the error names a type that is at fault.", "quantifier": "all lists of named type declarations", "why_tests_cant": "termination and completeness over all type graphs", "anchors": ["packages/apib-parser/src/snowcrash/BlueprintParser.h: fillNamedTypeTables, resolveNamedTypeTables, resolveNamedTypeDependencyTableEntry, resolveNamedTypeBaseTableEntry", "packages/apib-parser/src/snowcrash/MSONUtility.h: parseTypeDefinition"]}
{"id": "C51", "title": "Circular references between named types are found", "statement": "While members and mixins of named types are parsed, the dependencies known at any moment are exactly those that follow from the declarations and the references accepted so far; a reference is refused exactly if the type has never been heard of or, for mixins, if it would close a circle. Decide whether every undefined type is reported and whether the order of the document matters.", "quantifier": "all declarations and all histories of references", "why_tests_cant": "unbounded histories; transitive closure", "anchors": ["packages/apib-parser/src/snowcrash/MSONUtility.h: addDependency", "packages/apib-parser/src/snowcrash/MSONMixinParser.h", "packages/apib-parser/src/snowcrash/MSONValueMemberParser.h"]}
{"id": "C52", "title": "Exceptions of the parser become errors", "statement": "Parsing a blueprint lets no exception out: an error thrown inside becomes the error reported, any other exception an application error with its message, and the code returned is always that of the error reported.", "quantifier": "all sources and all ways the parsing may end", "why_tests_cant": "all exceptions at all points", "anchors": ["packages/apib-parser/src/snowcrash/snowcrash.cc: parse"]}
{"id": "C53", "title": "Header lines", "statement": "Every line of a headers section gives exactly the header it spells: `name: value` (blanks around the colon do not matter, the value is trimmed) gives that header without a warning unless the name was defined before (ignoring case; Set-Cookie and Link may be repeated) or the value is empty; a missing colon is only warned about; a name with an illegal character or no name gives a warning and no header; the headers of a section are those of its lines in order, code fences not counting. Decide which characters a name may hold and what becomes of blank ranges.", "quantifier": "all lines, all sources and range sets", "why_tests_cant": "all strings; order and number of lines", "anchors": ["packages/apib-parser/src/snowcrash/HeadersParser.h: parseHeaderLine, fetchLine, headersFromContent", "packages/apib-parser/src/snowcrash/HeadersParser.cc"]}
{"id": "C54", "title": "Literals of numbers and booleans", "statement": "A value written for a number is accepted exactly if it is a JSON number, apart from white space behind it, and is kept as written; a boolean exactly if it is `true` or `false`; a string exactly if it is not empty.", "quantifier": "all strings", "why_tests_cant": "all strings", "anchors": ["packages/drafter/src/Serialize.cc: LiteralTo, isValidNumber"]}
{"id": "C55", "title": "Converted data structures are sound", "statement": "Every data structure the conversion of MSON yields is well formed at every level: no null pointers, unique meta and attribute names, only known attributes holding what they should, JSON numbers, objects without two members of one key, members with a key and a value, options inside one-ofs only; so it can always be written and its JSON text reads back as it is, and expanding it with types that were converted too is never undefined.", "quantifier": "all MSON trees and type registries", "why_tests_cant": "all trees, nested to any depth", "anchors": ["packages/drafter/src/RefractDataStructure.cc: MSONToRefract", "packages/drafter/src/MsonTypeSectionToApie.cc"]}
{"id": "C56", "title": "Arrays and objects keep the written entries in order", "statement": "The content of an array or object is the entries for the nested types, then the values beside the name, then the members of all member sections, in the order of the document; of several members with one key only the last stays; every sample section is a sample, the last default section is the default.", "quantifier": "all members and data structures", "why_tests_cant": "all sequences of sections and members", "anchors": ["packages/drafter/src/RefractDataStructure.cc: ExtractTypeSection, SaveValue, SetSamples, SetDefault"]}
{"id": "C57", "title": "Members and data structures get their kind, name, type attributes and description", "statement": "A value, property or data structure becomes an element of the kind given by its base type, its (known) named type, or else its content; it is labelled with the type written, has exactly the type attributes written, the key written, and the joined descriptions; contradictory type attributes are warned about. Decide whether descriptions are ever lost.", "quantifier": "all members, data structures and registries", "why_tests_cant": "all trees", "anchors": ["packages/drafter/src/RefractDataStructure.cc: MsonMemberToRefract, RefractElementFromProperty, RefractElementFromValue, MsonTypeAttributesToRefract, DescriptionToRefract"]}
{"id": "C58", "title": "Primitive values", "statement": "A boolean, number or string holds the one value written beside its name unless that is a sample or default; samples are all samples written, the default is the last one written; every literal that is not of the kind is reported once, in order, and replaced.", "quantifier": "all members and data structures of primitive kind", "why_tests_cant": "all literals and sections", "anchors": ["packages/drafter/src/RefractDataStructure.cc: ExtractValueMember, CheckValueValidity, SaveValue"]}
{"id": "C59", "title": "Enumerations list every value once", "statement": "The enumerations of an enum list every entry written, as value, member, sample, default or nested type, exactly once up to descriptions and source maps, in this order, literals fixed; every repetition among values, members and nested types is reported; more than one default is reported and the last counts.", "quantifier": "all enums", "why_tests_cant": "all sequences of entries", "anchors": ["packages/drafter/src/RefractDataStructure.cc: SaveValue<EnumElement>, SetDefault", "packages/drafter/src/ElementComparator.h"]}
{"id": "C60", "title": "One-of, mixins and groups", "statement": "A one-of becomes a select with one option per alternative in order, an option holding what its alternative (or all members of a group) becomes; a mixin becomes a reference to the content of the type it names; a group outside a one-of is refused.", "quantifier": "all MSON trees", "why_tests_cant": "all nestings", "anchors": ["packages/drafter/src/MsonOneOfSectionToApie.cc", "packages/drafter/src/MsonTypeSectionToApie.cc"]}
{"id": "C61", "title": "Conversion of data structures ends", "statement": "Converting a data structure ends with an element or nothing whenever the chains of parents of all types end, primitives have at most one value, variable names are strings, sections have a class, groups are alternatives and enumeration entries are of plain or known types. Decide what happens otherwise.", "quantifier": "all such data structures and registries", "why_tests_cant": "termination and absence of exceptions on every input", "anchors": ["packages/drafter/src/RefractDataStructure.cc"]}
{"id": "C62", "title": "Named types are registered whatever their order", "statement": "The data structures and resource attributes of a blueprint, at any depth, are all found. If names are declared once, none is reserved and no type derives from itself, registering them ends; unless the conversion of one of them fails, every type is afterwards found under its name, converted with all other types known and of the kind of its nearest ancestor, together with the base types and nothing else; neither the registered types nor the set of warnings depend on the order the types are sorted in. A reserved name is refused with an error at that name before anything is converted.", "quantifier": "all lists of named types, all arrangements of them", "why_tests_cant": "sorting uses a comparison that is no order, so every arrangement must work; all dependency graphs", "anchors": ["packages/drafter/src/NamedTypesRegistry.cc: RegisterNamedTypes, FindNamedTypes, preRegisterNamedTypes"]}
{"id": "C63", "title": "Registered types can be expanded", "statement": "Types the parser accepts (and that are not called by reserved names) meet the conditions of registration; expanding any data structure converted with the registered types ends, with an element or with the error about a mixin that includes itself, never undefined.", "quantifier": "all blueprints accepted, all data structures", "why_tests_cant": "termination over all type graphs", "anchors": ["packages/drafter/src/NamedTypesRegistry.cc", "packages/drafter/src/refract/ExpandVisitor.cc", "packages/apib-parser/src/snowcrash/BlueprintParser.h"]}
{"id": "C64", "title": "Requests and responses become HTTP messages", "statement": "Every request becomes an httpRequest with its name as title, the method of its action, its URI variables and all its headers in order; every response an httpResponse with its name as status code; both hold the description, the data structure of their attributes, the body and the schema, in this order and with their places in the source; a request without attributes uses those of its action to generate its body and schema. Decide what happens to requests of actions without a method.", "quantifier": "all payloads, actions and type registries", "why_tests_cant": "all combinations of parts of a message", "anchors": ["packages/drafter/src/RefractAPI.cc: PayloadToRefract, ParametersToRefract, HeaderToRefract, CopyToRefract, DataStructureToRefract"]}
{"id": "C65", "title": "Generated bodies and schemas", "statement": "A message without a body (or schema) gets a generated one exactly if generation is not switched off, its first Content-Type header names a JSON type and there is a data structure; the text generated is a JSON text that denotes the value (or schema) generated from the data structure with all named types expanded; a body or schema written in the document is taken as it is.", "quantifier": "all messages of all documents, all options", "why_tests_cant": "all data structures and content types", "anchors": ["packages/drafter/src/RefractAPI.cc: PayloadToRefract", "packages/drafter/src/Render.cc: getContentType", "packages/drafter/src/refract/JsonValue.cc", "packages/drafter/src/refract/JsonSchema.cc"]}
{"id": "C66", "title": "Transactions pair every request with every response", "statement": "An example with requests and responses becomes one transaction for every request and every response, in the order of the requests and for each in the order of the responses; requests without responses and responses without requests become one transaction each, completed by an empty message; descriptions of the example are repeated in each.", "quantifier": "all examples", "why_tests_cant": "all numbers of requests and responses", "anchors": ["packages/drafter/src/RefractAPI.cc: TransactionToRefract, ActionToRefract"]}
{"id": "C67", "title": "Every part of a document is in its API Elements", "statement": "The API category holds title, metadata, description, and for every group, resource, data structure and text of the document, at any depth and in the order of the document, the element it stands for, every action of a resource a transition with relation, address, variables, attributes and transactions; nothing else.", "quantifier": "all documents", "why_tests_cant": "nested to any depth", "anchors": ["packages/drafter/src/RefractAPI.cc: BlueprintToRefract, ElementToRefract, CategoryToRefract, ResourceToRefract, ActionToRefract, MetadataCollectionToRefract"]}
{"id": "C68", "title": "URI variables", "statement": "The variables of a URI template are the parameters in order, of several with one name only the last; each with description, type, whether it is required, example, default and, if it has values, an enumeration of them.", "quantifier": "all parameter lists", "why_tests_cant": "all sequences of names", "anchors": ["packages/drafter/src/RefractAPI.cc: ParameterToRefract, ParametersToRefract, ExtractParameter"]}
{"id": "C69", "title": "Converting a document ends and yields sound elements", "statement": "Converting any document whose types are well declared ends; the outcome does not depend on how many steps are granted; the API Elements hold no null pointers, unique names, JSON numbers only, members with key and value, so they can be written and the JSON text reads back as the same value.", "quantifier": "all documents", "why_tests_cant": "termination; all trees", "anchors": ["packages/drafter/src/RefractAPI.cc", "packages/drafter/src/NamedTypesRegistry.cc", "packages/drafter/src/ConversionContext.cc"]}
{"id": "C70", "title": "From the source to the text", "statement": "Whatever the parser yields for a source, the text the C interface hands out is a complete JSON or YAML text of one parse result; if the conversion succeeds its first entry is exactly the API Elements of the document, converted with its named types registered.", "quantifier": "all sources, parsers, options and documents", "why_tests_cant": "all documents and all endings", "anchors": ["packages/drafter/src/drafter.cc: drafter_parse_blueprint_to", "packages/drafter/src/drafter_private.cc", "packages/drafter/src/ConversionContext.cc", "packages/drafter/src/RefractAPI.cc"]}
{"id": "C48", "title": "Generating bodies and schemas never crashes", "statement": "If a data structure is decent (its mixins name types there are and stand among members, not in samples, defaults or enumerations; one-ofs have alternatives; names of properties have no named type; types are given by a base type or a name), and so are the named types of the document, then from whatever it expands to a JSON body, a JSON Schema and its size are generated: no assertion fails, no null pointer is read, no exception escapes.", "quantifier": "all data structures of all documents with decent types", "why_tests_cant": "all nestings of inheritance, mixins, one-ofs, samples and enumerations", "anchors": ["packages/drafter/src/refract/JsonValue.cc", "packages/drafter/src/refract/JsonSchema.cc", "packages/drafter/src/refract/ElementSize.cc", "packages/drafter/src/refract/ExpandVisitor.cc", "packages/drafter/src/refract/dsd/Extend.cc", "packages/drafter/src/RefractDataStructure.cc"]}
{"id": "C71", "title": "Converting a document never crashes", "statement": "Converting a document whose data structures can be converted (C61) and are decent (C48), whose types are well declared and which consists of categories, texts, resources and data structures ends with its API Elements, or with the error that a named type circularly references itself by mixin; never with a failed assertion, undefined behaviour or another exception.", "quantifier": "all such documents, options and orders of the named types", "why_tests_cant": "all documents at once: every structure in every message of every action", "anchors": ["packages/drafter/src/RefractAPI.cc", "packages/drafter/src/RefractDataStructure.cc", "packages/drafter/src/NamedTypesRegistry.cc", "packages/drafter/src/refract/ExpandVisitor.cc", "packages/drafter/src/refract/JsonValue.cc", "packages/drafter/src/refract/JsonSchema.cc"]}
{"id": "C72", "title": "URI templates are cut, read and complained about exactly as described", "statement": "Every text is cut into expressions between braces and literal text between them in one way only; the parts the URI template parser finds are these: literal text or disallowed text, and expressions with their operator, their variables (name, prefix length, explode) and their malformed variables in order. Parsing always ends without an exception. The warnings are, in order, one for each disallowed text, unsupported operator, malformed variable and missing bracket, naming the first thing that is wrong there; no warning is given if and only if the text is a URI template.", "quantifier": "all byte strings", "why_tests_cant": "the grammar recovers from errors by exceptions and skipping; all interleavings of errors and valid parts are covered", "anchors": ["packages/apib-parser/src/snowcrash/UriTemplateParser.cc", "packages/apib-parser/src/grammar/Uritemplate.h", "packages/apib-parser/src/grammar/recover.h"]}
{"id": "C73", "title": "The Markdown tree mirrors the document", "statement": "For every document the Markdown library announces by its calls (headings, code, paragraphs, rules, HTML, quotes and list items nested to any depth, lists, empty lines) the tree in memory is the nesting of its blocks: every node knows its parent, no node is shared, lists add no level, list items begin with a paragraph and every node has its place in the source, cut at the end of the source. The places of the top level nodes are, in order, those of the blocks. The paragraph added to a list item is placed exactly at its text if the item is one range of the source. For arbitrary calls in arbitrary order the parser succeeds if and only if what ends is always what was begun last, and throws a logic error otherwise.", "quantifier": "all documents of any nesting depth, all sources shorter than 2^64-1 bytes; all sequences of calls", "why_tests_cant": "pointers between nodes in growing containers: all shapes and all orders of calls", "anchors": ["packages/apib-parser/src/markdown-parser/MarkdownParser.cc", "packages/apib-parser/src/markdown-parser/MarkdownNode.cc", "packages/apib-parser/src/markdown-parser/MarkdownNode.h"]}
{"id": "C74", "title": "Signatures of sections are read as written", "statement": "For every first line of a section and every choice of parts the signature may have, the line has exactly one reading: the identifier runs up to the first delimiter outside of literals, the values are divided by the commas outside of literals, the attributes by the commas outside of literals and nested brackets, the content follows its delimiter, each trimmed; the parser finds exactly this reading, always ends, warns of a missing identifier or missing values and loses no text in front of the attributes. A plain 'id: values (attributes) - content' gives back its parts. Only attribute lists whose last attribute is empty (or unclosed ones that end with a comma) make it read out of bounds.", "quantifier": "all texts, all signature traits and delimiters", "why_tests_cant": "A test reads some signatures; that a reading is unique and found for every text needs an induction over texts with nested literals and brackets.", "anchors": ["packages/apib-parser/src/snowcrash/SignatureSectionProcessor.h", "packages/apib-parser/src/snowcrash/Signature.h", "packages/apib-parser/src/snowcrash/StringUtility.h"]}
{"id": "C75", "title": "Which section a Markdown node begins", "statement": "A list item or a header begins a section of a kind exactly if its text (the first line, or for mixins, values and most headers the whole text, without the whitespace around it) reads as one of the forms of its keyword: 'Headers', 'Body', 'Schema', 'Attributes (...)', 'Parameters', 'Relation:', 'Include ...', 'One Of', 'Values', 'Items', 'Properties', 'Default: ...', 'Sample: ...', text beginning with 'Request' or 'Response', 'Name Model (type)', and for headers paths with or without method, names followed by these in brackets, 'Group Name', 'Data Structures'. Requests, responses and models are full sections exactly if one of their children is a headers, body, schema, attributes or parameters section. A header under 'Data Structures' names a type exactly if it reads as no keyword. Except for the listed ambiguous texts no node reads as two keywords, so the order in which the parser tries the keywords does not matter, and the section a parent takes a node for is the one it is taken for everywhere.", "quantifier": "all nodes and texts, all orders of the keywords", "why_tests_cant": "a test tries some texts; that two of the 26 patterns never match the same text is a statement about infinitely many texts", "anchors": ["packages/apib-parser/src/snowcrash/Signature.cc: SectionKeywordSignature, RecognizeCodeBlockFirstLine", "packages/apib-parser/src/snowcrash/posix/RegexMatch.cc", "packages/apib-parser/src/snowcrash/*Parser.h: sectionType, nestedSectionType"]}
{"id": "C76", "title": "The outline of a document", "statement": "Reading a document gives every top level Markdown block exactly one place, in document order: metadata, the title, a description, the header of a section, a list section, an addition to the body of the request, response or model in front of it, or a block ignored with a warning. A group goes from its header up to the next 'Group' or 'Data Structures' header, a resource up to the next resource, group or data structures header, an action up to the next action or any of these, a named type up to the next header that is no type section; a bare endpoint is a resource with one action; requests and responses form transactions, a request behind a response begins another. These rules allow exactly one outline for a list of blocks and the parser finds it. Reading always ends, reads no block beyond the last, and fails only if the reading of a list item fails or if behind 'Data Structures' there is a type section written as a list item or a block that is neither a header nor a list item.", "quantifier": "all lists of Markdown blocks (headers of one line), whatever their list items contain and whatever the named types derive from", "why_tests_cant": "a test reads some documents; that no block is lost, doubled or reordered, that the loop ends, and that the outline is the only one allowed must hold for every document", "anchors": ["packages/apib-parser/src/snowcrash/SectionParser.h: parse, parseNestedSections", "packages/apib-parser/src/snowcrash/SectionProcessor.h", "packages/apib-parser/src/snowcrash/BlueprintParser.h", "packages/apib-parser/src/snowcrash/ResourceGroupParser.h", "packages/apib-parser/src/snowcrash/ResourceParser.h", "packages/apib-parser/src/snowcrash/ActionParser.h", "packages/apib-parser/src/snowcrash/DataStructureGroupParser.h", "packages/apib-parser/src/snowcrash/MSONNamedTypeParser.h", "packages/apib-parser/src/snowcrash/MSONTypeSectionParser.h"]}
{"id": "C77", "title": "What a request, a response or a model item says", "statement": "The list item of a request, a response or a model says exactly one thing, and the parser returns it together with exactly the warnings that belong to it, in order. The first line gives the name (the status code) and the media type, which becomes a Content-Type header; a response without status code is a 200; a line that goes on otherwise is reported and gives no name. In full form the paragraphs are the description and each Headers, Body, Schema, Attributes or Parameters item contributes to the payload; texts directly behind a Body item belong to the body. In short form the body is the text of the blocks, unless the first block with text is a reference '[model][]': then body, schema, description, parameters and headers are those of the model if it is known, and else the reference is kept for later. Requests with a length but no body and bodies of 1xx, 204 and 304 responses are reported, and nothing else is.", "quantifier": "for all sources, list items inside them (any number and kind of nodes, any texts), tables of models, results of the attribute and parameter parsers, and earlier reports", "why_tests_cant": "the combinations of first lines, sections, repeated sections, dangling texts and references, in any order and number, are endless", "anchors": ["packages/apib-parser/src/snowcrash/PayloadParser.h: PayloadProcessor, PayloadParser", "packages/apib-parser/src/snowcrash/AssetParser.h: AssetParser", "packages/apib-parser/src/snowcrash/CodeBlockUtility.h: contentAsCodeBlock, signatureContentAsCodeBlock, addDanglingAsset, checkPossibleReference, checkExcessiveIndentation", "packages/apib-parser/src/snowcrash/HeadersParser.h: processSignature, processContent, finalize", "packages/apib-parser/src/snowcrash/ModelTable.h: GetModelReference", "packages/apib-parser/src/snowcrash/HTTP.cc: GetStatusCodeTrait"]}
{"id": "C78", "title": "Transactions, models and references", "statement": "The requests and responses of an action become transactions in their order: requests, then responses; a request behind a response begins another transaction. Texts behind a request, a response or a model are added to its body; headers given to an action or a resource come first in each of its payloads. A model is known by its own name or else by that of its resource; defining a name twice, or none, is an error; a request or a response that refers to a model gets its content wherever in the document the model is, and a reference to no model is an error. If the parser reports no error, every reference is resolved and has the description, parameters and schema of the model, a body that begins with the model's and headers that end in it, model names are distinct, and every name stands for the model of its resource. Repeated payloads, actions, resources and models, missing responses and unwelcome bodies are reported, in order, and nothing else; of several errors the last is kept.", "quantifier": "for all documents (any list of blocks inside a source) that have an outline, whatever the attribute and parameter parsers report", "why_tests_cant": "the order of models, references, repeated definitions and texts between them is unlimited, and what a reference stands for depends on the whole document", "anchors": ["packages/apib-parser/src/snowcrash/ActionParser.h: processNestedSection, findRelation, processUnexpectedNode, checkPayload, isPayloadDuplicate, finalize", "packages/apib-parser/src/snowcrash/ResourceParser.h: processModel, processAction, processNestedAction, processUnexpectedNode, finalize", "packages/apib-parser/src/snowcrash/HeadersParser.h: injectDeprecatedHeaders", "packages/apib-parser/src/snowcrash/BlueprintUtility.h: MatchPayload, MatchAction", "packages/apib-parser/src/snowcrash/BlueprintParser.h: checkLazyReferencing, resolvePendingModels", "packages/apib-parser/src/snowcrash/ResourceGroupParser.h: processNestedSection"]}
{"id": "C79", "title": "What values, type names and type definitions of MSON say", "statement": "Every text is exactly one value: a variable in emphasis, a literal in backticks or the text itself. The attributes of a signature are exactly one type definition: each of the seven keywords is one flag, wherever it stands and however often; the first other attribute is the type, with its nested types in brackets in their order, each of them a base type, a name or a Markdown link read as its text; each further attribute is reported as ignored. The base type is that of the keyword or of the named type, and a name that is not known yet becomes a dependency of the named type at hand, and nothing else does; nested types of anything but arrays and enums are reported. None of this reads outside of the text, throws or loops.", "quantifier": "for all texts and lists of attributes, all tables of named types", "why_tests_cant": "brackets, links, emphasis and backticks nest and remain open in unlimited ways, and whether a name is a dependency depends on all types of the document", "anchors": ["packages/apib-parser/src/snowcrash/MSONUtility.h: checkVariable, parseValue, parseSymbol, parseTypeName, parseTypeAttribute, parseTypeSpecification, parseTypeDefinition, parsePropertyName", "packages/apib-parser/src/snowcrash/StringUtility.h: StripMarkdownLink, RetrieveEscaped", "packages/apib-parser/src/markdown-parser/MarkdownParser.h: MarkdownLinkRegex"]}
{"id": "C80", "title": "What the attributes section and MSON members say", "statement": "The list items of an attributes section, and below it those of members, one-ofs and type sections (samples, defaults, items, properties), nested to any depth, say at most one tree of members, which the parser returns together with the remarks and dependencies that belong to it, in order; remarks made before and known types are kept. Reading ends however deep the items nest. A type that is named is the type of the member whatever is below it; without one, items below make it an object and it is a primitive otherwise; so no member lacks a type. The items below an object or an array, if they are neither sections nor includes nor one-ofs, are its members, one each and in order; an item below a primitive type is reported and ends the member; behind a description everything up to the next section belongs to the description.", "quantifier": "for all sources, list items inside them (any number, kind, text and depth of nodes), tables of named types and earlier reports", "why_tests_cant": "items nest without limit, and what an item means depends on the type its parents have by then", "anchors": ["packages/apib-parser/src/snowcrash/MSONUtility.h", "packages/apib-parser/src/snowcrash/MSONValueMemberParser.h: MSONValueMemberProcessor", "packages/apib-parser/src/snowcrash/MSONPropertyMemberParser.h", "packages/apib-parser/src/snowcrash/MSONTypeSectionParser.h", "packages/apib-parser/src/snowcrash/MSONOneOfParser.h", "packages/apib-parser/src/snowcrash/MSONMixinParser.h", "packages/apib-parser/src/snowcrash/AttributesParser.h", "packages/apib-parser/src/snowcrash/SectionParser.h: parse, ListSectionAdapter"]}
{"id": "C81", "title": "What URI parameters say", "statement": "The nested list items of a parameters section are parameters in the form from before MSON, parameters in MSON form, or neither; every line and every item has at most one form, which the parser tells. The section says one list of parameters (name, description, type, use, default, example, values, with their places) and remarks, which the parser returns, remarks made before being kept; reading ends however deep the items nest. Every item of one form defines one parameter, in order; of one name exactly one parameter is left, the one defined last, and no other name is lost. A parameter that is not optional but has a default value, and a default that is not among the given values, are always reported. For every URI template the eligibility check reports exactly the parameters that are no variable of the template.", "quantifier": "for all sources, parameter list items inside them (any number, kind, text and depth of nodes), tables of named types and earlier reports, and for all URI templates and lists of parameters", "why_tests_cant": "which form an item has depends on its text and on the items below it, and names are defined again in any order", "anchors": ["packages/apib-parser/src/snowcrash/ParametersParser.h", "packages/apib-parser/src/snowcrash/ParameterParser.h", "packages/apib-parser/src/snowcrash/MSONParameterParser.h", "packages/apib-parser/src/snowcrash/ValuesParser.h"]}
{"id": "C82", "title": "What a group of data structures says", "statement": "The nodes of a data structures group (the group's header, the headers of named types with texts, items and section headers below them) say one list of named types - name, type definition, sections in order, places in the source -, remarks, and the nodes that are left for the parsers above; the parser returns these and nothing else, earlier remarks being kept. Reading ends however many and however deep the nodes. A named type is its header and a run of the nodes behind it; its name and type are what the header says, an object if no type with a base is named. Items behind the header of an object or array are its members, one each and in order; a primitive type takes none. No structure of the group has a name that was taken before the group, every header of a new name gives one structure, and the group goes on exactly to the next header that ends it.", "quantifier": "for all sources, sequences of nodes inside them (any number, kind, text and depth), tables of named types, earlier reports and earlier elements of the document", "why_tests_cant": "what ends a type, a section or the group depends on every node between, and members nest without bound", "anchors": ["packages/apib-parser/src/snowcrash/MSONNamedTypeParser.h", "packages/apib-parser/src/snowcrash/DataStructureGroupParser.h", "packages/apib-parser/src/snowcrash/MSONTypeSectionParser.h", "packages/apib-parser/src/snowcrash/SectionParser.h"]}
{"id": "C83", "title": "Named types are declared wherever they stand", "statement": "Before a document is parsed, the types it declares are collected: each header that names a type under Data Structures, and the attributes of each resource with a name, in the order of the document; these and nothing else. The document is refused exactly if these declarations make no sense (a name twice, a type that depends on itself, a super type without a kind), and otherwise the kind of every type is known everywhere, also before its declaration and in other sections. Headers with a relative path in brackets are reported, one by one, and nothing else is. Looking ahead always ends and never throws. What a group of data structures is parsed to has been declared with the same name and type, if the headers in the group are types and their sections.", "quantifier": "for all sequences of nodes of a document (any number, kind, text and depth)", "why_tests_cant": "what a header declares depends on every header before it, the kinds on every other declaration", "anchors": ["packages/apib-parser/src/snowcrash/BlueprintParser.h: preprocessNestedSections, checkForPossibleSectionMistakes, fillNamedTypeTables", "packages/apib-parser/src/snowcrash/ActionParser.h: checkForTypoMistake", "packages/apib-parser/src/snowcrash/ResourceParser.h: matchNamedResourceHeader"]}
{"id": "C84", "title": "What a document says of itself and of its groups", "statement": "A document says one thing of itself, which the parser returns with exactly the warnings that belong to it, in order: the pairs of all lines 'key: value' of its metadata paragraphs, in order; its name, the header behind the metadata, trimmed; its description, the texts in front of the first section, each trimmed, with a blank line between; and its elements in order: resources, groups of resources (with their name, descriptions and resources), groups of data structures. Reported are keys repeated in a paragraph, paragraphs with lines that are no pairs, groups of a name already taken, ignored nodes, and a description without a name. If names are required, there is an error exactly if there is no name. If nothing is reported, the names of groups differ, all lines of metadata are pairs and the keys of a paragraph differ. The resources among the elements, in groups or not, are all resources of the document, in order.", "quantifier": "for all documents (any list of blocks inside a source) that have an outline, with names required or not", "why_tests_cant": "metadata, texts, groups and resources in any number and order; what is repeated depends on everything before", "anchors": ["packages/apib-parser/src/snowcrash/BlueprintParser.h: processSignature, processNestedSection, finalize, parseMetadata, isResourceGroupDuplicate", "packages/apib-parser/src/snowcrash/ResourceGroupParser.h", "packages/apib-parser/src/snowcrash/SectionProcessor.h: processDescription", "packages/apib-parser/src/snowcrash/CodeBlockUtility.h: keyValueFromLine"]}
{"id": "C85", "title": "Descriptions and relations of resources and actions", "statement": "Each resource of a document and each of its actions has one description, its texts trimmed, with a blank line between; and each action one relation, that of its last item 'Relation: name' that is one: the word, a colon, and a name of small letters, digits, points and dashes that begins with a letter, or nothing. Exactly the other relation items, and everything behind the first block of one, are reported, in order, and a relation an action of the same resource had before. Whatever is written, a relation is such a name or empty; if nothing is reported, every relation item has the form and holds one block, and no two actions of a resource have the same relation. These words belong to the resources and actions read with their requests: as many resources, each with as many actions.", "quantifier": "for all documents (any list of blocks inside a source) that have an outline", "why_tests_cant": "texts, relation items, actions and resources in any number and order; what a relation item means depends on those before", "anchors": ["packages/apib-parser/src/snowcrash/RelationParser.h", "packages/apib-parser/src/snowcrash/ActionParser.h: processNestedSection, findRelation", "packages/apib-parser/src/snowcrash/ResourceParser.h: processAction, processNestedAction", "packages/apib-parser/src/snowcrash/BlueprintUtility.h: MatchRelation", "packages/apib-parser/src/snowcrash/SectionProcessor.h: processDescription"]}
{"id": "C86", "title": "Parameters of resources and actions", "statement": "Each action of a document has the parameters of all its 'Parameters' items, in order, of one name the one defined last; so no two have one name. Each resource has those of each of its items one behind the other. Exactly the parameters that are no variables of the path are reported: of a resource, in its path; of an action, in its own path or else in that of its resource. If nothing is reported, every parameter is a variable of its path, except those of endpoints without a name. Reading ends.", "quantifier": "for all documents (any list of blocks inside a source, nested to any depth) that have an outline, and all states of the tables of named types", "why_tests_cant": "items, parameters, actions and resources in any number and order; which parameter remains and what is reported depends on all items before and on two paths", "anchors": ["packages/apib-parser/src/snowcrash/ResourceParser.h: processAction, processParameters", "packages/apib-parser/src/snowcrash/ActionParser.h: processNestedSection, finalize", "packages/apib-parser/src/snowcrash/ParametersParser.h"]}
{"id": "C87", "title": "Attributes of resources and actions", "statement": "Of the resources and actions of a document that have at most one 'Attributes' item, exactly those with one have attributes, and they are those of their own item; only if a type with the name of the resource exists already, it has none and this is reported. Attributes of a resource with a name get this name, with its header as their place, and may refer to themselves by it; those of a resource without a name and of actions have no name. None is without a type. If nothing is reported, no attributes are left out. Reading ends.", "quantifier": "for all documents (any list of blocks inside a source, nested to any depth) that have an outline, all states of the tables of named types, and all sets of types that exist already", "why_tests_cant": "items, actions and resources in any number and order, attributes nested to any depth; whose they are and what they are called depends on the items and headers around", "anchors": ["packages/apib-parser/src/snowcrash/ResourceParser.h: processNestedSection", "packages/apib-parser/src/snowcrash/ActionParser.h: processNestedSection", "packages/apib-parser/src/snowcrash/AttributesParser.h"]}
{"id": "C88", "title": "Requests without a body", "statement": "A request is reported to have an empty message body exactly if it has no body, its attributes say nothing (none of its attribute items has a type, type attributes, members or a description), it does not refer to a model that is not defined yet, and either a Content-Length or a Transfer-Encoding header with a value promises a body, or it has no headers and its parameter items (in the short form those of the model it refers to) define no parameter. In the short form it has no attributes. The report names the length, or else the encoding, and is about the item. It comes last, and nothing else is reported at the end of a request.", "quantifier": "for all list items of requests inside a source, nested to any depth, all sources, tables of base types and models", "why_tests_cant": "sections of a request in any number and order, attributes and parameters nested to any depth; whether they say something depends on everything in them", "anchors": ["packages/apib-parser/src/snowcrash/PayloadParser.h: checkRequest, processNestedSection", "packages/apib-parser/src/snowcrash/MSON.cc: NamedType::empty", "packages/apib-parser/src/snowcrash/AttributesParser.h", "packages/apib-parser/src/snowcrash/ParametersParser.h"]}
{"id": "C89", "title": "Names, methods and paths in headers", "statement": "The header of a resource is read in exactly one way: a path, or a method and a path, give the path and no name; a name and in brackets a path, or a method and a path, give the name without the white space around it and the path. The path goes on to the end of the line (of the brackets), whatever is in it. The header of an action is read in exactly one way: a method, perhaps with a path, gives the method and no name; a name and in brackets a method, perhaps with a path, give the name without the white space around it, the method and the path; of several such brackets the last are meant. Every header taken for a resource has a path, unless white space follows its brackets; every header taken for an action has a method; all other headers give nothing.", "quantifier": "for all header texts", "why_tests_cant": "texts of any length with any characters; which of several readings a regular expression takes depends on the whole text", "anchors": ["packages/apib-parser/src/snowcrash/ResourceParser.h: processSignature, matchNamedResourceHeader", "packages/apib-parser/src/snowcrash/ActionParser.h: actionHTTPMethodAndName", "packages/apib-parser/src/snowcrash/posix/RegexMatch.cc"]}
