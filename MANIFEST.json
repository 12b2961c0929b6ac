{
 "claims": [
  {
   "property": "C01",
   "status": "proved",
   "theorems": [
    "C01_json_lossless",
    "C01_json_is_utf8",
    "C01_json_injective"
   ],
   "note": ""
  },
  {
   "property": "C02",
   "status": "proved",
   "theorems": [
    "C02_packed_equals_pretty"
   ],
   "note": ""
  },
  {
   "property": "C03",
   "status": "proved",
   "theorems": [
    "C03_json_no_control",
    "C03_yaml_no_control"
   ],
   "note": "Hypothesis: number literals of the tree are JSON numbers."
  },
  {
   "property": "C04",
   "status": "proved",
   "theorems": [
    "C04_encode_decode",
    "C04_decode_sequence",
    "C04_reencode"
   ],
   "note": ""
  },
  {
   "property": "C05",
   "status": "proved",
   "theorems": [
    "C05_step_defined",
    "C05_loop_total"
   ],
   "note": ""
  },
  {
   "property": "C06",
   "status": "proved",
   "theorems": [
    "C06_exact",
    "C06_replaced",
    "C06_refuted",
    "C06_shaped",
    "C06_truncated"
   ],
   "note": "C06_refuted: the documented promise is false of the code; C06_exact says for every byte string what it is read as."
  },
  {
   "property": "C07",
   "status": "proved",
   "theorems": [
    "C07_yaml_scalar_lossless"
   ],
   "note": ""
  },
  {
   "property": "C08",
   "status": "proved",
   "theorems": [
    "C08_yaml_lossless",
    "C08_keyword_keys_refuted"
   ],
   "note": "Lossless for keys that are no bare YAML keyword; every excluded key is shown to break the round trip."
  },
  {
   "property": "C09",
   "status": "proved",
   "theorems": [
    "C09_insert_appends_or_replaces",
    "C09_history",
    "C09_array_insert"
   ],
   "note": ""
  },
  {
   "property": "C10",
   "status": "proved",
   "theorems": [
    "C10_eq_is_same_document",
    "C10_equivalence",
    "C10_duplicates_symmetry_refuted"
   ],
   "note": "With duplicate keys symmetry fails (witness)."
  },
  {
   "property": "C11",
   "status": "proved",
   "theorems": [
    "C11_clone_all",
    "C11_clone_observably_equal",
    "C11_clone_flags"
   ],
   "note": ""
  },
  {
   "property": "C12",
   "status": "proved",
   "theorems": [
    "C12_equality_meaning",
    "C12_equivalence",
    "C12_equal_agree",
    "C12_names_ignored",
    "C12_null_pointer_refuted"
   ],
   "note": "Total on trees with no null pointer; with one, == dereferences it (witness)."
  },
  {
   "property": "C13",
   "status": "proved",
   "theorems": [
    "C13_dictionary",
    "C13_claim",
    "C13_append_refuted"
   ],
   "note": "For histories of set/erase/claim/clone-assign; the appending InfoElements::clone breaks uniqueness (witness)."
  },
  {
   "property": "C14",
   "status": "proved",
   "theorems": [
    "C14_source_maps_filtered",
    "C14_strip_only_maps"
   ],
   "note": ""
  },
  {
   "property": "C15",
   "status": "proved",
   "theorems": [
    "C15_denotation",
    "C15_layout",
    "C15_unique_members",
    "C15_text_reads_back"
   ],
   "note": ""
  },
  {
   "property": "C22",
   "status": "proved",
   "theorems": [
    "C22_members_unique",
    "C22_nonstring_keys_refuted"
   ],
   "note": "For string keys through addMember; non-string keys are not unified (witness)."
  },
  {
   "property": "C35",
   "status": "proved",
   "theorems": [
    "C35_positions",
    "C35_newline_terminated",
    "C35_last_line_refuted",
    "C35_zero_range_refuted",
    "C35_annotation"
   ],
   "note": "Exact for all ranges with positive end; on a last line without trailing newline the code reports other positions, and the range (0,0) reads before the index (witnesses)."
  },
  {
   "property": "C16",
   "status": "proved",
   "theorems": [
    "C16_null_source",
    "C16_codes_and_outputs",
    "C16_text_is_whole"
   ],
   "note": "Parser and conversion are arbitrary oracles subject to well_behaved."
  },
  {
   "property": "C17",
   "status": "proved",
   "theorems": [
    "C17_call",
    "C17_history",
    "C17_double_free_undefined"
   ],
   "note": ""
  },
  {
   "property": "C18",
   "status": "proved",
   "theorems": [
    "C18_parse_result",
    "C18_other_exception_refuted",
    "C18_code_zero_error_refuted"
   ],
   "note": "For conversions ending normally, in std::exception or in an Error with nonzero code; witnesses for the others."
  },
  {
   "property": "C19",
   "status": "proved",
   "theorems": [
    "C19_check"
   ],
   "note": ""
  },
  {
   "property": "C44",
   "status": "proved",
   "theorems": [
    "C44_warnings_once"
   ],
   "note": ""
  },
  {
   "property": "C45",
   "status": "proved",
   "theorems": [
    "C45_options",
    "C45_null_options_are_defaults"
   ],
   "note": ""
  },
  {
   "property": "C20",
   "status": "proved",
   "theorems": [
    "C20_objects",
    "C20_override_meaning",
    "C20_primitives",
    "C20_arrays",
    "C20_empty_base_array_refuted",
    "C20_kinds_rejected",
    "C20_unmergeable",
    "C20_select_replaced_refuted"
   ],
   "note": "For chains of well-formed elements; array items of a derived type are lost if the base array holds no value, and a derived member replaces a whole one-of that mentions its key (both witnessed)."
  },
  {
   "property": "C21",
   "status": "proved",
   "theorems": [
    "C21_enums",
    "C21_lasts_meaning"
   ],
   "note": ""
  },
  {
   "property": "C23",
   "status": "proved",
   "theorems": [
    "C23_root_ancestor",
    "C23_terminates",
    "C23_acyclic_terminates",
    "C23_only_mixin_errors",
    "C23_defined",
    "C23_diverges_refuted"
   ],
   "note": "Termination is proved for all registries whose types mention only rooted types inside their definitions; C23_diverges_refuted exhibits a registry outside that class on which the code loops forever."
  },
  {
   "property": "C24",
   "status": "proved",
   "theorems": [
    "C24_chain",
    "C24_expanded"
   ],
   "note": ""
  },
  {
   "property": "C25",
   "status": "proved",
   "theorems": [
    "C25_registry_is_a_map",
    "C25_empty_id_undefined"
   ],
   "note": "For elements whose string id holds a value (otherwise an assertion fails, witnessed)."
  },
  {
   "property": "C46",
   "status": "proved",
   "theorems": [
    "C46_closed",
    "C46_named_enum_refuted"
   ],
   "note": "For regular inputs; enumerations listed on an element that derives from a named enum are left unexpanded (witness)."
  },
  {
   "property": "C26",
   "status": "proved",
   "theorems": [
    "C26_add",
    "C26_mul",
    "C26_wraps_refuted"
   ],
   "note": "Within 32 bits; wrap-around and the confusion of 2^32-1 with infinity are exhibited."
  },
  {
   "property": "C28",
   "status": "proved",
   "theorems": [
    "C28_unique_keys",
    "C28_body_is_json",
    "C28_schema_is_json",
    "C28_schema_duplicates_refuted"
   ],
   "note": "Schemas may repeat names under \"properties\" and \"required\" (witness)."
  },
  {
   "property": "C29",
   "status": "proved",
   "theorems": [
    "C29_body_satisfies_schema",
    "C29_variable_name_refuted",
    "C29_one_of_refuted",
    "C29_fixed_array_refuted",
    "C29_empty_enum_refuted",
    "C29_empty_name_refuted",
    "C29_name_twice_refuted",
    "C29_bad_values_refuted"
   ],
   "note": "For the fragment described by ConformSpec.conform; each condition has a witness that shows what goes wrong without it."
  },
  {
   "property": "C30",
   "status": "proved",
   "theorems": [
    "C30_reduce_identity",
    "C30_reduce_misplaces_refuted"
   ],
   "note": ""
  },
  {
   "property": "C31",
   "status": "proved",
   "theorems": [
    "C31_fixed_key",
    "C31_self",
    "C31_empty_fixed_key",
    "C31_open_key"
   ],
   "note": ""
  },
  {
   "property": "C47",
   "status": "proved",
   "theorems": [
    "C47_body_terminates",
    "C47_schema_terminates",
    "C47_size_terminates"
   ],
   "note": ""
  },
  {
   "property": "C27",
   "status": "proved",
   "theorems": [
    "C27_size_is_count",
    "C27_constants",
    "C27_valueless_refuted",
    "C27_empty_arrays_refuted",
    "C27_optional_refuted",
    "C27_overflow_refuted",
    "C27_repeated_refuted"
   ],
   "note": "For the types CountSpec.counted describes (no overflow, disjoint enum entries, required members); outside, witnesses show wrong sizes."
  },
  {
   "property": "C32",
   "status": "proved",
   "theorems": [
    "C32_index",
    "C32_total",
    "C32_terminates",
    "C32_truncated_refuted",
    "C32_nul_refuted"
   ],
   "note": "For texts without NUL. A source ending inside a multi-byte sequence writes out of bounds (proved for every such text ending in C3); behind a NUL the entries stay 0."
  },
  {
   "property": "C33",
   "status": "proved",
   "theorems": [
    "C33_characters",
    "C33_characters_by_index",
    "C33_clamped",
    "C33_terminates",
    "C33_end_refuted",
    "C33_consecutive_refuted"
   ],
   "note": "The index based conversion reads out of bounds for an empty range at the end; the consecutive conversion converts nothing (witnesses)."
  },
  {
   "property": "C34",
   "status": "proved",
   "theorems": [
    "C34_covered",
    "C34_coalesced",
    "C34_ascending",
    "C34_blocks"
   ],
   "note": ""
  },
  {
   "property": "C49",
   "status": "proved",
   "theorems": [
    "C49_text",
    "C49_append",
    "C49_beyond_refuted"
   ],
   "note": ""
  },
  {
   "property": "C36",
   "status": "proved",
   "theorems": [
    "C36_reads",
    "C36_round_trip",
    "C36_total",
    "C36_stable",
    "C36_incomplete",
    "C36_round_trip_refuted",
    "C36_prefix_kept"
   ],
   "note": "Holds for media types with at most one parameter with a plain value; several parameters, escapes, empty values and values that are no names do not survive (witnesses). PEGTL's rules are modelled from its reference, its source is not in the repository."
  },
  {
   "property": "C37",
   "status": "proved",
   "theorems": [
    "C37_json",
    "C37_schema",
    "C37_schema_is_json",
    "C37_parameters"
   ],
   "note": ""
  },
  {
   "property": "C38",
   "status": "proved",
   "theorems": [
    "C38_ends",
    "C38_comparison",
    "C38_irreflexive",
    "C38_asymmetric",
    "C38_sorted",
    "C38_by_name",
    "C38_transitive_refuted",
    "C38_arrangement_refuted",
    "C38_oneof_refuted"
   ],
   "note": "Decided: the comparator is irreflexive and asymmetric but not transitive (A with a member of type C, B, C form a circle and have no sorted arrangement), so the sort is undefined; it is an order where dependencies agree with names. Types inside one-of and groups are not seen."
  },
  {
   "property": "C39",
   "status": "proved",
   "theorems": [
    "C39_nearest",
    "C39_ends",
    "C39_endless",
    "C39_accepted",
    "C39_accepted_refuted"
   ],
   "note": "Decided: ends with the nearest base type iff the chain of ancestors ends; never ends on circles. The parser lets circles of variable type names through (witness), none else."
  },
  {
   "property": "C50",
   "status": "proved",
   "theorems": [
    "C50_ends",
    "C50_ends_once",
    "C50_accepted",
    "C50_tables",
    "C50_errors",
    "C50_recursion_refused"
   ],
   "note": "Signature parsing is not modelled; identifiers are assumed not empty for acceptance."
  },
  {
   "property": "C51",
   "status": "proved",
   "theorems": [
    "C51_closed",
    "C51_answers",
    "C51_undefined_refuted",
    "C51_order_refuted"
   ],
   "note": "The closure and the answers are proved for all histories; that every undefined type is reported and that order does not matter are refuted with witnesses."
  },
  {
   "property": "C40",
   "status": "proved",
   "theorems": [
    "C40_tab",
    "C40_return",
    "C40_passed",
    "C40_nothing_parsed",
    "C40_malformed_refuted"
   ],
   "note": "Positions for all well-formed texts without NUL; malformed UTF-8 before the tab reads outside the source (witness), NUL stops the count."
  },
  {
   "property": "C41",
   "status": "proved",
   "theorems": [
    "C41_trim",
    "C41_trim_total",
    "C41_trim_info",
    "C41_trim_info_refuted",
    "C41_split",
    "C41_split_total",
    "C41_split_first",
    "C41_first_line",
    "C41_compare",
    "C41_two_new_lines",
    "C41_two_new_lines_refuted"
   ],
   "note": "Decided: trim length is negative for blank texts; two_new_lines reads out of bounds for the empty text and for a single line feed. \"C\" locale."
  },
  {
   "property": "C42",
   "status": "proved",
   "theorems": [
    "C42_closed",
    "C42_open",
    "C42_cases",
    "C42_wrapped",
    "C42_strip",
    "C42_strip_other",
    "C42_strip_refuted",
    "C42_end_refuted"
   ],
   "note": "All cases inside texts without NUL; refuted: text between two literals is lost by StripBackticks; a position at the end of the subject reads out of bounds."
  },
  {
   "property": "C43",
   "status": "proved",
   "theorems": [
    "C43_replaced",
    "C43_unique",
    "C43_none_left",
    "C43_none_left_refuted",
    "C43_endless"
   ],
   "note": ""
  },
  {
   "property": "C52",
   "status": "proved",
   "theorems": [
    "C52_exceptions",
    "C52_code"
   ],
   "note": "The parsing proper is a parameter of the model."
  },
  {
   "property": "C53",
   "status": "proved",
   "theorems": [
    "C53_colon",
    "C53_no_colon",
    "C53_invalid_name",
    "C53_no_name",
    "C53_gives",
    "C53_section",
    "C53_token_refuted",
    "C53_blank_refuted",
    "C53_empty"
   ],
   "note": "For lines without NUL; the POSIX regular expression is modelled by hand; header source maps are not modelled. Refuted: \"!\" is refused although a token may hold it; a range of whitespace only takes the rest of the source for a header line."
  },
  {
   "property": "C54",
   "status": "proved",
   "theorems": [
    "C54_number",
    "C54_boolean",
    "C54_string"
   ],
   "note": "literal_of is the specification's reading of a literal; C56-C59 say where it is used."
  },
  {
   "property": "C55",
   "status": "proved",
   "theorems": [
    "C55_sane",
    "C55_text",
    "C55_expansion"
   ],
   "note": ""
  },
  {
   "property": "C56",
   "status": "proved",
   "theorems": [
    "C56_member",
    "C56_structure",
    "C56_last_per_key"
   ],
   "note": ""
  },
  {
   "property": "C57",
   "status": "proved",
   "theorems": [
    "C57_value",
    "C57_property",
    "C57_structure",
    "C57_kind_settled",
    "C57_description_refuted"
   ],
   "note": "The description beside a value whose base type is an object is lost (witness)."
  },
  {
   "property": "C58",
   "status": "proved",
   "theorems": [
    "C58_member",
    "C58_structure"
   ],
   "note": ""
  },
  {
   "property": "C59",
   "status": "proved",
   "theorems": [
    "C59_member",
    "C59_structure"
   ],
   "note": ""
  },
  {
   "property": "C60",
   "status": "proved",
   "theorems": [
    "C60_one_of",
    "C60_mixin",
    "C60_group"
   ],
   "note": ""
  },
  {
   "property": "C61",
   "status": "proved",
   "theorems": [
    "C61_total",
    "C61_values_refuted",
    "C61_enumeration_refuted"
   ],
   "note": "Several values for a declared primitive throw; entries of one type name and two kinds are undefined (witnesses)."
  },
  {
   "property": "C62",
   "status": "proved",
   "theorems": [
    "C62_found",
    "C62_registered",
    "C62_succeeds",
    "C62_order",
    "C62_reserved"
   ],
   "note": ""
  },
  {
   "property": "C63",
   "status": "proved",
   "theorems": [
    "C63_expansion",
    "C63_accepted"
   ],
   "note": ""
  },
  {
   "property": "C64",
   "status": "proved",
   "theorems": [
    "C64_request",
    "C64_response",
    "C64_determined",
    "C64_method_refuted"
   ],
   "note": "C64_determined: the specification leaves nothing open. A request of an action without a method becomes a response with its name as status code (witness)."
  },
  {
   "property": "C65",
   "status": "proved",
   "theorems": [
    "C65_generated",
    "C64_request",
    "C64_response"
   ],
   "note": ""
  },
  {
   "property": "C66",
   "status": "proved",
   "theorems": [
    "C66_transactions",
    "C66_count"
   ],
   "note": ""
  },
  {
   "property": "C67",
   "status": "proved",
   "theorems": [
    "C67_document"
   ],
   "note": ""
  },
  {
   "property": "C68",
   "status": "proved",
   "theorems": [
    "C68_variables",
    "C68_last"
   ],
   "note": ""
  },
  {
   "property": "C69",
   "status": "proved",
   "theorems": [
    "C69_sound",
    "C69_reads_back",
    "C69_total",
    "C69_steps"
   ],
   "note": ""
  },
  {
   "property": "C70",
   "status": "proved",
   "theorems": [
    "C70_text"
   ],
   "note": "The parser proper (snowcrash) is arbitrary; the conversion is the modelled one."
  },
  {
   "property": "C48",
   "status": "proved",
   "theorems": [
    "C48_body",
    "C48_schema",
    "C48_size",
    "C48_expanded",
    "C48_generated"
   ],
   "note": ""
  },
  {
   "property": "C71",
   "status": "proved",
   "theorems": [
    "C71_total",
    "C71_sample_refuted",
    "C71_key_refuted",
    "C71_one_of_refuted",
    "C71_mixin_refuted"
   ],
   "note": "Without the conditions the claim is false of the model: a mixin in a sample, a typed variable property name in an inherited object, a one-of without alternatives and a mixin of an unknown type make generation assert (the last is caught earlier by the parser, which refuses undefined types)."
  },
  {
   "property": "C72",
   "status": "proved",
   "theorems": [
    "C72_cut_once",
    "C72_parts",
    "C72_warnings",
    "C72_silent",
    "C72_encoding_refuted",
    "C72_blame_refuted",
    "C72_rfc_refuted"
   ],
   "note": "The grammar differs from RFC 6570 and the hints are sometimes wrong: the _refuted theorems pin down where."
  },
  {
   "property": "C73",
   "status": "proved",
   "theorems": [
    "C73_tree",
    "C73_items",
    "C73_within",
    "C73_text",
    "C73_cover",
    "C73_calls",
    "C73_within_refuted",
    "C73_text_refuted",
    "C73_cover_refuted",
    "C73_empty_refuted"
   ],
   "note": "The Markdown library (sundown, not in the repository) is arbitrary: the theorems range over all documents it may announce, C73_calls over all sequences of calls. The refuted theorems: the place of a paragraph added to an item may end behind the source, and with several ranges it may be somewhere else; lines in front of the first node belong to no node; a source map without ranges is undefined behaviour."
  },
  {
   "property": "C74",
   "status": "proved",
   "theorems": [
    "C74_signature",
    "C74_undefined",
    "C74_empty_refuted",
    "C74_nothing_lost",
    "C74_parts"
   ],
   "note": "The places (source maps) of the warnings are left out. C74_empty_refuted: empty attributes are read out of bounds (attribute[length - 1])."
  },
  {
   "property": "C75",
   "status": "proved",
   "theorems": [
    "C75_regex",
    "C75_items",
    "C75_payloads",
    "C75_type_sections",
    "C75_headers",
    "C75_no_keyword",
    "C75_named_types",
    "C75_order",
    "C75_nested",
    "C75_nested_members",
    "C75_code_block",
    "C75_order_refuted",
    "C75_two_readings_refuted",
    "C75_prefix_refuted"
   ],
   "note": "The patterns are read from the sources by a model of regcomp; matching is that of POSIX extended regular expressions in the C locale, which is trusted. The ambiguous texts (a model whose name begins with another keyword, samples and defaults that end with an address in brackets, a method with a path) are excluded in C75_order and C75_nested; C75_order_refuted shows the order matters there."
  },
  {
   "property": "C76",
   "status": "proved",
   "theorems": [
    "C76_outline",
    "C76_only",
    "C76_ends",
    "C76_iff",
    "C76_wrong"
   ],
   "note": "The contents of list items are read by parsers that are left open (any function that ends, throws or fails), and so is the base type a named type's header resolves to. Blocks are the children of the Markdown root; headers hold no line break (the Markdown parser makes none). Examples in the same file show what may surprise: a list item 'Sample: x' in a named type or a paragraph below '## Properties' refuses the whole document, a model ends an action, a named endpoint below a resource is an action of that resource."
  },
  {
   "property": "C77",
   "status": "proved",
   "theorems": [
    "C77_item",
    "C77_unique",
    "C77_code_body",
    "C77_reference",
    "C77_pending",
    "C77_attributes_refuted",
    "C77_second_body_refuted",
    "C77_blank_reference_refuted",
    "C77_dangling_refuted"
   ],
   "note": "Header lines are those of C53, keywords those of C75; what the parsers of attributes and parameters report is left open (any function that gives a report). Excluded by hypothesis, and shown to fail: blank references, texts behind a body that are empty or one line feed. Ranges lie in the source, the ranges of a headers section are lines of it. Source maps of the result are left out."
  },
  {
   "property": "C78",
   "status": "proved",
   "theorems": [
    "C78_document",
    "C78_references",
    "C78_models",
    "C78_order_refuted",
    "C78_first_error_refuted",
    "C78_chain_refuted"
   ],
   "note": "Composed with the outline (C76) and the list items (C77). Descriptions, relations, parameters, attributes and the warnings about URI templates are left out; the resources of a document are one list (the duplicate check looks at all of them). The functions that read name, method and path from a header are used as they are. C78_order_refuted: a text behind a reference to a later model is lost, behind one to an earlier model it is kept. C78_first_error_refuted: of two errors the first is lost. C78_chain_refuted: a model that refers to a later model stays empty, without an error."
  },
  {
   "property": "C79",
   "status": "proved",
   "theorems": [
    "C79_value",
    "C79_specification",
    "C79_definition",
    "C79_property",
    "C79_name",
    "C79_nested",
    "C79_link",
    "C79_link_to",
    "C79_bits",
    "C79_tables",
    "C79_arrays_refuted",
    "C79_brackets_refuted",
    "C79_empty_refuted",
    "C79_star_refuted",
    "C79_types_refuted",
    "C79_lone_refuted"
   ],
   "note": "Source maps are left out. The dependencies are entered by add_dependency, whose answers are those of C51. The name of a property in emphasis is itself a signature and has undefined behaviour exactly where C74 says so. Refuted: `array[array[A]]` is read like `array[A]`, without a warning; `[A]` that is no link is no type, without a warning; `array[]` has one nested type without a name; `*` in backticks is a variable; of two types the first is kept even if it is a typo; a property named `*` reads its whole node as the value of its name."
  },
  {
   "property": "C80",
   "status": "proved",
   "theorems": [
    "C80_member",
    "C80_one_of",
    "C80_section",
    "C80_attributes",
    "C80_ends",
    "C80_unique",
    "C80_report",
    "C80_typed",
    "C80_named",
    "C80_items",
    "C80_primitive",
    "C80_description",
    "C80_primitive_refuted",
    "C80_description_refuted",
    "C80_one_of_refuted",
    "C80_items_refuted",
    "C80_several_refuted",
    "C80_header_refuted"
   ],
   "note": "The four readers are equal to a grammar (MembersSpec) that has no fuel and no state; source maps are kept as byte ranges. Named types (MSONNamedTypeParser) use the same readers and are not covered here. Refuted: a sample behind an item of a primitive type is lost; properties behind a description are swallowed; a one-of in an array ends it; 'Items' in an object are skipped with all below; several values of a primitive are one value and lose the source map of the member; a header that names a section inside a list item throws and ends the whole parse."
  },
  {
   "property": "C81",
   "status": "proved",
   "theorems": [
    "C81_line",
    "C81_items",
    "C81_traits",
    "C81_old",
    "C81_new",
    "C81_parameters",
    "C81_ends",
    "C81_unique",
    "C81_report",
    "C81_last",
    "C81_names",
    "C81_default",
    "C81_eligible",
    "C81_eligible_total",
    "C81_use_refuted",
    "C81_tick_refuted",
    "C81_open_refuted",
    "C81_empty_refuted",
    "C81_properties_refuted",
    "C81_name_refuted"
   ],
   "note": "The readers are equal to a grammar (ParamsSpec) without fuel and state; source maps are kept as byte ranges, the one of the flag 'required' (never read by drafter) is left out; removeParameter advances an iterator it has just invalidated (undefined by the letter of the standard), which the model ignores. Refuted: of 'required, optional' the second is the type; a lone backtick is a parameter; unclosed attributes make a parameter while text behind closed ones makes none; empty attributes are undefined behaviour (C74); 'Properties' ends a parameter without a remark; any text above a default is a parameter."
  },
  {
   "property": "C82",
   "status": "proved",
   "theorems": [
    "C82_named_type",
    "C82_group",
    "C82_ends",
    "C82_unique",
    "C82_report",
    "C82_rest",
    "C82_typed",
    "C82_items",
    "C82_primitive",
    "C82_names",
    "C82_group_rest",
    "C82_headers",
    "C82_twice_refuted",
    "C82_nameless_refuted",
    "C82_text_refuted",
    "C82_item_refuted",
    "C82_primitive_refuted"
   ],
   "note": "The readers are equal to a grammar (MsonTypesSpec, on the member grammar of MembersSpec) without fuel and state; the tables of named types are those preprocessing has filled (C51) and are ranged over; headers have no line feed (as the Markdown parser makes them). Refuted: two structures of one group may have one name without any remark here; a type without a name clashes with any resource without attributes; words below a section header, and a section that is a list item right below a named type, make the parser throw; the samples of a primitive type are lost."
  },
  {
   "property": "C83",
   "status": "proved",
   "theorems": [
    "C83_declarations",
    "C83_ends",
    "C83_unique",
    "C83_accepted",
    "C83_kinds",
    "C83_twice",
    "C83_parsed",
    "C83_group",
    "C83_action_refuted",
    "C83_endpoint_refuted",
    "C83_emphasis_refuted"
   ],
   "note": "The loop with its context variables is equal to a specification that looks at all nodes before (LookaheadSpec: the last header that begins or ends a section), composed with the theorems of C50 on the tables; headers have no line feed (as the Markdown parser makes them); acceptance and kinds are for declarations with names. The behaviour is undefined where that of a signature is (C74). Refuted: a header with a method in a group of data structures ends what is declared but not what is parsed; attributes of a resource whose header has a method are not declared; a type in emphasis is declared under its text with the emphasis."
  },
  {
   "property": "C84",
   "status": "proved",
   "theorems": [
    "C84_document",
    "C84_ends",
    "C84_name",
    "C84_no_warnings",
    "C84_resources",
    "C84_keys_refuted",
    "C84_ignoring_refuted",
    "C84_hint_refuted"
   ],
   "note": "The two section processors on the parts of the outline (C76) are equal to a specification without state (PrefaceSpec); the elements are connected to the resources C78 reads. Of resources and data structures only the place among the elements is kept here (C78, C82 say the rest); source maps are left out. Refuted: a key in two paragraphs of metadata is not reported; metadata that is said to be ignored is kept, and of keys given twice in it nothing is said; the hint how to write several actions is only given where there is no resource (the helper isResourcePresent is inverted), and speaks of the resource ''."
  },
  {
   "property": "C85",
   "status": "proved",
   "theorems": [
    "C85_document",
    "C85_ends",
    "C85_relation",
    "C85_no_warnings",
    "C85_actions",
    "C85_erased_refuted",
    "C85_twice_refuted",
    "C85_lines_refuted"
   ],
   "note": "The parts of the outline (C76) read in turn are equal to a specification without state (RelationsSpec). Names, paths, headers, models and transactions are C78's; attributes and parameters C80's and C81's; source maps are left out. Refuted: a relation item without a name silently removes the relation before it; of two relations the last is kept without a warning; lines below the first are not read."
  },
  {
   "property": "C86",
   "status": "proved",
   "theorems": [
    "C86_document",
    "C86_ends",
    "C86_defined",
    "C86_names",
    "C86_no_remarks",
    "C86_actions",
    "C86_twice_refuted",
    "C86_endpoint_refuted",
    "C86_empty_refuted"
   ],
   "note": "The parts of the outline (C76) are read in turn; single items are C81's. For every state before, as attributes, which also change the dependencies of types, are not read here. Refuted: two items of one resource define one parameter twice without a remark; parameters of an endpoint without a name are never looked up in its path; an item without a parameter behind another of the same action is not reported."
  },
  {
   "property": "C87",
   "status": "proved",
   "theorems": [
    "C87_document",
    "C87_ends",
    "C87_defined",
    "C87_named",
    "C87_kept",
    "C87_actions",
    "C87_left_out_refuted",
    "C87_endpoint_refuted"
   ],
   "note": "The parts of the outline (C76) are read in turn; single items are C80's. A second item of one resource or action is read into the attributes that are there: this is not modelled (the reader stops), and the statement leaves it out. Whether a type exists already is a parameter: the theorems hold for every answer. Parameters and payloads, which also change the dependencies of types, are not read here: the theorems hold for every state before. Refuted: attributes that are left out still add dependencies to the type that exists; an endpoint with a name and attributes is no type."
  },
  {
   "property": "C88",
   "status": "proved",
   "theorems": [
    "C88_request",
    "C88_short",
    "C88_attributes",
    "C88_parameters",
    "C88_no_parameter",
    "C88_attributes_enough"
   ],
   "note": "The payload parser is C77's with its open question (are the attributes, are the parameters empty?) answered by the readers of C80 and C81. Headers, body and references are those of C77. If a request has several attribute items, each is read on its own (the parser reads a second one into the attributes that are there, which only differs if it takes the name of a type away). C77's assumptions on the item are kept; for the short form the parameters of the models it may refer to are taken to be items inside the source."
  },
  {
   "property": "C89",
   "status": "proved",
   "theorems": [
    "C89_resource",
    "C89_resource_once",
    "C89_resource_none",
    "C89_action",
    "C89_action_once",
    "C89_action_none",
    "C89_taken_resource",
    "C89_taken_action",
    "C89_trailing_refuted",
    "C89_trailing"
   ],
   "note": "The functions are those that C78, C84, C85, C86 and C87 use for the headers in the outline; their regular expressions are matched as POSIX leftmost-longest with the first part as long as possible (Regex.v). A null char ends the text. That a path in front of brackets is a path to the end, that blanks before a closing bracket belong to the path and that the path of an action without a name is not kept are computed in C89_forms and C89_action_forms."
  }
 ]
}