{
 "claims": [
  {
   "property": "C01",
   "status": "proved",
   "theorems": [
    "C01_name_hash_is_murmur3",
    "C01_data_hash_is_murmur3",
    "C01_hash_range"
   ],
   "note": "MurmurHash3 model equals an independently written reference for every byte string and seed."
  },
  {
   "property": "C02",
   "status": "proved",
   "theorems": [
    "C02_one_word_apart_never_collide",
    "C02_short_names_never_collide",
    "C02_mixhashes_injective_in_value",
    "C02_mixhashes_injective_in_seed",
    "C02_mixhashes_defined"
   ],
   "note": "Injectivity of every mixing step modulo 2^32; collisions are impossible for names differing in one aligned word, for names of at most four bytes, and in either argument of MixHashes."
  },
  {
   "property": "C03",
   "status": "proved",
   "theorems": [
    "C03_find_primitive",
    "C03_get_name",
    "C03_huge_array_refuted"
   ],
   "note": "Arrays up to 2^30 entries; above that the midpoint overflows int (refuted theorem)."
  },
  {
   "property": "C04",
   "status": "proved",
   "theorems": [
    "C04_find_overloaded",
    "C04_overload_set"
   ],
   "note": "Arrays up to 2^30 entries."
  },
  {
   "property": "C05",
   "status": "proved",
   "theorems": [
    "C05_export_then_load",
    "C05_export_succeeds",
    "C05_first_byte_refuted"
   ],
   "note": "Image bytes, schema tables and relocations written then loaded; pointer to the first byte becomes null (refuted theorem)."
  },
  {
   "property": "C06",
   "status": "proved",
   "theorems": [
    "C06_foreign_rejected",
    "C06_truncated_rejected",
    "C06_short_rejected"
   ],
   "note": "Header checks, short files and every truncation of a saved file."
  },
  {
   "property": "C07",
   "status": "proved",
   "theorems": [
    "C07_what_a_failed_load_keeps",
    "C07_frees_everything_refuted"
   ],
   "note": "Exact list of leaked blocks; the wish that everything is freed is refuted by a witness."
  },
  {
   "property": "C08",
   "status": "proved",
   "theorems": [
    "C08_success_keeps_one_block"
   ],
   "note": "One block stays, fresh, and destroying the database frees it."
  },
  {
   "property": "C09",
   "status": "proved",
   "theorems": [
    "C09_rebased",
    "C09_not_rebased",
    "C09_owner",
    "C09_global_namespace_refuted"
   ],
   "note": "Owner of the global namespace is never set: refuted theorem included; the tables themselves are proved."
  },
  {
   "property": "C10",
   "status": "proved",
   "theorems": [
    "C10_derives_from",
    "C10_cyclic_never_returns"
   ],
   "note": "Termination with depth at most the number of types on acyclic graphs; a cyclic graph never returns."
  },
  {
   "property": "C11",
   "status": "proved",
   "theorems": [
    "C11_value_name_found",
    "C11_value_name_absent"
   ],
   "note": "First match specification."
  },
  {
   "property": "C12",
   "status": "proved",
   "theorems": [
    "C12_read_iterator",
    "C12_write_iterator",
    "C12_zero_size_refuted"
   ],
   "note": "Element size at least one and count*size below 2^64; zero-sized elements trap (refuted theorem)."
  },
  {
   "property": "C13",
   "status": "proved",
   "theorems": [
    "C13_contents",
    "C13_history",
    "C13_empty_first_write_refuted",
    "C13_seek_traps"
   ],
   "note": "Plain histories give the exact concatenation; general histories with Alloc and SeekRel refine a position map. Totals up to two thirds of 2^32. Empty first write on a default-constructed buffer is undefined (refuted theorem)."
  },
  {
   "property": "C14",
   "status": "proved",
   "theorems": [
    "C14_growth_terminates",
    "C14_capacity_0_refuted",
    "C14_capacity_1_refuted",
    "C14_wrap_refuted"
   ],
   "note": "Exact statement; capacities 0, 1 and wrapping shown never to terminate."
  },
  {
   "property": "C15",
   "status": "proved",
   "theorems": [
    "C15_write_then_read",
    "C15_read_traps",
    "C15_read_at_traps",
    "C15_seek_traps",
    "C15_seek_underflow_refuted"
   ],
   "note": "Round trip and exact trap conditions; unchecked negative seek shown by a witness."
  },
  {
   "property": "C16",
   "status": "proved",
   "theorems": [
    "C16_next_token",
    "C16_cut_exponent",
    "C16_all_tokens",
    "C16_reads_past_end_refuted"
   ],
   "note": "every input below 2 GB (positions are 32-bit); strtod is modelled by the number of characters it takes"
  },
  {
   "property": "C17",
   "status": "proved",
   "theorems": [
    "C17_document",
    "C17_token_is_spelled",
    "C17_number_at_end_refuted",
    "C17_wrong_escape_refuted",
    "C17_stray_exponent_refuted"
   ],
   "note": "the bits of a decimal's text are a parameter (strtod); completeness over layouts, soundness per token"
  },
  {
   "property": "C18",
   "status": "proved",
   "theorems": [
    "C18_text",
    "C18_wide_negative_refuted",
    "C18_reads_back"
   ],
   "note": "Model: SaveInteger with its 20-byte buffer, and the JSON lexer. C18_wide_negative_refuted shows the overflow for every value of -10^18 or below."
  },
  {
   "property": "C19",
   "status": "proved",
   "theorems": [
    "C19_text",
    "C19_reads_back"
   ],
   "note": "SaveUnsignedInteger and SaveHexInteger against decimal and hexadecimal text, read back with the lexer."
  },
  {
   "property": "C20",
   "status": "proved",
   "theorems": [
    "C20_table",
    "C20_load",
    "C20_load_bool",
    "C20_round_trip",
    "C20_other_type_refuted"
   ],
   "note": "All builtin types. C20_other_type_refuted is the hash-modulo-47 collision finding."
  },
  {
   "property": "C21",
   "status": "proved",
   "theorems": [
    "C21_round_trip",
    "C21_saves_a_document"
   ],
   "note": "SaveJSON's text is a document and loading it restores every carried byte and no other; any types, objects and flags. Container classes, custom serialisers and mapped pointers are outside the statement"
  },
  {
   "property": "C22",
   "status": "proved",
   "theorems": [
    "C22_document",
    "C22_others_ignored",
    "C22_rest_kept"
   ],
   "note": "LoadJSON of any document equals storing its members in order; others ignored; frame of untouched bytes"
  },
  {
   "property": "C23",
   "status": "proved",
   "theorems": [
    "C23_whole_members",
    "C23_cut",
    "C23_always_reported_refuted"
   ],
   "note": "Any accepted text and any cut of any document; the claim that every cut is reported is refuted"
  },
  {
   "property": "C24",
   "status": "proved",
   "theorems": [
    "C24_lossless",
    "C24_loaded",
    "C24_any_union_refuted"
   ],
   "note": "All enums and strings; values overlapping a multi-bit constant refuted"
  },
  {
   "property": "C25",
   "status": "proved",
   "theorems": [
    "C25_round_trip",
    "C25_self_pointer_refuted"
   ],
   "note": "Round trip for all type descriptions and objects under the stated conditions; refuted for plain self pointers"
  },
  {
   "property": "C26",
   "status": "proved",
   "theorems": [
    "C26_versions"
   ],
   "note": "All pairs of versions that agree in kinds, arrayness and array element types"
  },
  {
   "property": "C27",
   "status": "proved",
   "theorems": [
    "C27_changed_element",
    "C27_exact_skip_refuted"
   ],
   "note": "Exact position given; the exact skip is refuted"
  },
  {
   "property": "C28",
   "status": "proved",
   "theorems": [
    "C28_finite_map",
    "C28_found_iff_live"
   ],
   "note": "Histories of additions with fresh non-zero ids and removals of live objects, at most 2^29 live at once."
  },
  {
   "property": "C29",
   "status": "proved",
   "theorems": [
    "C29_terminates"
   ],
   "note": ""
  },
  {
   "property": "C30",
   "status": "proved",
   "theorems": [
    "C30_single",
    "C30_recursive"
   ],
   "note": "Groups nested as a finite tree; the iterator's own stack array is modelled with its growth."
  },
  {
   "property": "C31",
   "status": "proved",
   "theorems": [
    "C31_innermost"
   ],
   "note": ""
  },
  {
   "property": "C32",
   "status": "proved",
   "theorems": [
    "C32_one_id",
    "C32_two_ids",
    "C32_longer_paths",
    "C32_three_ids_refuted",
    "C32_no_ids_refuted"
   ],
   "note": "Reworded after the finding: three or more ids look up intermediate ids in the receiver (refuted theorem), zero ids read out of bounds."
  },
  {
   "property": "C33",
   "status": "proved",
   "theorems": [
    "C33_merge_idempotent",
    "C33_nan_refuted"
   ],
   "note": "Finding: NaN float attributes are appended again on every merge (C33_nan_refuted)."
  },
  {
   "property": "C34",
   "status": "proved",
   "theorems": [
    "C34_merge_is_the_union",
    "C34_fails_only_on_collision"
   ],
   "note": "Also shows merging stops exactly when one hash stands for two texts."
  },
  {
   "property": "C35",
   "status": "proved",
   "theorems": [
    "C35_definition_wins",
    "C35_definition_stays",
    "C35_every_class_is_there"
   ],
   "note": "Over every sequence of well-formed databases merged into an empty one."
  },
  {
   "property": "C36",
   "status": "proved",
   "theorems": [
    "C36_overloads_are_the_union",
    "C36_any_order",
    "C36_what_is_compared"
   ],
   "note": "All eight overloadable tables; every permutation also succeeds. Equality is the code's own Equals (names by hash; a function's address is not compared)."
  },
  {
   "property": "C37",
   "status": "proved",
   "theorems": [
    "C37_round_trip",
    "C37_exact",
    "C37_reading_ends",
    "C37_negative_refuted",
    "C37_empty_text_refuted"
   ],
   "note": "printf/sscanf of floats are parameters of the theorem; findings: negative and ten-digit integers are mangled, enum sizes are replaced by 4, an empty text value crashes the reader"
  },
  {
   "property": "C38",
   "status": "proved",
   "theorems": [
    "C38_missing_refused",
    "C38_version_decides",
    "C38_other_version_refused",
    "C38_unreadable_version",
    "C38_header_not_required_refuted"
   ],
   "note": "finding: the database header is not required, files without a version line are accepted"
  },
  {
   "property": "C39",
   "status": "proved",
   "theorems": [
    "C39_round_trip",
    "C39_foreign_refused",
    "C39_missing_refused",
    "C39_repeated_text_refuted",
    "C39_long_name_refuted",
    "C39_short_file"
   ],
   "note": "Column-by-column packing driven by the metadata tables; repeated texts and long names shown unreadable by witnesses; files under eight bytes make the check read uninitialised memory."
  },
  {
   "property": "C40",
   "status": "proved",
   "theorems": [
    "C40_as_written",
    "C40_unlexed",
    "C40_blank",
    "C40_any_tokens",
    "C40_every_text",
    "C40_tokens_unique",
    "C40_trailing_comma_refuted",
    "C40_capital_x_refuted"
   ],
   "note": "Lexing and parsing are specified by relations on texts (AttrSpec.v) and the parser is proved to follow them for every text; sscanf of floats is a parameter. The trailing comma and the capital X are findings with witnesses."
  },
  {
   "property": "C41",
   "status": "proved",
   "theorems": [
    "C41_itohex_digits",
    "C41_round_trip",
    "C41_hextoi_any"
   ],
   "note": ""
  },
  {
   "property": "C42",
   "status": "proved",
   "theorems": [
    "C42_children",
    "C42_parent",
    "C42_global",
    "C42_orphans_listed_refuted"
   ],
   "note": "export_ok assembles all passes; arrays, parents, global namespace; orphan finding refuted form beside it"
  },
  {
   "property": "C43",
   "status": "proved",
   "theorems": [
    "C43_sorted",
    "C43_found",
    "C43_bases_sorted_refuted"
   ],
   "note": "sorted arrays + lookups through the FindPrimitive model of C03; base arrays refuted"
  },
  {
   "property": "C44",
   "status": "proved",
   "theorems": [
    "C44_flags",
    "C44_replicate_reaches"
   ],
   "note": "bitwise characterisation of flags; acyclic inheritance (shallow) needed, cyclic graphs recurse forever"
  },
  {
   "property": "C45",
   "status": "proved",
   "theorems": [
    "C45_typed",
    "C45_global_namespace_refuted"
   ],
   "note": "classes and namespaces; global namespace refuted"
  },
  {
   "property": "C46",
   "status": "proved",
   "theorems": [
    "C46_return"
   ],
   "note": "first parameter called return split off"
  },
  {
   "property": "C47",
   "status": "proved",
   "theorems": [
    "C47_history",
    "C47_lifetimes",
    "C47_in_place",
    "C47_sixteen_refuted"
   ],
   "note": "Memory as bytes at addresses the allocator chooses; constructors and destructors are any functions on memory. Finding: sixteen parameters (C47_sixteen_refuted)."
  },
  {
   "property": "C48",
   "status": "proved",
   "theorems": [
    "C48_visits",
    "C48_paths",
    "C48_depth",
    "C48_pointers"
   ],
   "note": "What container iterators find is a function of type and address. Finding: references are visited as if they were the object (C48_reference)."
  },
  {
   "property": "C49",
   "status": "proved",
   "theorems": [
    "C49_spelling_only",
    "C49_one_parameter_apart",
    "C49_chained_hash",
    "C49_defined"
   ],
   "note": "Hash-level injectivity at one position; the hash of the spelled type is the modelled MurmurHash3."
  },
  {
   "property": "C50",
   "status": "proved",
   "theorems": [
    "C50_returns_the_name",
    "C50_names_stay",
    "C50_table_content",
    "C50_collision_traps",
    "C50_zero_hash_refuted"
   ],
   "note": "Stated with the finding: identifiers hashing to zero lose their name."
  },
  {
   "property": "C51",
   "status": "proved",
   "theorems": [
    "C51_cpp",
    "C51_h",
    "C51_long_names_refuted"
   ],
   "note": "Generated text read back as blocks of code lines. C51_long_names_refuted: names of 500 characters give cut lines."
  },
  {
   "property": "C52",
   "status": "proved",
   "theorems": [
    "C52_names"
   ],
   "note": "name text image and GetName lookup"
  },
  {
   "property": "C53",
   "status": "proved",
   "theorems": [
    "C53_write_iterator_destroy",
    "C53_read_iterator_destroy_iff",
    "C53_read_iterator_unused_refuted"
   ],
   "note": "WriteIterator always safe; exact condition for ReadIterator, with the unsafe case exhibited (refuted theorem)."
  },
  {
   "property": "C54",
   "status": "proved",
   "theorems": [
    "C54_create_destroy",
    "C54_refused",
    "C54_zero_id_traps"
   ],
   "note": "Constructor call abstracted to the object it makes."
  },
  {
   "property": "C55",
   "status": "proved",
   "theorems": [
    "C55_decimal_text",
    "C55_ten_digits_refuted"
   ],
   "note": "Stated with the finding: ten-digit values lose their last digit."
  },
  {
   "property": "C56",
   "status": "proved",
   "theorems": [
    "C56_replace",
    "C56_replaced_unique",
    "C56_empty_pattern_refuted"
   ],
   "note": "Stated with the finding: an empty pattern loops forever."
  },
  {
   "property": "C57",
   "status": "proved",
   "theorems": [
    "C57_token",
    "C57_long_token_refuted"
   ],
   "note": "Stated with the finding: the terminator of a token that fills the buffer is written out of bounds."
  },
  {
   "property": "C58",
   "status": "proved",
   "theorems": [
    "C58_lines",
    "C58_every_file_has_lines",
    "C58_startswith",
    "C58_skip_whitespace",
    "C58_last_line_refuted"
   ],
   "note": "Stated with the finding: an unterminated last line is dropped."
  },
  {
   "property": "C59",
   "status": "proved",
   "theorems": [
    "C59_hex_floats",
    "C59_saves"
   ],
   "note": "float/double conversions are parameters; for float the conversion round trip is a hypothesis on the value."
  },
  {
   "property": "C60",
   "status": "proved",
   "theorems": [
    "C60_custom_reader",
    "C60_custom_pair"
   ],
   "note": "Any load_vbin function"
  },
  {
   "property": "C61",
   "status": "proved",
   "theorems": [
    "C61_only_the_object",
    "C61_ends",
    "C61_ends_refuted",
    "C61_in_bounds_refuted"
   ],
   "note": "Frame for arbitrary data; termination and bounds for data without top bits; both refuted in general"
  },
  {
   "property": "C62",
   "status": "proved",
   "theorems": [
    "C62_payload"
   ],
   "note": "payload, type references and template arguments"
  },
  {
   "property": "C63",
   "status": "proved",
   "theorems": [
    "C63_constructors"
   ],
   "note": "class and template type constructors"
  },
  {
   "property": "C64",
   "status": "proved",
   "theorems": [
    "C64_containers"
   ],
   "note": "container infos"
  },
  {
   "property": "C65",
   "status": "proved",
   "theorems": [
    "C65_bases",
    "C65_derives"
   ],
   "note": "base arrays"
  },
  {
   "property": "C66",
   "status": "proved",
   "theorems": [
    "C66_attributes"
   ],
   "note": "attribute text and primitive attributes"
  },
  {
   "property": "C67",
   "status": "proved",
   "theorems": [
    "C67_arguments",
    "C67_too_few",
    "C67_not_an_array"
   ],
   "note": "Finding: separators unchecked (C67_separator)."
  },
  {
   "property": "C68",
   "status": "proved",
   "theorems": [
    "C68_forward",
    "C68_orphans_refuted"
   ],
   "note": "C68_orphans_refuted: a class in an orphan namespace is not declared."
  },
  {
   "property": "C69",
   "status": "proved",
   "theorems": [
    "C69_gate",
    "C69_again",
    "C69_text_refuted"
   ],
   "note": "C69_text_refuted: only hashes are compared."
  },
  {
   "property": "C70",
   "status": "proved",
   "theorems": [
    "C70_exported_database_loads"
   ],
   "note": "SaveCppExport's schemas and AddPointers calls are modelled against the structure declarations; sizes and offsets are computed from the declarations. That the exporter builds images meeting image_ok is a stated hypothesis (met by the concrete C70_witness)."
  },
  {
   "property": "C71",
   "status": "proved",
   "theorems": [
    "C71_piece",
    "C71_plain",
    "C71_template",
    "C71_names_refuted"
   ],
   "note": "parse_ok for any signature; exact names for plain and nested-template forms; other forms refuted by witness"
  },
  {
   "property": "C72",
   "status": "proved",
   "theorems": [
    "C72_free",
    "C72_scoped",
    "C72_frame",
    "C72_defined",
    "C72_types_refuted",
    "C72_static_refuted",
    "C72_long_refuted"
   ],
   "note": "plain parameter types; the types GCC writes with const are refuted; frame and buffer safety for any signature"
  },
  {
   "property": "C73",
   "status": "proved",
   "theorems": [
    "C73_class",
    "C73_get_type",
    "C73_addresses_refuted",
    "C73_templates_refuted"
   ],
   "note": "class functions and GetType; sscanf/demangler trusted"
  },
  {
   "property": "C74",
   "status": "proved",
   "theorems": [
    "C74_no_section",
    "C74_addresses",
    "C74_functions",
    "C74_function_found",
    "C74_defined",
    "C74_empty_refuted",
    "C74_long_symbol_refuted"
   ],
   "note": "sscanf and the demangler are arbitrary functions; MSVC and Mac readers not modelled"
  },
  {
   "property": "C75",
   "status": "proved",
   "theorems": [
    "C75_scan_records",
    "C75_one_way"
   ],
   "note": "C75_scan_records, C75_one_way."
  },
  {
   "property": "C76",
   "status": "proved",
   "theorems": [
    "C76_recorded_iff_declared"
   ],
   "note": "C76_recorded_iff_declared."
  },
  {
   "property": "C77",
   "status": "proved",
   "theorems": [
    "C77_source_order"
   ],
   "note": "C77_source_order."
  },
  {
   "property": "C78",
   "status": "proved",
   "theorems": [
    "C78_declared_once",
    "C78_recorded_iff_declared"
   ],
   "note": "C78_declared_once, C78_recorded_iff_declared."
  },
  {
   "property": "C79",
   "status": "proved",
   "theorems": [
    "C79_containers",
    "C79_requested"
   ],
   "note": "C79_containers, C79_requested."
  },
  {
   "property": "C80",
   "status": "proved",
   "theorems": [
    "C80_template_types",
    "C80_four_arguments_refuted",
    "C80_const_argument_refuted"
   ],
   "note": "C80_template_types; findings C80_four_arguments_refuted, C80_const_argument_refuted."
  },
  {
   "property": "C81",
   "status": "proved",
   "theorems": [
    "C81_inheritance",
    "C81_left_behind_refuted"
   ],
   "note": "C81_inheritance; finding C81_left_behind_refuted."
  },
  {
   "property": "C82",
   "status": "proved",
   "theorems": [
    "C82_attributes",
    "C82_duplicates_refuted"
   ],
   "note": "C82_attributes; finding C82_duplicates_refuted."
  },
  {
   "property": "C83",
   "status": "proved",
   "theorems": [
    "C83_functions_complete",
    "C83_parameters_belong",
    "C83_void_pointer_refuted"
   ],
   "note": "C83_functions_complete, C83_parameters_belong; finding C83_void_pointer_refuted."
  },
  {
   "property": "C84",
   "status": "proved",
   "theorems": [
    "C84_scan_ends",
    "C84_recursive_base_refuted"
   ],
   "note": "C84_scan_ends; finding C84_recursive_base_refuted."
  },
  {
   "property": "C85",
   "status": "proved",
   "theorems": [
    "C85_scan_to_file",
    "C85_scan_to_text_file"
   ],
   "note": "Binary and text files; composition of an invariant of the scan with C39 and C37."
  },
  {
   "property": "C86",
   "status": "proved",
   "theorems": [
    "C86_merged_iff_declared",
    "C86_first_declared",
    "C86_class_defined",
    "C86_attributes",
    "C86_templates_and_bases",
    "C86_merging_succeeds"
   ],
   "note": "Composition of C76-C82 with C33-C36; the hypotheses are limits of the merge (C33)."
  },
  {
   "property": "C87",
   "status": "proved",
   "theorems": [
    "C87_exportable",
    "C87_functions",
    "C87_classes",
    "C87_loose_union_refuted",
    "C87_shared_name_refuted"
   ],
   "note": "Composition of C76-C86 with C42-C66; the two failing cases are theorems C87_loose_union_refuted and C87_shared_name_refuted."
  },
  {
   "property": "C88",
   "status": "proved",
   "theorems": [
    "C88_ends",
    "C88_only_fields",
    "C88_undefined",
    "C88_assert",
    "C88_defined",
    "C88_long_array_refuted",
    "C88_big_number_refuted"
   ],
   "note": "For every text, by induction on the text that is left; the two failing cases are theorems C88_long_array_refuted and C88_big_number_refuted."
  },
  {
   "property": "C89",
   "status": "proved",
   "theorems": [
    "C89_format",
    "C89_read_back",
    "C89_extension_refuted",
    "C89_unopenable_refuted"
   ],
   "note": "Findings: C89_extension_refuted (three-character names), C89_unopenable_refuted."
  },
  {
   "property": "C90",
   "status": "proved",
   "theorems": [
    "C90_merges",
    "C90_refuses",
    "C90_missing",
    "C90_exit",
    "C90_options_last_refuted"
   ],
   "note": "Finding: C90_options_last_refuted."
  },
  {
   "property": "C91",
   "status": "proved",
   "theorems": [
    "C91_exports",
    "C91_exit",
    "C91_success_refuted"
   ],
   "note": "The map reader, the log text and the image are parameters here; they are the subjects of C71-C74 and C70. Finding: C91_success_refuted."
  },
  {
   "property": "C92",
   "status": "proved",
   "theorems": [
    "C92_end_to_end",
    "C92_negative_refuted",
    "C92_twice_refuted"
   ],
   "note": "Findings: C92_negative_refuted, C92_twice_refuted."
  },
  {
   "property": "C93",
   "status": "proved",
   "theorems": [
    "C93_well_formed",
    "C93_loads",
    "C93_any_attribute_refuted"
   ],
   "note": "Joins the export model (C42-C66) with the image model (C70). Finding: C93_any_attribute_refuted."
  },
  {
   "property": "C94",
   "status": "proved",
   "theorems": [
    "C94_tables",
    "C94_objects",
    "C94_parents",
    "C94_members",
    "C94_constructors",
    "C94_arrays",
    "C94_roots",
    "C94_flags",
    "C94_names",
    "C94_containers"
   ],
   "note": "End to end over export, save and load. Text values of attributes must consist of bytes; numbers are as their member is wide."
  },
  {
   "property": "C95",
   "status": "proved",
   "theorems": [
    "C95_load",
    "C95_global_namespace",
    "C95_tables",
    "C95_objects",
    "C95_parents",
    "C95_members",
    "C95_constructors",
    "C95_arrays",
    "C95_roots",
    "C95_flags",
    "C95_names",
    "C95_containers"
   ],
   "note": "End to end over export, save and load. The Database is an address; the pointer of the global namespace stays null (C95_global_namespace)."
  },
  {
   "property": "C96",
   "status": "proved",
   "theorems": [
    "C96_primitives",
    "C96_children",
    "C96_global",
    "C96_names",
    "C96_lists"
   ],
   "note": "End to end over export, save, load and the search itself, on bytes. C03 and C04 are about the searches on any sorted array."
  },
  {
   "property": "C97",
   "status": "proved",
   "theorems": [
    "C97_derives_from",
    "C97_value_name"
   ],
   "note": "End to end over export, save, load and the walks on bytes. The source database must have no cycle of base types (exportable)."
  },
  {
   "property": "C98",
   "status": "proved",
   "theorems": [
    "C98_blocks",
    "C98_no_leak",
    "C98_destroy",
    "C98_load_once",
    "C98_failed_load",
    "C98_loaded_lives",
    "C98_look_ups"
   ],
   "note": "Histories are calls that ran to the end; a Load of a hostile file that passes the header can also stop at an assert or be undefined (C06)."
  },
  {
   "property": "C99",
   "status": "proved",
   "theorems": [
    "C99_map",
    "C99_base",
    "C99_no_base",
    "C99_functions",
    "C99_data",
    "C99_address_refuted",
    "C99_const_refuted",
    "C99_long_refuted"
   ],
   "note": "The undecoration by DbgHelp is a parameter. The exact theorem is for functions whose types are single words with unsigned, const, * and &; the others are for any file. Addresses of 64-bit images, const member functions and long symbols are refuted beside it."
  },
  {
   "property": "C100",
   "status": "proved",
   "theorems": [
    "C100_references",
    "C100_no_leak",
    "C100_defined",
    "C100_asserts",
    "C100_loaded",
    "C100_failed",
    "C100_reload_refuted"
   ],
   "note": "The system's loader is a parameter that counts references; what a library exports is taken not to change while it is open."
  },
  {
   "property": "C101",
   "status": "proved",
   "theorems": [
    "C101_stdout",
    "C101_defined",
    "C101_file",
    "C101_witness",
    "C101_lost_refuted",
    "C101_mixed_refuted",
    "C101_indent_refuted"
   ],
   "note": "Formatting is a parameter: calls carry the formatted text. Logs are named by the address of their name, as in the program."
  },
  {
   "property": "C102",
   "status": "proved",
   "theorems": [
    "C102_lists",
    "C102_asserts",
    "C102_unstable",
    "C102_freed",
    "C102_shared",
    "C102_twice",
    "C102_witness",
    "C102_shared_witness",
    "C102_copy_refuted",
    "C102_sized_refuted"
   ],
   "note": "Elements are one value each. Arrays over memory of the caller are left out. C102_shared and C102_twice are of one shallow copy made after any history; histories that go on with shared arrays are not refined to lists. C102_copy_refuted, C102_sized_refuted: findings."
  },
  {
   "property": "C103",
   "status": "proved",
   "theorems": [
    "C103_map",
    "C103_functions",
    "C103_no_symbols",
    "C103_other",
    "C103_no_line_refuted",
    "C103_long_refuted"
   ],
   "note": "sscanf and the demangler are parameters."
  }
 ]
}