{
 "claims": [
  {
   "property": "C01",
   "status": "proved",
   "theorems": [
    "C01_varuint32_roundtrip",
    "C01_varuint32_too_big",
    "C01_varint32_roundtrip"
   ],
   "note": ""
  },
  {
   "property": "C02",
   "status": "proved",
   "theorems": [
    "C02_varuint_readers",
    "C02_decode_injective_refuted"
   ],
   "note": "Exact characterisation of both readers on every buffer; decoding is not injective (refuted)."
  },
  {
   "property": "C03",
   "status": "proved",
   "theorems": [
    "C03_native_binary_roundtrip",
    "C03_convert_roundtrip",
    "C03_depth_monotone"
   ],
   "note": "Values decoded into fresh objects; recursion bounded by an arbitrary depth."
  },
  {
   "property": "C04",
   "status": "proved",
   "theorems": [
    "C04_native_decode_sound",
    "C04_decoded_value_reencodes",
    "C04_hazards",
    "C04_no_hazard",
    "C04_hazards_refuted"
   ],
   "note": "Buffers below 2^32 bytes; hazards (undefined behaviour) are enumerated in decode_hazards."
  },
  {
   "property": "C05",
   "status": "proved",
   "theorems": [
    "C05_two_pass",
    "C05_two_pass_key",
    "C05_two_pass_json",
    "C05_two_pass_json_fails",
    "C05_two_pass_format_json"
   ],
   "note": "convert_to_bin, convert_to_key, convert_to_json and format_json: the size pass and the write pass agree."
  },
  {
   "property": "C06",
   "status": "proved",
   "theorems": [
    "C06_name_text_roundtrip",
    "C06_name_text_injective",
    "C06_c_string",
    "C06_c_string_roundtrip"
   ],
   "note": ""
  },
  {
   "property": "C07",
   "status": "proved",
   "theorems": [
    "C07_strict_parser",
    "C07_strict_errors",
    "C07_parsers_agree"
   ],
   "note": "Includes the compile-time literal parser."
  },
  {
   "property": "C08",
   "status": "proved",
   "theorems": [
    "C08_name_order"
   ],
   "note": ""
  },
  {
   "property": "C09",
   "status": "proved",
   "theorems": [
    "C09_json_name",
    "C09_json_name_roundtrip",
    "C09_injective_refuted"
   ],
   "note": "Hash fallback modelled byte for byte; the read is not injective (refuted)."
  },
  {
   "property": "C10",
   "status": "proved",
   "theorems": [
    "C10_symbol_code_roundtrip",
    "C10_symbol_code_parser",
    "C10_symbol_code_ctor",
    "C10_is_valid",
    "C10_is_valid_exact_below_2_56",
    "C10_is_valid_all_64_bit_refuted",
    "C10_symbol_roundtrip",
    "C10_symbol_parser",
    "C10_symbol_ctor",
    "C10_symbol_order",
    "C10_alphabetical_order_refuted",
    "C10_suffix_refuted"
   ],
   "note": "is_valid ignores the eighth byte after seven letters (refuted for raw 64-bit codes). The parsers skip leading blanks and keep the precision modulo 256."
  },
  {
   "property": "C11",
   "status": "proved",
   "theorems": [
    "C11_asset_text",
    "C11_extended_text",
    "C11_int64_min"
   ],
   "note": "INT64_MIN is undefined behaviour in the printer."
  },
  {
   "property": "C12",
   "status": "proved",
   "theorems": [
    "C12_asset_parser",
    "C12_asset_parser_exact",
    "C12_overflow_detected_refuted"
   ],
   "note": "Numbers beyond 64 bits wrap silently (refuted)."
  },
  {
   "property": "C13",
   "status": "proved",
   "theorems": [
    "C13_neg",
    "C13_extended_neg",
    "C13_failed_assign",
    "C13_add",
    "C13_sub",
    "C13_mul",
    "C13_div",
    "C13_compare",
    "C13_extended_contracts",
    "C13_extended_add",
    "C13_json_assets_in_range_refuted",
    "C13_failed_add_keeps_operand_refuted",
    "C13_failed_mul_keeps_operand",
    "C13_constructor",
    "C13_extended_constructor",
    "C13_set_amount",
    "C13_from_string",
    "C13_validity_is_kept",
    "C13_ratio",
    "C13_extended_sub",
    "C13_extended_assign",
    "C13_extended_compare"
   ],
   "note": "Exact for operands in range; the JSON reader does not check the range (refuted), and a failed += leaves the operand modified (refuted)."
  },
  {
   "property": "C14",
   "status": "proved",
   "theorems": [
    "C14_calendar_is_gregorian",
    "C14_day_to_date",
    "C14_date_to_day",
    "C14_print",
    "C15_day_number"
   ],
   "note": "Printing for every microsecond count from the year 0 to the end of the int64 range (year modulo 10000)."
  },
  {
   "property": "C15",
   "status": "proved",
   "theorems": [
    "C15_time_point",
    "C15_time_point_sec",
    "C15_block_timestamp",
    "C15_parse_seconds",
    "C15_parse_microseconds",
    "C15_parse_strict",
    "C15_time_point_2038_refuted",
    "C15_time_point_all_refuted",
    "C15_invalid_dates_rejected_refuted"
   ],
   "note": "Round trip with two's complement int arithmetic; in standard C++ parsing dates from 2038-01-20 on is undefined (refuted), invalid dates are accepted (refuted)."
  },
  {
   "property": "C16",
   "status": "proved",
   "theorems": [
    "C16_slot_roundtrip",
    "C16_round_down",
    "C16_from_seconds",
    "C16_next",
    "C16_time_point_sec",
    "C16_before_2000_refuted"
   ],
   "note": "Times before 2000 do not round down (refuted)."
  },
  {
   "property": "C17",
   "status": "proved",
   "theorems": [
    "C17_unhex",
    "C17_roundtrip",
    "C17_from_json_hex",
    "C17_hex_of_unhex"
   ],
   "note": ""
  },
  {
   "property": "C18",
   "status": "proved",
   "theorems": [
    "C18_base58_bytes_roundtrip",
    "C18_base58_text_roundtrip",
    "C18_public_key_text",
    "C18_signature_text",
    "C18_private_key_text",
    "C18_ecc_size"
   ],
   "note": "Keys whose binary form has at most 2^31 bytes (all ECC keys)."
  },
  {
   "property": "C19",
   "status": "proved",
   "theorems": [
    "C19_public_key_accepts",
    "C19_signature_accepts",
    "C19_private_key_accepts",
    "C19_legacy_private_key_accepts",
    "C19_checked_body_wellformed",
    "C19_base58_rejects",
    "C19_base58_alphabet_refuted",
    "C19_unique_text_refuted",
    "C19_wif_checksum_refuted"
   ],
   "note": "Texts below 2^30 characters. Findings: NUL is a base58 digit, bytes after the key are ignored, legacy private keys are not checksummed."
  },
  {
   "property": "C20",
   "status": "proved",
   "theorems": [
    "C20_integer_text",
    "C20_other_text",
    "C20_accepts_exactly",
    "C20_defined"
   ],
   "note": "8 to 128 bit, signed and unsigned."
  },
  {
   "property": "C21",
   "status": "proved",
   "theorems": [
    "C21_print",
    "C21_roundtrip"
   ],
   "note": ""
  },
  {
   "property": "C22",
   "status": "proved",
   "theorems": [
    "C22_decimal_to_binary",
    "C22_decimal_to_binary_errors",
    "C22_binary_to_decimal",
    "C22_roundtrip",
    "C22_twos_complement",
    "C22_uint128",
    "C22_int128",
    "C22_uint128_accepts",
    "C22_int128_accepts",
    "C22_empty_and_minus_zero_refuted"
   ],
   "note": "Finding: the 128 bit readers accept the empty text as zero and refuse -0."
  },
  {
   "property": "C23",
   "status": "proved",
   "theorems": [
    "C23_order",
    "C23_two_pass"
   ],
   "note": "Order of values: vcmp (TypedBin.v); NaNs are ordered outside the infinities."
  },
  {
   "property": "C24",
   "status": "proved",
   "theorems": [
    "C24_prefix_free",
    "C24_concatenation",
    "C24_injective"
   ],
   "note": "-0 and 0 share one key."
  },
  {
   "property": "C25",
   "status": "proved",
   "theorems": [
    "C25_output_is_a_json_string",
    "C25_sanitized",
    "C25_reads_back"
   ],
   "note": "to_json(string_view) with rapidjson's UTF-8 validation table; the output is a JSON text (grammar of RFC 8259), printable, well formed UTF-8, and denotes the contents with invalid bytes replaced."
  },
  {
   "property": "C26",
   "status": "proved",
   "theorems": [
    "C26_load_total",
    "C26_lookup",
    "C26_lookup_error",
    "C26_meaning_unique",
    "C26_actions_and_tables"
   ],
   "note": "loading always ends in a table faithful to the definition or in an ABI error; lookups after any history find exactly the texts that have a meaning"
  },
  {
   "property": "C27",
   "status": "proved",
   "theorems": [
    "C27_accepts",
    "C27_rejects",
    "C27_names",
    "C27_error_means",
    "C27_only_fault",
    "C27_faults",
    "C27_only_the_limit",
    "C27_limit_depends_on_names"
   ],
   "note": "accepted iff well formed, up to the order dependence of the depth limit shown by C27_limit_depends_on_names"
  },
  {
   "property": "C28",
   "status": "proved",
   "theorems": [
    "C28_decodes_every_value",
    "C28_decodes_exactly",
    "C28_outcome",
    "C28_deterministic",
    "C28_empty_items_refuted"
   ],
   "note": "The explicit stack machine of bin_to_json is modelled step by step. C28_decodes_exactly is an exact characterisation (extension fields last); C28_outcome holds without that restriction. C28_empty_items_refuted: arrays of items without contents overflow an int counter."
  },
  {
   "property": "C29",
   "status": "proved",
   "theorems": [
    "C29_json_to_bin",
    "C29_bin_json_bin"
   ],
   "note": "for every loaded ABI, type and value in the class plain (everything but sub-millisecond times, invalid symbols, the amount -2^63, non UTF-8 strings, floats strtod does not read back, see C51) both converters invert bin_to_json; strtod/strtof is an argument"
  },
  {
   "property": "C30",
   "status": "proved",
   "theorems": [
    "C30_key_order",
    "C30_agrees_with_ordered"
   ],
   "note": "same result (bytes or error) for every order of the members at every level; whatever the ordered converter accepts the reorderable one accepts with the same bytes"
  },
  {
   "property": "C31",
   "status": "proved",
   "theorems": [
    "C31_ordered_exactly",
    "C31_reorderable_exactly",
    "C31_ordered_fields",
    "C31_reorderable_fields",
    "C31_gap_refuted",
    "C31_unknown_refuted"
   ],
   "note": "exact sets of accepted documents; refuted parts: with an extension in front of a required field the ordered converter drops the required field, the reorderable converter ignores unknown members"
  },
  {
   "property": "C32",
   "status": "proved",
   "theorems": [
    "C32_bin_to_json_ends",
    "C32_bin_to_json_stack",
    "C32_json_to_bin_ends",
    "C32_reorderable_ends",
    "C32_json_to_bin_stack",
    "C32_reorderable_stack"
   ],
   "note": "all three converters, every input; no undefined behaviour but the overflow in the date functions"
  },
  {
   "property": "C33",
   "status": "proved",
   "theorems": [
    "C33_output_is_json",
    "C33_reads_back",
    "C33_ext_first_refuted"
   ],
   "note": "Holds when extension fields come last; C33_ext_first_refuted shows that otherwise the output need not be JSON."
  },
  {
   "property": "C34",
   "status": "proved",
   "theorems": [
    "C34_null_context",
    "C34_deterministic",
    "C34_error_text",
    "C34_failure_keeps_abis",
    "C34_every_call_ends",
    "C34_error_not_cleared_refuted",
    "C34_unloaded_text_refuted"
   ],
   "note": "Every history of the 15 C calls, arguments below 2^30 bytes. Not modelled: out of memory, lifetime of returned pointers. Findings: the error text is not cleared by a successful call, bin_to_json does not say that a contract is not loaded."
  },
  {
   "property": "C35",
   "status": "proved",
   "theorems": [
    "C35_depends_on_definition",
    "C35_abi_stays",
    "C35_abi_is_unique",
    "C35_not_loaded",
    "C35_set_abi_hex",
    "C35_loads",
    "C35_formats_agree",
    "C35_second_abi_is_ignored",
    "C35_contracts_are_independent",
    "C35_json_to_bin",
    "C35_bin_to_json",
    "C35_type_names",
    "C35_error_text_history_refuted"
   ],
   "note": "Results never depend on the history beyond the definition of the first successful load; the error text for an unresolvable type does (refuted)."
  },
  {
   "property": "C36",
   "status": "proved",
   "theorems": [
    "C36_whole_input",
    "C36_extra_data",
    "C36_hex_to_json"
   ],
   "note": ""
  },
  {
   "property": "C37",
   "status": "proved",
   "theorems": [
    "C37_results",
    "C37_failure_leaves_nothing"
   ],
   "note": "Sizes below 2^31 (the getter returns int)."
  },
  {
   "property": "C38",
   "status": "proved",
   "theorems": [
    "C38_extract",
    "C38_construct",
    "C38_bytes_roundtrip",
    "C38_words_roundtrip",
    "C38_same_bytes",
    "C38_order",
    "C38_binary",
    "C38_json",
    "C38_padding_refuted"
   ],
   "note": "All sizes, all unsigned word types (1, 2, 4, 8, 16 bytes). Order and equality are those of the bytes if the padding is zero or absent (true for the three checksum types and everything made from bytes); C38_padding_refuted: otherwise not."
  },
  {
   "property": "C39",
   "status": "proved",
   "theorems": [
    "C39_unpack",
    "C39_binary",
    "C39_missing_bytes",
    "C39_extra_bytes",
    "C39_one_by_one",
    "C39_size_refuted"
   ],
   "note": "Every wire type of the native serialisation; might_not_exist members excluded for truncation. Findings: sizes beyond 32 bits differ between unpack and unpack_size."
  },
  {
   "property": "C40",
   "status": "proved",
   "theorems": [
    "C40_wire_format",
    "C40_self_delimiting",
    "C40_json",
    "C40_decode_total",
    "C40_status",
    "C40_unknown_status",
    "C40_sealed_lists",
    "C40_nesting_is_unbounded"
   ],
   "note": "All 111 types of the header are modelled; the theorems are about the 27 top level ones (the others are their parts). Sizes below 4 GiB. Findings: a status byte above 4 decodes but cannot be shown; trace nesting is not limited."
  },
  {
   "property": "C41",
   "status": "proved",
   "theorems": [
    "C41_writes_the_document",
    "C41_reads_exactly",
    "C41_reading_defined",
    "C41_roundtrip",
    "C41_nested_optional_refuted",
    "C41_repeated_key_appends"
   ],
   "note": "Native to_json/from_json over all nestings of scalars, vectors, optionals, variants and reflected structs. The unrestricted round trip is false for an engaged optional holding an empty one (C41_nested_optional_refuted); repeated keys append (C41_repeated_key_appends). Floats: the C library's printf/strtod are parameters."
  },
  {
   "property": "C42",
   "status": "proved",
   "theorems": [
    "C42_format_json"
   ],
   "note": "format_json against convert_to_json, all types with a writer, including the recursive ship types."
  },
  {
   "property": "C43",
   "status": "proved",
   "theorems": [
    "C43_binary_roundtrip",
    "C43_old_layout",
    "C43_binary_decode",
    "C43_json_exact",
    "C43_json_total",
    "C43_json_and_binary_agree",
    "C43_has_json_text",
    "C43_extensions_not_in_json_refuted"
   ],
   "note": "Binary layout, old layout, decoding of arbitrary bytes, JSON reading; refuted: extensions cannot be given in JSON"
  },
  {
   "property": "C44",
   "status": "proved",
   "theorems": [
    "C44_reads_every_document",
    "C44_accepts_only_json",
    "C44_white_space_is_irrelevant"
   ],
   "note": "rapidjson pull parser modelled state by state (its source is not in the checkout: modelled from the published library); complete and sound with respect to the RFC 8259 grammar. Lone low surrogate escapes are accepted (lax), the exponent limit is a simplification."
  },
  {
   "property": "C45",
   "status": "proved",
   "theorems": [
    "C45_unsigned_conversions",
    "C45_signed_conversions",
    "C45_operators",
    "C45_increment",
    "C45_binary"
   ],
   "note": ""
  },
  {
   "property": "C46",
   "status": "proved",
   "theorems": [
    "C46_name_length",
    "C46_name_parts",
    "C46_name_parts_no_dot"
   ],
   "note": ""
  },
  {
   "property": "C47",
   "status": "proved",
   "theorems": [
    "C47_streaming",
    "C47_digest_suffix",
    "C47_digest_size",
    "C47_right_constants",
    "C47_too_long"
   ],
   "note": "Little endian platform; pieces of 2^31 bytes or more are refused."
  },
  {
   "property": "C48",
   "status": "proved",
   "theorems": [
    "C48_struct_operators",
    "C48_extended_symbol"
   ],
   "note": "For members whose own operators are those of a total order (floats with NaN are not)."
  },
  {
   "property": "C49",
   "status": "proved",
   "theorems": [
    "C49_adds",
    "C49_again",
    "C49_bin_to_json",
    "C49_json_to_bin",
    "C49_names_stay",
    "C49_same_name_refuted"
   ],
   "note": "For the types for which add_type compiles (no keys, checksums, float128, bytes, pairs, enumerations); the conversions for types with native writers (no might_not_exist, no opaque). For what a failing add_type leaves see C62. The restriction to names that do not clash is needed: std::variant<int32_t,int8_t> and std::variant<int32_int8> get the same ABI name, and adding the second answers with the first (C49_same_name_refuted)."
  },
  {
   "property": "C50",
   "status": "proved",
   "theorems": [
    "C50_reload",
    "C50_conversions",
    "C50_of_a_loaded_definition",
    "C50_drops_the_rest",
    "C50_alias_tags_refuted"
   ],
   "note": "The variant-tag exception is needed: C50_alias_tags_refuted shows an abi whose exported and reloaded copy shows the same bytes under another tag and refuses the old text."
  },
  {
   "property": "C51",
   "status": "proved",
   "theorems": [
    "C51_double",
    "C51_float",
    "C51_not_finite",
    "C51_dtoa_special",
    "C51_reads_back",
    "C51_roundtrip",
    "C51_buffer_refuted"
   ],
   "note": "Finding: C51_buffer_refuted, a 25 character text in a 24 character buffer (about half of the doubles between -6e23 and -1e23). strtod/strtof are arguments assumed to round correctly; shortest output is not claimed (Grisu2 does not promise it)."
  },
  {
   "property": "C52",
   "status": "proved",
   "theorems": [
    "C52_members",
    "C52_other_types",
    "C52_typed",
    "C52_chooser",
    "C52_there_and_back",
    "C52_old_value",
    "C52_what_compiles",
    "C52_serialize_as",
    "C52_kinds_refuted",
    "C52_stale_refuted",
    "C52_variants_refuted",
    "C52_serialize_as_refuted"
   ],
   "note": "Overload resolution and static_assert are modelled as a compile-time predicate. Findings: the declared kind is hardly checked, elements a vector already had keep members the source does not set, a variant cannot be converted to itself, to_bin does not use serialize_as."
  },
  {
   "property": "C53",
   "status": "proved",
   "theorems": [
    "C53_run",
    "C53_lines",
    "C53_usage",
    "C53_help",
    "C53_numbers",
    "C53_texts_read_back",
    "C53_pipe",
    "C53_empty_argument_refuted",
    "C53_unsigned_refuted"
   ],
   "note": "The C library number parser and the stream formats are modelled in the C locale. Findings: an empty argument reads past a string_view; -1 and a leading 0 are taken as 2^64-1 and octal. Failures of the streams themselves are not modelled."
  },
  {
   "property": "C54",
   "status": "proved",
   "theorems": [
    "C54_outcome",
    "C54_fresh",
    "C54_overwritten",
    "C54_objects",
    "C54_values_are_objects",
    "C54_fresh_objects",
    "C54_retry",
    "C54_might_not_exist",
    "C54_checked_first",
    "C54_members_stopped",
    "C54_array_stopped",
    "C54_c_array_stopped",
    "C54_vector_stopped",
    "C54_list_stopped",
    "C54_set_stopped",
    "C54_map_stopped",
    "C54_optional_stopped",
    "C54_variant_stopped",
    "C54_string_stopped",
    "C54_varuint_stopped",
    "C54_stale_refuted",
    "C54_allocation_refuted"
   ],
   "note": "Findings: lists grow and maps keep old entries (C54_stale_refuted); five bytes allocate 2^32-1 strings before the error is found (C54_allocation_refuted). NaN keys and bool bytes other than 0/1 are undefined as in C04. serialize_as is C52."
  },
  {
   "property": "C55",
   "status": "proved",
   "theorems": [
    "C55_arguments",
    "C55_copies",
    "C55_histories",
    "C55_every_call_ends",
    "C55_lifetime",
    "C55_type_names_stay",
    "C55_text_ends",
    "C55_data_ends",
    "C55_error_ends",
    "C55_hex_chain",
    "C55_json_in_result_refuted"
   ],
   "note": "pointers carry the generation of the object they point into; refuted: json text inside the binary result"
  },
  {
   "property": "C56",
   "status": "proved",
   "theorems": [
    "C56_microseconds",
    "C56_time_point",
    "C56_to_seconds",
    "C56_units",
    "C56_there_and_back",
    "C56_difference_moves",
    "C56_time_point_sec",
    "C56_time_point_sec_back",
    "C56_mixed",
    "C56_conversion",
    "C56_mixed_difference",
    "C56_mixed_difference_refuted",
    "C56_order",
    "C56_conversions_monotone",
    "C56_limits",
    "C56_block_timestamp_maximum_refuted"
   ],
   "note": "Findings: block_timestamp::maximum() is 65535; time_point_sec - time_point truncates (overload resolution modelled by its result)."
  },
  {
   "property": "C57",
   "status": "proved",
   "theorems": [
    "C57_input",
    "C57_other",
    "C57_ends",
    "C57_deterministic"
   ],
   "note": ""
  },
  {
   "property": "C58",
   "status": "proved",
   "theorems": [
    "C58_outcome",
    "C58_same_outcome",
    "C58_objects",
    "C58_new_objects",
    "C58_vectors",
    "C58_vector_step",
    "C58_struct_step",
    "C58_optional_step",
    "C58_variant_step",
    "C58_members_kept",
    "C58_members_apart",
    "C58_replaced",
    "C58_scalars",
    "C58_roundtrip_used",
    "C58_retry",
    "C58_unchanged_refuted"
   ],
   "note": ""
  },
  {
   "property": "C59",
   "status": "proved",
   "theorems": [
    "C59_hash",
    "C59_short_texts",
    "C59_first_byte",
    "C59_hidden_bytes",
    "C59_published_refuted",
    "C59_collision_refuted"
   ],
   "note": ""
  },
  {
   "property": "C60",
   "status": "proved",
   "theorems": [
    "C60_same_reading",
    "C60_accepted_by_type",
    "C60_accepted_by_abi",
    "C60_same_refusal",
    "C60_block_vectors_refuted"
   ],
   "note": ""
  },
  {
   "property": "C61",
   "status": "proved",
   "theorems": [
    "C61_json_to_bin_size",
    "C61_json_to_bin_size_sharp",
    "C61_reorderable_size",
    "C61_reorderable_size_refuted",
    "C61_bin_to_json_size",
    "C61_bin_to_json_size_refuted",
    "C61_bin_to_json_items_refuted"
   ],
   "note": ""
  },
  {
   "property": "C62",
   "status": "proved",
   "theorems": [
    "C62_same_call",
    "C62_basic",
    "C62_references",
    "C62_retry_refuted"
   ],
   "note": ""
  },
  {
   "property": "C63",
   "status": "proved",
   "theorems": [
    "C63_bin_to_json",
    "C63_json_to_bin",
    "C63_json_to_bin_reorderable",
    "C63_outcome",
    "C63_json_calls",
    "C63_json_read",
    "C63_bin_written",
    "C63_bin_calls",
    "C63_bomb_stopped",
    "C63_reorderable_items",
    "C63_reorderable_calls_refuted"
   ],
   "note": ""
  },
  {
   "property": "C64",
   "status": "proved",
   "theorems": [
    "C64_first",
    "C64_every_load",
    "C64_history",
    "C64_lookup",
    "C64_same_declarations",
    "C64_same_as_one_load",
    "C64_types_stay",
    "C64_conversions_stay",
    "C64_succeeds",
    "C64_names_new",
    "C64_error_means",
    "C64_rollback_refuted",
    "C64_lookups_harmless_refuted"
   ],
   "note": ""
  },
  {
   "property": "C65",
   "status": "proved",
   "theorems": [
    "C65_independent",
    "C65_any_order",
    "C65_pointers",
    "C65_destroyed",
    "C65_foreign_arguments"
   ],
   "note": "calls are atomic steps: threads are not modelled"
  },
  {
   "property": "C66",
   "status": "proved",
   "theorems": [
    "C66_reported",
    "C66_create",
    "C66_uses",
    "C66_not_loaded",
    "C66_ordinary",
    "C66_again",
    "C66_results",
    "C66_every_call_ends",
    "C66_no_more",
    "C66_terminates",
    "C66_always_returns_refuted"
   ],
   "note": "the claim that a call which runs out of memory always returns is refuted; rapidjson's malloc is outside /repo"
  },
  {
   "property": "C67",
   "status": "proved",
   "theorems": [
    "C67_same_tokens",
    "C67_views_stay",
    "C67_terminated",
    "C67_unread",
    "C67_json_to_bin",
    "C67_set_abi",
    "C67_set_abi_refuted",
    "C67_unread_when_it_fails_refuted"
   ],
   "note": "the claim that abieos_set_abi never reads past its buffer is refuted for texts that are not UTF-8; rapidjson is modelled from its published source"
  },
  {
   "property": "C68",
   "status": "proved",
   "theorems": [
    "C68_documents",
    "C68_texts",
    "C68_deterministic",
    "C68_failed_call_takes_nothing",
    "C68_stream_functions",
    "C68_error_is_final_refuted"
   ],
   "note": "that an error is final is refuted for text behind the document; what the reader does after a syntax error inside a value is not modelled"
  },
  {
   "property": "C69",
   "status": "proved",
   "theorems": [
    "C69_reads",
    "C69_reads_inside",
    "C69_failed_read",
    "C69_writes",
    "C69_vector_and_size",
    "C69_encoding_in_memory",
    "C69_convert_to_bin",
    "C69_key_in_memory",
    "C69_convert_to_key",
    "C69_json_in_memory",
    "C69_pretty_in_memory",
    "C69_convert_to_json",
    "C69_format_json",
    "C69_write_inside_refuted"
   ],
   "note": "that nothing is written outside the buffer is proved for writes whose size added to the end of the buffer stays below 2^64, and refuted without that"
  }
 ]
}