{
 "claims": [
  {
   "property": "C01",
   "status": "proved",
   "theorems": [
    "C01_string_round_trip"
   ],
   "note": "Every byte string, every printer configuration, both outputs and both sources."
  },
  {
   "property": "C02",
   "status": "proved",
   "theorems": [
    "C02_string_token"
   ],
   "note": "Every byte string and configuration; strings inside other values are covered by C20_document_partial."
  },
  {
   "property": "C03",
   "status": "proved",
   "theorems": [
    "C03_unicode_escape_decodes"
   ],
   "note": "every surrounding legal text; surrogate pairs around it restricted to odd planes (C04)"
  },
  {
   "property": "C04",
   "status": "partial",
   "theorems": [
    "C04_surrogate_pair_decodes_partial",
    "C04_surrogate_pair_decodes_refuted"
   ],
   "note": "true for odd planes, false for even planes"
  },
  {
   "property": "C05",
   "status": "partial",
   "theorems": [
    "C05_string_contents_partial",
    "C05_every_position_partial",
    "C05_string_contents_refuted"
   ],
   "note": "exactly the contents with a lone escaped low surrogate are wrongly accepted"
  },
  {
   "property": "C06",
   "status": "proved",
   "theorems": [
    "C06_inplace_copy_safe",
    "C06_inplace_result"
   ],
   "note": ""
  },
  {
   "property": "C07",
   "status": "proved",
   "theorems": [
    "C07_request",
    "C07_accepted_is_grammatical",
    "C07_grammatical_is_accepted",
    "C07_lexemes_of_text"
   ],
   "note": "The state table delivers DocEnd exactly for the lexeme sequences of one JSON value; both directions, every source."
  },
  {
   "property": "C08",
   "status": "proved",
   "theorems": [
    "C08_tokens_well_nested"
   ],
   "note": "Every prefix of the token stream is well nested."
  },
  {
   "property": "C09",
   "status": "proved",
   "theorems": [
    "C09_error_is_final"
   ],
   "note": "After DocEnd or an error every further request delivers Error."
  },
  {
   "property": "C10",
   "status": "proved",
   "theorems": [
    "C10_pushback_lifo"
   ],
   "note": "the Error token marks an empty slot and cannot be pushed back"
  },
  {
   "property": "C11",
   "status": "partial",
   "theorems": [
    "C11_whitespace_partial",
    "C11_whitespace_strict",
    "C11_whitespace_refuted"
   ],
   "note": "For every type, mode and source, at documents whose skipped strings are skipped exactly; unconditional in Strict and Exact. False in Weak otherwise (witness)."
  },
  {
   "property": "C12",
   "status": "partial",
   "theorems": [
    "C12_documents_end_partial",
    "C12_malformed_end_partial",
    "C12_null_elements_refuted",
    "C12_documents_end_refuted",
    "C12_bson_stream_ends",
    "C12_bson_string_ends_partial",
    "C12_bson_string_refuted",
    "C12_yaml_ends"
   ],
   "note": "JSON: every document ends in success or exception. Every import of any text, malformed or not, ends (possibly in undefined behaviour) within a number of loop rounds bounded by the length of the text, if no growing container has elements that can be null and a stream does not end in a backslash. Outside of that the claim is false: [null null] into every container of elements that can be null, and a stream ending in a backslash. BSON from streams and YAML: every import ends. BSON from strings: every import ends unless unknown members are skipped, where a negative length makes it run forever."
  },
  {
   "property": "C13",
   "status": "partial",
   "theorems": [
    "C13_unknown_members_skipped_partial",
    "C13_unknown_members_skipped_refuted"
   ],
   "note": "Unknown members at any depth are skipped exactly unless a skipped string ends in an escaped backslash or (string source) contains byte 255."
  },
  {
   "property": "C14",
   "status": "partial",
   "theorems": [
    "C14_unterminated_partial",
    "C14_unterminated_refuted"
   ],
   "note": "Proved for root strings from a string source. Refuted on streams, and for both sources in Weak mode after a skipped string that ends in an escaped backslash."
  },
  {
   "property": "C15",
   "status": "partial",
   "theorems": [
    "C15_literals_partial",
    "C15_literals_refuted"
   ],
   "note": "Proved for scalar documents. Refuted for pointers (any word starting with n is null) and for skipped members."
  },
  {
   "property": "C16",
   "status": "proved",
   "theorems": [
    "C16_integer_round_trip"
   ],
   "note": "Every value of every integer type; the text is the decimal literal of the value."
  },
  {
   "property": "C17",
   "status": "partial",
   "theorems": [
    "C17_out_of_range_partial",
    "C17_exact_value",
    "C17_in_range",
    "C17_out_of_range_refuted"
   ],
   "note": "String source: never accepted, at any depth, and accepted numbers are exact. Refuted: string source has undefined behaviour instead of an error, streams deliver a different number."
  },
  {
   "property": "C18",
   "status": "partial",
   "theorems": [
    "C18_fraction_rejected",
    "C18_leading_zero_partial",
    "C18_plus_partial",
    "C18_syntax_refuted"
   ],
   "note": "Fractions and exponents are never truncated, at any depth. A leading zero before 1-9 and, from a string source, a leading plus are rejected at the root. Refuted: 00, -01 and, from a stream, a plus sign are accepted."
  },
  {
   "property": "C19",
   "status": "partial",
   "theorems": [
    "C19_string_then_stream_partial",
    "C19_sources_agree_partial",
    "C19_sources_agree_refuted"
   ],
   "note": "Accepted from a string implies accepted with the same value from a stream; equal in all respects if integers fit and have no sign into unsigned."
  },
  {
   "property": "C20",
   "status": "partial",
   "theorems": [
    "C20_grammatical_partial",
    "C20_document_partial",
    "C20_grammatical_refuted",
    "C20_indentation_refuted"
   ],
   "note": "Names and keys must be legal between quotes as written and the indentation must fit 4004 characters; refuted otherwise (keys are not escaped, a NUL appears at 4005 characters of indentation). With plain names the text is a document of the value."
  },
  {
   "property": "C21",
   "status": "partial",
   "theorems": [
    "C21_same_lexemes_partial"
   ],
   "note": "Same conditions as C20."
  },
  {
   "property": "C22",
   "status": "proved",
   "theorems": [
    "C22_string_is_stream"
   ],
   "note": "For every valid value of the modelled types (no floating point)."
  },
  {
   "property": "C23",
   "status": "partial",
   "theorems": [
    "C23_indentation_partial",
    "C23_indentation_refuted"
   ],
   "note": "Safe while the indentation of the innermost value is at most 4003 characters, always in Stream format; refuted for 1002 nested vectors with the default configuration."
  },
  {
   "property": "C24",
   "status": "partial",
   "theorems": [
    "C24_misuse_partial",
    "C24_proper_use_partial",
    "C24_value_refuted",
    "C24_second_value_refuted"
   ],
   "note": "Closing a container that is not innermost and keys outside maps are rejected after any successful calls; proper use prints the document. The full claim is false: values without keys, second top level values, keys without values are accepted."
  },
  {
   "property": "C25",
   "status": "partial",
   "theorems": [
    "C25_size_partial",
    "C25_size_refuted",
    "C25_key_refuted",
    "C25_virtual_refuted",
    "C25_variant_refuted",
    "C25_smallest_refuted",
    "C25_pair_refuted"
   ],
   "note": "Proved without escapes, entries in string keyed maps, smallest integers, pairs, and with type fields counted where written; the full claim is false, refutations for every condition."
  },
  {
   "property": "C26",
   "status": "partial",
   "theorems": [
    "C26_round_trip_partial",
    "C26_null_refuted",
    "C26_type_field_refuted"
   ],
   "note": "Every type and value of the modelled universe, all configurations; conditions: plain and distinct names, plain map keys, no pointer to something written as null, no class with its own type field held by value in Strict and Exact, Exact only without renamed or left out members. Refuted otherwise."
  },
  {
   "property": "C27",
   "status": "partial",
   "theorems": [
    "C27_keys_partial",
    "C27_keys_refuted"
   ],
   "note": "Proved for keys without quotes, backslashes and control characters; refuted for others."
  },
  {
   "property": "C28",
   "status": "partial",
   "theorems": [
    "C28_member_order_partial",
    "C28_member_order_strict",
    "C28_member_order_refuted"
   ],
   "note": "At any depth; unconditional in Strict and Exact, in Weak where unknown members are skipped exactly."
  },
  {
   "property": "C29",
   "status": "proved",
   "theorems": [
    "C29_unknown_member_rejected",
    "C29_missing_member_rejected",
    "C29_complete_accepted",
    "C29_absent_untouched",
    "C29_present_read"
   ],
   "note": "Strict rejects unknown members and Exact also missing ones, at any depth; Weak and Strict leave absent members as they were and read present ones. Exact is stated for classes without name overrides (see C30)."
  },
  {
   "property": "C30",
   "status": "partial",
   "theorems": [
    "C30_exact_partial",
    "C30_exact_refuted"
   ],
   "note": "Proved without renamed members; refuted with them."
  },
  {
   "property": "C31",
   "status": "partial",
   "theorems": [
    "C31_too_long_partial",
    "C31_tuple_elements",
    "C31_array_elements",
    "C31_too_long_refuted"
   ],
   "note": "A too long array is never accepted, at any depth; shorter or equal ones are stored by index. Refuted: a too long array writes outside the object instead of raising an error."
  },
  {
   "property": "C32",
   "status": "partial",
   "theorems": [
    "C32_sequence_partial",
    "C32_sequence_refuted"
   ],
   "note": "Proved: the container holds its old contents followed by exactly the elements of the document, so the claim holds for containers that were empty. Refuted for others: old elements stay."
  },
  {
   "property": "C33",
   "status": "proved",
   "theorems": [
    "C33_map_entries",
    "C33_multimap"
   ],
   "note": "The last entry of a duplicated key wins, for every map."
  },
  {
   "property": "C34",
   "status": "partial",
   "theorems": [
    "C34_pointer_import",
    "C34_optional_import",
    "C34_holder_partial",
    "C34_optional_refuted"
   ],
   "note": "Import of pointers and optionals; round trip of a class with a pointer and an optional member (conditions of C26). Refuted for empty optionals outside classes."
  },
  {
   "property": "C35",
   "status": "proved",
   "theorems": [
    "C35_unknown_name_rejected",
    "C35_name_read",
    "C35_round_trip"
   ],
   "note": "Names outside the enum are rejected, names inside are read, every named value round trips."
  },
  {
   "property": "C36",
   "status": "partial",
   "theorems": [
    "C36_round_trip_partial",
    "C36_exact_refuted"
   ],
   "note": "Vectors of shared pointers, every aliasing pattern, all printer configurations, Weak and Strict reading, JSON. Missing: shared pointers inside shared objects and in other containers. With Exact reading the claim is false (C36_exact_refuted)."
  },
  {
   "property": "C37",
   "status": "partial",
   "theorems": [
    "C37_no_class_rejected",
    "C37_class_read",
    "C37_no_class_refuted",
    "C37_round_trip_partial",
    "C37_variant_partial"
   ],
   "note": "No class name or an unregistered one is rejected, a registered derived one is read, round trip under the conditions of C26. Refuted for a class registered but not derived from the base."
  },
  {
   "property": "C38",
   "status": "partial",
   "theorems": [
    "C38_exception_partial",
    "C38_exception_refuted",
    "C38_success_complete",
    "C38_configured",
    "C38_bson_configured"
   ],
   "note": "Proved for every exception but DepricatedIssue; that one leaves the source good and always propagates. A successful import has read exactly one complete value."
  },
  {
   "property": "C39",
   "status": "proved",
   "theorems": [
    "C39_no_trailing_data",
    "C39_next_document",
    "C39_two_documents"
   ],
   "note": "Both settings, every document and every following text; two imports in a row from one stream."
  },
  {
   "property": "C40",
   "status": "partial",
   "theorems": [
    "C40_lengths_partial",
    "C40_exports",
    "C40_escapes_refuted",
    "C40_variant_refuted",
    "C40_by_value_refuted",
    "C40_optional_refuted",
    "C40_root_variant_refuted",
    "C40_enum_refuted",
    "C40_pair_refuted"
   ],
   "note": "Proved for every type and every value whose strings, enum and class names need no JSON escape, where the type field is counted where it is written, not optional or variant at the root, no empty optional in a pair, output below 2^31 bytes; also with an IdStore. Refuted in each excluded case."
  },
  {
   "property": "C41",
   "status": "partial",
   "theorems": [
    "C41_round_trip_partial",
    "C41_escapes_refuted",
    "C41_root_refuted",
    "C41_no_trailing_refuted"
   ],
   "note": "Proved for every type and value under the conditions of C40 plus those that make a JSON round trip exact. Refuted: strings with bytes that JSON escapes come back escaped; optional and variant roots; with validateNoTrailingData every root scalar is refused."
  },
  {
   "property": "C42",
   "status": "proved",
   "theorems": [
    "C42_array_size",
    "C42_names"
   ],
   "note": "Names and length field for every array, vector and tuple in every printer state; the size formula for every number of elements."
  },
  {
   "property": "C43",
   "status": "partial",
   "theorems": [
    "C43_fits_partial",
    "C43_truncation_refuted"
   ],
   "note": "Integers that fit are imported; every other integer is cut to its low bits without a report."
  },
  {
   "property": "C44",
   "status": "proved",
   "theorems": [
    "C44_little",
    "C44_little_bytes",
    "C44_big"
   ],
   "note": "Every value of every width, from strings and streams."
  },
  {
   "property": "C45",
   "status": "partial",
   "theorems": [
    "C45_prefix_partial",
    "C45_truncation_refuted"
   ],
   "note": "No proper prefix of a document is ever imported, for every type, configuration and source. Truncation inside an integer or a length uses an uninitialised variable (C45_truncation_refuted), so that it does not always fail in a defined way."
  },
  {
   "property": "C46",
   "status": "proved",
   "theorems": [
    "C46_text",
    "C46_any_text",
    "C46_binary",
    "C46_from_string"
   ],
   "note": "ObjectID text and BSON forms; the members must be in range (40 bit random, 24 bit counter). Reading from the text of any 24 hexadecimal digits included. JSON quoting around the text is not part of the theorem."
  },
  {
   "property": "C47",
   "status": "partial",
   "theorems": [
    "C47_partial",
    "C47_refuted",
    "C47_start_refuted"
   ],
   "note": "Only ids less than 4095 constructions apart are distinct; refuted beyond, because the counter is taken modulo 0xFFF and the random part is std::rand() of each construction. classCounter overflows for large std::rand()."
  },
  {
   "property": "C48",
   "status": "partial",
   "theorems": [
    "C48_date_partial",
    "C48_date_refuted",
    "C48_order_partial",
    "C48_order_refuted"
   ],
   "note": "asDateTime multiplies in 32 bits, operator< looks at the increment first."
  },
  {
   "property": "C49",
   "status": "proved",
   "theorems": [
    "C49_one_document",
    "C49_broken_text"
   ],
   "note": "For every stream of libyaml events; libyaml itself is an oracle (the list of its calls)."
  },
  {
   "property": "C50",
   "status": "partial",
   "theorems": [
    "C50_stream_indent",
    "C50_string_indent_partial",
    "C50_string_first_line",
    "C50_string_indent_refuted"
   ],
   "note": "Proved for streams and every initial indent, for strings without one. Refuted for strings with an initial indent: the first line is not moved (C50_string_first_line says exactly what is written)."
  },
  {
   "property": "C51",
   "status": "partial",
   "theorems": [
    "C51_specification_partial",
    "C51_sizes_refuted",
    "C51_sizes_used",
    "C51_sizes_ignored",
    "C51_yaml_stream_refuted",
    "C51_int_refuted",
    "C51_large_indent_refuted"
   ],
   "note": "Proved: a specification is taken iff it is a documented one, type and mode are its own, sizes below 2^64 are exact, below 2^31 they reach the printer; JSON in Stream mode and BSON do not depend on them. Refuted: larger sizes wrap silently, YAML applies the block indent in Stream mode, 5000 characters of block indent are undefined behaviour."
  },
  {
   "property": "C52",
   "status": "partial",
   "theorems": [
    "C52_first_import_partial",
    "C52_first_json_import_partial",
    "C52_unique_ptr",
    "C52_owned_refuted",
    "C52_twice_refuted"
   ],
   "note": "Proved for every parser: raw pointers that were null before are null or live after every import in which no object gives a key twice; std::unique_ptr always. Refuted: an owning raw pointer to a polymorphic class dangles after a failed import, also one that was null if its key is given twice."
  },
  {
   "property": "C53",
   "status": "partial",
   "theorems": [
    "C53_push_back_partial",
    "C53_push_back_refuted"
   ],
   "note": "Proved for every legal string whose surrogate pairs are of odd planes. Refuted for even planes and for unknown escapes, which are swallowed."
  },
  {
   "property": "C54",
   "status": "partial",
   "theorems": [
    "C54_length",
    "C54_stream_exact",
    "C54_stream_partial",
    "C54_stream_refuted"
   ],
   "note": "Exact for string sources (C54_length), and for streams in Strict and Exact mode or when no element has a negative length (C54_stream_exact); otherwise a stream may read more (C54_stream_refuted), never less (C54_stream_partial)."
  },
  {
   "property": "C55",
   "status": "partial",
   "theorems": [
    "C55_date",
    "C55_stamp",
    "C55_elements",
    "C55_endian_refuted",
    "C55_text"
   ],
   "note": "Round trips hold, and the elements around ids, dates and timestamps have the type bytes and lengths of the specification (C55_elements); the layout of a BsonTimeStamp is big endian with the increment first, not that of the BSON specification (C55_endian_refuted)."
  },
  {
   "property": "C56",
   "status": "partial",
   "theorems": [
    "C56_partial",
    "C56_refuted"
   ],
   "note": "Refuted after operator>> on an object whose text was already taken."
  },
  {
   "property": "C57",
   "status": "partial",
   "theorems": [
    "C57_partial",
    "C57_refuted"
   ],
   "note": "Refuted for times after 2038 (negative std::int32_t)."
  },
  {
   "property": "C58",
   "status": "partial",
   "theorems": [
    "C58_json_configured",
    "C58_bson_configured_partial",
    "C58_null_refuted"
   ],
   "note": "Proved for JSON, and for BSON unless the root is a null pointer, which always raises."
  },
  {
   "property": "C59",
   "status": "partial",
   "theorems": [
    "C59_size_partial",
    "C59_size_refuted"
   ],
   "note": "Proved under the conditions of C40_lengths_partial for documents that are objects or arrays; eight less for a single value (refuted)."
  },
  {
   "property": "C60",
   "status": "partial",
   "theorems": [
    "C60_stream_partial",
    "C60_string_refuted"
   ],
   "note": "Proved for streams under the conditions of C40_lengths_partial; an export to a string reports every id twice as many (refuted)."
  },
  {
   "property": "C61",
   "status": "partial",
   "theorems": [
    "C61_yaml_round_trip_partial",
    "C61_document",
    "C61_yaml_round_trip_refuted"
   ],
   "note": "Every written value whose pointers do not point to a text that stands for null; refuted for those. Premise: libyaml's parser delivers what its emitter was given."
  },
  {
   "property": "C62",
   "status": "partial",
   "theorems": [
    "C62_yaml_failures_partial",
    "C62_text",
    "C62_written",
    "C62_bad_stream",
    "C62_yaml_failures_refuted"
   ],
   "note": "Characterised by the place of the first failure: elements of arrays and keys are reported as configured, all other failures and outputs that take nothing end the program."
  },
  {
   "property": "C63",
   "status": "partial",
   "theorems": [
    "C63_yaml_integers_partial",
    "C63_yaml_integers_cut",
    "C63_yaml_integers_refuted"
   ],
   "note": "Integers that fit are exact and everything that is no integer is rejected; integers that do not fit are cut (C63_yaml_integers_cut) and the empty text is 0."
  },
  {
   "property": "C64",
   "status": "partial",
   "theorems": [
    "C64_yaml_reports_partial",
    "C64_yaml_configured",
    "C64_yaml_reports_refuted"
   ],
   "note": "Always for strings; for streams exactly if libyaml does not ask again after the end of the text."
  },
  {
   "property": "C65",
   "status": "partial",
   "theorems": [
    "C65_trailing_lost",
    "C65_trailing_refuted"
   ],
   "note": "Refuted: when libyaml has read all of the text before the end of the document nothing is found, and for strings a further request is undefined."
  },
  {
   "property": "C66",
   "status": "partial",
   "theorems": [
    "C66_document_partial",
    "C66_reported_refuted"
   ],
   "note": "Proved for JSON: a text returned complete is a document of the value. Refuted: for every value without a document the call returns normally with the text up to the failure."
  },
  {
   "property": "C67",
   "status": "partial",
   "theorems": [
    "C67_elements_kept_partial",
    "C67_unchanged_refuted"
   ],
   "note": "Refuted: members and elements read before the failure stay. Proved: the elements that a sequence held are kept in front."
  },
  {
   "property": "C68",
   "status": "partial",
   "theorems": [
    "C68_defined_partial",
    "C68_unknown_partial",
    "C68_no_name_refuted"
   ],
   "note": "Proved when every object of the array has a member sharedPtrName (a reference before its object is rejected; otherwise pointers or a failure). False without it: the name is then an uninitialised variable (C68_no_name_refuted)."
  },
  {
   "property": "C69",
   "status": "partial",
   "theorems": [
    "C69_float_grammar_partial",
    "C69_float_document_partial",
    "C69_negative_zero_refuted",
    "C69_infinity_refuted",
    "C69_large_refuted"
   ],
   "note": "Proved for valid values whose numbers are finite and, for strings, below 10^17 and not a negative zero. False otherwise: -0. and inf are no JSON, and large numbers overrun a string."
  },
  {
   "property": "C70",
   "status": "partial",
   "theorems": [
    "C70_float_round_trip_partial",
    "C70_exact_refuted",
    "C70_small_refuted"
   ],
   "note": "Proved: the numbers come back within 10^-6 (strings) or 10^-5 of their size (streams), exactly when they need no more digits; everything else exactly. Exactness of all numbers is refuted."
  },
  {
   "property": "C71",
   "status": "partial",
   "theorems": [
    "C71_float_number_partial",
    "C71_numbers_denote",
    "C71_float_document_partial",
    "C71_too_large_refuted",
    "C71_too_small_refuted"
   ],
   "note": "Proved for the numbers between the smallest and the largest finite value, alone and inside documents. Refuted out of range."
  },
  {
   "property": "C72",
   "status": "partial",
   "theorems": [
    "C72_other_kind_partial",
    "C72_malformed_refuted",
    "C72_exponent_refuted",
    "C72_infinity_refuted",
    "C72_lone_sign_refuted"
   ],
   "note": "Proved for JSON values of another kind. Refuted for texts that are no JSON: 1. and 1e (which is 0 from a stream), Infinity from a string, a lone minus from a stream."
  },
  {
   "property": "C73",
   "status": "partial",
   "theorems": [
    "C73_float_document_partial",
    "C73_exports",
    "C73_one_double"
   ],
   "note": "Proved under the conditions of C40 (strings and names without JSON escapes, type field counted where written, no optional or variant root, below 2^31 bytes), for every bit pattern."
  },
  {
   "property": "C74",
   "status": "partial",
   "theorems": [
    "C74_float_round_trip_partial",
    "C74_signalling_refuted"
   ],
   "note": "Proved under the conditions of C41 for every bit pattern except signalling NaNs of float, which come back quiet (refuted)."
  },
  {
   "property": "C75",
   "status": "partial",
   "theorems": [
    "C75_float_document_partial",
    "C75_float_element",
    "C75_total",
    "C75_other_element",
    "C75_exact_refuted"
   ],
   "note": "Every int32, int64 and double gives the one nearest float or double, alone and inside documents that are read back; other elements are rejected (single elements). Exactness of all integers is refuted."
  },
  {
   "property": "C76",
   "status": "proved",
   "theorems": [
    "C76_accepted_is_json",
    "C76_only_json_refuted"
   ],
   "note": "For every text, well formed or not, whose root is an object or array. The lexemes allowed are those of Spec/Accepted.v; that they are all JSON lexemes is refuted (C76_only_json_refuted)."
  },
  {
   "property": "C77",
   "status": "partial",
   "theorems": [
    "C77_truncated_partial",
    "C77_backslash_refuted"
   ],
   "note": "In Exact and Strict for every document; in Weak for documents whose strings do not end in a backslash, refuted otherwise (C77_backslash_refuted)."
  },
  {
   "property": "C78",
   "status": "partial",
   "theorems": [
    "C78_projection_partial",
    "C78_exports",
    "C78_floats_partial",
    "C78_value_refuted"
   ],
   "note": "Every type and value under the conditions of C40 with an object or an array at the root, floats and doubles included; C78_exports: such exports succeed. False for a scalar at the root (C78_value_refuted)."
  },
  {
   "property": "C79",
   "status": "partial",
   "theorems": [
    "C79_member_refuted"
   ],
   "note": "False: witness C79_member_refuted. The model covers a class whose only member is a projection."
  },
  {
   "property": "C80",
   "status": "proved",
   "theorems": [
    "C80_json",
    "C80_bson",
    "C80_yaml",
    "C80_document",
    "C80_one_content"
   ],
   "note": "JSON, BSON and YAML, every input, in comparison with a vector; for JSON documents also the elements themselves; the content is unique."
  },
  {
   "property": "C81",
   "status": "partial",
   "theorems": [
    "C81_entries_partial",
    "C81_old_entries",
    "C81_refuted"
   ],
   "note": "Proved for keys that the map did not have and that occur once; old entries win (C81_old_entries), so the full claim is false (C81_refuted)."
  },
  {
   "property": "C82",
   "status": "partial",
   "theorems": [
    "C82_json_partial",
    "C82_bson_partial",
    "C82_same_result",
    "C82_optional_refuted"
   ],
   "note": "Full claim needs that no member that is let through is an empty optional (C82_optional_refuted: with a filter the export then fails) and the conditions of C20 and C40; the class with the filter is at the root."
  },
  {
   "property": "C83",
   "status": "partial",
   "theorems": [
    "C83_json_partial",
    "C83_bson_partial",
    "C83_same_result",
    "C83_string_refuted"
   ],
   "note": "Proved for streams, under the conditions of C20 and C40; on strings the export is undefined (C83_string_refuted)."
  },
  {
   "property": "C84",
   "status": "partial",
   "theorems": [
    "C84_binary",
    "C84_script",
    "C84_regex_partial",
    "C84_elements",
    "C84_regex_refuted",
    "C84_skip_refuted",
    "C84_type_refuted"
   ],
   "note": "Binary data and code for all data below 2^31 bytes; regular expressions without a zero (C84_regex_refuted); code and regular expressions cannot be skipped (C84_skip_refuted) and elements of another type are accepted (C84_type_refuted)."
  },
  {
   "property": "C85",
   "status": "partial",
   "theorems": [
    "C85_json_partial",
    "C85_round_trip_partial",
    "C85_numbers_refuted",
    "C85_bson",
    "C85_bson_round_trip_partial"
   ],
   "note": "JSON: proved when every skipped part can be skipped exactly (C12, C13) and a digit at the end of a document is followed by white space, punctuation or the end; for written values under the conditions of C26 with white space between them. Refuted for numbers without anything between them. BSON: all documents; written values under the conditions of C41."
  },
  {
   "property": "C86",
   "status": "partial",
   "theorems": [
    "C86_copy_partial",
    "C86_whole_partial",
    "C86_old_refuted",
    "C86_key_refuted",
    "C86_backslash_refuted",
    "C86_bytes_refuted",
    "C86_number_refuted",
    "C86_words_refuted"
   ],
   "note": "Proved for documents without escapes in keys, without strings that end in a backslash (from std::string: without bytes from 128 on), numbers in a stream followed by something; old contents stay in front. Each condition is needed: see the refuted theorems. JSON only."
  },
  {
   "property": "C87",
   "status": "partial",
   "theorems": [
    "C87_json_import",
    "C87_json_export",
    "C87_bson_import_partial",
    "C87_bson_export",
    "C87_round_trip_partial",
    "C87_list"
   ],
   "note": "Imports of JSON from strings and streams, exports of JSON and BSON: proved in full. Imports of BSON: from streams; from a std::string a negative length moves the reader back, which is left out. Round trips under the conditions of C26; lists of any length in full."
  },
  {
   "property": "C88",
   "status": "proved",
   "theorems": [
    "C88_bson_grammar",
    "C88_bson_floats",
    "C88_negative_refuted"
   ],
   "note": "Structural: every length, end mark, name and value size, at any depth, for arbitrary bytes, from strings and streams, also with floating point members (C88_bson_floats). In Weak mode for texts without string or binary elements of negative length; without that condition it is refuted (C88_negative_refuted). Texts shorter than 2^63 bytes."
  },
  {
   "property": "C89",
   "status": "partial",
   "theorems": [
    "C89_json_partial",
    "C89_stream_partial",
    "C89_json_refuted",
    "C89_bson_refuted"
   ],
   "note": "JSON, any text: defined for types without arrays or tuples of a fixed length, without pointers beside which unrelated classes are registered, and (from strings) without integers that the digits of the text can exceed; from streams also with float and double. False for the rest (C89_json_refuted, C71) and for BSON (C89_bson_refuted, C45_truncation_refuted). Not treated: YAML, shared_ptr."
  },
  {
   "property": "C90",
   "status": "partial",
   "theorems": [
    "C90_grammar_partial",
    "C90_document_partial",
    "C90_import_partial",
    "C90_round_trip_partial",
    "C90_string_refuted",
    "C90_failbit_refuted",
    "C90_stream_number_refuted",
    "C90_null_refuted"
   ],
   "note": "JSON. Proved for operator<< that writes numbers, true or false (any operators otherwise, any types around them), and for imports of any scalar that reaches operator>> unchanged. Refuted: strings are escaped and give no JSON; failbit of operator>> is ignored; a number that ends with the stream is reported as a failure; an object written as null behind a pointer is lost."
  },
  {
   "property": "C91",
   "status": "partial",
   "theorems": [
    "C91_document_partial",
    "C91_exports",
    "C91_import_partial",
    "C91_other_element",
    "C91_round_trip_partial",
    "C91_no_size",
    "C91_wrong_size_refuted",
    "C91_negative_length",
    "C91_projection_partial"
   ],
   "note": "Exports: the document and its size for all operators, under the conditions of C40 and if the classes tell the right sizes (C91_document_partial, C91_exports); imports of documents of values that are read back (C91_import_partial), rejection (C91_other_element); round trips under the conditions of C41 if operator>> reads what operator<< wrote. Missing: the conditions of C40/C41 on null pointers, strings that JSON escapes and markers; imports into arbitrary old values; classes with operators as keys. Findings: no export without a size function, no document with a wrong one. Data of a negative length is rejected; projections are written as in C78 (C91_projection_partial)."
  },
  {
   "property": "C92",
   "status": "partial",
   "theorems": [
    "C92_document",
    "C92_written",
    "C92_failures_partial",
    "C92_import_partial",
    "C92_rejected",
    "C92_round_trip_partial",
    "C92_round_trip_refuted"
   ],
   "note": "Exports: the document, and what happens to texts that are not UTF-8 (C92_document, C92_written; C92_failures_partial: reported only for elements and keys, the program ends otherwise, as in C62). Imports of documents of values that are read back in which no object is written as null or ~ (C92_import_partial); rejection (C92_rejected); round trips under the conditions of C61. Missing: classes with operators as keys; pointers to objects written as null (refuted)."
  },
  {
   "property": "C93",
   "status": "partial",
   "theorems": [
    "C93_document",
    "C93_failures_partial",
    "C93_import_partial",
    "C93_rejected_partial",
    "C93_round_trip_partial",
    "C93_hexadecimal",
    "C93_round_trip_refuted",
    "C93_empty_refuted",
    "C93_too_large_refuted",
    "C93_words_refuted"
   ],
   "note": "Round trips keep six significant digits (refuted for more); imports for JSON numbers and hexadecimal numbers in range, inf and nan; rejections for scalars whose first character starts no number; the empty scalar is read as 0 (refuted), out of range becomes infinity (refuted), .inf and .nan are rejected (refuted)."
  },
  {
   "property": "C94",
   "status": "partial",
   "theorems": [
    "C94_document_partial",
    "C94_exports",
    "C94_import_partial",
    "C94_rejected_partial",
    "C94_round_trip_partial",
    "C94_mongo_partial",
    "C94_unimplemented",
    "C94_type_refuted",
    "C94_projection_refuted"
   ],
   "note": "Documents, sizes, imports and round trips under the conditions of C40/C41 and without object ids that the printer makes; rejection for a single object. The three Mongo types by C94_mongo_partial. Refuted: the type of an element is checked; a projection has the number 1."
  },
  {
   "property": "C95",
   "status": "partial",
   "theorems": [
    "C95_grammar",
    "C95_document",
    "C95_import",
    "C95_rejected_partial",
    "C95_round_trip",
    "C95_mongo",
    "C95_id",
    "C95_short_id_refuted",
    "C95_short_id_undefined_refuted",
    "C95_stamp_refuted"
   ],
   "note": "Exports, imports and round trips proved; rejection where the object is the root or the first element of a list. Refuted: texts that are no ids or time stamps are rejected (short ids are undefined behaviour)."
  },
  {
   "property": "C96",
   "status": "partial",
   "theorems": [
    "C96_members_partial",
    "C96_json_partial",
    "C96_lost_refuted",
    "C96_bson_partial",
    "C96_yaml_partial"
   ],
   "note": "JSON document with repeated names, round trips in JSON, BSON and YAML under the conditions of C20, C26, C41 and C61; what map and unordered_map make of the text is characterised completely for JSON. C96_lost_refuted: entries are lost that way. Missing: keys that need an escape in JSON."
  },
  {
   "property": "C97",
   "status": "partial",
   "theorems": [
    "C97_document",
    "C97_written",
    "C97_failures_partial",
    "C97_unsupported",
    "C97_import_partial",
    "C97_rejected",
    "C97_unsupported_import",
    "C97_round_trip_partial",
    "C97_reported_refuted"
   ],
   "note": "Proved: what is written is the document with the texts of the serializers, no successful export contains an object whose serializer threw, import, rejection and round trips under the conditions of C61. The full claim that failures are reported is refuted (C97_reported_refuted): the program is terminated when the object is alone or in a map or class; C97_failures_partial says where. Missing: serializers that write more than one scalar."
  },
  {
   "property": "C98",
   "status": "partial",
   "theorems": [
    "C98_survives",
    "C98_string",
    "C98_nothing",
    "C98_cut_partial",
    "C98_key_partial",
    "C98_incomplete_refuted"
   ],
   "note": "C98_survives (streams) and C98_string (a string keeps its old contents) are complete: every type, value and configuration. C98_nothing, C98_cut_partial and C98_key_partial give the exact text left on a stream for unwritable parts at any depth, in every kind of container and class; missing: a proof that every failing value is one of these. The last sentence of the statement is refuted by C98_incomplete_refuted: the text left on a stream can be a document of another value."
  }
 ]
}
