{
 "claims": [
  {
   "property": "C01",
   "status": "proved",
   "theorems": [
    "C01_parser_total"
   ],
   "note": "texts shorter than 2^28 bytes"
  },
  {
   "property": "C02",
   "status": "partial",
   "theorems": [
    "C02_grammar_any_layout",
    "C02_grammar_partial",
    "C02_grammar_refuted"
   ],
   "note": "exact language proved in every layout; the documented language is not accepted when the boolean pattern literals lie above the text (pointer comparison bug in have(const char*)); contents of objects with keys of 65536 bytes or more not covered"
  },
  {
   "property": "C03",
   "status": "proved",
   "theorems": [
    "C03_unambiguous"
   ],
   "note": ""
  },
  {
   "property": "C04",
   "status": "partial",
   "theorems": [
    "C04_whole_input_refuted",
    "C04_whole_input_partial"
   ],
   "note": "false as stated: trailing text is ignored; a non-empty prefix is a complete text of the value"
  },
  {
   "property": "C05",
   "status": "partial",
   "theorems": [
    "C05_layout_refuted",
    "C05_layout_partial",
    "C05_layout_exact"
   ],
   "note": "false for booleans; C05_layout_exact says for every text and pair of layouts whether they agree"
  },
  {
   "property": "C06",
   "status": "proved",
   "theorems": [
    "C06_string_round_trip"
   ],
   "note": "any length, any bytes, any layout"
  },
  {
   "property": "C07",
   "status": "partial",
   "theorems": [
    "C07_round_trip_partial",
    "C07_round_trip_refuted",
    "C07_print_injective"
   ],
   "note": "false for booleans in layouts with the literals above the text; proved otherwise (printed text shorter than 2^28 bytes)"
  },
  {
   "property": "C08",
   "status": "partial",
   "theorems": [
    "C08_object_round_trip_refuted",
    "C08_object_never_round_trips",
    "C08_object_round_trip_partial"
   ],
   "note": "false: keys are printed without quotes; only the empty object survives"
  },
  {
   "property": "C09",
   "status": "proved",
   "theorems": [
    "C09_no_nul"
   ],
   "note": ""
  },
  {
   "property": "C10",
   "status": "proved",
   "theorems": [
    "C10_integers_parse",
    "C10_integers_print"
   ],
   "note": "boost's int256_t arithmetic is trusted (sign-magnitude, unchecked, 256 bits)"
  },
  {
   "property": "C100",
   "status": "partial",
   "theorems": [
    "C100_out_of_memory_partial",
    "C100_retry_partial",
    "C100_enough_memory",
    "C100_spoilt_refuted",
    "C100_later_refuted"
   ],
   "note": "false in general (operator= sets the type before it allocates, push_back and pop_back the size, calloc and malloc are unchecked); proved for the operations C100 calls tolerant, and C100_spoilt_refuted shows that every other operation except erase can be spoilt; erase may ask for memory in every state of the model, because the buckets are not modelled there"
  },
  {
   "property": "C101",
   "status": "proved",
   "theorems": [
    "C101_served",
    "C101_refused",
    "C101_lacking",
    "C101_calls",
    "C101_recovered"
   ],
   "note": "texts below 2^28 bytes; the std::string and json::Value objects are taken to get their memory; calls that are undefined behaviour with enough memory (arguments of other types, decrypted text without NUL) are excluded"
  },
  {
   "property": "C102",
   "status": "partial",
   "theorems": [
    "C102_right",
    "C102_fate_partial",
    "C102_no_object_partial",
    "C102_enough",
    "C102_crash_refuted",
    "C102_replaced_refuted"
   ],
   "note": "that it is made right or not at all, and exits only for texts not of the grammar, is proved for every text; that it throws and cleans up is false (C102_crash_refuted: an object and the first request; C102_replaced_refuted: a name repeated with another type); proved is that otherwise, for texts of the grammar and for all texts without an opening brace, a dereferenced null pointer is all that can go wrong; missing: cleaning up after a text with an opening brace that is not of the grammar"
  },
  {
   "property": "C103",
   "status": "partial",
   "theorems": [
    "C103_answers_partial",
    "C103_fate_partial",
    "C103_enough",
    "C103_calls_partial",
    "C103_calls_fate_partial",
    "C103_truncated_refuted",
    "C103_gas_refuted"
   ],
   "note": "proved for every class and text of an array: the gas is right, a text is the right one or a beginning of it (std::ostringstream swallows bad_alloc and start() does not look: C103_truncated_refuted), and for arguments that keep the types of repeated names the only undefined behaviour is a null pointer, which does happen (malloc in ENI_GAS: C103_gas_refuted; see also C102); any sequence of calls, each with its own refusals, is served call by call, so calls with memory again answer as ever; requests made by the virtual functions themselves are not modelled"
  },
  {
   "property": "C104",
   "status": "partial",
   "theorems": [
    "C104_standard_partial",
    "C104_standard_exact",
    "C104_standard_any_layout",
    "C104_unsupported_refused",
    "C104_printed",
    "C104_number_refuted",
    "C104_control_refuted"
   ],
   "note": "every supported standard text is accepted, and read as what it means exactly when only characters below 128 are escaped with \\u (C104_standard_exact, an equivalence); null anywhere and fractions and exponents inside arrays and objects are refused (C104_unsupported_refused); false are: a lone 1.5 is refused (it is read as 1: C104_number_refuted), and nothing else is accepted (C104_control_refuted); in other layouts exactly the texts with a boolean the scanner does not find are refused (C104_standard_any_layout); printed values without objects mean the same (C104_printed; objects are not standard texts: C59)"
  },
  {
   "property": "C105",
   "status": "partial",
   "theorems": [
    "C105_sent",
    "C105_received",
    "C105_none",
    "C105_reverse_partial",
    "C105_reverse_refuted",
    "C105_parseString"
   ],
   "note": "the value sent is the value received if and only if all its characters are ASCII (C105_received), None is refused (C105_none), and reverse answers rightly exactly for ASCII strings (C105_reverse_partial, C105_reverse_refuted), as does parseString of the JSON example (C105_parseString); json.dumps and json.loads are modelled after their documentation, floating-point numbers and lone surrogates are not"
  },
  {
   "property": "C106",
   "status": "partial",
   "theorems": [
    "C106_reverse_refuted",
    "C106_scrypt_refuted",
    "C106_rsa_refuted"
   ],
   "note": "false for every non-empty string and header: the exact numbers printed are ten per character, ten per header byte and ten per byte of the key, and 1500 for rejected arguments; the repository's own tests expect these (RepoTests.v)"
  },
  {
   "property": "C107",
   "status": "proved",
   "theorems": [
    "C107_pipeline",
    "C107_total",
    "C107_reverse"
   ],
   "note": "strings below 2^25 bytes, so that every printed text is below the parser's 2^28; command substitution removes newlines at the end, as POSIX says"
  },
  {
   "property": "C108",
   "status": "proved",
   "theorems": [
    "C108_arrayGet",
    "C108_objectGet",
    "C108_parseArray",
    "C108_parseString"
   ],
   "note": "Python's int(b, 16) is a parameter of which the value of eight hexadecimal digits is assumed; jsmn's documented tokens are assumed for the document"
  },
  {
   "property": "C109",
   "status": "partial",
   "theorems": [
    "C109_parseArray_refuted",
    "C109_arrayGet_refuted",
    "C109_objectGet_array_refuted",
    "C109_objectGet_confused_refuted",
    "C109_array_cases",
    "C109_objectGet_scalar_refuted"
   ],
   "note": "false: the exact outcomes for documents of every kind are proved; jsmn's documented tokens are assumed"
  },
  {
   "property": "C11",
   "status": "proved",
   "theorems": [
    "C11_last_binding"
   ],
   "note": ""
  },
  {
   "property": "C110",
   "status": "proved",
   "theorems": [
    "C110_tops",
    "C110_parseArray",
    "C110_arrayGet",
    "C110_objectGet",
    "C110_cases",
    "C110_documents"
   ],
   "note": "jsmn is not in the repository: that the tokens it reports are ranges of the text in its order is assumed, and shown of the documented tokens of every document (C110_documents)"
  },
  {
   "property": "C111",
   "status": "partial",
   "theorems": [
    "C111_insert",
    "C111_insert_range",
    "C111_erase_partial",
    "C111_change_loop",
    "C111_loop_partial",
    "C111_loop_refuted",
    "C111_own_assign",
    "C111_own_insert_partial",
    "C111_own_insert_refuted"
   ],
   "note": "insert, erase and the loop that changes elements are proved, with exactly when iterators stay good; the loop that erases is undefined with every vector that has an unwanted element before its last (PointerIterator::operator= has no return statement), and with the iterator copied instead it is right exactly if the last element is wanted (erase refuses the last one: C25); inserting a range of the vector itself is right if it ends before the place and the capacity suffices, and otherwise undefined or wrong as characterised; elements trivially copyable"
  },
  {
   "property": "C112",
   "status": "proved",
   "theorems": [
    "C112_program",
    "C112_memory",
    "C112_answers",
    "C112_lost",
    "C112_before_begin",
    "C112_on_and_on",
    "C112_past_end"
   ],
   "note": "the sequence refuses to erase its last element, nothing, or a range up to its end with out_of_range, as erase does (C25); operator= of iterators is undefined (C111) and not among the calls; an iterator made while the vector had no memory counts as lost when it gets some; when exactly moving past end() is undefined depends on the memory reserve has taken, which may be more than the elements need; sizes below 2^63 bytes; elements trivially copyable"
  },
  {
   "property": "C113",
   "status": "proved",
   "theorems": [
    "C113_add_while_iterating",
    "C113_visited",
    "C113_erased_refuted"
   ],
   "note": "fewer than 2^28 entries; C113_erased_refuted shows that the table must not have been erased from before (then an entry can be missed), C65_insert_while_iterating_refuted that the room is needed"
  },
  {
   "property": "C12",
   "status": "partial",
   "theorems": [
    "C12_codes_partial",
    "C12_codes_refuted"
   ],
   "note": "false for codes above 255: only the low byte is kept"
  },
  {
   "property": "C13",
   "status": "partial",
   "theorems": [
    "C13_index",
    "C13_key",
    "C13_other_types_partial",
    "C13_other_types_refuted"
   ],
   "note": "false for other types: the value returned is the integer 5, because g_NullValue(UNDEF) is made by the constructor from int; arrays and objects proved"
  },
  {
   "property": "C14",
   "status": "proved",
   "theorems": [
    "C14_finite_map",
    "C14_finite_map_pointers"
   ],
   "note": "by-value tables and tables of heap entries reached through pointers"
  },
  {
   "property": "C15",
   "status": "proved",
   "theorems": [
    "C15_probes_terminate"
   ],
   "note": "rehash(n) with n not above the entry count is excluded here, see C18"
  },
  {
   "property": "C16",
   "status": "proved",
   "theorems": [
    "C16_load_bounded"
   ],
   "note": ""
  },
  {
   "property": "C17",
   "status": "proved",
   "theorems": [
    "C17_pointers_stay_valid",
    "C17_rehash_keeps_bindings"
   ],
   "note": ""
  },
  {
   "property": "C18",
   "status": "partial",
   "theorems": [
    "C18_rehash_any_refuted",
    "C18_rehash_small_refuted",
    "C18_rehash_partial"
   ],
   "note": "false as stated: rehash(n) with n <= size() divides by zero or never returns; holds for size() < n < 2^28"
  },
  {
   "property": "C19",
   "status": "proved",
   "theorems": [
    "C19_iteration_exactly_once"
   ],
   "note": ""
  },
  {
   "property": "C20",
   "status": "partial",
   "theorems": [
    "C20_count_refuted",
    "C20_count_partial"
   ],
   "note": "false as stated: count compares hashes only; exact value proved. count() const cannot be instantiated (a non-const reference is bound to a bucket of the const table): the theorems are about its loop with the non-const begin(key)"
  },
  {
   "property": "C21",
   "status": "partial",
   "theorems": [
    "C21_copies_partial",
    "C21_copies_refuted"
   ],
   "note": "false for cleared sources and self-assignment; proved for all other copies"
  },
  {
   "property": "C22",
   "status": "partial",
   "theorems": [
    "C22_string_map_partial",
    "C22_string_map_refuted"
   ],
   "note": "false for keys of 65536 bytes or more; proved for all shorter keys. StringMap::operator= has no return statement (undefined, modelled as such)"
  },
  {
   "property": "C23",
   "status": "partial",
   "theorems": [
    "C23_sequence_partial",
    "C23_any_memory_partial",
    "C23_own_exact",
    "C23_sequence_refuted"
   ],
   "note": "false for some arguments that are elements of the vector itself (characterised exactly) and for erase up to the end or of nothing; proved for all other histories, also when realloc fails"
  },
  {
   "property": "C24",
   "status": "partial",
   "theorems": [
    "C24_memory_partial",
    "C24_memory_refuted"
   ],
   "note": "false for own-element arguments, failed calloc in constructors and wrapped sizes; proved otherwise"
  },
  {
   "property": "C25",
   "status": "partial",
   "theorems": [
    "C25_erase_partial",
    "C25_erase_refuted"
   ],
   "note": "false: the last element can never be erased"
  },
  {
   "property": "C26",
   "status": "partial",
   "theorems": [
    "C26_reserve_partial",
    "C26_reserve_refuted"
   ],
   "note": "false from 2^63 bytes on: divergence, capacity without memory, freed block kept"
  },
  {
   "property": "C27",
   "status": "partial",
   "theorems": [
    "C27_once_partial",
    "C27_once_refuted"
   ],
   "note": "false when parse() throws: it is called again; proved for all histories otherwise"
  },
  {
   "property": "C28",
   "status": "proved",
   "theorems": [
    "C28_rejected"
   ],
   "note": ""
  },
  {
   "property": "C29",
   "status": "partial",
   "theorems": [
    "C29_repeatable_refuted",
    "C29_repeatable_partial"
   ],
   "note": "false: run() appends to the array left by the previous start()"
  },
  {
   "property": "C30",
   "status": "partial",
   "theorems": [
    "C30_gas_query_partial",
    "C30_gas_query_refuted"
   ],
   "note": "proved for classes whose parse() does not throw; false otherwise"
  },
  {
   "property": "C31",
   "status": "partial",
   "theorems": [
    "C31_exit_partial",
    "C31_exit_refuted"
   ],
   "note": "false for booleans in layouts with the literals above the text; proved otherwise"
  },
  {
   "property": "C32",
   "status": "proved",
   "theorems": [
    "C32_reverse",
    "C32_involution",
    "C32_every_string"
   ],
   "note": "texts shorter than 2^28 bytes"
  },
  {
   "property": "C33",
   "status": "proved",
   "theorems": [
    "C33_hex_lossless"
   ],
   "note": ""
  },
  {
   "property": "C34",
   "status": "partial",
   "theorems": [
    "C34_hex_decode_partial",
    "C34_hex_decode_refuted"
   ],
   "note": "false: no character is checked and upper-case digits are decoded wrongly"
  },
  {
   "property": "C35",
   "status": "partial",
   "theorems": [
    "C35_round_trip_partial",
    "C35_round_trip_refuted",
    "C35_operations_partial"
   ],
   "note": "OpenSSL's raw operations are parameters assumed inverse on blocks; false for messages with NUL or as long as the modulus, proved for all others, also through the C interface"
  },
  {
   "property": "C36",
   "status": "proved",
   "theorems": [
    "C36_gas"
   ],
   "note": "RSA_size below 2^27"
  },
  {
   "property": "C37",
   "status": "partial",
   "theorems": [
    "C37_validation_partial",
    "C37_validation_refuted",
    "C37_result",
    "C37_header"
   ],
   "note": "proved for arrays starting with a string; an empty array throws out of the C function and any other first element is used as a string"
  },
  {
   "property": "C38",
   "status": "partial",
   "theorems": [
    "C38_canonical_partial",
    "C38_canonical_refuted"
   ],
   "note": "letter case proved; zero extension proved for even lengths and false for odd ones (a zero is put in front)"
  },
  {
   "property": "C39",
   "status": "proved",
   "theorems": [
    "C39_gas"
   ],
   "note": "in every history of calls"
  },
  {
   "property": "C40",
   "status": "proved",
   "theorems": [
    "C40_rfc7914"
   ],
   "note": "any hash with 32 bytes of output; generic code path, not SSE2"
  },
  {
   "property": "C41",
   "status": "proved",
   "theorems": [
    "C41_hmac",
    "C41_pbkdf2"
   ],
   "note": "any iteration count from 1 to 2^64-2"
  },
  {
   "property": "C42",
   "status": "proved",
   "theorems": [
    "C42_byte_order"
   ],
   "note": ""
  },
  {
   "property": "C43",
   "status": "partial",
   "theorems": [
    "C43_may_include_exact",
    "C43_no_false_negative_partial",
    "C43_no_false_negative_refuted"
   ],
   "note": "false for texts with 16 dots or more"
  },
  {
   "property": "C44",
   "status": "proved",
   "theorems": [
    "C44_polynomial_hashes",
    "C44_bit_hashes",
    "C44_recurrences",
    "C44_all_32_bit",
    "C44_es_characteristic",
    "C44_es_layout_refuted"
   ],
   "note": "the documented bit layout of ES is refuted; the computed one is characterised"
  },
  {
   "property": "C45",
   "status": "partial",
   "theorems": [
    "C45_arguments",
    "C45_run_success",
    "C45_run_failure",
    "C45_gas_success_partial",
    "C45_gas_failure_partial",
    "C45_library",
    "C45_gas_refuted"
   ],
   "note": "arguments shorter than 2^31 bytes; proved for eni_run, for eni_gas only where operator delete is free: it deletes memory obtained with malloc, undefined behaviour by the language (shown)"
  },
  {
   "property": "C46",
   "status": "proved",
   "theorems": [
    "C46_children",
    "C46_parseArray",
    "C46_arrayGet"
   ],
   "note": "jsmn is not in the repository and is a parameter assumed to give its documented tokens for the text"
  },
  {
   "property": "C47",
   "status": "partial",
   "theorems": [
    "C47_lossless_partial",
    "C47_lossless_refuted"
   ],
   "note": "proved for all tokens whose text has a range of ints; signed overflow for the others"
  },
  {
   "property": "C48",
   "status": "proved",
   "theorems": [
    "C48_member",
    "C48_objectGet"
   ],
   "note": "jsmn as in C46; the last of equal keys counts"
  },
  {
   "property": "C49",
   "status": "partial",
   "theorems": [
    "C49_arguments_partial",
    "C31_exit_refuted"
   ],
   "note": "false for unreadable booleans; object keys shorter than 65536 bytes"
  },
  {
   "property": "C50",
   "status": "proved",
   "theorems": [
    "C50_laws",
    "C50_iterators",
    "C50_assignment_refuted"
   ],
   "note": "the laws and every program over iterators of one block; operator= is not in the claim and has no return statement (undefined behaviour, shown)"
  },
  {
   "property": "C51",
   "status": "partial",
   "theorems": [
    "C51_value_semantics_partial",
    "C51_copy_kept_partial",
    "C51_refuted",
    "C51_delegate_refuted"
   ],
   "note": "proved for all programs over values except: copying a value into a part of itself, push_back of an own element, delegate(); these are undefined behaviour or share (shown)"
  },
  {
   "property": "C52",
   "status": "proved",
   "theorems": [
    "C52_print_total"
   ],
   "note": ""
  },
  {
   "property": "C53",
   "status": "partial",
   "theorems": [
    "C53_growth_partial",
    "C53_growth_refuted"
   ],
   "note": "false: n push_backs make n reallocations; proved: no call makes more than one, and none is made within a reserved size"
  },
  {
   "property": "C54",
   "status": "partial",
   "theorems": [
    "C54_not_array_refuted"
   ],
   "note": "false for every class: the value is used as an array whatever its type"
  },
  {
   "property": "C55",
   "status": "partial",
   "theorems": [
    "C55_reverse_refuted",
    "C55_rsa_refuted",
    "C55_scrypt_refuted",
    "C55_json_refuted"
   ],
   "note": "false of all shipped operations: exception out of the C function or type confusion at the first bad argument"
  },
  {
   "property": "C56",
   "status": "partial",
   "theorems": [
    "C56_parseString_partial",
    "C56_refuted"
   ],
   "note": "false when a NUL stands before the end of the string; proved otherwise"
  },
  {
   "property": "C57",
   "status": "partial",
   "theorems": [
    "C57_refused_partial",
    "C57_index_refuted",
    "C57_document_refuted",
    "C57_unfilled_refuted",
    "C57_key_refuted",
    "C57_offset_refuted",
    "C57_type_refuted"
   ],
   "note": "unknown operations are refused; the bad requests of the refuting theorems are undefined behaviour or throw out of the C function. Malformed documents for which jsmn reports a positive count and tokens inside the text: C110"
  },
  {
   "property": "C58",
   "status": "partial",
   "theorems": [
    "C58_storage_partial",
    "C58_storage_refuted",
    "C58_assign_refuted"
   ],
   "note": "exact: proved for values without integers and arrays of storage, every other value loses storage on every copy"
  },
  {
   "property": "C59",
   "status": "partial",
   "theorems": [
    "C59_standard_partial",
    "C59_standard_refuted"
   ],
   "note": "proved for values without objects and undefined parts; false for every object with a member, keys are not quoted"
  },
  {
   "property": "C60",
   "status": "proved",
   "theorems": [
    "C60_answers"
   ],
   "note": "for texts that are arrays"
  },
  {
   "property": "C61",
   "status": "partial",
   "theorems": [
    "C61_copies_partial",
    "C61_copies_refuted"
   ],
   "note": "proved for maps made with a nonzero size and keys shorter than 65536 bytes; a copy of a map made with size 0 divides by zero"
  },
  {
   "property": "C62",
   "status": "proved",
   "theorems": [
    "C62_parse_memory"
   ],
   "note": "any reallocation policy of std::vector; keys shorter than 65536 bytes"
  },
  {
   "property": "C63",
   "status": "partial",
   "theorems": [
    "C63_storage_partial",
    "C63_storage_refuted",
    "C63_storage_exact"
   ],
   "note": "C63_storage_exact gives the number of objects lost for every readable text and wherever m_Stack grows; the claim itself is false for every text with an integer, an array of anything but booleans, or a replaced member other than a boolean"
  },
  {
   "property": "C64",
   "status": "proved",
   "theorems": [
    "C64_base_memory"
   ],
   "note": "keys shorter than 65536 bytes"
  },
  {
   "property": "C65",
   "status": "proved",
   "theorems": [
    "C65_change_while_iterating",
    "C65_erase_if",
    "C65_insert_while_iterating_refuted",
    "C65_clear_while_iterating_refuted",
    "C65_erase_after_rehash_n_refuted"
   ],
   "note": "fewer than 2^28 calls before the loop; the three refuted theorems show that each restriction of the statement is needed"
  },
  {
   "property": "C66",
   "status": "partial",
   "theorems": [
    "C66_storage_exact",
    "C66_storage_partial",
    "C66_storage_refuted"
   ],
   "note": "exact: false for assignments over a table with entries, proved for all other histories; up to 2^27 calls; bucket arrays: C97"
  },
  {
   "property": "C67",
   "status": "partial",
   "theorems": [
    "C67_out_of_memory_exact",
    "C67_out_of_memory_partial",
    "C67_out_of_memory_adding",
    "C67_never_wrong",
    "C67_out_of_memory_refuted"
   ],
   "note": "false for calls that add a key: exact characterisation for every pattern of failures; proved for all other calls and for the constructor; with rehash(n) too, a failure never leads to a wrong answer"
  },
  {
   "property": "C68",
   "status": "proved",
   "theorems": [
    "C68_calls",
    "C68_other_texts",
    "C68_same_answers"
   ],
   "note": "an array text is required: C68_other_texts shows that any other text of the grammar is undefined behaviour; an exception of a virtual function ends the program"
  },
  {
   "property": "C69",
   "status": "partial",
   "theorems": [
    "C69_storage_partial",
    "C69_storage_refuted",
    "C69_storage_exact"
   ],
   "note": "C69_storage_exact gives the number of objects lost by any program of calls; the claim itself is proved for calls that return nothing and whose arguments are spared by the parser (C63), false for all others, with a lower bound on the objects lost"
  },
  {
   "property": "C70",
   "status": "partial",
   "theorems": [
    "C70_stack_partial",
    "C70_stack_refuted"
   ],
   "note": "false: no fixed stack suffices; proved: the exact number of nested calls for texts of the grammar and an upper bound for all texts; only calls of parse_value are counted"
  },
  {
   "property": "C71",
   "status": "partial",
   "theorems": [
    "C71_loss_partial",
    "C71_loss_refuted"
   ],
   "note": "false: nested arrays lose quadratically many objects; proved: a quadratic upper bound for every text; the bytes of strings and the buffers of vectors are not counted as objects; keys shorter than 65536 bytes"
  },
  {
   "property": "C72",
   "status": "partial",
   "theorems": [
    "C72_object_exact",
    "C72_calls_exact",
    "C72_released_partial",
    "C72_released_refuted"
   ],
   "note": "safety and the exact number of objects left are proved for all sequences of calls; that nothing is left is false; BIO_new_mem_buf and new[] are taken to succeed (C101 is about refused memory)"
  },
  {
   "property": "C73",
   "status": "proved",
   "theorems": [
    "C73_integers",
    "C73_booleans"
   ],
   "note": "the decimal printing of boost::multiprecision is modelled as the decimal digits of the magnitude after the sign"
  },
  {
   "property": "C74",
   "status": "partial",
   "theorems": [
    "C74_unsigned",
    "C74_signed_partial",
    "C74_signed_exact",
    "C74_signed_refuted"
   ],
   "note": "true of the unsigned types, false of Int; for one operation on Int the operands that agree are characterised exactly"
  },
  {
   "property": "C75",
   "status": "proved",
   "theorems": [
    "C75_entry",
    "C75_whole"
   ],
   "note": "malloc succeeds"
  },
  {
   "property": "C76",
   "status": "partial",
   "theorems": [
    "C76_room_partial",
    "C76_room_refuted"
   ],
   "note": "true up to max_size(), false beyond; the hash table only asks for one object"
  },
  {
   "property": "C77",
   "status": "proved",
   "theorems": [
    "C77_same_value",
    "C77_same_answers"
   ],
   "note": "texts below 2^28 bytes; the contents are the tree the grammar assigns to the text"
  },
  {
   "property": "C78",
   "status": "partial",
   "theorems": [
    "C78_members_partial",
    "C78_order_refuted"
   ],
   "note": "each member exactly once: proved for keys below 65536 bytes; the order depends on the order of insertion"
  },
  {
   "property": "C79",
   "status": "partial",
   "theorems": [
    "C79_verdict",
    "C79_statuses",
    "C79_listed_partial",
    "C79_listed_refuted"
   ],
   "note": "exact for the loaded tests; a path named twice drops the earlier tests (tests.json.in does so for eni_scrypt)"
  },
  {
   "property": "C80",
   "status": "partial",
   "theorems": [
    "C80_parameters_exact",
    "C80_file",
    "C80_asked_exact",
    "C80_random_partial",
    "C80_parameters_refuted"
   ],
   "note": "characterised exactly; false for files with quotation marks or backslashes"
  },
  {
   "property": "C81",
   "status": "proved",
   "theorems": [
    "C81_reverse",
    "C81_scrypt",
    "C81_rsa"
   ],
   "note": "arguments shorter than 2^31 bytes and parameters below 2^28; OpenSSL's raw operations are inverse; messages without NUL shorter than the modulus"
  },
  {
   "property": "C82",
   "status": "proved",
   "theorems": [
    "C82_consensus"
   ],
   "note": "operations are functions of their arguments (opclass); parameters below 2^28 bytes without quotation mark, backslash and NUL; the output is UTF-8"
  },
  {
   "property": "C83",
   "status": "partial",
   "theorems": [
    "C83_moves_partial",
    "C83_moves_quadratic",
    "C83_moves_refuted"
   ],
   "note": "false: the cost per key grows with the number of keys; upper and lower bounds proved"
  },
  {
   "property": "C84",
   "status": "proved",
   "theorems": [
    "C84_buckets",
    "C84_only_one",
    "C84_clear"
   ],
   "note": "histories without clear(); clear() is the third theorem. rehash(n) sets the number itself and is left out, as the statement says"
  },
  {
   "property": "C85",
   "status": "partial",
   "theorems": [
    "C85_message_any_layout",
    "C85_message_partial",
    "C85_message_refuted",
    "C85_fault_unique"
   ],
   "note": "as for C02: the documented language needs the literals below the end of the text; for other layouts the exact set of complaints is proved and a wrong complaint shown"
  },
  {
   "property": "C86",
   "status": "proved",
   "theorems": [
    "C86_final",
    "C86_grammar"
   ],
   "note": "texts below 2^28 bytes, as everywhere; continuations of that length or more are in the language but not claimed to be accepted; the statement about the language is proved for all lengths"
  },
  {
   "property": "C87",
   "status": "partial",
   "theorems": [
    "C87_usage",
    "C87_message",
    "C87_silent",
    "C87_says_why_refuted"
   ],
   "note": "false for statuses 3, 4 and 5, which are silent; the other failures proved"
  },
  {
   "property": "C88",
   "status": "partial",
   "theorems": [
    "C88_different_partial",
    "C88_different_refuted",
    "C88_same_result"
   ],
   "note": "false for messages longer than the modulus or ending in NULs; exactly which results coincide is proved"
  },
  {
   "property": "C89",
   "status": "partial",
   "theorems": [
    "C89_looks_partial",
    "C89_rivals",
    "C89_same_calls",
    "C89_string_map_refuted",
    "C89_json_refuted"
   ],
   "note": "a search ends within the table and must pass all keys of its hash; the bounded average is false for StringMap and for JSON objects (keys of equal SDBM hash); buckets looked at while rehashing are not counted"
  },
  {
   "property": "C90",
   "status": "partial",
   "theorems": [
    "C90_normal_partial",
    "C90_normal_refuted",
    "C90_unchanged"
   ],
   "note": "integers, booleans, strings and arrays, in both directions; objects never print in this form"
  },
  {
   "property": "C91",
   "status": "partial",
   "theorems": [
    "C91_answer_partial",
    "C91_text_refuted"
   ],
   "note": "the answer is bounded by the gas for all operations; the text is not: texts of every length cost nothing"
  },
  {
   "property": "C92",
   "status": "proved",
   "theorems": [
    "C92_length",
    "C92_length_plain",
    "C92_sharp",
    "C92_sharp_plain"
   ],
   "note": "texts below 2^28 bytes; both factors are shown to be reached"
  },
  {
   "property": "C93",
   "status": "proved",
   "theorems": [
    "C93_reads",
    "C93_same_parser"
   ],
   "note": "reads of characters by the scanner; what the callbacks do (copies, insertions: C71, C83, C89) is not counted"
  },
  {
   "property": "C94",
   "status": "proved",
   "theorems": [
    "C94_forward_iterators"
   ],
   "note": "between iterator calls the tables change only through the iterators (for calls that change the table see C65); operator* cannot be instantiated and is left out"
  },
  {
   "property": "C95",
   "status": "proved",
   "theorems": [
    "C95_path",
    "C95_order"
   ],
   "note": "keys of the text below 65536 bytes; repeated keys count with their last value; in C95_order no object has a repeated key"
  },
  {
   "property": "C96",
   "status": "proved",
   "theorems": [
    "C96_enough",
    "C96_no_less"
   ],
   "note": "keys of the text below 65536 bytes; calls of Value::print, of the copy constructor and assignment and of ~Value are counted, each on its own; C96_no_less without repeated keys"
  },
  {
   "property": "C97",
   "status": "partial",
   "theorems": [
    "C97_arrays_exact",
    "C97_arrays_partial",
    "C97_arrays_refuted"
   ],
   "note": "false for move assignment into a table that has a bucket array (the array is lost); proved for all other histories, with the exact number lost in general; up to 2^27 calls; allocation succeeds"
  },
  {
   "property": "C98",
   "status": "partial",
   "theorems": [
    "C98_same_answers",
    "C98_storage_exact",
    "C98_storage_partial",
    "C98_storage_refuted"
   ],
   "note": "false for emplace_back, which never deletes the object it makes with new; C98_storage_exact gives the exact number left for every history without undefined behaviour; elements trivially copyable"
  },
  {
   "property": "C99",
   "status": "partial",
   "theorems": [
    "C99_path",
    "C99_next",
    "C99_string_partial",
    "C99_absent",
    "C99_apart"
   ],
   "note": "jsmn is assumed to give its documented tokens for the document and its parts; reaching a part is proved in full; parseString of it without NUL before the end of the string (false with one: C56_refuted)"
  }
 ]
}