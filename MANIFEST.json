{
 "claims": [
  {
   "property": "C01",
   "status": "proved",
   "theorems": [
    "C01_code_point_round_trip"
   ],
   "note": ""
  },
  {
   "property": "C02",
   "status": "proved",
   "theorems": [
    "C02_encoding_is_utf8",
    "C02_zero_is_empty"
   ],
   "note": "All code points 1..0x10FFFF; code point 0 gives an empty Char (C02_zero_is_empty)."
  },
  {
   "property": "C03",
   "status": "proved",
   "theorems": [
    "C03_accepts_exactly_units",
    "C03_cstring_constructor"
   ],
   "note": ""
  },
  {
   "property": "C04",
   "status": "partial",
   "theorems": [
    "C04_wellformed_accepted_partial",
    "C04_accepted_wellformed_iff_partial",
    "C04_only_wellformed_refuted",
    "C04_distinct_chars_same_code_point_refuted"
   ],
   "note": "Full statement refuted: overlong forms, surrogates and values above 0x10FFFF are accepted. Proved: every well-formed unit is accepted; exact condition for an accepted Char to be well-formed."
  },
  {
   "property": "C05",
   "status": "proved",
   "theorems": [
    "C05_char_order"
   ],
   "note": ""
  },
  {
   "property": "C06",
   "status": "partial",
   "theorems": [
    "C06_get_code_point_safe_partial",
    "C06_unit_value_partial",
    "C06_memory_safe_refuted"
   ],
   "note": "Full statement refuted: Char(byte) with byte 0xE0..0xF7 followed by GetCodePoint reads out of range. Proved: that is the only way."
  },
  {
   "property": "C07",
   "status": "proved",
   "theorems": [
    "C07_is_space"
   ],
   "note": ""
  },
  {
   "property": "C08",
   "status": "proved",
   "theorems": [
    "C08_ascii_case"
   ],
   "note": ""
  },
  {
   "property": "C09",
   "status": "proved",
   "theorems": [
    "C09_uppercase_idempotent"
   ],
   "note": ""
  },
  {
   "property": "C10",
   "status": "partial",
   "theorems": [
    "C10_lowercase_caseless_refuted",
    "C10_lowercase_shifts",
    "C10_lowercase_idempotent_partial",
    "C10_string_lowercase_refuted"
   ],
   "note": "Full statement refuted: every code point >= 0x1FEC (CJK, emoji...) is shifted by 8. Proved below 0x1FEC."
  },
  {
   "property": "C11",
   "status": "partial",
   "theorems": [
    "C11_is_digit",
    "C11_to_digit_partial",
    "C11_digit_value_refuted"
   ],
   "note": "IsDigit exactly characterised; ToDigit only knows ASCII, so the agreement is refuted for the other 35 blocks."
  },
  {
   "property": "C12",
   "status": "proved",
   "theorems": [
    "C12_upper_lower_disjoint"
   ],
   "note": ""
  },
  {
   "property": "C13",
   "status": "proved",
   "theorems": [
    "C13_bytes_in_bytes_out",
    "C13_embedded_nul",
    "C13_utf8_text"
   ],
   "note": ""
  },
  {
   "property": "C14",
   "status": "partial",
   "theorems": [
    "C14_construction_partial",
    "C14_no_overread_refuted"
   ],
   "note": "Exact trichotomy proved: success iff concatenation of units, over-read iff a lead byte announces more than the rest plus terminator, otherwise an exception. The claim 'never a read past the terminator' is refuted."
  },
  {
   "property": "C15",
   "status": "proved",
   "theorems": [
    "C15_lengths"
   ],
   "note": ""
  },
  {
   "property": "C16",
   "status": "partial",
   "theorems": [
    "C16_concatenation",
    "C16_append_bytes",
    "C16_append_repeated",
    "C16_piecewise",
    "C16_self_append_refuted",
    "C16_repeat_own_element_partial"
   ],
   "note": "Proved for every pair of distinct Strings; appending or inserting a String into itself is undefined behaviour (refuted); repeating an own element is characterised by capacity."
  },
  {
   "property": "C17",
   "status": "proved",
   "theorems": [
    "C17_substring",
    "C17_split_concat",
    "C17_insert",
    "C17_insert_variants"
   ],
   "note": ""
  },
  {
   "property": "C18",
   "status": "proved",
   "theorems": [
    "C18_prefix_suffix"
   ],
   "note": ""
  },
  {
   "property": "C19",
   "status": "partial",
   "theorems": [
    "C19_contains_partial",
    "C19_contains_refuted"
   ],
   "note": "Proved unless both Strings are empty; refuted for empty in empty."
  },
  {
   "property": "C20",
   "status": "partial",
   "theorems": [
    "C20_find_partial",
    "C20_find_other_cases",
    "C20_find_empty_needle_refuted",
    "C20_find_start_past_end_refuted"
   ],
   "note": "Proved for non-empty needles and start positions up to size(); refuted for the empty needle at the end and for start positions past the end (undefined behaviour)."
  },
  {
   "property": "C21",
   "status": "partial",
   "theorems": [
    "C21_reverse_find_end_index_partial",
    "C21_reverse_find_single_partial",
    "C21_reverse_find_refuted"
   ],
   "note": "The result is the index of the last character of the last occurrence; right for one-character needles, refuted for longer ones."
  },
  {
   "property": "C22",
   "status": "proved",
   "theorems": [
    "C22_strict_total_order",
    "C22_consistent",
    "C22_order_of_bytes",
    "C22_order_of_code_points",
    "C22_order_with_c_strings"
   ],
   "note": ""
  },
  {
   "property": "C23",
   "status": "proved",
   "theorems": [
    "C23_case_conversion",
    "C23_length_preserved",
    "C23_case_total",
    "C23_ascii",
    "C23_char"
   ],
   "note": ""
  },
  {
   "property": "C24",
   "status": "proved",
   "theorems": [
    "C24_at"
   ],
   "note": ""
  },
  {
   "property": "C25",
   "status": "proved",
   "theorems": [
    "C25_kmp_is_substring_search"
   ],
   "note": ""
  },
  {
   "property": "C26",
   "status": "partial",
   "theorems": [
    "C26_kmp_safe_partial",
    "C26_failure_table_safe",
    "C26_empty_pattern_partial",
    "C26_kmp_safe_refuted"
   ],
   "note": "Proved for non-empty patterns; the empty pattern is characterised exactly and can read out of bounds (refuted)."
  },
  {
   "property": "C27",
   "status": "proved",
   "theorems": [
    "C27_split_join",
    "C27_join_split"
   ],
   "note": ""
  },
  {
   "property": "C28",
   "status": "partial",
   "theorems": [
    "C28_repeat_partial",
    "C28_repeat_zero_refuted"
   ],
   "note": "Proved for n >= 1; Repeat(s,0) returns s (refuted)."
  },
  {
   "property": "C29",
   "status": "partial",
   "theorems": [
    "C29_escape_partial",
    "C29_plain_text",
    "C29_exactly_partial",
    "C29_unicode_escape_refuted",
    "C29_unknown_escape_refuted",
    "C29_escape_memory_safe_refuted"
   ],
   "note": "What EscapeString does to every text is proved exactly (lib_escaped: every escape, including escapes u whose four characters are not four digits, and the exception). The claim itself holds for texts whose u-escapes denote ASCII; it is refuted for other u-escapes (low byte only, may read out of bounds) and for unknown escapes (character doubled)."
  },
  {
   "property": "C30",
   "status": "partial",
   "theorems": [
    "C30_find_first_non_space",
    "C30_find_last_non_space_partial",
    "C30_find_last_first_char_refuted",
    "C30_find_last_empty_refuted",
    "C30_is_number"
   ],
   "note": "FindFirstNonSpace and IsNumber fully proved; FindLastNonSpace never examines index 0 and is undefined on the empty String (refuted, exact behaviour proved)."
  },
  {
   "property": "C31",
   "status": "proved",
   "theorems": [
    "C31_escaped_braces"
   ],
   "note": ""
  },
  {
   "property": "C32",
   "status": "proved",
   "theorems": [
    "C32_placeholders_in_order"
   ],
   "note": ""
  },
  {
   "property": "C33",
   "status": "partial",
   "theorems": [
    "C33_positional_partial",
    "C33_out_of_range_anywhere_partial",
    "C33_no_arguments_refuted"
   ],
   "note": "Proved for at least one argument, every numeral, in any context; with no arguments the bound size()-1 wraps and {0} is undefined behaviour (refuted)."
  },
  {
   "property": "C34",
   "status": "proved",
   "theorems": [
    "C34_width_fill_alignment",
    "C34_length"
   ],
   "note": ""
  },
  {
   "property": "C35",
   "status": "partial",
   "theorems": [
    "C35_precision_partial",
    "C35_precision_zero_partial",
    "C35_precision_zero_refuted"
   ],
   "note": "Precision >= 1 proved; precision 0 or none keeps the dot (refuted, exact behaviour proved)."
  },
  {
   "property": "C36",
   "status": "proved",
   "theorems": [
    "C36_unbalanced_is_error",
    "C36_success_means_balanced"
   ],
   "note": ""
  },
  {
   "property": "C37",
   "status": "partial",
   "theorems": [
    "C37_never_undefined_partial",
    "C37_never_undefined_refuted",
    "C37_undefined_exactly",
    "C37_returns_exactly",
    "C37_throws_exactly"
   ],
   "note": "Refuted: {:} , more {} than arguments, {0} or {:5} without arguments, {0:5} after the last {}. Exactly which templates are carried out, throw, or have undefined behaviour is proved for every template and argument list (C37_undefined_exactly, C37_returns_exactly, C37_throws_exactly)."
  },
  {
   "property": "C38",
   "status": "partial",
   "theorems": [
    "C38_single_argument_partial",
    "C38_actual_partial",
    "C38_wrong_argument_refuted"
   ],
   "note": "Right with a single argument; with more arguments {:spec} always formats argument 0 and {i:spec} the next automatic one (refuted, exact behaviour proved)."
  },
  {
   "property": "C39",
   "status": "proved",
   "theorems": [
    "C39_from_text",
    "C39_from_c_string",
    "C39_from_int",
    "C39_always_shows_a_number",
    "C39_shows_one_number"
   ],
   "note": "int_numeral is the spec of optionally signed ASCII numerals; also for the integer constructors and for every BigInteger obtainable through the API."
  },
  {
   "property": "C40",
   "status": "partial",
   "theorems": [
    "C40_add_partial",
    "C40_add_refuted"
   ],
   "note": "Exact except when x < 0, y >= 0 with positive sign and x + y < 0, where the result is -(x + y): -5 + 3 is 2 (refuted; exact behaviour proved)."
  },
  {
   "property": "C41",
   "status": "partial",
   "theorems": [
    "C41_sub_partial",
    "C41_sub_refuted"
   ],
   "note": "Exact for non-negative operands, a zero operand and x = y; every case with a negative operand is wrong otherwise (refuted; exact behaviour proved)."
  },
  {
   "property": "C42",
   "status": "proved",
   "theorems": [
    "C42_multiply"
   ],
   "note": ""
  },
  {
   "property": "C43",
   "status": "proved",
   "theorems": [
    "C43_divide",
    "C43_divide_by_zero"
   ],
   "note": ""
  },
  {
   "property": "C44",
   "status": "proved",
   "theorems": [
    "C44_modulo",
    "C44_identity"
   ],
   "note": "The remainder of a negative multiple is the second zero of C48; a == (a/b)*b + a%b holds nevertheless."
  },
  {
   "property": "C45",
   "status": "proved",
   "theorems": [
    "C45_pow",
    "C45_pow_negative_exponent",
    "C45_sqr",
    "C45_abs"
   ],
   "note": ""
  },
  {
   "property": "C46",
   "status": "partial",
   "theorems": [
    "C46_sqrt_partial",
    "C46_sqrt_negative",
    "C46_sqrt_refuted"
   ],
   "note": "Proved, with a termination bound, for every non-negative integer except the negative zero of C48, for which Sqrt throws (refuted)."
  },
  {
   "property": "C47",
   "status": "partial",
   "theorems": [
    "C47_order_partial",
    "C47_weak_order_partial",
    "C47_strict_total_order",
    "C47_order_refuted"
   ],
   "note": "Two negative integers are ordered by magnitude (refuted; exact behaviour proved). It is a strict total order nevertheless."
  },
  {
   "property": "C48",
   "status": "partial",
   "theorems": [
    "C48_equal_partial",
    "C48_only_these_partial",
    "C48_equal_refuted"
   ],
   "note": "3 + (-3) and (-4) % 2 are a negative zero, not Equal to zero (refuted). Proved for all values that read back from their own text, and that every other result does."
  },
  {
   "property": "C49",
   "status": "partial",
   "theorems": [
    "C49_accepted_partial",
    "C49_lone_sign_refuted",
    "C49_foreign_digit_refuted"
   ],
   "note": "A lone sign and non-ASCII decimal digits are accepted (refuted). Exact set of accepted texts proved."
  },
  {
   "property": "C50",
   "status": "partial",
   "theorems": [
    "C50_throws_partial",
    "C50_throws_refuted"
   ],
   "note": "Dividing by the negative zero of C48 returns a value that prints no number (refuted). Throws exactly when the divisor is Equal to zero."
  },
  {
   "property": "C51",
   "status": "partial",
   "theorems": [
    "C51_whole_partial",
    "C51_fraction_partial",
    "C51_kept_iff_partial",
    "C51_print_parse",
    "C51_kept_refuted",
    "C51_sign_refuted"
   ],
   "note": "Full statement refuted: fraction digits are stored as an integer, so 1.05 and 1.5 coincide, and -0.5 loses its sign. Proved: what every decimal becomes, exactly which ones keep their value, and print/parse round trip for all BigFloats."
  },
  {
   "property": "C52",
   "status": "partial",
   "theorems": [
    "C52_terminates_partial",
    "C52_terminates_refuted"
   ],
   "note": "Refuted: Add and Subtract loop for ever when exactly one fraction is zero (1.5 + 2). Proved: they return in every other case."
  },
  {
   "property": "C53",
   "status": "partial",
   "theorems": [
    "C53_whole_partial",
    "C53_add_partial",
    "C53_add_result_partial",
    "C53_sub_partial",
    "C53_sub_result_partial",
    "C53_add_refuted"
   ],
   "note": "Refuted for a carry out of two or more fraction digits. Proved: whole numbers, no carry, one-digit fractions; exact result in every terminating non-negative case."
  },
  {
   "property": "C54",
   "status": "partial",
   "theorems": [
    "C54_multiply_partial",
    "C54_result_partial",
    "C54_whole_refuted"
   ],
   "note": "Refuted: whole factors make the product 10 or 100 times too large. Proved: right product when both fractions are non-zero and none of the product's fraction zeros is lost; exact result in every case."
  },
  {
   "property": "C55",
   "status": "partial",
   "theorems": [
    "C55_by_zero",
    "C55_whole_partial",
    "C55_divide_partial",
    "C55_result_partial",
    "C55_longer_divisor_refuted",
    "C55_whole_divisor_refuted"
   ],
   "note": "Refuted: a divisor with more fraction digits throws length_error, 1.5 / 2 is 0. Proved: whole numbers, and fractions with at most as many digits in the divisor; division by zero throws."
  },
  {
   "property": "C56",
   "status": "partial",
   "theorems": [
    "C56_order_partial",
    "C56_equal_partial",
    "C56_strict_total_order",
    "C56_order_refuted"
   ],
   "note": "Refuted: fractions are compared as integers. Proved: right for equal fraction length or a whole operand, non-negative; strict total order consistent with Equal."
  },
  {
   "property": "C57",
   "status": "partial",
   "theorems": [
    "C57_pow_result_partial",
    "C57_pow_negative_exponent",
    "C57_sqrt_result_partial",
    "C57_sqrt_small_partial",
    "C57_pow_refuted",
    "C57_sqrt_refuted"
   ],
   "note": "Refuted: Pow of x is (100x)^e and Sqrt of n is sqrt(n/100) because Multiply is wrong on whole numbers; proved as such for all whole numbers."
  },
  {
   "property": "C58",
   "status": "partial",
   "theorems": [
    "C58_round_trip_partial",
    "C58_reload_partial",
    "C58_injection_refuted",
    "C58_not_read_back_refuted",
    "C58_float_refuted"
   ],
   "note": "Proved for every tree with an object at the root whose strings and keys have no quotation mark or backslash, whose text before every literal is ASCII and whose floats print with an exponent, both modes, every indent. C58_reload_partial says what comes back of strings with escapes, repeated keys and floats printed plainly. Refuted in general: quotation marks are printed raw (the text can parse to other members), literals after multi-byte text are not read back, floats without exponent come back as integers."
  },
  {
   "property": "C59",
   "status": "proved",
   "theorems": [
    "C59_terminates",
    "C59_nesting",
    "C59_stream"
   ],
   "note": ""
  },
  {
   "property": "C60",
   "status": "partial",
   "theorems": [
    "C60_result_partial",
    "C60_sticky_partial",
    "C60_rejected_partial",
    "C60_unreported_refuted"
   ],
   "note": "Proved: exactly one of error with Null root / NoError with an Object root. Refuted: a rejected text need not be reported, because garbage after the object and characters lost in strings go unnoticed."
  },
  {
   "property": "C61",
   "status": "partial",
   "theorems": [
    "C61_blank_refuted",
    "C61_unclosed_refuted",
    "C61_escape_at_end_refuted",
    "C61_accepted_partial",
    "C61_no_object_partial",
    "C61_no_exception_partial"
   ],
   "note": "Refuted: blank texts, unclosed objects and an escape before the closing quote read out of bounds. Proved: no undefined behaviour for accepted grammar texts, for texts without object, and no exception without a u escape."
  },
  {
   "property": "C62",
   "status": "partial",
   "theorems": [
    "C62_accepted_partial",
    "C62_garbage_refuted",
    "C62_not_json_refuted"
   ],
   "note": "Proved: the accepted texts are exactly those of the library's grammar. Refuted: anything may follow the object, and the grammar is wider than JSON (leading zeros, plus signs, u escapes, ...)."
  },
  {
   "property": "C63",
   "status": "partial",
   "theorems": [
    "C63_ascii_partial",
    "C63_document_partial",
    "C63_offset_refuted",
    "C63_after_multibyte_refuted"
   ],
   "note": "Proved after any ASCII text; exact law: the bytes at the offset equal to the character position decide. Refuted after multi-byte characters, where a literal is rejected or even read as another one."
  },
  {
   "property": "C64",
   "status": "partial",
   "theorems": [
    "C64_integer_partial",
    "C64_out_of_range_partial",
    "C64_exponent_partial",
    "C64_fraction_refuted"
   ],
   "note": "Proved for integers in and out of 64-bit range and for literals with exponent (as stod converts them). Refuted for a decimal point without exponent: the fraction is dropped."
  },
  {
   "property": "C65",
   "status": "partial",
   "theorems": [
    "C65_plain_partial",
    "C65_escape_refuted",
    "C65_unicode_refuted"
   ],
   "note": "Proved without backslash. Refuted for every escape: the character after it is lost; u escapes give one byte only."
  },
  {
   "property": "C66",
   "status": "proved",
   "theorems": [
    "C66_insertion_ordered_map",
    "C66_new_document",
    "C66_other_root"
   ],
   "note": "Every sequence of AddMember, operator[], writes through the reference and RemoveMember."
  },
  {
   "property": "C67",
   "status": "partial",
   "theorems": [
    "C67_append_partial",
    "C67_at_partial",
    "C67_write_inside_partial",
    "C67_write_outside_refuted"
   ],
   "note": "Append, const At and writes inside the array proved. Refuted: operator[] at or beyond the end constructs an object at a null pointer."
  },
  {
   "property": "C68",
   "status": "partial",
   "theorems": [
    "C68_const_access_refuted",
    "C68_failed_document_refuted",
    "C68_access_refuted",
    "C68_getters_partial"
   ],
   "note": "Refuted for every value of another kind: const access is undefined behaviour, non-const access replaces the value. Getters and GetData proved."
  },
  {
   "property": "C69",
   "status": "partial",
   "theorems": [
    "C69_apart_partial",
    "C69_self_partial",
    "C69_from_inside_refuted",
    "C69_into_itself_partial",
    "C69_into_itself_refuted",
    "C69_cases"
   ],
   "note": "Proved for nodes apart and for self assignment. Refuted for every source inside the target (use after delete); exact result when the target is inside the source."
  },
  {
   "property": "C70",
   "status": "partial",
   "theorems": [
    "C70_others_partial",
    "C70_make",
    "C70_integral_refuted",
    "C70_boolean_refuted",
    "C70_floating_refuted"
   ],
   "note": "Refuted: MakeIntegral, MakeFloating and MakeBoolean build strings. Make, MakeNull, MakeObject, MakeArray, MakeString proved."
  },
  {
   "property": "C71",
   "status": "partial",
   "theorems": [
    "C71_shared_message_refuted",
    "C71_distinct_partial"
   ],
   "note": "Refuted by InvalidEscapeSequence and OutOfRangeError; all other pairs proved distinct."
  },
  {
   "property": "C72",
   "status": "proved",
   "theorems": [
    "C72_accessors"
   ],
   "note": ""
  },
  {
   "property": "C73",
   "status": "proved",
   "theorems": [
    "C73_map_laws",
    "C73_monad_laws",
    "C73_errors_untouched",
    "C73_error_duals",
    "C73_eliminators"
   ],
   "note": "AndThen, Then and OrElse keep the value type (as in the code); MapError keeps the error type, the only instantiable case. Filter and UnwrapOrDefault cannot be instantiated."
  },
  {
   "property": "C74",
   "status": "proved",
   "theorems": [
    "C74_destroyed_exactly_once"
   ],
   "note": "Every history, including throwing constructors; assignments that throw are C75."
  },
  {
   "property": "C75",
   "status": "partial",
   "theorems": [
    "C75_refuted",
    "C75_partial"
   ],
   "note": "Refuted: a throwing copy in assignment leaves a dead object that is destroyed again. Exact characterisation proved: a complete history is undefined exactly when an assignment between different variables throws."
  },
  {
   "property": "C76",
   "status": "proved",
   "theorems": [
    "C76_exactly_once",
    "C76_when"
   ],
   "note": "operator=(Pointer) and Release cannot be instantiated and are not modelled."
  },
  {
   "property": "C77",
   "status": "proved",
   "theorems": [
    "C77_count_is_owners",
    "C77_count_at_rest"
   ],
   "note": "Every history and interleaving of race-free calls, for as long as it is defined (only the copy of a null pointer is not, C80). Atomics sequentially consistent, counter not overflowing."
  },
  {
   "property": "C78",
   "status": "partial",
   "theorems": [
    "C78_refuted",
    "C78_never_deleted_refuted"
   ],
   "note": "Refuted: fetch_sub's old value is compared with 0 instead of 1; in every history nothing is ever deleted."
  },
  {
   "property": "C79",
   "status": "proved",
   "theorems": [
    "C79_no_use_after_delete"
   ],
   "note": "Holds because nothing is ever deleted (C78)."
  },
  {
   "property": "C80",
   "status": "partial",
   "theorems": [
    "C80_refuted",
    "C80_partial"
   ],
   "note": "Refuted for every null pointer: the copy constructors dereference the null counter. Assignment of a null pointer proved to work."
  },
  {
   "property": "C81",
   "status": "partial",
   "theorems": [
    "C81_refuted",
    "C81_partial",
    "C81_lock"
   ],
   "note": "Refuted: a WeakPtr holds a SharedPtr and counts as an owner. Proved: expired depends only on the WeakPtr itself. What lock does is proved in every history (C81_lock)."
  },
  {
   "property": "C82",
   "status": "proved",
   "theorems": [
    "C82_null_deref_throws",
    "C82_moved_from_throws"
   ],
   "note": "UniquePtr, Ptr, SharedPtr and WeakPtr."
  },
  {
   "property": "C83",
   "status": "proved",
   "theorems": [
    "C83_cmp_exact"
   ],
   "note": "cmp_eq and cmp_less; the other four comparison templates cannot be instantiated."
  },
  {
   "property": "C84",
   "status": "partial",
   "theorems": [
    "C84_exit_code_partial",
    "C84_no_exit_code_refuted"
   ],
   "note": "Proved for printable messages (0 exactly when all tests ran and returned, unconditionally); refuted: an unprintable message makes RunAll throw."
  },
  {
   "property": "C85",
   "status": "partial",
   "theorems": [
    "C85_runs_all_in_order_partial",
    "C85_prefix_in_order_partial"
   ],
   "note": "Proved for every reachable registry when the messages are printable; otherwise a prefix of the order (see C87)."
  },
  {
   "property": "C86",
   "status": "proved",
   "theorems": [
    "C86_summary_lists_failures",
    "C86_counts"
   ],
   "note": "Whenever RunAll returns, in any state, including repeated runs."
  },
  {
   "property": "C87",
   "status": "partial",
   "theorems": [
    "C87_stops_only_at_unprintable_partial",
    "C87_stops_refuted",
    "C87_undefined_refuted"
   ],
   "note": "Refuted: the exception message is converted to String inside the handler, which throws or reads out of bounds. Proved: nothing else stops a run."
  },
  {
   "property": "C88",
   "status": "partial",
   "theorems": [
    "C88_exit_code_history_partial",
    "C88_second_run_refuted"
   ],
   "note": "Refuted: counters are never reset, a failure in an earlier run makes all later runs return 1. Exact rule proved for every history."
  },
  {
   "property": "C89",
   "status": "proved",
   "theorems": [
    "C89_first_records_later_throw",
    "C89_at_most_one"
   ],
   "note": ""
  },
  {
   "property": "C90",
   "status": "proved",
   "theorems": [
    "C90_builder_accumulates",
    "C90_empty_builder",
    "C90_constructors"
   ],
   "note": ""
  },
  {
   "property": "C91",
   "status": "partial",
   "theorems": [
    "C91_copy_same_text",
    "C91_append_to_copy_partial",
    "C91_append_to_copy_refuted",
    "C91_moved_builder"
   ],
   "note": "A copy has the same text, but appending to it overwrites from the start (refuted; exact behaviour proved). Moving is fine."
  },
  {
   "property": "C92",
   "status": "partial",
   "theorems": [
    "C92_lines_of_text_partial",
    "C92_pieces_partial",
    "C92_nul_refuted",
    "C92_undefined_refuted"
   ],
   "note": "Proved for every text and ASCII delimiter, and for every content up to the conversion of each piece; refuted for NUL bytes (line cut short) and lines ending inside a character (undefined behaviour)."
  },
  {
   "property": "C93",
   "status": "partial",
   "theorems": [
    "C93_untroubled_histories_partial",
    "C93_exact_partial",
    "C93_lost_after_end_refuted",
    "C93_lost_after_open_refuted",
    "C93_all_lost_partial"
   ],
   "note": "Refuted: after reading to the end, or after a second Open, writes are silently lost. Exact effect of a write in every state proved; histories without visible trouble proved."
  },
  {
   "property": "C94",
   "status": "partial",
   "theorems": [
    "C94_undefined_refuted",
    "C94_never_whole_refuted",
    "C94_up_to_nul_partial",
    "C94_exact_partial",
    "C94_failed_partial"
   ],
   "note": "Refuted for every file: the buffer has no terminator, Read is undefined behaviour for every text and never returns the whole content."
  },
  {
   "property": "C95",
   "status": "proved",
   "theorems": [
    "C95_pairwise",
    "C95_map_history"
   ],
   "note": "For any sequence of pairs, and for std::map after any history of writes and erasures."
  },
  {
   "property": "C96",
   "status": "proved",
   "theorems": [
    "C96_basic_alphabets"
   ],
   "note": ""
  },
  {
   "property": "C97",
   "status": "partial",
   "theorems": [
    "C97_small_letters_partial",
    "C97_capital_letters_partial",
    "C97_round_trip_refuted"
   ],
   "note": "Full round trip refuted; exact set of letters for which it holds is proved."
  },
  {
   "property": "C98",
   "status": "partial",
   "theorems": [
    "C98_odd_pairs_partial",
    "C98_even_pairs_wrong",
    "C98_even_pairs_refuted"
   ],
   "note": "Refuted for 0x139..0x148 (parity swapped for every pair); proved for the other Latin Extended-A pairs."
  },
  {
   "property": "C99",
   "status": "partial",
   "theorems": [
    "C99_reopened_partial",
    "C99_after_end_refuted",
    "C99_after_erase_refuted"
   ],
   "note": "Refuted: the position survives Close and Erase, and after the end was reached every ReadLine after Close throws. Exact behaviour proved."
  },
  {
   "property": "C100",
   "status": "partial",
   "theorems": [
    "C100_apart_partial",
    "C100_from_inside_refuted",
    "C100_into_itself_refuted",
    "C100_document_partial"
   ],
   "note": "Proved for nodes apart and for documents. Refuted when one node is inside the other."
  },
  {
   "property": "C101",
   "status": "partial",
   "theorems": [
    "C101_never_reported_refuted",
    "C101_reported_partial"
   ],
   "note": "Refuted: InvalidValue, InvalidNumber, OutOfRangeError, UnterminatedObject, UnterminatedArray, ExpectedStringKey and NumberConversionError are never reported by Parse, whatever the text. The other codes are reachable (witnesses)."
  },
  {
   "property": "C102",
   "status": "partial",
   "theorems": [
    "C102_void_nullptr_bool",
    "C102_array_pointer_lvalue",
    "C102_arithmetic_partial",
    "C102_qualified_arithmetic_refuted",
    "C102_rvalue_reference_refuted",
    "C102_same"
   ],
   "note": "Proved for void, nullptr, bool, arrays, pointers and lvalue references, and for arithmetic types without qualifiers. Refuted: IsIntegral<const int> is false; the constraint IsRValueReference asks for lvalue references."
  },
  {
   "property": "C103",
   "status": "partial",
   "theorems": [
    "C103_add",
    "C103_remove_cv",
    "C103_spec_is_functional",
    "C103_remove_one_partial",
    "C103_remove_one_refuted"
   ],
   "note": "Proved for all adding traits and RemoveCV; RemoveConst and RemoveVolatile exactly when the other qualifier is absent. Refuted: RemoveConst also drops volatile (and conversely)."
  },
  {
   "property": "C104",
   "status": "partial",
   "theorems": [
    "C104_add_rvalue_reference",
    "C104_remove",
    "C104_add_lvalue_reference_partial",
    "C104_add_pointer_partial",
    "C104_references_refuted"
   ],
   "note": "Proved for AddRValueReference and the removing traits; exact conditions for the others. Refuted: AddPointer<int&> is int& and AddLValueReference<int&&> is int&&."
  },
  {
   "property": "C105",
   "status": "proved",
   "theorems": [
    "C105_make_signed_unsigned",
    "C105_make_domain",
    "C105_is_signed"
   ],
   "note": ""
  },
  {
   "property": "C106",
   "status": "partial",
   "theorems": [
    "C106_std",
    "C106_rank_partial",
    "C106_extent_partial",
    "C106_alignment_partial",
    "C106_numbers_refuted"
   ],
   "note": "Exact: right iff the number is at most 1. Refuted otherwise, the answers are converted to bool."
  },
  {
   "property": "C107",
   "status": "partial",
   "theorems": [
    "C107_operators_partial",
    "C107_bitwise_or_refuted",
    "C107_subscript_refuted"
   ],
   "note": "Proved for every operator but two. Refuted: the test for | asks for &, the test for [] indexes a value by itself."
  },
  {
   "property": "C108",
   "status": "partial",
   "theorems": [
    "C108_values_partial",
    "C108_one_value_partial",
    "C108_shows_total",
    "C108_value_of",
    "C108_character_refuted"
   ],
   "note": "Proved for integers, booleans and strings. Refuted for characters: 'a' is shown as 97."
  },
  {
   "property": "C109",
   "status": "partial",
   "theorems": [
    "C109_formatted_prompt",
    "C109_lines_of_text_partial",
    "C109_pieces_partial",
    "C109_formatted_prompt",
    "C109_end_of_input_refuted",
    "C109_undefined_refuted"
   ],
   "note": "Proved for well-formed text before the end of the input. Refuted: the end cannot be told from empty lines, and some malformed input is undefined behaviour."
  },
  {
   "property": "C110",
   "status": "partial",
   "theorems": [
    "C110_first_character_partial",
    "C110_empty_line_refuted",
    "C110_one_at_a_time_refuted"
   ],
   "note": "Proved: the first character of the line is returned. Refuted: the rest of the line is dropped and an empty line is undefined behaviour."
  },
  {
   "property": "C111",
   "status": "proved",
   "theorems": [
    "C111_writes_in_order"
   ],
   "note": ""
  },
  {
   "property": "C112",
   "status": "proved",
   "theorems": [
    "C112_passes_iff",
    "C112_failure_message"
   ],
   "note": ""
  },
  {
   "property": "C113",
   "status": "partial",
   "theorems": [
    "C113_passing_partial",
    "C113_operands",
    "C113_condition_once",
    "C113_failing_refuted"
   ],
   "note": "Proved for passing assertions and for ASSERT_TRUE and ASSERT_FALSE. Refuted for failing relation assertions, which evaluate the operands again for the message."
  },
  {
   "property": "C114",
   "status": "partial",
   "theorems": [
    "C114_without_else_partial",
    "C114_else_refuted"
   ],
   "note": "Proved where no else follows. Refuted: an else after the macro belongs to the if inside the macro."
  },
  {
   "property": "C115",
   "status": "partial",
   "theorems": [
    "C115_fail_and_pass",
    "C115_streq_passes_iff",
    "C115_streq_reported_refuted",
    "C115_fail_message_partial",
    "C115_fail_message_refuted"
   ],
   "note": "Proved for FAIL, PASS, a single FAIL_MESSAGE piece and the condition of ASSERT_STREQ. Refuted: a failing ASSERT_STREQ aborts the process; pieces after the first are lost; FAIL_MESSAGE() without piece does not fail."
  },
  {
   "property": "C116",
   "status": "partial",
   "theorems": [
    "C116_single_owner_partial",
    "C116_deletes_only_when_asked",
    "C116_null_throws",
    "C116_copies_refuted",
    "C116_reset_same_refuted"
   ],
   "note": "Proved for programs without copies of a Ptr and without Reset to its own pointer; deletion only on Reset and Destroy for all programs. Refuted with copies and with Reset(p.Get())."
  },
  {
   "property": "C117",
   "status": "partial",
   "theorems": [
    "C117_reads_from_partial",
    "C117_beyond_end_partial",
    "C117_refused_partial",
    "C117_refused_refuted"
   ],
   "note": "Proved for positions that are accepted, in every state of an open File. Refuted for refused ones: the position is kept, so reading fails (negative) or starts there (closed File)."
  },
  {
   "property": "C118",
   "status": "proved",
   "theorems": [
    "C118_memory_holds_values",
    "C118_one_value",
    "C118_copy",
    "C118_independent"
   ],
   "note": "Memory model with addresses refines the value model for every program; undefined behaviour on one side iff on the other."
  },
  {
   "property": "C119",
   "status": "partial",
   "theorems": [
    "C119_deleted_once",
    "C119_one_owner",
    "C119_no_leak_partial",
    "C119_removed_member_leaks_refuted",
    "C119_self_move_leaks_refuted",
    "C119_strings_refuted"
   ],
   "note": "Proved for every program: no double delete, one owner, nothing reachable is deleted. No leak is proved without RemoveMember and without a move into a part of what is moved; both are refuted in general form. Strings inside a JsonData never have their destructor run (refuted)."
  },
  {
   "property": "C120",
   "status": "partial",
   "theorems": [
    "C120_fill_char",
    "C120_fill_byte",
    "C120_empty",
    "C120_through_a_stream_partial",
    "C120_through_a_stream_refuted"
   ],
   "note": "Proved for all Strings without a NUL character. Refuted: what follows a NUL character is lost on reading back."
  },
  {
   "property": "C121",
   "status": "partial",
   "theorems": [
    "C121_first_partial",
    "C121_beyond_the_end_refuted"
   ],
   "note": "Proved for start positions up to the size. Refuted beyond: undefined behaviour."
  },
  {
   "property": "C122",
   "status": "partial",
   "theorems": [
    "C122_scalars_partial",
    "C122_constructors",
    "C122_integers_refuted",
    "C122_refused_text_refuted",
    "C122_predicates",
    "C122_document"
   ],
   "note": "Proved for bools, floating values, Int64 integers and accepted texts. Refuted: larger unsigned integers wrap around; a refused text destroys the previous value."
  },
  {
   "property": "C123",
   "status": "partial",
   "theorems": [
    "C123_one_line",
    "C123_not_good",
    "C123_loop_partial",
    "C123_loop_refuted"
   ],
   "note": "One call is proved for all inputs; the loop for texts that end with a line feed. Refuted: on any text that does not, the loop never ends."
  },
  {
   "property": "C124",
   "status": "partial",
   "theorems": [
    "C124_default",
    "C124_size",
    "C124_from_c_string",
    "C124_abs_partial",
    "C124_abs_refuted"
   ],
   "note": "Size, construction and Abs of non-negative numbers proved. Refuted: Abs leaves every negative number negative."
  },
  {
   "property": "C125",
   "status": "partial",
   "theorems": [
    "C125_result_partial",
    "C125_whole_partial",
    "C125_kept_iff_partial",
    "C125_fraction_refuted",
    "C125_not_finite"
   ],
   "note": "Exact result for every finite double; whole numbers are kept; exactly which fractions are kept. Refuted: 1.05 becomes 1.5, -0.5 becomes 0.5."
  },
  {
   "property": "C126",
   "status": "proved",
   "theorems": [
    "C126_integer_programs"
   ],
   "note": "Exponents are ints; refinement of the member functions to an ideal machine over the integers."
  },
  {
   "property": "C127",
   "status": "partial",
   "theorems": [
    "C127_string_programs_partial",
    "C127_self_append_refuted",
    "C127_bigfloat_programs"
   ],
   "note": "Proved for all programs that never append a String to itself with +=. Refuted: doing so is undefined."
  },
  {
   "property": "C128",
   "status": "partial",
   "theorems": [
    "C128_log",
    "C128_times_partial",
    "C128_failed_time_refuted"
   ],
   "note": "The log, the times of passed tests, of suites and of the run are proved. Refuted: a failed test shows the time of the test before it."
  },
  {
   "property": "C129",
   "status": "partial",
   "theorems": [
    "C129_side_by_side_partial",
    "C129_same_name_refuted",
    "C129_underscore_refuted",
    "C129_registered"
   ],
   "note": "Proved for names without underscores where no two fixtures share a test name. Refuted: TEST_F(A, t) and TEST_F(B, t); TEST(a_b, c) and TEST(a, b_c); TEST(a, b) and TEST_F(F, a_b). What is registered, and under which names, is proved for all names (C129_registered)."
  },
  {
   "property": "C130",
   "status": "partial",
   "theorems": [
    "C130_recurrence",
    "C130_one_sequence",
    "C130_in_range_partial",
    "C130_uniform",
    "C130_one_word",
    "C130_order_refuted"
   ],
   "note": "Range and uniformity proved; the words follow the recurrence of the standard. Missing: that some word of the engine is accepted, for ranges whose size is no power of two (for these fewer than half of all words are passed over). Refuted: min > max is undefined."
  },
  {
   "property": "C131",
   "status": "partial",
   "theorems": [
    "C131_refused_partial",
    "C131_probability",
    "C131_nan_refuted"
   ],
   "note": "Proved for all doubles but NaN. Refuted: a NaN passes the check and the call is undefined."
  },
  {
   "property": "C132",
   "status": "partial",
   "theorems": [
    "C132_integer_partial",
    "C132_floating_max_partial",
    "C132_floating_min_refuted"
   ],
   "note": "Proved for the integer types, and MaxValue for the floating types. Refuted: MinValue of a floating type is positive."
  },
  {
   "property": "C133",
   "status": "proved",
   "theorems": [
    "C133_independent",
    "C133_copy"
   ],
   "note": ""
  },
  {
   "property": "C134",
   "status": "partial",
   "theorems": [
    "C134_in_order_partial",
    "C134_seen_partial",
    "C134_follow_refuted"
   ],
   "note": "Proved for histories in which no call meets the end of the file or a stream error. Refuted: a File that has met the end never sees what another one writes later."
  },
  {
   "property": "C135",
   "status": "partial",
   "theorems": [
    "C135_value_partial",
    "C135_refused_partial",
    "C135_natural",
    "C135_compare_partial",
    "C135_exact_partial",
    "C135_negative_refuted"
   ],
   "note": "Proved for expressions in which every + - % meets operands it is right on; the condition is exact (C135_exact_partial) and holds whenever all intermediate values are non-negative. Refuted: (3 - 8) + 2 shows 3."
  },
  {
   "property": "C136",
   "status": "partial",
   "theorems": [
    "C136_save_load_partial",
    "C136_reload_partial",
    "C136_read_refuted"
   ],
   "note": "Proved for the documents of C58 (and, with what comes back of them, for those of C58_reload_partial), loading with ReadLine up to a NUL or by parsing the stream. Refuted: loading with Read is undefined for every document."
  },
  {
   "property": "C137",
   "status": "partial",
   "theorems": [
    "C137_text",
    "C137_zero",
    "C137_reload_partial",
    "C137_fraction_refuted",
    "C137_special_refuted"
   ],
   "note": "The text is proved for every float. Saving and loading is proved for all finite floats, subnormal ones included: a number written with exponent comes back as a float within rounding, any other as an integer (refuted: the fraction is lost); the second time changes nothing. Refuted for infinities and NaN (the text does not parse)."
  },
  {
   "property": "C138",
   "status": "proved",
   "theorems": [
    "C138_same_search",
    "C138_linear",
    "C138_table_linear",
    "C138_at_least"
   ],
   "note": "Comparisons are counted in a copy of the model that is proved to compute the same. The count itself is bounded from below as well (C138_at_least)."
  },
  {
   "property": "C139",
   "status": "partial",
   "theorems": [
    "C139_in_range_partial",
    "C139_follows_word",
    "C139_default_refuted",
    "C139_undefined_refuted",
    "C139_maximum_refuted",
    "C139_sign"
   ],
   "note": "Range, type and position proved for finite arguments; a zero in the result is never negative (C139_sign). Refuted: the maximum itself can come out (the standard says below it); without arguments only positive numbers come out; min > max, infinities and NaN are undefined."
  },
  {
   "property": "C140",
   "status": "proved",
   "theorems": [
    "C140_accepted",
    "C140_one_value",
    "C140_refused",
    "C140_nearest_refuted"
   ],
   "note": "Hexadecimal numbers, inf and nan do not occur in what ParseNumber hands over. Also shown: because of the two roundings the float is not always the one nearest to the number written."
  },
  {
   "property": "C141",
   "status": "proved",
   "theorems": [
    "C141_unique",
    "C141_shared",
    "C141_new",
    "C141_stable",
    "C141_copy",
    "C141_raw"
   ],
   "note": "Comparing a Ptr whose object has been deleted is undefined in the model (implementation-defined in C++)."
  },
  {
   "property": "C142",
   "status": "partial",
   "theorems": [
    "C142_value_partial",
    "C142_compare_partial",
    "C142_operators",
    "C142_multiply_refuted"
   ],
   "note": "False as stated: every product of numbers other than zero is wrong (C142_multiply_refuted). The value and comparison theorems ask for operands of + and - that are not negative and products with a zero; complements without condition."
  },
  {
   "property": "C143",
   "status": "partial",
   "theorems": [
    "C143_bits_partial",
    "C143_bits_refuted",
    "C143_integers",
    "C143_exact",
    "C143_pointers",
    "C143_range",
    "C143_array",
    "C143_reference",
    "C143_value"
   ],
   "note": "False as stated: for a type of 2^61 bytes or more the number of bits wraps (C143_bits_refuted); C143_bits_partial asks for fewer. The other parts hold as stated; the call SizeOf<MemoryFormat>(f) is left out."
  },
  {
   "property": "C144",
   "status": "partial",
   "theorems": [
    "C144_queries",
    "C144_variable_partial",
    "C144_variable_refuted",
    "C144_arithmetic_partial",
    "C144_bytes_refuted",
    "C144_class",
    "C144_string",
    "C144_members_refuted",
    "C144_library"
   ],
   "note": "False as stated: a member with a reference qualifier is not found (C144_variable_refuted), Int8 and Byte are ambiguous (C144_bytes_refuted), so are classes with two of the members, and a member that is not const is found but cannot be used (C144_members_refuted). C144_class says for every class what happens; the queries are exact for references."
  },
  {
   "property": "C145",
   "status": "partial",
   "theorems": [
    "C145_forward",
    "C145_exact",
    "C145_move_partial",
    "C145_move_refuted"
   ],
   "note": "Forwarding holds as stated (C145_forward, C145_exact). MakeMovable does not take rvalues unless they are const (C145_move_refuted); C145_move_partial is about lvalues. Conversions between different types are left out."
  },
  {
   "property": "C146",
   "status": "proved",
   "theorems": [
    "C146_text",
    "C146_specification"
   ],
   "note": "Format returns r exactly when the rules give r, for every template (C146_text); C146_specification is the same for a single specification. When Format throws or is undefined: C37."
  },
  {
   "property": "C147",
   "status": "partial",
   "theorems": [
    "C147_exactly",
    "C147_in_std",
    "C147_in_code",
    "C147_in_messages",
    "C147_in_errors",
    "C147_refuted"
   ],
   "note": "C147_exactly says when an operator of the library can be used, at any site of any program; C147_in_code, C147_in_std, C147_in_messages and C147_in_errors work this out for ordinary code, templates of the standard library, FAIL() << value and the comparison of errors. The claim that they can always be used is refuted (C147_refuted): a BigInteger is no key of a std::map, and in a namespace that has a + of its own two BigIntegers cannot be added. Not modelled: conversions of the operands, using-declarations and using-directives, friends, base classes."
  },
  {
   "property": "C148",
   "status": "partial",
   "theorems": [
    "C148_any_order",
    "C148_case_refuted",
    "C148_builds_exactly",
    "C148_refuted",
    "C148_repaired"
   ],
   "note": "Any order, nothing missing and nothing repeated: C148_any_order, for file systems without difference of case. Refuted where case matters (C148_case_refuted, for every header for users) and for programs of several source files (C148_refuted); C148_builds_exactly says exactly which programs can be built, C148_repaired that with one path and two definitions put right all could. Not modelled: the headers of the standard library, macros other than include guards, and whether the texts themselves compile."
  },
  {
   "property": "C149",
   "status": "partial",
   "theorems": [
    "C149_numbers",
    "C149_members",
    "C149_refuted"
   ],
   "note": "Refuted (C149_refuted); C149_numbers says exactly, for every list of headers for users, when the operators of the big numbers are known, C149_members that those of the classes always are. For Char, String, Unexpected and JsonDocument the exact order is only computed for examples. Not modelled: value categories (a test asks with rvalues, so operator>> into a JsonDocument is left out) and implicit conversions."
  }
 ]
}