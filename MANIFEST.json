{
 "claims": [
  {
   "property": "C01",
   "status": "proved",
   "theorems": [
    "C01_date_round_trip"
   ],
   "note": "every valid date"
  },
  {
   "property": "C02",
   "status": "proved",
   "theorems": [
    "C02_ticks_decompose"
   ],
   "note": "every tick count in range"
  },
  {
   "property": "C03",
   "status": "partial",
   "theorems": [
    "C03_invalid_rejected_partial",
    "C03_invalid_rejected_refuted",
    "C03_ms1000_refuted"
   ],
   "note": "full statement refuted (negative hour ignored, millisecond 1000 accepted); exact elsewhere"
  },
  {
   "property": "C04",
   "status": "proved",
   "theorems": [
    "C04_AddMonths",
    "C04_AddYears"
   ],
   "note": "complete result-or-exception description of AddMonths and AddYears"
  },
  {
   "property": "C05",
   "status": "proved",
   "theorems": [
    "C05_order",
    "C05_next_day",
    "C05_day_of_week"
   ],
   "note": "all comparison operators, successor day, weekday"
  },
  {
   "property": "C06",
   "status": "proved",
   "theorems": [
    "C06_IsLeapYear",
    "C06_DaysInMonth"
   ],
   "note": ""
  },
  {
   "property": "C07",
   "status": "proved",
   "theorems": [
    "C07_arithmetic"
   ],
   "note": "TimeSpan addition/subtraction and DateTime difference; the Double-valued AddDays family is not part of it"
  },
  {
   "property": "C08",
   "status": "partial",
   "theorems": [
    "C08_in_range_partial",
    "C08_in_range_refuted",
    "C08_from_ticks",
    "C08_history_partial"
   ],
   "note": "full statement refuted by 9999-12-31 23:59:59.1000; proved that this is the only escaping tuple"
  },
  {
   "property": "C09",
   "status": "proved",
   "theorems": [
    "C09_components",
    "C09_constructor",
    "C09_hms_constructor"
   ],
   "note": "components, both integer constructors"
  },
  {
   "property": "C10",
   "status": "partial",
   "theorems": [
    "C10_add_exact_partial",
    "C10_add_wrapping_compiler",
    "C10_refuted"
   ],
   "note": "exact when the sum fits; the overflow case is undefined behaviour in C++ (proved to throw on a wrapping compiler)"
  },
  {
   "property": "C11",
   "status": "partial",
   "theorems": [
    "C11_subtract_partial",
    "C11_refuted",
    "C11_refuted_wrapping_compiler"
   ],
   "note": "full statement refuted: the overflow test is the one for addition, 1-2 throws and real overflows are missed; exact description proved"
  },
  {
   "property": "C12",
   "status": "partial",
   "theorems": [
    "C12_negate_duration_partial",
    "C12_refuted"
   ],
   "note": "full statement refuted: MinValue/MaxValue are built from UInt64 limits so zero is the span that throws; proved for all other values"
  },
  {
   "property": "C13",
   "status": "partial",
   "theorems": [
    "C13_text_partial",
    "C13_injective_partial",
    "C13_spec_identifies",
    "C13_refuted"
   ],
   "note": "full statement refuted for fractions below 0.1 s (zeros appended instead of prepended); proved for the rest"
  },
  {
   "property": "C14",
   "status": "partial",
   "theorems": [
    "C14_SByte_round_trip",
    "C14_Int16_round_trip",
    "C14_Byte_round_trip",
    "C14_UInt16_round_trip",
    "C14_UInt32_round_trip",
    "C14_UInt64_round_trip",
    "C14_Int32_round_trip_partial",
    "C14_Int64_round_trip_partial",
    "C14_MinValue_round_trip_refuted"
   ],
   "note": "proved for six types and for all values but MinValue of Int32/Int64, where parsing the text is signed overflow"
  },
  {
   "property": "C15",
   "status": "partial",
   "theorems": [
    "C15_plus_exact_partial",
    "C15_minus_exact_partial",
    "C15_nonnegative_partial",
    "C15_Byte_negative_partial",
    "C15_TryParse_negative_partial",
    "C15_overflow_detected_refuted"
   ],
   "note": "full statement refuted (wrap-around of the accumulator, -129 as SByte, sign ignored for unsigned); positive ranges proved"
  },
  {
   "property": "C16",
   "status": "partial",
   "theorems": [
    "C16_TryParse_rejects_partial",
    "C16_null_never_parsed",
    "C16_only_integers_partial",
    "C16_parser_total",
    "C16_all_integers_accepted",
    "C16_only_integers_refuted"
   ],
   "note": "full statement refuted: anything may follow the first white space after the digits; exact accepted language proved"
  },
  {
   "property": "C17",
   "status": "proved",
   "theorems": [
    "C17_narrow_CompareTo"
   ],
   "note": ""
  },
  {
   "property": "C18",
   "status": "partial",
   "theorems": [
    "C18_Int32_CompareTo_partial",
    "C18_Int64_CompareTo_partial",
    "C18_UInt32_CompareTo_partial",
    "C18_UInt64_CompareTo_partial",
    "C18_CompareTo_refuted"
   ],
   "note": "full statement refuted (difference truncated to Int32); proved when the difference fits"
  },
  {
   "property": "C19",
   "status": "partial",
   "theorems": [
    "C19_parse_exact",
    "C19_parse_partial",
    "C19_prefix_refuted",
    "C19_round_trip"
   ],
   "note": "Exact language proved for every locale that treats ASCII letters as usual; refuted: every proper prefix (also the empty text) is accepted."
  },
  {
   "property": "C20",
   "status": "proved",
   "theorems": [
    "C20_constructor",
    "C20_row_major",
    "C20_bijection"
   ],
   "note": "all shapes of rank 1 to 3; the bijection for every rank"
  },
  {
   "property": "C21",
   "status": "proved",
   "theorems": [
    "C21_indexing_is_checked",
    "C21_GetValue",
    "C21_SetValue_out_of_range"
   ],
   "note": "Address, GetValue, SetValue for any index arguments"
  },
  {
   "property": "C22",
   "status": "proved",
   "theorems": [
    "C22_store_load_integers",
    "C22_store_load_same_type",
    "C22_rejects"
   ],
   "note": "integer/character boxes into every integer element type with C conversion; same-type boxes for the others; null and unsuitable boxes rejected"
  },
  {
   "property": "C23",
   "status": "partial",
   "theorems": [
    "C23_CopyTo",
    "C23_CopyTo_throws_partial",
    "C23_copy",
    "C23_copy_throws_partial",
    "C23_refuted",
    "C23_refuted_same_array"
   ],
   "note": "proved for distinct arrays when index+length fits Int32; refuted: that sum overflows, and shifting inside one array is memcpy on overlapping memory"
  },
  {
   "property": "C24",
   "status": "partial",
   "theorems": [
    "C24_clear_partial",
    "C24_refuted"
   ],
   "note": "proved for ranges inside the array; refuted outside: exceptions are constructed but not thrown and memory outside is written"
  },
  {
   "property": "C25",
   "status": "proved",
   "theorems": [
    "C25_first_match",
    "C25_bad_window"
   ],
   "note": ""
  },
  {
   "property": "C26",
   "status": "partial",
   "theorems": [
    "C26_shape_queries_partial",
    "C26_refuted"
   ],
   "note": "existing dimensions proved; refuted for rank = number of dimensions and negative ranks"
  },
  {
   "property": "C27",
   "status": "partial",
   "theorems": [
    "C27_blockcopy_partial",
    "C27_blockcopy_throws_partial",
    "C27_blockcopy_arguments",
    "C27_refuted"
   ],
   "note": "proved for all non-empty arrays, overlapping or not; refuted: offset+count overflows Int32, and empty arrays throw"
  },
  {
   "property": "C28",
   "status": "partial",
   "theorems": [
    "C28_byte_access_partial",
    "C28_refuted"
   ],
   "note": "proved for non-negative indices; refuted: negative indices read and write before the array"
  },
  {
   "property": "C29",
   "status": "partial",
   "theorems": [
    "C29_ToBoolean",
    "C29_getbytes",
    "C29_round_trip_partial",
    "C29_boolean_round_trip",
    "C29_double_bits",
    "C29_checked",
    "C29_refuted"
   ],
   "note": "all types at every offset; refuted only for characters from 0x8000, which come back negative"
  },
  {
   "property": "C30",
   "status": "partial",
   "theorems": [
    "C30_dump_partial",
    "C30_decodes",
    "C30_range",
    "C30_large_refuted"
   ],
   "note": "Dump, decodability, length and exceptions proved for every array and window up to 715827840 bytes; refuted beyond (capacity computation overflows)."
  },
  {
   "property": "C31",
   "status": "partial",
   "theorems": [
    "C31_insert_partial",
    "C31_insert_range",
    "C31_insert_empty_refuted",
    "C31_remove_partial",
    "C31_remove_rest",
    "C31_remove_range",
    "C31_remove_empty_refuted",
    "C31_concat_partial",
    "C31_concat_args_partial",
    "C31_concat_null_refuted",
    "C31_substring_partial",
    "C31_substring_range",
    "C31_substring_nul_refuted",
    "C31_copy"
   ],
   "note": "Copy, Substring on NUL-free text, Insert/Remove/Concat of non-empty strings proved for every length; refuted: Substring behind an embedded NUL, every Insert/Remove on or of an empty string throws IndexOutOfRange, Concat(null,...) throws."
  },
  {
   "property": "C32",
   "status": "partial",
   "theorems": [
    "C32_indexof_partial",
    "C32_indexof_all",
    "C32_indexof_range_partial",
    "C32_window_refuted",
    "C32_indexofany",
    "C32_lastindexof_partial",
    "C32_lastindexofany_partial",
    "C32_lastindexof_range",
    "C32_last_window_refuted"
   ],
   "note": "First/last index and the exception cases proved for windows inside the string; refuted: windows reaching past the end are accepted (LastIndexOf clips or throws the wrong exception)."
  },
  {
   "property": "C33",
   "status": "partial",
   "theorems": [
    "C33_indexof_partial",
    "C33_indexof_all_partial",
    "C33_indexof_range",
    "C33_window_refuted",
    "C33_nul_refuted",
    "C33_lastindexof_partial",
    "C33_lastindexof_range_refuted"
   ],
   "note": "Least/greatest occurrence proved for NUL-free texts; refuted: IndexOf ignores the end of the window, NULs cut both strings, LastIndexOf reads outside the block for bad windows."
  },
  {
   "property": "C34",
   "status": "partial",
   "theorems": [
    "C34_trim_unique",
    "C34_trim_partial",
    "C34_trim_whitespace",
    "C34_idempotent_partial",
    "C34_nul_refuted",
    "C34_white_space_partial",
    "C34_given_separators_partial",
    "C34_white_space_refuted"
   ],
   "note": "Trim/TrimStart/TrimEnd equal the unique maximal trimming and are idempotent for every string unless NUL is both a trim character and in the string (refuted there)."
  },
  {
   "property": "C35",
   "status": "partial",
   "theorems": [
    "C35_pad_partial",
    "C35_length",
    "C35_negative",
    "C35_overflow_refuted"
   ],
   "note": "Both paddings, length law and exception cases proved while length+width stays within builder limits; refuted beyond Int32 (signed overflow)."
  },
  {
   "property": "C36",
   "status": "partial",
   "theorems": [
    "C36_equality_partial",
    "C36_equality_bounds",
    "C36_nul_refuted"
   ],
   "note": "==, !=, Equals agree with equality of text for NUL-free texts; refuted after a NUL for != ."
  },
  {
   "property": "C37",
   "status": "partial",
   "theorems": [
    "C37_ordinal_partial",
    "C37_ordinal_order_partial",
    "C37_compare_partial",
    "C37_prefix_refuted",
    "C37_antisymmetry_refuted",
    "C37_transitivity_refuted",
    "C37_compareto_refuted",
    "C37_window_refuted"
   ],
   "note": "Ordinal comparison is the lexicographic total order on equal-length texts; the case-aware comparison decided by the first difference; refuted: a proper prefix compares equal one way and greater the other, no antisymmetry/transitivity, CompareTo(object) always 0, windows unchecked."
  },
  {
   "property": "C38",
   "status": "partial",
   "theorems": [
    "C38_prefix_suffix_partial",
    "C38_startswith_longer_partial",
    "C38_endswith_longer_refuted",
    "C38_startswith_longer_refuted",
    "C38_empty_refuted",
    "C38_endswith_char"
   ],
   "note": "Proved when the probe is not longer than the string (and for StartsWith up to 129 characters); refuted: longer probes read out of bounds, empty receivers throw."
  },
  {
   "property": "C39",
   "status": "partial",
   "theorems": [
    "C39_replace_partial",
    "C39_replace_char_partial",
    "C39_empty_refuted",
    "C39_empty_pattern"
   ],
   "note": "Left-to-right replacement of all occurrences proved for non-empty receiver and pattern; refuted for the empty receiver."
  },
  {
   "property": "C40",
   "status": "partial",
   "theorems": [
    "C40_join_string_partial",
    "C40_join_char_partial",
    "C40_join_char_refuted",
    "C40_join_range"
   ],
   "note": "Join with string separators proved for every array, window and count; Join with a character separator proved with room in the builder and refuted (overrun) when full."
  },
  {
   "property": "C41",
   "status": "partial",
   "theorems": [
    "C41_contains_partial",
    "C41_contains_empty_refuted",
    "C41_contains_empty_loop_refuted",
    "C41_contains_receiver_refuted",
    "C41_terminates_partial"
   ],
   "note": "Contains decides occurrence for non-empty strings, Replace terminates; refuted: Contains(\"\") never returns, an empty receiver throws."
  },
  {
   "property": "C42",
   "status": "partial",
   "theorems": [
    "C42_history_partial",
    "C42_step_partial",
    "C42_insert_before_start_refuted",
    "C42_insert_negative_refuted",
    "C42_insert_empty_refuted",
    "C42_from_empty_refuted",
    "C42_remove_overlap_refuted"
   ],
   "note": "Proved for every history (any length, 17 kinds of operation, exceptions included) that runs without undefined behaviour: results and text are those of the list semantics in StringBuilderSpec.v. The unrestricted claim is false of the code: Insert at -1 appends, before -1 is undefined behaviour, Insert/constructor of an empty string throws, Remove uses overlapping memcpy (refutation theorems); the overrun of Append(Char) is under C43."
  },
  {
   "property": "C43",
   "status": "partial",
   "theorems": [
    "C43_length_within_capacity_partial",
    "C43_no_overrun_partial",
    "C43_append_char_overruns_refuted",
    "C43_129_appends_refuted",
    "C43_capacity_above_maximum_refuted",
    "C43_capacity_below_length_refuted",
    "C43_capacity_rounding_refuted"
   ],
   "note": "Length <= Capacity, block size and Capacity <= MaxCapacity+127 proved for every history from capacity >= 128 without hand-set capacity; absence of undefined behaviour proved for every history that keeps the stated room. The unrestricted claim is refuted: Append(Char) on a full builder overruns, Capacity may exceed MaxCapacity or drop below Length, rounding overflows."
  },
  {
   "property": "C44",
   "status": "partial",
   "theorems": [
    "C44_length_partial",
    "C44_stale_characters_refuted"
   ],
   "note": "Truncation, kept prefix and exceptions proved for every reachable builder and every n; NUL fill proved for histories without Remove/Replace(String)/hand-set capacity; refuted otherwise (erased characters reappear)."
  },
  {
   "property": "C45",
   "status": "partial",
   "theorems": [
    "C45_equality_partial",
    "C45_null_is_different",
    "C45_capacity_refuted",
    "C45_nul_refuted"
   ],
   "note": "Proved for builders of equal capacities holding NUL-free text, over all histories that do not grow Length by hand; refuted for different capacities and for texts with NUL."
  },
  {
   "property": "C46",
   "status": "proved",
   "theorems": [
    "C46_history",
    "C46_walk"
   ],
   "note": "every history of MoveNext/Current/Reset on every string"
  },
  {
   "property": "C47",
   "status": "partial",
   "theorems": [
    "C47_Max_Min_partial",
    "C47_Clamp_partial",
    "C47_Sign_partial",
    "C47_Abs_partial",
    "C47_refuted",
    "C47_CompareTo_float_partial",
    "C47_Max_Min_float_partial",
    "C47_Max_Min_NaN_partial",
    "C47_MaxMagnitude_partial",
    "C47_Clamp_Sign_float_partial"
   ],
   "note": "proved except the least Int32/Int64 of Abs and Sign (undefined behaviour) and Abs(Int64) beyond 2^53, which is rounded to a Double (refutations); floating Max, Min, Clamp, Sign, CompareTo, Equals, MaxMagnitude, MinMagnitude proved for all patterns"
  },
  {
   "property": "C48",
   "status": "partial",
   "theorems": [
    "C48_BigMul_partial",
    "C48_DivRem_partial",
    "C48_zero",
    "C48_refuted"
   ],
   "note": "proved for Int32 (MIN/-1 is undefined behaviour) and for Int64 when the quotient fits 32 bits; refuted otherwise: DivRem(Int64) keeps its quotient in an Int32"
  },
  {
   "property": "C49",
   "status": "proved",
   "theorems": [
    "C49_Round",
    "C49_unique"
   ],
   "note": "for all 2^64 patterns, with uniqueness of the specified integer"
  },
  {
   "property": "C50",
   "status": "partial",
   "theorems": [
    "C50_neighbours_partial",
    "C50_inverse_partial",
    "C50_special",
    "C50_infinity",
    "C50_refuted"
   ],
   "note": "proved for every finite double and NaN; refuted next to the infinities (MaxValue/MinValue constants are not the extreme doubles)"
  },
  {
   "property": "C51",
   "status": "partial",
   "theorems": [
    "C51_classification",
    "C51_IsNegative_partial",
    "C51_CopySign_partial",
    "C51_refuted"
   ],
   "note": "classification proved for all patterns of both formats; CopySign proved unless the second argument is a positive NaN, for which it is refuted"
  },
  {
   "property": "C52",
   "status": "partial",
   "theorems": [
    "C52_blocks_partial",
    "C52_allocation_partial"
   ],
   "note": "proved for every history of requests (below about 4 GB each), deletions, stores and re-setups and for every arena size; larger requests wrap and are the refutation under C53"
  },
  {
   "property": "C53",
   "status": "partial",
   "theorems": [
    "C53_refused_partial",
    "C53_wrap_refuted"
   ],
   "note": "proved for requests up to 2^32-8-arena size; refuted for 4 GB and for 8 bytes less (32-bit wrap-around, then memory outside the arena is zeroed)"
  },
  {
   "property": "C54",
   "status": "partial",
   "theorems": [
    "C54_string_literal_partial",
    "C54_surrogate_refuted",
    "C54_string_literals_distinct",
    "C54_char_literal_partial",
    "C54_char_surrogate_refuted",
    "C54_string_object_partial",
    "C54_embedded_nul_refuted"
   ],
   "note": "proved for every string without surrogates (and, as a String object, without NUL); refuted for every string with a surrogate (ill-formed literal) and for embedded NUL (cut)"
  },
  {
   "property": "C55",
   "status": "proved",
   "theorems": [
    "C55_injective",
    "C55_no_keyword",
    "C55_total",
    "C55_empty_refuted"
   ],
   "note": "assuming only that Char.IsLower holds for ASCII lower case letters; the empty name aborts the translator (refuted separately)"
  },
  {
   "property": "C56",
   "status": "partial",
   "theorems": [
    "C56_nesting_partial",
    "C56_file_balanced_partial",
    "C56_namespace_closes_previous"
   ],
   "note": "proved for every sequence of calls nested at most 22 deep; deeper nesting aborts the translation (C57)"
  },
  {
   "property": "C57",
   "status": "partial",
   "theorems": [
    "C57_indentation_partial",
    "C57_deep_refuted",
    "C57_deep_program_refuted",
    "C57_exact"
   ],
   "note": "exactly the nestings up to 22 are indented correctly; refuted beyond: the translation aborts"
  },
  {
   "property": "C58",
   "status": "proved",
   "theorems": [
    "C58_reported_exactly_once",
    "C58_duplicate_row_refuted"
   ],
   "note": "for every table without duplicate rows and every history of uses and calls; with a duplicate row refuted (the rest of the table is silently dropped)"
  },
  {
   "property": "C59",
   "status": "partial",
   "theorems": [
    "C59_groups_partial",
    "C59_arithmetic",
    "C59_unambiguous",
    "C59_cast_receiver_refuted",
    "C59_cast_call_refuted",
    "C59_condition_refuted",
    "C59_assignment_operand_refuted",
    "C59_fresh_array_refuted"
   ],
   "note": "unique reading by the C++ grammar proved for every expression in which no cast/new-array/complement is a member's receiver, no assignment is an operand and no conditional is another's condition; each of these exceptions refuted in general; arithmetic without exception"
  },
  {
   "property": "C60",
   "status": "partial",
   "theorems": [
    "C60_only_one_partial",
    "C60_otherwise",
    "C60_float_refuted",
    "C60_every_float_refuted",
    "C60_int64_refuted",
    "C60_prefix_value_refuted",
    "C60_local"
   ],
   "note": "proved for all operands except Int64 constants (the translator throws) and floating constants strictly between 1 and 2 (written as ++/--): both refuted, as is the value of a prefix increment"
  },
  {
   "property": "C61",
   "status": "partial",
   "theorems": [
    "C61_single_labels_partial",
    "C61_several_labels_refuted",
    "C61_lost_label_refuted"
   ],
   "note": "proved for switches whose sections have one label each besides default; refuted for several labels: only the least is kept"
  },
  {
   "property": "C62",
   "status": "partial",
   "theorems": [
    "C62_labels_unique",
    "C62_gotos_partial",
    "C62_outer_leave_refuted",
    "C62_missing_label_refuted",
    "C62_entry_loop_refuted"
   ],
   "note": "uniqueness proved for every method; every goto has its label when leaves target the innermost container (otherwise refuted: wrong or missing label; IL_0000 containers become returns)"
  },
  {
   "property": "C63",
   "status": "partial",
   "theorems": [
    "C63_to_floating",
    "C63_from_floating_partial",
    "C63_integer_conversions_partial",
    "C63_unbox_same_type_partial",
    "C63_boolean_partial",
    "C63_refuted"
   ],
   "note": "integer and boolean conversions, same-type unboxing; integer and floating boxes to the nearest Single/Double; floating sources are truncated where C defines the conversion; outside the target range C leaves the conversion undefined"
  },
  {
   "property": "C64",
   "status": "partial",
   "theorems": [
    "C64_parse_text_partial",
    "C64_refuted",
    "C64_refuted_memory"
   ],
   "note": "proved below 100 days for texts C13 covers; refuted beyond, and the number table overflows on five numbers"
  },
  {
   "property": "C65",
   "status": "partial",
   "theorems": [
    "C65_CompareTo_partial",
    "C65_Equals_partial",
    "C65_Object_Equals_partial",
    "C65_boolean_CompareTo_partial",
    "C65_integer_boxes_partial",
    "C65_refuted"
   ],
   "note": "CompareTo, Equals(object) and Object.Equals proved for every class of boxes (integers, Boolean, character, Single, Double); refuted: Equals(null) on a boxed integer dereferences null"
  },
  {
   "property": "C66",
   "status": "partial",
   "theorems": [
    "C66_case",
    "C66_case_idempotent",
    "C66_repeat",
    "C66_tochararray",
    "C66_of_array_partial",
    "C66_round_trip",
    "C66_of_array_refuted",
    "C66_copyto_partial",
    "C66_copyto_range",
    "C66_copyto_empty_refuted",
    "C66_blank"
   ],
   "note": "proved for every string, window and locale; refuted: String(array, start>0) with default length throws, null array is dereferenced, copying 0 characters at the end throws"
  },
  {
   "property": "C67",
   "status": "partial",
   "theorems": [
    "C67_round_trip",
    "C67_parse",
    "C67_indexed_partial",
    "C67_negative_refuted",
    "C67_numeric",
    "C67_compare"
   ],
   "note": "all proved except that a negative index throws IndexOutOfRange instead of ArgumentOutOfRange (refutation)"
  },
  {
   "property": "C68",
   "status": "partial",
   "theorems": [
    "C68_format_partial",
    "C68_short",
    "C68_exact_refuted",
    "C68_boolean_refuted",
    "C68_char"
   ],
   "note": "proved when the buffer is larger than the text; refuted: size equal to the length writes one character behind the buffer, and a short Boolean buffer reports more than it wrote"
  },
  {
   "property": "C69",
   "status": "partial",
   "theorems": [
    "C69_each_type_once",
    "C69_bases_first_partial",
    "C69_order_refuted",
    "C69_structs_in_order",
    "C69_field_order_refuted"
   ],
   "note": "each type exactly once: proved; bases first: proved if no type follows both a base and a derived type of its own; refuted in general and for struct fields"
  },
  {
   "property": "C70",
   "status": "partial",
   "theorems": [
    "C70_same_enum",
    "C70_different_enums_partial",
    "C70_clash_refuted"
   ],
   "note": "proved within one enum, and across enums whose names have no underscore; refuted in general"
  },
  {
   "property": "C71",
   "status": "partial",
   "theorems": [
    "C71_method_partial",
    "C71_method_lower_refuted",
    "C71_called",
    "C71_method_keyword_refuted",
    "C71_getter",
    "C71_field",
    "C71_class_partial",
    "C71_class_lower_refuted",
    "C71_backing_field_partial",
    "C71_backing_field_lower_refuted"
   ],
   "note": "proved for property accessors and fields, and for methods, classes and backing fields not starting with a lower case letter; refuted for all the others"
  },
  {
   "property": "C72",
   "status": "partial",
   "theorems": [
    "C72_identifier_partial",
    "C72_nested_refuted",
    "C72_distinct"
   ],
   "note": "proved for one-part namespaces and the empty one, injective for all; refuted for every dotted namespace"
  },
  {
   "property": "C73",
   "status": "partial",
   "theorems": [
    "C73_all_written_partial",
    "C73_finally_refuted",
    "C73_try_cut_refuted"
   ],
   "note": "proved without try-finally and with one-block try bodies and handlers; refuted otherwise (the code is dropped)"
  },
  {
   "property": "C74",
   "status": "partial",
   "theorems": [
    "C74_injected_partial",
    "C74_loop_refuted"
   ],
   "note": "proved when no nested container occurs; refuted with a loop: no return is written at all"
  },
  {
   "property": "C75",
   "status": "partial",
   "theorems": [
    "C75_condition_partial",
    "C75_logic_refuted",
    "C75_and_refuted",
    "C75_or_refuted"
   ],
   "note": "proved for conditions that are not themselves conditional; refuted for every && and || (only the first operand is tested)"
  },
  {
   "property": "C76",
   "status": "partial",
   "theorems": [
    "C76_value_partial",
    "C76_store_partial",
    "C76_test_partial",
    "C76_wraparound_refuted",
    "C76_checked_refuted",
    "C76_checked_unsigned_refuted",
    "C76_unsigned_compare_refuted",
    "C76_unsigned_shift_refuted",
    "C76_zero_extend_refuted",
    "C76_remainder_refuted",
    "C76_unsigned_division_refuted",
    "C76_long_constant_refuted"
   ],
   "note": "proved for all expressions whose operations are done in C++ types of the right width and sign and that do not overflow signed/checked or take a remainder by zero; refuted: wraparound, checked arithmetic, unsigned compare/shift/division on signed-typed locals, zero extension, remainder by zero, 64-bit constants"
  },
  {
   "property": "C77",
   "status": "partial",
   "theorems": [
    "C77_control_flow_partial",
    "C77_never_stuck_partial",
    "C77_tree_never_stuck_partial",
    "C77_labels_partial",
    "C77_outer_leave_refuted",
    "C77_entry_loop_refuted",
    "C77_fall_through_refuted",
    "C77_lost_label_refuted"
   ],
   "note": "executions of the output are exactly those of the decompiled method, for every sequence of outcomes of its conditions, its labels are accepted and it never gets stuck - for every tree without try statements whose leaves go out of the innermost container, whose branches do not go to a bare leave, whose loops are not at offset 0 and whose switch sections end in a jump; each exception refuted by an execution"
  },
  {
   "property": "C78",
   "status": "partial",
   "theorems": [
    "C78_names_resolve",
    "C78_one_block_partial",
    "C78_shared_local_refuted",
    "C78_declared_once"
   ],
   "note": "exact characterization proved; refuted when two blocks of the method's body share a local"
  },
  {
   "property": "C79",
   "status": "proved",
   "theorems": [
    "C79_order",
    "C79_arithmetic"
   ],
   "note": ""
  },
  {
   "property": "C80",
   "status": "partial",
   "theorems": [
    "C80_from_units_partial",
    "C80_monotone",
    "C80_whole_units",
    "C80_accuracy",
    "C80_refuted"
   ],
   "note": "every argument except products of exactly 2^63 ticks, whose conversion is undefined (refuted)"
  },
  {
   "property": "C81",
   "status": "partial",
   "theorems": [
    "C81_multiply_partial",
    "C81_divide_partial",
    "C81_whole_numbers",
    "C81_refuted"
   ],
   "note": "every argument except results of exactly 2^63 ticks and Multiply of a zero span by an infinity, whose conversion is undefined (refuted)"
  },
  {
   "property": "C82",
   "status": "partial",
   "theorems": [
    "C82_totals_partial",
    "C82_monotone",
    "C82_divide",
    "C82_refuted"
   ],
   "note": "one rounding for spans of up to 2^53 ticks, two roundings beyond (one rounding refuted)"
  },
  {
   "property": "C83",
   "status": "partial",
   "theorems": [
    "C83_add_partial",
    "C83_whole_units",
    "C83_monotone",
    "C83_accuracy",
    "C83_refuted"
   ],
   "note": "every number except NaN (refuted: undefined conversion); the nearest millisecond is refuted just below one half, within 3/4 ms (see C83_accuracy) proved"
  },
  {
   "property": "C84",
   "status": "proved",
   "theorems": [
    "C84_Round_digits",
    "C84_no_digits",
    "C84_monotone",
    "C84_digits_kept",
    "C84_limits"
   ],
   "note": "C84_limits records that directed modes and the rounded product can differ from decimal expectation, as in .NET"
  },
  {
   "property": "C85",
   "status": "partial",
   "theorems": [
    "C85_Divide_partial",
    "C85_refuted",
    "C85_FusedMultiplyAdd_partial",
    "C85_fused_refuted"
   ],
   "note": "Divide proved except for zero divisors with a negative or NaN dividend or a divisor -0 (refuted); FusedMultiplyAdd rounds twice: proved when the product is exact, refuted in general"
  },
  {
   "property": "C86",
   "status": "partial",
   "theorems": [
    "C86_index_arrays",
    "C86_index_arrays_refuse_partial",
    "C86_empty_refuted",
    "C86_initialize_partial",
    "C86_initialize_refuted"
   ],
   "note": "index arrays proved for one to three indexes; refuted: an empty index array is accepted silently; initialisers proved when the block is long enough; refuted: a shorter block is read past its end"
  },
  {
   "property": "C87",
   "status": "partial",
   "theorems": [
    "C87_ToString",
    "C87_round_trip_partial",
    "C87_special",
    "C87_refuted"
   ],
   "note": "nearest six digits proved for all numbers; the round trip is proved to hold exactly for the numbers nearest to a decimal of at most six digits, and refuted for others (0.1234567); missing: the full round trip .NET gives, which the six digits of %G cannot. swprintf and swscanf are modelled from the C standard"
  },
  {
   "property": "C88",
   "status": "partial",
   "theorems": [
    "C88_reads_partial",
    "C88_trailing_refuted",
    "C88_no_number_refuted",
    "C88_never_false_refuted",
    "C88_null"
   ],
   "note": "numerals proved; refuted: text after the number is accepted, text without a number reads an uninitialised variable, TryParse never answers false for a text. Hexadecimal numerals, which swscanf accepts, are a parameter of the model"
  },
  {
   "property": "C89",
   "status": "partial",
   "theorems": [
    "C89_agree_partial",
    "C89_method_modifiers",
    "C89_bodies",
    "C89_default_partial",
    "C89_static_property_refuted",
    "C89_accessor_refuted",
    "C89_operator_refuted",
    "C89_constant_refuted",
    "C89_default_refuted",
    "C89_extern_refuted",
    "C89_overload_refuted",
    "C89_overload_partial"
   ],
   "note": "Proved for classes of supported members (ordinary methods, constructors, properties with a getter whose missing setter the library tolerates, fields, the operators + - &): declarations and definitions agree one for one; every definition has the body of its member (for all members); method modifiers are exact; structs without a static constructor are default constructible; overloads without array, in or reference parameters stay different. Refuted: static properties are not declared static; a property without a getter, or an operator other than + - & or with a keyword result, stops or spoils the output; constants are declared and never defined; a struct with a static constructor and parameters has no default constructor; external methods are pure but not virtual; overloads that differ in an array's element type collide."
  },
  {
   "property": "C90",
   "status": "partial",
   "theorems": [
    "C90_dispatch_partial",
    "C90_property_refuted",
    "C90_new_refuted",
    "C90_hiding_refuted"
   ],
   "note": "Proved for methods that are only overridden and whose name no class on the way declares with other parameters only. Refuted: accessors of properties are never virtual; a new method of the same signature overrides in C++; a class that declares the name with other parameters hides the inherited method."
  },
  {
   "property": "C91",
   "status": "partial",
   "theorems": [
    "C91_base_partial",
    "C91_dropped_refuted",
    "C91_dropped_first_refuted",
    "C91_named_refuted",
    "C91_this_refuted"
   ],
   "note": "Proved for literals, parameters and null. Refuted: other expressions are dropped silently or stop the translation; named arguments are passed in the written order; a call of another constructor of the class is not C++."
  },
  {
   "property": "C92",
   "status": "partial",
   "theorems": [
    "C92_method_partial",
    "C92_stale_refuted",
    "C92_truncated_refuted",
    "C92_first_refuted"
   ],
   "note": "Proved for methods, wherever they stand in the program. Refuted for accessors and operators: a computed value is cast to the return type of the last method translated before (cutting an Int64 to 32 bits), or the translation stops if there is none."
  },
  {
   "property": "C93",
   "status": "partial",
   "theorems": [
    "C93_double_partial",
    "C93_single_partial",
    "C93_extreme_refuted",
    "C93_collision_refuted",
    "C93_minus_zero_refuted",
    "C93_integer_type_refuted",
    "C93_division_refuted"
   ],
   "note": "For every runtime whose Double and Single texts read back (.NET Core 3.0 and later), proved for every Double except the two extreme ones and those whose text is that of an extreme Single, and for the value (not the type) of every Single except minus zero. Refuted: Double.MaxValue and MinValue become smaller numbers; the Double 1E-45 becomes SingleValue::Epsilon; -0f becomes integer 0; Single constants without a fraction are integers, so that (c ? 1f : 2f) / 4f is an integer division."
  },
  {
   "property": "C94",
   "status": "partial",
   "theorems": [
    "C94_initialisers_partial",
    "C94_reads_target_refuted",
    "C94_hidden_field_refuted",
    "C94_other_object_refuted",
    "C94_exception_refuted",
    "C94_undeclared_refuted",
    "C94_nested_refuted",
    "C94_backing_field_refuted",
    "C94_argument_refuted"
   ],
   "note": "Proved for every program whose initialised arrays are assigned to local variables, or to fields of this that no local variable hides, and whose elements are no initialised arrays and do not read the target. Refuted: elements that read the target; a parameter of the field's name; another object's field; an exception in an element; array elements and static fields as targets and arrays of arrays (undeclared temporaries); automatic properties; an initialised array as an argument."
  },
  {
   "property": "C95",
   "status": "partial",
   "theorems": [
    "C95_any_order_partial",
    "C95_quiet",
    "C95_simple_call",
    "C95_operands_refuted",
    "C95_arguments_refuted",
    "C95_compound_refuted",
    "C95_target_twice_refuted",
    "C95_user_compound"
   ],
   "note": "Proved, for every meaning of the nodes and every (even interleaved) C++ order, for expressions whose sibling operands are independent; in particular expressions without effects and calls whose arguments are calculations with locals and constants. Refuted: two operands or arguments with effects (the C++ program may run them in the other order or throw the other exception); T.n += f() uses n as f leaves it; a compound assignment with a user-defined operator evaluates its target twice."
  },
  {
   "property": "C96",
   "status": "partial",
   "theorems": [
    "C96_arguments_partial",
    "C96_out_refuted",
    "C96_out_assigned_refuted",
    "C96_in_refuted",
    "C96_ref_local_refuted",
    "C96_receiver_refuted"
   ],
   "note": "Proved for value, ref, params and (while the argument does not change) in parameters of all types, with any aliasing. Refuted: calls and bodies of methods with out parameters do not compile; an in parameter is a copy; ref locals are copies; methods called on primitive ref parameters do not compile."
  },
  {
   "property": "C97",
   "status": "partial",
   "theorems": [
    "C97_concat_partial",
    "C97_many_refuted",
    "C97_null_first_refuted",
    "C97_implicit_refuted",
    "C97_implicit_literal"
   ],
   "note": "Proved for every nesting of concatenations of at most seven operands whose first operand is not null, with literals of any characters but surrogates and NUL: the written text has exactly one C++ value, the C# one. Refuted: with eight operands or more no function takes the call; a null first operand throws ArgumentNullException instead of counting as empty; a string converted to a span stops the translator unless it is a literal. Operands of other kinds (boxed values, other calls) are not modelled."
  },
  {
   "property": "C98",
   "status": "partial",
   "theorems": [
    "C98_path_partial",
    "C98_path_refuted",
    "C98_success",
    "C98_history",
    "C98_failure",
    "C98_usage",
    "C98_unreadable",
    "C98_mixed_refuted",
    "C98_nothing_refuted",
    "C98_same_directory_refuted",
    "C98_log_refuted"
   ],
   "note": "Proved for every program, every behaviour of the visitors and every disk: a successful run (with a type to translate) leaves exactly the three files of this program after any history of runs and changes nothing else; the exact state a failure in each pass leaves, with the exception in the log; usage errors and unreadable programs change no output; the selection of types; the path for directories without mixed separators. Refuted: a failure in the second or third pass leaves files of two translations, one of them empty; a program without types keeps the old output; two programs in one directory share their output files; the log is never cleared; a/b\\c.dll is translated into a/generated. Failures of the disk and of creating the directory are not modelled."
  },
  {
   "property": "C99",
   "status": "partial",
   "theorems": [
    "C99_bases_partial",
    "C99_prototypes",
    "C99_same_name",
    "C99_directives",
    "C99_own_namespace_only",
    "C99_other_namespace_refuted",
    "C99_second_base_refuted",
    "C99_qualified_refuted",
    "C99_nested_refuted",
    "C99_enum_namespace_refuted",
    "C99_interface_refuted"
   ],
   "note": "Proved for every program in the supported style (ordinary names, bases by plain name in the same namespace or the library, only enums nested, an order without a type between its base and its derived type): each class and struct is defined exactly once inside its namespace, each base is found, is the intended complete type, and the first base is public; for every program: each namespace with a class or struct gets exactly one using directive, after all definitions. Refuted: a base in another namespace is never found (directives come last); the second base of a class is private; a qualified base is written as its qualifier; an interface of the program is named but declared nowhere; any nested class or struct aborts the header pass; a namespace with only enums is never used."
  },
  {
   "property": "C100",
   "status": "partial",
   "theorems": [
    "C100_values_partial",
    "C100_large_values_refuted",
    "C100_underlying_refuted",
    "C100_initialiser_refuted"
   ],
   "note": "Proved for every enum whose initialisers are literals between -(2^63-1) and 2^63-1, at every indentation, with the text produced by the Formatter and read back by an independent C++ reader. Refuted: ulong values from 2^63 on and long.MinValue have no decimal literal in C++; the underlying type is dropped; other initialisers abort the translation, disappear, or name a member without its suffix."
  },
  {
   "property": "C101",
   "status": "partial",
   "theorems": [
    "C101_values_partial",
    "C101_initialiser_refuted",
    "C101_later_class_refuted",
    "C101_first_use_refuted",
    "C101_unused_class_refuted",
    "C101_struct_refuted"
   ],
   "note": "Proved for every program whose classes with static initialisers have static constructors, which print nothing, store to their own class and read only their own and earlier classes' fields that Main does not change: every output of Main is the C# one. Refuted: an initialiser in a class without static constructor is dropped (the field is zero); classes initialised later read as zero; Main's earlier stores are not seen; unused classes are initialised; fields of struct types are reset."
  },
  {
   "property": "C102",
   "status": "partial",
   "theorems": [
    "C102_values_partial",
    "C102_initialiser_refuted",
    "C102_order_refuted"
   ],
   "note": "Proved for every inheritance chain whose classes with initialisers have a constructor and whose initialisers print nothing (except in a class without base). Refuted: the initialisers of a class without constructor are dropped; an initialiser that prints does so after the base constructor."
  },
  {
   "property": "C103",
   "status": "partial",
   "theorems": [
    "C103_classes_partial",
    "C103_handlers_partial",
    "C103_hierarchy_refuted",
    "C103_static_type_refuted",
    "C103_throw_caught_refuted",
    "C103_condition_refuted",
    "C103_first_statement_refuted",
    "C103_two_levels_refuted",
    "C103_null_refuted"
   ],
   "note": "C103_handlers_partial: same trace and same final exception class for every method whose throws and handlers are in the domain plain_all (new exceptions or variables holding exactly their declared class, rethrow, handlers without condition and not for ArgumentException/ArithmeticException, leave of one level, no try at offset 0). Missing because false: handlers for ArgumentException/ArithmeticException (flat library hierarchy), throw of a variable or of the caught object (static type), catch-when, try as first statement, leave of two levels, throw null: each refuted for all instances."
  },
  {
   "property": "C104",
   "status": "partial",
   "theorems": [
    "C104_inner",
    "C104_message_partial",
    "C104_message_refuted",
    "C104_base_partial",
    "C104_base_refuted"
   ],
   "note": "InnerException always; Message when one was given; GetBaseException for chains of exactly two. The rest is refuted (default messages are null, GetBaseException answers the direct cause)."
  },
  {
   "property": "C105",
   "status": "partial",
   "theorems": [
    "C105_text_partial",
    "C105_text_refuted",
    "C105_identifies",
    "C105_total"
   ],
   "note": "C105_text_partial: the .NET text from year 1000 on outside of the hours 0 and 12; C105_text_refuted: for every other DateTime the text differs (midnight is written 0:.., noon as AM, years below 1000 are not padded). C105_identifies and C105_total hold for every DateTime."
  },
  {
   "property": "C106",
   "status": "partial",
   "theorems": [
    "C106_now",
    "C106_today",
    "C106_zone_partial",
    "C106_zone_refuted",
    "C106_conversions",
    "C106_inverse"
   ],
   "note": "Now and Today exact (to the millisecond) for every instant of the years 1-9999 (POSIX branch); the zone is right exactly when the offset is a whole number of hours and it is the same day in UTC (C106_zone_partial is an equivalence, C106_zone_refuted the other side); conversions exact under that condition and always inverse. The zone used is the one of the moment of the call, not the one in force at the converted time; DateTimeKind does not exist in the library. IsDaylightSavingTime (reads an uninitialised tm_isdst) is not modelled."
  },
  {
   "property": "C107",
   "status": "partial",
   "theorems": [
    "C107_values_partial",
    "C107_refused",
    "C107_other_type_refuted",
    "C107_null_refuted",
    "C107_cast_refuted",
    "C107_default_refuted",
    "C107_own_refuted"
   ],
   "note": "C107_values_partial: whatever succeeds in C# gives the same value in C++ (library value types, no default(C)); C107_refused: unboxing an object that is no boxed value throws InvalidCastException in both. Missing because false: failing casts and unboxing to another type are not noticed, null is undefined behaviour, default(C) of a class is a new object, the program's own structures and enumerations cannot be boxed: each refuted for all instances."
  },
  {
   "property": "C108",
   "status": "partial",
   "theorems": [
    "C108_surroundings",
    "C108_rejected_partial",
    "C108_operand",
    "C108_comparison",
    "C108_one_of_arguments",
    "C108_receiver",
    "C108_condition",
    "C108_assigned",
    "C108_alone",
    "C108_lone_argument_refuted",
    "C108_lone_constructor_argument_refuted",
    "C108_boxed_refuted",
    "C108_minus_refuted",
    "C108_times_refuted"
   ],
   "note": "Rejected wherever the missing operand stands, for every surrounding expression, except at two kinds of places, which are refuted: as the only argument of a call, constructor or boxing (f(x as C) is emitted as f()), and as the left operand of an operator that C++ also has as a unary one ((x ?? y) - a is emitted as (- a)). The C++ grammar is that of ExprSpec; + and & count as unnoticed although the specification's grammar has no unary + and &."
  },
  {
   "property": "C109",
   "status": "partial",
   "theorems": [
    "C109_value_partial",
    "C109_store_partial",
    "C109_single_quotient",
    "C109_comparison_partial",
    "C109_to_integer_partial",
    "C109_chain_refuted",
    "C109_comparison_refuted",
    "C109_widening_refuted",
    "C109_to_integer_refuted",
    "C109_zero_refuted"
   ],
   "note": "For every expression whose operands have the same type in C++ as on the CIL stack and whose divisions by zero have a dividend zero or of the divisor's sign, every reading of the printed text has the same bits (or rounds to them when stored); division and remainder of Singles through Double proved innocuous for all operands. Missing and refuted: a quotient of Singles used as an operand, compared, widened or truncated (last-bit and integer differences), division by zero of a negative number."
  },
  {
   "property": "C110",
   "status": "proved",
   "theorems": [
    "C110_exact",
    "C110_special",
    "C110_single"
   ],
   "note": "Exactness, sign and size for all finite operands, all special cases, and Singles computed with Doubles. C fmod is external (given by its C17 specification with a rounding step that is proved to do nothing)."
  },
  {
   "property": "C111",
   "status": "partial",
   "theorems": [
    "C111_divided_partial",
    "C111_meaning_partial",
    "C111_context_partial",
    "C111_unambiguous_partial",
    "C111_number_dot_refuted",
    "C111_names",
    "C111_static_property_refuted"
   ],
   "note": "Proved for every expression in which no number is directly followed by a period, for names that are words (AppendName keeps words words: C111_names) and strings without surrogates. Refuted without these: a number as receiver of '.' (5.Name is one preprocessing number) and the backing field of a static automatic property, whose name VisitLdsFlda writes with its angle brackets. Keywords as names are C55, the grammar is C59."
  },
  {
   "property": "C112",
   "status": "partial",
   "theorems": [
    "C112_body_partial",
    "C112_runs_partial",
    "C112_context_partial",
    "C112_labels_partial",
    "C112_expression_partial",
    "C112_loop_last_refuted"
   ],
   "note": "Proved for every body whose blocks and branches do not end in a label, with statements of one line. Refuted without the first: a loop that is left, last in the branch of an if, puts its label directly before the closing brace, which C++11 (the CMake build's standard) rejects. Also proved: the text runs like the decompiled method under C77's hypotheses, label names stay distinct and defined, expressions (C111) are good pieces of statements, conditions and values. Missing: try statements, array initialisers, injected statements."
  },
  {
   "property": "C113",
   "status": "partial",
   "theorems": [
    "C113_header_partial",
    "C113_one_reading",
    "C113_interface_refuted",
    "C113_names_refuted",
    "C113_enum_reference_refuted",
    "C113_operator_refuted",
    "C113_setter_refuted",
    "C113_static_property_refuted",
    "C113_default_refuted",
    "C113_dotted_refuted",
    "C113_array_reference_refuted",
    "C113_getter_refuted"
   ],
   "note": "Proved for every list of types whose members are readable: values of class, struct, enum and array types, references to classes and structs, single-name fields or fields of value types, properties with both accessors, operators on structs. Refuted for the others: interface types are declared as objects, a reference to an enum is a reference to a pointer, only the first of several names is a pointer, a class operator returns an object, a property without setter gets one and one without getter stops the translation, static properties lose static, a static constructor suppresses a struct's default constructor, dotted namespaces and arrays by reference give text that is no C++. Missing: nested types, qualified and generic bases, names clashing in C++."
  },
  {
   "property": "C114",
   "status": "partial",
   "theorems": [
    "C114_source_partial",
    "C114_one_reading",
    "C114_matches",
    "C114_constant_refuted",
    "C114_blocks_refuted",
    "C114_this_refuted",
    "C114_operator_refuted",
    "C114_lower_refuted",
    "C114_names_refuted"
   ],
   "note": "Proved for every list of types whose members are definable: bodies of one block (C112), static constructors of straight code, base initialisers whose class is not named in lower case, single-name static fields of value or capitalised types, operators of the class's own type. C114_matches: what is defined is what C113's header declares, except constants. Refuted for the others: bodies of several blocks have two pairs of braces, 'this' initialisers name no class, operators of another result type are defined in that type, a static field of a type named in lower case has another type than the header's, the second of several names becomes a variable of the namespace, a constant is declared and never defined. Missing: nested types, static constructors with loops or exceptions."
  },
  {
   "property": "C115",
   "status": "partial",
   "theorems": [
    "C115_prototypes_partial",
    "C115_one_reading",
    "C115_header",
    "C115_distinct_partial",
    "C115_clash_refuted",
    "C115_reference_refuted",
    "C115_large_refuted",
    "C115_dotted_refuted"
   ],
   "note": "Proved for every list of types in undotted namespaces whose enum members have no initialiser or a literal within long long; C115_header relates whatever the two files are read as; C115_distinct_partial: enumerators are distinct if no enum's name has an underscore. Refuted for the others: the members A_F of T2 and A of F_T2 are one name, an initialiser naming another member names nothing, values beyond long long have no literal, dotted namespaces are no C++. Missing: nested types."
  },
  {
   "property": "C116",
   "status": "partial",
   "theorems": [
    "C116_linked_partial",
    "C116_constant_refuted"
   ],
   "note": "Proved for all readings of the two texts (C116_linked_partial, a permutation of the declared and the defined entities). Missing: constants (declared and never defined: C116_constant_refuted), interfaces, nested types, and the inputs that C113 and C114 exclude."
  },
  {
   "property": "C117",
   "status": "proved",
   "theorems": [
    "C117_declared",
    "C117_defined",
    "C117_one_reading"
   ],
   "note": "C117_declared: the head in the header; C117_defined: the head in the source, whenever they are written (the Formatter throws nothing: C117_example shows both written). C117_one_reading: no other reading."
  }
 ]
}