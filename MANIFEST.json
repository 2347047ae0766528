{
 "claims": [
  {
   "property": "C01",
   "status": "proved",
   "theorems": [
    "C01_utf8_roundtrip",
    "C01_replacement_codes"
   ],
   "note": ""
  },
  {
   "property": "C02",
   "status": "proved",
   "theorems": [
    "C02_utf8_length"
   ],
   "note": ""
  },
  {
   "property": "C03",
   "status": "proved",
   "theorems": [
    "C03_utf8_progress"
   ],
   "note": "six readable bytes are a hypothesis because UTF8Len(pointer) may read them (see C05)"
  },
  {
   "property": "C04",
   "status": "proved",
   "theorems": [
    "C04_passthrough",
    "C04_idempotent_refuted"
   ],
   "note": "identity exactly on clean strings; a second pass can change text that contained a spelled-out replacement code"
  },
  {
   "property": "C05",
   "status": "partial",
   "theorems": [
    "C05_get_stops_at_nul",
    "C05_len_of_pointer_refuted"
   ],
   "note": "true of UTF8Get; false of UTF8Len(pointer), which reads the last continuation byte first"
  },
  {
   "property": "C06",
   "status": "partial",
   "theorems": [
    "C06_backup_partial",
    "C06_backup_in_bounds",
    "C06_backup_refuted"
   ],
   "note": "true after a complete sequence; false on malformed text"
  },
  {
   "property": "C07",
   "status": "partial",
   "theorems": [
    "C07_padded_zero_partial",
    "C07_padded_zero_refuted"
   ],
   "note": "false for every length 2..6 (off-by-one in the lead-byte table)"
  },
  {
   "property": "C08",
   "status": "proved",
   "theorems": [
    "C08_utf16_roundtrip",
    "C08_surrogate_refuted"
   ],
   "note": ""
  },
  {
   "property": "C09",
   "status": "partial",
   "theorems": [
    "C09_utf16_decode_partial",
    "C09_utf16_decode_refuted"
   ],
   "note": "unpaired surrogates abort"
  },
  {
   "property": "C10",
   "status": "proved",
   "theorems": [
    "C10_case_conversion_memo_free",
    "C10_tables_are_functions",
    "C10_case_conversion_histories"
   ],
   "note": ""
  },
  {
   "property": "C11",
   "status": "partial",
   "theorems": [
    "C11_digit_values_partial",
    "C11_han_digits_refuted",
    "C11_hex_digit_values"
   ],
   "note": "true except that the Han digits listed as special cases are never recognised (dead code)"
  },
  {
   "property": "C12",
   "status": "proved",
   "theorems": [
    "C12_alphabetic",
    "C12_title"
   ],
   "note": ""
  },
  {
   "property": "C13",
   "status": "partial",
   "theorems": [
    "C13_errnum_partial",
    "C13_errnum_code",
    "C13_errnum_refuted"
   ],
   "note": "ERR_FLAG/ERR_CUST are bits 27/26 and overlap the set field; numbers are not negative and sets collide"
  },
  {
   "property": "C42",
   "status": "partial",
   "theorems": [
    "C42_char_pointers_partial",
    "C42_utf8_pointers_partial",
    "C42_char_sequence_partial",
    "C42_utf8_sequence_partial",
    "C42_always_guarded",
    "C42_utf8_any_bytes_partial",
    "C42_guarded_forward_refuted",
    "C42_backward_refuted",
    "C42_decrement_refuted",
    "C42_utf8_backup_refuted"
   ],
   "note": "Sequences of operations of any length: each pointer stands where it should and inside its text, as long as every operation is one the class guards or one that stays inside by itself; which operations those are is spelled out (expected_move, guards). GuardedUTF8Ptr also over malformed bytes. Several operators of the guarded classes are not guarded (refuted), hence partial."
  },
  {
   "property": "C44",
   "status": "proved",
   "theorems": [
    "C44_white_and_ranges",
    "C44_ascii_agreement"
   ],
   "note": ""
  },
  {
   "property": "C45",
   "status": "proved",
   "theorems": [
    "C45_case_idempotent"
   ],
   "note": ""
  },
  {
   "property": "C14",
   "status": "proved",
   "theorems": [
    "C14_refcount_exact",
    "C14_no_dangling_handle"
   ],
   "note": "sequentially consistent atomics; fewer than 2^31 handles and threads"
  },
  {
   "property": "C46",
   "status": "proved",
   "theorems": [
    "C46_unshare_sole_owner_stable",
    "C46_unshare_copy_private"
   ],
   "note": ""
  },
  {
   "property": "C37",
   "status": "partial",
   "theorems": [
    "C37_join_any_partial",
    "C37_finish_wakes",
    "C37_never_returned_twice",
    "C37_single_thread_refuted",
    "C37_exit_spins_refuted",
    "C37_uninitialised_state_refuted"
   ],
   "note": "true for histories without Thread::exit and with at least two registered threads; false with one thread, after Thread::exit, and when the uninitialised state reads as Ended"
  },
  {
   "property": "C38",
   "status": "partial",
   "theorems": [
    "C38_mutual_exclusion",
    "C38_no_abort",
    "C38_leave_admits_waiter",
    "C38_probe",
    "C38_holding_partial",
    "C38_holding_blocks_refuted"
   ],
   "note": "mutual exclusion and hand-over proved in full; holding() answers correctly but blocks while another thread is inside"
  },
  {
   "property": "C15",
   "status": "proved",
   "theorems": [
    "C15_isolation",
    "C15_contents_defined",
    "C15_no_leak_no_dangling",
    "C15_memory_safe"
   ],
   "note": "positions inside the array, as the code's own range checks wrap (C16_remove_range_refuted); inserting an array into itself excluded (C16_self_insert_refuted)"
  },
  {
   "property": "C16",
   "status": "partial",
   "theorems": [
    "C16_operations_partial",
    "C16_remove_ends",
    "C16_edits_succeed",
    "C16_element_access",
    "C16_slice_to_end_refuted",
    "C16_offset_refuted",
    "C16_remove_range_refuted",
    "C16_self_insert_refuted",
    "C16_shorter_refuted"
   ],
   "note": "true of every operation when an unshared variable starts at the beginning of its body; false otherwise (push, insert, middle remove), and slices up to the end abort"
  },
  {
   "property": "C17",
   "status": "partial",
   "theorems": [
    "C17_equality",
    "C17_compare_partial",
    "C17_compare_refuted",
    "C17_find",
    "C17_rfind_partial",
    "C17_rfind_refuted",
    "C17_functional_helpers",
    "C17_select_map",
    "C17_bsearch_partial",
    "C17_bsearch_refuted",
    "C17_bsearch_misses_refuted",
    "C17_empty_refuted",
    "C17_delete_if_refuted"
   ],
   "note": "equality, find and the folds are right on non-null bodies; rfind skips index 0, compare ignores a longer left side, bsearch ends, and an index it returns inside the array is right, but it reads out of bounds and misses elements, delete_if does nothing"
  },
  {
   "property": "C18",
   "status": "partial",
   "theorems": [
    "C18_operations_leave_other_maps_alone_partial",
    "C18_bodies_counted_and_freed_exactly",
    "C18_put_changes_other_maps_refuted"
   ],
   "note": "every operation but put of a present key on a shared body leaves all other maps alone, and that put changes only that key's answer; put erases before Unshare, so the full claim is false"
  },
  {
   "property": "C19",
   "status": "proved",
   "theorems": [
    "C19_target_becomes_the_expected_map",
    "C19_size_counts_present_keys"
   ],
   "note": "for key types whose order identifies equal keys; std::map by its contract"
  },
  {
   "property": "C20",
   "status": "proved",
   "theorems": [
    "C20_editing_one_string_never_changes_another",
    "C20_bodies_are_counted_exactly"
   ],
   "note": "every history of the modelled string operations (construct, copy, assign, substr, +, *, insert, +=, case, asUTF8, index), any bytes, any number of variables; steps that abort or are undefined are excluded (C22 shows which)"
  },
  {
   "property": "C21",
   "status": "partial",
   "theorems": [
    "C21_index_returns_nth_character_partial",
    "C21_index_after_insert_refuted"
   ],
   "note": "true after every history that inserts nowhere before a remembered position in non-ASCII text (run_ok states which histories); false otherwise: insert does not move the bookmark"
  },
  {
   "property": "C22",
   "status": "partial",
   "theorems": [
    "C22_programs_compute_on_texts_partial",
    "C22_each_operation_computes_its_text_partial",
    "C22_append_to_slice_refuted",
    "C22_upcase_slice_refuted",
    "C22_self_append_refuted"
   ],
   "note": "whole programs compute the same program on character lists, given what in-place editing needs (operand starts its body, unshared slices excluded, sizes below 1 GiB); each exclusion has a refutation"
  },
  {
   "property": "C25",
   "status": "partial",
   "theorems": [
    "C25_substr_clips",
    "C25_head_tail_shorter_partial",
    "C25_beyond",
    "C25_tail_shorter_head_refuted"
   ],
   "note": "substr in full; head, tail and shorter for arguments up to the length, and C25_beyond says exactly what every other argument gives"
  },
  {
   "property": "C23",
   "status": "partial",
   "theorems": [
    "C23_equality_is_equality_of_texts",
    "C23_compare_zero_means_equal_partial",
    "C23_compare_is_lexicographic_partial",
    "C23_operators_partial",
    "C23_order_laws_partial",
    "C23_map_order_partial",
    "C23_styles_refuted",
    "C23_compare_slice_refuted",
    "C23_compare_nul_refuted"
   ],
   "note": "equality in full; the order is lexicographic and total for strings not cut off at the end and without NUL, and neither condition can be dropped; case independent and natural comparison are not implemented and abort"
  },
  {
   "property": "C24",
   "status": "partial",
   "theorems": [
    "C24_find_character_partial",
    "C24_rfind_character_partial",
    "C24_find_any_partial",
    "C24_find_not_partial",
    "C24_rfind_any_not_partial",
    "C24_find_string_partial",
    "C24_rfind_string_partial",
    "C24_find_beyond_end_refuted",
    "C24_rfind_before_end_refuted",
    "C24_find_long_needle_refuted"
   ],
   "note": "right whenever the character after the string does not decide; searches look one character beyond the end"
  },
  {
   "property": "C26",
   "status": "partial",
   "theorems": [
    "C26_numerals_in_range_partial",
    "C26_success_means_numeral_partial",
    "C26_overflow_reported_partial",
    "C26_defined_partial",
    "C26_errors_partial",
    "C26_illegal_radix_reported",
    "C26_truncation_refuted",
    "C26_prefix_refuted",
    "C26_least_long_refuted"
   ],
   "note": "every numeral in the int32 range gives its value, success means a numeral, 64-bit overflow is reported, each error code and the scanned length mean what the header says; false as documented: values between 2^31 and 2^63 are truncated without error, radix 16 rejects 0x, -2^63 is undefined behaviour; every radix from 0 to 36"
  },
  {
   "property": "C27",
   "status": "partial",
   "theorems": [
    "C27_contents_stand_for_one_text",
    "C27_bmp_text_survives_partial",
    "C27_in_place_partial",
    "C27_injective_partial",
    "C27_supplementary_refuted",
    "C27_abort_refuted",
    "C27_nul_refuted"
   ],
   "note": "valid and reversible for characters 1..0xFFFF other than surrogates; false otherwise: characters above 0xFFFF decode to another character, those above 0xFFFFF abort, NUL gives invalid JSON"
  },
  {
   "property": "C30",
   "status": "partial",
   "theorems": [
    "C30_match_partial",
    "C30_meaning_unique",
    "C30_search_partial",
    "C30_parse_partial",
    "C30_optional_alternation_refuted",
    "C30_lookahead_alternation_refuted",
    "C30_nested_operator_refuted",
    "C30_empty_alternate_refuted",
    "C30_escaped_range_refuted",
    "C30_non_ascii_refuted",
    "C30_kind_of_wide_character_refuted"
   ],
   "note": "every pattern of the notation defined in PegSpec (all operators, nesting, labels, calls) on every text; the notation excludes what the code gets wrong (bare alternation or operator under an operator, empty alternates, ranges beginning with a letter escape, non-ASCII in patterns, kind escapes on characters above 255), each with a refutation"
  },
  {
   "property": "C31",
   "status": "proved",
   "theorems": [
    "C31_failed_atom_restores",
    "C31_lookahead_consumes_nothing",
    "C31_failed_match_restores"
   ],
   "note": "every pattern text, not only meaningful ones"
  },
  {
   "property": "C32",
   "status": "partial",
   "theorems": [
    "C32_terminates",
    "C32_search_terminates",
    "C32_stays_inside_partial",
    "C32_reads_beyond_pattern_refuted"
   ],
   "note": "termination in full, with an explicit bound on the recursion depth; staying inside the pattern for patterns of the notation, false for patterns ending in a dangling operator"
  },
  {
   "property": "C33",
   "status": "proved",
   "theorems": [
    "C33_positions",
    "C33_steps"
   ],
   "note": ""
  },
  {
   "property": "C34",
   "status": "partial",
   "theorems": [
    "C34_settles",
    "C34_only_the_called_rule",
    "C34_found_partial",
    "C34_found_refuted"
   ],
   "note": "true unless another rule's name is the called name followed by a digit"
  },
  {
   "property": "C35",
   "status": "proved",
   "theorems": [
    "C35_parse_terminates",
    "C35_left_recursive_call_fails",
    "C35_standard_meaning"
   ],
   "note": "every table of rules; the bound on nested steps is explicit"
  },
  {
   "property": "C36",
   "status": "partial",
   "theorems": [
    "C36_captured_text",
    "C36_plain_captures",
    "C36_default_captures_nothing",
    "C36_parse_captures_partial",
    "C36_parse_captures_refuted",
    "C36_captured_prefix_refuted",
    "C36_atom_label_refuted"
   ],
   "note": "true of a context that rolls back as the interface asks; of the PegContext of peg_ast.h only for parses during which it prints no complaint, without labels on atoms and without prefix clashes, each with a refutation"
  },
  {
   "property": "C28",
   "status": "proved",
   "theorems": [
    "C28_values",
    "C28_one_value",
    "C28_independent",
    "C28_defined",
    "C28_no_leak_partial",
    "C28_no_leak_refuted"
   ],
   "note": "Copy, assignment (also of an element of the variable's own array), construction (also from slices of arrays, from what a map has for a key, and by type), writing through the number references, and destruction over every history, with exact reference counts on a heap of shared bodies. The ownership part (every body is freed) holds unless a string is coerced to a number, which leaks the string (refuted). Strings are character lists here and bodies are immutable (StrModel, ArrayModel, CowModel model the editing)."
  },
  {
   "property": "C29",
   "status": "partial",
   "theorems": [
    "C29_type_refuted",
    "C29_string_refuted",
    "C29_numbers_partial",
    "C29_to_string",
    "C29_to_longlong_partial",
    "C29_other"
   ],
   "note": "The code refutes the property: between number types the type tag is not updated, and the error test of String to Integer/Long is inverted. Proved: number accessors read the right number or abort and leave the variant as it was; number to String gives the decimal notation; String to LongLong accepts exactly numerals (value modulo 2^32); same type, None and impossible coercions."
  },
  {
   "property": "C47",
   "status": "partial",
   "theorems": [
    "C47_as_json_partial",
    "C47_style_partial",
    "C47_one_value",
    "C47_distinct_partial",
    "C47_nul_refuted",
    "C47_abort_refuted"
   ],
   "note": "For every variant whose strings have only characters of the Basic Multilingual Plane without NUL and surrogates, for every style and depth; refuted for NUL (not JSON) and above U+FFFFF (abort). Supplementary characters: see C27."
  },
  {
   "property": "C39",
   "status": "partial",
   "theorems": [
    "C39_round_trip_partial",
    "C39_every_offset_refuted"
   ],
   "note": "Proved for every offset of magnitude below 2^30, at every place in a program. Offsets of 2^30 and more do not survive (the shift loses the top bit): refuted, so the full statement is false of the code."
  },
  {
   "property": "C40",
   "status": "partial",
   "theorems": [
    "C40_written",
    "C40_match_at_partial",
    "C40_match_after_partial",
    "C40_match_at_returns_partial",
    "C40_match_after_returns_partial",
    "C40_straight_match_at_partial",
    "C40_straight_match_after_partial",
    "C40_straight_search_returns_partial",
    "C40_quantified_match_at_partial",
    "C40_quantified_match_after_partial",
    "C40_quantified_search_returns_partial",
    "C40_anchored_match_at_partial",
    "C40_anchored_match_after_partial",
    "C40_anchored_search_returns_partial",
    "C40_anchors_refuted",
    "C40_many_optional_refuted",
    "C40_named_group_refuted",
    "C40_counts_refuted",
    "C40_nested_counts_refuted",
    "C40_lookahead_refuted",
    "C40_hex_refuted",
    "C40_search_nul_refuted",
    "C40_long_refuted",
    "C40_aborts_refuted"
   ],
   "note": "Proved, from the bytes of the compiled program to the result of the matcher, for every expression of characters, ., classes, \\s \\d \\h, ^, $, ?, *, +, alternatives and groups (nested to any depth the compiler takes), however it is written (plain and quoted characters, \\b \\e \\f \\n \\r \\t, octal, \\x and \\u codes, -, ] and ^ in classes), whose program is below 1024 bytes with three bytes for each offset (that holds of every pattern of at most 83 characters, C51_short_83), and every text: if the matcher returns, it returns the longest match at the offset, or the leftmost longest one of a search, or none if there is none. Not covered, and mostly false of the code: named groups, counts, lookaheads, numeric escapes followed by white space, searches past a NUL, and patterns whose program takes offsets of three bytes (each refuted by a run). The matcher may end the program instead of returning (refuted: C40_aborts_refuted), so returning is a hypothesis of the first two theorems; the other two prove that it does return, on every text, for every program that passes a check computed on the program alone (RxCheck.returns: bounds the threads and shunts of every cycle), which most patterns do. For sequences of characters, ., classes, \\s \\d \\h, ^ and $ without quantifiers, alternatives or groups, of any number of items, the three C40_straight theorems prove with no such check and no such hypothesis that the matcher returns, and returns what the pattern says (a search in texts without NUL; in any other text it still returns). The three C40_quantified theorems prove the same for sequences, of any number of items, of characters, ., classes, \\s \\d \\h, each with ?, *, + or nothing, in which no more than ten in a row have ? or * (eleven abort a search: C40_quantified_example). The three C40_anchored theorems extend that to such sequences with a ^ before them, a $ after them, or both; a $ in the middle, after enough stars, ends the program (C40_anchors_refuted). C40_many_optional_refuted: every such sequence with eleven items that can be left out at its beginning ends the program in every search, on every text."
  },
  {
   "property": "C41",
   "status": "partial",
   "theorems": [
    "C41_result_partial",
    "C41_scanning_partial",
    "C41_compiles_partial",
    "C41_returns_partial",
    "C41_total_refuted"
   ],
   "note": "Proved for every pattern and feature set: scanning ends (unless a count is a numeral of value -2^63); when compile returns there is a program or a message, but for a ')' too many; and every pattern the first pass accepts is compiled, with no write past the memory and no failed assertion, if the memory allocated is what the offsets need at the size found for them and the number of states fits an offset (a program of less than 64 bytes, of 128 to 1023, and so on). The full statement is false of the code: a ')' too many fails without a message, a count of -2^63 is undefined, and 27 times \\d and .{200} overrun (assertion), all refuted by a run."
  },
  {
   "property": "C43",
   "status": "proved",
   "theorems": [
    "C43_join"
   ],
   "note": "For every array of strings any program of C22 can build (slices, shared and static bodies included) and every separator, as long as body and result stay below 1 GiB: the text, no other string changes, and the reference counts are exact afterwards."
  },
  {
   "property": "C48",
   "status": "partial",
   "theorems": [
    "C48_format_partial",
    "C48_one_reading",
    "C48_percent_refuted",
    "C48_numbered_refuted",
    "C48_size_refuted",
    "C48_overflow_refuted"
   ],
   "note": "Proved for every format of literal characters and %s, %d, %f, %g with digits for size and precision below 2^31, and every array of values with strings in the Basic Multilingual Plane (C27): text, missing or impossible arguments, no leak, no change. The rest is false of the code, each refuted by a run: sizes are ignored, %% gives nothing, %1$s loses its letter, * prints the letter instead of the number, a size of 2^31 or more overflows an int."
  },
  {
   "property": "C49",
   "status": "partial",
   "theorems": [
    "C49_exclusive",
    "C49_wait_blocks",
    "C49_broadcast",
    "C49_signal",
    "C49_woken_stays",
    "C49_blocked_stays",
    "C49_no_lost_wakeup",
    "C49_woken_returns",
    "C49_no_abort",
    "C49_timeout_refuted",
    "C49_no_latch_refuted"
   ],
   "note": "Proved over every schedule, with pthread_cond_* by its POSIX contract. The time limit does not hold: the delay is passed to pthread_cond_timedwait as an absolute time since 1970, so the wait is over at once (C49_timeout_refuted). wait() without a latch, which the declaration allows, uses a null pointer (C49_no_latch_refuted). Fairness of the system's scheduler is not modelled, so 'returns eventually' is stated as 'can return whenever the latch is free'."
  },
  {
   "property": "C50",
   "status": "partial",
   "theorems": [
    "C50_outcome_unchanged",
    "C50_recording_never_fails",
    "C50_furthest_partial",
    "C50_entries_partial",
    "C50_failures_recorded",
    "C50_lookaheads_ignored",
    "C50_failed_parse_refuted",
    "C50_nothing_failed_refuted",
    "C50_operators_refuted",
    "C50_class_at_end_refuted",
    "C50_control_character_refuted"
   ],
   "note": "Proved for every grammar, text and successful parse: the place reported is the furthest one where a literal failed, the entries are exactly the literals tried there outside lookaheads, each once, each really not matching there, with a path of calls from TOP; recording never changes or breaks a parse. The rest is false of the code, each refuted by a run: a failed parse reports nothing at all, a parse without failing literals reports the start of the text, failing operators are not reported, a class at the end of the text is cut to its bracket and control characters to nothing."
  },
  {
   "property": "C51",
   "status": "partial",
   "theorems": [
    "C51_short_83",
    "C51_no_ub_partial",
    "C51_inside_partial",
    "C51_no_ub_refuted"
   ],
   "note": "Proved for every feature set, text and offset, and every pattern of characters that decode (not codes of undecodable bytes) where no numeral of value -1 follows \\x or \\u (named groups, counts, lookaheads, classes and all the rest included) whose program is below 1024 bytes with three bytes for each offset; that is every such pattern of at most 83 characters. 'Ends' is: returns or fails an assertion (C40_aborts_refuted shows that it may). False of longer programs: a pattern of 572 characters is matched outside its program, on every text (C51_no_ub_refuted). Missing: characters of undecodable bytes in the pattern."
  },
  {
   "property": "C52",
   "status": "partial",
   "theorems": [
    "C52_listing_partial",
    "C52_no_errors_partial",
    "C52_listing_refuted"
   ],
   "note": "Proved for every feature set and every pattern of characters that decode (not codes of undecodable bytes) where no numeral of value -1 follows \\x or \\u whose program is below 1024 bytes with three bytes for each offset (every such pattern of at most 83 characters, C51_short_83): the listing, the agreement of each line with the matcher's decoder, and that the lines are closed under where the matcher goes. False of longer programs (C52_listing_refuted). Not modelled: the hexadecimal dump and the fixed wording of the lines; the nesting number of the header is not compared."
  },
  {
   "property": "C53",
   "status": "partial",
   "theorems": [
    "C53_transform_partial",
    "C53_string_goes_on_partial",
    "C53_one_outcome",
    "C53_nothing_after",
    "C53_character_by_character",
    "C53_transform_slice_refuted",
    "C53_after_max_refuted"
   ],
   "note": "Proved for every callback, as a function of its state and what it is given, that stays between cp and the end of the text, every after except INT_MAX, and every string that covers its storage or shares it, with a result below 1 GiB. False of a slice alone on its storage (C53_transform_slice_refuted: the storage is transformed and the slice grows) and undefined for after = INT_MAX. Not modelled: callbacks that throw or touch the string being transformed."
  },
  {
   "property": "C54",
   "status": "partial",
   "theorems": [
    "C54_values_partial",
    "C54_no_race_on_characters",
    "C54_counts_partial",
    "C54_count_race_refuted"
   ],
   "note": "Values, characters and storage: proved for every interleaving (sequentially consistent), edits being any list of steps that change the bytes. The cached character count is counted up in the shared storage without synchronisation: C54_count_race_refuted is a schedule of two threads in which a wrong count is returned and stays for good; C54_counts_partial proves counts right and race-free for programs that never copy a string edited but not yet counted. Not modelled here: slices (C22), bookmarks (private to a variable), reads that find their end by the cached count rather than by the storage."
  },
  {
   "property": "C55",
   "status": "partial",
   "theorems": [
    "C55_values_partial",
    "C55_no_race_partial",
    "C55_put_refuted"
   ],
   "note": "Proved for every interleaving (sequentially consistent), every element type and every program in which no put replaces a key that is there, edits being any list of steps on the elements. CowMap::put erases the old pair in the shared storage before making it its own: C55_put_refuted is a schedule in which another thread's map loses the pair for good, and one in which it reads while the pair is erased. Left out of the model: restructuring a proper slice that is alone on its storage (wrong in one thread already, C16), slices up to the last element (their assertion fails, C16), delete_if."
  },
  {
   "property": "C56",
   "status": "partial",
   "theorems": [
    "C56_values",
    "C56_isolated",
    "C56_freed",
    "C56_matcher",
    "C56_counterGet_refuted",
    "C56_capture_refuted",
    "C56_null_refuted",
    "C56_many_counters_refuted"
   ],
   "note": "Value semantics, isolation and storage: proved for every sequence of calls (results of up to 127 counters, which is what a program can ask for); C56_matcher ties these values to the results in the model of the matcher (RxModel), so that C40 and C51 rest on values for a reason. That access outside the range is ignored is refuted: counterGet reads a capture or out of bounds, capture aborts, counting on a cleared result follows a null pointer, and a result with more than 127 counters loses them."
  },
  {
   "property": "C57",
   "status": "partial",
   "theorems": [
    "C57_first_alone_partial",
    "C57_one_thread",
    "C57_first_together_refuted",
    "C57_default_latch_refuted"
   ],
   "note": "Proved for every interleaving once one construction has completed before any other starts, and for a single thread. False for first constructions that overlap: the flag is set before the attributes are initialised, and testing and setting it are separate steps. C57_first_together_refuted has the three schedules (uninitialised attributes used, initialised twice, a latch that is not error-checking), C57_default_latch_refuted shows that such a latch, once entered, is never left."
  },
  {
   "property": "C58",
   "status": "partial",
   "theorems": [
    "C58_read",
    "C58_write",
    "C58_pass_partial",
    "C58_take",
    "C58_isolation",
    "C58_push_own_refuted",
    "C58_stale_refuted"
   ],
   "note": "Proved for every program that uses a reference only while it is usable, which ElemRefSpec.track reads off the program text (not until the array is changed or shared, except by set, elem_mut and references). Pushing an element of an array to that same array by reference is false: growing deletes the storage before the element is copied (C58_push_own_refuted). C58_stale_refuted shows that the rules for usable references cannot be relaxed."
  },
  {
   "property": "C59",
   "status": "partial",
   "theorems": [
    "C59_values",
    "C59_one_value",
    "C59_independent",
    "C59_defined",
    "C59_no_leak",
    "C59_cycle_refuted",
    "C59_retained_refuted"
   ],
   "note": "Proved for every program that avoids what is wrong without nesting already (C16): restructuring a slice that is alone on storage it does not start, positions beyond the end, inserting an array into itself; a slice up to the end of the storage may abort. Two more things are false: x.elem_mut(i) = x with the left side evaluated first makes an array that contains itself and is never freed (C59_cycle_refuted; C++11 leaves the order open), and an element that was pulled or removed stays alive as long as the array's storage (C59_retained_refuted). The model has variants of type None, Integer and VarArray, with sizes as natural numbers."
  },
  {
   "property": "C60",
   "status": "partial",
   "theorems": [
    "C60_current_partial",
    "C60_join_any_partial",
    "C60_join_waits_partial",
    "C60_no_error_partial",
    "C60_start_before_destroy_refuted",
    "C60_start_while_joining_refuted",
    "C60_never_reclaimed_refuted",
    "C60_unstarted_refuted",
    "C60_resume_again_refuted",
    "C60_create_fails_refuted",
    "C60_exit_refuted"
   ],
   "note": "Proved for every interleaving and every choice of ids in programs that start no thread while an object that has been joined still exists (and do not use Thread::exit; joinAny called with two threads, C37). False otherwise: join() keeps the id, so that a thread started before the joined object is destroyed can be unregistered by that destructor (joinAny then spins), and one started by another thread inside join() is never registered. A thread collected by joinAny is never pthread_joined, so the system keeps it for good; destroying a thread that was never started fails an assertion or removes another thread; resume() after suspend() starts a second thread. Thread::exit hands the thread to joinAny while its run() has not returned, and if that returns first, joinAny spins after it (C60_exit_refuted, for every orderly history in which no other thread waits to be collected)."
  },
  {
   "property": "C61",
   "status": "proved",
   "theorems": [
    "C61_sleeps_long_enough",
    "C61_sleeps_no_longer",
    "C61_returns"
   ],
   "note": "Thread::yield with HAVE_PTHREADS; nanosleep is what POSIX says of it, given as a list of the system's answers to the requests"
  },
  {
   "property": "C62",
   "status": "partial",
   "theorems": [
    "C62_same_outcome",
    "C62_inside",
    "C62_refused_character",
    "C62_refused_construct",
    "C62_syntax_refuted",
    "C62_unclosed_refuted"
   ],
   "note": "The range and the refused constructs: proved for every pattern and feature set (whenever compile returns). For errors in how the pattern is written it is false: scanning goes on after them, so that the offset is that of the last character or the end, and the message that of the last error (C62_syntax_refuted, for every pattern); an unclosed group is reported at offset 0 (C62_unclosed_refuted)."
  },
  {
   "property": "C63",
   "status": "partial",
   "theorems": [
    "C63_outcome",
    "C63_accepts",
    "C63_message",
    "C63_closing_refuted"
   ],
   "note": "Proved for every pattern and feature set (whenever compile returns), with the rules stated on the constructs that the pattern is read as, except that a closing parenthesis too many makes compile return false with no message (C63_closing_refuted). That the pattern is read as the constructs it spells is C51's and C52's matter."
  },
  {
   "property": "C64",
   "status": "partial",
   "theorems": [
    "C64_probe_partial",
    "C64_enter_refuted"
   ],
   "note": "Proved for every schedule of probe, holding and leave. False of enter(): latch() tests the result of the wrong overload of probe, so that a thread that finds the latch taken goes in at once (and fails the assertion of leave()), in every state (C64_enter_refuted). The branch does not compile as it stands; the model takes it as it reads."
  },
  {
   "property": "C65",
   "status": "partial",
   "theorems": [
    "C65_not_before",
    "C65_broadcast_partial",
    "C65_signal_partial",
    "C65_lost_signal_refuted"
   ],
   "note": "No early return: proved for every schedule. Broadcasts and signals: proved for every schedule that follows without further signals and without time limits, when no thread is about to reset the event (and, for signals, no earlier one is under way). Otherwise signals are lost for good (C65_lost_signal_refuted: one signal lets two threads out and leaves the count at -1, a wait that runs out of time does the same, and a signal before the event is reset is undone). The latch is taken to work (C64), the user's latch is not modelled. The branch does not compile as it stands."
  },
  {
   "property": "C66",
   "status": "partial",
   "theorems": [
    "C66_same_type",
    "C66_numbers_partial",
    "C66_string_partial",
    "C66_numbers_refuted"
   ],
   "note": "Proved without condition for the accessor of the variant's own type, and exactly when it holds for the accessors of the other number types (the code refutes the rest: as_int() = -1 on a Long of 5 makes it 4294967295, as_long() = 2^40 on an Integer makes it 0); numeral strings through as_longlong()"
  },
  {
   "property": "C67",
   "status": "proved",
   "theorems": [
    "C67_values",
    "C67_independent",
    "C67_storage",
    "C67_number"
   ],
   "note": "Every schedule of any number of threads with fewer than 2^31 variables; texts and parameters are addresses (the code does not copy them)"
  },
  {
   "property": "C68",
   "status": "partial",
   "theorems": [
    "C68_programs_partial",
    "C68_equal",
    "C68_find_partial",
    "C68_as_utf8",
    "C68_find_high_refuted",
    "C68_plus_refuted",
    "C68_insert_empty_refuted",
    "C68_to_case_refuted",
    "C68_mixed_refuted",
    "C68_find_past_refuted",
    "C68_overread_refuted"
   ],
   "note": "Every program in which edits in place start at the front of the body (or it is shared) and nothing is inserted into an empty string, and + joins neighbouring pieces of one string only; NUL bytes come in through StrBody(data, StrRawBinary, len), which reads one byte past the data. The code refutes the rest: + gives a UTF-8 string, so do toLower and inserting into an empty string; find cannot find bytes above 127 by their value (char is signed); find gives the length, not -1, when what follows the string in the body matches"
  }
 ]
}