# A Rocq (Coq 8.16.1) model of cjheath/strpp

## 1. Method

`/repo` is read as text. Each C++ function of the modelled part has a Gallina
counterpart carrying a comment with the file and line numbers it models. Three
outcomes are distinguished everywhere: `Ok v` (normal return), `Abort` (an
`assert` failed; the project's Makefile does not define `NDEBUG`, so asserts
are live) and `UB` (C++ undefined behaviour: out-of-bounds access, null
dereference, use after free, signed overflow ...). Fuel exhaustion, where fuel
is needed, is a fourth visible outcome and every theorem excludes it by proof.

Files, per component X, under `rocq/theories/`:

* `XModel.v`  – the code, definitions only;
* `XSpec.v`   – a small independent specification (when one is needed);
* `XProofs.v` – lemmas;
* `XProps.v`  – only the property theorems (`exact lemma`), each followed by
  `Print Assumptions`, plus `Example`s showing that hypotheses are satisfiable.

When the faithful model violates the property text, the property is split in a
`..._refuted` theorem (witness computed by the kernel) and the strongest true
version found, `..._partial` or with a stated precondition.

## 2. Per-property plan

See section 5 (kept current as the model grows) for the final state.

| id | modelled | how proved |
|----|----------|------------|
| C01-C07 | UTF-8 primitives over a byte list with bounds-checked reads | arithmetic on 6-bit groups, case analysis on the lead byte, induction on the text |
| C08-C09 | UTF-16 primitives over a list of 16-bit units | arithmetic |
| C10-C12, C44 | the case/class tables (generated verbatim) and the searches with their memo | binary-search correctness for sorted tables, memo invariance by induction over call histories; sortedness by kernel computation over the finite tables |
| C13 | ErrNum bit arithmetic on int32 | bitwise lemmas; refutation witness |
| C14 | small-step interleaving semantics of Ref handles with atomic ++/-- | inductive invariant count = handles + in-flight |
| C15-C17 | heap of bodies with reference counts, arrays as slices of bodies | refinement to lists under a heap invariant |
| C18-C19 | heap of std::map bodies | refinement to finite maps, refutation for put |
| C20-C25, C43 | heap of string bodies (bytes, counts, bookmarks), slices | refinement to character lists |
| C26 | asInt32 as written, LP64 arithmetic with wrap | equality with numeral value |
| C27 | toJSON as written | decoder in the spec; round trip; refutations |
| C28-C29 | Variant tagged union | case analysis |
| C30-C33 | the pegexp interpreter on pattern text and source | refinement of an AST semantics for printed expressions |
| C34-C36 | rule sort/search, recursion guard, capture list | order lemmas; measure; induction |
| C37-C38 | thread table / latch transition systems | invariants over all interleavings |
| C39-C41 | number encoding, NFA simulation, compiler limits | arithmetic; simulation; refutation |
| C42 | pointer classes over a fixed text | invariant over operation sequences; refutations |

## 3. Trusted base

* Coq 8.16.1's kernel (and its `vm_compute` bytecode machine).
* `Print Assumptions` under each theorem; the list is in section 6.
* The reading of the C++ text by the author of the model: nothing is extracted
  from or run against the real code.
* Assumed platform: LP64, two's complement, 8-bit char, asserts enabled,
  `-DHAVE_PTHREADS`, `UTF8_ASSERT` undefined.

## 4. What is modelled, and what is not

| source | model | left out |
|--------|-------|----------|
| include/char_encoding.h, src/char_encoding.cpp | UTF8Model, UTF16Model, CharModel, CharTables (generated verbatim from the source) | `UTF8_ASSERT` builds |
| include/char_ptr.h, include/utf8_ptr.h, include/charpointer.h | PtrModel | – |
| include/error.h | ErrNumModel, ErrorModel | message catalogues (not in the code) |
| include/refcount.h | RefModel (interleavings, one atomic access per step, sequentially consistent) | two threads racing on one Ref variable |
| include/array.h | ArrayModel, ArrayRead, ElemRefModel (references to elements) (heap of bodies, storage growth and copy loops as written) | members that do not compile when instantiated |
| include/cowmap.h | CowModel (std::map by its contract) | keys/values/each/... (do not compile when instantiated) |
| include/strval.h | StrModel, StrMore, StrEdit, StrFindModel, StrNumModel, StrJson, StrJoin, XformModel on bodies of ArrayModel; RawModel (StrRawBinary) | static data without NUL, transform callbacks that throw or touch the string being transformed |
| include/strval.h with threads | ConcModel (on RefModel; one access to a count or byte per step) | slices, bookmarks; reads bounded by the cached count |
| include/array.h and include/cowmap.h with threads | ShareModel (on RefModel; one access to a count or element per step) | allocation sizes, restructuring a proper slice alone on its body, delete_if; a search or erase in a map is one step |
| include/strformat.h | FmtModel (on VarModel and character lists) | – |
| include/variant.h, src/variant.cpp | VarModel, VarJsonModel (strings are character lists); NestModel (arrays in arrays, edited in place) | `<<` on more than two; indent below -2 |
| include/pegexp.h, include/peg.h, include/peg_ast.h | PegModel, PegFailModel | trace output, sources other than PegexpPointerSource |
| rx/rxcompile.cpp, rx/strregex.h | RxCompModel (both passes, to the bytes of the program), RxErrModel (errorOffset) | |
| rx/rxdump.cpp | RxDumpModel (the values of each line) | the hexadecimal dump; the wording of the lines |
| rx/rxmatch.cpp | RxModel (decoder and thread lists; capture results are values), ResModel (the shared capture results on a heap; C56 proves they are values) | the tracing output |
| include/lockfree.h, include/condition.h, src/condition.cpp, include/thread.h, src/thread.cpp | LatchModel, LatchInitModel (construction), CondModel, ThreadModel, ThreadIdModel (with ids that are given again), YieldModel (HAVE_PTHREADS; pthread calls by their POSIX contract); SpinModel and WinCondModel (the latch without pthreads and the condition for MSW, as they read: they do not compile) | the MSW branches of Thread |

Everywhere: allocation does not fail, and the text is read as by a compiler for
x86-64 with the assumptions of section 3. Each definition says in its comment
where it simplifies.

The layers meet as follows. Strings are modelled three times: as bytes on a heap
(StrModel, C20–C27, C43), where programs are proved to compute the same programs
on character lists (C22), and as character lists in the models that only use
them (variants, format, regular expressions). Likewise arrays: on a heap in
ArrayModel, as bodies of VarModel. The numbers that coerce and the regex
compiler parse are those of `asInt32` on characters, which C26 ties to the heap
model.

C40, returning: RxCheck.v defines a certificate (which stations a cycle can add,
how often those that are not tested for duplicates, how deep the shunts get) and
proves that the matcher returns if there is one. It is computed for a given
program (`returns`), and constructed by proof for whole classes of patterns:
RxStraight.v (no quantifiers), RxQuant.v (quantified characters, classes and
dots), RxAnchor.v (the same between ^ and $). RxMany.v proves the bound of
RxQuant.v sharp for searches: one optional item more at the beginning and every
search ends the program. Patterns with groups or alternatives have only the
computed check.

## 5. State of each property

`proved`: the statement in properties.jsonl holds of the model without
restriction. `partial`: what holds is proved, and where the code violates the
statement there is a theorem `..._refuted` with a run that shows it.

* **C01** UTF-8 encode/decode round trip — *proved* (UTF8Props.v). 
  Theorems: `C01_utf8_roundtrip`, `C01_replacement_codes`.
* **C02** UTF-8 length agrees with the encoder and is minimal — *proved* (UTF8Props.v). 
  Theorems: `C02_utf8_length`.
* **C03** Decoding always makes progress and the pointer length predicts it — *proved* (UTF8Props.v). six readable bytes are a hypothesis because UTF8Len(pointer) may read them (see C05)
  Theorems: `C03_utf8_progress`.
* **C04** Naive programs pass any data through unchanged — *proved* (UTF8Props.v). identity exactly on clean strings; a second pass can change text that contained a spelled-out replacement code
  Theorems: `C04_passthrough`, `C04_idempotent_refuted`.
* **C05** Decoding never reads past the NUL terminator — *partial* (UTF8Props.v). true of UTF8Get; false of UTF8Len(pointer), which reads the last continuation byte first
  Theorems: `C05_get_stops_at_nul`, `C05_len_of_pointer_refuted`.
* **C06** Stepping back undoes stepping forward — *partial* (UTF8Props.v). true after a complete sequence; false on malformed text
  Theorems: `C06_backup_partial`, `C06_backup_in_bounds`, `C06_backup_refuted`.
* **C07** Padded zero is one NUL character of the requested length — *partial* (UTF8Props.v). false for every length 2..6 (off-by-one in the lead-byte table)
  Theorems: `C07_padded_zero_partial`, `C07_padded_zero_refuted`.
* **C08** UTF-16 round trip — *proved* (UTF16Props.v). 
  Theorems: `C08_utf16_roundtrip`, `C08_surrogate_refuted`.
* **C09** UTF-16 decoding accepts any input — *partial* (UTF16Props.v). unpaired surrogates abort
  Theorems: `C09_utf16_decode_partial`, `C09_utf16_decode_refuted`.
* **C10** Case conversion is a function of the character only — *proved* (CharProps.v). 
  Theorems: `C10_case_conversion_memo_free`, `C10_tables_are_functions`, `C10_case_conversion_histories`.
* **C11** Decimal digit values — *partial* (CharProps.v). true except that the Han digits listed as special cases are never recognised (dead code)
  Theorems: `C11_digit_values_partial`, `C11_han_digits_refuted`, `C11_hex_digit_values`.
* **C12** Alphabetic classification and title case — *proved* (CharProps.v). 
  Theorems: `C12_alphabetic`, `C12_title`.
* **C13** Error numbers keep set and message apart — *partial* (ErrNumProps.v). ERR_FLAG/ERR_CUST are bits 27/26 and overlap the set field; numbers are not negative and sets collide
  Theorems: `C13_errnum_partial`, `C13_errnum_code`, `C13_errnum_refuted`.
* **C14** Reference counting frees exactly once, under any interleaving — *proved* (RefProps.v). sequentially consistent atomics; fewer than 2^31 handles and threads
  Theorems: `C14_refcount_exact`, `C14_no_dangling_handle`.
* **C15** Arrays are values: mutation never shows through another handle — *proved* (ArrayProps.v). positions inside the array, as the code's own range checks wrap (C16_remove_range_refuted); inserting an array into itself excluded (C16_self_insert_refuted)
  Theorems: `C15_isolation`, `C15_contents_defined`, `C15_no_leak_no_dangling`, `C15_memory_safe`.
* **C16** Array operations compute the list operations they name — *partial* (ArrayProps.v). true of every operation when an unshared variable starts at the beginning of its body; false otherwise (push, insert, middle remove), and slices up to the end abort
  Theorems: `C16_operations_partial`, `C16_remove_ends`, `C16_edits_succeed`, `C16_element_access`, `C16_slice_to_end_refuted`, `C16_offset_refuted`, `C16_remove_range_refuted`, `C16_self_insert_refuted`, `C16_shorter_refuted`.
* **C17** Array searches and comparison agree with the contents — *partial* (ArrayProps.v). equality, find and the folds are right on non-null bodies; rfind skips index 0, compare ignores a longer left side, bsearch ends, and an index it returns inside the array is right, but it reads out of bounds and misses elements, delete_if does nothing
  Theorems: `C17_equality`, `C17_compare_partial`, `C17_compare_refuted`, `C17_find`, `C17_rfind_partial`, `C17_rfind_refuted`, `C17_functional_helpers`, `C17_select_map`, `C17_bsearch_partial`, `C17_bsearch_refuted`, `C17_bsearch_misses_refuted`, `C17_empty_refuted`, `C17_delete_if_refuted`.
* **C18** Copy-on-write maps are values — *partial* (CowProps.v). every operation but put of a present key on a shared body leaves all other maps alone, and that put changes only that key's answer; put erases before Unshare, so the full claim is false
  Theorems: `C18_operations_leave_other_maps_alone_partial`, `C18_bodies_counted_and_freed_exactly`, `C18_put_changes_other_maps_refuted`.
* **C19** Map operations implement a finite map — *proved* (CowProps.v). for key types whose order identifies equal keys; std::map by its contract
  Theorems: `C19_target_becomes_the_expected_map`, `C19_size_counts_present_keys`.
* **C20** Strings are values: editing one never changes another — *proved* (StrIsoProps.v). every history of the modelled string operations (construct, copy, assign, substr, +, *, insert, +=, case, asUTF8, index), any bytes, any number of variables; steps that abort or are undefined are excluded (C22 shows which)
  Theorems: `C20_editing_one_string_never_changes_another`, `C20_bodies_are_counted_exactly`.
* **C21** Character indexing returns the n-th character — *partial* (StrProps.v). true after every history that inserts nowhere before a remembered position in non-ASCII text (run_ok states which histories); false otherwise: insert does not move the bookmark
  Theorems: `C21_index_returns_nth_character_partial`, `C21_index_after_insert_refuted`.
* **C22** String edits compute the text operation they name — *partial* (StrProps.v). whole programs compute the same program on character lists, given what in-place editing needs (operand starts its body, unshared slices excluded, sizes below 1 GiB); each exclusion has a refutation
  Theorems: `C22_programs_compute_on_texts_partial`, `C22_each_operation_computes_its_text_partial`, `C22_append_to_slice_refuted`, `C22_upcase_slice_refuted`, `C22_self_append_refuted`.
* **C23** String comparison is a total order consistent with equality — *partial* (StrFindProps.v). equality in full; the order is lexicographic and total for strings not cut off at the end and without NUL, and neither condition can be dropped; case independent and natural comparison are not implemented and abort
  Theorems: `C23_equality_is_equality_of_texts`, `C23_compare_zero_means_equal_partial`, `C23_compare_is_lexicographic_partial`, `C23_operators_partial`, `C23_order_laws_partial`, `C23_map_order_partial`, `C23_styles_refuted`, `C23_compare_slice_refuted`, `C23_compare_nul_refuted`.
* **C24** String search returns the first/last occurrence inside the string — *partial* (StrFindProps.v). right whenever the character after the string does not decide; searches look one character beyond the end
  Theorems: `C24_find_character_partial`, `C24_rfind_character_partial`, `C24_find_any_partial`, `C24_find_not_partial`, `C24_rfind_any_not_partial`, `C24_find_string_partial`, `C24_rfind_string_partial`, `C24_find_beyond_end_refuted`, `C24_rfind_before_end_refuted`, `C24_find_long_needle_refuted`.
* **C25** Substring clamping — *partial* (StrProps.v). substr in full; head, tail and shorter for arguments up to the length, and C25_beyond says exactly what every other argument gives
  Theorems: `C25_substr_clips`, `C25_head_tail_shorter_partial`, `C25_beyond`, `C25_tail_shorter_head_refuted`.
* **C26** Integer parsing — *partial* (StrNumProps.v). every numeral in the int32 range gives its value, success means a numeral, 64-bit overflow is reported, each error code and the scanned length mean what the header says; false as documented: values between 2^31 and 2^63 are truncated without error, radix 16 rejects 0x, -2^63 is undefined behaviour; every radix from 0 to 36
  Theorems: `C26_numerals_in_range_partial`, `C26_success_means_numeral_partial`, `C26_overflow_reported_partial`, `C26_defined_partial`, `C26_errors_partial`, `C26_illegal_radix_reported`, `C26_truncation_refuted`, `C26_prefix_refuted`, `C26_least_long_refuted`.
* **C27** JSON escaping is valid and reversible — *partial* (JsonProps.v). valid and reversible for characters 1..0xFFFF other than surrogates; false otherwise: characters above 0xFFFF decode to another character, those above 0xFFFFF abort, NUL gives invalid JSON
  Theorems: `C27_contents_stand_for_one_text`, `C27_bmp_text_survives_partial`, `C27_in_place_partial`, `C27_injective_partial`, `C27_supplementary_refuted`, `C27_abort_refuted`, `C27_nul_refuted`.
* **C28** Variants copy by value — *proved* (VarProps.v). Copy, assignment (also of an element of the variable's own array), construction (also from slices of arrays, from what a map has for a key, and by type), writing through the number references, and destruction over every history, with exact reference counts on a heap of shared bodies. The ownership part (every body is freed) holds unless a string is coerced to a number, which leaks the string (refuted). Strings are character lists here and bodies are immutable (StrModel, ArrayModel, CowModel model the editing).
  Theorems: `C28_values`, `C28_one_value`, `C28_independent`, `C28_defined`, `C28_no_leak_partial`, `C28_no_leak_refuted`.
* **C29** Variant coercion keeps type and value consistent — *partial* (VarProps.v). The code refutes the property: between number types the type tag is not updated, and the error test of String to Integer/Long is inverted. Proved: number accessors read the right number or abort and leave the variant as it was; number to String gives the decimal notation; String to LongLong accepts exactly numerals (value modulo 2^32); same type, None and impossible coercions.
  Theorems: `C29_type_refuted`, `C29_string_refuted`, `C29_numbers_partial`, `C29_to_string`, `C29_to_longlong_partial`, `C29_other`.
* **C30** Pegexp matches exactly the PEG language — *partial* (PegProps.v). every pattern of the notation defined in PegSpec (all operators, nesting, labels, calls) on every text; the notation excludes what the code gets wrong (bare alternation or operator under an operator, empty alternates, ranges beginning with a letter escape, non-ASCII in patterns, kind escapes on characters above 255), each with a refutation
  Theorems: `C30_match_partial`, `C30_meaning_unique`, `C30_search_partial`, `C30_parse_partial`, `C30_optional_alternation_refuted`, `C30_lookahead_alternation_refuted`, `C30_nested_operator_refuted`, `C30_empty_alternate_refuted`, `C30_escaped_range_refuted`, `C30_non_ascii_refuted`, `C30_kind_of_wide_character_refuted`.
* **C31** Failed matches and lookahead consume nothing — *proved* (PegProps.v). every pattern text, not only meaningful ones
  Theorems: `C31_failed_atom_restores`, `C31_lookahead_consumes_nothing`, `C31_failed_match_restores`.
* **C32** Matching terminates and stays inside the pattern — *partial* (PegProps.v). termination in full, with an explicit bound on the recursion depth; staying inside the pattern for patterns of the notation, false for patterns ending in a dangling operator
  Theorems: `C32_terminates`, `C32_search_terminates`, `C32_stays_inside_partial`, `C32_reads_beyond_pattern_refuted`.
* **C33** Source positions count lines and columns — *proved* (PegProps.v). 
  Theorems: `C33_positions`, `C33_steps`.
* **C34** Every grammar rule can be found by its name — *partial* (PegProps.v). true unless another rule's name is the called name followed by a digit
  Theorems: `C34_settles`, `C34_only_the_called_rule`, `C34_found_partial`, `C34_found_refuted`.
* **C35** Left recursion is detected, so parsing terminates — *proved* (PegProps.v). every table of rules; the bound on nested steps is explicit
  Theorems: `C35_parse_terminates`, `C35_left_recursive_call_fails`, `C35_standard_meaning`.
* **C36** Captures are only what was matched — *partial* (PegProps.v). true of a context that rolls back as the interface asks; of the PegContext of peg_ast.h only for parses during which it prints no complaint, without labels on atoms and without prefix clashes, each with a refutation
  Theorems: `C36_captured_text`, `C36_plain_captures`, `C36_default_captures_nothing`, `C36_parse_captures_partial`, `C36_parse_captures_refuted`, `C36_captured_prefix_refuted`, `C36_atom_label_refuted`.
* **C37** joinAny waits for a thread and never loses one — *partial* (ThreadProps.v). true for histories without Thread::exit and with at least two registered threads; false with one thread, after Thread::exit, and when the uninitialised state reads as Ended
  Theorems: `C37_join_any_partial`, `C37_finish_wakes`, `C37_never_returned_twice`, `C37_single_thread_refuted`, `C37_exit_spins_refuted`, `C37_uninitialised_state_refuted`.
* **C38** A latch is held by at most one thread — *partial* (LatchProps.v). mutual exclusion and hand-over proved in full; holding() answers correctly but blocks while another thread is inside
  Theorems: `C38_mutual_exclusion`, `C38_no_abort`, `C38_leave_admits_waiter`, `C38_probe`, `C38_holding_partial`, `C38_holding_blocks_refuted`.
* **C39** Compiled numbers survive encoding — *partial* (RxProps.v). Proved for every offset of magnitude below 2^30, at every place in a program. Offsets of 2^30 and more do not survive (the shift loses the top bit): refuted, so the full statement is false of the code.
  Theorems: `C39_round_trip_partial`, `C39_every_offset_refuted`.
* **C40** The regex matcher finds a match exactly when the expression matches — *partial* (RxAnchorProps.v, RxManyProps.v, RxProps.v, RxQuantProps.v, RxStraightProps.v). Proved, from the bytes of the compiled program to the result of the matcher, for every expression of characters, ., classes, \s \d \h, ^, $, ?, *, +, alternatives and groups (nested to any depth the compiler takes), however it is written (plain and quoted characters, \b \e \f \n \r \t, octal, \x and \u codes, -, ] and ^ in classes), whose program is below 1024 bytes with three bytes for each offset (that holds of every pattern of at most 83 characters, C51_short_83), and every text: if the matcher returns, it returns the longest match at the offset, or the leftmost longest one of a search, or none if there is none. Not covered, and mostly false of the code: named groups, counts, lookaheads, numeric escapes followed by white space, searches past a NUL, and patterns whose program takes offsets of three bytes (each refuted by a run). The matcher may end the program instead of returning (refuted: C40_aborts_refuted), so returning is a hypothesis of the first two theorems; the other two prove that it does return, on every text, for every program that passes a check computed on the program alone (RxCheck.returns: bounds the threads and shunts of every cycle), which most patterns do. For sequences of characters, ., classes, \s \d \h, ^ and $ without quantifiers, alternatives or groups, of any number of items, the three C40_straight theorems prove with no such check and no such hypothesis that the matcher returns, and returns what the pattern says (a search in texts without NUL; in any other text it still returns). The three C40_quantified theorems prove the same for sequences, of any number of items, of characters, ., classes, \s \d \h, each with ?, *, + or nothing, in which no more than ten in a row have ? or * (eleven abort a search: C40_quantified_example). The three C40_anchored theorems extend that to such sequences with a ^ before them, a $ after them, or both; a $ in the middle, after enough stars, ends the program (C40_anchors_refuted). C40_many_optional_refuted: every such sequence with eleven items that can be left out at its beginning ends the program in every search, on every text.
  Theorems: `C40_written`, `C40_match_at_partial`, `C40_match_after_partial`, `C40_match_at_returns_partial`, `C40_match_after_returns_partial`, `C40_straight_match_at_partial`, `C40_straight_match_after_partial`, `C40_straight_search_returns_partial`, `C40_quantified_match_at_partial`, `C40_quantified_match_after_partial`, `C40_quantified_search_returns_partial`, `C40_anchored_match_at_partial`, `C40_anchored_match_after_partial`, `C40_anchored_search_returns_partial`, `C40_anchors_refuted`, `C40_many_optional_refuted`, `C40_named_group_refuted`, `C40_counts_refuted`, `C40_nested_counts_refuted`, `C40_lookahead_refuted`, `C40_hex_refuted`, `C40_search_nul_refuted`, `C40_long_refuted`, `C40_aborts_refuted`.
* **C41** Regex compilation is total — *partial* (RxProps.v). Proved for every pattern and feature set: scanning ends (unless a count is a numeral of value -2^63); when compile returns there is a program or a message, but for a ')' too many; and every pattern the first pass accepts is compiled, with no write past the memory and no failed assertion, if the memory allocated is what the offsets need at the size found for them and the number of states fits an offset (a program of less than 64 bytes, of 128 to 1023, and so on). The full statement is false of the code: a ')' too many fails without a message, a count of -2^63 is undefined, and 27 times \d and .{200} overrun (assertion), all refuted by a run.
  Theorems: `C41_result_partial`, `C41_scanning_partial`, `C41_compiles_partial`, `C41_returns_partial`, `C41_total_refuted`.
* **C42** Guarded pointers stay inside their text — *partial* (PtrProps.v). Sequences of operations of any length: each pointer stands where it should and inside its text, as long as every operation is one the class guards or one that stays inside by itself; which operations those are is spelled out (expected_move, guards). GuardedUTF8Ptr also over malformed bytes. Several operators of the guarded classes are not guarded (refuted), hence partial.
  Theorems: `C42_char_pointers_partial`, `C42_utf8_pointers_partial`, `C42_char_sequence_partial`, `C42_utf8_sequence_partial`, `C42_always_guarded`, `C42_utf8_any_bytes_partial`, `C42_guarded_forward_refuted`, `C42_backward_refuted`, `C42_decrement_refuted`, `C42_utf8_backup_refuted`.
* **C43** Joining strings — *proved* (StrJoinProps.v). For every array of strings any program of C22 can build (slices, shared and static bodies included) and every separator, as long as body and result stay below 1 GiB: the text, no other string changes, and the reference counts are exact afterwards.
  Theorems: `C43_join`.
* **C44** White space and ASCII predicates — *proved* (CharProps.v). 
  Theorems: `C44_white_and_ranges`, `C44_ascii_agreement`.
* **C45** Case conversion is idempotent — *proved* (CharProps.v). 
  Theorems: `C45_case_idempotent`.
* **C46** Unshare gives exclusive access — *proved* (RefProps.v). 
  Theorems: `C46_unshare_sole_owner_stable`, `C46_unshare_copy_private`.
* **C47** as_json yields JSON of the value — *partial* (VarJsonProps.v). For every variant whose strings have only characters of the Basic Multilingual Plane without NUL and surrogates, for every style and depth; refuted for NUL (not JSON) and above U+FFFFF (abort). Supplementary characters: see C27.
  Theorems: `C47_as_json_partial`, `C47_style_partial`, `C47_one_value`, `C47_distinct_partial`, `C47_nul_refuted`, `C47_abort_refuted`.
* **C48** format puts the arguments in place of the conversions — *partial* (FmtProps.v). Proved for every format of literal characters and %s, %d, %f, %g with digits for size and precision below 2^31, and every array of values with strings in the Basic Multilingual Plane (C27): text, missing or impossible arguments, no leak, no change. The rest is false of the code, each refuted by a run: sizes are ignored, %% gives nothing, %1$s loses its letter, * prints the letter instead of the number, a size of 2^31 or more overflows an int.
  Theorems: `C48_format_partial`, `C48_one_reading`, `C48_percent_refuted`, `C48_numbered_refuted`, `C48_size_refuted`, `C48_overflow_refuted`.
* **C49** Waiting on a condition — *partial* (CondProps.v). Proved over every schedule, with pthread_cond_* by its POSIX contract. The time limit does not hold: the delay is passed to pthread_cond_timedwait as an absolute time since 1970, so the wait is over at once (C49_timeout_refuted). wait() without a latch, which the declaration allows, uses a null pointer (C49_no_latch_refuted). Fairness of the system's scheduler is not modelled, so 'returns eventually' is stated as 'can return whenever the latch is free'.
  Theorems: `C49_exclusive`, `C49_wait_blocks`, `C49_broadcast`, `C49_signal`, `C49_woken_stays`, `C49_blocked_stays`, `C49_no_lost_wakeup`, `C49_woken_returns`, `C49_no_abort`, `C49_timeout_refuted`, `C49_no_latch_refuted`.
* **C50** A parse reports how far it got and what it was looking for — *partial* (PegFailProps.v). Proved for every grammar, text and successful parse: the place reported is the furthest one where a literal failed, the entries are exactly the literals tried there outside lookaheads, each once, each really not matching there, with a path of calls from TOP; recording never changes or breaks a parse. The rest is false of the code, each refuted by a run: a failed parse reports nothing at all, a parse without failing literals reports the start of the text, failing operators are not reported, a class at the end of the text is cut to its bracket and control characters to nothing.
  Theorems: `C50_outcome_unchanged`, `C50_recording_never_fails`, `C50_furthest_partial`, `C50_entries_partial`, `C50_failures_recorded`, `C50_lookaheads_ignored`, `C50_failed_parse_refuted`, `C50_nothing_failed_refuted`, `C50_operators_refuted`, `C50_class_at_end_refuted`, `C50_control_character_refuted`.
* **C51** Matching a regular expression stays in the program and the text — *partial* (RxSafeProps.v). Proved for every feature set, text and offset, and every pattern of characters that decode (not codes of undecodable bytes) where no numeral of value -1 follows \x or \u (named groups, counts, lookaheads, classes and all the rest included) whose program is below 1024 bytes with three bytes for each offset; that is every such pattern of at most 83 characters. 'Ends' is: returns or fails an assertion (C40_aborts_refuted shows that it may). False of longer programs: a pattern of 572 characters is matched outside its program, on every text (C51_no_ub_refuted). Missing: characters of undecodable bytes in the pattern.
  Theorems: `C51_short_83`, `C51_no_ub_partial`, `C51_inside_partial`, `C51_no_ub_refuted`.
* **C52** The listing of a compiled regular expression — *partial* (RxDumpProps.v). Proved for every feature set and every pattern of characters that decode (not codes of undecodable bytes) where no numeral of value -1 follows \x or \u whose program is below 1024 bytes with three bytes for each offset (every such pattern of at most 83 characters, C51_short_83): the listing, the agreement of each line with the matcher's decoder, and that the lines are closed under where the matcher goes. False of longer programs (C52_listing_refuted). Not modelled: the hexadecimal dump and the fixed wording of the lines; the nesting number of the header is not compared.
  Theorems: `C52_listing_partial`, `C52_no_errors_partial`, `C52_listing_refuted`.
* **C53** transform with any callback — *partial* (XformProps.v). Proved for every callback, as a function of its state and what it is given, that stays between cp and the end of the text, every after except INT_MAX, and every string that covers its storage or shares it, with a result below 1 GiB. False of a slice alone on its storage (C53_transform_slice_refuted: the storage is transformed and the slice grows) and undefined for after = INT_MAX. Not modelled: callbacks that throw or touch the string being transformed.
  Theorems: `C53_transform_partial`, `C53_string_goes_on_partial`, `C53_one_outcome`, `C53_nothing_after`, `C53_character_by_character`, `C53_transform_slice_refuted`, `C53_after_max_refuted`.
* **C54** copies of a string in different threads — *partial* (ConcProps.v). Values, characters and storage: proved for every interleaving (sequentially consistent), edits being any list of steps that change the bytes. The cached character count is counted up in the shared storage without synchronisation: C54_count_race_refuted is a schedule of two threads in which a wrong count is returned and stays for good; C54_counts_partial proves counts right and race-free for programs that never copy a string edited but not yet counted. Not modelled here: slices (C22), bookmarks (private to a variable), reads that find their end by the cached count rather than by the storage.
  Theorems: `C54_values_partial`, `C54_no_race_on_characters`, `C54_counts_partial`, `C54_count_race_refuted`.
* **C55** copies of an array or map in different threads — *partial* (ShareProps.v). Proved for every interleaving (sequentially consistent), every element type and every program in which no put replaces a key that is there, edits being any list of steps on the elements. CowMap::put erases the old pair in the shared storage before making it its own: C55_put_refuted is a schedule in which another thread's map loses the pair for good, and one in which it reads while the pair is erased. Left out of the model: restructuring a proper slice that is alone on its storage (wrong in one thread already, C16), slices up to the last element (their assertion fails, C16), delete_if.
  Theorems: `C55_values_partial`, `C55_no_race_partial`, `C55_put_refuted`.
* **C56** results of a match are values — *partial* (ResProps.v). Value semantics, isolation and storage: proved for every sequence of calls (results of up to 127 counters, which is what a program can ask for); C56_matcher ties these values to the results in the model of the matcher (RxModel), so that C40 and C51 rest on values for a reason. That access outside the range is ignored is refuted: counterGet reads a capture or out of bounds, capture aborts, counting on a cleared result follows a null pointer, and a result with more than 127 counters loses them.
  Theorems: `C56_values`, `C56_isolated`, `C56_freed`, `C56_matcher`, `C56_counterGet_refuted`, `C56_capture_refuted`, `C56_null_refuted`, `C56_many_counters_refuted`.
* **C57** latches constructed in several threads — *partial* (LatchInitProps.v). Proved for every interleaving once one construction has completed before any other starts, and for a single thread. False for first constructions that overlap: the flag is set before the attributes are initialised, and testing and setting it are separate steps. C57_first_together_refuted has the three schedules (uninitialised attributes used, initialised twice, a latch that is not error-checking), C57_default_latch_refuted shows that such a latch, once entered, is never left.
  Theorems: `C57_first_alone_partial`, `C57_one_thread`, `C57_first_together_refuted`, `C57_default_latch_refuted`.
* **C58** references to array elements — *partial* (ElemRefProps.v). Proved for every program that uses a reference only while it is usable, which ElemRefSpec.track reads off the program text (not until the array is changed or shared, except by set, elem_mut and references). Pushing an element of an array to that same array by reference is false: growing deletes the storage before the element is copied (C58_push_own_refuted). C58_stale_refuted shows that the rules for usable references cannot be relaxed.
  Theorems: `C58_read`, `C58_write`, `C58_pass_partial`, `C58_take`, `C58_isolation`, `C58_push_own_refuted`, `C58_stale_refuted`.
* **C59** arrays of variants edited in place — *partial* (NestProps.v). Proved for every program that avoids what is wrong without nesting already (C16): restructuring a slice that is alone on storage it does not start, positions beyond the end, inserting an array into itself; a slice up to the end of the storage may abort. Two more things are false: x.elem_mut(i) = x with the left side evaluated first makes an array that contains itself and is never freed (C59_cycle_refuted; C++11 leaves the order open), and an element that was pulled or removed stays alive as long as the array's storage (C59_retained_refuted). The model has variants of type None, Integer and VarArray, with sizes as natural numbers.
  Theorems: `C59_values`, `C59_one_value`, `C59_independent`, `C59_defined`, `C59_no_leak`, `C59_cycle_refuted`, `C59_retained_refuted`.
* **C60** threads are told apart when the system gives thread ids again — *partial* (ThreadIdProps.v). Proved for every interleaving and every choice of ids in programs that start no thread while an object that has been joined still exists (and do not use Thread::exit; joinAny called with two threads, C37). False otherwise: join() keeps the id, so that a thread started before the joined object is destroyed can be unregistered by that destructor (joinAny then spins), and one started by another thread inside join() is never registered. A thread collected by joinAny is never pthread_joined, so the system keeps it for good; destroying a thread that was never started fails an assertion or removes another thread; resume() after suspend() starts a second thread. Thread::exit hands the thread to joinAny while its run() has not returned, and if that returns first, joinAny spins after it (C60_exit_refuted, for every orderly history in which no other thread waits to be collected).
  Theorems: `C60_current_partial`, `C60_join_any_partial`, `C60_join_waits_partial`, `C60_no_error_partial`, `C60_start_before_destroy_refuted`, `C60_start_while_joining_refuted`, `C60_never_reclaimed_refuted`, `C60_unstarted_refuted`, `C60_resume_again_refuted`, `C60_create_fails_refuted`, `C60_exit_refuted`.
* **C61** Thread::yield sleeps as long as it was asked to, signals or not — *proved* (YieldProps.v). Thread::yield with HAVE_PTHREADS; nanosleep is what POSIX says of it, given as a list of the system's answers to the requests
  Theorems: `C61_sleeps_long_enough`, `C61_sleeps_no_longer`, `C61_returns`.
* **C62** errorOffset() of a regular expression that does not compile points at the error — *partial* (RxErrProps.v). The range and the refused constructs: proved for every pattern and feature set (whenever compile returns). For errors in how the pattern is written it is false: scanning goes on after them, so that the offset is that of the last character or the end, and the message that of the last error (C62_syntax_refuted, for every pattern); an unclosed group is reported at offset 0 (C62_unclosed_refuted).
  Theorems: `C62_same_outcome`, `C62_inside`, `C62_refused_character`, `C62_refused_construct`, `C62_syntax_refuted`, `C62_unclosed_refuted`.
* **C63** compile() accepts exactly the regular expressions that keep the rules, and errorMessage() names the rule broken — *partial* (RxMsgProps.v). Proved for every pattern and feature set (whenever compile returns), with the rules stated on the constructs that the pattern is read as, except that a closing parenthesis too many makes compile return false with no message (C63_closing_refuted). That the pattern is read as the constructs it spells is C51's and C52's matter.
  Theorems: `C63_outcome`, `C63_accepts`, `C63_message`, `C63_closing_refuted`.
* **C64** The latch without pthreads lets one thread in at a time — *partial* (SpinProps.v). Proved for every schedule of probe, holding and leave. False of enter(): latch() tests the result of the wrong overload of probe, so that a thread that finds the latch taken goes in at once (and fails the assertion of leave()), in every state (C64_enter_refuted). The branch does not compile as it stands; the model takes it as it reads.
  Theorems: `C64_probe_partial`, `C64_enter_refuted`.
* **C65** The condition variable for Windows wakes those who wait, and only when signalled — *partial* (WinCondProps.v). No early return: proved for every schedule. Broadcasts and signals: proved for every schedule that follows without further signals and without time limits, when no thread is about to reset the event (and, for signals, no earlier one is under way). Otherwise signals are lost for good (C65_lost_signal_refuted: one signal lets two threads out and leaves the count at -1, a wait that runs out of time does the same, and a signal before the event is reset is undone). The latch is taken to work (C64), the user's latch is not modelled. The branch does not compile as it stands.
  Theorems: `C65_not_before`, `C65_broadcast_partial`, `C65_signal_partial`, `C65_lost_signal_refuted`.
* **C66** Writing through a variant's number references — *partial* (VarProps.v). Proved without condition for the accessor of the variant's own type, and exactly when it holds for the accessors of the other number types (the code refutes the rest: as_int() = -1 on a Long of 5 makes it 4294967295, as_long() = 2^40 on an Integer makes it 0); numeral strings through as_longlong()
  Theorems: `C66_same_type`, `C66_numbers_partial`, `C66_string_partial`, `C66_numbers_refuted`.
* **C67** Errors are values — *proved* (ErrorProps.v). Every schedule of any number of threads with fewer than 2^31 variables; texts and parameters are addresses (the code does not copy them)
  Theorems: `C67_values`, `C67_independent`, `C67_storage`, `C67_number`.
* **C68** Binary strings are lists of bytes — *partial* (RawProps.v). Every program in which edits in place start at the front of the body (or it is shared) and nothing is inserted into an empty string, and + joins neighbouring pieces of one string only; NUL bytes come in through StrBody(data, StrRawBinary, len), which reads one byte past the data. The code refutes the rest: + gives a UTF-8 string, so do toLower and inserting into an empty string; find cannot find bytes above 127 by their value (char is signed); find gives the length, not -1, when what follows the string in the body matches
  Theorems: `C68_programs_partial`, `C68_equal`, `C68_find_partial`, `C68_as_utf8`, `C68_find_high_refuted`, `C68_plus_refuted`, `C68_insert_empty_refuted`, `C68_to_case_refuted`, `C68_mixed_refuted`, `C68_find_past_refuted`, `C68_overread_refuted`.

## 6. Assumptions

Every property theorem is followed by `Print Assumptions`; the answer is
`Closed under the global context` for each of them: no axiom, neither of the
standard library nor of another one, is used. (vcheck lists seven `Under_rel`
parameters of `Coq.ssr.ssrunder`: they are the module-type fields of a
standard-library file that is loaded, and no theorem depends on them.)

## 7. How the theorems were tested

`seeded/LOG.jsonl` has one line per wrong program: the definition edited in a
scratch copy, the edit, the claim it breaks, the lemmas or theorems that then
fail. Where a theorem survived a harmful edit it was tightened (the line says
so); the surviving edits that remain are harmless (performance only, or outside
of the claim), and say so.

The model was also run on the project's own tests (theories/RepoTests.v; the
kernel's evaluator, each expected value as written in /repo/test): the 114 rows
of rxcompile_test.cpp byte for byte, the 132 of rxmatch_test.cpp, the 196 of
pegexp_test.cases and the checks of char_encoding_test.cpp all agree, and the
row rxmatch_test.cpp comments out as failing fails in the model too. The other
tests only print. This is evidence for the definitions, no proof.

## 8. Defects found in the code

Each is a `_refuted` theorem, or noted in the comment of the model.

* `C04_idempotent_refuted`: Compaction is not idempotent on spelled-out replacement codes: a second pass changes the text again.
* `C05_len_of_pointer_refuted`: UTF8Len(pointer) checks the last continuation byte first and so reads beyond the terminator of a truncated sequence.
* `C06_backup_refuted`: On malformed text stepping back is not the inverse of stepping forward: E4 B8 41 reads as three characters, at 0, 1 and 2, but backing up from 2 lands on 0.
* `C07_padded_zero_refuted`: ... but for every length from 2 to 6 they do not: the lead byte is taken from the wrong column of the table.
* `C08_surrogate_refuted`: A surrogate code point passed to UTF16Put does not come back: the program aborts in UTF16Get.
* `C09_utf16_decode_refuted`: An unpaired surrogate terminates the program (assert) instead of yielding the replacement character.
* `C11_han_digits_refuted`: The Han digits the source lists as special cases are never recognised: the loop's short circuit returns -1 before reaching them.
* `C13_errnum_refuted`: The flag bits overlap the set number: the errno set 0 reads back as 0x3000, different sets collide, and no number is negative.
* `C16_slice_to_end_refuted`: C16 refuted: a slice that reaches the end of its body stops the program (array.h 447-448 assert offs+len < length).
* `C16_offset_refuted`: C16 refuted: after removing the first element of an unshared array, push, insert and remove act at the wrong place.
* `C16_remove_range_refuted`: C16 refuted: remove's range check wraps: removing 5 of 3 elements, or from a position past the end, is accepted and leaves an array of absurd length.
* `C16_self_insert_refuted`: C16 refuted: inserting an unshared array into itself uses freed storage, or copies from elements it has already moved.
* `C16_shorter_refuted`: C16 refuted: shorter(length+1) asks for the whole array.
* `C17_compare_refuted`
* `C17_rfind_refuted`
* `C17_bsearch_refuted`: C17 refuted: bsearch probes one past the end (array of one element); every helper dereferences the null body of an empty array; delete_if deletes nothing.
* `C17_bsearch_misses_refuted`: C17 refuted: the first element is never found, nor is one that is the only one left between the bounds; in a slice, bsearch may find an element after its end.
* `C17_empty_refuted`
* `C17_delete_if_refuted`: C17 refuted: on an array that shares its storage with no other, delete_if never deletes anything, whatever the condition.
* `C18_put_changes_other_maps_refuted`: C18 as documented is false: after b = a, a.put(1, 11) makes b lose key 1.
* `C21_index_after_insert_refuted`
* `C22_append_to_slice_refuted`: C22 refuted in general: appending to a slice that does not start its (unshared) body puts the characters in the wrong place: "abcdef" sliced to "cd", the original gone, "x" appended gives "cx" and not "cdx".
* `C22_upcase_slice_refuted`: ... upper-casing such a slice makes it the whole upper-cased body:
* `C22_self_append_refuted`: ... and s += s reads freed storage.
* `C23_styles_refuted`: Case independent equality and natural comparison end the program, whatever the strings (also equal ones).
* `C23_compare_slice_refuted`: In general the order fails: "abc" and "abz".substr(0, 2) are each less than the other (the bytes after the slice are compared).
* `C23_compare_nul_refuted`: ... and comparing "a\0b" with "a" reads past the end of "a".
* `C24_find_beyond_end_refuted`: Searches for a character look at the one after the string: in "abc".substr(0, 2), 'c' is found at 2; in "aaa", findNot("a") is 3.
* `C24_rfind_before_end_refuted`: rfind with [before] beyond the string finds nothing: 'a' in "abc" before 5.
* `C24_find_long_needle_refuted`: A needle longer than the string is found across the string's end: "bcd" in "abcdef".substr(0, 2); rfind(needle, 0) looks everywhere.
* `C25_tail_shorter_head_refuted`: C25 refuted for tail beyond the length (empty, not the whole string), shorter by one more than the length (the whole string, not empty), and head of 2^31 or more (empty).
* `C26_truncation_refuted`: "The number doesn't fit in the requested type" is not always reported: "4294967297" converts to 1 with no error.
* `C26_prefix_refuted`: "Radix 16 allows 0x..." does not hold: "0x1F" with radix 16.
* `C26_least_long_refuted`: "-9223372036854775808": undefined behaviour (negation of the least long).
* `C27_supplementary_refuted`: False in general: every character above 0xFFFF comes out as another one (0x10000 is not subtracted before it is split into surrogates).
* `C27_abort_refuted`: Above 0xFFFFF it aborts, although code points go up to 0x10FFFF.
* `C27_nul_refuted`
* `C28_no_leak_refuted`: Coercing a string to a number forgets the string.
* `C29_type_refuted`: "After a coercion the type is the new one": not between the number types.
* `C29_string_refuted`: A string to an Integer or a Long: "12" aborts, "12x" is taken for 12.
* `C30_optional_alternation_refuted`: "Zero or one of the following expression", the expression being an alternation: the text must then match the rest of the last alternate.
* `C30_lookahead_alternation_refuted`: "Continue only if A succeeds", A being an alternation: the remaining alternates must then match, too.
* `C30_nested_operator_refuted`: A repetition as the operand of a repetition or of a lookahead.
* `C30_empty_alternate_refuted`: An empty alternate does not match the empty string.
* `C30_escaped_range_refuted`: A range that begins with a control escape: [\t-\r] does not contain the newline.
* `C30_non_ascii_refuted`: "anychar: match that non-operator character": a character outside ASCII in a pattern (here U+E9) never matches itself.
* `C30_kind_of_wide_character_refuted`: The escapes for kinds of characters call <cctype> with arguments out of its domain for characters above 255.
* `C32_reads_beyond_pattern_refuted`: But other pattern texts make the matcher read beyond the end of the pattern: a lookahead operator, or a backslash, at the end.
* `C34_found_refuted`: A name that is followed by a digit in another name is not found.
* `C36_parse_captures_refuted`: The complaint is a real loss: captures of a failed alternate remain.
* `C36_captured_prefix_refuted`: A captured name that is a proper prefix of another label captures that, too.
* `C36_atom_label_refuted`: A label on an atom of TOP captures what the rule has captured so far, not the text of the atom.
* `C37_single_thread_refuted`: With a single registered thread joinAny returns null although the thread is running or has ended: the main thread is not in the map, so the test should have been for an empty map.
* `C37_exit_spins_refuted`: Thread::exit counts the thread as ended, and ThreadProc counts it again: after joining it, joinAny spins forever with the latch held.
* `C37_uninitialised_state_refuted`: The state field is not initialised: if it happens to read as Ended, joinAny hands out a thread that is still running.
* `C38_holding_blocks_refuted`: ... but a thread that asks while another is inside is stuck until the other leaves: no number of its own steps gives it an answer.
* `C39_every_offset_refuted`: Not every 32-bit offset: these come back as 0.
* `C40_anchors_refuted`: A $ in the middle lets threads in that are not tested for duplicates: with enough of them the matcher runs out of places and ends the program.
* `C40_many_optional_refuted`: A sequence of quantified characters, [.], classes, \s \d \h with eleven or more items with ? or * at its beginning ends the program in every search, with twelve or more also in every match at an offset, whatever the text (the ten of RxQuantProps.v are the most that a search takes).
* `C40_named_group_refuted`: A named group is never left: its pattern matches nothing.
* `C40_counts_refuted`: Counts: {0,2} does not match the empty text, {0} and {65536} are [*], and a comma further on spoils a count.
* `C40_nested_counts_refuted`: Five nested counts: the text is missed; four are fine (the row of test/rxmatch_test.cpp that is commented out with "Fails" is such a case).
* `C40_lookahead_refuted`: Of two lookaheads the second looks at the wrong place.
* `C40_hex_refuted`: \x takes white space after its digits with it.
* `C40_search_nul_refuted`: A search does not pass a NUL.
* `C40_long_refuted`: Longer patterns than those of the theorems: where offsets take three bytes, one of exactly 64 is written one too high, here past the [.]: 500 times b is taken for a match of a pattern that needs another character before them.
* `C40_aborts_refuted`: Many optional atoms or alternatives in a row, or too many empty ones, end the program while matching.
* `C41_total_refuted`: A [)] too many fails without a message; this count overflows a negation; 27 times \d does not fit the memory allocated for it, nor does the number of states of this count.
* `C42_guarded_forward_refuted`: Forward += of GuardedCharPtr is not guarded at all.
* `C42_backward_refuted`: Moving a NulGuardedCharPtr (and, through the inherited operator-=, a GuardedCharPtr) back by i moves it forward by i instead.
* `C42_decrement_refuted`: -- on a guarded pointer at its origin leaves the text.
* `C42_utf8_backup_refuted`: GuardedUTF8Ptr += -1 on text starting with continuation bytes reads before the origin, because UTF8Backup is not given the limit.
* `C47_nul_refuted`: Not for other strings: NUL makes a text that is no JSON at all, and a character above U+FFFFF stops the program.
* `C47_abort_refuted`
* `C48_percent_refuted`: What else printf knows does not work. %% is not a percent sign, but nothing.
* `C48_numbered_refuted`: Numbered arguments take the conversion with them: %1$s is nothing at all, and %1$sx is a conversion x, which is ignored.
* `C48_size_refuted`: Sizes do nothing: %3d of 7 is not padded; and a size that is an argument uses it up, and puts the letter in place of the number: %*d of 3, 7 is d.
* `C48_overflow_refuted`: A size that does not fit an int overflows it.
* `C49_timeout_refuted`: "wait(delay_ms)" does not wait so long: whatever the delay, as long as it is less than the time since 1970, the wait is over at once, without a signal and without any time passing, and reports that the time is up.
* `C49_no_latch_refuted`: wait() without a latch, which the declaration allows (Latch* = 0), uses a null pointer.
* `C50_failed_parse_refuted`: A parse that fails reports nothing: neither how far it got (here two characters) nor what it was looking for.
* `C50_nothing_failed_refuted`: A parse in which no literal failed reports the start of the text as the furthest place it reached, however much it has read (here all of it): test/peg_test.cpp prints that the parse failed at byte 0.
* `C50_operators_refuted`: An operator that fails (here an escape for digits; also ^, $ and the dot) is not reported, and neither is the place where it failed: after the digits of 12x the report is about the start of the text.
* `C50_class_at_end_refuted`: A class that fails at the end of the text is reported with length 1: what is printed for [0-9] is the bracket only.
* `C50_control_character_refuted`: A control character of the grammar (here a tab) is reported with length 0: nothing is printed for it.
* `C51_no_ub_refuted`: Not for longer programs: where offsets take three bytes, one of exactly 64 is written one too high. Here the match goes on one byte too far, in the middle of a class, whose characters are then read as a jump out of the program, with any text at any offset.
* `C52_listing_refuted`: Not for longer programs: the offset of exactly 64 that is written one too high (C51_no_ub_refuted) leads the matcher to a byte that no line begins with, so what the matcher runs there is not in the listing.
* `C53_transform_slice_refuted`: C53 refuted for a slice that has its storage to itself: replacing every character by itself turns the slice "cd" of "abcdef" into "cdef".
* `C53_after_max_refuted`: ... and with [after] INT_MAX (nothing to transform at all) the addition in the loop's test overflows.
* `C54_count_race_refuted`: countChars increments the count in the shared body without synchronisation (strval.h 249-265, and insertBytes leaves it at 0 for a recount): two threads that count, index or compare copies of an appended-to string race on it. In this schedule both count the three characters a-e'-b; thread 1 gets 4, and 4 stays cached for good although nothing is in progress any more. As it equals the number of bytes, operator[] then takes the string for pure ASCII and returns a value that is none of the characters of the text.
* `C55_put_refuted`: CowMap::put erases the old pair in the body before it makes the body its own (cowmap.h 76-83): thread 1 changes the value of a key in its copy of a map, and the key is gone from thread 0's map for good; and while it does so, thread 0 may be reading the same body, a data race.
* `C56_counterGet_refuted`: RxResult::counterGet is not limited to the counters there are, although strregex.h promises that access outside the range is ignored: with no counter left it reads the end of the last group, or before the start of the values.
* `C56_capture_refuted`: RxResult::capture aborts for a group beyond the last, although strregex.h promises that such access is ignored.
* `C56_null_refuted`: Counting on a result that has failed or was cleared follows a null pointer: Unshare copies the captures before anything asserts there are any.
* `C56_many_counters_refuted`: RxResult(200, 1) has room for 200 counters, but the number in use is kept in an unsigned char, two per counter: after the 128th push there are none.
* `C57_first_together_refuted`: Two threads construct the first latches at the same time: the flag is set before the attributes are ready, and reading it and setting it are two steps. The second thread makes its latch with attributes that are not initialised; both initialise them; or the second makes a latch whose mutex is not error-checking.
* `C57_default_latch_refuted`: A latch made that way can be entered but never left (debug build: leave locks it once more to see that it is held): the thread waits for itself, and every other thread that enters waits for ever.
* `C58_push_own_refuted`: C58 refuted for an array's own element: a.push(a.elem_mut(0)) on a full array reads the storage that growing has just deleted.
* `C58_stale_refuted`: Why sharing ends a writable reference: after b = a, writing through a reference taken before changes both arrays; and after a push that had to grow, the old reference is dangling.
* `C59_cycle_refuted`
* `C59_retained_refuted`: An element taken off the end (or removed) stays alive as long as the array.
* `C60_start_before_destroy_refuted`: Joining a thread, starting another one and destroying the first - in one thread of a program that does nothing else wrong: the id that join() kept is that of the new thread, so that the destructor unregisters the new thread and counts an ended thread less than there are. The new thread runs, but current() in it is null, and the next joinAny spins forever with the latch held. With this [orderly] cannot be relaxed to [duty].
* `C60_start_while_joining_refuted`: A thread started by one thread while another one is in join(), between the pthread_join and the block after it, gets the id that has just become free and is not registered: current() in it returns the object that is being joined, and after that null; it runs and ends, and joinAny waits.
* `C60_never_reclaimed_refuted`: joinAny only takes the thread out of the map: whatever else happens, a thread for which join() is not called is never joined, and the system keeps its stack and its id for good.
* `C60_unstarted_refuted`: Destroying a thread that was constructed and never started: both fields are uninitialised. Unless the state happens to read as Ended the destructor's assertion fails; if it does, and the id reads as that of a running thread, that thread is unregistered.
* `C60_resume_again_refuted`: suspend() does nothing, and resume() does not ask whether the thread is running: called again, it starts a second thread on the same object and the object forgets the id of the first.
* `C60_create_fails_refuted`: When pthread_create fails, resume() does not notice: no thread is made, but the object is registered, with whatever id was left in it, unless that is already registered. After two such calls joinAny waits forever for threads that do not exist; destroying the object fails its assertion, and joining it is undefined (or fails an assertion, if the id is 0).
* `C60_exit_refuted`: Thread::exit, called by a thread while no other started one has ended: it is ended for joinAny, though its run() has not returned; and when that returns before a joinAny, ThreadProc counts the thread again, so that the joinAny after the one that gets it spins, with the latch held.
* `C62_syntax_refuted`: An error in how the pattern is written does not stop the scan: the offset ends up on the last character or after it (or at a closing parenthesis too many, where compiling stops), wherever the error is, and the message is that of the last error.
* `C62_unclosed_refuted`: A group that is not closed is reported at offset 0.
* `C63_closing_refuted`: A closing parenthesis too many is refused without a message: compile() returns false and errorMessage() is the null pointer, although there is a message for it in the source, which is never given.
* `C64_enter_refuted`: enter() tests the result of probe() the wrong way round: whatever the state, a thread that finds the latch taken goes straight in, and fails the assertion of leave(), while one that finds it free takes it and goes round once more.
* `C65_lost_signal_refuted`: A signal may be lost for good: (1) one signal lets two threads out, (2) a wait runs out of time, (3) a signal arrives between the last release and the resetting of the event. In each case a later signal to the only waiting thread leaves it waiting, however many steps it makes.
* `C66_numbers_refuted`: A Long of 5, as_int() = -1: now it is 4294967295, and as_int() aborts. An Integer, as_long() = 2^40: now it is 0.
* `C68_find_high_refuted`: find() takes a UCS4, and a byte above 127 is compared as a negative char: StrVal("\xE9", StrRawBinary).find(0xE9) is -1.
* `C68_plus_refuted`: operator+ makes its result UTF-8: raw C3 A9 plus raw 78 has length 2, not 3.
* `C68_insert_empty_refuted`: Inserting raw bytes into an empty string makes a string that is not raw: it claims length 2 and its first character is U+00E9.
* `C68_to_case_refuted`: toLower() on raw bytes decodes them as UTF-8: C3 89 becomes a string of length 1.
* `C68_mixed_refuted`: A UTF-8 string appended to a raw one brings its characters' count, not its bytes': raw 41 += "\xC3\xA9" has length 2 and 3 bytes, so one is cut off.
* `C68_find_past_refuted`: find() also looks at the byte after the last: "ab" of "abc" finds 'c' at 2.
* `C68_overread_refuted`: StrBody(data, StrRawBinary, len) reads len + 1 bytes of the caller's data.

Others, seen while modelling and not the subject of a theorem: `StrVal(data,
length)` reads `data[length]`; `StrVal(literal, StrStatic)` never frees its
body; `Thread::state` is not initialised; `leave()` calls `pthread_mutex_lock`
inside an `assert`, so builds with and without NDEBUG differ (C38 covers both).
