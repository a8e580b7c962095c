{
 "claims": [
  {
   "property": "C01",
   "status": "proved",
   "theorems": [
    "C01_AlignUpTo_least_multiple",
    "C01_AlignUpTo_unconditional_refuted",
    "C01_AlignUp_least_multiple",
    "C01_template_condition"
   ],
   "note": "For every N the static_asserts admit and every n whose result fits 64 bits; the wrap beyond that is exhibited by the _refuted theorem."
  },
  {
   "property": "C02",
   "status": "proved",
   "theorems": [
    "C02_literals_exact",
    "C02_literals_reject",
    "C02_literals_wrap"
   ],
   "note": ""
  },
  {
   "property": "C03",
   "status": "partial",
   "theorems": [
    "C03_disjoint_partial",
    "C03_huge_refuted",
    "C03_off_limits_partial"
   ],
   "note": "Requests up to 2^62 bytes. Near 2^64 the size computation wraps and the code hands out overlapping ranges (C03_huge_refuted, finding A5)."
  },
  {
   "property": "C04",
   "status": "proved",
   "theorems": [
    "C04_inside",
    "C04_never_faults",
    "C05_returned_aligned"
   ],
   "note": "C05_returned_aligned gives the range returned, C04_inside places it, C04_never_faults excludes out-of-block writes."
  },
  {
   "property": "C05",
   "status": "proved",
   "theorems": [
    "C05_returned_aligned",
    "C04_never_faults"
   ],
   "note": "Alignment of cleanup records is part of C04_never_faults: constructing one at a misaligned address is Undef in the model."
  },
  {
   "property": "C06",
   "status": "partial",
   "theorems": [
    "C06_overaligned_inside_partial",
    "C06_overaligned_refuted"
   ],
   "note": "False as stated (C06_overaligned_refuted, finding A2). Proved when the alignment is at most that of the memory returned by block_alloc."
  },
  {
   "property": "C07",
   "status": "proved",
   "theorems": [
    "C07_allocate_cleanup",
    "C07_cleanups_count",
    "C07_create",
    "C07_destroy_runs_pending",
    "C07_only_then",
    "C07_own",
    "C07_reset_runs_pending"
   ],
   "note": "Cleanup functions are assumed not to call back into the arena they are registered with."
  },
  {
   "property": "C08",
   "status": "proved",
   "theorems": [
    "C08_all_returned",
    "C08_destroy_returns_all",
    "C08_no_bad_free",
    "C08_partition",
    "C13_reset_partial"
   ],
   "note": "Reset is covered by C13_reset_partial."
  },
  {
   "property": "C09",
   "status": "proved",
   "theorems": [
    "C09_space_allocated"
   ],
   "note": ""
  },
  {
   "property": "C10",
   "status": "partial",
   "theorems": [
    "C10_cleanup_space_refuted",
    "C10_failure_clean",
    "C10_failure_cleanup_partial",
    "C11_block_sizes"
   ],
   "note": "Proved for AllocateAligned, CreateArray, Own and the memory_resource; for AllocateAlignedAndAddCleanup and Create a failed registration consumes space (refuted, finding A7)."
  },
  {
   "property": "C11",
   "status": "proved",
   "theorems": [
    "C11_block_sizes"
   ],
   "note": "Stated for the operations making one request to a block; the second request of AllocateAlignedAndAddCleanup/Create goes through the same code."
  },
  {
   "property": "C12",
   "status": "proved",
   "theorems": [
    "C12_create_reports",
    "C12_destroy_reports",
    "C12_new_reports",
    "C12_operation_reports",
    "C12_reset_reports",
    "C12_resource_reports"
   ],
   "note": ""
  },
  {
   "property": "C13",
   "status": "partial",
   "theorems": [
    "C13_reset_empty_refuted",
    "C13_reset_partial"
   ],
   "note": "Needs at least one block held; without one Reset asserts or dereferences null (C13_reset_empty_refuted, finding A4)."
  },
  {
   "property": "C14",
   "status": "proved",
   "theorems": [
    "C14_destroy_both",
    "C14_move",
    "C14_resource_refuted"
   ],
   "note": "The memory_resource keeps referring to the old arena object (C14_resource_refuted, finding A6)."
  },
  {
   "property": "C15",
   "status": "proved",
   "theorems": [
    "C15_check"
   ],
   "note": ""
  },
  {
   "property": "C16",
   "status": "partial",
   "theorems": [
    "C16_array_room_partial",
    "C16_overflow_refuted",
    "C16_wrap_refuted"
   ],
   "note": "For products up to 2^62; on 64-bit overflow the code only logs (C16_overflow_refuted, finding A3), and products near 2^64 are granted without room (C16_wrap_refuted, finding A5)."
  },
  {
   "property": "C17",
   "status": "proved",
   "theorems": [
    "C17_bucket",
    "C17_lifetime_bucket",
    "C17_lifetime_sum",
    "C17_one_bucket",
    "C17_sum"
   ],
   "note": "Sizes above 2^20 (lifetimes above 1000 ms) fall in no bucket (finding M1); the statement is about the others, as the property says."
  },
  {
   "property": "C18",
   "status": "partial",
   "theorems": [
    "C18_conservation_partial",
    "C18_map_race_refuted",
    "C18_race_only"
   ],
   "note": "The sum is conserved in every interleaving. The insertion into the shared unordered_map is itself a data race (C18_map_race_refuted, finding M2); executions that reach it are undefined and outside the theorem."
  },
  {
   "property": "C19",
   "status": "partial",
   "theorems": [
    "C19_counters",
    "C19_moved_from_refuted"
   ],
   "note": "Proved for programs that do not move arenas carrying the metrics hooks; destroying a moved-from one dereferences a null cookie (C19_moved_from_refuted, finding M3)."
  },
  {
   "property": "C20",
   "status": "partial",
   "theorems": [
    "C20_no_fault_partial",
    "C20_string_partial",
    "C20_string_refuted"
   ],
   "note": "False as stated (C20_string_refuted, finding M4: division by zero). Proved with at least one allocation and one destruction reported."
  },
  {
   "property": "C21",
   "status": "partial",
   "theorems": [
    "C21_results_partial",
    "C21_sequence_partial"
   ],
   "note": "Refinement to sequences for every permitted call on any number of vectors, all five kinds of element. Excluded calls are listed in VecStatements.allowed and shown to fail in the C22/C26/C27/C30/C31 refutations (findings V1-V12)."
  },
  {
   "property": "C22",
   "status": "partial",
   "theorems": [
    "C22_bounds",
    "C22_insert_overflow_refuted",
    "C22_never_faults_partial",
    "C22_pop_empty_refuted",
    "C22_push_failure_refuted",
    "C22_relocatable_refuted",
    "C22_reserve_failure_refuted"
   ],
   "note": "No permitted call is undefined or fails an assertion; exclusions are the refuted cases (overflowing sizes, unchecked malloc, relocatable owners, pop_back of an empty vector, broken state after a failed allocate)."
  },
  {
   "property": "C23",
   "status": "partial",
   "theorems": [
    "C23_conservation",
    "C23_copied_refuted",
    "C23_copy_only",
    "C23_movable_partial",
    "C23_moved_from_refuted"
   ],
   "note": "Conservation for all counted kinds; exactly-once for copy-only elements; movable elements: no live object is abandoned but moved-from ones are (C23_moved_from_refuted), and types without a move constructor leak their originals (C23_copied_refuted), findings V8, V9."
  },
  {
   "property": "C24",
   "status": "partial",
   "theorems": [
    "C24_amortised_partial",
    "C24_large_elements_refuted",
    "C24_next_capacity_partial",
    "C24_small_refuted"
   ],
   "note": "Factor 1.5 holds from the initial capacity on (C24_small_refuted below it); sizeof(T) up to 131072 (C24_large_elements_refuted, finding V6)."
  },
  {
   "property": "C25",
   "status": "proved",
   "theorems": [
    "C25_push_own_element"
   ],
   "note": "Both functions, full or not, every kind of element they compile for; push_back of relocatable owners is undefined for another reason (finding V10)."
  },
  {
   "property": "C26",
   "status": "partial",
   "theorems": [
    "C26_assign_grows",
    "C26_assign_in_place",
    "C26_full_refuted",
    "C26_insert_grows",
    "C26_insert_in_place",
    "C26_insert_refuted",
    "C26_outside_arguments_partial",
    "C26_resize_grows",
    "C26_resize_in_place",
    "C26_seen_right"
   ],
   "note": "False as stated (C26_insert_refuted, C26_full_refuted, finding V5). Proved for arguments outside the vector. For a reference to an own element every case is decided: what insert and emplace find in place of the element (C26_insert_in_place, C26_seen_right), resize in place right (C26_resize_in_place), assign in place right for trivially copyable elements and undefined otherwise (C26_assign_in_place), and undefined or thrown whenever the buffer must grow (C26_insert_grows, C26_resize_grows, C26_assign_grows)."
  },
  {
   "property": "C27",
   "status": "partial",
   "theorems": [
    "C27_erase_own",
    "C27_erase_own_destroyed",
    "C27_erase_partial",
    "C27_own_value_refuted",
    "C27_range_result_refuted"
   ],
   "note": "Contents right for all four forms and every kind; erase(first,last) returns last (C27_range_result_refuted, finding V4) and erase(value) is wrong for an own element (C27_own_value_refuted, finding V5); what it does then is decided in every case (C27_erase_own, C27_erase_own_destroyed)."
  },
  {
   "property": "C28",
   "status": "partial",
   "theorems": [
    "C28_in_place",
    "C28_reserve_overflow_refuted",
    "C28_reserve_partial",
    "C28_shrink"
   ],
   "note": "Proved for requests whose byte count does not overflow and, for a vector without a buffer, whose malloc succeeds; C28_reserve_overflow_refuted, C22_reserve_failure_refuted (findings V6, V7)."
  },
  {
   "property": "C29",
   "status": "proved",
   "theorems": [
    "C29_assign",
    "C29_construct",
    "C29_independent"
   ],
   "note": ""
  },
  {
   "property": "C30",
   "status": "partial",
   "theorems": [
    "C30_assign_partial",
    "C30_empty_range_refuted",
    "C30_zero_refuted"
   ],
   "note": "Proved for non-empty ranges; assign of an empty range and assign(0, x) are wrong (C30_empty_range_refuted, C30_zero_refuted, findings V1, V2)."
  },
  {
   "property": "C31",
   "status": "partial",
   "theorems": [
    "C31_fill_partial",
    "C31_write_buffer_debug_refuted",
    "C31_write_buffer_partial",
    "C31_write_buffer_refuted"
   ],
   "note": "fill proved; get_writebuffer proved when the elements fit, false otherwise (C31_write_buffer_refuted, finding V3)."
  },
  {
   "property": "C32",
   "status": "proved",
   "theorems": [
    "C32_equal",
    "C32_order",
    "C32_total_order"
   ],
   "note": "Element comparison is the order of the integers standing for the values."
  },
  {
   "property": "C33",
   "status": "proved",
   "theorems": [
    "C33_every_string",
    "C33_heap_decodes",
    "C33_kind_by_size",
    "C33_small_decodes",
    "C33_words_decode"
   ],
   "note": "Includes the word-wise copy of release builds, whose over-read has no influence on what is stored (C33_words_decode)."
  },
  {
   "property": "C34",
   "status": "partial",
   "theorems": [
    "C34_readable",
    "C34_value_semantics_partial",
    "C34_value_semantics_refuted",
    "C42_insert_own_piece_refuted"
   ],
   "note": "Refinement to independent sequences for every history of permitted calls, any sharing, both build modes, failing allocations. Excluded: insert of a piece of the string itself (C42) and counts of 2^62 and more (C34_value_semantics_refuted, finding S3)."
  },
  {
   "property": "C35",
   "status": "partial",
   "theorems": [
    "C35_counts_exact",
    "C35_holds_live",
    "C35_never_faults_partial",
    "C35_no_leak"
   ],
   "note": "Counts, liveness and absence of leaks in every state; no undefined behaviour except after a failed realloc. Same exclusions as C34."
  },
  {
   "property": "C36",
   "status": "proved",
   "theorems": [
    "C36_terminated_within_capacity"
   ],
   "note": ""
  },
  {
   "property": "C37",
   "status": "partial",
   "theorems": [
    "C37_noexcept_refuted",
    "C37_usable_after_bad_alloc_partial",
    "C37_usable_after_bad_alloc_refuted"
   ],
   "note": "False as stated: a failed realloc leaves the string dangling (C37_usable_after_bad_alloc_refuted, finding S1) and noexcept functions terminate (C37_noexcept_refuted, finding S2). Proved for every other failing allocation that throws."
  },
  {
   "property": "C38",
   "status": "proved",
   "theorems": [
    "C38_find",
    "C38_find_char",
    "C38_find_cstring",
    "C38_find_string",
    "C38_rfind",
    "C38_rfind_string"
   ],
   "note": "All overloads reduce to the ones stated; a null pointer as argument is the subject of C99."
  },
  {
   "property": "C39",
   "status": "proved",
   "theorems": [
    "C39_find_first_not_of",
    "C39_find_first_of",
    "C39_find_last_not_of",
    "C39_find_last_of"
   ],
   "note": ""
  },
  {
   "property": "C40",
   "status": "proved",
   "theorems": [
    "C40_compare",
    "C40_hash",
    "C40_operators",
    "C40_operators_cstring",
    "C40_total_order"
   ],
   "note": "Characters are compared as unsigned bytes (memcmp); hash is any function of the characters and the size."
  },
  {
   "property": "C41",
   "status": "proved",
   "theorems": [
    "C41_append_own_piece",
    "C41_assign_own_piece"
   ],
   "note": ""
  },
  {
   "property": "C42",
   "status": "partial",
   "theorems": [
    "C42_insert_own_grows",
    "C42_insert_own_in_place",
    "C42_insert_own_in_place_wrong",
    "C42_insert_own_outgrows",
    "C42_insert_own_piece_grow_refuted",
    "C42_insert_own_piece_partial",
    "C42_insert_own_piece_refuted",
    "C42_insert_own_shared",
    "C42_replace_own_piece",
    "C42_taken_behind",
    "C42_taken_in_front"
   ],
   "note": "replace proved; insert is false as stated (findings S4) and characterised: right for a shared string, wrong text in place when the piece starts behind the position, use of the freed buffer when an unshared buffer has to grow, and bytes of the object itself (address, length, capacity) when an inline string outgrows it."
  },
  {
   "property": "C43",
   "status": "proved",
   "theorems": [
    "C43_erase",
    "C43_insert",
    "C43_insert_n",
    "C43_out_of_range_unchanged",
    "C43_replace",
    "C43_replace_n",
    "C43_resize",
    "C43_substr"
   ],
   "note": "Counts of characters to write below 2^62; positions and lengths to erase are any 64-bit value."
  },
  {
   "property": "C44",
   "status": "partial",
   "theorems": [
    "C44_counting_refuted",
    "C44_freed_once_partial",
    "C44_freed_once_refuted",
    "C44_never_freed_early_partial",
    "C44_sole_writer_partial",
    "C44_values_partial"
   ],
   "note": "Proved when incrementRefs and decrementRefs are single steps (the std::atomic version in the comments, or one cpu). The code uses a plain size_t; with load and store as separate steps the property is false (C44_counting_refuted use after free, C44_freed_once_refuted leak; finding S8)."
  },
  {
   "property": "C45",
   "status": "partial",
   "theorems": [
    "C45_data_write_partial",
    "C45_data_write_refuted"
   ],
   "note": "False for shared strings (C45_data_write_refuted, finding S5); proved for unshared ones."
  },
  {
   "property": "C46",
   "status": "partial",
   "theorems": [
    "C46_contains_char",
    "C46_contains_cstring",
    "C46_contains_string",
    "C46_contains_view_partial",
    "C46_contains_view_refuted"
   ],
   "note": "contains(string_view) ignores the size of the view and is false as stated (C46_contains_view_refuted, finding S7); proved for views followed by a zero and without zeros, and for the other overloads."
  },
  {
   "property": "C47",
   "status": "partial",
   "theorems": [
    "C47_failed_stream_refuted",
    "C47_getline_partial",
    "C47_line_unique"
   ],
   "note": "Streams that are good when the call starts; on a failed stream the call goes wrong (C47_failed_stream_refuted, finding S9)."
  },
  {
   "property": "C48",
   "status": "partial",
   "theorems": [
    "C48_append_in_place_partial",
    "C48_capacity_is_room_refuted",
    "C48_reserve",
    "C48_shrink_to_fit"
   ],
   "note": "reserve and shrink_to_fit proved for n < 2^63; appending in place proved except for strings without a buffer in debug builds, where capacity() reports 23 (C48_capacity_is_room_refuted, finding S6)."
  },
  {
   "property": "C49",
   "status": "proved",
   "theorems": [
    "C49_concatenation",
    "C49_moved_operand_reused"
   ],
   "note": "All overloads including a + std::move(a). For a moved left operand with room no memory is requested."
  },
  {
   "property": "C50",
   "status": "proved",
   "theorems": [
    "C50_extract",
    "C50_no_word",
    "C50_not_good",
    "C50_width_reset_refuted"
   ],
   "note": "The width stays set after the call, unlike std::string (C50_width_reset_refuted, finding S10); the property does not speak about it."
  },
  {
   "property": "C51",
   "status": "partial",
   "theorems": [
    "C51_assign_char_refuted",
    "C51_concatenation",
    "C51_insert_own_grows",
    "C51_insert_own_in_place",
    "C51_insert_own_in_place_wrong",
    "C51_insert_own_outgrows",
    "C51_insert_own_shared",
    "C51_own_piece",
    "C51_replace_own_piece_refuted",
    "C51_terminated_within_capacity",
    "C51_value_semantics_partial"
   ],
   "note": "As C34; excluded are also replace with a piece of the string itself and operator=(char) (refuted, findings AS1, AS2). Insert of an own piece is characterised in every case; on an arena it is right when the buffer has to grow."
  },
  {
   "property": "C52",
   "status": "partial",
   "theorems": [
    "C52_never_misplaced_partial",
    "C52_own_resource_partial",
    "C52_swap_refuted",
    "C51_replace_own_piece_refuted"
   ],
   "note": "False as stated: swap of strings with different arenas and aliased replace (C52_swap_refuted, C51_replace_own_piece_refuted). Proved for one memory resource (an arena, or in release builds the default one) and the calls permitted in C51."
  },
  {
   "property": "C53",
   "status": "proved",
   "theorems": [
    "C53_arguments",
    "C53_order",
    "C53_reading_total",
    "C53_reading_unique"
   ],
   "note": "argc below 2^31 (it is an int). The reading of a command line is a grammar in OptSpec.v, total and unambiguous."
  },
  {
   "property": "C54",
   "status": "partial",
   "theorems": [
    "C54_after_report_refuted",
    "C54_last_wins",
    "C54_names",
    "C54_no_repetition",
    "C54_no_sharing",
    "C54_only_named",
    "C54_replace_refuted",
    "C54_reported",
    "C54_resolves",
    "C54_unresolved_refuted"
   ],
   "note": "Proved for histories in which add_option did not throw and the default ConflictHandler::Error. After a reported duplicate the new option stays (C54_after_report_refuted, finding O2); Replace allows sharing by design (last one wins); \"--\" alone and \"--x\" with another prefix are accepted but never found (C54_unresolved_refuted, finding O3)."
  },
  {
   "property": "C55",
   "status": "partial",
   "theorems": [
    "C55_append_refuted",
    "C55_count",
    "C55_count_refuted",
    "C55_flag_refuted",
    "C55_gives_unique",
    "C55_options",
    "C55_values"
   ],
   "note": "Proved for options with a destination of their own and uses that give a value. A list stops at the first text that is no choice (C55_append_refuted), Count adds one for a default or environment variable (C55_count_refuted), and a flag followed by another argument takes it as its value (C55_flag_refuted); findings O4 to O6."
  },
  {
   "property": "C56",
   "status": "partial",
   "theorems": [
    "C56_env_refuted",
    "C56_no_default",
    "C56_value_partial"
   ],
   "note": "False: the default comes before the environment (C56_env_refuted, finding O1). Proved: the command line comes first, and the environment is used when there is no default."
  },
  {
   "property": "C57",
   "status": "partial",
   "theorems": [
    "C57_choice_refuted",
    "C57_no_overread",
    "C57_roles",
    "C57_undefined_refuted",
    "C57_vector_refuted"
   ],
   "note": "No read beyond the arguments or argv, termination, and one role for each argument are proved for parse_args(int, const char**). A rejected choice is taken away (C57_choice_refuted), the overload taking a vector reads argv out of range (C57_vector_refuted), and other undefined behaviour is possible (C57_undefined_refuted); findings O7 to O9."
  },
  {
   "property": "C58",
   "status": "partial",
   "theorems": [
    "C58_chunks",
    "C58_cut",
    "C58_cut_exists",
    "C58_cut_unique",
    "C58_empty_refuted",
    "C58_join",
    "C58_pieces_unique",
    "C58_split",
    "C58_split_nothing_refuted",
    "C58_split_text",
    "C58_trim"
   ],
   "note": "Proved for every separator that is not empty. False for empty pieces left out by skip_empty (C58_empty_refuted), which is how the parser calls split; with an empty separator split never ends (C58_split_nothing_refuted)."
  },
  {
   "property": "C59",
   "status": "proved",
   "theorems": [
    "C59_left",
    "C59_right"
   ],
   "note": "Right shifts of relocatable owners excluded (finding V10)."
  },
  {
   "property": "C60",
   "status": "proved",
   "theorems": [
    "C60_compare",
    "C60_compare_strings",
    "C60_string_out_of_range",
    "C60_vector_at",
    "C60_vector_at_release_refuted",
    "C43_out_of_range_unchanged"
   ],
   "note": "vector at() is checked by Assert only; in release builds it refers to memory without an element (C60_vector_at_release_refuted). Safe mode is read as assertions on."
  },
  {
   "property": "C61",
   "status": "proved",
   "theorems": [
    "C61_reads"
   ],
   "note": "Floating point values are an oracle on the text without blanks. A blank text is undefined behaviour (finding O8)."
  },
  {
   "property": "C62",
   "status": "proved",
   "theorems": [
    "C62_again"
   ],
   "note": "Invalid arguments and option lists are compared too; the version text is not (see C64_version_refuted)."
  },
  {
   "property": "C63",
   "status": "partial",
   "theorems": [
    "C63_count",
    "C63_flag_refuted",
    "C63_get",
    "C63_get_list",
    "C63_get_refuted"
   ],
   "note": "Proved for options with a destination of their own and flags of type bool. False otherwise: C63_get_refuted, C63_flag_refuted (finding O12)."
  },
  {
   "property": "C64",
   "status": "partial",
   "theorems": [
    "C64_after_parse",
    "C64_help",
    "C64_kept_refuted",
    "C64_no_name_refuted",
    "C64_no_options_refuted",
    "C64_usage",
    "C64_version",
    "C64_version_refuted"
   ],
   "note": "Texts exact, alignment exact. False: no options or an option without a name is undefined behaviour (C64_no_options_refuted, C64_no_name_refuted), the usage text is kept when options are added (C64_kept_refuted), parse_args forgets the version (C64_version_refuted); findings O13 to O15."
  },
  {
   "property": "C65",
   "status": "partial",
   "theorems": [
    "C65_needed",
    "C65_returns",
    "C65_shared_refuted"
   ],
   "note": "C65_returns and C65_needed differ in this: the first also asks that counted destinations are not shared (C65_shared_refuted shows why) and that defaults and environment variables can be read even when not needed. C95_exactly closes the gap."
  },
  {
   "property": "C66",
   "status": "proved",
   "theorems": [
    "C66_cstring",
    "C66_insert_cstring",
    "C66_insert_part",
    "C66_insert_whole",
    "C66_part",
    "C66_replace_cstring",
    "C66_replace_part",
    "C66_replace_whole",
    "C66_whole"
   ],
   "note": ""
  },
  {
   "property": "C67",
   "status": "partial",
   "theorems": [
    "C67_begin_end",
    "C67_erase_partial",
    "C67_erase_refuted",
    "C67_insert_partial"
   ],
   "note": "Proved for iterators into a string whose characters no other string shares, which is what every one of these members returns. False once the string was copied after the iterator was taken (C67_erase_refuted, finding S11)."
  },
  {
   "property": "C68",
   "status": "proved",
   "theorems": [
    "C68_at",
    "C68_copy",
    "C68_front_back",
    "C68_iteration",
    "C68_subscript"
   ],
   "note": "front and back of an empty string and operator[] beyond size() are outside."
  },
  {
   "property": "C69",
   "status": "proved",
   "theorems": [
    "C69_char",
    "C69_cstring",
    "C69_string",
    "C69_view"
   ],
   "note": ""
  },
  {
   "property": "C70",
   "status": "proved",
   "theorems": [
    "C70_std_first",
    "C70_string_first"
   ],
   "note": ""
  },
  {
   "property": "C71",
   "status": "partial",
   "theorems": [
    "C71_insertion_partial",
    "C71_insertion_refuted",
    "C71_insertion_silent_refuted",
    "C71_not_good"
   ],
   "note": "Proved below 2^31 characters. False from there on: C71_insertion_refuted, C71_insertion_silent_refuted (finding S12)."
  },
  {
   "property": "C72",
   "status": "partial",
   "theorems": [
    "C72_to_string_partial",
    "C72_to_string_refuted",
    "C72_view"
   ],
   "note": "Views and toStdString exact. std::to_string stops at the first zero: C72_to_string_refuted (finding S13)."
  },
  {
   "property": "C73",
   "status": "partial",
   "theorems": [
    "C73_write_partial",
    "C73_write_refuted"
   ],
   "note": "Proved while no other string shares the characters. False after a copy: C73_write_refuted (finding S11)."
  },
  {
   "property": "C74",
   "status": "partial",
   "theorems": [
    "C74_counts_exact",
    "C74_freed_as_allocated_partial",
    "C74_no_leak"
   ],
   "note": "Counts, no leak and sizes given back proved for all histories of permitted calls; excluded are insert of a piece of the string itself and counts of 2^62 and more."
  },
  {
   "property": "C75",
   "status": "partial",
   "theorems": [
    "C75_assignment_partial",
    "C75_constructors_refuted",
    "C75_copy_constructor_partial",
    "C75_destroyable_partial",
    "C75_reported",
    "C75_same_constructors",
    "C75_same_copies",
    "C75_same_without_exception",
    "C75_undefined_refuted"
   ],
   "note": "For elements with constructors and destructors of their own. False for most calls: C75_undefined_refuted and C75_constructors_refuted show for which exactly (finding V13). Proved: the exception is reported, and after an insertion in the middle (and assign in place once as many elements are copied as there were) the vector can be destroyed, with the exact number of objects that leak. Moves of elements inside the buffer do not throw; the undefined outcome is proved for vectors holding no moved-from object behind their end."
  },
  {
   "property": "C76",
   "status": "partial",
   "theorems": [
    "C76_loops",
    "C76_negative_index_refuted",
    "C76_positions_partial"
   ],
   "note": "False for negative indices (C76_negative_index_refuted, finding V14), proved otherwise."
  },
  {
   "property": "C77",
   "status": "proved",
   "theorems": [
    "C77_geometric",
    "C77_one_append"
   ],
   "note": "Appending means append, operator+= and push_back with characters or pieces of any string; calls that end in bad_alloc are not counted."
  },
  {
   "property": "C78",
   "status": "partial",
   "theorems": [
    "C78_counters_partial",
    "C78_fault_only",
    "C78_map_race_refuted",
    "C78_percent_partial",
    "C78_race_only",
    "C78_reset_refuted",
    "C78_uninterrupted"
   ],
   "note": "Proved without reset(), for sequentially consistent executions and histories of fewer than 2^64/100 probes. With reset() beside it a percentage above 100 is possible (C78_reset_refuted), and the loop over the map races with new entries (C78_map_race_refuted); findings M2, M5."
  },
  {
   "property": "C79",
   "status": "partial",
   "theorems": [
    "C79_since_reset",
    "C79_then_string_refuted",
    "C79_uninterrupted"
   ],
   "note": "The sums and the uninterrupted call are proved. After it string() divides by zero (C79_then_string_refuted, findings M4, M5)."
  },
  {
   "property": "C80",
   "status": "proved",
   "theorems": [
    "C80_linear",
    "C80_lost_refuted",
    "C80_overhead",
    "C80_used"
   ],
   "note": "C80_lost_refuted shows why block_alloc must not have failed: space taken by AllocateAlignedAndAddCleanup before a refused registration stays taken (finding A7)."
  },
  {
   "property": "C81",
   "status": "partial",
   "theorems": [
    "C81_arena_partial",
    "C81_change_refuted",
    "C81_one_thread",
    "C81_ordinary_partial",
    "C81_ordinary_refuted",
    "C81_second_copy_unchecked"
   ],
   "note": "False of ordinary strings: a copy of a string that is tagged already gets no tag (C81_ordinary_refuted, C81_second_copy_unchecked, finding S14); false of both kinds when another thread changes a string, as unshare is not checked (C81_change_refuted). Proved for arena strings changed only by their own thread, and for ordinary strings if large ones are moreover copied at most once. No false alarm within one thread."
  },
  {
   "property": "C82",
   "status": "proved",
   "theorems": [
    "C82_between",
    "C82_fault_refuted",
    "C82_joined",
    "C82_monotone",
    "C82_percent_refuted"
   ],
   "note": "Executions are graphs with a modification order per counter and coherence (C++ [intro.races]); no order between counters is assumed. C82_percent_refuted and C82_fault_refuted show that the bound of 100 % of C78, which is about interleavings, does not survive: string() can show 200 % or divide by zero without reset(). Not modelled: the map of locations and reset()."
  },
  {
   "property": "C83",
   "status": "partial",
   "theorems": [
    "C83_conservative",
    "C83_destroy_partial",
    "C83_elsewhere_destroy_partial",
    "C83_elsewhere_progress_partial",
    "C83_elsewhere_reset_partial",
    "C83_elsewhere_sound_partial",
    "C83_leak_refuted",
    "C83_lost_cleanup_refuted",
    "C83_older_refuted",
    "C83_reset_oldest_partial",
    "C83_reset_one",
    "C83_reset_partial",
    "C83_stale"
   ],
   "note": "False as stated (finding A9): C83_older_refuted (use after free), C83_leak_refuted (block never given back), C83_lost_cleanup_refuted. Proved: Reset() of an arena with one block, the destructor and Reset() of several blocks when only cleanups kept in the newest block use arenas (C83_destroy_partial, C83_reset_partial), exactly which blocks are lost, that the other arenas keep their blocks and gain those they obtained, and that the model agrees with that of the other properties when no cleanup uses an arena (C83_conservative). Reset() of any number of blocks is proved to lose no block when only cleanups kept in the oldest block use arenas (C83_reset_oldest_partial). Cleanups that use only arenas other than the one running them are safe in any block: every call completes, the destructor and Reset() do exactly what they should, and every property in `sound` holds throughout such executions (C83_elsewhere_*_partial). Not covered: Reset() when arena-using cleanups are in the newest and in the oldest block and use their own arena."
  },
  {
   "property": "C84",
   "status": "partial",
   "theorems": [
    "C84_buffers",
    "C84_fill",
    "C84_hash_bytes",
    "C84_hash_partial",
    "C84_hash_refuted",
    "C84_kind16",
    "C84_kind32",
    "C84_value_semantics_partial"
   ],
   "note": "False of std::hash (C84_hash_refuted, finding S15): it covers half or a quarter of the characters. The rest is proved, with the calls C34 excludes excluded. The theorems of C33-C38, C39, C41-C43, C45, C46, C48, C49, C60, C66-C70, C73 and C77 hold for all widths as well ([ChT] in their statements)."
  },
  {
   "property": "C85",
   "status": "partial",
   "theorems": [
    "C85_constructed_partial",
    "C85_conversion",
    "C85_deque_refuted",
    "C85_exactly",
    "C85_nothing_copied",
    "C85_other_type_refuted",
    "C85_range_calls_partial",
    "C85_reverse_refuted"
   ],
   "note": "False of random access iterators that do not refer to contiguous ascending objects of type T (C85_reverse_refuted, C85_deque_refuted, C85_other_type_refuted, finding V15); C85_exactly and C85_conversion say for which they are right. The rest is proved, with the calls C21 excludes excluded."
  },
  {
   "property": "C86",
   "status": "proved",
   "theorems": [
    "C86_all",
    "C86_apart",
    "C86_bad_alloc",
    "C86_big_request",
    "C86_inside",
    "C86_no_release",
    "C86_off_limits",
    "C86_one_byte",
    "C86_progress",
    "C86_text",
    "C86_value_semantics"
   ],
   "note": "The models of C51 and C03 run together; the requests of every function form a tree (StrAskProofs), so the strings behave as with an oracle that gives the answers of the arena. Requests of more than 2^62 bytes count as refused without asking the arena; C86_big_request shows the arena refuses them when block_alloc gives no such blocks."
  },
  {
   "property": "C87",
   "status": "proved",
   "theorems": [
    "C87_listed",
    "C87_parse",
    "C87_retry"
   ],
   "note": "C87_parse says that the parse_args of this model, which keeps what is left after a throw, is that of the other properties."
  },
  {
   "property": "C88",
   "status": "partial",
   "theorems": [
    "C88_destroyed_refuted",
    "C88_moved_from_refuted",
    "C88_parsers",
    "C88_settled",
    "C88_value_semantics_partial",
    "C88_with_destinations"
   ],
   "note": "False for options without a destination whose first parse_args comes after the parser they were declared on was destroyed (C88_destroyed_refuted: a dangling reference is followed) or moved from (C88_moved_from_refuted: throws); finding O18. Proved for all other sequences, in particular when every option has a destination (C88_with_destinations), which all have after a parse_args that returned (C88_settled)."
  },
  {
   "property": "C89",
   "status": "partial",
   "theorems": [
    "C89_conservative",
    "C89_cookie_dangles_refuted",
    "C89_cookie_reused_refuted",
    "C89_destroy",
    "C89_destroy_leaks_refuted",
    "C89_init",
    "C89_progress",
    "C89_reset",
    "C89_reset_grows_refuted",
    "C89_sound_partial"
   ],
   "note": "False as stated (findings A10, A11): C89_reset_grows_refuted, C89_destroy_leaks_refuted, C89_cookie_reused_refuted, C89_cookie_dangles_refuted. Proved for hooks doing any requests: every call completes (C89_progress), what construction, Reset() and destruction do exactly (C89_init, C89_reset, C89_destroy; of the cleanups the hook registers before the last block it obtained, C89_reset says only that an initial part is run), and that everything holds as long as no reset or destruction hook makes its own arena obtain a block (C89_sound_partial). Not covered: hooks that reset, move or destroy arenas, and cleanups that use arenas at the same time (C83)."
  },
  {
   "property": "C90",
   "status": "partial",
   "theorems": [
    "C90_conservative",
    "C90_newblock_leaks_refuted",
    "C90_progress_partial",
    "C90_request_partial",
    "C90_sound_partial"
   ],
   "note": "False as stated (finding A12): C90_newblock_leaks_refuted: a block that on_arena_newblock makes its own arena obtain is lost. Proved for allocation hooks using any living arenas, their own included, and block hooks using any living arenas but their own, together with the hooks of C89: C90_progress_partial, C90_request_partial, C90_sound_partial; C90_conservative: without such hooks the model is that of C89. Not covered: hooks called by requests of hooks (they are events), hooks that reset, move or destroy arenas, and block hooks that use their own arena without making it grow."
  },
  {
   "property": "C91",
   "status": "partial",
   "theorems": [
    "C91_chain",
    "C91_dangles",
    "C91_kept_refuted",
    "C91_parser",
    "C91_sets",
    "C91_valid",
    "C91_vector"
   ],
   "note": "False of references kept for later (C91_kept_refuted, finding O17): the second add_option makes the first reference dangle. Proved: exactly how long a reference may be used (C91_valid, C91_dangles), what setters through it do meanwhile (C91_sets), and that setters in the same expression are always right (C91_chain). C91_vector says the capacities are those of the vector model. help() is left out, memory does not run out."
  },
  {
   "property": "C92",
   "status": "proved",
   "theorems": [
    "C92_array",
    "C92_conservative",
    "C92_create",
    "C92_progress",
    "C92_request",
    "C92_sound"
   ],
   "note": "Constructors are programs that see the result of every request; they do not throw (Create and CreateArray are noexcept), reset, move or destroy arenas. When the record of the destructor cannot be stored Create returns null although the constructor has run: finding A7, C10_cleanup_space_refuted."
  },
  {
   "property": "C93",
   "status": "proved",
   "theorems": [
    "C93_determined",
    "C93_list",
    "C93_returned",
    "C93_throws",
    "C93_undefined",
    "C93_user_set",
    "C93_value"
   ],
   "note": "C93_determined: value and list are unique. std::map and std::set are association lists; memory does not run out. An int overflow in increment is undefined behaviour (C93_undefined says when)."
  },
  {
   "property": "C94",
   "status": "partial",
   "theorems": [
    "C94_count_partial",
    "C94_count_refuted",
    "C94_given_partial",
    "C94_not_given_refuted",
    "C94_value_partial"
   ],
   "note": "False as stated (finding O19): C94_not_given_refuted (a default or environment value counts as set by the user), C94_count_refuted (an option that counts never does). Proved: user_set says that there is a value at all, never misses one given, and is exact without a default and an environment text (C94_value_partial, C94_given_partial, C94_count_partial). For options that share a destination see C95: user_set says whether one of the calls marks the key."
  },
  {
   "property": "C95",
   "status": "proved",
   "theorems": [
    "C95_determined",
    "C95_exactly",
    "C95_returns",
    "C95_store"
   ],
   "note": "The calls and the values are unique (C95_determined). C95_store also holds after calls that threw. This is what the code does; that the defaults come before the environment and that counting does not mark is at odds with C56 and C94 (findings O1, O5, O19)."
  },
  {
   "property": "C96",
   "status": "proved",
   "theorems": [
    "C96_array",
    "C96_array_unregistered",
    "C96_destroyed",
    "C96_inherited_refuted",
    "C96_ownable",
    "C96_owned",
    "C96_skipped"
   ],
   "note": "Types are described by what the traits look at; several direct bases and virtual bases are not modelled. The tag is inherited: C96_inherited_refuted shows a class with a destructor, declaring no tag, that is never destroyed (finding A14). That Create which returns null may have built an object that is never destroyed is finding A7."
  },
  {
   "property": "C97",
   "status": "partial",
   "theorems": [
    "C97_array_partial",
    "C97_array_refuted",
    "C97_create_partial",
    "C97_create_refuted"
   ],
   "note": "False of alignments of 16 and more (C97_create_refuted, C97_array_refuted, finding A13): Create and CreateArray request the default alignment 8. Proved for alignments up to 8."
  },
  {
   "property": "C98",
   "status": "partial",
   "theorems": [
    "C98_append_in_place",
    "C98_append_refuted",
    "C98_assign_backwards",
    "C98_assign_in_place",
    "C98_backwards_shows",
    "C98_insert_in_place",
    "C98_mirrored_wrong",
    "C98_refuted",
    "C98_replace_in_place",
    "C98_shown_partial"
   ],
   "note": "False of ranges that refer to the unshared string itself (finding S16): C98_refuted (assigning \"abc\" from its reverse iterators gives \"cbc\"), C98_append_refuted (undefined behaviour). Proved whenever no iterator refers to the string itself or its buffer is shared (C98_shown_partial). Of its own characters: exactly what comes out of assign and replace by at most as many characters, and of insert and append with room (C98_*_in_place), of assign(rbegin(), rend()) for every text (C98_assign_backwards, C98_mirrored_wrong). Not described: own characters when the buffer grows, or replacing by more characters than there were. Iterators whose operators have effects or throw are not modelled."
  },
  {
   "property": "C99",
   "status": "partial",
   "theorems": [
    "C99_compare",
    "C99_contains_view_refuted",
    "C99_find_refuted",
    "C99_operators_refuted",
    "C99_operators_text",
    "C99_plus_refuted",
    "C99_read_text",
    "C99_starts_refuted",
    "C99_text",
    "C99_written_partial"
   ],
   "note": "False as stated (finding S17): the members that search, contains and the comparison operators end the program (C99_find_refuted, C99_operators_refuted, C99_contains_view_refuted), operator+ except of a temporary on the left and starts_with and ends_with have undefined behaviour (C99_plus_refuted, C99_starts_refuted), for every string. Proved for the constructor, append, assign, insert, replace, +=, = and + of a temporary (C99_written_partial) and compare (C99_compare). Other pointers: the calls are those of the other properties (C99_text, C99_read_text), and the comparison operators, with the pointer on either side, compare the texts (C99_operators_text). A null pointer with a length of 0: C102."
  },
  {
   "property": "C100",
   "status": "partial",
   "theorems": [
    "C100_aligned_partial",
    "C100_alignment_refuted",
    "C100_empty_refuted",
    "C100_request_partial",
    "C100_where_partial"
   ],
   "note": "False of requests aligned to more than 8, where the padding is not counted (C100_alignment_refuted), and of an arena without a block, where SpaceRemains() dereferences null (C100_empty_refuted): finding A15. Proved for all other requests, and for larger alignments with room for the worst padding."
  },
  {
   "property": "C101",
   "status": "partial",
   "theorems": [
    "C101_destroy_partial",
    "C101_equal_origin",
    "C101_equal_partial",
    "C101_equal_refuted",
    "C101_get_partial",
    "C101_get_refuted",
    "C101_move_partial",
    "C101_new_partial",
    "C101_none_left_partial",
    "C101_once_partial",
    "C101_origin",
    "C101_own_partial",
    "C101_own_refuted",
    "C101_progress_partial",
    "C101_self_partial",
    "C101_symmetric_partial",
    "C101_transitive_partial"
   ],
   "note": "False of arenas that were moved to, whose resource names the old address (C101_own_refuted) and so can be equal to that of another arena made there (C101_equal_refuted), and of arenas that were moved from or whose new memory_resource failed, which have none (C101_get_refuted): finding A16. Proved of arenas that were constructed, not moved to, and have one; of all arenas exactly what the resource names and which are equal (C101_origin, C101_equal_origin). That no resource is deleted twice, and each is once the arena having it is destroyed, holds for all arenas."
  },
  {
   "property": "C102",
   "status": "partial",
   "theorems": [
    "C102_compare",
    "C102_replace_refuted",
    "C102_same_partial",
    "C102_search",
    "C102_starts_ends",
    "C102_unused",
    "C102_written_partial"
   ],
   "note": "False of replace, which forms &*s1 of the null pointer (C102_replace_refuted, finding S18; compilers are likely to let it pass), and of contains, which takes the length again (C99_contains_view_refuted). Proved for all other calls; the constructor, append and assign do not use the pointer at all (C102_unused, C102_same_partial)."
  }
 ]
}