{
 "claims": [
  {
   "property": "C01",
   "status": "proved",
   "theorems": [
    "C01_lru_refines_recency_list"
   ],
   "note": "Refinement to a recency list for every capacity, strict weak order and call sequence."
  },
  {
   "property": "C02",
   "status": "proved",
   "theorems": [
    "C02_lru_ages_are_permutation"
   ],
   "note": "Stated through has_label/age/current_size only."
  },
  {
   "property": "C03",
   "status": "proved",
   "theorems": [
    "C03_lru_evicts_least_recently_used"
   ],
   "note": "Last use is computed from the observable call history."
  },
  {
   "property": "C04",
   "status": "proved",
   "theorems": [
    "C04_lru_rejected_calls"
   ],
   "note": "Each rejected call returns the unchanged state, so every continuation is the same."
  },
  {
   "property": "C05",
   "status": "proved",
   "theorems": [
    "C05_lru_reference_stays_valid"
   ],
   "note": "References are node addresses; reading a removed node is an error in the model."
  },
  {
   "property": "C06",
   "status": "partial",
   "theorems": [
    "C06_lru_put_failure_refuted",
    "C06_every_failure_refuted",
    "C06_lru_put_failure_partial",
    "C06_lru_failing_histories_partial"
   ],
   "note": "The property as stated is false of the code: put ages and evicts before the insertion that can throw; every failure that leaves an element can be continued to undefined behaviour. Proved: the exact behaviour of all histories with failing puts."
  },
  {
   "property": "C07",
   "status": "partial",
   "theorems": [
    "C07_lru_put_reference_refuted",
    "C07_lru_put_reference_partial"
   ],
   "note": "The property as stated is false of the code when the reference designates the victim; exact condition proved."
  },
  {
   "property": "C21",
   "status": "proved",
   "theorems": [
    "C21_list_append_builds_concatenation",
    "C21_list_append_needs_32_bits"
   ],
   "note": "Second theorem: the bound on the length is needed."
  },
  {
   "property": "C22",
   "status": "partial",
   "theorems": [
    "C22_list_self_append_refuted",
    "C22_list_self_append_partial"
   ],
   "note": "False of the code: appending a list to itself iterates over a growing vector. The part that holds is proved."
  },
  {
   "property": "C23",
   "status": "proved",
   "theorems": [
    "C23_apply_calls_once_in_order",
    "C23_elementwise_ndebug_undefined"
   ],
   "note": "Second theorem: with assertions disabled the mismatched call is undefined."
  },
  {
   "property": "C24",
   "status": "proved",
   "theorems": [
    "C24_set_programs_refine_sets"
   ],
   "note": "Refinement of programs over set variables, aliased arguments included."
  },
  {
   "property": "C25",
   "status": "partial",
   "theorems": [
    "C25_member_subset_refuted",
    "C25_subset_partial"
   ],
   "note": "The free function is right; the member function tests the reverse inclusion."
  },
  {
   "property": "C26",
   "status": "partial",
   "theorems": [
    "C26_member_restrict_refuted",
    "C26_intersection_difference_partial",
    "C26_member_restrict_partial"
   ],
   "note": "All functions right except the member function restrict, which removes the common elements; right only for the empty set."
  },
  {
   "property": "C27",
   "status": "proved",
   "theorems": [
    "C27_disjoint_decides"
   ],
   "note": ""
  },
  {
   "property": "C28",
   "status": "proved",
   "theorems": [
    "C28_unique_and_duplicate"
   ],
   "note": ""
  },
  {
   "property": "C29",
   "status": "proved",
   "theorems": [
    "C29_conversions"
   ],
   "note": ""
  },
  {
   "property": "C30",
   "status": "proved",
   "theorems": [
    "C30_map_programs_refine_functions"
   ],
   "note": "Refinement of programs over map variables, aliased arguments included."
  },
  {
   "property": "C31",
   "status": "proved",
   "theorems": [
    "C31_map_never_overwrites"
   ],
   "note": ""
  },
  {
   "property": "C32",
   "status": "proved",
   "theorems": [
    "C32_map_lookups"
   ],
   "note": ""
  },
  {
   "property": "C33",
   "status": "partial",
   "theorems": [
    "C33_map_key_functions",
    "C33_restrict_keys_partial",
    "C33_std_set_refuted"
   ],
   "note": "The code violates the property for a std::set that is not a Set given to restrict_keys: it is cast to Set, which is undefined. Holds for arguments of class Set; remove_keys, keys and values are proved in full."
  },
  {
   "property": "C34",
   "status": "proved",
   "theorems": [
    "C34_sequence_formats",
    "C34_map_formats",
    "C34_tuple_formats",
    "C34_integer_format"
   ],
   "note": "Agreement for arbitrary element printers; exact text for printers that append a text. Pairs and tuples included; which tuples compile is C117."
  },
  {
   "property": "C35",
   "status": "proved",
   "theorems": [
    "C35_any_element_reader",
    "C35_printed_ints_read_back",
    "C35_printed_bools_read_back",
    "C35_nested_lists_read_back",
    "C35_printed_words_read_back"
   ],
   "note": "Every layout with blanks, any stream state, any following text; also lists nested to any depth."
  },
  {
   "property": "C36",
   "status": "partial",
   "theorems": [
    "C36_blank_input_refuted",
    "C36_read_sequence_total_partial",
    "C36_standard_readers_tame",
    "C36_read_ints_partial",
    "C36_characters_partial"
   ],
   "note": "False of the code on blank input or a stream that is not good (indeterminate variable). Everything else proved for all inputs."
  },
  {
   "property": "C37",
   "status": "partial",
   "theorems": [
    "C37_printed_strings_refuted",
    "C37_spaced_strings_partial"
   ],
   "note": "False of the code: every printed non-empty vector of strings throws when read. Holds if a blank follows every string."
  },
  {
   "property": "C38",
   "status": "proved",
   "theorems": [
    "C38_word_order_lexicographic"
   ],
   "note": ""
  },
  {
   "property": "C39",
   "status": "proved",
   "theorems": [
    "C39_prefix_and_subword"
   ],
   "note": ""
  },
  {
   "property": "C40",
   "status": "partial",
   "theorems": [
    "C40_erase_prefix_refuted",
    "C40_modifiers_partial"
   ],
   "note": "erase_prefix fails for words of 2^31 bits or more (int size); all else proved."
  },
  {
   "property": "C41",
   "status": "partial",
   "theorems": [
    "C41_self_append_refuted",
    "C41_self_append_partial"
   ],
   "note": "False of the code for every non-empty word."
  },
  {
   "property": "C42",
   "status": "proved",
   "theorems": [
    "C42_printed_word_reads_back"
   ],
   "note": ""
  },
  {
   "property": "C43",
   "status": "partial",
   "theorems": [
    "C43_words_in_sequence_refuted",
    "C43_words_in_sequence_partial"
   ],
   "note": "False of the code at end of text and for empty words; proved for non-empty words each followed by a blank."
  },
  {
   "property": "C44",
   "status": "partial",
   "theorems": [
    "C44_print_changes_format_refuted",
    "C44_print_keeps_format_partial"
   ],
   "note": "False of the code: boolalpha stays set."
  },
  {
   "property": "C45",
   "status": "partial",
   "theorems": [
    "C45_make_word_blank_refuted",
    "C45_make_word_total_partial"
   ],
   "note": "False of the code on blank strings; for every other string the result is characterised."
  },
  {
   "property": "C46",
   "status": "proved",
   "theorems": [
    "C46_range_for_visits_all",
    "C46_range_from_zero"
   ],
   "note": ""
  },
  {
   "property": "C47",
   "status": "partial",
   "theorems": [
    "C47_reversed_range_refuted",
    "C47_trivial_range_partial"
   ],
   "note": "False of the code for b<a, where the unsigned size wraps; proved for a<=b."
  },
  {
   "property": "C48",
   "status": "proved",
   "theorems": [
    "C48_facade_lawful",
    "C48_facade_round_trips"
   ],
   "note": ""
  },
  {
   "property": "C49",
   "status": "proved",
   "theorems": [
    "C49_visits_own_alternative",
    "C49_limit_is_sixteen"
   ],
   "note": ""
  },
  {
   "property": "C50",
   "status": "proved",
   "theorems": [
    "C50_unknown_code_aborts"
   ],
   "note": ""
  },
  {
   "property": "C51",
   "status": "proved",
   "theorems": [
    "C51_type_lists"
   ],
   "note": ""
  },
  {
   "property": "C52",
   "status": "proved",
   "theorems": [
    "C52_handles_are_values"
   ],
   "note": ""
  },
  {
   "property": "C53",
   "status": "partial",
   "theorems": [
    "C53_second_access_refuted",
    "C53_held_reference_partial"
   ],
   "note": "Every non-const access clones, so a second access leaves the first reference dangling; proved for a reference used before the next access."
  },
  {
   "property": "C54",
   "status": "partial",
   "theorems": [
    "C54_write_seen_by_copy_refuted",
    "C54_extracted_write_refuted",
    "C54_held_write_partial"
   ],
   "note": "False when a reference is held across a copy, or obtained by dynamic_handle_extract; proved when the reference is used at once."
  },
  {
   "property": "C55",
   "status": "proved",
   "theorems": [
    "C55_extract_exactly",
    "C55_cast_exactly"
   ],
   "note": ""
  },
  {
   "property": "C56",
   "status": "proved",
   "theorems": [
    "C56_at_most_once",
    "C56_evaluated_for_good"
   ],
   "note": "For functions that do not return a null pointer (then dereferencing is undefined)."
  },
  {
   "property": "C57",
   "status": "proved",
   "theorems": [
    "C57_throwing_is_retried"
   ],
   "note": ""
  },
  {
   "property": "C58",
   "status": "proved",
   "theorems": [
    "C58_copies",
    "C58_copy_of_evaluated"
   ],
   "note": ""
  },
  {
   "property": "C59",
   "status": "proved",
   "theorems": [
    "C59_last_restart_to_last_click",
    "C59_always_measured",
    "C59_reading_has_no_effect"
   ],
   "note": "For units with a 64-bit integral representation; when the count overflows 64 bits the behaviour is undefined."
  },
  {
   "property": "C60",
   "status": "proved",
   "theorems": [
    "C60_within_one_unit",
    "C60_non_decreasing",
    "C60_units"
   ],
   "note": "For units that are a whole number of clock ticks."
  },
  {
   "property": "C61",
   "status": "partial",
   "theorems": [
    "C61_precision_refuted",
    "C61_unit_precision_partial",
    "C61_double_partial"
   ],
   "note": "False of the code: the double is computed from the truncated duration; proved up to the unit D and double rounding, and with the precision of the clock for std::chrono::duration<double>."
  },
  {
   "property": "C62",
   "status": "proved",
   "theorems": [
    "C62_in_interval",
    "C62_fresh_output",
    "C62_runs"
   ],
   "note": "For one translation unit (RANDOM_GENERATOR is static in the header) and distributions meeting the standard's contract that values lie in the interval."
  },
  {
   "property": "C63",
   "status": "partial",
   "theorems": [
    "C63_plain_macros_partial",
    "C63_debug_precondition_partial",
    "C63_message_macros_partial",
    "C63_assert_equal_partial",
    "C63_assert_equal_evaluations",
    "C63_ndebug",
    "C63_captured_name_refuted",
    "C63_assert_equal_refuted",
    "C63_values_partial",
    "C63_only_values_partial"
   ],
   "note": "False of the code: a condition naming the macro's local variable reads it uninitialised, and a failing HELPER_ASSERT_EQUAL evaluates its operands twice. Proved for conditions not naming the local variable, and for HELPER_ASSERT_EQUAL on operands without effects."
  },
  {
   "property": "C64",
   "status": "proved",
   "theorems": [
    "C64_once_per_site",
    "C64_first_execution_warns",
    "C64_later_executions_silent"
   ],
   "note": "Each occurrence in a scope of its own; single-threaded."
  },
  {
   "property": "C65",
   "status": "partial",
   "theorems": [
    "C65_guarded_does_not_compile_refuted",
    "C65_guard_ignored_refuted",
    "C65_braced_partial"
   ],
   "note": "False of the code: the macro is two statements. Proved when the macro is put in braces."
  },
  {
   "property": "C66",
   "status": "partial",
   "theorems": [
    "C66_counter_is_tally_refuted",
    "C66_counter_is_tally_partial"
   ],
   "note": "Refuted as stated: CALL and THROWS let exceptions outside std::exception escape uncounted, COMPARE with side effects miscounts, and a variable named ok is captured. Proved for all programs without these (names of their own, only std exceptions, effect-free COMPARE/predicate arguments), fewer than 2^31 checks."
  },
  {
   "property": "C67",
   "status": "partial",
   "theorems": [
    "C67_exit_zero_iff_passed_refuted",
    "C67_status_partial",
    "C67_exit_zero_iff_passed_partial"
   ],
   "note": "Refuted for 256 failures: the exit status is the count modulo 256. Proved: the status is the number of failed checks modulo 256, hence exact below 256 failures, for the programs of C66."
  },
  {
   "property": "C68",
   "status": "partial",
   "theorems": [
    "C68_evaluated_once_refuted",
    "C68_passing_once_partial",
    "C68_throwing_once_partial",
    "C68_assert_once_partial",
    "C68_within_once_partial",
    "C68_all_evaluations_partial"
   ],
   "note": "Refuted: failing checks evaluate again for the messages, COMPARE also when passing. Proved: one evaluation for passing ASSERT/CHECK/SAME/SAME_AS/EQUAL/EQUALS/NOT_EQUAL/LESS/WITHIN, for throwing conditions, and for failing ASSERT. C68_all_evaluations_partial gives the exact sequence of evaluations of every check."
  },
  {
   "property": "C69",
   "status": "proved",
   "theorems": [
    "C69_lpair_assigns",
    "C69_ltuple_assigns",
    "C69_ltuple_from_ltuple",
    "C69_lpair_from_lpair"
   ],
   "note": "For every order in which the elements are assigned; values of one type, assignment does not throw."
  },
  {
   "property": "C70",
   "status": "partial",
   "theorems": [
    "C70_lpair_swap_refuted",
    "C70_ltuple_swap_refuted",
    "C70_make_pair_swap_partial"
   ],
   "note": "False of the code for all different variables: both end up with the same value. Holds with make_pair on the right."
  },
  {
   "property": "C71",
   "status": "partial",
   "theorems": [
    "C71_nameless_frame_refuted",
    "C71_one_line_per_frame_partial",
    "C71_defined_iff_named_partial",
    "C71_no_memory_partial",
    "C71_disabled"
   ],
   "note": "False of the code: a frame without a symbol name is undefined behaviour. Proved when every frame known to dladdr has a name, and that this is necessary; for the memory see C132."
  },
  {
   "property": "C08",
   "status": "partial",
   "theorems": [
    "C08_independent_values_partial",
    "C08_independent_values_refuted"
   ],
   "note": "The code violates the property for a.assign(first,last) with a range inside a itself (refuted for every array of at least two elements). For all other well-formed programs over any number of variables, with all operations and even with failing allocations and element operations, the model returns exactly the outputs and contents of the independent-sequences semantics; excluded are only failing copy assignments and reallocates that change the size (C14)."
  },
  {
   "property": "C09",
   "status": "partial",
   "theorems": [
    "C09_no_leak_refuted",
    "C09_no_leak_partial",
    "C09_exact_losses_partial"
   ],
   "note": "The code violates the property: move assignment leaks the old storage and elements of its target (refuted for every size). Proved: no leak for all programs without move assignment, placement new and failures; in general the leaks are exactly those the sequence semantics counts."
  },
  {
   "property": "C10",
   "status": "proved",
   "theorems": [
    "C10_resize"
   ],
   "note": "Sizes whose storage operator new can provide; failure cases are in C14."
  },
  {
   "property": "C11",
   "status": "proved",
   "theorems": [
    "C11_at",
    "C11_at_write"
   ],
   "note": "Reading and writing through at()."
  },
  {
   "property": "C12",
   "status": "proved",
   "theorems": [
    "C12_equality"
   ],
   "note": ""
  },
  {
   "property": "C13",
   "status": "partial",
   "theorems": [
    "C13_failing_constructor_refuted",
    "C13_failing_allocation_partial"
   ],
   "note": "The code violates the property: for every element-creating constructor, length and failing position the block and the elements before it leak. Holds when the allocation itself fails."
  },
  {
   "property": "C14",
   "status": "partial",
   "theorems": [
    "C14_failing_assignment_refuted",
    "C14_failing_reallocate_refuted",
    "C14_failing_resize_partial",
    "C14_failing_same_size_partial"
   ],
   "note": "The code violates the property for copy assignment between different sizes and for reallocate: after any failure the destructor is undefined behaviour. Holds for resize (all contents kept) and same-size assignment."
  },
  {
   "property": "C15",
   "status": "partial",
   "theorems": [
    "C15_enough_storage_refuted",
    "C15_enough_storage_partial"
   ],
   "note": "The code violates the property: n*sizeof(T) wraps modulo 2^64 (refuted for every element size from 2 bytes on). Holds when n*sizeof(T) is below 2^64."
  },
  {
   "property": "C16",
   "status": "partial",
   "theorems": [
    "C16_assign_own_range_refuted",
    "C16_assign_partial"
   ],
   "note": "The code violates the property for every nonempty proper subrange of the array itself (reads freed storage). Holds for ranges outside the array and for ranges of the same length."
  },
  {
   "property": "C17",
   "status": "partial",
   "theorems": [
    "C17_reallocate_refuted",
    "C17_reallocate_partial"
   ],
   "note": "The code violates the property when n equals the present size (nothing happens). Holds when the size changes."
  },
  {
   "property": "C18",
   "status": "proved",
   "theorems": [
    "C18_complement",
    "C18_complement_otherwise",
    "C18_twice"
   ],
   "note": ""
  },
  {
   "property": "C19",
   "status": "proved",
   "theorems": [
    "C19_shared_history"
   ],
   "note": "For every history without destruction over fewer than 2^64 variables, scalar and class element types; allocation failures excluded."
  },
  {
   "property": "C20",
   "status": "partial",
   "theorems": [
    "C20_destruction_refuted",
    "C20_history_refuted",
    "C20_failing_constructor_refuted"
   ],
   "note": "The code violates the property in every state: the destructor decrements the pointer _count and reads out of bounds. No positive part holds."
  },
  {
   "property": "C72",
   "status": "proved",
   "theorems": [
    "C72_fail_msg",
    "C72_not_implemented",
    "C72_reserved_name"
   ],
   "note": "A message mentioning a variable called ss does not compile (or would name the macro's stream)."
  },
  {
   "property": "C73",
   "status": "proved",
   "theorems": [
    "C73_reports"
   ],
   "note": ""
  },
  {
   "property": "C74",
   "status": "proved",
   "theorems": [
    "C74_alive_while_owned"
   ],
   "note": ""
  },
  {
   "property": "C75",
   "status": "proved",
   "theorems": [
    "C75_reports"
   ],
   "note": ""
  },
  {
   "property": "C76",
   "status": "partial",
   "theorems": [
    "C76_failing_construction_refuted",
    "C76_two_constructions_partial",
    "C76_plain_construction_partial"
   ],
   "note": "The code violates the property: after the trial construction inside try the variable is constructed again outside it. Proved: exactly what the macros do."
  },
  {
   "property": "C77",
   "status": "proved",
   "theorems": [
    "C77_static_checks",
    "C77_static_reports"
   ],
   "note": ""
  },
  {
   "property": "C78",
   "status": "proved",
   "theorems": [
    "C78_printed_at_once",
    "C78_kept_temporary",
    "C78_assignment_dangles"
   ],
   "note": ""
  },
  {
   "property": "C79",
   "status": "partial",
   "theorems": [
    "C79_usual_write_refuted",
    "C79_agreement_partial",
    "C79_table_partial"
   ],
   "note": "The code violates the property for the usual _write(ostream&) const: IsWritable tries it on a stream rvalue. Proved: exactly for which declarations it holds."
  },
  {
   "property": "C80",
   "status": "partial",
   "theorems": [
    "C80_clean_vector_refuted",
    "C80_clean_vector_partial"
   ],
   "note": "The code violates the property for every vector with a repeated pointer (double delete). Holds otherwise."
  },
  {
   "property": "C81",
   "status": "proved",
   "theorems": [
    "C81_pair_in_step",
    "C81_pair_equal"
   ],
   "note": "distance_to is not defined and dereference does not compile in the code; they are not modelled."
  },
  {
   "property": "C82",
   "status": "proved",
   "theorems": [
    "C82_lru_caches_are_values"
   ],
   "note": "A moved-from std::map is empty, and so is one whose copy assignment failed, as in libstdc++."
  },
  {
   "property": "C83",
   "status": "proved",
   "theorems": [
    "C83_threads_as_if_alone",
    "C83_wait_free",
    "C83_actions"
   ],
   "note": "Sequentially consistent interleaving, which the C++ memory model gives to race-free programs; use counts atomic as in std::shared_ptr."
  },
  {
   "property": "C84",
   "status": "partial",
   "theorems": [
    "C84_nonconst_access_refuted",
    "C84_nonconst_reads_refuted",
    "C84_const_access_partial"
   ],
   "note": "The code violates the property for handles that are not const: every such access replaces the object by a clone. Holds for const accesses."
  },
  {
   "property": "C85",
   "status": "proved",
   "theorems": [
    "C85_checks",
    "C85_static_checks",
    "C85_messages",
    "C85_blocks",
    "C85_values",
    "C85_throwing"
   ],
   "note": "Expressions of checks are assumed to have values without effects (their evaluation order and repetition is C68). The construction macros are covered by C76 without their texts."
  },
  {
   "property": "C86",
   "status": "proved",
   "theorems": [
    "C86_memoisation"
   ],
   "note": ""
  },
  {
   "property": "C87",
   "status": "proved",
   "theorems": [
    "C87_hit_iff_recent",
    "C87_every_request_answered",
    "C87_larger_cache_no_worse"
   ],
   "note": ""
  },
  {
   "property": "C88",
   "status": "proved",
   "theorems": [
    "C88_competitive",
    "C88_reached",
    "C88_best_factor"
   ],
   "note": "The strategy starts empty and holds each label just requested."
  },
  {
   "property": "C89",
   "status": "partial",
   "theorems": [
    "C89_evaluated_twice_refuted",
    "C89_two_callers_refuted",
    "C89_one_caller_partial",
    "C89_steps"
   ],
   "note": "The code violates the property: two concurrent first calls race on the pointer, evaluate the function twice and leave a dangling reference. Holds when every Lazy is evaluated beforehand or called by one thread only."
  },
  {
   "property": "C90",
   "status": "proved",
   "theorems": [
    "C90_evaluated_once",
    "C90_order_irrelevant",
    "C90_cycle",
    "C90_same_call",
    "C90_same_start",
    "C90_reentrant_twice"
   ],
   "note": "C90_reentrant_twice shows the limit: a function that calls its own Lazy conditionally is evaluated twice."
  },
  {
   "property": "C91",
   "status": "proved",
   "theorems": [
    "C91_plain_sets",
    "C91_plain_maps",
    "C91_words",
    "C91_lists",
    "C91_pairs"
   ],
   "note": "The lexicographic orders of std::vector, std::set and std::pair are modelled after the standard."
  },
  {
   "property": "C92",
   "status": "proved",
   "theorems": [
    "C92_sets",
    "C92_maps",
    "C92_lists",
    "C92_same_sets",
    "C92_same_maps"
   ],
   "note": "Assumes the guarantees of the standard containers for single-element calls. Excludes Set::restrict (C26), a list appended to itself (C22) and lists of 2^32 elements (C21)."
  },
  {
   "property": "C93",
   "status": "partial",
   "theorems": [
    "C93_refuted",
    "C93_same_output_refuted",
    "C93_threads_partial"
   ],
   "note": "The code violates the property: the engine of RANDOM_GENERATOR is raced for by any two threads that draw. Holds when all calls are made with one mutex held or by one thread."
  },
  {
   "property": "C94",
   "status": "partial",
   "theorems": [
    "C94_refuted",
    "C94_failures_partial",
    "C94_passing_partial"
   ],
   "note": "The code violates the property: the counter is a plain int, so threads race for it and increments get lost. Holds when checks are made with one mutex held or by one thread, and while no check fails."
  },
  {
   "property": "C95",
   "status": "partial",
   "theorems": [
    "C95_refuted",
    "C95_once_partial",
    "C95_warnings_partial"
   ],
   "note": "The code violates the property: the flag is a plain static bool, and a report is several insertions. Holds when reports are made with one mutex held or by one thread; reports other than one-time ones are free of data races anyway."
  },
  {
   "property": "C96",
   "status": "partial",
   "theorems": [
    "C96_refuted",
    "C96_broken_refuted",
    "C96_mutex_partial",
    "C96_lookers_partial"
   ],
   "note": "The code violates the property: get writes the ages of all elements, so two gets race, and may leave ages that make a later put undefined. Holds when all calls are made with one mutex held or by one thread, and for has_label, age and the sizes without a mutex."
  },
  {
   "property": "C97",
   "status": "partial",
   "theorems": [
    "C97_too_early_refuted",
    "C97_used_twice_refuted",
    "C97_ready_partial",
    "C97_main_partial",
    "C97_one_home_partial"
   ],
   "note": "The code violates the property: RANDOM_GENERATOR is static, so there is one for each translation unit, and get() uses that of whatever unit the linker took its instantiation from, which need not be initialised yet. Holds for each generator separately when all draws come after the initialisation, and as in C62 with one translation unit."
  },
  {
   "property": "C98",
   "status": "proved",
   "theorems": [
    "C98_reading_lists",
    "C98_readers",
    "C98_success_unaffected",
    "C98_printed_lists_read_back",
    "C98_without_mask"
   ],
   "note": "Undefined behaviour remains only for masks without failbit, as in C36, which is stated exactly. push_back is assumed not to fail (C92)."
  },
  {
   "property": "C99",
   "status": "partial",
   "theorems": [
    "C99_last_word_refuted",
    "C99_word_followed_partial",
    "C99_any_input_partial"
   ],
   "note": "The code violates the property: every word at the end of the text throws when the stream throws on eofbit or failbit. Holds for words followed by another character; every other input characterised."
  },
  {
   "property": "C100",
   "status": "proved",
   "theorems": [
    "C100_lists",
    "C100_pairs_tuples_maps",
    "C100_items",
    "C100_good_stream",
    "C100_other_stream",
    "C100_mask",
    "C100_unfailing"
   ],
   "note": "Copying an item while printing is assumed not to throw. What a device loses after taking it (flushing) is outside the model."
  },
  {
   "property": "C101",
   "status": "partial",
   "theorems": [
    "C101_width_refuted",
    "C101_width_partial"
   ],
   "note": "The code violates the property for every list, set, pair and longer word and every width above one: the padding goes to the first piece printed. What happens instead is stated; the width is used up."
  },
  {
   "property": "C102",
   "status": "partial",
   "theorems": [
    "C102_writable_partial",
    "C102_interface_refuted",
    "C102_owned_partial"
   ],
   "note": "The code violates the property for randomisers, every one of them: RandomiserInterface has no virtual destructor. Holds for WritableInterface and WriterInterface, and for randomisers that are variables or owned through their own class, by shared_ptrs created with it, or through a user class with a virtual destructor."
  },
  {
   "property": "C103",
   "status": "partial",
   "theorems": [
    "C103_concepts_partial",
    "C103_invocable_partial",
    "C103_invocable_refuted",
    "C103_scalar_refuted",
    "C103_reference_refuted",
    "C103_class_partial"
   ],
   "note": "The code violates the property: IsInvocable is false for every pointer to member, IsInvocableReturning for void and every scalar result type, and true for references that cannot be bound. The concepts are right; so are the traits for other callables and for classes assigned what converts to them."
  },
  {
   "property": "C104",
   "status": "partial",
   "theorems": [
    "C104_insertion_refuted",
    "C104_insertion_partial",
    "C104_to_str_partial",
    "C104_pair_refuted",
    "C104_pair_partial",
    "C104_list_partial",
    "C104_read_back_partial"
   ],
   "note": "The code violates the property exactly where a bool is printed to a boolalpha stream, or after a word, whose printing leaves boolalpha set. Holds in all other cases."
  },
  {
   "property": "C105",
   "status": "partial",
   "theorems": [
    "C105_string_partial",
    "C105_at_once_partial",
    "C105_std_string_refuted",
    "C105_to_string_refuted"
   ],
   "note": "The code violates the property for every std::string (converted to a temporary String) and for results of to_string. Holds for variables of class String, and for all strings within one statement."
  },
  {
   "property": "C106",
   "status": "partial",
   "theorems": [
    "C106_slicing_refuted",
    "C106_whole_object_partial"
   ],
   "note": "The code violates the property for every object passed as a copyable class it is derived from (or moved as any such class): it is sliced. Holds for objects passed as what they are, as the interface, or as lvalues of classes that cannot be copied."
  },
  {
   "property": "C107",
   "status": "partial",
   "theorems": [
    "C107_forwarding_refuted",
    "C107_move_only_refuted",
    "C107_lvalues_partial",
    "C107_same_value_partial"
   ],
   "note": "The code violates the property: rvalues are passed on as lvalues, so nothing is ever moved from and classes that only take rvalues cannot be made. Holds for lvalues; the object is the same if copying and moving make the same."
  },
  {
   "property": "C108",
   "status": "partial",
   "theorems": [
    "C108_race_refuted",
    "C108_freed_refuted",
    "C108_mutex_partial",
    "C108_readers_partial",
    "C108_apart_partial"
   ],
   "note": "The code violates the property for any two threads that copy sharers of one array: the count is not atomic. Holds with a mutex around all calls or one thread, for threads that only read, and without a mutex for threads whose variables share no elements with those of other threads."
  },
  {
   "property": "C109",
   "status": "partial",
   "theorems": [
    "C109_grouping",
    "C109_levels",
    "C109_values",
    "C109_unary_values",
    "C109_within_partial",
    "C109_minus_refuted",
    "C109_plus_refuted",
    "C109_conditional_tolerance_refuted",
    "C109_conditional_expected_refuted"
   ],
   "note": "The code violates the property for every expected value a-b or a+b and for conditional arguments, since the arguments are not put in parentheses. Holds for expressions without operators looser than + -, expected values without operators looser than * /, tolerances without operators looser than shifts."
  },
  {
   "property": "C110",
   "status": "partial",
   "theorems": [
    "C110_equal_partial",
    "C110_message_partial",
    "C110_second_refuted",
    "C110_first_refuted",
    "C110_first_conditional_refuted",
    "C110_chosen_message_refuted"
   ],
   "note": "The code violates the property for every argument with an operator looser than + -: part of it is shown or it does not compile. Holds for arguments with + - and tighter operators, and for messages put together with <<."
  },
  {
   "property": "C111",
   "status": "proved",
   "theorems": [
    "C111_never_wrong",
    "C111_ends",
    "C111_evaluates_once"
   ],
   "note": "Equivalent labels must have the same function body (an Example shows that this is needed)."
  },
  {
   "property": "C112",
   "status": "partial",
   "theorems": [
    "C112_own_type_partial",
    "C112_promoted_partial",
    "C112_promotions_partial",
    "C112_implicit_partial",
    "C112_implicit_own_type_partial",
    "C112_braces_partial",
    "C112_narrowing_partial",
    "C112_class_refuted",
    "C112_size_refuted",
    "C112_own_size_refuted",
    "C112_conversion_refuted"
   ],
   "note": "The code violates the property: for elements of a class type and an arithmetic x, and for x of type size_t, List<T>(x) has x default elements; for other arithmetic conversions, and size_t itself, it does not compile. Holds for x of type T or promoted to it, for implicit conversion between arithmetic types, and for braces where they compile."
  },
  {
   "property": "C113",
   "status": "partial",
   "theorems": [
    "C113_list",
    "C113_array_partial",
    "C113_array_same_type_refuted",
    "C113_array_generator_refuted",
    "C113_linked_partial",
    "C113_linked_refuted",
    "C113_make_list",
    "C113_make_array_partial",
    "C113_make_array_refuted"
   ],
   "note": "The code violates the property: Array<T>(n,x) does not compile for n and x of one type (so make_array not for unsigned int), and calls x if it can be called; LinkedList<T>(n,x) compiles only for n and x of one type. Otherwise it holds; for List always."
  },
  {
   "property": "C114",
   "status": "partial",
   "theorems": [
    "C114_own_visitor_partial",
    "C114_const_operator_partial",
    "C114_silent_operator_partial",
    "C114_overloaded_refuted",
    "C114_const_object_refuted"
   ],
   "note": "The code violates the property for every const visitor whose class has a call operator that is not const: that one is called, and if it writes, the visitor is changed, or the behaviour undefined if it was defined const. Holds for other visitors."
  },
  {
   "property": "C115",
   "status": "partial",
   "theorems": [
    "C115_make_array_partial",
    "C115_make_list_partial",
    "C115_single_value",
    "C115_make_array_refuted",
    "C115_make_list_refuted",
    "C115_make_list_array_refuted"
   ],
   "note": "The code violates the property for every List and every other sequence but std::vector and Array (make_array), std::vector and Set (make_list): the result has the sequence as its one element. make_list(Array) does not compile."
  },
  {
   "property": "C116",
   "status": "partial",
   "theorems": [
    "C116_two_arguments_partial",
    "C116_same_type_refuted",
    "C116_braces_refuted"
   ],
   "note": "The code violates the property: k and v of one type that is not both K and T choose the overload for iterators, and m.insert({k,v}) is always ambiguous. Holds otherwise."
  },
  {
   "property": "C117",
   "status": "partial",
   "theorems": [
    "C117_exact_partial",
    "C117_unqualified_partial",
    "C117_helper_containers_partial",
    "C117_tuple_refuted",
    "C117_order_refuted"
   ],
   "note": "The code violates the property for all tuples of standard types (write_tuple is not found) and for standard containers in pairs, Arrays, linked lists and containers with an earlier operator. The exact condition is proved."
  },
  {
   "property": "C118",
   "status": "partial",
   "theorems": [
    "C118_const_partial",
    "C118_qualified_partial",
    "C118_unqualified_refuted"
   ],
   "note": "The code violates the property for every unqualified call with a list that is not const: std::apply is the better match and does not compile."
  },
  {
   "property": "C119",
   "status": "partial",
   "theorems": [
    "C119_arguments_partial",
    "C119_many_arguments_partial",
    "C119_copy_partial",
    "C119_copy_refuted",
    "C119_derived_refuted",
    "C119_explicit_refuted"
   ],
   "note": "The code violates the property: the forwarding constructor is the better match for every object that is not const and for objects of derived classes, and copies the Base only; and it makes every construction an implicit conversion. Holds for other arguments, and for copies of const objects and temporaries."
  },
  {
   "property": "C120",
   "status": "partial",
   "theorems": [
    "C120_symbols_partial",
    "C120_literal_refuted",
    "C120_character_refuted",
    "C120_string_refuted"
   ],
   "note": "The code violates the property for every text: string literals and characters convert to bool and append one 1, std::string does not compile. Holds for bool, bits, numbers and words."
  },
  {
   "property": "C121",
   "status": "partial",
   "theorems": [
    "C121_every_capacity_refuted",
    "C121_programs_partial",
    "C121_exact_partial"
   ],
   "note": "The code violates the property at every capacity: put erases the oldest element before it copies label and value. Holds if the arguments of each put designate fewer elements than the capacity; the exact condition for one put is proved."
  },
  {
   "property": "C122",
   "status": "partial",
   "theorems": [
    "C122_random_access_refuted",
    "C122_expressions_partial",
    "C122_arrow_refuted",
    "C122_algorithms_partial"
   ],
   "note": "The code violates the property for random access: it++, it--, n+it and it[n] do not compile, nor it->m if dereference returns a value. Everything else required compiles, and the algorithms modelled are right."
  },
  {
   "property": "C123",
   "status": "partial",
   "theorems": [
    "C123_captured_name_refuted",
    "C123_temporary_refuted",
    "C123_effects_refuted",
    "C123_counts_partial",
    "C123_passes_partial",
    "C123_missing_partial"
   ],
   "note": "The code violates the property: a number held in a variable called elements_count is captured by the macro's own variable, and the check then always passes; an expression for p that makes a temporary is evaluated twice and its iterators dangle; the number is evaluated for every element. Holds for objects and arithmetic expressions over other names."
  },
  {
   "property": "C124",
   "status": "partial",
   "theorems": [
    "C124_own_type_partial",
    "C124_other_types_refuted",
    "C124_pointers_refuted"
   ],
   "note": "The code violates the property: for any type of x but T the template for iterators is the better match. A number of another type does not compile, and a pointer that converts to T, like a string literal for Array<std::string>, is read as a sequence, beyond its end if the array is longer. Holds for x of type T."
  },
  {
   "property": "C125",
   "status": "partial",
   "theorems": [
    "C125_range_partial",
    "C125_range_refuted"
   ],
   "note": "The code violates the property for an array whose elements are iterators of the very type of first: _uninitialized_fill(first) is then the function for values, and every element becomes a copy of first. Holds for iterators of all other types."
  },
  {
   "property": "C126",
   "status": "partial",
   "theorems": [
    "C126_elementwise_partial",
    "C126_elementwise2_partial",
    "C126_apply_refuted"
   ],
   "note": "The code violates the property in apply: its loop copies each element into a local variable and calls f with that, so every result that points at its argument dangles, for every list. Holds for elementwise of one and two lists."
  },
  {
   "property": "C127",
   "status": "partial",
   "theorems": [
    "C127_reading_partial",
    "C127_assigning_partial",
    "C127_assigning_refuted",
    "C127_apply_refuted",
    "C127_appending_refuted",
    "C127_removing_even_refuted",
    "C127_removing_odd_refuted"
   ],
   "note": "The code violates the property: with apply a change of size makes behaviour undefined; with elementwise appending makes the loop endless, and removing ends it half way or, from an odd size, misses the end; assignments are seen by later calls. Holds for functions that only read the list; with assignments, both functions go by the current elements."
  },
  {
   "property": "C128",
   "status": "partial",
   "theorems": [
    "C128_append_partial",
    "C128_remove_partial",
    "C128_append_empty_refuted",
    "C128_remove_empty_refuted",
    "C128_ambiguous_refuted",
    "C128_concatenate_partial",
    "C128_adjoin_partial",
    "C128_subset_partial",
    "C128_disjoint_refuted"
   ],
   "note": "The code violates the property: for numbers append({}) appends a zero and remove({}) removes the zero; where a T can be made from the braces by a conversion, the call is ambiguous; disjoint with braces never compiles. Holds for append and remove otherwise, and for concatenate, adjoin and subset always."
  },
  {
   "property": "C129",
   "status": "partial",
   "theorems": [
    "C129_read_back_partial",
    "C129_exactly_refuted",
    "C129_blank_refuted"
   ],
   "note": "The code violates the property for some delimiters: reading skips blanks, so none of the three may be one; a digit is read as part of an item; a separator equal to the closing delimiter, or a closing minus sign before a negative first item, ends the list early. Holds for all other delimiters, and for no list where one of these applies: the condition is exact."
  },
  {
   "property": "C130",
   "status": "partial",
   "theorems": [
    "C130_can_be_built_partial",
    "C130_handle_itself_refuted",
    "C130_nonconst_interface_refuted"
   ],
   "note": "The code violates the property: for a Handle itself the call is ambiguous or does not link, and for a D with a non-const interface it does not compile. It can be built exactly for arguments of classes derived from Handle and a D with const interface."
  },
  {
   "property": "C131",
   "status": "partial",
   "theorems": [
    "C131_can_be_built",
    "C131_reaches_object",
    "C131_const_reference_partial",
    "C131_const_interface_refuted"
   ],
   "note": "Every call can be built, and const handles and temporaries give const references; but a non-const variable of type Handle<const I> gives a reference to non-const."
  },
  {
   "property": "C132",
   "status": "partial",
   "theorems": [
    "C132_nothing_left_partial",
    "C132_defined_partial",
    "C132_text_partial",
    "C132_exception_refuted",
    "C132_first_insertion_refuted"
   ],
   "note": "The code violates the property if std::cerr throws: every exception leaves the strings of backtrace_symbols behind. If the function returns, every block has been freed once; and every use of a string is before its release. The text is that of C71."
  },
  {
   "property": "C133",
   "status": "partial",
   "theorems": [
    "C133_builds_partial",
    "C133_named_partial",
    "C133_test_twice_refuted",
    "C133_binary_word_refuted"
   ],
   "note": "The code violates the property: test.hpp defines variables that are not inline, so two units that include it do not link; binary_word.hpp uses StringType and StringStream, which no header declares. Every other program links."
  },
  {
   "property": "C134",
   "status": "proved",
   "theorems": [
    "C134_object",
    "C134_exists",
    "C134_assignable",
    "C134_assigns",
    "C134_moves",
    "C134_lifetime"
   ],
   "note": ""
  },
  {
   "property": "C135",
   "status": "partial",
   "theorems": [
    "C135_stops_partial",
    "C135_quiet_partial",
    "C135_pair_partial",
    "C135_tuple_refuted",
    "C135_pair_refuted"
   ],
   "note": "The code violates the property: elements assigned before the one that throws keep their new values. What each variable holds afterwards is proved for every order and every element that throws."
  },
  {
   "property": "C136",
   "status": "partial",
   "theorems": [
    "C136_accepted_partial",
    "C136_arguments_partial",
    "C136_parentheses_partial",
    "C136_variadic_partial",
    "C136_template_refuted",
    "C136_braces_refuted",
    "C136_handed_on_refuted"
   ],
   "note": "The code violates the property: commas in angle brackets or braces separate arguments, and some macros hand their arguments on to other macros, where commas of macros in them count. Exactly the accepted calls are characterised; arguments in parentheses are always accepted, and the variadic macros accept everything."
  },
  {
   "property": "C137",
   "status": "partial",
   "theorems": [
    "C137_one_statement_partial",
    "C137_single_partial",
    "C137_else_refuted",
    "C137_guard_refuted",
    "C137_construct_refuted"
   ],
   "note": "The code violates the property: no macro with a semicolon may stand before an else, and of the macros with several statements only the first depends on a condition before them. Holds everywhere else, and for single blocks without the semicolon before an else."
  },
  {
   "property": "C138",
   "status": "partial",
   "theorems": [
    "C138_class_named_partial",
    "C138_nested_refuted",
    "C138_after_refuted",
    "C138_thrown_refuted"
   ],
   "note": "The code violates the property: the name is not restored at the end of HELPER_TEST_CLASS, so a check after the test of another class, in the same test or outside of all tests, is said to belong to the class whose test began last. Holds if no check comes after the test of another class."
  },
  {
   "property": "C139",
   "status": "proved",
   "theorems": [
    "C139_operators",
    "C139_agree"
   ],
   "note": ""
  },
  {
   "property": "C140",
   "status": "partial",
   "theorems": [
    "C140_apply_partial",
    "C140_elementwise_partial",
    "C140_apply_exact_partial",
    "C140_elementwise_exact_partial",
    "C140_name_refuted",
    "C140_mutable_refuted",
    "C140_reference_refuted",
    "C140_temporary_refuted",
    "C140_variable_refuted"
   ],
   "note": "The code violates the property: elementwise takes no function by name and no object whose call operator is not const; neither takes functions that return references or const objects; the type of the results is that for temporaries, though f is called with variables, and apply calls the overload for variables that may be changed. Holds for one function that takes its arguments by value or const reference and returns an object."
  },
  {
   "property": "C141",
   "status": "partial",
   "theorems": [
    "C141_array_partial",
    "C141_shared_partial",
    "C141_overaligned_refuted"
   ],
   "note": "The code violates the property for Array: it calls operator new without the alignment of the type. Holds for types that need no more than the default alignment, and for SharedArray."
  },
  {
   "property": "C142",
   "status": "partial",
   "theorems": [
    "C142_same_partial",
    "C142_function_refuted",
    "C142_adjusted_refuted",
    "C142_void_refuted"
   ],
   "note": "The code violates the property: F(AS...) is the type of a function, which cannot return a function or array, and whose parameters lose const and become pointers; F(void) has no parameters. Holds for all other types."
  },
  {
   "property": "C143",
   "status": "partial",
   "theorems": [
    "C143_not_set_partial",
    "C143_set_refuted",
    "C143_anything_refuted"
   ],
   "note": "The code violates the property with libstdc++, whose high_resolution_clock is the system_clock: any change of the time of day between start and click adds to the duration, which may become anything, also negative. Holds if the time of day is not set, or with libc++, whose high_resolution_clock is the steady_clock."
  },
  {
   "property": "C144",
   "status": "partial",
   "theorems": [
    "C144_value_partial",
    "C144_items_partial",
    "C144_set_partial",
    "C144_lists_refuted",
    "C144_sets_refuted",
    "C144_base_refuted"
   ],
   "note": "The code violates the property: for a vector the overload for sequences is the better match, so that from a Set<List<T>> a std::vector<T> is not removed, but the lists of one of its items are, and for a Set<Set<T>> the call does not compile; and static_cast makes items of a base class, as in Set<String>::remove of a vector of std::string, undefined behaviour. Holds for all other types."
  },
  {
   "property": "C145",
   "status": "partial",
   "theorems": [
    "C145_same_partial",
    "C145_set_partial",
    "C145_lists_refuted"
   ],
   "note": "The code violates the property for the target List<List<T>>: a std::vector<T> becomes a list of one-element lists, a List<T> the only element. Holds for all other targets."
  },
  {
   "property": "C146",
   "status": "partial",
   "theorems": [
    "C146_reported_partial",
    "C146_static_type_refuted",
    "C146_any_stream_partial",
    "C146_never_returns_partial",
    "C146_write_throws_refuted",
    "C146_stream_throws_refuted"
   ],
   "note": "The code violates the property: in place of the static type it always writes the type of a pointer (typeid(i) instead of typeid(BI)); and an exception of _write or of the stream takes the place of std::bad_cast. The rest of the line, silence on success and the exception are as stated, in every state of a stream that does not throw."
  },
  {
   "property": "C147",
   "status": "partial",
   "theorems": [
    "C147_erase_refuted",
    "C147_assign_refuted",
    "C147_values_partial",
    "C147_losses_partial",
    "C147_lossless_partial"
   ],
   "note": "The code violates the property: move assignment forgets the storage of its target, so that erasing an array that is not the last, remove_if followed by erase, and assigning a temporary lose arrays. Exactly the arrays lost are determined for all programs; contents are right. Reallocation of the list and failing allocations are not included."
  },
  {
   "property": "C148",
   "status": "partial",
   "theorems": [
    "C148_sequences_partial",
    "C148_sets_partial",
    "C148_set_refuted",
    "C148_number_refuted",
    "C148_copies_refuted",
    "C148_linked_one_refuted",
    "C148_linked_two_refuted",
    "C148_linked_more_refuted"
   ],
   "note": "The code violates the property: Set<int>{1.5,1.7} is {1} (the constructor template takes members of one type and converts them silently), LinkedList has no constructor from an initializer list, so that LinkedList<int>{3,4} is three times 4, and a number that does not convert to T is a number of elements for List and Array, as for std::vector. For List and Array with members that convert, and Set with members of type T or of several types, it holds."
  },
  {
   "property": "C149",
   "status": "partial",
   "theorems": [
    "C149_disjoint_partial",
    "C149_subset_partial",
    "C149_exact_partial",
    "C149_contains_partial",
    "C149_contains_refuted",
    "C149_join_partial",
    "C149_join_refuted",
    "C149_remove_partial",
    "C149_remove_refuted",
    "C149_catenate_partial",
    "C149_catenate_refuted"
   ],
   "note": "The code violates the property: the functions deduce T from both arguments, so that contains takes only x of type T, join only a Set, remove no element, and catenate no std::vector and nothing that converts. The exact types are determined, and for them the functions do what the members do."
  },
  {
   "property": "C150",
   "status": "partial",
   "theorems": [
    "C150_sequences_partial",
    "C150_sets_partial",
    "C150_implicit_partial",
    "C150_linked_partial",
    "C150_nested_partial",
    "C150_explicit_refuted",
    "C150_linked_refuted",
    "C150_traits_refuted",
    "C150_temporary_refuted",
    "C150_variable_refuted",
    "C150_choice_refuted"
   ],
   "note": "The code violates the property: a Set from a vector and a Map have no explicit conversion, a LinkedList converts implicitly when its elements do so only explicitly, the traits of Array and LinkedList say yes for elements that do not convert, the constraints ask for a conversion from a temporary but the bodies convert a constant, and an implicit conversion of a container uses an explicit one of the elements. For conversions of elements of the usual kinds List, Array and Set from a set are right, nested lists too."
  },
  {
   "property": "C151",
   "status": "partial",
   "theorems": [
    "C151_requirements_refuted",
    "C151_algorithms_refuted",
    "C151_results_partial"
   ],
   "note": "The code violates the property: the iterators have neither it++ nor == nor the types of an iterator, so that no container can be made from a range and only algorithms with a plain loop compile. Those compute the right results when start is at most stop."
  },
  {
   "property": "C152",
   "status": "proved",
   "theorems": [
    "C152_references"
   ],
   "note": "For the programs to which C08 gives a result: not those with a copy assignment or reallocate to another size that fails (C14), nor assign from a range of the array itself to another size (C16). Nothing is claimed for elements of an array to which another one was moved (they are leaked, C09)."
  },
  {
   "property": "C153",
   "status": "proved",
   "theorems": [
    "C153_owns_its_contents",
    "C153_made",
    "C153_same_calls"
   ],
   "note": "For as long as the calls are defined: a put after a failed put into a full cache is not (C06). The values put are the caller's own, not references into the cache (C07)."
  },
  {
   "property": "C154",
   "status": "partial",
   "theorems": [
    "C154_compare",
    "C154_minus_partial",
    "C154_refuted",
    "C154_whatever_compiles"
   ],
   "note": "The comparisons hold, being friends. operator- is a member, so that a const_iterator cannot be subtracted from an iterator; with conversions both ways the comparisons are ambiguous instead (C154_refuted, for every choice of conversions)."
  },
  {
   "property": "C155",
   "status": "proved",
   "theorems": [
    "C155_order_and_grouping",
    "C155_arithmetic_type",
    "C155_closed",
    "C155_room"
   ],
   "note": "Without wchar_t, charN_t and enumerations. An expression without an operator is not promoted (C155_leaf)."
  },
  {
   "property": "C156",
   "status": "partial",
   "theorems": [
    "C156_refuted",
    "C156_agree_partial",
    "C156_one_operator",
    "C156_by_the_rules"
   ],
   "note": "The concepts use lvalues, the types xvalues: they differ for operators that take only one of them, for abstract classes, and for operators that take by value what can only be moved. They agree otherwise."
  },
  {
   "property": "C157",
   "status": "partial",
   "theorems": [
    "C157_refuted",
    "C157_number_refuted",
    "C157_zero_refuted",
    "C157_assign_partial",
    "C157_initialise"
   ],
   "note": "Initialisation agrees. String's own assignment operators hide those of std::string: characters and string_views cannot be assigned, and s=0, an error for std::string, compiles and is undefined."
  },
  {
   "property": "C158",
   "status": "partial",
   "theorems": [
    "C158_numbers",
    "C158_strings_refuted",
    "C158_tidy_partial",
    "C158_followed_partial"
   ],
   "note": "Proved for numbers, truth values and binary words. The code violates the property for strings, which are not quoted: [\"a,b\"] prints as [\"a\",\"b\"], [\"\"] as []. Holds for strings that are not empty and contain no comma, colon, blank or closing bracket."
  },
  {
   "property": "C159",
   "status": "partial",
   "theorems": [
    "C159_every_capacity_refuted",
    "C159_accepted_partial",
    "C159_room_for_one"
   ],
   "note": "The code violates the property for every two capacities from 2 on: put of a label that is there throws and does not make it younger, so the larger cache, which still had the label, may forget it before the smaller one. Holds if the larger cache accepts every put; and, except for the values, if the smaller capacity is 1."
  },
  {
   "property": "C160",
   "status": "proved",
   "theorems": [
    "C160_prefix_first",
    "C160_consecutive",
    "C160_apart",
    "C160_segment"
   ],
   "note": ""
  },
  {
   "property": "C161",
   "status": "proved",
   "theorems": [
    "C161_expressions",
    "C161_backwards",
    "C161_operators"
   ],
   "note": "reverse_iterator is that of libstdc++. The core's dereference returns a reference to something outside the iterator, as the standard requires."
  },
  {
   "property": "C162",
   "status": "partial",
   "theorems": [
    "C162_list",
    "C162_list_sequence",
    "C162_linked_partial",
    "C162_linked_refuted",
    "C162_linked_sequence_refuted",
    "C162_concatenate_refuted"
   ],
   "note": "Holds for List. For LinkedList, append(m) and concatenate(m) never compile, as they use t[i], which std::list does not have; and append(x) for a number x that the class T takes is ambiguous, as x also converts to a LinkedList with x elements."
  },
  {
   "property": "C163",
   "status": "partial",
   "theorems": [
    "C163_compiles_refuted",
    "C163_union_partial",
    "C163_image_partial",
    "C163_image_refuted"
   ],
   "note": "The body adjoins f(x), for which adjoin wants a set: the call compiles exactly if the result type converts implicitly to a std::set of itself, and then returns the union of these sets."
  },
  {
   "property": "C164",
   "status": "partial",
   "theorems": [
    "C164_dereference_partial",
    "C164_elements_partial",
    "C164_dereference_refuted",
    "C164_distance_refuted"
   ],
   "note": "The result type is a pair of pointers to the iterators, so dereference compiles only for iterators whose elements convert to pointers to such iterators; distance_to is declared but not defined. const is not modelled."
  },
  {
   "property": "C165",
   "status": "partial",
   "theorems": [
    "C165_reference_partial",
    "C165_class_partial",
    "C165_const",
    "C165_same_concepts",
    "C165_builtin_refuted",
    "C165_lvalues_refuted",
    "C165_rvalues_refuted"
   ],
   "note": "std::is_assignable<T,F> asks whether an rvalue of type T may be assigned, unless T is a reference: the concepts are false for every number, enumeration and pointer type. Assignment operators that are const or templates are not modelled."
  },
  {
   "property": "C166",
   "status": "partial",
   "theorems": [
    "C166_few_digits_partial",
    "C166_decimals_partial",
    "C166_precision_partial",
    "C166_refuted",
    "C166_range_refuted",
    "C166_nonfinite_refuted"
   ],
   "note": "The precision of the stream, 6 by default, is not set: numbers with more significant digits are changed; infinities and NaN are printed but not read. Negative zero is not modelled."
  },
  {
   "property": "C167",
   "status": "partial",
   "theorems": [
    "C167_numeral_partial",
    "C167_stream_partial",
    "C167_distinct_refuted",
    "C167_nonfinite_refuted",
    "C167_stream_refuted"
   ],
   "note": "to_string uses a new stream, with precision 6, which cannot be changed: the text is the best numeral with 6 digits, within one part in 200000, exact for numbers with at most 6 significant digits; others share their text. Negative zero is not modelled."
  },
  {
   "property": "C168",
   "status": "partial",
   "theorems": [
    "C168_two_sets_partial",
    "C168_from_list_partial",
    "C168_duplicates_partial",
    "C168_programs_partial",
    "C168_list_refuted",
    "C168_overloads_refuted"
   ],
   "note": "intersection(s,l) takes the elements of the list, its second argument, unlike intersection of two sets. The rest holds."
  },
  {
   "property": "C169",
   "status": "partial",
   "theorems": [
    "C169_addresses_partial",
    "C169_distinct_partial",
    "C169_characters_refuted",
    "C169_end_refuted",
    "C169_volatile_refuted"
   ],
   "note": "Holds for pointers to objects other than characters, which print their addresses. A pointer to characters prints these up to the next NUL, which is undefined if there is none, and a pointer to volatile objects prints 1. Null pointers to characters, stream flags other than the default and iterators of class types are not modelled."
  }
 ]
}