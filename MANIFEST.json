{"claims": [
{"property": "C01", "status": "proved", "theorems": ["C01_sort_ordered_permutation"], "note": "sort! on simple vectors, every strict weak ordering, stable or not; result is a normal return."},
{"property": "C02", "status": "proved", "theorems": ["C02_stable_sort"], "note": "Every strict weak ordering; equivalent elements keep their relative order."},
{"property": "C03", "status": "proved", "theorems": ["C03_quick_sort_stays_in_range", "C03_nonstrict_test_refuted", "C03_bad_range_signals"], "note": "Every sub-range. The claim needs a strict test: C03_nonstrict_test_refuted shows the unchecked scan leaving the vector with <=."},
{"property": "C04", "status": "proved", "theorems": ["C04_deque_refines_sequence", "C04_backward_iteration_refuted"], "note": "Every history incl. copy-sequence, as(<list>), forward iteration. Backward iteration violates the claim: C04_backward_iteration_refuted."},
{"property": "C05", "status": "proved", "theorems": ["C05_deque_storage", "C05_backward_iteration_refuted"], "note": "No operation history leaves the slots (outcome UB excluded by C04). Backward iteration does: C05_backward_iteration_refuted."},
{"property": "C06", "status": "partial", "theorems": ["C06_table_is_finite_map", "C06_default_growth", "C06_map_laws", "C06_failed_growth_refuted"], "note": "Refinement of a finite map for every history (all operations, any number of live iterations, growth, in-place and copying rehash, the collector moving objects at any allowed point) on strong tables, single thread. The claim fails when growth fails: C06_failed_growth_refuted."},
{"property": "C07", "status": "partial", "theorems": ["C07_probe_visits_every_slot", "C07_free_slot", "C07_weak_refuted"], "note": "Probe covers every slot for every size of the list and every hash; a strong table always has an empty slot. Refuted for weak tables: C07_weak_refuted (the collector's own deletions are counted nowhere the fullness test looks)."},
{"property": "C08", "status": "proved", "theorems": ["C08_each_entry_once", "C08_only_entries", "C08_unmodified", "C08_stored_again_refuted"], "note": "Unmodified iteration yields the map's entries once each; also under arbitrary modification for entries that stay. C08_stored_again_refuted records what is not promised."},
{"property": "C09", "status": "proved", "theorems": ["C09_strings", "C09_case_insensitive", "C09_symbols", "C09_string_tables", "C09_collection_order", "C09_objects"], "note": "String, case-insensitive-string and symbol tables: test is equality (up to case), equal keys have equal in-range codes, and the protocol meets the table contract; unordered collection hash is independent of order; value-hashed objects have in-range codes. Address-based object hashing is covered by the abstract contract of C06."},
{"property": "C10", "status": "partial", "theorems": ["C10_interned_partial", "C10_null_refuted"], "note": "Proved for every history of requests by name, with library initialisation and literal loading at any point. Missing: removal of unreferenced symbols by the collector is not modelled; C10_null_refuted shows that before initialisation names are compared only up to a null character."},
{"property": "C11", "status": "partial", "theorems": ["C11_make_unbounded", "C11_make_size", "C11_make_to_partial", "C11_make_to_size_partial", "C11_make_below_partial", "C11_make_above_partial", "C11_make_constant", "C11_make_below_refuted", "C11_make_inverted_refuted", "C11_make_to_below_refuted", "C11_element", "C11_element_negative_refuted", "C11_size", "C11_empty", "C11_last", "C11_find_key", "C11_member", "C11_forward_iteration", "C11_backward_iteration", "C11_reverse", "C11_copy_partial", "C11_copy_constant_partial", "C11_copy_infinite", "C11_copy_end_refuted", "C11_shallow_copy", "C11_equal_sound", "C11_equal_complete_partial", "C11_equal_refuted", "C11_add", "C11_add_infinite", "C11_remove_partial", "C11_remove_constant_partial", "C11_remove_middle_refuted", "C11_remove_absent_refuted", "C11_remove_all_refuted"], "note": "Proved for every range object: element, size, empty?, last, find-key, member?, iteration both ways, reverse, shallow-copy, add!, equality soundness. make is proved for no bound, size:, to: not more than a step before the start, below:/above: a whole number of steps away, and by: 0. Refuted by witness: below: 10 by: 3 misses 9; range(from: 10, to: 0) has size -9; to: is ignored when below: is later; negative keys into infinite ranges; copy-sequence at the end; = of one-element ranges; three remove! defects. copy-sequence with start inside the range."},
{"property": "C12", "status": "partial", "theorems": ["C12_intersection_partial", "C12_intersection_downward_refuted"], "note": "Proved for every pair of ranges except two unending downward ranges with different steps, where the code is wrong (C12_intersection_downward_refuted)."},
{"property": "C13", "status": "partial", "theorems": ["C13_floor", "C13_ceiling", "C13_truncate", "C13_overflow_only_at_minimum", "C13_modulo_remainder", "C13_round_refuted", "C13_round_partial"], "note": "floor/, ceiling/, truncate/, modulo and remainder are proved for all arguments; round/ is refuted for odd divisors (round/(3,1) gives 4) and proved in all other cases"},
{"property": "C14", "status": "partial", "theorems": ["C14_exact_or_overflow", "C14_range", "C14_ash", "C14_ash_minimum_refuted", "C14_comparison", "C14_bitwise", "C14_bit_access", "C14_bit_fields", "C14_bit_field_deposit_wide_refuted", "C14_logbit_beyond_refuted", "C14_lsh"], "note": "+, -, *, negative, abs, comparisons, logical operations, bit fields and shifts proved exact or overflow; the excluded corners (shift by $minimum-integer, bit index beyond the word, over-wide field) are refuted"},
{"property": "C15", "status": "partial", "theorems": ["C15_power_partial", "C15_power_minimum_refuted", "C15_negative_power", "C15_gcd_partial", "C15_gcd_refuted", "C15_lcm_partial", "C15_lcm_refuted"], "note": "^ exact or overflow except when the base or result is $minimum-integer; gcd and lcm for non-negative (and most negative) arguments; negative results refuted with witnesses"},
{"property": "C16", "status": "proved", "theorems": ["C16_print", "C16_width", "C16_parse", "C16_parse_none", "C16_round_trip", "C16_fill_refuted"], "note": "Exact shape of the printed string, exact result of parsing (value, next key, overflow, no digits), round trip for every <integer>, base, width and case. With a fill character other than 0 the round trip fails (C16_fill_refuted), which is outside the property. The string buffer is a list."},
{"property": "C17", "status": "proved", "theorems": ["C17_history", "C17_empty_bang_refuted", "C17_element_infinite_refuted"], "note": "Proved for every history in which no vector of 62 or 63 bits is filled; two refutations: empty-bit-set! on such a vector signals an overflow, element on an infinite set signals a type error."},
{"property": "C18", "status": "partial", "theorems": ["C18_forward_finite", "C18_iteration_aligned_partial", "C18_backward_partial", "C18_forward_infinite_refuted", "C18_backward_refuted"], "note": "Forward iteration of every finite set proved; infinite sets and backward iteration proved for word-aligned sizes; refuted otherwise, with witnesses."},
{"property": "C19", "status": "partial", "theorems": ["C19_and_pointwise", "C19_andc2_pointwise", "C19_or_pointwise", "C19_xor_pointwise", "C19_and_bang_pointwise", "C19_andc2_bang_pointwise", "C19_or_bang_pointwise", "C19_xor_bang_pointwise", "C19_not_pointwise", "C19_not_bang_pointwise", "C19_make", "C19_make_copy_from", "C19_element", "C19_element_setter", "C19_bit_count", "C19_fill_partial", "C19_fill_refuted"], "note": "All pointwise operations, element, element-setter, bit-count, make proved; fill! proved outside the offsets 62 and 63 of a word, where it is refuted."},
{"property": "C20", "status": "partial", "theorems": ["C20_instance", "C20_subtype_sound_partial", "C20_singleton_complete", "C20_class_complete", "C20_subclass_class_refuted", "C20_inverted_bounds_refuted"], "note": "Proved for all types of the modelled grammar (classes, singletons, unions, limited integers, subclass types) whose right side has no subclass(<class>) and whose limited integers are not inverted; both exclusions are refuted by witnesses. instance? is characterized exactly. Limited collections and functions are not modelled."},
{"property": "C21", "status": "partial", "theorems": ["C21_reflexive_partial", "C21_transitive_partial", "C21_union_partial", "C21_reflexive_refuted", "C21_nan_refuted", "C21_transitive_refuted", "C21_transitive_class_refuted"], "note": "Reflexive for types without NaN or content-equal singletons that do not mix limited integers with subclass types; transitive under the same conditions without subclass(<class>); the exclusions are refuted by witnesses. Unions are least upper bounds."},
{"property": "C22", "status": "partial", "theorems": ["C22_classes_sound_partial", "C22_runtime_class_refuted", "C22_disjoint_sound_partial", "C22_singletons_refuted"], "note": "disjoint-types? is sound for all modelled types in worlds whose classes come from library loads and whose singletons are of objects on which = and == agree; run-time classes and content-equal singletons are refuted by witnesses."},
{"property": "C23", "status": "proved", "theorems": ["C23_cpl_is_linearization", "C23_monotone", "C23_new_class", "C23_inconsistent_iff"], "note": "For every history of library loads and run-time class creations."},
{"property": "C24", "status": "partial", "theorems": ["C24_subclass_partial", "C24_subclass_cpl_partial", "C24_subclass_not_object", "C24_instance_partial", "C24_empty_superclasses_refuted", "C24_primaries_related", "C24_positions_multiple_partial", "C24_positions_multiple_refuted"], "note": "Exact for every history in which each class has a direct superclass, and for every second argument but <object> in any history; refuted for make(<class>, superclasses: #()), and adding several positions at once overruns its vector when the first position is among them."},
{"property": "C25", "status": "proved", "theorems": ["C25_make", "C25_day_number", "C25_one_to_one", "C25_calendar_order", "C25_universal", "C25_day_of_week_epoch", "C25_day_of_week_next", "C25_zone", "C25_from_day_number"], "note": "Fields are mathematical integers (no <integer> overflow) and the operating system clock is not modelled. The remembered universal slots are recomputed; C25_zone shows that the one exported setter keeps them right."},
{"property": "C26", "status": "partial", "theorems": ["C26_add", "C26_subtract", "C26_add_subtract", "C26_subtract_add", "C26_difference", "C26_add_difference", "C26_order_partial", "C26_order_same_microseconds", "C26_microseconds_refuted", "C26_add_difference_equal_refuted", "C26_add_months"], "note": "Refuted in full: = and < on dates ignore microseconds (C26_microseconds_refuted), and (d + x) - d need not be = to x although it has its length (C26_add_difference_equal_refuted). (d + x) - x = d holds whenever the intermediate date is in the range of years that make accepts; outside it the second operation signals."},
{"property": "C27", "status": "proved", "theorems": ["C27_print", "C27_parse", "C27_strict", "C27_round_trip", "C27_microseconds"], "note": "Strings are lists of character codes and streams are the text read or written."},
{"property": "C28", "status": "partial", "theorems": ["C28_print", "C28_fields_partial", "C28_round_trip_partial", "C28_zone_first_partial", "C28_zone_last_refuted", "C28_negative_zone_refuted", "C28_directives_refuted", "C28_print_names", "C28_rfc"], "note": "Proved for formats made of %Y %m %b %d %e %H %k %M %S %n %% and literals when the zone is not printed or is printed before the fields and is not a negative number of minutes with a broken hour. Refuted otherwise: a zone printed last shifts the fields, negative zones with minutes are misread, %B fails near the end of the text, %T is not read, %y is ambiguous."},
{"property": "C29", "status": "partial", "theorems": ["C29_make", "C29_add", "C29_subtract", "C29_multiply", "C29_year_month", "C29_decode", "C29_canonical_partial", "C29_order_partial", "C29_equal_refuted", "C29_less_refuted", "C29_divide_refuted"], "note": "Refuted in full: a duration with zero seconds and days and microseconds of opposite signs is left as it is, so = and < fail on it (C29_equal_refuted, C29_less_refuted); / by an integer rounds every field separately (C29_divide_refuted). Multiplication by non-integers is not modelled."},
{"property": "C30", "status": "partial", "theorems": ["C30_directory_round_trip", "C30_file_round_trip_partial", "C30_file_round_trip_refuted", "C30_directory_string", "C30_file_string", "C30_directory_components", "C30_file_components", "C30_directory_string_identity", "C30_any_string", "C30_make_canonical"], "note": "Directory locators: full round trip for legal names; every string is stable under read-print-read (directory, file, either kind). File locators whose base or extension contains a dot do not round-trip (refuted)."},
{"property": "C31", "status": "partial", "theorems": ["C31_directory", "C31_file", "C31_no_self_refuted", "C31_relative_canonical", "C31_absolute_canonical_refuted"], "note": "Same place, idempotent, parents only in front: proved for every locator made by make. \"No self parts\" is false for a relative locator of the working directory (refuted), and \"/../\" is not simplified to \"/\" (refuted canonical form); canonical form proved for relative locators."},
{"property": "C32", "status": "partial", "theorems": ["C32_merge_meaning", "C32_merge_file_meaning", "C32_directory_partial", "C32_file_partial", "C32_merge_with_file", "C32_relative_to_file_partial", "C32_absolute_from_relative", "C32_self_refuted", "C32_parent_refuted", "C32_mixed_refuted", "C32_plain_file_refuted"], "note": "merge-locators meaning proved in general; the inverse law proved when both locators are absolute or both relative and from has only names beyond a common prefix; refuted for \".\", \"..\", mixed and directory-less files."},
{"property": "C33", "status": "partial", "theorems": ["C33_demangle_mangle", "C33_mangle_name_injective", "C33_mangled_text_is_c_identifier", "C33_local_names", "C33_hygienic_names", "C33_binding_injective", "C33_binding_round_trip_partial", "C33_binding_round_trip_hash_refuted", "C33_binding_uppercase_refuted", "C33_method_injective", "C33_method_to_generic", "C33_method_details_partial", "C33_method_details_refuted", "C33_mangle_integer_injective"], "note": "Names: every byte string. Bindings: injective for lower-case module/library names; round trip for names without '#'. The '#' and upper-case cases are refuted; extracting a method's library demangles it twice (refuted for my_lib)."},
{"property": "C34", "status": "partial", "theorems": ["C34_dylan_demangle_safe_partial", "C34_overflow_refuted", "C34_overflow_every_size_refuted", "C34_overread_refuted", "C34_signed_char_refuted", "C34_demangles_entry_points"], "note": "Proved for ASCII text not ending in a bare K, with no method mark or a large buffer. The unrestricted claim is false: one-byte overflow at a method mark for every buffer size, over-read on KK, table under-read on negative chars."},
{"property": "C35", "status": "proved", "theorems": ["C35_split_sequence", "C35_split_object", "C35_default_count", "C35_default_count_object", "C35_count", "C35_join_split", "C35_join_split_object", "C35_split_join", "C35_remove_empty", "C35_remove_empty_count", "C35_join", "C35_join_conjunction", "C35_bounds", "C35_bounds_object", "C35_empty_separator"], "note": "split on a sequence, on an object, with any test, bounds and count; join with and without conjunction; positions unbounded; result classes not modelled."},
{"property": "C36", "status": "partial", "theorems": ["C36_exclusion", "C36_no_errors", "C36_owned", "C36_owned_for_reading_partial", "C36_owned_for_reading_refuted", "C36_undisciplined_refuted"], "note": "Proved for every schedule of disciplined programs: exclusion, no errors, owned? exact, owned-for-reading? true for readers. Refuted: owned-for-reading? is true for threads that hold nothing, and release does not check ownership of a read hold, so a thread that releases what it does not hold breaks exclusion."},
{"property": "C37", "status": "partial", "theorems": ["C37_simple_exclusive", "C37_simple_results", "C37_notification", "C37_notification_sleeps", "C37_owned_partial", "C37_owned_notification_refuted", "C37_owned_release_refuted", "C37_recursive_exclusive", "C37_recursive_balanced", "C37_recursive_results", "C37_recursive_owned_refuted", "C37_semaphore_grants", "C37_semaphore_exact", "C37_emulated_grants", "C37_emulated_max", "C37_semaphore_max_refuted", "C37_emulated_deadlock_refuted"], "note": "Proved for every schedule: simple and recursive locks are exclusive and balanced, results of all calls, notification waits return with the lock, semaphores never over-grant, emulated count within its maximum. Refuted: owned? after a notification wait or a foreign release, recursive owned? for a non-holder, maximum of POSIX semaphores not enforced, emulated semaphore deadlocks after a refused release."},
{"property": "C38", "status": "partial", "theorems": ["C38_size", "C38_make", "C38_element", "C38_element_setter", "C38_member", "C38_add_new", "C38_remove", "C38_remove_bang", "C38_remove_negative", "C38_add", "C38_remove_duplicates", "C38_remove_duplicates_set", "C38_last", "C38_reverse", "C38_copy_sequence", "C38_concatenate", "C38_map_reduce", "C38_current_key", "C38_equal", "C38_replace_subsequence_partial", "C38_replace_past_end_refuted", "C38_replace_bounds_refuted", "C38_replace_self_refuted"], "note": "All list operations proved for every heap, sharing included; refuted for replace-subsequence! outside its bounds (corrupts the shared empty list), with end before start, and with the list inserted into itself (both never return). Threads changing a list during an operation are not modelled."},
{"property": "C39", "status": "proved", "theorems": ["C39_stretchy_refines_sequence", "C39_limited_stretchy_refines_sequence", "C39_spare_capacity_fill_refuted", "C39_add_type_error_refuted"], "note": "Every history on object vectors, and on limited ones whose fill is of the element type. Refuted cases: spare capacity keeps the make fill; add! of a wrong object grows the vector."},
{"property": "C40", "status": "partial", "theorems": ["C40_file_input", "C40_file_output_partial", "C40_file_force_partial", "C40_file_input_output_partial", "C40_file_written", "C40_file_reads", "C40_file_read_back", "C40_file_overrun_refuted", "C40_file_read_after_write_refuted", "C40_file_early_end_refuted", "C40_file_set_position_refuted", "C40_file_short_read_refuted", "C40_file_force_read_refuted", "C40_file_force_refuted", "C40_file_extend_refuted", "C40_sequence_stream_partial", "C40_written", "C40_read_back", "C40_reads", "C40_closed", "C40_position_start_refuted", "C40_position_end_refuted", "C40_position_beyond_refuted", "C40_read_into_refuted", "C40_adjust_beyond_refuted", "C40_gap_refuted", "C40_contents_input_refuted", "C40_unread_start_refuted"], "note": "sequence streams: every history of documented calls answers as the documentation says (contents and a position); written data comes back, reads are consecutive; eight deviations from the documentation refuted. Buffered file streams: input streams for every history, buffer size and short read; output streams for every history (missing: writing after force-output before the end, refuted), file contents after close and force-output, read back through another buffer size; input-output streams for every history while the file is smaller than the buffer and reads are complete; beyond that refuted in six ways"},
{"property": "C41", "status": "partial", "theorems": ["C41_exits_partial", "C41_tidy_exits_partial", "C41_cleanups_once_in_order", "C41_cleanups_after_return", "C41_cleanups_inside_only", "C41_exit_in_cleanup_refuted", "C41_exit_in_cleanup_crash_refuted", "C41_cleanup_twice_refuted", "C41_abandoned_values_refuted", "C41_dead_exit_refuted"], "note": "The C run-time's frame chain with setjmp and longjmp as a machine; programs are higher-order trees of blocks, exits and cleanup clauses. All programs whose cleanup clauses make no exits, and many more, run as the language says. Refuted: an exit that ends inside a cleanup clause run by another exit cancels the latter; a cleanup clause that exits after its body has returned runs twice; an abandoned exit can change the values of one under way; a dead exit procedure is undefined behaviour. Not modelled: exits compiled to gotos, the LLVM back end's unwinder."},
{"property": "C42", "status": "partial", "theorems": ["C42_one_representation", "C42_every_number", "C42_equal", "C42_less", "C42_predicates", "C42_add", "C42_add_returns_partial", "C42_add_overflow", "C42_add_refuted", "C42_subtract", "C42_subtract_returns_partial", "C42_subtract_overflow", "C42_subtract_refuted", "C42_multiply_partial", "C42_multiply_integers", "C42_multiply_refuted", "C42_negative", "C42_abs", "C42_shift_left", "C42_shift_right", "C42_shift_right_refuted", "C42_logical_shift_left", "C42_logical_shift_right", "C42_logical", "C42_logbit", "C42_integer_length_partial", "C42_integer_length_refuted", "C42_divide_positive_partial", "C42_floor_ceiling_partial", "C42_divide_refuted", "C42_divide_by_double_partial", "C42_divide_by_double_refuted", "C42_remainders_partial", "C42_power_partial", "C42_power_refuted", "C42_gcd_partial", "C42_gcd_refuted", "C42_print_partial", "C42_print_refuted", "C42_word", "C42_c_unsigned_word_refuted"], "note": "Representation, comparison, predicates, bitwise operations, negation, shifts (short of the shift by the least integer) are exact, and every sum or difference returned is right. Refuted: spurious overflow of add/subtract near the limits, products beyond 128 bits returned wrong and 0 times a negative number overflowing, division and printing of some negative numbers, integer-length above 64 bits, gcd with zero or equal negative arguments, unsigned words in the C run-time. double/double division and round/ are not implemented in the library."},
{"property": "C43", "status": "partial", "theorems": ["C43_sorted_methods", "C43_first_most_specific", "C43_sorted_order_independent", "C43_terminal", "C43_dispatch_partial", "C43_applicable_partial", "C43_cache_transparent_partial", "C43_nested_limited_integers_refuted", "C43_singleton_and_limited_refuted", "C43_subclass_in_union_refuted", "C43_content_singleton_refuted", "C43_ambiguous_called_silently_refuted", "C43_method_dropped_refuted", "C43_redefinition_refuted"], "note": "sorted-applicable-methods, the choice of the method at a terminal, and the dispatch cache over all histories of definitions and calls are proved for plain specializers; refuted: nested limited integers, singletons with limited integers, subclass types in unions, content-equal singletons, silent ambiguous calls, dropped methods, redefinition beside unions; not modelled: sealed domains, profiling, removal of methods, the hash tables inside class-keyed discriminators"},
{"property": "C44", "status": "partial", "theorems": ["C44_deque_element_type", "C44_deque_make_fill_refuted", "C44_stretchy_element_type_refuted"], "note": "Proved for deques whose make fill is of the element type; refuted for deque make fill and for stretchy vector size-setter."},
{"property": "C45", "status": "partial", "theorems": ["C45_subdirectory", "C45_file", "C45_file_deep", "C45_parent", "C45_parent_name_refuted", "C45_make_child_refuted"], "note": "Proved for subdirectory-locator, file-locator and locator-directory/locator-name; make with directory:/name: forgets that the directory is relative (refuted); the name of a directory ending in \"..\" is a type error (refuted)."},
{"property": "C46", "status": "partial", "theorems": ["C46_no_lost_wakeup", "C46_emulated_semaphore_refuted", "C46_semaphore"], "note": "Proved for read-write locks and POSIX semaphores. Refuted for the emulation of semaphores: a timed wait may consume the signal."},
{"property": "C47", "status": "partial", "theorems": ["C47_do", "C47_reduce", "C47_reduce1", "C47_any", "C47_every", "C47_member", "C47_size", "C47_find_key", "C47_infinite_range_refuted"], "note": "Every function over every mixture of vectors, strings, stretchy vectors, deques, lists, ranges and tables is proved to look at exactly the common keys, once each, in key order when a sequence takes part. An infinite range together with several tables without a common key is never done (C47_infinite_range_refuted), so the end of the iteration is proved for the other mixtures only. Functions passed are pure."},
{"property": "C48", "status": "partial", "theorems": ["C48_map_into_partial", "C48_list_from_table_refuted", "C48_list_from_string_refuted", "C48_deque_from_longer_vector_refuted", "C48_deque_from_tables_refuted"], "note": "Proved for every target except the cases that fail in the code: a list from a string or from a source that is not a sequence, and a deque that has to grow from anything but one list, range or table. The target may be one of the sources, the heap is otherwise unchanged, and all applicable methods are covered where dispatch is ambiguous. The failing cases have refutations. Not modelled: limited collections, arrays of several dimensions, user-defined collection classes."},
{"property": "C49", "status": "proved", "theorems": ["C49_map_as", "C49_map", "C49_infinite", "C49_sequences"], "note": "All built-in result types and sources over which iteration ends; functions with side effects of their own."},
{"property": "C50", "status": "partial", "theorems": ["C50_equal_partial", "C50_equivalence_partial", "C50_list_table", "C50_list_table_refuted", "C50_ranges_refuted"], "note": "Proved for all pairs of built-in classes except two kinds, for which it is refuted: a list and a table with another key test than == (the key test is ignored), and two ranges of one element with different steps (the step is compared). Dotted lists and multi-dimensional arrays are not modelled."},
{"property": "C51", "status": "partial", "theorems": ["C51_position_partial", "C51_unique", "C51_empty_pattern_refuted", "C51_count_refuted"], "note": "Proved for all pairs of built-in sequences, tests and counts from 1 on, except an empty pattern with a count beyond the number of positions; that case and counts below 1 are refuted."},
{"property": "C52", "status": "partial", "theorems": ["C52_copy_sequence", "C52_fill", "C52_replace_subsequence", "C52_replace_bounds", "C52_deque_bounds_refuted", "C52_deque_itself_refuted"], "note": "Proved for vectors, strings, stretchy vectors and deques (fill! also for lists), all contents and bounds. Refuted: inserting a deque into itself, and bounds outside of a deque, which replace-subsequence! does not check."},
{"property": "C53", "status": "proved", "theorems": ["C53_precedence", "C53_unique"], "note": ""},
{"property": "C54", "status": "proved", "theorems": ["C54_answers", "C54_located", "C54_order", "C54_table"], "note": "The whole transition table and its interpreter are modelled (the table is generated from the source text). Recovery after an error and hash literals are not modelled."},
{"property": "C55", "status": "proved", "theorems": ["C55_integer"], "note": "For every literal and every text around it; the range of representable integers is a parameter (min = -max-1)."},
{"property": "C56", "status": "partial", "theorems": ["C56_skipped_partial", "C56_only_blanks_partial", "C56_unterminated", "C56_tight_close_refuted", "C56_early_close_refuted", "C56_last_line_refuted"], "note": "Proved for texts of legal characters that end in an end of line and in which no comment bracket is closed right before a slash or a star. Refuted otherwise: C56_tight_close_refuted and C56_early_close_refuted (after an inner */ the next character is not looked at), C56_last_line_refuted (a // comment on a last line without an end of line is read as tokens)."},
{"property": "C57", "status": "proved", "theorems": ["C57_multi_line_string", "C57_multi_line_symbol", "C57_multi_line_raw", "C57_multi_quoted_string", "C57_multi_quoted_symbol", "C57_multi_quoted_raw", "C57_string", "C57_symbol", "C57_raw", "C57_character", "C57_expressible"], "note": "One-line strings, quoted symbols, raw strings and character literals, and strings, symbols and raw strings between three or more quotes (on one line or several), in any context and of any length."},
{"property": "C58", "status": "partial", "theorems": ["C58_float_partial", "C58_long_refuted", "C58_small_refuted", "C58_no_digit_refuted", "C58_underscore_refuted"], "note": "The decimal number that atof computes with is proved exact (up to 18 digits) or close; the rounding to binary floating point is not modelled. Refuted for long numbers with negative exponents, leading zeros, a sign and point alone, and underscores in fractions."},
{"property": "C59", "status": "partial", "theorems": ["C59_choose", "C59_choose_by", "C59_remove", "C59_remove_duplicates", "C59_remove_duplicates_first", "C59_member_partial", "C59_member_string_refuted", "C59_intersection_partial", "C59_union_partial", "C59_intersection_string_refuted"], "note": "member?, and intersection and union through it, only for symmetric tests when the sequence searched is a string: member? on a byte string swaps the arguments of the test (refuted). Functions passed have no side effects."},
{"property": "C60", "status": "proved", "theorems": ["C60_add", "C60_add_new", "C60_reverse", "C60_reverse_sequence", "C60_last", "C60_concatenate_as", "C60_concatenate"], "note": ""},
{"property": "C61", "status": "partial", "theorems": ["C61_format", "C61_incomplete", "C61_unknown", "C61_wrong_argument", "C61_missing_arguments", "C61_terminates", "C61_zero_width_refuted", "C61_dash_refuted", "C61_simple_format"], "note": "Proved for all well-formed control strings and for all control strings of common-dylan; a width of 0 and a minus sign inside a width violate the documented behaviour (refuted with witnesses)."},
{"property": "C62", "status": "partial", "theorems": ["C62_sequence", "C62_range", "C62_bad_range", "C62_seed", "C62_fair", "C62_bits", "C62_coin", "C62_every_value_refuted"], "note": "All parts proved but the last: on 64-bit platforms most numbers below a large range can never occur (refuted with a witness)."},
{"property": "C63", "status": "partial", "theorems": ["C63_fill_partial", "C63_fill_error", "C63_fill_refuted", "C63_fill_overrun_refuted", "C63_copy", "C63_copy_error", "C63_copy_overlap_refuted", "C63_copy_general", "C63_copy_smear_refuted", "C63_hexstring", "C63_from_hexstring", "C63_roundtrip", "C63_odd", "C63_never_ub", "C63_not_hex_refuted"], "note": "fill with an end short of the size, copies that do not overlap, hexadecimal strings proved; refuted: fill changes the byte at end and overruns with the default end, overlapping copies, strings that are not hexadecimal are accepted"},
{"property": "C64", "status": "partial", "theorems": ["C64_get_list", "C64_get_vector", "C64_put_list", "C64_put_vector", "C64_put_get_list", "C64_put_get_vector", "C64_remove_list", "C64_remove_vector", "C64_remove_partial", "C64_unique", "C64_remove_get", "C64_remove_refuted", "C64_sequences_list", "C64_sequences_vector", "C64_remove_keywords", "C64_odd_vector", "C64_odd_list_refuted", "C64_concatenate"], "note": "all proved for lists and vectors except: remove-property! only if the indicator is not repeated (refuted otherwise: a list keeps the second pair, a vector returns the last value); lists of odd size are not refused (refuted: put-property! sets the head of the empty list)"},
{"property": "C65", "status": "partial", "theorems": ["C65_positions_spec", "C65_make", "C65_make_too_large", "C65_make_size", "C65_row_major_index", "C65_history", "C65_out_of_range", "C65_shallow_copy", "C65_dimension", "C65_shallow_copy_empty_refuted", "C65_rank_zero_refuted", "C65_negative_dimensions_refuted"], "note": "Proved for dimensions that are non-negative and at least one in number, over all histories of aref-setter, element-setter and fill!. Refuted: shallow-copy of an empty array is an error, an array of rank 0 has no element and aref reads outside of it, negative dimensions are accepted and lead to unchecked accesses. Not modelled: limited arrays, copy-sequence."},
{"property": "C66", "status": "partial", "theorems": ["C66_integer_length", "C66_fields_spec", "C66_classify_single", "C66_classify_double_partial", "C66_classify_nan_refuted", "C66_decode_single", "C66_decode_double", "C66_one", "C66_precision_single_partial", "C66_precision_double_partial", "C66_precision_refuted", "C66_scale_exact_partial", "C66_decode_scale", "C66_scale_overflow", "C66_scale_zero_partial", "C66_scale_total", "C66_scale_zero_refuted", "C66_scale_subnormal_refuted", "C66_scale_infinite_refuted", "C66_scale_underflow"], "note": "integer-length, decode-float and classification of singles proved in full; scale-float proved exact for normal arguments, and for subnormal ones up to the largest exponent, and correctly rounded for all finite arguments when the result underflows. Refuted: NaNs with fraction bits only in the low word are classified infinite; float-precision of floats with exponent field 1; scale-float of zero (NaN) and subnormals (infinity) with large scales, of infinities and NaNs."},
{"property": "C67", "status": "partial", "theorems": ["C67_history", "C67_others", "C67_push", "C67_pop", "C67_make_copy", "C67_as_list", "C67_append_partial", "C67_concatenate_partial", "C67_append_self_refuted", "C67_append_shared_refuted", "C67_size", "C67_element_partial", "C67_element_refuted", "C67_element_setter_partial", "C67_element_setter_refuted", "C67_last", "C67_keyed_partial", "C67_current_key_refuted", "C67_copy_state_refuted"], "note": "append! and concatenate! for arguments that share no pairs; element and element-setter except at the index that is the size when it is 3 or more, where they are refuted, as are append! of a t-list to itself, independence after append!, repeated current-key and copy-state"},
{"property": "C68", "status": "partial", "theorems": ["C68_list", "C68_snapshot_refuted", "C68_stretchy", "C68_number"], "note": "proved for list, stretchy and number collectors; the deque collector and the conversion to other classes are covered by C04 and C47 only; refuted that a collection is a snapshot"},
{"property": "C69", "status": "proved", "theorems": ["C69_tokenize"], "note": "all strings and delimiters"},
{"property": "C70", "status": "partial", "theorems": ["C70_position_list", "C70_position_start_refuted", "C70_position_skip", "C70_position_vector", "C70_position_end_refuted", "C70_position_agree", "C70_find_key", "C70_find_element", "C70_fill_table", "C70_fill_table_refuted", "C70_difference_partial"], "note": "position on lists and vectors, find-key and find-element on sequences, fill-table! and difference are proved; difference with a string as second sequence only for symmetric tests. Refuted with witnesses: negative start, end behind the end of a vector, #f as a key of fill-table!."},
{"property": "C71", "status": "proved", "theorems": ["C71_worklist", "C71_states", "C71_glob", "C71_automaton"], "note": "For all patterns, expressions, strings and orders in which transitions are gone through. The hash function of the table of states is not modelled."},
{"property": "C72", "status": "proved", "theorems": ["C72_written", "C72_returns"], "note": "the cache of parsed expressions is not modelled"}
]}
