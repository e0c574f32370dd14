{
 "claims": [
  {
   "property": "C01",
   "status": "proved",
   "theorems": [
    "C01_unescape_escape"
   ],
   "note": ""
  },
  {
   "property": "C02",
   "status": "proved",
   "theorems": [
    "C02_escape_printable",
    "C02_escape_quotes_escaped",
    "C02_escape_injective",
    "C02_delete_finding"
   ],
   "note": "C02_delete_finding: the documentation promises that all non-printable characters are escaped; DEL (0x7f) is left as it is."
  },
  {
   "property": "C03",
   "status": "proved",
   "theorems": [
    "C03_unescape_spec",
    "C03_unescape_no_backslash"
   ],
   "note": ""
  },
  {
   "property": "C04",
   "status": "proved",
   "theorems": [
    "C04_join_split",
    "C04_join_spec"
   ],
   "note": ""
  },
  {
   "property": "C05",
   "status": "proved",
   "theorems": [
    "C05_split_leftmost",
    "C05_split_no_delimiter",
    "C05_split_empty_delimiter"
   ],
   "note": ""
  },
  {
   "property": "C06",
   "status": "proved",
   "theorems": [
    "C06_split_join"
   ],
   "note": ""
  },
  {
   "property": "C07",
   "status": "proved",
   "theorems": [
    "C07_tokenize_runs",
    "C07_tokenize_tokens",
    "C07_tokenize_spec",
    "C07_tokenize_extra_delimiters"
   ],
   "note": ""
  },
  {
   "property": "C08",
   "status": "proved",
   "theorems": [
    "C08_trim_spec",
    "C08_trim_left_spec",
    "C08_trim_right_spec",
    "C08_trim_total",
    "C08_trim_idempotent",
    "C08_default_whitespace"
   ],
   "note": ""
  },
  {
   "property": "C09",
   "status": "proved",
   "theorems": [
    "C09_replace_join_split",
    "C09_replace_spec",
    "C09_replace_empty_needle",
    "C09_replace_self"
   ],
   "note": ""
  },
  {
   "property": "C10",
   "status": "proved",
   "theorems": [
    "C10_replace_inplace"
   ],
   "note": ""
  },
  {
   "property": "C11",
   "status": "proved",
   "theorems": [
    "C11_contains",
    "C11_contains_char",
    "C11_starts_with",
    "C11_starts_with_char",
    "C11_ends_with",
    "C11_ends_with_char"
   ],
   "note": ""
  },
  {
   "property": "C12",
   "status": "proved",
   "theorems": [
    "C12_equals_nocase",
    "C12_contains_nocase",
    "C12_starts_with_nocase",
    "C12_ends_with_nocase",
    "C12_contains_nocase_char",
    "C12_starts_with_nocase_char",
    "C12_ends_with_nocase_char"
   ],
   "note": ""
  },
  {
   "property": "C13",
   "status": "proved",
   "theorems": [
    "C13_lowercase_spec",
    "C13_uppercase_spec",
    "C13_inplace",
    "C13_case_laws",
    "C13_only_letters"
   ],
   "note": ""
  },
  {
   "property": "C14",
   "status": "proved",
   "theorems": [
    "C14_hex_string_value",
    "C14_hex_string_shape",
    "C14_hex_string_injective"
   ],
   "note": ""
  },
  {
   "property": "C15",
   "status": "proved",
   "theorems": [
    "C15_hex_range",
    "C15_hex_range_injective"
   ],
   "note": ""
  },
  {
   "property": "C16",
   "status": "proved",
   "theorems": [
    "C16_repeat",
    "C16_cat"
   ],
   "note": ""
  },
  {
   "property": "C17",
   "status": "proved",
   "theorems": [
    "C17_safe_string",
    "C17_safe_string_null",
    "C17_safe_string_no_overread"
   ],
   "note": ""
  },
  {
   "property": "C18",
   "status": "proved",
   "theorems": [
    "C18_find",
    "C18_rfind",
    "C18_find_first_of",
    "C18_find_last_of",
    "C18_find_first_not_of",
    "C18_find_last_not_of",
    "C18_refines_StrSearch"
   ],
   "note": ""
  },
  {
   "property": "C19",
   "status": "partial",
   "theorems": [
    "C19_substr_throws",
    "C19_substr_partial",
    "C19_substr_wrap",
    "C19_substr_refuted"
   ],
   "note": "Full statement (clamping for all n) is false of the code: C19_substr_refuted / C19_substr_wrap show that pos + n wraps around for huge n != npos and an invalid view results. C19_substr_partial proves clamping for every n that does not wrap (and npos)."
  },
  {
   "property": "C20",
   "status": "proved",
   "theorems": [
    "C20_compare",
    "C20_operators",
    "C20_compare_parts",
    "C20_total_order"
   ],
   "note": ""
  },
  {
   "property": "C21",
   "status": "proved",
   "theorems": [
    "C21_total",
    "C21_lines",
    "C21_offset",
    "C21_element",
    "C21_text",
    "C21_length",
    "C21_truncated",
    "C21_reconstruct",
    "C21_injective",
    "C21_sign",
    "C21_stream",
    "C21_stream_state_finding"
   ],
   "note": "Finding: the stream is left in hex mode with fill character 0 (C21_stream_state_finding). Locale and stream flags other than base, fill and width are assumed to have their defaults."
  },
  {
   "property": "C22",
   "status": "proved",
   "theorems": [
    "C22_unsigned",
    "C22_leading_zeros",
    "C22_portable_branch"
   ],
   "note": ""
  },
  {
   "property": "C23",
   "status": "proved",
   "theorems": [
    "C23_signed",
    "C23_no_overflow",
    "C23_portable_branch",
    "C23_portable_branch_narrow",
    "C23_portable_overflow_finding"
   ],
   "note": "The branch for compilers without overflow builtins is modelled as well; there the conversion of numbers just above the maximum is undefined behavior for int and wider types (C23_portable_overflow_finding)."
  },
  {
   "property": "C24",
   "status": "proved",
   "theorems": [
    "C24_unsigned",
    "C24_signed"
   ],
   "note": ""
  },
  {
   "property": "C25",
   "status": "proved",
   "theorems": [
    "C25_bool",
    "C25_total"
   ],
   "note": ""
  },
  {
   "property": "C26",
   "status": "partial",
   "theorems": [
    "C26_accepts_numbers",
    "C26_accepts_inf_nan",
    "C26_rejects_partial",
    "C26_rejects_short",
    "C26_garbage_refuted",
    "C26_out_of_range_refuted",
    "C26_exponent_overflow_finding",
    "C26_zero_finding"
   ],
   "note": "Proved: every number, infinity and NaN in the documented format is accepted; whatever is accepted has the documented format up to the 19th significant character, and exactly the documented format if the string has at most 19 characters. Refuted: the format is not enforced behind 19 significant digits (1234567890123456789abc has a value); 1e400 gives infinity although the documentation promises an empty result; .01e-2147483647 overflows an int."
  },
  {
   "property": "C27",
   "status": "partial",
   "theorems": [
    "C27_double",
    "C27_float",
    "C27_long_double",
    "C27_zero",
    "C27_exact_integers_refuted",
    "C27_saturates"
   ],
   "note": "Proved: relative error bounds for float, double and long double (x87) over all numbers in the normal range, zero exact. Refuted: exactness for representable integers (to_number<double>(109) is not 109)."
  },
  {
   "property": "C28",
   "status": "proved",
   "theorems": [
    "C28_clamp_float",
    "C28_clamp_nan",
    "C28_clamp",
    "C28_clamp_integers",
    "C28_clamp_comp",
    "C28_clamp_returns_lo_when_equivalent",
    "C28_abs",
    "C28_abs_most_negative"
   ],
   "note": ""
  },
  {
   "property": "C29",
   "status": "partial",
   "theorems": [
    "C29_within_abs_float_symmetric",
    "C29_within_abs_float_complete",
    "C29_within_abs_float_partial",
    "C29_within_abs_float_nan",
    "C29_within_abs_float_inf",
    "C29_within_ulp_symmetric",
    "C29_within_ulp_reflexive",
    "C29_within_ulp_nan",
    "C29_within_ulp_infinite",
    "C29_within_ulp_complete",
    "C29_within_ulp_sound",
    "C29_within_orders_symmetric",
    "C29_within_orders_zero",
    "C29_within_orders_integer_symmetric_partial",
    "C29_within_orders_unsigned_refuted",
    "C29_within_abs_minus_infinity_refuted",
    "C29_within_abs_unsigned_or_narrow",
    "C29_within_abs_signed_partial",
    "C29_within_abs_symmetric",
    "C29_within_abs_refuted"
   ],
   "note": "Proved: exact decision for unsigned and narrow integers and for int/long when the difference is representable; symmetry; for floating point no false negatives and false positives only within one ulp (the exact claim fails because the difference is rounded), NaN and infinities, within_ulp completeness and soundness, within_orders symmetry for signed types. Refuted: within_abs of int operands whose difference overflows is undefined (C29_within_abs_refuted); within_orders is not symmetric for unsigned operands; minus infinity is within a finite tolerance of -DBL_MAX."
  },
  {
   "property": "C30",
   "status": "proved",
   "theorems": [
    "C30_gcd",
    "C30_gcd_unique",
    "C30_gcd_zero",
    "C30_gcd_unsigned_total",
    "C30_gcd_most_negative"
   ],
   "note": ""
  },
  {
   "property": "C31",
   "status": "proved",
   "theorems": [
    "C31_lcm",
    "C31_lcm_exists",
    "C31_lcm_zero",
    "C31_zero_finding"
   ],
   "note": "C31_zero_finding: the documentation says that the result is positive unless both arguments are zero; lcm(0, n) is 0."
  },
  {
   "property": "C32",
   "status": "proved",
   "theorems": [
    "C32_bit_set",
    "C32_bit_reset",
    "C32_bit_flip",
    "C32_bit_test",
    "C32_bit_set_value",
    "C32_bits_determine",
    "C32_laws"
   ],
   "note": ""
  },
  {
   "property": "C33",
   "status": "proved",
   "theorems": [
    "C33_maximum",
    "C33_minimum",
    "C33_nan_ignored",
    "C33_only_nan",
    "C33_integer",
    "C33_integer_empty",
    "C33_min_max"
   ],
   "note": "All IEEE formats (prec, emax arbitrary) and all integer types; accessor arbitrary."
  },
  {
   "property": "C34",
   "status": "proved",
   "theorems": [
    "C34_odd",
    "C34_odd_int",
    "C34_ranked_sorted",
    "C34_even",
    "C34_even_int",
    "C34_order_int",
    "C34_order",
    "C34_empty",
    "C34_total",
    "C34_subnormal_finding"
   ],
   "note": "std::nth_element is modelled by its contract (a relation), so the theorems hold for every conforming implementation. Finding: two equal subnormal numbers give 0 (C34_subnormal_finding). Integer result types (which truncate the halves) are not claimed."
  },
  {
   "property": "C35",
   "status": "proved",
   "theorems": [
    "C35_remove_outliers",
    "C35_remove_outliers_float",
    "C35_size",
    "C35_nan_finding"
   ],
   "note": "Exact arithmetic over the reals, and IEEE arithmetic with the computed mean. Finding: with a NaN element the first element is removed (C35_nan_finding)."
  },
  {
   "property": "C36",
   "status": "proved",
   "theorems": [
    "C36_mean",
    "C36_rms",
    "C36_standard_deviation",
    "C36_shift",
    "C36_scale",
    "C36_reorder",
    "C36_mean_between",
    "C36_few",
    "C36_mean_int",
    "C36_accumulate"
   ],
   "note": "Exact arithmetic as the property states; NaN for too few elements in IEEE arithmetic; the double mean of integers is correctly rounded while sums stay below 2^53. std::pow(x,2) is taken as x*x."
  },
  {
   "property": "C37",
   "status": "proved",
   "theorems": [
    "C37_deque",
    "C37_window",
    "C37_capacity_zero_finding"
   ],
   "note": "Also: pushing onto a buffer of capacity 0 is undefined behavior (finding)."
  },
  {
   "property": "C38",
   "status": "proved",
   "theorems": [
    "C38_resize",
    "C38_kept",
    "C38_moved_from_finding"
   ],
   "note": "Also: a moved-from run-time sized buffer may report size() > capacity() (finding)."
  },
  {
   "property": "C39",
   "status": "partial",
   "theorems": [
    "C39_at",
    "C39_unused_default_partial",
    "C39_unused_default_refuted"
   ],
   "note": "at() is proved for all histories. The documented default value of unused slots is proved for histories without pops (resizes and clears included) and refuted after pop_back."
  },
  {
   "property": "C40",
   "status": "proved",
   "theorems": [
    "C40_iteration",
    "C40_arithmetic"
   ],
   "note": ""
  },
  {
   "property": "C41",
   "status": "partial",
   "theorems": [
    "C41_deque",
    "C41_covers",
    "C41_exact_partial",
    "C41_push_front_refuted",
    "C41_pop_refuted",
    "C41_grown_slots"
   ],
   "note": "Deque behavior and covering are proved for all histories. Exactness is proved for push_back-only histories (with clear and any resize) and for push_front-only histories that never enlarge a filled buffer; it is refuted for push_front after enlarging a filled buffer and after pops."
  },
  {
   "property": "C42",
   "status": "proved",
   "theorems": [
    "C42_sequence",
    "C42_access",
    "C42_equal",
    "C42_self_reference_finding"
   ],
   "note": "Model of every SmallVector member function on an explicit memory of cells; all sequences of calls on any number of vectors refine VecSpec.meaning. Finding (not part of the claim): arguments that alias the vector's own elements are read after being moved or destroyed."
  },
  {
   "property": "C43",
   "status": "proved",
   "theorems": [
    "C43_lifetimes",
    "C43_no_undefined_behavior"
   ],
   "note": "UB outcomes of the model cover uninitialized reads, double construction/destruction, out-of-bounds and use after free; the counts of live elements and heap blocks are exact."
  },
  {
   "property": "C44",
   "status": "proved",
   "theorems": [
    "C44_bounds",
    "C44_stable",
    "C44_no_needless_growth",
    "C44_reserve",
    "C44_length_error",
    "C44_amortized",
    "C44_wrap_finding"
   ],
   "note": "Finding: insert(pos, n, value) and insert(range) compute size + n modulo 2^32 without a check."
  },
  {
   "property": "C45",
   "status": "proved",
   "theorems": [
    "C45_swap",
    "C45_move",
    "C45_self"
   ],
   "note": "All four combinations of inner and heap storage, including the hand-over of heap buffers."
  },
  {
   "property": "C46",
   "status": "proved",
   "theorems": [
    "C46_calls_return",
    "C46_time_out",
    "C46_progress",
    "C46_get",
    "C46_set",
    "C46_wait",
    "C46_wait_for",
    "C46_wait_until",
    "C46_no_lost_wakeup",
    "C46_released",
    "C46_nearer",
    "C46_mutual_exclusion",
    "C46_destroy_safe"
   ],
   "note": "Findings: a trigger() followed by reset() can be missed by a waiting thread (C46_pulse_finding); the destructor wakes waiting threads, as documented, but they then lock the destroyed mutex (C46_destroy_finding). The theorems C46_calls_return and C46_time_out assume fair scheduling (also of the mutex), which the C++ standard does not promise, and the latter that condition_variable::wait_until reports a time-out once the time is over."
  },
  {
   "property": "C47",
   "status": "proved",
   "theorems": [
    "C47_ends",
    "C47_sleep",
    "C47_undisturbed",
    "C47_interrupted"
   ],
   "note": "Finding: a trigger() followed by reset() can be missed by a sleeping thread (C47_pulse_finding). C47_ends assumes fair scheduling (see C46). The overloads of sleep without a Trigger (std::this_thread::sleep_for) are not modelled."
  },
  {
   "property": "C48",
   "status": "proved",
   "theorems": [
    "C48_at_most_once",
    "C48_start_time",
    "C48_one_worker",
    "C48_not_after_cancel",
    "C48_not_after_shutdown"
   ],
   "note": "Histories of a transition system with arbitrary interleaving; task ids are assumed not to have wrapped around modulo 2^64. The start time is compared with a clock reading made while the task was already in the queue (the system clock may be set back afterwards)."
  },
  {
   "property": "C49",
   "status": "proved",
   "theorems": [
    "C49_capacity",
    "C49_state",
    "C49_running",
    "C49_ids",
    "C49_one_effect",
    "C49_add_task",
    "C49_queries",
    "C49_constructor",
    "C49_constructor_throws"
   ],
   "note": ""
  },
  {
   "property": "C50",
   "status": "partial",
   "theorems": [
    "C50_cancel",
    "C50_cancel_effect",
    "C50_cancel_all",
    "C50_cancel_running_refuted"
   ],
   "note": "Finding: C50_cancel_running_refuted. The documentation says that TaskHandle::cancel() has no effect if the task is already running; in fact it drops the future of the handle first, so that is_complete() stays false and get_result() throws although the task runs to its end. What holds for tasks that are still pending is proved in full."
  },
  {
   "property": "C51",
   "status": "proved",
   "theorems": [
    "C51_first_ready",
    "C51_queue_order",
    "C51_fifo",
    "C51_one_worker",
    "C51_serial"
   ],
   "note": ""
  },
  {
   "property": "C52",
   "status": "proved",
   "theorems": [
    "C52_executed",
    "C52_progress",
    "C52_no_lost_wakeup",
    "C52_picked_up",
    "C52_blocking",
    "C52_idle_worker_finding"
   ],
   "note": "Eventual execution is proved in two forms: from every reachable state of a living pool, without new calls, a worker can take a task; and in every infinite execution that is fair to each thread (strong fairness, also for the mutex: PoolFairSpec.v) and in which tasks return, a due task is executed or cancelled (C52_executed). Fairness of the scheduler and of std::mutex is a hypothesis: the C++ standard does not promise it. Finding C52_idle_worker_finding: with two workers, a task whose start time has come may have to wait for the end of another task although a worker is idle (the worker with the timed wait was given the other task)."
  },
  {
   "property": "C53",
   "status": "proved",
   "theorems": [
    "C53_destructor_ends",
    "C53_no_new_task",
    "C53_workers_return",
    "C53_join_returns",
    "C53_no_self_deadlock",
    "C53_free",
    "C53_self_join_finding",
    "C53_self_deadlock_finding",
    "C53_captured_owner_finding",
    "C53_deadlock_permanent"
   ],
   "note": "The return of the destructor is proved in two forms: it can always go on to return, and in every fair infinite execution in which tasks return it does return (C53_destructor_ends). Findings: if the last shared_ptr is dropped inside a task the worker joins itself (std::terminate, C53_self_join_finding); if it is dropped while a task is inside add_task(), or by destroying a function object under the lock, the destructor waits for the mutex that its own thread holds (C53_self_deadlock_finding, C53_captured_owner_finding, C53_deadlock_permanent)."
  },
  {
   "property": "C54",
   "status": "partial",
   "theorems": [
    "C54_moment",
    "C54_pending",
    "C54_running",
    "C54_over",
    "C54_monotone",
    "C54_is_complete",
    "C54_get_result",
    "C54_complete_refuted",
    "C54_canceled_refuted"
   ],
   "note": "Findings: after get_result() the state is canceled (C54_complete_refuted); a task discarded by cancel_pending_tasks() is reported as complete (C54_canceled_refuted). The other parts of the property are proved."
  },
  {
   "property": "C55",
   "status": "proved",
   "theorems": [
    "C55_runs_at_owner_destruction",
    "C55_accounting",
    "C55_at_most_once",
    "C55_exactly_once",
    "C55_exactly_once_each",
    "C55_moves_run_nothing",
    "C55_defined",
    "C55_overwritten_finding",
    "C55_finally_lvalue_finding"
   ],
   "note": "Findings: move assignment drops the target's pending action (C55_overwritten_finding); finally(f) moves from an lvalue f (C55_finally_lvalue_finding)."
  },
  {
   "property": "C56",
   "status": "proved",
   "theorems": [
    "C56_hash",
    "C56_hash_equal",
    "C56_hash_reference",
    "C56_hash_empty_finding",
    "C56_refines",
    "C56_step",
    "C56_lifetimes",
    "C56_all_destroyed",
    "C56_nothrow",
    "C56_has_value",
    "C56_value",
    "C56_deref",
    "C56_write_empty",
    "C56_value_or",
    "C56_value_or_move",
    "C56_emplace_self_finding",
    "C56_equal",
    "C56_order",
    "C56_total_order",
    "C56_nullopt",
    "C56_value_compare",
    "C56_reference",
    "C56_reference_rebinds"
   ],
   "note": "optional as a state machine over any number of variables with raw or live storage; refinement to the option type for every program, lifetimes and counts under throwing element operations, observers, relational operators. Findings: o.emplace(*o) reads a destroyed element; emplace that throws leaves the optional empty. Not covered: constexpr/trivial-destructor variant, hash."
  },
  {
   "property": "C57",
   "status": "proved",
   "theorems": [
    "C57_leap",
    "C57_month_length",
    "C57_valid",
    "C57_date_roundtrip",
    "C57_number_roundtrip",
    "C57_consecutive",
    "C57_counts",
    "C57_counts_back",
    "C57_difference",
    "C57_order",
    "C57_weekday",
    "C57_weekday_next",
    "C57_out_of_range_finding"
   ],
   "note": "to_days/from_days/ok/is_leap/weekday with explicit int overflow and short/unsigned char truncation, related to a calendar specified by leap years, month lengths and the next-day relation. Finding: day numbers past the year 32767 wrap silently, those near INT_MAX overflow."
  },
  {
   "property": "C58",
   "status": "proved",
   "theorems": [
    "C58_default",
    "C58_container",
    "C58_pointer_count",
    "C58_pointer_range",
    "C58_convert",
    "C58_size",
    "C58_first",
    "C58_first_static",
    "C58_last",
    "C58_last_static",
    "C58_subspan",
    "C58_subspan_rest",
    "C58_subspan_static",
    "C58_subspan_rest_static",
    "C58_compose",
    "C58_first_last_subspan",
    "C58_index",
    "C58_front_back",
    "C58_iteration",
    "C58_store",
    "C58_store_subspan",
    "C58_equal",
    "C58_equal_same",
    "C58_less",
    "C58_relations",
    "C58_as_bytes",
    "C58_fixed_extent_finding",
    "C58_unchecked_finding"
   ],
   "note": "Findings: fixed-extent constructors ignore the count (C58_fixed_extent_finding); arguments are unchecked (C58_unchecked_finding)."
  },
  {
   "property": "C59",
   "status": "proved",
   "theorems": [
    "C59_stream_insertion",
    "C59_concatenation"
   ],
   "note": ""
  },
  {
   "property": "C60",
   "status": "proved",
   "theorems": [
    "C60_remove_prefix",
    "C60_remove_suffix",
    "C60_copy",
    "C60_at",
    "C60_front_back",
    "C60_from_c_string"
   ],
   "note": ""
  },
  {
   "property": "C61",
   "status": "partial",
   "theorems": [
    "C61_guarantee_partial",
    "C61_histories_partial",
    "C61_noexcept",
    "C61_every_call",
    "C61_leak_refuted",
    "C61_more_leaks_refuted",
    "C61_copy_noexcept_finding",
    "C61_constructor_refuted"
   ],
   "note": "Proved for push_back, emplace_back, reserve, resize(n), shrink_to_fit, element assignment, assign(range), assign(init list), copy assignment, pop_back, clear, erase, swap, move assignment and move construction (also with throwing moves), and, if moves are noexcept, insert of one element and emplace. Every call is free of undefined behaviour at every throwing point and returns only with its specified effect (C61_every_call). The last sentence of the property is refuted for insert(pos, n, value), insert(pos, range), resize(n, value), assign(n, value) and, with throwing moves, insert of one element and emplace, which leak elements, and for constructors, which leak the heap block; hence partial. Finding: copy construction and assignment are declared noexcept for elements with noexcept copies although the allocation can throw."
  },
  {
   "property": "C62",
   "status": "proved",
   "theorems": [
    "C62_mutual_exclusion",
    "C62_writes_locked",
    "C62_effects_locked",
    "C62_destroyed",
    "C62_free_last",
    "C62_one_destructor"
   ],
   "note": "Accesses are the steps of the model; each step is one access to shared data under the mutex as in the code."
  },
  {
   "property": "C63",
   "status": "proved",
   "theorems": [
    "C63_forwarder",
    "C63_forwarder_text"
   ],
   "note": ""
  },
  {
   "property": "C64",
   "status": "proved",
   "theorems": [
    "C64_weekday_add",
    "C64_weekday_sub",
    "C64_weekday_days",
    "C64_weekday_diff",
    "C64_weekday_encoding",
    "C64_month_add",
    "C64_month_sub",
    "C64_month_diff",
    "C64_year_month_add",
    "C64_year_month_sub",
    "C64_year_month_diff",
    "C64_years",
    "C64_year_month_order",
    "C64_date_add_months",
    "C64_date_sub_months",
    "C64_date_years",
    "C64_year",
    "C64_year_month_sub_years"
   ],
   "note": "weekday/month/year/year_month arithmetic with explicit int overflow; subtraction of INT_MIN excluded (negation overflows). The example shows January 31 + 1 month giving a date that is not ok."
  },
  {
   "property": "C65",
   "status": "proved",
   "theorems": [
    "C65_from_days",
    "C65_ok",
    "C65_to_days",
    "C65_last",
    "C65_last_day"
   ],
   "note": "year_month_weekday (4-bit index, 4-bit weekday fields) and year_month_weekday_last."
  },
  {
   "property": "C66",
   "status": "proved",
   "theorems": [
    "C66_trunc",
    "C66_floor",
    "C66_ceil",
    "C66_round",
    "C66_time_of_day",
    "C66_make12",
    "C66_make24"
   ],
   "note": "signed integral representations of any width with an integral ratio k of the units; hh_mm_ss in 64 bit ticks. round needs one unit of headroom at both ends of the representation."
  },
  {
   "property": "C67",
   "status": "proved",
   "theorems": [
    "C67_refines",
    "C67_has_value",
    "C67_value",
    "C67_deref",
    "C67_error",
    "C67_value_or"
   ],
   "note": "expected as a state machine over any number of variables with flag, union contents (raw, value, error), construction/destruction counters and an exception budget; all overloads selected by noexcept traits are modelled. Refinement to T + E for every program, and every observer."
  },
  {
   "property": "C68",
   "status": "partial",
   "theorems": [
    "C68_balance_partial",
    "C68_step_partial",
    "C68_lifetimes_partial",
    "C68_all_destroyed_partial",
    "C68_nothrow",
    "C68_convert_refuted",
    "C68_assign_value_refuted",
    "C68_emplace_refuted",
    "C68_swap_refuted",
    "C68_copy_terminates_finding"
   ],
   "note": "Proved: counts and lifetimes for all programs without exceptions; the exact outcome of every call with an exception anywhere; nothing happens if the types do not throw. Refuted (findings): the converting constructor leaks a default constructed T; assignment of a value/emplace over an error whose constructor throws assigns to a destroyed error; emplace over a value that throws leaves has_value() true with a destroyed value; swap of value and error with a throwing move is undefined; a throwing copy/move constructor ends in std::terminate (construct is noexcept)."
  },
  {
   "property": "C69",
   "status": "proved",
   "theorems": [
    "C69_and_then",
    "C69_map",
    "C69_map_void",
    "C69_map_error",
    "C69_map_error_void",
    "C69_or_else",
    "C69_or_else_void",
    "C69_and_then_assoc",
    "C69_map_compose",
    "C69_map_identity",
    "C69_map_is_and_then",
    "C69_or_else_assoc",
    "C69_map_error_compose"
   ],
   "note": "All callables are modelled with a user state they may change, so evaluation order and number of calls are visible. Not covered: ref-qualified/const overload selection, the C++14 decltype variants (same body)."
  },
  {
   "property": "C70",
   "status": "partial",
   "theorems": [
    "C70_equal",
    "C70_not_equal",
    "C70_value",
    "C70_unexpected",
    "C70_equivalence",
    "C70_void_equal",
    "C70_void_not_equal_partial",
    "C70_void_not_equal_refuted"
   ],
   "note": "Refuted: operator!= of expected<void, E> compares the errors with ==, so two equal errors are reported as different. Everything else is proved."
  },
  {
   "property": "C71",
   "status": "proved",
   "theorems": [
    "C71_refines",
    "C71_call",
    "C71_objects",
    "C71_index"
   ],
   "note": ""
  },
  {
   "property": "C72",
   "status": "proved",
   "theorems": [
    "C72_step",
    "C72_lifetimes",
    "C72_all_destroyed",
    "C72_nothrow",
    "C72_never_valueless"
   ],
   "note": ""
  },
  {
   "property": "C73",
   "status": "proved",
   "theorems": [
    "C73_get",
    "C73_get_assign",
    "C73_holds_alternative",
    "C73_get_if",
    "C73_visit",
    "C73_find_index"
   ],
   "note": ""
  },
  {
   "property": "C74",
   "status": "proved",
   "theorems": [
    "C74_equal",
    "C74_not_equal",
    "C74_less",
    "C74_greater",
    "C74_less_equal",
    "C74_greater_equal",
    "C74_strict_order",
    "C74_total_order",
    "C74_hash_equal",
    "C74_hash_alternative",
    "C74_monostate"
   ],
   "note": ""
  },
  {
   "property": "C75",
   "status": "proved",
   "theorems": [
    "C75_nul",
    "C75_format",
    "C75_missing_time",
    "C75_invalid_date",
    "C75_invalid_fields",
    "C75_parts",
    "C75_missing_parts",
    "C75_D_negative_finding",
    "C75_F_negative_finding",
    "C75_modifiers"
   ],
   "note": "C75_format: the text is the concatenation of what the items stand for in FmtSpec (date_text), and is the only such text. C75_missing_time, C75_invalid_date, C75_invalid_fields, C75_missing_parts: directives for fields that are not there make the call throw. C75_parts: years, months, days, weekdays, year_months and month_days are written as in any date they are part of. C75_F_negative_finding: %F writes negative years above -100 with the zeros before the sign (00-5-01-02). Modelled: the ONLY_C_LOCALE code; directives with E and O modifiers are in the model but not in the theorems. C75_D_negative_finding: %D writes year -5 as -5."
  },
  {
   "property": "C76",
   "status": "proved",
   "theorems": [
    "C76_nul",
    "C76_local",
    "C76_sys",
    "C76_duration",
    "C76_negative",
    "C76_R_sign_finding",
    "C76_twelve_hours_finding",
    "C76_modifiers"
   ],
   "note": "C76_local, C76_sys, C76_duration, C76_negative. The day is the floor of the division by the length of a day. C76_R_sign_finding: %R drops the sign of a negative duration. %q (the unit) is in the model but not in the theorem. C76_twelve_hours_finding: %I of durations of more than a day writes hours above 12 (13 PM)."
  },
  {
   "property": "C77",
   "status": "proved",
   "theorems": [
    "C77_date",
    "C77_injective"
   ],
   "note": "C77_date for all formats of any length; C77_injective follows. The findings show that the hypotheses are needed: years above 9999, %e, ambiguous names, two-digit years, %y together with %g."
  },
  {
   "property": "C78",
   "status": "proved",
   "theorems": [
    "C78_local",
    "C78_sys",
    "C78_duration"
   ],
   "note": "C78_sys, C78_local and C78_duration, including the long double arithmetic (Flocq). Findings: negative durations and durations of 100 hours or more cannot be parsed, %j with %T counts days twice, %H with %I but without %p rejects every afternoon."
  },
  {
   "property": "C79",
   "status": "partial",
   "theorems": [
    "C79_hours_minutes",
    "C79_hours_minutes_rejects",
    "C79_minutes_finding",
    "C79_date_minutes",
    "C79_date_minutes_rejects",
    "C79_no_space_finding",
    "C79_clock",
    "C79_clock_rejects",
    "C79_date_clock",
    "C79_date_clock_accepts",
    "C79_date_clock_rejects",
    "C79_iso",
    "C79_iso_rejects",
    "C79_sound",
    "C79_contradiction",
    "C79_contradiction_refuted",
    "C79_day_of_year_finding",
    "C79_iso_week_finding",
    "C79_week_unchecked_finding",
    "C79_zero_finding",
    "C79_sign_finding",
    "C79_wide_month_finding",
    "C79_date_minutes_sys",
    "C79_date_minutes_sys_rejects"
   ],
   "note": "C79_iso/C79_iso_rejects: %F accepts exactly the documented texts. C79_hours_minutes: the same for %R and durations of any resolution; minutes above 59 are accepted (C79_minutes_finding). C79_date_minutes: the same for \"%F %R\" and time points of 10^-w seconds, w <= 7; the white space may be missing (C79_no_space_finding); C79_date_minutes_sys for sys_time. C79_clock: %T as a duration accepts exactly two numbers with colons followed by a digit or a decimal point; its value is in C89_duration. C79_date_clock, _accepts, _rejects: \"%F %T\" accepts exactly date_clock (date, optional white space, time of day with the longest run of seconds that fits). C79_sound/C79_contradiction: for formats over %YymdeFDxbBhaAuwjUWCGgV in which everything is compared (compared) every piece read is true of the resulting date, so contradicting text is rejected. The clause is false in general: %C without a two-digit year is not compared (C79_contradiction_refuted), the ISO year and week are not compared if the date follows from %U or %W (C79_week_unchecked_finding), weeks beyond the ISO year are accepted if year, week and weekday give the date (C79_iso_week_finding); the day of the year and zero months have further gaps (findings). C79_wide_month_finding: %3m reads 257 as January."
  },
  {
   "property": "C80",
   "status": "partial",
   "theorems": [
    "C80_nul",
    "C80_date",
    "C80_year",
    "C80_month",
    "C80_day",
    "C80_weekday",
    "C80_month_day",
    "C80_year_month_partial",
    "C80_sys_time",
    "C80_local_time",
    "C80_duration",
    "C80_year_month_refuted",
    "C80_width_finding",
    "C80_offset_finding",
    "C80_far_years_finding",
    "C80_tab_finding",
    "C80_nanoseconds_finding",
    "C80_sys_local"
   ],
   "note": "Proved for year, month, day, weekday, month_day, year_month_day, sys_time, local_time and durations of 10^-w seconds, w <= 7. Missing: year_month, whose year is not checked (C80_year_month_refuted: '%m' on '5' succeeds with the invalid year -32768); for it the month is valid (C80_year_month_partial). Findings about the excluded formats: widths overflow (%10Y), %z on '-ab' negates minutes::min(), '%t99999999999' overflows the width, nanoseconds overflow in %S. sys_time of nanoseconds overflows for years beyond 2262 (C80_far_years_finding). C80_sys_local: without an offset in the format sys_time and local_time give the same result."
  },
  {
   "property": "C81",
   "status": "proved",
   "theorems": [
    "C81_day",
    "C81_month",
    "C81_weekday",
    "C81_year",
    "C81_year_month_day",
    "C81_year_month",
    "C81_year_month_last",
    "C81_year_month_weekday",
    "C81_time_of_day",
    "C81_duration",
    "C81_time_point",
    "C81_earliest_finding",
    "C81_text_day",
    "C81_text_month",
    "C81_text_weekday",
    "C81_text_year",
    "C81_text_date",
    "C81_text_year_month",
    "C81_text_year_month_last",
    "C81_streamed",
    "C81_distinct"
   ],
   "note": "One theorem for each type, over all values of the type, valid or not. C81_earliest_finding: operator<< for the earliest nanosecond time points overflows (undefined behavior) because it computes the midnight before them."
  },
  {
   "property": "C82",
   "status": "proved",
   "theorems": [
    "C82_cat",
    "C82_undefined",
    "C82_always",
    "C82_precision",
    "C82_numbers",
    "C82_copy_finding"
   ],
   "note": "std::to_string is modelled by its contract (printf %d, %f in the C locale). Moving a ConvertingStringView is not modelled. Finding: a copy of a ConvertingStringView made from a number or character must not be used after the original is destroyed (C82_copy_finding)."
  },
  {
   "property": "C83",
   "status": "proved",
   "theorems": [
    "C83_gnu",
    "C83_msvc",
    "C83_injective",
    "C83_safe",
    "C83_semicolon_finding"
   ],
   "note": "The compiler's text is a parameter. Finding: a type name that contains a semicolon is cut off there (C83_semicolon_finding)."
  },
  {
   "property": "C84",
   "status": "proved",
   "theorems": [
    "C84_fractions",
    "C84_fractions_overflow",
    "C84_units",
    "C84_monotone",
    "C84_at_least",
    "C84_seconds",
    "C84_rounded",
    "C84_seconds_monotone",
    "C84_narrow_finding"
   ],
   "note": "The steady clock is a parameter; std::chrono::duration_cast is modelled by its contract. Finding: a unit with a narrow representation wraps around (C84_narrow_finding)."
  },
  {
   "property": "C85",
   "status": "partial",
   "theorems": [
    "C85_illegal",
    "C85_made",
    "C85_first_partial",
    "C85_later_refuted"
   ],
   "note": "Proved for legal and illegal arguments, for success and if the first thread is refused. Refuted if a later thread is refused: the vector of running threads is destroyed while the exception leaves the constructor, so that std::terminate is called (C85_later_refuted)."
  },
  {
   "property": "C86",
   "status": "partial",
   "theorems": [
    "C86_returns",
    "C86_can_return",
    "C86_histories",
    "C86_call",
    "C86_push_back",
    "C86_pop_clear",
    "C86_exposed_partial",
    "C86_exposed_call_partial",
    "C86_push_front_refuted",
    "C86_push_front_stale_refuted",
    "C86_resize_refuted",
    "C86_exposed_refuted"
   ],
   "note": "Proved for SlidingBuffer: consistent after every history, exact effect of every call that throws, push_back strong. Refuted, for elements that behave well: a push_front that throws leaves a stale element at the front (and drops the last one of a filled buffer), because the indices are changed before the assignment; a resize that cannot allocate leaves the elements rotated, because they are rotated first; SlidingBufferExposed::resize leaves an inconsistent buffer if a move throws while shrinking (proved consistent for moves that do not throw)."
  },
  {
   "property": "C87",
   "status": "partial",
   "theorems": [
    "C87_meaning",
    "C87_const",
    "C87_lvalue",
    "C87_copied",
    "C87_moved",
    "C87_alternative",
    "C87_terminates_only_or_else",
    "C87_once",
    "C87_never",
    "C87_exception",
    "C87_or_else_void_partial",
    "C87_or_else_void_refuted",
    "C87_or_else_terminates_finding",
    "C87_void_meaning",
    "C87_void_const",
    "C87_void_lvalue",
    "C87_void_copied",
    "C87_void_moved",
    "C87_void_alternative",
    "C87_void_terminates_only_or_else",
    "C87_void_never",
    "C87_void_or_else_terminates_finding"
   ],
   "note": "Refuted part: std::move(x).or_else(f) with a void f that takes the error by value returns the moved-from error (C87_or_else_void_refuted); it is returned intact for lvalues, const objects and callables that leave it alone (C87_or_else_void_partial). Finding: or_else calls std::terminate when copying or moving the content throws, although it is not noexcept (C87_or_else_terminates_finding)."
  },
  {
   "property": "C88",
   "status": "proved",
   "theorems": [
    "C88_calls",
    "C88_no_effect",
    "C88_state",
    "C88_unlocked",
    "C88_next_id",
    "C88_abort",
    "C88_worker_aborts_finding"
   ],
   "note": "The histories of C48-C54, C62 contain failed calls. Finding: a worker that runs out of memory while it registers its task (ThreadPool.cc:239-240) ends the process by std::terminate (C88_worker_aborts_finding); C88_abort says when this can happen."
  },
  {
   "property": "C89",
   "status": "partial",
   "theorems": [
    "C89_local",
    "C89_sys",
    "C89_contradiction",
    "C89_duration",
    "C89_ampm_refuted",
    "C89_hour_zero_refuted",
    "C89_afternoon_refuted",
    "C89_point_finding",
    "C89_offset_finding"
   ],
   "note": "Proved for formats in which AM/PM stands with %I and in which the parts are compared (the conditions of C79). Refuted parts: %p without %I is ignored, so 13 AM is accepted (C89_ampm_refuted); the hour 0 of %r counts as not given and its PM is ignored (C89_hour_zero_refuted); %H with %I but without %p rejects every afternoon hour except 12, as the test reads I == H + 12 instead of H == I + 12 (C89_afternoon_refuted). Findings: a point without digits counts as zero seconds, and the minutes of %z may exceed 59. The theorem on rejection (C89_contradiction) leaves out %z, whose arithmetic can overflow on a failed parse (C80). Not covered: %Z, %n, %t, field widths, E and O modifiers, and precisions beyond 10^-7 seconds."
  },
  {
   "property": "C90",
   "status": "proved",
   "theorems": [
    "C90_plain_ints",
    "C90_plain_ints_undefined",
    "C90_three",
    "C90_two",
    "C90_parentheses",
    "C90_orders",
    "C90_day",
    "C90_brackets",
    "C90_ints",
    "C90_division_finding"
   ],
   "note": "Full statement proved, for a/b/c and a/(b/c). Finding C90_division_finding: two leading ints are divided as integers, so 28/2/day(3) compiles and is the third of month 14, and a zero divisor is undefined behaviour."
  },
  {
   "property": "C91",
   "status": "proved",
   "theorems": [
    "C91_ok",
    "C91_compare",
    "C91_equal",
    "C91_months",
    "C91_months_back",
    "C91_years",
    "C91_years_back",
    "C91_wrap_finding"
   ],
   "note": "Full statement proved for values the classes can hold. Finding C91_wrap_finding: an index above 15 wraps, so Monday[17] is valid and means the first Monday; an invalid weekday above 15 can become valid in the same way."
  },
  {
   "property": "C92",
   "status": "proved",
   "theorems": [
    "C92_access",
    "C92_access_empty",
    "C92_value_or",
    "C92_argument_unused",
    "C92_kept",
    "C92_copied",
    "C92_moved",
    "C92_get",
    "C92_visit"
   ],
   "note": "RefModel.v transcribes the overloads for the four value categories; C92_access, C92_value_or, C92_get and C92_visit give the meaning, C92_kept, C92_copied and C92_moved say which constructors can be called, for arbitrary constructors."
  },
  {
   "property": "C93",
   "status": "proved",
   "theorems": [
    "C93_viable",
    "C93_selected",
    "C93_rejected",
    "C93_exact",
    "C93_own_type",
    "C93_bool",
    "C93_order",
    "C93_integer_to_float_finding",
    "C93_ambiguous_finding"
   ],
   "note": "Findings: an int does not convert to double although every int fits (C93_integer_to_float_finding); an int is ambiguous between long and long long (C93_ambiguous_finding)."
  },
  {
   "property": "C94",
   "status": "proved",
   "theorems": [
    "C94_accumulate",
    "C94_min_max",
    "C94_mean",
    "C94_rms",
    "C94_standard_deviation",
    "C94_median",
    "C94_bad_range"
   ],
   "note": "The size functions need a range of fewer than 2^64 elements (2^63 for the undefined case). Iterators are random-access positions. The iterator overload of remove_outliers is not modelled: its call with an rvalue view of const type resolves to the in-place overload, which uses begin() and erase() of the view, so by reading it does not compile when instantiated (the tests do not instantiate it)."
  },
  {
   "property": "C95",
   "status": "proved",
   "theorems": [
    "C95_day",
    "C95_year",
    "C95_wrap",
    "C95_names",
    "C95_too_large_finding"
   ],
   "note": ""
  },
  {
   "property": "C96",
   "status": "proved",
   "theorems": [
    "C96_wake_up",
    "C96_not_positive",
    "C96_monotone",
    "C96_long_finding"
   ],
   "note": "The rounding up to nanoseconds is that of condition_variable::wait_for of libstdc++; other libraries may differ. The waiting itself is the subject of C46 and C47."
  }
 ]
}