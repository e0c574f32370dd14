# Print Assumptions for every theorem

Written by tools/assumptions.py.  All axioms are those of the standard library.

## Closed under the global context

* CatProps: C82_copy_finding
* DateLitProps: C95_day, C95_year, C95_wrap, C95_names, C95_too_large_finding
* DateProps: C57_leap, C57_month_length, C57_valid, C57_date_roundtrip, C57_number_roundtrip, C57_consecutive, C57_counts, C57_counts_back, C57_difference, C57_order, C57_weekday, C57_weekday_next, C57_out_of_range_finding, C64_weekday_add, C64_weekday_sub, C64_weekday_days, C64_weekday_diff, C64_weekday_encoding, C64_month_add, C64_month_sub, C64_month_diff, C64_year_month_add, C64_year_month_sub, C64_year_month_diff, C64_years, C64_year_month_order, C64_date_add_months, C64_date_sub_months, C64_date_years, C64_year, C64_year_month_sub_years, C65_from_days, C65_ok, C65_to_days, C65_last, C65_last_day, C66_trunc, C66_floor, C66_ceil, C66_round, C66_time_of_day, C66_make12, C66_make24
* ExpCatProps: C87_meaning, C87_const, C87_lvalue, C87_copied, C87_moved, C87_alternative, C87_terminates_only_or_else, C87_once, C87_never, C87_exception, C87_or_else_void_partial, C87_or_else_void_refuted, C87_or_else_terminates_finding
* ExpCatVoidProps: C87_void_meaning, C87_void_const, C87_void_lvalue, C87_void_copied, C87_void_moved, C87_void_alternative, C87_void_terminates_only_or_else, C87_void_never, C87_void_or_else_terminates_finding
* ExpProps: C67_refines, C67_has_value, C67_value, C67_deref, C67_error, C67_value_or, C68_balance_partial, C68_step_partial, C68_lifetimes_partial, C68_all_destroyed_partial, C68_nothrow, C68_convert_refuted, C68_assign_value_refuted, C68_emplace_refuted, C68_swap_refuted, C68_copy_terminates_finding, C69_and_then, C69_map, C69_map_void, C69_map_error, C69_map_error_void, C69_or_else, C69_or_else_void, C69_and_then_assoc, C69_map_compose, C69_map_identity, C69_map_is_and_then, C69_or_else_assoc, C69_map_error_compose, C70_equal, C70_not_equal, C70_value, C70_unexpected, C70_equivalence, C70_void_equal, C70_void_not_equal_partial, C70_void_not_equal_refuted
* FinProps: C55_runs_at_owner_destruction, C55_accounting, C55_at_most_once, C55_exactly_once, C55_exactly_once_each, C55_moves_run_nothing, C55_defined, C55_overwritten_finding, C55_finally_lvalue_finding
* FloatProps: C28_clamp_nan
* FmtNulProps: C75_nul, C76_nul
* FmtProps: C75_format, C75_missing_time, C75_invalid_date, C75_invalid_fields, C75_parts, C75_missing_parts, C75_D_negative_finding, C75_F_negative_finding, C76_local, C76_sys, C76_duration, C76_negative, C76_R_sign_finding, C76_twelve_hours_finding, C81_day, C81_month, C81_weekday, C81_year, C81_year_month_day, C81_year_month, C81_year_month_last, C81_year_month_weekday, C81_time_of_day, C81_duration, C81_time_point, C81_earliest_finding
* FmtProps2: C75_modifiers, C76_modifiers, C81_text_day, C81_text_month, C81_text_weekday, C81_text_year, C81_text_date, C81_text_year_month, C81_text_year_month_last
* HexProps: C21_total, C21_lines, C21_offset, C21_element, C21_text, C21_length, C21_truncated, C21_reconstruct, C21_injective, C21_sign, C21_stream, C21_stream_state_finding, C63_forwarder, C63_forwarder_text
* NumProps: C28_clamp, C28_clamp_integers, C28_clamp_comp, C28_clamp_returns_lo_when_equivalent, C28_abs, C28_abs_most_negative, C29_within_abs_unsigned_or_narrow, C29_within_abs_signed_partial, C29_within_abs_symmetric, C29_within_abs_refuted, C30_gcd, C30_gcd_unique, C30_gcd_zero, C30_gcd_unsigned_total, C30_gcd_most_negative, C31_lcm, C31_lcm_exists, C31_lcm_zero, C31_zero_finding, C32_bit_set, C32_bit_reset, C32_bit_flip, C32_bit_test, C32_bit_set_value, C32_bits_determine, C32_laws
* OptHashProps: C56_hash, C56_hash_equal, C56_hash_reference, C56_hash_empty_finding
* OptProps: C56_refines, C56_step, C56_lifetimes, C56_all_destroyed, C56_nothrow, C56_has_value, C56_value, C56_deref, C56_write_empty, C56_value_or, C56_value_or_move, C56_emplace_self_finding, C56_equal, C56_order, C56_total_order, C56_nullopt, C56_value_compare, C56_reference, C56_reference_rebinds
* PoolCtorProps: C85_illegal, C85_made, C85_first_partial, C85_later_refuted
* PoolFairProps: C52_executed, C53_destructor_ends, C52_progress
* PoolMemProps: C88_calls, C88_no_effect, C88_state, C88_unlocked, C88_next_id, C88_abort, C88_worker_aborts_finding
* PoolProps: C48_at_most_once, C48_start_time, C48_one_worker, C48_not_after_cancel, C48_not_after_shutdown, C49_capacity, C49_state, C49_running, C49_ids, C49_one_effect, C49_add_task, C49_queries, C49_constructor, C49_constructor_throws, C50_cancel, C50_cancel_effect, C50_cancel_all, C50_cancel_running_refuted, C51_first_ready, C51_queue_order, C51_fifo, C51_one_worker, C51_serial, C52_no_lost_wakeup, C52_picked_up, C52_blocking, C52_idle_worker_finding, C53_no_new_task, C53_workers_return, C53_join_returns, C53_no_self_deadlock, C53_free, C53_self_join_finding, C53_self_deadlock_finding, C53_captured_owner_finding, C53_deadlock_permanent, C54_moment, C54_pending, C54_running, C54_over, C54_monotone, C54_is_complete, C54_get_result, C54_complete_refuted, C54_canceled_refuted, C62_mutual_exclusion, C62_writes_locked, C62_effects_locked, C62_destroyed, C62_free_last, C62_one_destructor
* RefProps: C92_access, C92_access_empty, C92_value_or, C92_argument_unused, C92_kept, C92_copied, C92_moved, C92_get, C92_visit
* SbExcProps: C86_returns, C86_can_return, C86_histories, C86_call, C86_push_back, C86_pop_clear, C86_exposed_partial, C86_exposed_call_partial, C86_push_front_refuted, C86_push_front_stale_refuted, C86_resize_refuted, C86_exposed_refuted
* SbProps: C37_deque, C37_window, C37_capacity_zero_finding, C38_resize, C38_kept, C38_moved_from_finding, C39_at, C39_unused_default_partial, C39_unused_default_refuted, C40_iteration, C40_arithmetic, C41_deque, C41_covers, C41_exact_partial, C41_push_front_refuted, C41_pop_refuted
* SbSlotProps: C41_grown_slots
* SlashIntProps: C90_plain_ints, C90_plain_ints_undefined
* SlashProps: C90_three, C90_two, C90_parentheses, C90_orders, C90_day, C90_brackets, C90_ints, C90_division_finding
* SlashProps2: C91_ok, C91_compare, C91_equal, C91_months, C91_months_back, C91_years, C91_years_back, C91_wrap_finding
* SlashProps3: C81_streamed, C81_distinct
* SpanProps: C58_default, C58_container, C58_pointer_count, C58_pointer_range, C58_convert, C58_size, C58_first, C58_first_static, C58_last, C58_last_static, C58_subspan, C58_subspan_rest, C58_subspan_static, C58_subspan_rest_static, C58_compose, C58_first_last_subspan, C58_index, C58_front_back, C58_iteration, C58_store, C58_store_subspan, C58_equal, C58_equal_same, C58_less, C58_relations, C58_as_bytes, C58_fixed_extent_finding, C58_unchecked_finding
* StatItProps: C94_accumulate, C94_min_max, C94_mean, C94_rms, C94_standard_deviation, C94_median, C94_bad_range
* StatProps: C33_integer, C33_integer_empty, C33_min_max, C34_odd, C34_odd_int, C34_ranked_sorted, C34_order_int, C34_empty, C35_size, C36_accumulate
* StrProps: C01_unescape_escape, C02_escape_printable, C02_escape_quotes_escaped, C02_escape_injective, C02_delete_finding, C03_unescape_spec, C03_unescape_no_backslash, C04_join_split, C04_join_spec, C05_split_leftmost, C05_split_no_delimiter, C05_split_empty_delimiter, C06_split_join, C07_tokenize_runs, C07_tokenize_tokens, C07_tokenize_spec, C07_tokenize_extra_delimiters, C08_trim_spec, C08_trim_left_spec, C08_trim_right_spec, C08_trim_total, C08_trim_idempotent, C08_default_whitespace, C09_replace_join_split, C09_replace_spec, C09_replace_empty_needle, C09_replace_self, C10_replace_inplace, C11_contains, C11_contains_char, C11_starts_with, C11_starts_with_char, C11_ends_with, C11_ends_with_char, C12_equals_nocase, C12_contains_nocase, C12_starts_with_nocase, C12_ends_with_nocase, C12_contains_nocase_char, C12_starts_with_nocase_char, C12_ends_with_nocase_char, C13_lowercase_spec, C13_uppercase_spec, C13_inplace, C13_case_laws, C13_only_letters, C14_hex_string_value, C14_hex_string_shape, C14_hex_string_injective, C15_hex_range, C15_hex_range_injective, C16_repeat, C16_cat, C17_safe_string, C17_safe_string_null, C17_safe_string_no_overread
* SvProps: C18_find, C18_rfind, C18_find_first_of, C18_find_last_of, C18_find_first_not_of, C18_find_last_not_of, C18_refines_StrSearch, C19_substr_throws, C19_substr_partial, C19_substr_wrap, C19_substr_refuted, C20_compare, C20_operators, C20_compare_parts, C20_total_order, C59_stream_insertion, C59_concatenation, C60_remove_prefix, C60_remove_suffix, C60_copy, C60_at, C60_front_back, C60_from_c_string
* ToNumProps: C22_unsigned, C22_leading_zeros, C22_portable_branch, C23_signed, C23_no_overflow, C23_portable_branch, C23_portable_branch_narrow, C23_portable_overflow_finding, C24_unsigned, C24_signed, C25_bool, C25_total
* TocFineProps: C84_fractions, C84_fractions_overflow
* TocProps: C84_units, C84_monotone, C84_at_least, C84_narrow_finding
* TrigFairProps: C46_calls_return, C46_time_out, C47_ends, C46_progress
* TrigProps: C46_get, C46_set, C46_wait, C46_wait_for, C46_wait_until, C46_no_lost_wakeup, C46_released, C46_nearer, C46_mutual_exclusion, C46_destroy_safe, C47_sleep, C47_undisturbed, C47_interrupted
* TypeNameProps: C83_gnu, C83_msvc, C83_injective, C83_safe, C83_semicolon_finding
* VecProps: C42_sequence, C42_access, C42_equal, C42_self_reference_finding, C43_lifetimes, C43_no_undefined_behavior, C44_bounds, C44_stable, C44_no_needless_growth, C44_reserve, C44_length_error, C44_amortized, C44_wrap_finding, C45_swap, C45_move, C45_self, C61_guarantee_partial, C61_histories_partial, C61_noexcept, C61_every_call, C61_leak_refuted, C61_more_leaks_refuted, C61_copy_noexcept_finding, C61_constructor_refuted
* VtProps: C71_refines, C71_call, C71_objects, C71_index, C72_step, C72_lifetimes, C72_all_destroyed, C72_nothrow, C72_never_valueless, C73_get, C73_get_assign, C73_holds_alternative, C73_get_if, C73_visit, C73_find_index, C74_equal, C74_not_equal, C74_less, C74_greater, C74_less_equal, C74_greater_equal, C74_strict_order, C74_total_order, C74_hash_equal, C74_hash_alternative, C74_monostate
* VtSelProps: C93_viable, C93_selected, C93_rejected, C93_exact, C93_own_type, C93_bool, C93_order, C93_integer_to_float_finding, C93_ambiguous_finding

## `ClassicalDedekindReals.sig_forall_dec`, `FunctionalExtensionality.functional_extensionality_dep`

* CatProps: C82_cat, C82_undefined, C82_always, C82_precision, C82_numbers

## `ClassicalDedekindReals.sig_forall_dec`, `ClassicalDedekindReals.sig_not_dec`, `FunctionalExtensionality.functional_extensionality_dep`

* StatProps: C35_remove_outliers, C36_mean, C36_rms, C36_standard_deviation, C36_shift, C36_scale, C36_reorder, C36_mean_between

## `ClassicalDedekindReals.sig_forall_dec`, `ClassicalDedekindReals.sig_not_dec`, `Classical_Prop.classic`, `FunctionalExtensionality.functional_extensionality_dep`

* FloatProps: C28_clamp_float, C29_within_abs_float_symmetric, C29_within_abs_float_complete, C29_within_abs_float_partial, C29_within_abs_float_nan, C29_within_abs_float_inf, C29_within_ulp_symmetric, C29_within_ulp_reflexive, C29_within_ulp_nan, C29_within_ulp_infinite, C29_within_ulp_complete, C29_within_ulp_sound, C29_within_orders_symmetric, C29_within_orders_zero, C29_within_orders_integer_symmetric_partial, C29_within_orders_unsigned_refuted, C29_within_abs_minus_infinity_refuted
* ParClockProps: C79_hours_minutes, C79_hours_minutes_rejects, C79_minutes_finding
* ParClockProps2: C79_date_minutes, C79_date_minutes_rejects, C79_no_space_finding
* ParClockProps3: C79_clock, C79_clock_rejects
* ParClockProps4: C79_date_clock, C79_date_clock_accepts, C79_date_clock_rejects
* ParNulProps: C80_nul
* ParProps: C77_date, C77_injective, C78_local, C78_sys, C78_duration
* ParProps2: C80_date, C80_year, C80_month, C80_day, C80_weekday, C80_month_day, C80_year_month_partial, C80_sys_time, C80_local_time, C80_duration, C80_year_month_refuted, C80_width_finding, C80_offset_finding, C80_far_years_finding, C80_tab_finding, C80_nanoseconds_finding
* ParProps3: C79_iso, C79_iso_rejects, C79_sound, C79_contradiction, C79_contradiction_refuted, C79_day_of_year_finding, C79_iso_week_finding, C79_week_unchecked_finding, C79_zero_finding, C79_sign_finding, C79_wide_month_finding
* ParSysProps: C80_sys_local, C79_date_minutes_sys, C79_date_minutes_sys_rejects
* ParTimeProps: C89_local, C89_sys, C89_contradiction, C89_duration, C89_ampm_refuted, C89_hour_zero_refuted, C89_afternoon_refuted, C89_point_finding, C89_offset_finding
* SleepProps: C96_wake_up, C96_not_positive, C96_monotone, C96_long_finding
* StatProps: C33_maximum, C33_minimum, C33_nan_ignored, C33_only_nan, C34_even, C34_even_int, C34_order, C34_total, C34_subnormal_finding, C35_remove_outliers_float, C35_nan_finding, C36_few, C36_mean_int
* ToNumProps: C26_accepts_numbers, C26_accepts_inf_nan, C26_rejects_partial, C26_rejects_short, C26_garbage_refuted, C26_out_of_range_refuted, C26_exponent_overflow_finding, C26_zero_finding, C27_double, C27_float, C27_long_double, C27_zero, C27_exact_integers_refuted
* ToNumProps2: C27_saturates
* TocProps: C84_seconds, C84_rounded, C84_seconds_monotone
