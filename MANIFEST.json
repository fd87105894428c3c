{"claims": [
  {"property": "C01", "status": "proved", "theorems": ["lru_size_within_capacity"], "note": ""},
  {"property": "C02", "status": "proved", "theorems": ["lru_refines_recency_list"], "note": ""},
  {"property": "C03", "status": "proved", "theorems": ["lru_get_returns_latest"], "note": ""},
  {"property": "C04", "status": "proved", "theorems": ["lru_used_key_survives", "lru_unused_key_is_evicted"], "note": ""},
  {"property": "C05", "status": "proved", "theorems": ["lru_no_undefined_behaviour"], "note": "for all programs that do not copy a cache; copying is C06"},
  {"property": "C06", "status": "partial", "theorems": ["lru_copy_refuted", "lru_copy_use_undefined", "lru_copies_partial", "lru_stale_use_undefined"], "note": "The property is false for the code: the defaulted copy keeps iterators into the source's list. Exactly the programs that call get, insert_or_assign or remove with a key present since the copying are undefined; all others behave as they should."},
  {"property": "C07", "status": "partial", "theorems": ["lru_exception_capacity_refuted", "lru_exception_safety_refuted", "lru_exceptions_partial", "lru_throwing_call_partial"], "note": "false for the code when map::emplace or the push_front inside move_to_front throws (witnesses); proved for all other throw points"},
  {"property": "C08", "status": "proved", "theorems": ["lru_capacity_zero"], "note": ""},
  {"property": "C09", "status": "proved", "theorems": ["safe_lru_is_linearizable"], "note": "every number of threads, program and schedule; copy/allocation exceptions are not part of this model (see C07)"},
  {"property": "C10", "status": "proved", "theorems": ["safe_lru_has_no_data_race", "safe_lru_never_crashes", "safe_lru_never_deadlocks", "safe_lru_waits_only_for_running_threads", "safe_lru_calls_terminate"], "note": ""},
  {"property": "C100", "status": "proved", "theorems": ["logger_settings_are_the_last_set"], "note": ""},
  {"property": "C101", "status": "proved", "theorems": ["str_writes_the_decimal_numeral", "str_to_inverts_str", "str_of_bool", "str_to_inverts_str_bool"], "note": ""},
  {"property": "C102", "status": "partial", "theorems": ["str_to_reads_the_number_partial", "str_to_bool_reads_the_number", "str_to_of_other_text_is_zero", "str_to_unsigned_of_negative_refuted"], "note": "Refuted as stated: a negative number read into an unsigned type wraps around. Proved for signed types, for bool (true iff the number is not 0) and for non-negative numbers; text without a number gives 0."},
  {"property": "C103", "status": "partial", "theorems": ["str_to_is_defined_refuted", "str_to_is_defined_partial", "str_to_is_undefined_exactly_on_blank_text"], "note": "Refuted as stated: blank text returns an uninitialised value. Proved for every other text, and that these are the only cases."},
  {"property": "C104", "status": "partial", "theorems": ["str_to_string_reads_the_first_word", "str_to_char_reads_the_first_character", "str_to_string_inverts_str_partial", "str_to_char_inverts_str_partial", "str_to_string_inverts_str_refuted"], "note": "Refuted for text with white space; proved that the round trip works exactly when there is none."},
  {"property": "C105", "status": "partial", "theorems": ["ignore_case_functions_are_defined", "ignore_case_objects_are_defined_partial", "ignore_case_objects_with_kept_locale", "ignore_case_objects_without_statics_refuted", "ignore_case_objects_of_temporaries_refuted"], "note": "Refuted for objects built from temporary locales; proved for the functions, for objects of the static locales and for objects whose locale is kept."},
  {"property": "C106", "status": "proved", "theorems": ["buffer_reading_has_no_data_race", "buffer_is_read_from_back_to_front", "buffer_reading_is_never_stuck", "buffer_erase_removes_what_was_read"], "note": "For the list of libstdc++ (circular, doubly linked, sentinel); the C++ standard itself does not promise that iterating and inserting elsewhere do not race."},
  {"property": "C107", "status": "partial", "theorems": ["batch_entries_are_in_the_file_refuted", "batch_loses_only_the_entry_that_threw", "batch_entries_are_in_the_file_partial", "rotating_batch_loses_only_the_entry_that_threw", "rotating_batch_entries_are_in_the_files_partial", "writers_that_do_not_throw"], "note": "Refuted: an entry whose log writer throws filesystem_error is lost. Proved, with rotation too, that at most this entry is lost and none if the log writers do not throw."},
  {"property": "C108", "status": "partial", "theorems": ["writer_exceptions_are_contained_refuted", "writer_exceptions_are_contained_partial", "header_writer_exceptions_are_contained_refuted"], "note": "Refuted for exceptions other than filesystem_error (always std::terminate); proved for filesystem_error."},
  {"property": "C109", "status": "partial", "theorems": ["failed_header_is_written_again_refuted", "failed_header_keeps_the_file_empty_partial", "failed_header_keeps_the_file_empty_rotating_partial", "failed_header_after_rotation_partial", "header_is_written_to_an_empty_file", "header_is_written_to_an_empty_file_rotating"], "note": "Refuted when the header writer had already written text; proved otherwise, with rotation too."},
  {"property": "C11", "status": "proved", "theorems": ["utf8_decoding_follows_table_3_7"], "note": ""},
  {"property": "C110", "status": "proved", "theorems": ["log_file_stays_where_it_was_first_written"], "note": ""},
  {"property": "C111", "status": "partial", "theorems": ["create_dirs_lets_every_batch_open_refuted", "create_dirs_lets_every_batch_open_partial", "without_create_dirs_no_directory_is_made"], "note": "Refuted when the directory is removed later; proved otherwise. Without create_dirs no directory is made."},
  {"property": "C112", "status": "proved", "theorems": ["log_write_is_lazy", "log_stream_is_lazy"], "note": "The order of function arguments is any order; operands of << from left to right (C++17)."},
  {"property": "C113", "status": "proved", "theorems": ["log_write_adds_the_message", "log_stream_adds_the_message", "log_write_adds_at_most_one", "log_stream_adds_at_most_one"], "note": "For every sequence of answers of should_log."},
  {"property": "C114", "status": "partial", "theorems": ["log_write_with_throwing_operand_partial", "log_stream_with_throwing_operand_refuted", "log_stream_with_throwing_operand"], "note": "Proved for the write, writef and format macros; refuted for the stream macro, which logs the part of the message before the exception."},
  {"property": "C115", "status": "partial", "theorems": ["log_write_survives_partial", "log_stream_survives_refuted", "log_stream_survives_partial"], "note": "Proved for the write, writef and format macros; the stream macro ends the process only if the first call of add_log_to_buffer throws."},
  {"property": "C116", "status": "partial", "theorems": ["log_write_evaluates_its_logger_once_refuted", "log_write_logger_evaluations", "log_stream_logger_evaluations"], "note": "Refuted: evaluated twice exactly when the first check passes."},
  {"property": "C117", "status": "partial", "theorems": ["pool_has_no_data_race_refuted", "pool_has_no_data_race_with_one_call_refuted", "pool_has_no_data_race_partial", "pool_without_run_at_has_no_data_race", "pool_destruction_has_no_data_race_partial", "pool_destruction_has_no_data_race_refuted"], "note": "The statement is false for m_scheduler (refuted with an execution of two calls of run_at, and with one of a single call). Every other member is free of races up to the end of the body of the destructor, and during the destruction of the members if all scheduler threads have ended (C78; refuted if not); so are all members, their destruction included, in programs without run_at and run_after."},
  {"property": "C118", "status": "proved", "theorems": ["logger_has_no_data_race"], "note": "The elements of a buffer, which the logging thread reads without the mutex, are C106."},
  {"property": "C119", "status": "partial", "theorems": ["tasks_may_call_the_pool_refuted", "tasks_may_call_the_pool_partial"], "note": "False for copy constructors and destructors of values captured by a task, which run under m_mutex; proved for programs in which these do not use the pool."},
  {"property": "C12", "status": "proved", "theorems": ["utf8_utf32_round_trip"], "note": ""},
  {"property": "C120", "status": "partial", "theorems": ["writers_may_call_the_logger_refuted", "writers_may_call_the_logger_partial"], "note": "False for copy constructors and destructors of values captured by a writer, which run under m_configMutex; proved for programs in which these do not use the logger."},
  {"property": "C121", "status": "proved", "theorems": ["pool_mutex_owner_goes_on", "pool_goes_on_until_all_threads_have_ended", "logger_mutex_owner_goes_on", "logger_goes_on_until_all_threads_have_ended"], "note": "For captured values that do not use the pool or the logger (otherwise see C119, C120). Waits for conditions of the pool are C56-C78."},
  {"property": "C122", "status": "proved", "theorems": ["reverse_reverses"], "note": "std::reverse is modelled as its loop, both variants of libstdc++."},
  {"property": "C123", "status": "partial", "theorems": ["sort_with_is_less_sorts", "sort_with_is_less_has_one_result", "sort_with_is_greater_is_reversed", "sort_with_is_iless_ignores_case", "sort_with_a_strict_weak_order_partial", "sort_with_every_comparison_refuted", "sort_overlapping_ranges_refuted", "sort_ranges_that_do_not_overlap"], "note": "std::sort is its contract. The statement is false for comparisons that are not strict weak orders on the elements; proved for the others."},
  {"property": "C124", "status": "proved", "theorems": ["filter_calls_the_predicate_once_in_order"], "note": "std::remove_if is modelled as its loop in libstdc++."},
  {"property": "C125", "status": "proved", "theorems": ["map_into_set_keeps_the_first_of_equivalent_elements", "map_into_map_replaces_values_refuted"], "note": "Destinations that allow equivalent elements and hashed ones are not modelled. The expectation that results replace values already there is refuted."},
  {"property": "C126", "status": "partial", "theorems": ["map_into_itself_ends_refuted", "map_vector_into_itself_refuted", "map_into_itself_partial"], "note": "False for every non-empty container; true for empty ones."},
  {"property": "C127", "status": "partial", "theorems": ["round_of_integer_is_exact_refuted", "round_of_integer_partial", "round_of_integer_is_exact_iff", "round_of_integer_error", "pow_of_integers_is_exact_refuted", "pow_of_small_integers_partial", "pow_of_integers_is_exact_iff", "pow_of_minus_one_refuted"], "note": "False beyond 2^53; the exact set of integers for which round is exact is proved, and, for any std::pow that returns the power where it is a double, that of the integers for which pow is."},
  {"property": "C128", "status": "partial", "theorems": ["locale_functions_use_their_locale", "ignore_case_functions_are_defined", "locale_functions_do_not_throw_partial", "default_locale_does_not_throw_refuted", "locale_functions_accept_every_character_type_refuted"], "note": "Which locale is used and when an exception is thrown is proved for all programs; that no exception is thrown is refuted."},
  {"property": "C129", "status": "partial", "theorems": ["pool_constructor_failures", "pool_constructor_throws_refuted", "pool_failed_calls_move_no_task", "pool_failed_calls_have_no_effect_partial", "pool_failed_run_at_has_no_effect_refuted", "pool_failed_target_has_no_effect_refuted", "pool_failed_target_throws_refuted", "pool_survives_failures_refuted", "pool_target_without_failures", "pool_target_failures"], "note": "Refuted for run_at once its task is stored, for target_workers_size and for the constructor; what a failing call changes is proved exactly."},
  {"property": "C13", "status": "proved", "theorems": ["utf16_utf32_round_trip", "utf8_utf16_round_trip"], "note": ""},
  {"property": "C130", "status": "partial", "theorems": ["pool_with_failures_tasks_are_in_one_place", "pool_with_failures_starts_the_first_of_the_highest_priority", "pool_with_failures_getters_are_exact", "pool_with_failures_run_at_is_not_early", "pool_with_failures_run_sync_waits_for_its_task", "pool_with_failures_wait_all_returns_only_when_idle", "pool_with_failures_runs_all_tasks", "pool_with_failures_destructor_returns", "pool_with_failures_size_at_least_target_partial", "pool_with_failures_due_tasks_are_queued_partial", "pool_with_failures_due_tasks_are_queued_refuted"], "note": "Due tasks are not queued after a scheduler thread failed to start (refuted); proved otherwise."},
  {"property": "C131", "status": "partial", "theorems": ["pool_completes_higher_priorities_first_partial", "pool_completes_higher_priorities_first_refuted", "pool_is_no_larger_than_asked"], "note": "Refuted with two workers, proved for at most one."},
  {"property": "C132", "status": "partial", "theorems": ["pool_wait_all_in_a_task_never_returns", "pool_wait_all_in_a_task_returns_refuted", "pool_wait_none_in_a_task_never_returns", "pool_wait_none_in_a_task_returns_refuted"], "note": "Refuted; proved that the calls never return."},
  {"property": "C133", "status": "partial", "theorems": ["pool_destructor_returns_with_run_sync_refuted", "pool_run_sync_is_lost_by_the_destructor", "pool_run_sync_returns_when_destroyed_refuted"], "note": "Refuted for both actions; the positive part is C58."},
  {"property": "C134", "status": "partial", "theorems": ["pool_run_after_time", "pool_run_after_is_defined_refuted", "pool_run_after_waits"], "note": "Proved where the addition does not overflow."},
  {"property": "C135", "status": "partial", "theorems": ["float_min_is_the_first_least_partial", "float_max_is_the_first_greatest_partial", "float_min_max_ignore_nan_refuted", "float_min_of_two_partial", "float_min_of_two_is_symmetric_refuted"], "note": "False if the first element, or one of two arguments, is NaN; proved for every other container, with NaN anywhere else."},
  {"property": "C136", "status": "partial", "theorems": ["float_equals_compares_values", "float_contains_compares_values", "float_nan_is_never_found_refuted", "float_equals_is_reflexive_refuted", "float_is_false_only_for_zero", "float_is_true_unless_zero", "float_any_all_test_for_zero"], "note": "False for NaN; values are compared otherwise."},
  {"property": "C137", "status": "partial", "theorems": ["float_abs_is_the_absolute_value", "float_abs_clears_the_sign_refuted"], "note": "The value is right for every number; the sign bit of -0.0 stays set."},
  {"property": "C138", "status": "partial", "theorems": ["float_sort_is_undefined_iff", "float_sort_sorts_partial", "float_sort_with_nan_refuted"], "note": "Undefined exactly for containers with a NaN and two different numbers; sorted otherwise."},
  {"property": "C139", "status": "partial", "theorems": ["float_addition_is_nearest", "float_nearest_is_unique", "float_sum_is_exact_partial", "float_sum_in_any_order_partial", "float_sum_error", "float_sum_of_integers_partial", "float_sum_with_nan", "float_sum_is_exact_refuted", "float_sum_in_any_order_refuted", "float_sum_is_finite_refuted"], "note": "False in general; exactness conditions and an error bound are proved."},
  {"property": "C14", "status": "proved", "theorems": ["direct_conversion_is_two_step_conversion", "conversions_compose"], "note": ""},
  {"property": "C140", "status": "partial", "theorems": ["float_sum_into_integer_steps", "float_sum_into_integer_has_one_result", "float_sum_into_integer_partial", "float_sum_into_integer_drops_fractions", "float_sum_into_integer_is_near_refuted", "float_sum_into_integer_is_defined_refuted"], "note": "False in general; every step is characterized and the exact case is proved."},
  {"property": "C141", "status": "proved", "theorems": ["float_round_is_the_nearest_integer", "float_round_not_finite", "float_round_of_integer"], "note": "std::round as the standard specifies it; the integers of C127 are these doubles."},
  {"property": "C142", "status": "partial", "theorems": ["logger_crash_loses_only_memory", "logger_crash_with_rotation", "logger_crash_any_settings", "logger_crash_keeps_closed_files", "logger_crash_keeps_written_entries_refuted"], "note": "Kills of the process; not failures of the operating system. With settings that change, the files are a subsequence of the bytes."},
  {"property": "C143", "status": "partial", "theorems": ["logger_crashes_damage_only_end_and_beginning", "logger_crashes_damage_only_ends_of_parts", "logger_restart_keeps_lines_apart_refuted"], "note": "Proved for all but the first and the last entry of each process in each file, which is where lines can be joined or cut (refuted for them)."},
  {"property": "C144", "status": "partial", "theorems": ["logger_crash_keeps_headers", "logger_restart_keeps_headers_refuted", "logger_crashes_keep_one_header"], "note": "A whole header is guaranteed after the first crash and refuted for the second process. What any number of crashes keeps: a file begins with a part of the header and only parts of lines follow."},
  {"property": "C145", "status": "proved", "theorems": ["logger_crashes_keep_files_small"], "note": ""},
  {"property": "C146", "status": "proved", "theorems": ["logger_crashes_without_rotation", "logger_crashes_with_rotation", "logger_crashes_any_settings"], "note": "A process that ends normally is one killed after its last event."},
  {"property": "C147", "status": "proved", "theorems": ["logger_stream_buffer_changes_nothing"], "note": "Refinement: every run with a buffered stream is a run of LogFileModel.v."},
  {"property": "C148", "status": "proved", "theorems": ["logger_crash_retains_text", "logger_crashes_retain_text"], "note": ""},
  {"property": "C149", "status": "partial", "theorems": ["instance_used_alive", "instance_logger_first", "instance_only_main_uses", "instance_task_logs_refuted", "instance_destructor_logs_refuted", "instance_writer_builds_refuted"], "note": "Proved when the object is built first; refuted for programs that use the pool, or build another static object, before the logger."},
  {"property": "C15", "status": "proved", "theorems": ["conversion_output_is_well_formed"], "note": ""},
  {"property": "C150", "status": "partial", "theorems": ["instance_program_ends", "instance_crossed_constructors_refuted"], "note": "Proved for constructors that do not use each other in a circle, refuted for those that do."},
  {"property": "C151", "status": "partial", "theorems": ["str_groups_the_digits", "str_without_separators_is_the_numeral", "str_without_grouping_is_the_numeral_partial", "str_with_grouping_is_the_numeral_refuted"], "note": "Refuted for locales that group digits (str(1000) is \"1,000\" under en_US); what str writes is specified exactly for every grouping."},
  {"property": "C152", "status": "proved", "theorems": ["str_to_inverts_str_with_grouping"], "note": "For every grouping and every separator that is neither a digit nor a sign."},
  {"property": "C153", "status": "partial", "theorems": ["str_to_without_separators_partial", "str_to_reads_across_separators", "str_to_ignores_separators", "str_to_reads_the_number_across_separators", "str_to_of_separators_is_zero", "str_to_stops_after_the_number_refuted", "str_to_of_separators_and_white_space_is_zero", "str_to_of_every_text_with_grouping"], "note": "Refuted: \"1,5\" is read as 15 under en_US. Proved for texts without the separator; what every other text is read as is proved too, all cases together in str_to_of_every_text_with_grouping."},
  {"property": "C154", "status": "partial", "theorems": ["log_line_with_any_numbers", "log_line_columns_exactly_if_the_numbers_fit", "log_line_columns_with_thousands_partial", "log_line_columns_with_grouping_refuted"], "note": "Refuted for locales that group digits; the exact condition is proved, for any way of writing numbers and for groups of three."},
  {"property": "C155", "status": "proved", "theorems": ["str_float_shows_six_digits", "str_float_error", "str_float_of_integer", "str_float_of_others"], "note": "Any IEEE 754 binary format; printf is taken to be exact and the locale to be the classic one."},
  {"property": "C156", "status": "partial", "theorems": ["str_to_float_nearest", "str_to_float_overflow", "str_to_float_without_number", "str_to_float_without_exponent", "str_to_float_undefined", "str_to_float_infinity_refuted"], "note": "Refuted for infinities and NaN, which are read as 0; otherwise the nearest finite number, also beyond the largest one."},
  {"property": "C157", "status": "partial", "theorems": ["str_to_float_inverts_str_refuted", "str_to_float_inverts_str_of_six_digits", "str_to_float_inverts_str_only", "str_to_float_inverts_str_of_small", "str_to_float_of_str_error", "str_of_str_to_float", "str_to_float_of_str_not_finite", "str_float_of_integer"], "note": "Refuted in general; proved for the nearest numbers of decimal numbers of up to six digits, with an error bound for all others."},
  {"property": "C158", "status": "proved", "theorems": ["any_calls_until_true", "all_calls_until_false", "find_if_calls_until_true", "count_if_calls_once_each", "for_each_stops_at_an_exception", "map_stops_at_an_exception", "map_returns_all_results_or_throws"], "note": ""},
  {"property": "C159", "status": "partial", "theorems": ["filter_that_throws_keeps_the_elements_refuted", "filter_that_throws_leaves", "filter_is_defined", "filter_that_throws_keeps_the_elements_partial", "filter_that_throws_at_once_changes_nothing", "filter_that_throws_makes_no_new_values"], "note": "Refuted: elements are lost, duplicated or moved-from. What is left is proved exactly."},
  {"property": "C16", "status": "proved", "theorems": ["conversions_resynchronise", "conversions_only_append"], "note": ""},
  {"property": "C160", "status": "partial", "theorems": ["filter_with_a_predicate_that_carries_its_state_refuted", "filter_starts_the_predicate_again", "filter_with_a_predicate_that_carries_its_state_partial"], "note": "Refuted: the predicate starts again after the first dropped element. Proved for predicates whose answers do not depend on their state."},
  {"property": "C161", "status": "partial", "theorems": ["added_tasks_run_once", "resources_released_refuted", "resource_kept_iff_addition_fails", "resource_kept_iff_constructor_fails", "resources_released_partial", "resources_released_if_added_first"], "note": "Tasks run once in reverse order for every failure. Releasing is refuted when an addition fails; proved without failing additions, and always if the task is added before the resource is acquired."},
  {"property": "C162", "status": "partial", "theorems": ["version_macros_of_standards", "version_macros_of_drafts_refuted", "version_macros_of_any_value", "version_macros_go_down", "version_macros_go_down_refuted", "feature_macros", "macros_of_the_user_are_kept", "text_macros"], "note": "Proved for published standards; refuted for drafts and for macros defined by the user. The exact condition is proved for every value."},
  {"property": "C163", "status": "partial", "theorems": ["standard_includes_the_standard", "standard_builds", "standard_builds_refuted", "standard_needs_headers_of_11"], "note": "Proved from C++ 11 on; refuted for C++ 98. The tables of headers in VersionSpec.v are those of the standards without Annex D."},
  {"property": "C164", "status": "partial", "theorems": ["pool_owns_each_callable_once", "pool_wait_all_returns_after_release", "pool_run_sync_returns_after_release_refuted", "pool_worker_releases_its_task", "pool_at_rest_owns_no_finished_task", "pool_destructor_leaves_tasks_not_started"], "note": "Refuted for run_sync, proved for wait_until_all_tasks_complete, for a pool at rest and for the destructor."},
  {"property": "C165", "status": "proved", "theorems": ["gm_time_starts_at_the_epoch", "gm_time_follows_the_calendar", "the_calendar_is_unique", "local_time_is_shifted", "gm_time_is_injective"], "note": "The conversions of the C library are modelled, without leap seconds and failures."},
  {"property": "C166", "status": "partial", "theorems": ["log_lines_sort_by_time_refuted", "log_lines_tell_the_time_refuted", "old_log_lines_sort_by_time_refuted", "log_lines_sort_by_local_time", "log_lines_sort_by_time_partial", "log_lines_tell_the_time_partial", "text_order_is_equality", "log_lines_sort_exactly_in_zones_never_set_back", "log_lines_tell_exactly_times_shown_once"], "note": "Refuted in zones whose clocks are set back and before 1970; proved for zones whose clocks are never set back, and that this is exactly when it holds; in all zones the order of the stamps is that of local time."},
  {"property": "C167", "status": "partial", "theorems": ["is_logging_partial", "is_logging_refuted"], "note": "False in general: false while the thread is still writing in the destructor. Proved: true exactly until the destructor begins, and then the thread runs."},
  {"property": "C168", "status": "partial", "theorems": ["source_strings_partial", "source_strings_needed", "source_strings_refuted"], "note": "False in general: strings that end with the call are read later. Proved: living until the entry is over is enough, and needed for accepted entries that are not written."},
  {"property": "C169", "status": "proved", "theorems": ["defaults_drop_nothing", "defaults_log_everything"], "note": ""},
  {"property": "C17", "status": "proved", "theorems": ["conversions_stay_in_bounds"], "note": ""},
  {"property": "C170", "status": "partial", "theorems": ["defaults_documented_partial", "defaults_documented_refuted", "default_limit_deletes", "documented_limit_keeps"], "note": "False: the default rotation limit is 0, documented as 1, and a rotation with it deletes the log. The other defaults agree."},
  {"property": "C171", "status": "partial", "theorems": ["safe_lru_throwing_linearizable_partial", "safe_lru_throwing_never_crashes_partial", "safe_lru_throwing_never_deadlocks_partial", "safe_lru_throwing_no_data_race", "safe_lru_throwing_unlocks", "safe_lru_throwing_stops", "safe_lru_throwing_terminates", "safe_lru_throwing_refuted", "safe_lru_throwing_defined_partial"], "note": "False for exceptions at the two harmful points of C07. Linearizability, no undefined call and no deadlock are proved while no call has been made that throws there. No data race, release of the lock and the bound on steps are proved wherever calls throw and whatever the order of the keys; threads stop early only when a call was undefined."},
  {"property": "C172", "status": "partial", "theorems": ["pool_default_workers_partial", "pool_without_workers_runs_nothing", "pool_default_workers_refuted"], "note": "Proved where hardware_concurrency() is at least 1 and target_workers_size is not called. Refuted where it is 0, which the standard allows: the pool has no workers, runs nothing and run_sync never returns."},
  {"property": "C173", "status": "partial", "theorems": ["run_sync_promise_partial", "run_sync_promise_destroyed_when_ready", "run_sync_promise_of_a_task_that_throws", "run_sync_promise_of_a_task_that_returns", "run_sync_promise_refuted"], "note": "Proved: every call on the promise begins while it exists, and it is destroyed only after the future is ready; a task that throws ends the process before that. Refuted: set_value may still be running when the promise is destroyed."},
  {"property": "C174", "status": "proved", "theorems": ["log_files_may_be_renamed"], "note": "Without rotation and without failures of the file system; renaming onto an existing file is removing that file (C175)."},
  {"property": "C175", "status": "partial", "theorems": ["log_files_may_be_removed_partial", "log_files_may_be_removed_refuted"], "note": "Proved for batches opened after the removal. Refuted for a removal while the stream is open: what is written to it afterwards is in no file, though the logger erases it from its buffer."},
  {"property": "C176", "status": "partial", "theorems": ["processes_share_a_log_file_partial", "processes_share_a_header_partial", "processes_share_a_log_file_refuted", "processes_share_one_header_refuted"], "note": "Proved: nothing is lost (C174); whole lines, after a header, if the operating system always receives all that the stream holds. Refuted otherwise; and two processes that open a new file together both write a header."},
  {"property": "C177", "status": "partial", "theorems": ["pool_waiting_task_overtaken_partial", "pool_waiting_task_bound_partial", "pool_waiting_task_starves_refuted"], "note": "The precedence and the bound are proved for every execution. The last clause is false: for every m there is an execution of a pool with one worker in which m + 1 tasks of higher priority, all given after it, start while task 0 waits."},
  {"property": "C178", "status": "proved", "theorems": ["logger_reads_refine", "logger_reads_allow_the_rest", "logger_reads_write_in_order", "logger_reads_count_every_call", "logger_reads_flush"], "note": "The model of C59 with the two reads in separate steps. It is refined by the model of C59 up to moving calls of buffer_max_size(n) to later places."},
  {"property": "C179", "status": "partial", "theorems": ["processes_rotate_a_log_file_partial", "processes_rotate_a_log_file_refuted", "processes_rotate_a_log_file_otherwise", "processes_rotate_in_order", "processes_rotate_whole_lines"], "note": "Refuted in general: two processes that rotate at the same time can overwrite a file within the limit. Proved if no process begins to rotate while another does; in every execution, what is lost was removed beyond the limit or overwritten by such a renaming. Whole lines if flushes are whole (see C176)."},
  {"property": "C18", "status": "proved", "theorems": ["utf16_decoding_follows_surrogate_rules"], "note": ""},
  {"property": "C180", "status": "partial", "theorems": ["log_file_with_two_names_partial", "log_file_with_two_names_refuted"], "note": "Refuted: entries of different names of a file are written in the order of the buffers, not of the calls. Proved: nothing but what rotation removes is lost, each entry is there once, and the entries of each name are in order."},
  {"property": "C181", "status": "partial", "theorems": ["log_file_is_read_back_partial", "log_message_is_after_a_bar", "log_file_is_read_back_refuted"], "note": "Refuted for messages with line breaks; proved for all others, as an equivalence."},
  {"property": "C182", "status": "partial", "theorems": ["full_disk_files_partial", "full_disk_without_rotation_partial", "full_disk_keeps_lines_whole_refuted"], "note": "Whole lines are refuted; what is in the files is proved for every execution."},
  {"property": "C183", "status": "partial", "theorems": ["split_example_columns_partial", "split_example_header_columns", "split_example_one_file_for_each_level", "setters_example_shows_the_entry", "setters_example_time_partial", "setters_example_time_refuted"], "note": "The time in log_with_setters and log_with_macros is refuted, and when it is right is proved as an equivalence."},
  {"property": "C184", "status": "partial", "theorems": ["reverse_that_throws_keeps_the_elements_refuted", "reverse_that_throws_keeps_the_elements_partial", "reverse_may_throw_at_each_pair", "reverse_is_defined", "filter_whose_assignment_throws", "filter_whose_assignment_throws_is_defined", "replace_that_throws_changes_nothing_refuted", "replace_that_throws_partial", "replace_of_nothing_that_throws_partial", "short_replacement_does_not_throw", "replace_again_gives_the_same_refuted", "replace_any_of_that_throws_partial", "replace_any_of_again_completes", "replace_any_of_again_completes_refuted"], "note": "Refuted in general: reverse may lose an element, and the string functions leave some occurrences replaced. What is left is determined for all element types and all ways to throw. Missing: std::sort, which does not say what is left when it throws."},
  {"property": "C185", "status": "partial", "theorems": ["time_never_decreases_on_any_clock_refuted", "time_on_any_clock", "time_on_a_clock_set_while_stopped", "time_on_an_accurate_clock", "parts_read_one_after_another", "hours_minutes_seconds_within_a_minute"], "note": "Refuted for clocks that are set back while the stopwatch runs, and for parts read while a larger unit ends (parts_of_a_running_stopwatch_recombine_refuted, C44); the exact error is proved for every clock and all readings."},
  {"property": "C186", "status": "partial", "theorems": ["test_wait_until_all_tasks_complete_passes", "test_on_stop_complete_tasks_passes", "test_wait_until_no_tasks_waiting_passes_partial", "test_wait_until_no_tasks_waiting_refuted", "test_run_sync_reads_partial", "test_run_sync_passes_exactly", "test_run_sync_refuted", "test_run_sync_has_high_priority_reads_partial", "test_run_sync_has_high_priority_refuted", "test_on_stop_join_all_reads_partial", "test_on_stop_join_all_refuted", "test_run_async_refuted", "test_sanity_passes_partial", "test_run_after_passes_partial", "test_scheduler_restarted_passes_partial", "test_sanity_refuted", "test_run_after_refuted", "test_run_after_terminates_refuted", "test_thread_is_not_blocked", "test_without_scheduling_stays_alive"], "note": "Refuted for the tests that race with the workers. Proved for all numbers of workers and tasks and all interleavings: the tests of wait_until_all_tasks_complete and of CompleteTasks; test_run_sync exactly with one worker or at most one task; the tests that sleep, if the pool is at rest when the sleep ends. Missing: nothing is said about how probable the failing interleavings are."},
  {"property": "C187", "status": "partial", "theorems": ["logger_tests_pass_at_rest_partial", "logger_tests_read_right_at_rest_partial", "logger_count_tests_refuted", "logger_message_tests_refuted", "last_log_message_is_exact", "count_logs_is_exact"], "note": "Refuted in general (the tests do not wait for the logging thread). The pass at rest is proved for every list of tests; the file is seen as all that was written (the stream's buffer is C147's), and the format \"%z\" of one test, undefined in C, is not modelled."},
  {"property": "C188", "status": "partial", "theorems": ["six_stopwatch_tests_never_fail", "five_stopwatch_tests_never_fail_exactly", "four_stopwatch_tests_refuted", "four_stopwatch_tests_pass_exactly"], "note": "Refuted for four of fifteen tests; for five it is shown to depend exactly on the clock's period; six never fail."},
  {"property": "C189", "status": "proved", "theorems": ["log_files_are_header_and_lines", "log_files_after_the_destructor", "log_file_after_the_destructor"], "note": "Streams are not buffered here (C147 shows that this changes nothing without a crash), writes to an open stream succeed (C182 treats a full disk), and the disk has no older files of the log."},
  {"property": "C19", "status": "proved", "theorems": ["string_conversions_are_inverse"], "note": ""},
  {"property": "C190", "status": "partial", "theorems": ["str_float_in_a_locale", "str_float_not_finite_in_a_locale", "str_float_of_integer_in_a_locale", "float_text_in_the_classic_locale", "str_to_float_nearest_in_a_locale", "str_to_float_same_in_all_locales", "str_to_float_of_str_in_a_locale", "str_to_float_of_str_with_one_separator_refuted", "str_to_float_of_another_locale_refuted", "str_to_float_without_a_point", "str_to_float_of_a_leading_separator", "str_to_float_of_two_separators", "str_to_float_undefined_in_a_locale"], "note": "Refuted if the point and the separator are the same character, and for texts of another locale; proved for all other locales, numbers and texts."},
  {"property": "C191", "status": "proved", "theorems": ["conversions_keep_the_code_points", "string_order_is_code_point_order", "utf16_string_order", "conversions_keep_the_order", "utf16_conversion_order_refuted", "conversion_sizes_bounded", "conversion_size_bounds_reached"], "note": "For every platform and pair of string types. UTF-16 has an order of its own; the order theorem for it needs an unsigned unit type, as wchar_t of Windows and char16_t are. The bounds on sizes hold for malformed strings too."},
  {"property": "C192", "status": "proved", "theorems": ["split_of_text", "replace_of_text", "join_of_texts", "empty_separator_cuts_characters_refuted", "find_in_text", "contains_in_text", "split_any_of_text_by_characters", "replace_any_of_text_by_characters", "split_space_of_text", "strip_of_text", "ascii_characters_are_whole", "sets_of_longer_characters_refuted", "split_and_conversion_commute", "replace_and_conversion_commute", "join_and_conversion_commute"], "note": "Stated with the same model functions on units and on code points. The conditions (separator not empty, sets and spaces of characters of one unit) are those under which it holds; without them there are counterexamples."},
  {"property": "C193", "status": "partial", "theorems": ["change_of_case_in_text", "change_of_case_and_conversion_commute", "iequals_of_texts", "ifind_in_text", "icontains_in_text", "is_lower_of_text", "classic_locale_changes_whole_characters", "change_of_case_in_any_locale_refuted"], "note": "Refuted for locales whose case functions change bytes beyond ASCII; proved for all case functions that change only characters of one unit into characters of one unit, which the classic locale's are."},
  {"property": "C194", "status": "partial", "theorems": ["lru_compare_capacity_refuted", "lru_compare_emplace_refuted", "lru_compare_partial", "lru_compare_throw_partial", "lru_compare_stays_partial", "lru_compare_within_partial", "lru_compare_model_partial"], "note": "Missing: a throw inside emplace (refuted) and capacity(n) leaving the old cache (refuted). Every other throwing comparison is covered for all histories."},
  {"property": "C195", "status": "partial", "theorems": ["lru_throwing_defined_refuted", "lru_throwing_latest_partial", "lru_compare_latest"], "note": "Missing: a throw of push_front in move_to_front (refuted)."},
  {"property": "C196", "status": "partial", "theorems": ["safe_lru_comparing_refuted", "safe_lru_comparing_linearizable_partial", "safe_lru_comparing_never_crashes", "safe_lru_comparing_never_deadlocks", "safe_lru_comparing_no_data_race", "safe_lru_comparing_unlocks", "safe_lru_comparing_terminates"], "note": "Missing: linearizability after a throw inside emplace, and the capacity as a bound (refuted)."},
  {"property": "C197", "status": "partial", "theorems": ["lru_throwing_bound_refuted", "lru_throwing_bound_partial", "lru_throwing_bound_since_clear_partial", "lru_compare_bound"], "note": "Missing: at most capacity() pairs after a throw in emplace (refuted; the excess is bounded by the number of throws since the cache was last emptied) and a throw of push_front in move_to_front (then calls are undefined, C195)."},
  {"property": "C198", "status": "partial", "theorems": ["safe_lru_throwing_bound_refuted", "safe_lru_throwing_bound_partial"], "note": "Missing: at most capacity() pairs after a throw in emplace (refuted; the excess is bounded by the number of such calls) and a throw of push_front in move_to_front."},
  {"property": "C20", "status": "proved", "theorems": ["join_inverts_split"], "note": "every element type, string and separator, including empty ones"},
  {"property": "C21", "status": "proved", "theorems": ["split_cuts_leftmost", "split_with_empty_separator", "split_inverts_join"], "note": ""},
  {"property": "C22", "status": "proved", "theorems": ["split_on_spaces"], "note": "for every classification of characters"},
  {"property": "C23", "status": "proved", "theorems": ["split_any_of_runs", "runs_are_unique"], "note": ""},
  {"property": "C24", "status": "proved", "theorems": ["replace_substitutes_leftmost", "replace_empty_inserts_everywhere"], "note": "arguments not aliased, see C70"},
  {"property": "C25", "status": "proved", "theorems": ["replace_any_of_substitutes_once"], "note": "arguments not aliased"},
  {"property": "C26", "status": "proved", "theorems": ["lstrip_removes_leading_spaces", "rstrip_removes_trailing_spaces", "strip_removes_surrounding_spaces"], "note": ""},
  {"property": "C27", "status": "proved", "theorems": ["bin_oct_hex_print_the_value", "numerals_are_unique"], "note": "every width of n bytes, n > 0, and every integer; right shift of negative values is taken to be arithmetic (implementation-defined before C++20)"},
  {"property": "C28", "status": "proved", "theorems": ["join_interleaves", "map_join_calls_in_order"], "note": ""},
  {"property": "C29", "status": "proved", "theorems": ["find_is_first_occurrence", "rfind_is_last_occurrence", "contains_means_occurs", "find_and_rfind_of_elements", "contains_elem_means_member"], "note": ""},
  {"property": "C30", "status": "proved", "theorems": ["starts_with_means_prefix", "ends_with_means_suffix"], "note": "both code paths"},
  {"property": "C31", "status": "partial", "theorems": ["starts_ends_with_any_predicate", "paths_agree_partial", "paths_agree_refuted"], "note": "the claim is false for asymmetric predicates (refuted); proved for symmetric ones, and what each path computes is proved for every predicate"},
  {"property": "C32", "status": "proved", "theorems": ["case_insensitive_comparisons_are_consistent"], "note": ""},
  {"property": "C33", "status": "proved", "theorems": ["i_functions_are_plain_functions_on_upper_case", "equals_means_elementwise"], "note": ""},
  {"property": "C34", "status": "proved", "theorems": ["slice_is_python_slice"], "note": ""},
  {"property": "C35", "status": "proved", "theorems": ["filter_keeps_matching_in_order", "count_is_length_of_filter", "any_all_are_quantifiers", "map_and_for_each_go_in_order", "map_of_a_pure_function"], "note": ""},
  {"property": "C36", "status": "proved", "theorems": ["min_max_return_first_extreme", "min_max_of_empty_undefined", "two_value_min_max"], "note": ""},
  {"property": "C37", "status": "proved", "theorems": ["sum_of_wide_signed_type", "sum_of_unsigned_or_narrow_type"], "note": ""},
  {"property": "C38", "status": "partial", "theorems": ["abs_is_absolute_value_partial", "abs_of_the_minimum", "abs_is_not_negative_refuted"], "note": "false for the most negative value of signed types (refuted, with the exact outcome); proved for every other value"},
  {"property": "C39", "status": "proved", "theorems": ["range_less_is_lexicographic", "range_less_is_total_order", "range_operators_are_consistent"], "note": ""},
  {"property": "C40", "status": "proved", "theorems": ["overlap_before_after_partition", "overlap_is_symmetric_and_reflexive", "overlap_means_shared_point", "reversed_ranges_are_both_less_refuted"], "note": ""},
  {"property": "C41", "status": "partial", "theorems": ["less_no_overlap_is_partial_order_partial", "less_no_overlap_is_weak_order_refuted"], "note": "not a strict weak order (refuted); proved to be a strict partial order, total on pairwise non-overlapping ranges"},
  {"property": "C42", "status": "proved", "theorems": ["time_is_total_running_time", "is_running_after_start_until_stop", "redundant_start_and_stop_have_no_effect", "stop_and_time_stops_and_returns_the_time"], "note": "durations are unbounded integers"},
  {"property": "C43", "status": "proved", "theorems": ["time_is_not_negative", "time_never_decreases", "time_is_constant_while_stopped"], "note": ""},
  {"property": "C44", "status": "proved", "theorems": ["parts_recombine", "parts_are_in_range", "units_are_rounded_down", "parts_of_a_running_stopwatch_recombine_refuted"], "note": "any clock period; the claim excludes running stopwatches, for which it is refuted"},
  {"property": "C45", "status": "proved", "theorems": ["guard_runs_each_task_once_in_reverse", "guard_constructed_with_a_task", "guard_calls_the_stack_in_order"], "note": ""},
  {"property": "C46", "status": "partial", "theorems": ["success_and_fail_guards_follow_their_scope_partial", "success_and_fail_guards_during_unwinding_refuted", "when_guards_run_exactly"], "note": "false for guards constructed during unwinding (refuted); proved for all others, and the exact condition in every case"},
  {"property": "C47", "status": "partial", "theorems": ["added_task_is_run_refuted", "destructor_terminates_with_adding_tasks_refuted", "adding_keeps_the_task_and_drops_the_last_added"], "note": "the claim is false (refuted); what happens instead is proved"},
  {"property": "C48", "status": "proved", "theorems": ["pool_tasks_are_in_one_place"], "note": "Every submitted task is in exactly one of scheduled, waiting, running, completed."},
  {"property": "C49", "status": "proved", "theorems": ["pool_starts_the_first_of_the_highest_priority", "pool_queue_is_entered_not_started"], "note": ""},
  {"property": "C50", "status": "proved", "theorems": ["pool_getters_are_exact"], "note": "A worker counts as executing from taking the task until it locks the mutex again after it."},
  {"property": "C51", "status": "proved", "theorems": ["pool_runs_all_tasks", "pool_becomes_quiescent"], "note": "For tasks that neither throw nor wait for other tasks."},
  {"property": "C52", "status": "proved", "theorems": ["pool_size_at_least_target", "pool_target_takes_effect", "pool_size_converges"], "note": ""},
  {"property": "C53", "status": "partial", "theorems": ["pool_wait_all_returns_only_when_idle", "pool_wait_all_returned_when_idle", "pool_wait_all_returns_partial", "pool_wait_all_returns_refuted"], "note": "Proved for a target of at least one worker; refuted for a target of 0."},
  {"property": "C54", "status": "proved", "theorems": ["pool_run_sync_waits_for_its_task", "pool_run_sync_returned_after_its_task", "pool_run_sync_returns"], "note": ""},
  {"property": "C55", "status": "proved", "theorems": ["pool_run_at_is_not_early", "pool_scheduler_waits_for_the_earliest"], "note": ""},
  {"property": "C56", "status": "partial", "theorems": ["pool_run_at_is_safe_partial", "pool_run_at_is_safe_refuted", "pool_two_run_at_are_safe_refuted", "pool_two_run_at_are_defined_refuted"], "note": "Refuted in general; proved for executions in which, while run_at creates and assigns a scheduler thread, no other run_at is called and the scheduler does not move the last scheduled task (exec_calm)."},
  {"property": "C57", "status": "partial", "theorems": ["pool_complete_tasks_partial", "pool_complete_tasks_refuted", "pool_complete_tasks_no_workers_refuted", "pool_shrinking_starts_nothing"], "note": "Refuted while the pool is being shrunk and for a pool without workers; proved otherwise."},
  {"property": "C58", "status": "proved", "theorems": ["pool_join_all_starts_nothing", "pool_destructor_returns"], "note": ""},
  {"property": "C59", "status": "proved", "theorems": ["logger_writes_in_order", "logger_writes_everything", "logger_keeps_the_rest"], "note": "The stream's and the operating system's buffering is not modelled; \"destroyed with a working file system\" is no EFail event after the destructor begins."},
  {"property": "C60", "status": "proved", "theorems": ["logger_counts_every_call", "logger_buffers_are_bounded", "logger_discards_only_when_full"], "note": ""},
  {"property": "C61", "status": "proved", "theorems": ["logger_respects_the_level", "logger_off_accepts_nothing", "logger_checks_the_level"], "note": "The level is the one seen by should_log."},
  {"property": "C62", "status": "partial", "theorems": ["logger_wakes_up", "logger_flushes", "logger_without_setter_is_calm", "logger_flush_size_race_refuted"], "note": "Proved with a fixed flush size and when it is lowered only while the logging thread does not hold its mutex; refuted when it is lowered at any time."},
  {"property": "C63", "status": "partial", "theorems": ["logger_destructor_hangs_refuted", "logger_destructor_returns_partial"], "note": "The claim is false: the wakeup can be lost. It is proved for schedules where notify_all does not fall between the thread's check of the flag and its wait."},
  {"property": "C64", "status": "proved", "theorems": ["rotation_moves_every_file"], "note": "Any disk and any set of failing operations; file numbers without size_t overflow."},
  {"property": "C65", "status": "proved", "theorems": ["logger_writes_an_entry", "logger_writes_a_batch", "logger_files_are_in_order", "logger_drops_only_the_oldest", "logger_drops_nothing_without_rotation", "logger_writes_small_files"], "note": "For single entries, batches, and all executions of the logger with its disk. Writes to open files succeed (C92)."},
  {"property": "C66", "status": "partial", "theorems": ["writef_logs_the_formatted_text", "writef_logs_the_text_or_the_scheme", "writef_empty_text_refuted", "writef_longest_text_refuted"], "note": "Proved for every non-empty text shorter than INT_MAX when allocation succeeds. Refuted for the empty text (the scheme is logged) and for texts of INT_MAX characters (signed overflow). vsnprintf is any function yielding a text or an error, the same one in both calls."},
  {"property": "C67", "status": "proved", "theorems": ["streamer_logs_at_most_once"], "note": "The result of should_log at each end() is arbitrary. Streams of one thread; other stream operations are any text."},
  {"property": "C68", "status": "partial", "theorems": ["log_line_shows_the_entry", "log_line_columns_partial", "log_header_columns", "columns_line_up", "log_line_before_1970_refuted"], "note": "Columns line up for years 1000..9999, times not before 1970, thread ids of at most 7 digits and lines of at most 5 characters; refuted for negative times (the microseconds get a sign). Other ways of writing numbers (locales that group digits, flags left on the stream by custom writers) are C154."},
  {"property": "C69", "status": "proved", "theorems": ["file_name_is_last_component"], "note": ""},
  {"property": "C70", "status": "partial", "theorems": ["replace_by_itself_replaces_once_partial", "replace_by_itself_refuted"], "note": "refuted: replace(s, f, s) replaces only the first occurrence"},
  {"property": "C71", "status": "partial", "theorems": ["slice_of_any_elements_refuted", "slice_of_any_elements_partial"], "note": "The claim is false (refuted); empty slices are right, other slices consist of the two delimiting iterators."},
  {"property": "C72", "status": "partial", "theorems": ["is_lower_means_no_upper_partial", "is_lower_means_all_lower_refuted"], "note": "the claim is false for caseless characters (refuted); what the functions compute is proved for every string"},
  {"property": "C73", "status": "partial", "theorems": ["range_size_is_distance_partial", "range_size_is_defined_refuted"], "note": "undefined for signed types when the distance does not fit (refuted); proved otherwise"},
  {"property": "C74", "status": "proved", "theorems": ["pool_wait_none_returns_only_when_queue_empty", "pool_wait_none_returned_when_queue_empty", "pool_wait_none_blocks_only_while_waiting", "pool_wait_none_returns"], "note": ""},
  {"property": "C75", "status": "proved", "theorems": ["pool_due_tasks_are_queued"], "note": "All executions in which the process has not ended (Terminated or Undefined is C56/C76)."},
  {"property": "C76", "status": "partial", "theorems": ["pool_survives_throwing_tasks_refuted", "pool_throwing_task_ends_the_process", "pool_survives_partial"], "note": "The property is false; a throwing task always ends the process, and without throwing tasks and run_at nothing does (run_at: C56)."},
  {"property": "C77", "status": "partial", "theorems": ["pool_run_sync_in_a_task_returns_refuted", "pool_is_stuck_only_by_its_tasks", "pool_run_sync_in_a_task_returns_partial"], "note": "The property is false for small pools; proved when fewer tasks than workers wait for others, not in a circle, and none is left scheduled for later."},
  {"property": "C78", "status": "partial", "theorems": ["pool_nothing_runs_after_the_destructor", "pool_leaves_no_thread_partial", "pool_leaves_no_thread_refuted"], "note": "No task runs, starts or finishes after the destructor, in all executions. That all threads have ended is refuted by two concurrent calls of run_at (a scheduler thread outlives the pool) and proved for the executions in which, while run_at creates and assigns a scheduler thread, no other run_at is called and the scheduler does not move the last scheduled task (exec_calm)."},
  {"property": "C79", "status": "partial", "theorems": ["pool_complete_tasks_completes_scheduled_refuted", "pool_complete_tasks_completes_due_partial", "pool_scheduled_tasks_are_dropped"], "note": "The property is false; proved for the tasks queued before the destructor is called, and that the others never run."},
  {"property": "C80", "status": "proved", "theorems": ["logger_keeps_the_order_of_each_thread", "logger_times_of_each_thread_are_ordered", "logger_times_are_taken_during_the_call"], "note": ""},
  {"property": "C81", "status": "partial", "theorems": ["logger_times_in_a_file_refuted", "logger_times_of_separate_calls_partial"], "note": "The claim is false; proved for calls of which one begins after the other's entry was accepted (and C80)."},
  {"property": "C82", "status": "proved", "theorems": ["logger_becomes_quiescent"], "note": ""},
  {"property": "C83", "status": "partial", "theorems": ["logger_failing_file_spins_refuted", "logger_sleeps_partial"], "note": "The claim is false: an infinite loop is exhibited; when no further step is possible without the environment the thread sleeps."},
  {"property": "C84", "status": "partial", "theorems": ["logger_full_buffer_is_written_refuted", "logger_full_buffer_is_written_partial"], "note": "The claim is false for 0 < buffer_max_size < buffer_flush_size; proved for flush size at most the maximum (exec_calm, see C62)."},
  {"property": "C85", "status": "proved", "theorems": ["rotation_that_fails_loses_nothing"], "note": ""},
  {"property": "C86", "status": "proved", "theorems": ["logger_files_contain_everything"], "note": "Composition of C59 and C65."},
  {"property": "C87", "status": "proved", "theorems": ["numbered_path_zero", "numbered_path_name", "numbered_paths_differ", "numbered_paths_stay_in_the_directory", "numbered_paths_of_different_logs_differ"], "note": "POSIX paths as strings; a file named \"..\" is excluded."},
  {"property": "C88", "status": "partial", "theorems": ["logs_with_numbered_names_refuted", "logs_leave_others_alone_partial", "logs_leave_others_files_alone_partial"], "note": "The claim is false for a log file whose name ends in an underscore and a number; proved for all other names."},
  {"property": "C89", "status": "partial", "theorems": ["rotation_respects_the_limit", "rotation_leaves_files_after_a_gap_refuted"], "note": "False with a gap in the numbering; proved without."},
  {"property": "C90", "status": "proved", "theorems": ["logger_files_begin_with_a_header"], "note": ""},
  {"property": "C91", "status": "proved", "theorems": ["rotation_terminates", "logger_writes_whole_batches"], "note": ""},
  {"property": "C92", "status": "partial", "theorems": ["logger_failing_write_loses_entries_refuted", "logger_good_writes_lose_nothing", "logger_failing_write_loses_the_rest_partial", "logger_failing_write_of_an_entry", "logger_failing_writes_lose_no_others", "logger_rotates_only_large_files_refuted"], "note": "The claim is false when writes to an open stream fail. For every pattern of failing writes, with and without rotation, the entries that are lost are characterized. Writes that get only a part of the line to the file before failing are C182."},
  {"property": "C93", "status": "proved", "theorems": ["logger_touches_only_its_files"], "note": "Paths are compared as strings."},
  {"property": "C94", "status": "partial", "theorems": ["log_entry_is_one_line", "log_message_forges_an_entry_refuted"], "note": "Proved for entries without line breaks; refuted for messages that contain them."},
  {"property": "C95", "status": "partial", "theorems": ["streamer_after_logging_is_silent", "streamer_end_may_log_later_refuted"], "note": "Proved after an end() that logged; refuted after one that was rejected by the level."},
  {"property": "C96", "status": "proved", "theorems": ["level_names_differ", "level_names_agree", "level_names_fit_their_column", "level_names_of_other_values"], "note": ""},
  {"property": "C97", "status": "partial", "theorems": ["level_off_accepts_entries_of_level_off_refuted", "logger_off_accepts_nothing"], "note": "Refuted for entries of level off; proved for all levels below it."},
  {"property": "C98", "status": "proved", "theorems": ["lower_upper_change_every_character", "lower_is_lower_upper_is_upper"], "note": "ctype::tolower/toupper on a range is the standard's: the function applied to each character."},
  {"property": "C99", "status": "proved", "theorems": ["pool_settings_are_the_last_set"], "note": ""}
]}
