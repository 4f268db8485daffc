# What Print Assumptions lists

Generated by `tools/assumptions.py`. All axioms are from the Coq standard library
(classical real numbers, as used by Flocq).

## Closed under the global context (no axioms)

C01_dictionary_ids, C02_dictionary_frequencies, C03_dictionary_ids_stable, C04_bigram_roundtrip, C05_bigram_bound_sharp, C07_count_types, C08_words_well_defined, C08_read_word, C08_callback_order, C09_forward_context_long, C09_forward_context_loss, C09_forward_context_short, C09_forward_context_degenerate, C13_filters, C17_huffman_structure, C18_huffman_prefix_free, C19_huffman_optimal, C20_huffman_frequent_short, C21_getpath, C22_getpath_race_wrong_path, C22_getpath_race_panic, C22_getpath_alone, C22_getpath_warm_safe, C23_next_random_range, C23_next_random_zero, C24_lcg_period, C24_lcg_reaches_every_state, C24_next_random_every_value, C24_next_random_pow2_period, C26_matrix_rows, C27_trial, C31_window_positions, C31_context, C31_cbow, C33_draws_in_range, C34_never_a_leaf, C36_some_execution_finishes, C37_batch_training, C37_some_execution_finishes, C38_resources, C39_zero_goroutines_batch, C48_rows_in_range, C50_text, C50_mismatch, C50_log_zero, C51_always_success, C51_truncated, C52_special, C54_lines_well_defined, C54_validate, C62_new, C64_new, C66_untouched, C66_refused, C66_refused_prof, C66_success, C66_failed_training, C66_no_retry, C72_batch_read_error_hangs, C84_next_random_concurrent, C84_next_random_repeats, C85_same_work, C88_save, C89_query, C89_query_runs, C91_refused, C101_words, C101_lines, C101_same, C101_too_long, C101_read_word, C101_last_word, C103_whole_period, C103_whole_period_exact, C103_round_robin, C103_low_bits, C103_alternate, C107_ends, C108_path_length, C108_no_cut, C112_save.

## `ClassicalDedekindReals.sig_forall_dec`, `ClassicalDedekindReals.sig_not_dec`, `Classical_Prop.classic`, `FunctionalExtensionality.functional_extensionality_dep`

C06_increment_counts, C07_proximity_add, C10_memory_cooccurrence, C11_file_agrees, C11_file_loses_pairs, C11_file_counts, C11_file_differs_short_or_lower, C12_load, C12_load_fails, C12_log_batch_zero_panics, C14_indexed_doc, C15_batch_words, C15_batch_size_not_positive, C16_batch_words_read_error, C25_index_per_thread, C25_index_per_thread_edge, C27_subsample_values, C27_threshold_real, C27_threshold_range, C27_zero_accepts, C27_large_rejects, C27_negative_rejects, C27_negative_underflow, C28_frequent_words_kept_more, C28_accept_monotone, C29_sigmoid_index, C29_just_below_6_is_largest, C29_sigmoid_nan, C30_sigmoid_range, C30_sigmoid_grid, C30_sigmoid_monotone, C30_table_increasing, C30_sigmoid_increasing, C31_skipgram, C32_cbow_two_windows, C32_cbow_hs_windows_differ, C32_cbow_ns_windows_differ, C33_negative_sampling, C33_negative_sampling_frame, C34_hierarchical_softmax, C35_train_one_safe, C35_window_zero_panics, C36_memory_training, C39_zero_goroutines_memory, C40_rate_in_range, C40_changes_only_at_batches, C40_zero_batch_panics, C41_rate_falls_to_zero, C41_below_min_is_replaced, C41_min_lr_is_no_lower_bound, C42_word2vec_unknown_model, C42_word2vec_unknown_optimizer, C42_word2vec_starts, C42_glove_unknown, C42_lexvec_unknown, C43_items, C43_items_are_the_counted_pairs, C43_weight_in_unit_interval, C44_sgd_step, C44_adagrad_step, C44_item_rows, C44_items_never_panic, C45_accumulators_at_least_one, C45_accumulators_never_decrease, C45_new_accumulators, C46_glove_ignores_filters, C46_glove_items, C47_relation_values, C47_order_independent, C47_ppmi_never_negative, C47_co_is_the_count, C47_unknown_relation, C48_update, C48_train_one, C48_other_rows_unchanged, C49_word2vec_ns, C49_word2vec_hs, C49_glove, C49_lexvec, C53_read, C53_stable, C53_parser_exists, C54_load, C54_load_or_error, C54_valid, C55_save_load, C56_unloadable, C57_rows, C57_once, C58_search, C59_row_count, C59_zero, C59_panics, C60_not_found, C60_found, C60_error_iff, C60_no_self, C61_cosine, C61_accuracy, C61_bound, C61_exceeds_one, C62_loaded_search, C62_loaded_internal, C63_history, C63_last, C64_loaded_proper, C64_word, C64_sum, C64_difference, C64_other_operator, C64_left_operand, C64_right_unreported, C64_right_nested, C64_no_panic, C65_exit, C65_end_of_input, C67_word2vec_options, C67_glove_options, C67_lexvec_options, C68_lexvec, C68_glove, C68_word2vec, C69_proximity_load, C70_scratch_independent_skipgram, C70_scratch_independent_cbow, C71_max_depth_0_trains_nothing, C73_schedule_restarts, C73_decreasing_within_iteration, C74_initial_word2vec, C74_initial_lexvec, C74_initial_glove, C74_initial_glove_dim0, C75_glove_empty_text, C76_query, C76_safe, C77_console_starts, C77_console_never_crashes, C78_lexvec, C78_glove, C78_glove_counts, C78_word2vec, C78_defaults, C79_glove_one_goroutine, C80_lexvec_one_goroutine, C80_word2vec_one_goroutine, C81_lexvec_rate, C81_word2vec_rate, C82_glove, C82_lexvec, C82_word2vec, C82_glove_alone, C82_lexvec_alone, C82_word2vec_alone, C83_accumulators_under_races, C85_lexvec, C85_glove_lost_update, C86_word2vec, C86_word2vec_races, C86_word2vec_huffman_races, C86_lexvec, C86_lexvec_races, C86_glove_races, C87_glove, C87_word2vec, C87_lexvec, C88_word2vec, C88_glove, C88_lexvec, C89_word2vec, C89_word2vec_runs, C89_glove, C89_glove_runs, C89_lexvec, C89_lexvec_runs, C89_never_panics, C89_defaults, C90_functional_word2vec, C90_flags_word2vec, C90_functional_glove, C90_flags_glove, C90_functional_lexvec, C90_flags_lexvec, C91_same_word2vec, C91_same_glove, C91_same_lexvec, C91_same_query, C91_lexvec_query, C91_glove_query, C91_word2vec_query, C92_word2vec_sequential, C92_word2vec_goroutines, C92_word2vec_in_memory, C92_lexvec_sequential, C92_lexvec_goroutines, C92_lexvec_in_memory, C93_table_accuracy, C93_derivative, C93_negative_sampling, C93_hierarchical_softmax, C93_components, C94_step, C94_adagrad_run, C94_races_exceed, C95_glove_interleavings, C95_every_item_once, C96_similarity, C97_glove_factor, C97_glove, C97_lexvec, C97_diverges, C98_lexvec_actions, C98_word2vec_actions, C98_lexvec_rate, C98_word2vec_rate, C98_lexvec_lag, C98_word2vec_lag, C98_lag_is_reached, C98_lexvec_every_order, C98_word2vec_every_order, C98_one_goroutine_differs, C99_vector, C99_too_long, C99_zero_query, C99_item, C99_internal, C100_more_neighbours, C100_item_order, C100_ties, C101_load, C102_before_train, C102_train_replaces_glove, C102_train_replaces_word2vec, C102_train_replaces_lexvec, C102_word2vec, C102_glove, C102_lexvec, C102_rate_lexvec, C102_rate_word2vec, C102_failed_word2vec, C102_failed_glove, C102_failed_lexvec, C102_second_training_void, C103_word2vec, C103_lexvec, C104_word2vec, C104_glove, C104_lexvec, C104_word2vec_saved, C104_lexvec_saved, C104_glove_saved, C104_word2vec_failures, C104_layout, C105_word2vec, C105_glove, C105_lexvec, C106_glove_lasting, C106_lexvec_lasting, C106_word2vec_lasting, C106_sgd_spreads, C106_adagrad_spreads, C106_lexvec_spreads, C106_word2vec_stops, C106_race_overwrites, C106_occurs, C107_can_crash, C107_wrong_for_good, C107_alone, C107_start, C107_only_ways, C107_warm, C108_training, C108_default, C109_gradient, C110_average_path, C111_nearly_symmetric, C111_not_symmetric, C111_mutual, C112_same, C112_load_memory, C112_load_file, C112_items, C112_word2vec, C112_lexvec, C112_glove, C113_total, C113_file_total, C113_whole_text, C113_backwards, C113_window, C113_symmetric, C113_append, C114_glove, C114_adagrad, C114_lexvec, C114_glove_descends, C114_lexvec_descends, C115_repeat, C115_training, C116_repeat, C117_self, C117_repeat.

## `ClassicalDedekindReals.sig_forall_dec`, `ClassicalDedekindReals.sig_not_dec`, `FunctionalExtensionality.functional_extensionality_dep`

C61_exact_bound, C61_exact_sym, C61_exact_scale.

## `ClassicalDedekindReals.sig_forall_dec`, `FunctionalExtensionality.functional_extensionality_dep`

C52_closest, C52_one_field, C109_distribution, C109_positive, C109_cut, C114_glove_slopes, C114_lexvec_slopes.
