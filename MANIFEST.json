{
 "claims": [
  {
   "property": "C01",
   "status": "proved",
   "theorems": [
    "C01_dictionary_ids"
   ],
   "note": ""
  },
  {
   "property": "C02",
   "status": "proved",
   "theorems": [
    "C02_dictionary_frequencies"
   ],
   "note": ""
  },
  {
   "property": "C03",
   "status": "proved",
   "theorems": [
    "C03_dictionary_ids_stable"
   ],
   "note": ""
  },
  {
   "property": "C04",
   "status": "proved",
   "theorems": [
    "C04_bigram_roundtrip"
   ],
   "note": ""
  },
  {
   "property": "C05",
   "status": "proved",
   "theorems": [
    "C05_bigram_bound_sharp"
   ],
   "note": ""
  },
  {
   "property": "C06",
   "status": "proved",
   "theorems": [
    "C06_increment_counts"
   ],
   "note": ""
  },
  {
   "property": "C07",
   "status": "proved",
   "theorems": [
    "C07_proximity_add",
    "C07_count_types"
   ],
   "note": ""
  },
  {
   "property": "C08",
   "status": "proved",
   "theorems": [
    "C08_words_well_defined",
    "C08_read_word",
    "C08_callback_order"
   ],
   "note": ""
  },
  {
   "property": "C09",
   "status": "proved",
   "theorems": [
    "C09_forward_context_long",
    "C09_forward_context_loss",
    "C09_forward_context_short",
    "C09_forward_context_degenerate"
   ],
   "note": ""
  },
  {
   "property": "C10",
   "status": "proved",
   "theorems": [
    "C10_memory_cooccurrence"
   ],
   "note": ""
  },
  {
   "property": "C11",
   "status": "proved",
   "theorems": [
    "C11_file_agrees",
    "C11_file_loses_pairs",
    "C11_file_counts",
    "C11_file_differs_short_or_lower"
   ],
   "note": ""
  },
  {
   "property": "C12",
   "status": "proved",
   "theorems": [
    "C12_load",
    "C12_load_fails",
    "C12_log_batch_zero_panics"
   ],
   "note": ""
  },
  {
   "property": "C13",
   "status": "proved",
   "theorems": [
    "C13_filters"
   ],
   "note": ""
  },
  {
   "property": "C14",
   "status": "proved",
   "theorems": [
    "C14_indexed_doc"
   ],
   "note": ""
  },
  {
   "property": "C15",
   "status": "proved",
   "theorems": [
    "C15_batch_words",
    "C15_batch_size_not_positive"
   ],
   "note": ""
  },
  {
   "property": "C16",
   "status": "proved",
   "theorems": [
    "C16_batch_words_read_error"
   ],
   "note": ""
  },
  {
   "property": "C17",
   "status": "proved",
   "theorems": [
    "C17_huffman_structure"
   ],
   "note": ""
  },
  {
   "property": "C18",
   "status": "proved",
   "theorems": [
    "C18_huffman_prefix_free"
   ],
   "note": ""
  },
  {
   "property": "C19",
   "status": "proved",
   "theorems": [
    "C19_huffman_optimal"
   ],
   "note": ""
  },
  {
   "property": "C20",
   "status": "proved",
   "theorems": [
    "C20_huffman_frequent_short"
   ],
   "note": ""
  },
  {
   "property": "C21",
   "status": "proved",
   "theorems": [
    "C21_getpath"
   ],
   "note": ""
  },
  {
   "property": "C22",
   "status": "proved",
   "theorems": [
    "C22_getpath_race_wrong_path",
    "C22_getpath_race_panic",
    "C22_getpath_alone",
    "C22_getpath_warm_safe"
   ],
   "note": ""
  },
  {
   "property": "C23",
   "status": "proved",
   "theorems": [
    "C23_next_random_range",
    "C23_next_random_zero"
   ],
   "note": ""
  },
  {
   "property": "C24",
   "status": "proved",
   "theorems": [
    "C24_lcg_period",
    "C24_lcg_reaches_every_state",
    "C24_next_random_every_value",
    "C24_next_random_pow2_period"
   ],
   "note": ""
  },
  {
   "property": "C25",
   "status": "proved",
   "theorems": [
    "C25_index_per_thread",
    "C25_index_per_thread_edge"
   ],
   "note": ""
  },
  {
   "property": "C26",
   "status": "proved",
   "theorems": [
    "C26_matrix_rows"
   ],
   "note": ""
  },
  {
   "property": "C27",
   "status": "proved",
   "theorems": [
    "C27_subsample_values",
    "C27_threshold_real",
    "C27_threshold_range",
    "C27_trial",
    "C27_zero_accepts",
    "C27_large_rejects",
    "C27_negative_rejects",
    "C27_negative_underflow"
   ],
   "note": ""
  },
  {
   "property": "C28",
   "status": "proved",
   "theorems": [
    "C28_frequent_words_kept_more",
    "C28_accept_monotone"
   ],
   "note": ""
  },
  {
   "property": "C29",
   "status": "proved",
   "theorems": [
    "C29_sigmoid_index",
    "C29_just_below_6_is_largest",
    "C29_sigmoid_nan"
   ],
   "note": ""
  },
  {
   "property": "C30",
   "status": "proved",
   "theorems": [
    "C30_sigmoid_range",
    "C30_sigmoid_grid",
    "C30_sigmoid_monotone",
    "C30_table_increasing",
    "C30_sigmoid_increasing"
   ],
   "note": "math.Exp is a parameter: positive and finite on [-7,7], for the monotone results also within 2^-50 relative."
  },
  {
   "property": "C31",
   "status": "proved",
   "theorems": [
    "C31_window_positions",
    "C31_context",
    "C31_skipgram",
    "C31_cbow"
   ],
   "note": ""
  },
  {
   "property": "C32",
   "status": "proved",
   "theorems": [
    "C32_cbow_two_windows",
    "C32_cbow_hs_windows_differ",
    "C32_cbow_ns_windows_differ"
   ],
   "note": ""
  },
  {
   "property": "C33",
   "status": "proved",
   "theorems": [
    "C33_negative_sampling",
    "C33_negative_sampling_frame",
    "C33_draws_in_range"
   ],
   "note": ""
  },
  {
   "property": "C34",
   "status": "proved",
   "theorems": [
    "C34_hierarchical_softmax",
    "C34_never_a_leaf"
   ],
   "note": ""
  },
  {
   "property": "C35",
   "status": "proved",
   "theorems": [
    "C35_train_one_safe",
    "C35_window_zero_panics"
   ],
   "note": ""
  },
  {
   "property": "C36",
   "status": "proved",
   "theorems": [
    "C36_memory_training",
    "C36_some_execution_finishes"
   ],
   "note": ""
  },
  {
   "property": "C37",
   "status": "proved",
   "theorems": [
    "C37_batch_training",
    "C37_some_execution_finishes"
   ],
   "note": ""
  },
  {
   "property": "C38",
   "status": "proved",
   "theorems": [
    "C38_resources"
   ],
   "note": ""
  },
  {
   "property": "C39",
   "status": "proved",
   "theorems": [
    "C39_zero_goroutines_memory",
    "C39_zero_goroutines_batch"
   ],
   "note": ""
  },
  {
   "property": "C40",
   "status": "proved",
   "theorems": [
    "C40_rate_in_range",
    "C40_changes_only_at_batches",
    "C40_zero_batch_panics"
   ],
   "note": ""
  },
  {
   "property": "C41",
   "status": "proved",
   "theorems": [
    "C41_rate_falls_to_zero",
    "C41_below_min_is_replaced",
    "C41_min_lr_is_no_lower_bound"
   ],
   "note": ""
  },
  {
   "property": "C42",
   "status": "proved",
   "theorems": [
    "C42_word2vec_unknown_model",
    "C42_word2vec_unknown_optimizer",
    "C42_word2vec_starts",
    "C42_glove_unknown",
    "C42_lexvec_unknown"
   ],
   "note": ""
  },
  {
   "property": "C43",
   "status": "proved",
   "theorems": [
    "C43_items",
    "C43_items_are_the_counted_pairs",
    "C43_weight_in_unit_interval"
   ],
   "note": ""
  },
  {
   "property": "C44",
   "status": "proved",
   "theorems": [
    "C44_sgd_step",
    "C44_adagrad_step",
    "C44_item_rows",
    "C44_items_never_panic"
   ],
   "note": ""
  },
  {
   "property": "C45",
   "status": "proved",
   "theorems": [
    "C45_accumulators_at_least_one",
    "C45_accumulators_never_decrease",
    "C45_new_accumulators"
   ],
   "note": ""
  },
  {
   "property": "C46",
   "status": "proved",
   "theorems": [
    "C46_glove_ignores_filters",
    "C46_glove_items"
   ],
   "note": ""
  },
  {
   "property": "C47",
   "status": "proved",
   "theorems": [
    "C47_relation_values",
    "C47_order_independent",
    "C47_ppmi_never_negative",
    "C47_co_is_the_count",
    "C47_unknown_relation"
   ],
   "note": ""
  },
  {
   "property": "C48",
   "status": "proved",
   "theorems": [
    "C48_update",
    "C48_train_one",
    "C48_rows_in_range",
    "C48_other_rows_unchanged"
   ],
   "note": ""
  },
  {
   "property": "C49",
   "status": "proved",
   "theorems": [
    "C49_word2vec_ns",
    "C49_word2vec_hs",
    "C49_glove",
    "C49_lexvec"
   ],
   "note": ""
  },
  {
   "property": "C50",
   "status": "proved",
   "theorems": [
    "C50_text",
    "C50_mismatch",
    "C50_log_zero"
   ],
   "note": ""
  },
  {
   "property": "C51",
   "status": "proved",
   "theorems": [
    "C51_always_success",
    "C51_truncated"
   ],
   "note": ""
  },
  {
   "property": "C52",
   "status": "proved",
   "theorems": [
    "C52_closest",
    "C52_special",
    "C52_one_field"
   ],
   "note": ""
  },
  {
   "property": "C53",
   "status": "proved",
   "theorems": [
    "C53_read",
    "C53_stable",
    "C53_parser_exists"
   ],
   "note": ""
  },
  {
   "property": "C54",
   "status": "proved",
   "theorems": [
    "C54_lines_well_defined",
    "C54_load",
    "C54_load_or_error",
    "C54_valid",
    "C54_validate"
   ],
   "note": ""
  },
  {
   "property": "C55",
   "status": "proved",
   "theorems": [
    "C55_save_load"
   ],
   "note": ""
  },
  {
   "property": "C56",
   "status": "proved",
   "theorems": [
    "C56_unloadable"
   ],
   "note": ""
  },
  {
   "property": "C57",
   "status": "proved",
   "theorems": [
    "C57_rows",
    "C57_once"
   ],
   "note": ""
  },
  {
   "property": "C58",
   "status": "proved",
   "theorems": [
    "C58_search"
   ],
   "note": ""
  },
  {
   "property": "C59",
   "status": "proved",
   "theorems": [
    "C59_row_count",
    "C59_zero",
    "C59_panics"
   ],
   "note": ""
  },
  {
   "property": "C60",
   "status": "proved",
   "theorems": [
    "C60_not_found",
    "C60_found",
    "C60_error_iff",
    "C60_no_self"
   ],
   "note": ""
  },
  {
   "property": "C61",
   "status": "proved",
   "theorems": [
    "C61_cosine",
    "C61_accuracy",
    "C61_exact_bound",
    "C61_exact_sym",
    "C61_exact_scale",
    "C61_bound",
    "C61_exceeds_one"
   ],
   "note": ""
  },
  {
   "property": "C62",
   "status": "proved",
   "theorems": [
    "C62_new",
    "C62_loaded_search",
    "C62_loaded_internal"
   ],
   "note": ""
  },
  {
   "property": "C63",
   "status": "proved",
   "theorems": [
    "C63_history",
    "C63_last"
   ],
   "note": ""
  },
  {
   "property": "C64",
   "status": "proved",
   "theorems": [
    "C64_loaded_proper",
    "C64_word",
    "C64_sum",
    "C64_difference",
    "C64_other_operator",
    "C64_left_operand",
    "C64_right_unreported",
    "C64_right_nested",
    "C64_no_panic",
    "C64_new"
   ],
   "note": ""
  },
  {
   "property": "C65",
   "status": "proved",
   "theorems": [
    "C65_exit",
    "C65_end_of_input"
   ],
   "note": ""
  },
  {
   "property": "C66",
   "status": "proved",
   "theorems": [
    "C66_untouched",
    "C66_refused",
    "C66_refused_prof",
    "C66_success",
    "C66_failed_training",
    "C66_no_retry"
   ],
   "note": ""
  },
  {
   "property": "C67",
   "status": "proved",
   "theorems": [
    "C67_word2vec_options",
    "C67_glove_options",
    "C67_lexvec_options"
   ],
   "note": ""
  },
  {
   "property": "C68",
   "status": "proved",
   "theorems": [
    "C68_lexvec",
    "C68_glove",
    "C68_word2vec"
   ],
   "note": ""
  },
  {
   "property": "C69",
   "status": "proved",
   "theorems": [
    "C69_proximity_load"
   ],
   "note": ""
  },
  {
   "property": "C70",
   "status": "proved",
   "theorems": [
    "C70_scratch_independent_skipgram",
    "C70_scratch_independent_cbow"
   ],
   "note": ""
  },
  {
   "property": "C71",
   "status": "proved",
   "theorems": [
    "C71_max_depth_0_trains_nothing"
   ],
   "note": ""
  },
  {
   "property": "C72",
   "status": "proved",
   "theorems": [
    "C72_batch_read_error_hangs"
   ],
   "note": ""
  },
  {
   "property": "C73",
   "status": "proved",
   "theorems": [
    "C73_schedule_restarts",
    "C73_decreasing_within_iteration"
   ],
   "note": ""
  },
  {
   "property": "C74",
   "status": "proved",
   "theorems": [
    "C74_initial_word2vec",
    "C74_initial_lexvec",
    "C74_initial_glove",
    "C74_initial_glove_dim0"
   ],
   "note": ""
  },
  {
   "property": "C75",
   "status": "proved",
   "theorems": [
    "C75_glove_empty_text"
   ],
   "note": ""
  },
  {
   "property": "C76",
   "status": "proved",
   "theorems": [
    "C76_query",
    "C76_safe"
   ],
   "note": ""
  },
  {
   "property": "C77",
   "status": "proved",
   "theorems": [
    "C77_console_starts",
    "C77_console_never_crashes"
   ],
   "note": ""
  },
  {
   "property": "C78",
   "status": "proved",
   "theorems": [
    "C78_lexvec",
    "C78_glove",
    "C78_glove_counts",
    "C78_word2vec",
    "C78_defaults"
   ],
   "note": ""
  },
  {
   "property": "C79",
   "status": "proved",
   "theorems": [
    "C79_glove_one_goroutine"
   ],
   "note": ""
  },
  {
   "property": "C80",
   "status": "proved",
   "theorems": [
    "C80_lexvec_one_goroutine",
    "C80_word2vec_one_goroutine"
   ],
   "note": ""
  },
  {
   "property": "C81",
   "status": "proved",
   "theorems": [
    "C81_lexvec_rate",
    "C81_word2vec_rate"
   ],
   "note": ""
  },
  {
   "property": "C82",
   "status": "proved",
   "theorems": [
    "C82_glove",
    "C82_lexvec",
    "C82_word2vec",
    "C82_glove_alone",
    "C82_lexvec_alone",
    "C82_word2vec_alone"
   ],
   "note": ""
  },
  {
   "property": "C83",
   "status": "proved",
   "theorems": [
    "C83_accumulators_under_races"
   ],
   "note": ""
  },
  {
   "property": "C84",
   "status": "proved",
   "theorems": [
    "C84_next_random_concurrent",
    "C84_next_random_repeats"
   ],
   "note": ""
  },
  {
   "property": "C85",
   "status": "proved",
   "theorems": [
    "C85_same_work",
    "C85_lexvec",
    "C85_glove_lost_update"
   ],
   "note": ""
  },
  {
   "property": "C86",
   "status": "proved",
   "theorems": [
    "C86_word2vec",
    "C86_word2vec_races",
    "C86_word2vec_huffman_races",
    "C86_lexvec",
    "C86_lexvec_races",
    "C86_glove_races"
   ],
   "note": ""
  },
  {
   "property": "C87",
   "status": "proved",
   "theorems": [
    "C87_glove",
    "C87_word2vec",
    "C87_lexvec"
   ],
   "note": ""
  },
  {
   "property": "C88",
   "status": "proved",
   "theorems": [
    "C88_word2vec",
    "C88_glove",
    "C88_lexvec",
    "C88_save"
   ],
   "note": ""
  },
  {
   "property": "C89",
   "status": "proved",
   "theorems": [
    "C89_word2vec",
    "C89_word2vec_runs",
    "C89_glove",
    "C89_glove_runs",
    "C89_lexvec",
    "C89_lexvec_runs",
    "C89_query",
    "C89_query_runs",
    "C89_never_panics",
    "C89_defaults"
   ],
   "note": "pflag 1.0.5's parser is modelled from its documented behaviour; strconv.ParseInt/ParseFloat are arbitrary functions; taken after cobra has chosen the command"
  },
  {
   "property": "C90",
   "status": "proved",
   "theorems": [
    "C90_functional_word2vec",
    "C90_flags_word2vec",
    "C90_functional_glove",
    "C90_flags_glove",
    "C90_functional_lexvec",
    "C90_flags_lexvec"
   ],
   "note": "configurations whose numbers some text parses to"
  },
  {
   "property": "C91",
   "status": "proved",
   "theorems": [
    "C91_refused",
    "C91_same_word2vec",
    "C91_same_glove",
    "C91_same_lexvec",
    "C91_same_query",
    "C91_lexvec_query",
    "C91_glove_query",
    "C91_word2vec_query"
   ],
   "note": "composition; -prof excluded in the *_query theorems; lines of the file at most 65535 bytes as in C68"
  },
  {
   "property": "C92",
   "status": "proved",
   "theorems": [
    "C92_word2vec_sequential",
    "C92_word2vec_goroutines",
    "C92_word2vec_in_memory",
    "C92_lexvec_sequential",
    "C92_lexvec_goroutines",
    "C92_lexvec_in_memory"
   ],
   "note": ""
  },
  {
   "property": "C93",
   "status": "proved",
   "theorems": [
    "C93_table_accuracy",
    "C93_derivative",
    "C93_negative_sampling",
    "C93_hierarchical_softmax",
    "C93_components"
   ],
   "note": "math.Exp enters as a hypothesis (relative error at most 2^-40 on [-7, 7]), met by the correctly rounded exponential; vectors are ordinary (C61) and of moderate length."
  },
  {
   "property": "C94",
   "status": "proved",
   "theorems": [
    "C94_step",
    "C94_adagrad_run",
    "C94_races_exceed"
   ],
   "note": "All-runs bound with an item as one step; C94_races_exceed is the witness that statement-level overlap breaks it."
  },
  {
   "property": "C95",
   "status": "proved",
   "theorems": [
    "C95_glove_interleavings",
    "C95_every_item_once"
   ],
   "note": "Equivalence (both directions) between scheduled runs and interleavings, pass by pass; item granularity (C82/C85 treat finer steps)."
  },
  {
   "property": "C96",
   "status": "proved",
   "theorems": [
    "C96_similarity"
   ],
   "note": "Storable vectors: finite, |x| <= 2^399, length above sqrt(dim)/10^6 (otherwise rounding may make the vector zero)."
  },
  {
   "property": "C97",
   "status": "proved",
   "theorems": [
    "C97_glove_factor",
    "C97_glove",
    "C97_lexvec",
    "C97_diverges"
   ],
   "note": "Exact-arithmetic error of the pair before and after the float64 update; C97_diverges shows the rate condition is needed."
  },
  {
   "property": "C98",
   "status": "proved",
   "theorems": [
    "C98_lexvec_actions",
    "C98_word2vec_actions",
    "C98_lexvec_rate",
    "C98_word2vec_rate",
    "C98_lexvec_lag",
    "C98_word2vec_lag",
    "C98_lag_is_reached",
    "C98_lexvec_every_order",
    "C98_word2vec_every_order",
    "C98_one_goroutine_differs"
   ],
   "note": "Lag bound Goroutines+1 is shown to be reached (C98_lag_is_reached)."
  },
  {
   "property": "C99",
   "status": "proved",
   "theorems": [
    "C99_vector",
    "C99_too_long",
    "C99_zero_query",
    "C99_item",
    "C99_internal"
   ],
   "note": ""
  },
  {
   "property": "C100",
   "status": "proved",
   "theorems": [
    "C100_more_neighbours",
    "C100_item_order",
    "C100_ties"
   ],
   "note": ""
  },
  {
   "property": "C101",
   "status": "proved",
   "theorems": [
    "C101_words",
    "C101_lines",
    "C101_same",
    "C101_too_long",
    "C101_read_word",
    "C101_load",
    "C101_last_word"
   ],
   "note": ""
  },
  {
   "property": "C102",
   "status": "proved",
   "theorems": [
    "C102_before_train",
    "C102_train_replaces_glove",
    "C102_train_replaces_word2vec",
    "C102_train_replaces_lexvec",
    "C102_word2vec",
    "C102_glove",
    "C102_lexvec",
    "C102_rate_lexvec",
    "C102_rate_word2vec",
    "C102_failed_word2vec",
    "C102_failed_glove",
    "C102_failed_lexvec",
    "C102_second_training_void"
   ],
   "note": "trainOne is one step here, as in C82/C83; failures of Train are included."
  },
  {
   "property": "C103",
   "status": "proved",
   "theorems": [
    "C103_whole_period",
    "C103_whole_period_exact",
    "C103_round_robin",
    "C103_low_bits",
    "C103_alternate",
    "C103_word2vec",
    "C103_lexvec"
   ],
   "note": ""
  },
  {
   "property": "C104",
   "status": "proved",
   "theorems": [
    "C104_word2vec",
    "C104_glove",
    "C104_lexvec",
    "C104_word2vec_saved",
    "C104_lexvec_saved",
    "C104_glove_saved",
    "C104_word2vec_failures",
    "C104_layout"
   ],
   "note": ""
  },
  {
   "property": "C105",
   "status": "proved",
   "theorems": [
    "C105_word2vec",
    "C105_glove",
    "C105_lexvec"
   ],
   "note": ""
  },
  {
   "property": "C106",
   "status": "proved",
   "theorems": [
    "C106_glove_lasting",
    "C106_lexvec_lasting",
    "C106_word2vec_lasting",
    "C106_sgd_spreads",
    "C106_adagrad_spreads",
    "C106_lexvec_spreads",
    "C106_word2vec_stops",
    "C106_race_overwrites",
    "C106_occurs"
   ],
   "note": "trainOne is one step; C106_race_overwrites shows why this is needed."
  },
  {
   "property": "C107",
   "status": "proved",
   "theorems": [
    "C107_can_crash",
    "C107_wrong_for_good",
    "C107_alone",
    "C107_start",
    "C107_only_ways",
    "C107_warm",
    "C107_ends"
   ],
   "note": "Statement-level interleavings (Model/RaceHS, GetPathRace)."
  },
  {
   "property": "C108",
   "status": "proved",
   "theorems": [
    "C108_path_length",
    "C108_no_cut",
    "C108_training",
    "C108_default"
   ],
   "note": ""
  },
  {
   "property": "C109",
   "status": "proved",
   "theorems": [
    "C109_distribution",
    "C109_positive",
    "C109_cut",
    "C109_gradient"
   ],
   "note": ""
  },
  {
   "property": "C110",
   "status": "proved",
   "theorems": [
    "C110_average_path"
   ],
   "note": ""
  },
  {
   "property": "C111",
   "status": "proved",
   "theorems": [
    "C111_nearly_symmetric",
    "C111_not_symmetric",
    "C111_mutual"
   ],
   "note": "Components 0 or of magnitude 2^-100..2^100; C111_not_symmetric gives a pair that differs."
  },
  {
   "property": "C112",
   "status": "proved",
   "theorems": [
    "C112_same",
    "C112_load_memory",
    "C112_load_file",
    "C112_items",
    "C112_save",
    "C112_word2vec",
    "C112_lexvec",
    "C112_glove"
   ],
   "note": "Printed counts only; times are not modelled."
  },
  {
   "property": "C113",
   "status": "proved",
   "theorems": [
    "C113_total",
    "C113_file_total",
    "C113_whole_text",
    "C113_backwards",
    "C113_window",
    "C113_symmetric",
    "C113_append"
   ],
   "note": "Window arithmetic on integers, count type inc."
  },
  {
   "property": "C114",
   "status": "proved",
   "theorems": [
    "C114_glove_slopes",
    "C114_lexvec_slopes",
    "C114_glove",
    "C114_adagrad",
    "C114_lexvec",
    "C114_glove_descends",
    "C114_lexvec_descends"
   ],
   "note": "Derivatives are those of Coquelicot (is_derive) of the exact weighted squared error; rounding bounded explicitly."
  },
  {
   "property": "C115",
   "status": "proved",
   "theorems": [
    "C115_repeat",
    "C115_training"
   ],
   "note": "GloVe with the sgd solver; C115_case instantiates it."
  },
  {
   "property": "C116",
   "status": "proved",
   "theorems": [
    "C116_repeat"
   ],
   "note": "One pair updated again and again; C116_case instantiates it. Without a floor for the lengths there is no contraction: an update scales with the rows themselves."
  },
  {
   "property": "C117",
   "status": "proved",
   "theorems": [
    "C117_self",
    "C117_repeat"
   ],
   "note": "The case of C97 where the two rows coincide; C117_case and C117_repeat_case instantiate it."
  }
 ]
}