{"claims": [
{"property": "C01", "status": "proved", "theorems": ["C01_offsets_are_a_segmentation"], "note": "For every non-empty id column accepted by the constructor model."},
{"property": "C02", "status": "proved", "theorems": ["C02_ids_round_trip_iff_grouped", "C02_interleaved_ids_refuted"], "note": "Round trip iff rows of each query are adjacent; the refuted witness shows a row changing query."},
{"property": "C03", "status": "proved", "theorems": ["C03_subset_keeps_requested_rows"], "note": ""},
{"property": "C04", "status": "proved", "theorems": ["C04_split_is_a_partition", "C04_no_test_query_leaks_everything", "C04_partition_for_all_sizes_refuted", "C04_rounding_overlap_refuted"], "note": "Partition when a test query is left; otherwise the test part is the whole dataset. Ratios are exact rationals."},
{"property": "C05", "status": "proved", "theorems": ["C05_split_keeps_nonnegative_rows_only", "C05_negative_ids_vanish_refuted"], "note": ""},
{"property": "C06", "status": "proved", "theorems": ["C06_kfold_partitions_queries", "C06_kfold_partitions_rows", "C06_two_folds_train_on_nothing", "C06_fewer_queries_than_folds_is_empty"], "note": ""},
{"property": "C07", "status": "proved", "theorems": ["C07_kfold_tests_each_query_once"], "note": ""},
{"property": "C08", "status": "proved", "theorems": ["C08_query_offsets_delimit_the_query"], "note": ""},
{"property": "C09", "status": "proved", "theorems": ["C09_equality_is_pointwise", "C09_equal_implies_same_hash", "C09_equal_datasets_with_different_queries_refuted", "C09_equality_across_shapes_refuted"], "note": ""},
{"property": "C10", "status": "proved", "theorems": ["C10_subset_features_selects_columns"], "note": ""},
{"property": "C11", "status": "proved", "theorems": ["C11_line_is_read_densely", "C11_line_any_order", "C11_other_ids_misplaced_refuted"], "note": "Character level; also for ids in any order."},
{"property": "C12", "status": "proved", "theorems": ["C12_reshape_keeps_cells", "C12_overlapping_copy_refuted"], "note": "std::copy on overlapping floats is taken to be memmove (libstdc++)."},
{"property": "C13", "status": "proved", "theorems": ["C13_file_is_the_dense_matrix", "C13_file_any_order", "C13_leading_featureless_rows", "C13_leading_featureless_refuted"], "note": ""},
{"property": "C14", "status": "proved", "theorems": ["C14_dump_load_identity", "C14_single_instance", "C14_dump_file_load_file", "C14_integers", "C14_float32", "C14_float32_single_instance", "C14_short_qids_refuted", "C14_infinity_refuted"], "note": "C14_float32 covers every finite float32 matrix, printed with %.9g and read by the C library; infinities do not come back (refuted)."},
{"property": "C15", "status": "proved", "theorems": ["C15_malformed_line_rejected", "C15_bad_line", "C15_exact_exception", "C15_comments_do_not_matter", "C15_trailing_text_refuted"], "note": ""},
{"property": "C16", "status": "proved", "theorems": ["C16_eval_is_per_query", "C16_eval_raises_like_per_query"], "note": "For any per-query function and any arithmetic; NaN-mean is the mean of the entries that are not NaN."},
{"property": "C17", "status": "proved", "theorems": ["C17_rank_invariance", "C17_rank_invariance_real"], "note": "For any argsort that only compares keys."},
{"property": "C18", "status": "proved", "theorems": ["C18_no_ties_no_dependence", "C18_ties_refuted"], "note": "The refuted witness shows two correct argsorts that disagree on Precision@1 when scores tie."},
{"property": "C19", "status": "proved", "theorems": ["C19_large_cutoff", "C19_top_k_only"], "note": ""},
{"property": "C20", "status": "proved", "theorems": ["C20_precision", "C20_recall", "C20_recall_monotone"], "note": "Exact real arithmetic; any sorting argsort, any integer cutoff."},
{"property": "C21", "status": "proved", "theorems": ["C21_reciprocal_rank", "C21_monotone_in_cutoff"], "note": "Exact real arithmetic."},
{"property": "C22", "status": "proved", "theorems": ["C22_average_precision", "C22_worse_ranking_scores_higher_refuted"], "note": "Exact real arithmetic; the refuted theorem exhibits the no_relevant_results anomaly."},
{"property": "C23", "status": "proved", "theorems": ["C23_ideal_dcg_is_maximal"], "note": "Exact real arithmetic; rearrangement inequality with truncation."},
{"property": "C24", "status": "proved", "theorems": ["C24_ndcg", "C24_ndcg_rounded"], "note": "Exact arithmetic, plus the bounds that survive when the ideal DCG is stored with a relative error."},
{"property": "C25", "status": "proved", "theorems": ["C25_eval_independent_of_history", "C25_fresh_object_per_query", "C25_stale_cache_refuted"], "note": "State machine over all histories of eval and eval_per_query."},
{"property": "C26", "status": "proved", "theorems": ["C26_err", "C26_err_monotone_in_cutoff"], "note": "Exact real arithmetic."},
{"property": "C27", "status": "proved", "theorems": ["C27_pfound", "C27_pfound_monotone_in_p"], "note": "Exact real arithmetic."},
{"property": "C28", "status": "proved", "theorems": ["C28_rbp", "C28_rbp_p0_is_precision_at_1"], "note": "Exact real arithmetic."},
{"property": "C29", "status": "proved", "theorems": ["C29_mse_eval", "C29_mse_eval_out_of_range_id", "C29_collision_refuted"], "note": "Exact real arithmetic."},
{"property": "C30", "status": "proved", "theorems": ["C30_rmse"], "note": "Exact real arithmetic; cutoff None."},
{"property": "C31", "status": "proved", "theorems": ["C31_scoring_walks_the_trees", "C31_exact", "C31_arrays_without_trees_refuted"], "note": "Any arithmetic; exact sum over the reals."},
{"property": "C32", "status": "proved", "theorems": ["C32_detailed_scoring", "C32_basic_and_detailed_agree", "C32_get_predicted_leaves_refuted"], "note": "Exact real arithmetic for the agreement."},
{"property": "C33", "status": "proved", "theorems": ["C33_basic_scoring_any_schedule", "C33_detailed_scoring_any_schedule", "C33_every_schedule_ends", "C33_shared_cell_refuted"], "note": "Loads and stores of single cells are atomic."},
{"property": "C34", "status": "proved", "theorems": ["C34_caching_is_transparent", "C34_any_arithmetic", "C34_rounding_refuted", "C34_failure_is_cached_refuted"], "note": "Exact arithmetic; in float32 the statement fails (refuted)."},
{"property": "C35", "status": "proved", "theorems": ["C35_pruning", "C35_scores_of_the_first_trees", "C35_no_tree_refuted", "C35_cache_kept_refuted", "C35_negative_refuted"], "note": "The cache is emptied when trees are removed."},
{"property": "C36", "status": "proved", "theorems": ["C36_structure"], "note": ""},
{"property": "C37", "status": "proved", "theorems": ["C37_feature_check", "C37_check", "C37_negative_feature_refuted"], "note": ""},
{"property": "C38", "status": "proved", "theorems": ["C38_quickrank_file_holds_its_trees", "C38_no_header_refuted", "C38_big_feature_refuted"], "note": "The document is the element tree: the XML parser is not modelled. Feature ids must fit int16 (refuted otherwise)."},
{"property": "C39", "status": "proved", "theorems": ["C39_quickrank_save_load", "C39_same_raw_scores", "C39_float32", "C39_empty_model_cannot_be_saved", "C39_scale_lost_refuted"], "note": "For any printing that reads back; C39_float32 discharges it for nine printed digits."},
{"property": "C40", "status": "proved", "theorems": ["C40_lightgbm_file_holds_its_trees", "C40_unsupported_is_rejected", "C40_unsupported_never_loads", "C40_missing_split_feature_refuted", "C40_no_shrinkage_refuted"], "note": ""},
{"property": "C41", "status": "proved", "theorems": ["C41_xgboost_dump_holds_its_trees"], "note": "Character level."},
{"property": "C42", "status": "proved", "theorems": ["C42_strict_comparison_kept", "C42_trees_route_alike", "C42_loaded_model_scores_as_xgboost", "C42_large_thresholds_not_lowered", "C42_beyond_the_range_refuted"], "note": ""},
{"property": "C43", "status": "proved", "theorems": ["C43_scikit_export_load", "C43_six_decimals", "C43_scikit_file_holds_its_trees", "C43_small_threshold_refuted", "C43_several_outputs_refuted"], "note": ""},
{"property": "C44", "status": "proved", "theorems": ["C44_jforests_file_holds_its_trees", "C44_single_leaf_refuted"], "note": ""},
{"property": "C45", "status": "proved", "theorems": ["C45_catboost_model_holds_its_trees", "C45_small_trees_keep_no_root", "C45_different_sizes_refuted"], "note": "At most 65535 nodes per tree."},
{"property": "C46", "status": "proved", "theorems": ["C46_topology_counts_positions", "C46_children_first_refuted", "C46_leaf_before_parent_refuted", "C46_empty_model_refuted"], "note": "Heights up to 63. The trees may be numbered in any order; counts are exact as float32 below 2^24."},
{"property": "C47", "status": "proved", "theorems": ["C47_heights_agree", "C47_height_64_refuted"], "note": "Heights up to 63."},
{"property": "C48", "status": "proved", "theorems": ["C48_msb_is_log2", "C48_unsigned"], "note": ""},
{"property": "C49", "status": "proved", "theorems": ["C49_partition"], "note": "Also which segments are pushed for the children."},
{"property": "C50", "status": "proved", "theorems": ["C50_importance_is_gain", "C50_gain_nonneg", "C50_all_right_refuted"], "note": "Exact arithmetic, any order of the reductions; whole models, tree after tree on the residuals."},
{"property": "C51", "status": "proved", "theorems": ["C51_counts_are_visits", "C51_single_leaf_faults"], "note": "Counts wrap modulo 2^16. Splits below the root reached by fewer than two instances are not visited."},
{"property": "C52", "status": "proved", "theorems": ["C52_no_fault", "C52_all_right_pushes_everything", "C52_pushed_segment_faults", "C52_root_all_right_faults", "C52_no_instance_faults", "C52_index_wraps_refuted"], "note": "At least one instance, fewer than 2^31, fewer than 2^32 cells."},
{"property": "C53", "status": "proved", "theorems": ["C53_first_trees", "C53_step_too_large", "C53_small_model", "C53_succeeds"], "note": "Exact arithmetic. It also fails when one model is smaller than the step (C53_small_model)."},
{"property": "C54", "status": "proved", "theorems": ["C54_query_curves", "C54_document_curves", "C54_fraction_below", "C54_restricted_range_refuted"], "note": "Exact arithmetic. With a restricted range the values below it are not counted as below (refuted example)."},
{"property": "C55", "status": "proved", "theorems": ["C55_class_means", "C55_classes_recombine"], "note": "Exact arithmetic."},
{"property": "C56", "status": "proved", "theorems": ["C56_pairs_are_counted", "C56_succeeds", "C56_other_labels_refuted"], "note": "Every entry is exact modulo 2^32; totals below 2^31 pairs. Equal scores count the later row as the lower one."},
{"property": "C57", "status": "proved", "theorems": ["C57_entries_are_independent", "C57_without_cache_any_arithmetic", "C57_exceptions", "C57_one_failure_is_enough"], "note": "Exact arithmetic with caching; any arithmetic without."},
{"property": "C58", "status": "proved", "theorems": ["C58_p_values_meaning", "C58_p_values_in_unit_interval", "C58_identical_systems", "C58_swapping_the_systems", "C58_different_lengths", "C58_no_permutations", "C58_swapping_equal_means_refuted", "C58_identical_without_queries_refuted"], "note": "Bounds, identity and symmetry hold with a rounding after every operation; the meaning in exact arithmetic. Identical systems need at least one query."},
{"property": "C59", "status": "proved", "theorems": ["C59_folds", "C59_every_row_scored_once", "C59_outside_a_notebook", "C59_bias_variance_outside_a_notebook", "C59_something_to_learn_from", "C59_no_queries", "C59_single_query_refuted", "C59_single_answer_refuted"], "note": "The number of folds actually made can be smaller than k; at least one query."},
{"property": "C60", "status": "proved", "theorems": ["C60_decomposition_is_exact"], "note": "Exact arithmetic."},
{"property": "C61", "status": "proved", "theorems": ["C61_after_any_crash", "C61_force_clears", "C61_never_repaired_without_force", "C61_both_directories_no_download", "C61_missing_and_not_wanted", "C61_no_folds", "C61_interrupted_refuted", "C61_interrupted_removal_refuted", "C61_archive_listed_refuted", "C61_not_wanted_refuted"], "note": "The first claim is false in the code (C61_interrupted_refuted); proved: forcing recovers from every crash, a missing directory is downloaded again, an existing one is never repaired. A crash stops the process; writes already made are kept."},
{"property": "C62", "status": "proved", "theorems": ["C62_drawing", "C62_cut_off_type_error", "C62_counts_are_visits", "C62_refused", "C62_proportion_of_leaves_refuted"], "note": "Whether NumPy integers pass for mappings (line 365) is a parameter; both cases are covered."},
{"property": "C63", "status": "proved", "theorems": ["C63_files_are_loaded_separately", "C63_same_width_refuted"], "note": ""},
{"property": "C64", "status": "proved", "theorems": ["C64_average_shape"], "note": "Exact arithmetic."},
{"property": "C65", "status": "proved", "theorems": ["C65_fullness_averages_used_positions", "C65_full_level_refuted"], "note": "Exact arithmetic."},
{"property": "C66", "status": "proved", "theorems": ["C66_rmse_first_only", "C66_rmse_all_refuted"], "note": ""},
{"property": "C67", "status": "proved", "theorems": ["C67_normalised_by_the_largest"], "note": ""},
{"property": "C68", "status": "proved", "theorems": ["C68_bin_coordinates", "C68_other_widths_refuted"], "note": "The coordinates themselves are in C54_query_curves and C54_document_curves."},
{"property": "C69", "status": "proved", "theorems": ["C69_sizes_must_agree"], "note": ""},
{"property": "C70", "status": "proved", "theorems": ["C70_average_contributions"], "note": "Exact arithmetic."},
{"property": "C72", "status": "proved", "theorems": ["C72_table_of_p_values", "C72_model_against_itself"], "note": "Exact arithmetic."},
{"property": "C73", "status": "proved", "theorems": ["C73_nothing_else_is_touched", "C73_stays_sound", "C73_climbing_refuted"], "note": "Member names without \"..\" (otherwise refuted); no links."},
{"property": "C74", "status": "proved", "theorems": ["C74_contents_of_the_archive", "C74_later_calls_are_offline", "C74_first_directory", "C74_unknown_name"], "note": "The parser of the data files is a parameter here; the SVMLight reader is modelled separately."},
{"property": "C71", "status": "proved", "theorems": ["C71_fraction_of_best_labels", "C71_scale_of_labels", "C71_empty_query"], "note": "Exact arithmetic."},
{"property": "C75", "status": "proved", "theorems": ["C75_importance_is_metric_change", "C75_normalized", "C75_normalizing_losses_reverses", "C75_better_ranking_is_negative_refuted", "C75_single_leaf_counted_refuted"], "note": "Any arithmetic in which a comparison is either at most or greater; the metric is a function of the data set and the scores."},
{"property": "C76", "status": "proved", "theorems": ["C76_squared_error_same_importances", "C76_counts_differ_refuted"], "note": "Exact arithmetic, any order of the sums."},
{"property": "C77", "status": "proved", "theorems": ["C77_documented_formula", "C77_range_and_extremes", "C77_only_order_of_scores", "C77_reversed_scores", "C77_document_order_irrelevant", "C77_lengths_must_agree", "C77_mean_of_defined_queries", "C77_mean_tau"], "note": "scipy.stats.kendalltau is modelled from its source with the pairs counted directly; labels and scores without NaN."},
{"property": "C78", "status": "proved", "theorems": ["C78_pearson_of_ranks", "C78_range_and_extremes", "C78_without_ties", "C78_rank_total", "C78_ranks_follow_values", "C78_only_order_of_scores", "C78_reversed_scores", "C78_document_order_irrelevant", "C78_mean_rho"], "note": "scipy.stats.spearmanr is modelled from its source; labels and scores without NaN."},
{"property": "C81", "status": "proved", "theorems": ["C81_every_sector_shows_its_node"], "note": "Exact arithmetic; max_level >= 0; trees of height at most 63. Axes, labels and the colour map are not modelled."},
{"property": "C79", "status": "proved", "theorems": ["C79_round_trip", "C79_same_file_iff_same_dictionary", "C79_reader_grammar", "C79_entry_of_dictionary", "C79_shipped_entries", "C79_missing_validation_file", "C79_istella_full_refuted"], "note": "The entry istella-full names a validation file \"None\", so it cannot be loaded from an archive without such a file (C79_istella_full_refuted). json is modelled for strings and dictionaries, characters below 256."},
{"property": "C80", "status": "proved", "theorems": ["C80_shows_the_top_features", "C80_more_than_there_are", "C80_unknown_order", "C80_aligned_ticks", "C80_large_counts_refuted", "C80_single_feature_refuted", "C80_step_refuted"], "note": "Exact arithmetic on finite numbers; any order of equal values. False for counts from 65536 on, for one feature when more are asked for, and (ticks) when no importance is positive; the witnesses are proved. The cast of large floats to uint16 is taken modulo 2^16."},
{"property": "C82", "status": "proved", "theorems": ["C82_tree_wise", "C82_tree_wise_total", "C82_model_performance", "C82_model_performance_total", "C82_query_class", "C82_bars_apart", "C82_tick_in_the_middle", "C82_query_wise", "C82_average_contribution", "C82_graded_relevance", "C82_confusion_matrix", "C82_wrong_comparison", "C82_query_class_title", "C82_log_scale_refuted", "C82_query_wise_names_refuted", "C82_no_height_refuted"], "note": "Exact arithmetic; coordinates without repetitions. The weaknesses named in the statement are proved too."},
{"property": "C83", "status": "proved", "theorems": ["C83_printed_names", "C83_default_names", "C83_same_name_refuted", "C83_chosen_name_refuted"], "note": "The formatting of thresholds is a parameter assumed injective; the exceptions are proved."},
{"property": "C84", "status": "proved", "theorems": ["C84_disjoint_iterations", "C84_every_schedule_ends", "C84_topology_any_schedule", "C84_topology_ends", "C84_coordinates_any_schedule", "C84_residuals_any_schedule", "C84_fill_any_schedule", "C84_zero_any_schedule", "C84_update_any_schedule", "C84_gain_any_schedule", "C84_gain_ends", "C84_reduction", "C84_shared_nodes_refuted", "C84_float_reduction_refuted"], "note": "Loads and stores of single cells are atomic; the vector split_instance of the residual loop is left out. The exceptions are proved."},
{"property": "C85", "status": "proved", "theorems": ["C85_nearest", "C85_operations", "C85_score_error", "C85_any_order_of_additions", "C85_after_any_history", "C85_finite_values", "C85_no_overflow", "C85_order", "C85_order_without_gap_refuted"], "note": "Every operation is rounded to float32 once (no fused or wider intermediate results); results above the largest float32 keep their exact exponent in the model, C85_no_overflow says when none occurs."},
{"property": "C86", "status": "proved", "theorems": ["C86_text_is_the_drawing", "C86_text_shows_the_tree", "C86_file_or_string", "C86_failed_call", "C86_quoted_name_refuted", "C86_html_name_refuted", "C86_refused_keeps_file_refuted"], "note": "The texts of rounded values and percentages and the colour map are parameters: characters of numbers, and components from 0 to 255. The exceptions are proved."},
{"property": "C87", "status": "proved", "theorems": ["C87_reader_grammar", "C87_one_document", "C87_malformed_file", "C87_malformed_jforests", "C87_quickrank_text", "C87_jforests_text", "C87_written_reads_back", "C87_save_load", "C87_float32", "C87_cut_file", "C87_interrupted_save", "C87_carriage_return_refuted", "C87_bad_name_refuted"], "note": "Fragment of XML: ASCII, no CDATA, processing instructions, document types or namespaces; the contents of the declaration are not looked at. The exceptions are proved."},
{"property": "C88", "status": "proved", "theorems": ["C88_library_writes_nothing", "C88_arrays_change_by_client_only", "C88_careful_states", "C88_subset_value", "C88_split_value", "C88_kfold_value", "C88_parts_are_independent", "C88_parts_are_private", "C88_feature_subset_shares_labels", "C88_constructor_shares", "C88_copy_value", "C88_copy_is_independent", "C88_copy_is_private", "C88_scores_owned", "C88_models_are_values", "C88_answers_are_values", "C88_hashed_data_is_frozen", "C88_caching_is_transparent", "C88_caching_any_arithmetic", "C88_returned_array_is_cached_refuted", "C88_stale_scores_refuted", "C88_hash_is_current_refuted", "C88_feature_subset_independent_refuted"], "note": "A write replaces the contents of an array; attributes of objects are not reassigned by the client; array shapes are given with the data. The exceptions are proved."},
{"property": "C89", "status": "proved", "theorems": ["C89_sequential", "C89_sequential_depth", "C89_per_query", "C89_squared_error", "C89_mean", "C89_mean_squared_error", "C89_ndcg_mean", "C89_distance", "C89_order", "C89_float32", "C89_float32_ndcg", "C89_equal_values_refuted"], "note": "No overflow, no NaN; numbers of documents and queries are represented exactly; labels of graded metrics are 0 or at least 1. The arithmetic of the theorems is any one within the stated error bounds; C89_float32 gives float32."},
{"property": "C90", "status": "proved", "theorems": ["C90_any_program", "C90_histories_do_not_matter", "C90_data_sets_of_an_analysis", "C90_model_performance", "C90_tree_wise_performance", "C90_query_wise_performance", "C90_query_class_performance", "C90_statistical_significance", "C90_bias_variance", "C90_feature_importance", "C90_entries", "C90_confused_data_sets_refuted"], "note": "Metrics other than NDCG are functions. Data sets are not modified between calls. The exception is proved."},
{"property": "C91", "status": "proved", "theorems": ["C91_score", "C91_history", "C91_model_performance", "C91_tree_wise_performance", "C91_tree_wise_average_contribution", "C91_query_wise_performance", "C91_query_class_performance", "C91_document_graded_relevance", "C91_rank_confusion_matrix", "C91_statistical_significance", "C91_feature_importance", "C91_metric_importance", "C91_counts", "C91_topology", "C91_pruned", "C91_same_trees_twins", "C91_quickrank", "C91_lightgbm", "C91_xgboost", "C91_scikit", "C91_jforests", "C91_catboost", "C91_saved_model", "C91_leaf_numbers_refuted", "C91_lone_leaf_refuted", "C91_children_first_refuted"], "note": "Feature numbers of splits are not negative. The exceptions are proved."},
{"property": "C92", "status": "proved", "theorems": ["C92_finite_values", "C92_ranks_are_bit_patterns", "C92_operations", "C92_division_by_zero", "C92_comparisons", "C92_integers", "C92_formats", "C92_double_to_float", "C92_same_leaves", "C92_same_scores", "C92_score_error", "C92_overflow_refuted"], "note": "IEEE 754 operations are those of Coq.Floats.SpecFloat. The hardware, C compiler and NumPy are trusted to follow the standard. The exception is proved."},
{"property": "C93", "status": "proved", "theorems": ["C93_missing_goes_right", "C93_missing_as_infinity", "C93_equal_values_same_scores", "C93_xgboost_missing", "C93_xgboost_nothing_missing", "C93_nan_part", "C93_finite_parts", "C93_nonnegative_parts", "C93_missing_never_equal", "C93_scores_after_any_history", "C93_xgboost_default_refuted", "C93_infinite_threshold_refuted", "C93_infinite_parts_refuted"], "note": "Row values are float32 bit patterns. The exceptions are proved."},
{"property": "C94", "status": "proved", "theorems": ["C94_comparison", "C94_float32_values", "C94_error", "C94_leaf_reached", "C94_float32_thresholds", "C94_model", "C94_score_error", "C94_lightgbm", "C94_scikit", "C94_jforests", "C94_quickrank", "C94_catboost", "C94_threshold_refuted", "C94_missing_value_refuted"], "note": "The value of float() on a text is a parameter that answers valid doubles. What the training programs compute is taken from their documentation and is not modelled. The exceptions are proved."},
{"property": "C95", "status": "proved", "theorems": ["C95_quotients", "C95_folds", "C95_chunks", "C95_columns", "C95_catboost_nodes", "C95_split_sizes", "C95_partition", "C95_decimal_size", "C95_decimals", "C95_large_quotient_refuted", "C95_tie_refuted", "C95_exact_sum_refuted", "C95_nan_refuted", "C95_negative_refuted"], "note": "The split ratio is a Python float; the number of queries is a Python integer. The exceptions are proved."},
{"property": "C96", "status": "proved", "theorems": ["C96_beginning_of_a_file", "C96_whole_lines", "C96_last_newline_missing", "C96_float32", "C96_cut_value_refuted", "C96_lost_cells_refuted", "C96_cut_query_refuted", "C96_no_features_refuted"], "note": "How the operating system cuts the file is not modelled: every beginning is considered. That a cut file is always noticed is false; the exceptions are proved."},
{"property": "C97", "status": "proved", "theorems": ["C97_xgboost_beginning", "C97_xgboost_no_node", "C97_xgboost_any_beginning", "C97_scikit_beginning", "C97_scikit_no_node", "C97_lightgbm_beginnings", "C97_lightgbm_cut", "C97_lightgbm_cut_exact", "C97_lightgbm_no_node", "C97_incomplete_dump_refuted", "C97_incomplete_lightgbm_refuted"], "note": "scikit-learn and LightGBM files cut inside a line are not covered. What an out-of-bounds read returns is not modelled: it is the error MemFault. That an incomplete dump is rejected is false; the exception is proved."},
{"property": "C98", "status": "proved", "theorems": ["C98_floats", "C98_without_nan", "C98_nan_first", "C98_nan_part_first", "C98_all_nan", "C98_nan_as_infinity", "C98_order_kept", "C98_precision_of_nans", "C98_ndcg_of_nan_label", "C98_ndcg_object", "C98_rmse_of_nan", "C98_largest_label", "C98_cascade_of_nan_label", "C98_precision_max_of_nan_label", "C98_threshold_only", "C98_mean_leaves_out", "C98_nan_last_refuted", "C98_infinite_score_refuted", "C98_nan_improves_refuted", "C98_nan_label_irrelevant_refuted"], "note": "That NumPy sorts NaN last is part of the model of np.argsort."},
{"property": "C99", "status": "proved", "theorems": ["C99_from_file_to_metric", "C99_xgboost_files", "C99_quickrank_files", "C99_lightgbm_files", "C99_jforests_files", "C99_scikit_files", "C99_catboost_files", "C99_unmentioned_feature_refuted"], "note": "The line feeds of the model texts and the grammar of numerals are those of C13, C41 and C87. The data file has no line without query id; the other files of C13 are covered there."},
{"property": "C100", "status": "proved", "theorems": ["C100_nul_hides", "C100_every_file", "C100_trailing_blanks", "C100_last_newline", "C100_blank_line_refuted"], "note": ""},
{"property": "C101", "status": "proved", "theorems": ["C101_compressed_by_name", "C101_extension", "C101_dump_then_load", "C101_paths_again", "C101_stream", "C101_stream_exhausted", "C101_stream_parts", "C101_ends_in_gz_refuted"], "note": "gzip and bzip2 are any pair of functions with decode (encode t) = t. File descriptors, links and permissions are not modelled."}
]}
