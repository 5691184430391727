# Design

Machine-checked (Coq 8.16.1, standard library only) model of hpclab/rankeval
(`/repo`), written from the source text: the code was neither built nor run.

## 1. How the code is modelled

* The model is a set of total Gallina functions, one per Python/Cython/C++
  function, mirroring the branches of the source.  Every definition cites file
  and lines.
* Exceptions are values: `res A := Ok a | Err e` where `e` names the Python
  exception class (`IndexError`, `ZeroDivisionError`, ...).  Unchecked memory
  accesses of Cython (`boundscheck=False`) and C++ are checked in the model and
  yield `Err MemFault` when out of bounds, so "memory safe" is a provable
  statement.  Loops without a static bound take fuel and yield `Err Diverge` when it
  runs out, so "terminates" is provable too.
* Numbers.  Code that only compares and moves numbers is generic in a record of
  operations `num` (no laws are assumed).  Arithmetic statements are proved for
  `RE`/`RN rnd` (Coq's reals; `nf32` marks each store to float32 and is the identity
  in `RE`, an arbitrary rounding `rnd` in `RN`).  `QN` (rationals) makes examples
  executable.  Statements *about* rounding and printing (C14, C39, C42, C43) use `M_Float.v`:
  binary floating point values as ranks (bit patterns), correctly rounded
  conversions, `%.9g`, `%f`, `nextafter`; `F32N` is float32 arithmetic on ranks;
  `IEEE32` and `IEEE64` (C92-C94) have NaN, infinities and -0 as well.
  Fixed-width integers wrap where the code depends on it.
* `np.argsort` (unstable) is any function returning *some* sorting
  permutation; statements quantify over all of them.  Random permutations and
  choices are arguments; statements quantify over all of them.
* Parallel loops (`prange`, OpenMP) are interleavings of atomic loads and stores of
  single cells; statements quantify over all schedules.
* Stateful objects (NDCG cache, score cache) are state machines; statements
  quantify over all histories of calls.
* Files: svmlight, LightGBM, XGBoost, scikit-learn and XML at character level (an ASCII
  fragment of XML, see `M_Xml.v`); CoreML as the list of nodes.

## 2. Layout of `rocq/theories`

`Base`, `Lists`, `Num` shared vocabulary; `M_*.v` model; `S_*.v` specification used by
the statements; `L_*.v` proofs; `P_*.v` property theorems (statement, one-line
proof, `Print Assumptions`, concrete `Example`s and `_refuted` witnesses); `T_*.v`
executable checks of the model against values found in the repository's own tests.

`_refuted` theorems are concrete counterexamples: they show where a natural
strengthening of the property (or its naive reading) fails in the code.

## 3. What is modelled, and what is not

| part of `/repo/rankeval` | model | not modelled |
|---|---|---|
| `dataset/dataset.py` | `M_Dataset.v`: constructor, ids <-> offsets, subset, split, kfold, subset_features, get_query_offsets, `__eq__`, `__hash__`, dump/load; `M_Heap.v`: the arrays it shares and the cached hash | file names and formats other than svmlight, `__repr__`/`__str__`, memory layout of X |
| `dataset/_svmlight_format.cpp`, `svmlight_format.py` | `M_Text.v`, `M_Svmlight.v`: line parser, reshape in place, dump, load, several files; `M_Files.v`: paths, extensions, streams | the gzip and bz2 codecs themselves (any faithful codec), file descriptors, permissions, `buffer_mb`; `std::copy` on floats is `memmove` |
| `metrics/*.py` | `M_Metrics.v`, `M_NDCG.v`: eval, eval_per_query, all eleven metrics, NDCG's cache; `M_Names.v`: `__str__`; `M_MetricSums.v`: the same with sums in any order | C89 bounds the rounding errors (no overflow, no NaN, exact counts); elsewhere arithmetic is exact except where `nf32` is stored; NaN scores and labels: C98 (np.argsort puts NaN last); np.max answers NaN if a label is NaN |
| `metrics/kendall_tau.py`, `metrics/spearman_rho.py` | `M_Correlation.v`: eval, eval_per_query, with scipy's `kendalltau`, `spearmanr`, `rankdata` written from their documented definitions (pairs and ties are counted directly, scipy sorts first) | p-values, NaN inputs, the keyword `initial_lexsort`, rounding inside scipy; that scipy computes this is trusted |
| `model/rt_ensemble.py`, `scoring/*` | `M_Ensemble.v`, `M_Parallel.v`: arrays, scoring, detailed scoring, scorer, cache, prune, copy, structure queries; `M_Heap.v`: which arrays data sets, scorers, caches, copies and clients share | `__str__`; attributes reassigned by the client |
| `model/proxy_*.py` | `M_Loaders.v`, `M_TextLoaders.v`: all six loaders, QuickRank save, scikit-learn export; `M_Xml.v`: the XML text written and read | CDATA, processing instructions, document types, namespaces and non-ASCII characters in XML, the CoreML parser, `save` of the formats that raise, int32 overflow of node numbers; NumPy 1.x casting rules |
| `analysis/topological.py`, `_efficient_topological.pyx` | `M_Topology.v`: node numbers, heights, counts, average shape, fullness; `M_Schedule.v`: the two parallel loops, any interleaving | scipy's `describe`; counts above 2^24 in float32 |
| `analysis/feature.py` 23-92 (MSE, RMSE), `_efficient_feature_impl.cpp/.h`, `_efficient_feature.pyx` | `M_Feature.v`: partition, means, gains, queue, counts, square root, normalisation; `M_Schedule.v`: its parallel loops, any interleaving, and the reductions | `M_Feature.v` runs the iterations in order (C84: no schedule differs) and has one order of addition per list of terms |
| `analysis/feature.py` 68-83, 93-212 (other metrics) | `M_FeatureMetric.v`: queue, level predictions, counts, normalisation | metrics with state are in `M_MetricObjects.v`; the xarray around the result |
| `analysis/effectiveness.py` 21-540 | `M_Effectiveness.v`: all seven analyses, the store of models and their caches, exceptions; `M_MetricObjects.v`: the same analyses (and those of statistical.py and feature.py) as programs that call metric objects with state | the DataArray (only its values and numeric coordinates); progress bars; float16/float32 rounding beyond one rounding to float32 |
| `analysis/statistical.py` | `M_Statistical.v`: randomization test, table of p-values, k-fold scoring, bias/variance table | the random generator (every outcome is a parameter); NaN scores (NaN only as the mean of nothing); NumPy below 1.24, where `np.bool` exists; the fold size quotient of line 211 is exact (C95: below 2^53 queries the double quotient gives the same size); the DataArray; progress bars (only that the name is undefined outside a notebook) |
| `dataset/datasets_fetcher.py`, `dataset_container.py` | `M_Fetcher.v`: every change of the disk as a list of events, download, unpacking, removal, file lists, `load_dataset` | links, permissions, devices and decoding; a crash is the process stopping (no lost page cache); catalogue entries have the mandatory keys; member names are relative and ".." is lexical; tarfile before Python 3.12 (no filter); the orders of `os.walk` and `rmtree`, the servers and the decompression are parameters; the catalogue is already parsed |
| `visualization/topological.py` 30-144 | `M_PlotShape.v`: the matrix of colours of `plot_shape` | axes, grid, labels, colour map, how pcolormesh draws the matrix; `max_level` < 0 |
| `visualization/topological.py` 147-478 | `M_Graphviz.v`: which boxes, dots, arrows, counts, bounds and ranks `export_graphviz` writes, and its errors; `M_Dot.v`: the characters, what has been written when a call fails, and the file | texts of rounded values and percentages and the colour map are parameters; encodings, errors of `open`, file objects as `out_file`; Python recursion limit; whether a NumPy integer is a mapping for `%` is a parameter |
| `dataset/write_json_dataset_catalogue.py`, `datasets_fetcher.py` 25-29 | `M_Catalogue.v`: the entries, `json.dump` and `json.load` of strings and dictionaries | other JSON values, code points above 255, absolute file names; keys missing in an entry are reported when it is read, not when they are used |
| `visualization/effectiveness.py` | `M_PlotEffectiveness.v`: figures, panels, curves, bars, ticks, limits, names and errors | drawing, colours, grid, layout; rounding of arithmetic and of the texts; repeated coordinates |
| `visualization/feature.py` | `M_PlotFeature.v`: bars, ticks, labels and limits of `plot_feature_importance`; ticks of `align_y_axis` | drawing, colours, legend, grid; rounding; NaN; bounds of the y axes are parameters |
| C library | `M_Text.v`, `M_Float.v`: number scanning and printing, correctly rounded | locales, hexadecimal floats, signalling NaN; `F32N` has no infinities and no -0 (C85: bounds of its rounding errors, and when nothing overflows; C92: it agrees with IEEE 754) |
| float32 and float64 values | `M_IEEE.v`: bit patterns, the operations of `SpecFloat` (standard library) as an arithmetic with NaN, infinities and -0, `nextafter` | payloads and signs of NaN; that processor, compiler and NumPy follow IEEE 754 with rounding to nearest-even is trusted |
| sizes computed in doubles (`dataset.py` 196-201 and 348, `statistical.py` 209, `svmlight_format.py` 83, `proxy_CatBoost.py` 70) | `M_Sizes.v`: quotients of integers and products with the split ratios in double precision, with `round`, `floor`, `ceil`, `int`; the files above use integers and rationals and C95 relates the two | integer division by zero in NumPy scalars is an infinity that `int` refuses |

## 4. Trusted base

* Coq's kernel (the files are also checked by `coqchk`).
* The fidelity of the `M_*.v` files to the source, within the limits of section 3.
* The axioms that `Print Assumptions` lists for each theorem; all of them belong to
  Coq's standard library (classical real numbers).  No other axiom is used.

* none (closed under the global context):
  - `P_Catalogue.v`: C79_round_trip, C79_same_file_iff_same_dictionary, C79_reader_grammar, C79_entry_of_dictionary, C79_shipped_entries, C79_missing_validation_file, C79_istella_full_refuted
  - `P_Correlation.v`: C77_only_order_of_scores, C77_lengths_must_agree, C77_mean_of_defined_queries, C78_only_order_of_scores
  - `P_Cut.v`: C96_beginning_of_a_file, C96_whole_lines, C96_last_newline_missing, C96_float32
  - `P_CutLgbm.v`: C97_lightgbm_beginnings, C97_lightgbm_cut, C97_lightgbm_no_node
  - `P_CutModel.v`: C97_xgboost_beginning, C97_xgboost_no_node, C97_scikit_beginning, C97_scikit_no_node, C97_xgboost_any_beginning
  - `P_Dataset.v`: C01_offsets_are_a_segmentation, C02_ids_round_trip_iff_grouped, C03_subset_keeps_requested_rows, C04_split_is_a_partition, C04_no_test_query_leaks_everything, C05_split_keeps_nonnegative_rows_only, C06_kfold_partitions_queries, C06_kfold_partitions_rows, C06_two_folds_train_on_nothing, C06_fewer_queries_than_folds_is_empty, C07_kfold_tests_each_query_once, C08_query_offsets_delimit_the_query, C09_equality_is_pointwise, C09_equal_implies_same_hash, C10_subset_features_selects_columns
  - `P_Dot.v`: C86_text_is_the_drawing, C86_text_shows_the_tree, C86_file_or_string, C86_failed_call, C86_quoted_name_refuted, C86_html_name_refuted, C86_refused_keeps_file_refuted
  - `P_Doubles.v`: C94_comparison, C94_float32_values, C94_leaf_reached, C94_float32_thresholds, C94_model, C94_lightgbm, C94_scikit, C94_jforests, C94_quickrank, C94_catboost, C94_example, C94_fit_example, C94_threshold_refuted, C94_missing_value_refuted
  - `P_Effectiveness.v`: C57_without_cache_any_arithmetic
  - `P_Ensemble.v`: C31_scoring_walks_the_trees, C32_detailed_scoring, C32_get_predicted_leaves_refuted, C33_basic_scoring_any_schedule, C33_detailed_scoring_any_schedule, C33_every_schedule_ends, C33_shared_cell_refuted, C34_any_arithmetic, C34_rounding_refuted, C35_pruning, C35_scores_of_the_first_trees, C35_no_tree_refuted, C36_structure, C37_feature_check, C37_check, C37_negative_feature_refuted
  - `P_Feature.v`: C49_partition, C50_all_right_refuted, C51_counts_are_visits, C51_single_leaf_faults, C52_no_fault, C52_all_right_pushes_everything, C52_pushed_segment_faults, C52_root_all_right_faults, C52_no_instance_faults, C52_index_wraps_refuted, C66_rmse_first_only, C66_rmse_all_refuted
  - `P_FeatureMetric.v`: C75_importance_is_metric_change, C75_normalized, C75_better_ranking_is_negative_refuted, C75_single_leaf_counted_refuted, C76_counts_differ_refuted
  - `P_Fetcher.v`: C61_after_any_crash, C61_force_clears, C61_never_repaired_without_force, C61_both_directories_no_download, C61_missing_and_not_wanted, C61_no_folds, C61_interrupted_refuted, C61_interrupted_removal_refuted, C61_archive_listed_refuted, C61_not_wanted_refuted, C73_nothing_else_is_touched, C73_stays_sound, C73_climbing_refuted, C74_contents_of_the_archive, C74_later_calls_are_offline, C74_first_directory, C74_unknown_name
  - `P_Files.v`: C101_compressed_by_name, C101_extension, C101_dump_then_load, C101_paths_again, C101_stream, C101_stream_exhausted, C101_stream_parts, C101_ends_in_gz_refuted
  - `P_Graphviz.v`: C62_drawing, C62_cut_off_type_error, C62_counts_are_visits, C62_refused, C62_proportion_of_leaves_refuted
  - `P_Heap.v`: C88_library_writes_nothing, C88_arrays_change_by_client_only, C88_careful_states, C88_subset_value, C88_split_value, C88_kfold_value, C88_parts_are_independent, C88_parts_are_private, C88_feature_subset_shares_labels, C88_constructor_shares, C88_copy_value, C88_copy_is_independent, C88_copy_is_private, C88_scores_owned, C88_models_are_values, C88_answers_are_values, C88_hashed_data_is_frozen, C88_caching_any_arithmetic, C88_returned_array_is_cached_refuted, C88_stale_scores_refuted, C88_hash_is_current_refuted, C88_feature_subset_independent_refuted
  - `P_IEEE.v`: C92_ranks_are_bit_patterns, C92_operations, C92_division_by_zero, C92_comparisons, C92_integers, C92_formats, C92_double_to_float, C92_same_leaves, C92_same_scores, C92_example, C92_scores, C92_overflow_refuted
  - `P_Loaders.v`: C38_quickrank_file_holds_its_trees, C39_quickrank_save_load, C39_same_raw_scores, C39_empty_model_cannot_be_saved, C39_float32, C40_lightgbm_file_holds_its_trees, C40_unsupported_is_rejected, C40_unsupported_never_loads, C41_xgboost_dump_holds_its_trees, C42_strict_comparison_kept, C42_trees_route_alike, C42_loaded_model_scores_as_xgboost, C42_large_thresholds_not_lowered, C43_scikit_export_load, C43_six_decimals, C43_scikit_file_holds_its_trees, C44_jforests_file_holds_its_trees, C45_catboost_model_holds_its_trees, C45_small_trees_keep_no_root
  - `P_MetricError.v`: C89_sequential, C89_sequential_depth
  - `P_MetricObjects.v`: C90_any_program, C90_histories_do_not_matter, C90_data_sets_of_an_analysis, C90_model_performance, C90_tree_wise_performance, C90_query_wise_performance, C90_query_class_performance, C90_statistical_significance, C90_bias_variance, C90_feature_importance, C90_confused_data_sets_refuted
  - `P_Metrics.v`: C16_eval_is_per_query, C16_eval_raises_like_per_query, C17_rank_invariance, C18_no_ties_no_dependence, C19_large_cutoff, C19_top_k_only, C22_worse_ranking_scores_higher_refuted, C25_eval_independent_of_history, C25_fresh_object_per_query, C25_stale_cache_refuted, C29_collision_refuted
  - `P_Missing.v`: C93_missing_goes_right, C93_missing_as_infinity, C93_equal_values_same_scores, C93_xgboost_missing, C93_xgboost_nothing_missing, C93_nan_part, C93_finite_parts, C93_nonnegative_parts, C93_missing_never_equal, C93_scores_after_any_history, C93_example, C93_xgboost_default_refuted, C93_infinite_threshold_refuted, C93_infinite_parts_refuted, C93_caches
  - `P_Names.v`: C83_printed_names, C83_default_names, C83_same_name_refuted, C83_chosen_name_refuted
  - `P_NanScores.v`: C98_floats, C98_without_nan, C98_nan_first, C98_nan_part_first, C98_all_nan, C98_nan_as_infinity, C98_order_kept, C98_precision_of_nans, C98_ndcg_of_nan_label, C98_ndcg_object, C98_rmse_of_nan, C98_largest_label, C98_cascade_of_nan_label, C98_precision_max_of_nan_label, C98_threshold_only, C98_mean_leaves_out, C98_nan_last_refuted, C98_infinite_score_refuted, C98_nan_improves_refuted, C98_nan_label_irrelevant_refuted
  - `P_Nul.v`: C100_nul_hides, C100_every_file, C100_trailing_blanks, C100_last_newline
  - `P_Pipeline.v`: C99_from_file_to_metric, C99_xgboost_files, C99_quickrank_files, C99_lightgbm_files, C99_jforests_files, C99_scikit_files, C99_catboost_files
  - `P_PlotEffectiveness.v`: C82_tree_wise, C82_tree_wise_total, C82_model_performance, C82_model_performance_total, C82_query_class, C82_bars_apart, C82_tick_in_the_middle, C82_query_wise, C82_average_contribution, C82_graded_relevance, C82_confusion_matrix, C82_wrong_comparison, C82_log_scale_refuted, C82_query_wise_names_refuted, C82_query_class_title, C82_no_height_refuted
  - `P_PlotFeature.v`: C80_shows_the_top_features, C80_more_than_there_are, C80_unknown_order, C80_aligned_ticks, C80_large_counts_refuted, C80_single_feature_refuted, C80_step_refuted
  - `P_Schedule.v`: C84_disjoint_iterations, C84_every_schedule_ends, C84_topology_any_schedule, C84_topology_ends, C84_coordinates_any_schedule, C84_residuals_any_schedule, C84_fill_any_schedule, C84_zero_any_schedule, C84_update_any_schedule, C84_gain_any_schedule, C84_gain_ends, C84_shared_nodes_refuted, C84_float_reduction_refuted
  - `P_Sizes.v`: C95_quotients, C95_folds, C95_chunks, C95_columns, C95_catboost_nodes, C95_large_quotient_refuted, C95_decimal_size, C95_decimals, C95_tie_refuted, C95_exact_sum_refuted, C95_nan_refuted, C95_negative_refuted
  - `P_Statistical.v`: C58_different_lengths, C58_no_permutations, C58_swapping_equal_means_refuted, C58_identical_without_queries_refuted, C59_folds, C59_every_row_scored_once, C59_outside_a_notebook, C59_bias_variance_outside_a_notebook, C59_something_to_learn_from, C59_no_queries, C59_single_query_refuted, C59_single_answer_refuted
  - `P_Svmlight.v`: C11_line_is_read_densely, C11_line_any_order, C12_reshape_keeps_cells, C13_file_is_the_dense_matrix, C13_file_any_order, C13_leading_featureless_rows, C14_dump_load_identity, C14_single_instance, C14_dump_file_load_file, C14_integers, C14_float32, C14_float32_single_instance, C15_malformed_line_rejected, C15_bad_line, C15_exact_exception, C15_comments_do_not_matter, C63_files_are_loaded_separately
  - `P_Topology.v`: C46_topology_counts_positions, C47_heights_agree, C48_msb_is_log2, C48_unsigned
  - `P_Twins.v`: C91_score, C91_history, C91_model_performance, C91_tree_wise_performance, C91_tree_wise_average_contribution, C91_query_wise_performance, C91_query_class_performance, C91_document_graded_relevance, C91_rank_confusion_matrix, C91_statistical_significance, C91_feature_importance, C91_metric_importance, C91_counts, C91_topology, C91_pruned, C91_same_trees_twins, C91_quickrank, C91_lightgbm, C91_xgboost, C91_scikit, C91_jforests, C91_catboost, C91_saved_model
  - `P_Xml.v`: C87_reader_grammar, C87_one_document, C87_malformed_file, C87_malformed_jforests, C87_quickrank_text, C87_jforests_text, C87_written_reads_back, C87_save_load, C87_float32, C87_cut_file, C87_interrupted_save
* `ClassicalDedekindReals.sig_forall_dec`, `ClassicalDedekindReals.sig_not_dec`, `Classical_Prop.classic`, `FunctionalExtensionality.functional_extensionality_dep`:
  - `P_Correlation.v`: C77_documented_formula, C77_document_order_irrelevant, C77_mean_tau, C78_pearson_of_ranks, C78_document_order_irrelevant, C78_mean_rho
  - `P_CutLgbm.v`: C97_lightgbm_cut_exact
  - `P_Effectiveness.v`: C57_entries_are_independent, C57_exceptions, C57_one_failure_is_enough, C53_first_trees, C53_step_too_large, C53_small_model, C53_succeeds, C54_query_curves, C54_document_curves, C69_sizes_must_agree, C55_class_means, C55_classes_recombine, C70_average_contributions, C56_pairs_are_counted, C56_succeeds
  - `P_Ensemble.v`: C31_exact, C32_basic_and_detailed_agree, C34_caching_is_transparent
  - `P_Feature.v`: C50_importance_is_gain, C67_normalised_by_the_largest
  - `P_FeatureMetric.v`: C75_normalizing_losses_reverses, C76_squared_error_same_importances
  - `P_Heap.v`: C88_caching_is_transparent
  - `P_MetricError.v`: C89_per_query, C89_squared_error, C89_mean, C89_mean_squared_error, C89_ndcg_mean, C89_float32, C89_float32_ndcg, C89_equal_values_refuted
  - `P_MetricObjects.v`: C90_entries
  - `P_Metrics.v`: C17_rank_invariance_real, C18_ties_refuted, C20_precision, C20_recall, C20_recall_monotone, C21_reciprocal_rank, C21_monotone_in_cutoff, C22_average_precision, C23_ideal_dcg_is_maximal, C24_ndcg, C24_ndcg_rounded, C26_err, C26_err_monotone_in_cutoff, C27_pfound, C27_pfound_monotone_in_p, C28_rbp, C28_rbp_p0_is_precision_at_1, C29_mse_eval, C29_mse_eval_out_of_range_id, C30_rmse
  - `P_PlotShape.v`: C81_every_sector_shows_its_node
  - `P_PrecisionMax.v`: C71_fraction_of_best_labels, C71_scale_of_labels, C71_empty_query
  - `P_Schedule.v`: C84_reduction
  - `P_Statistical.v`: C58_p_values_meaning, C58_p_values_in_unit_interval, C58_identical_systems, C58_swapping_the_systems, C60_decomposition_is_exact, C72_table_of_p_values, C72_model_against_itself
  - `P_Topology.v`: C64_average_shape, C65_fullness_averages_used_positions
* `ClassicalDedekindReals.sig_forall_dec`, `ClassicalDedekindReals.sig_not_dec`, `FunctionalExtensionality.functional_extensionality_dep`:
  - `P_Correlation.v`: C77_range_and_extremes, C77_reversed_scores, C78_range_and_extremes, C78_without_ties, C78_reversed_scores
* `ClassicalDedekindReals.sig_forall_dec`, `FunctionalExtensionality.functional_extensionality_dep`:
  - `P_Correlation.v`: C78_rank_total, C78_ranks_follow_values
  - `P_Doubles.v`: C94_error, C94_score_error
  - `P_Effectiveness.v`: C54_fraction_below, C68_bin_coordinates
  - `P_Feature.v`: C50_gain_nonneg
  - `P_IEEE.v`: C92_finite_values, C92_score_error
  - `P_MetricError.v`: C89_distance, C89_order
  - `P_Rounding.v`: C85_nearest, C85_operations, C85_score_error, C85_any_order_of_additions, C85_after_any_history, C85_finite_values, C85_no_overflow, C85_order, C85_order_without_gap_refuted
  - `P_Sizes.v`: C95_split_sizes, C95_partition
