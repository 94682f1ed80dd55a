{
 "claims": [
  {
   "property": "C01",
   "status": "partial",
   "theorems": [
    "C01_names_bijection_partial",
    "C01_set_list_of_names",
    "C01_names_bijection_refuted_dict",
    "C01_names_bijection_refuted_rename"
   ],
   "note": "Bijection proved for every history of setNames/permute/remove/insert whose new names do not collide; list form proved without guard. Refuted in full: dict with two names for one index, and oldIdentifiers with duplicate new names, are accepted and break the bijection."
  },
  {
   "property": "C02",
   "status": "proved",
   "theorems": [
    "C02_rejected_setNames_changes_nothing"
   ],
   "note": "For every axis satisfying the repository's own invariant (checkInvariants)."
  },
  {
   "property": "C03",
   "status": "partial",
   "theorems": [
    "C03_getIndex_denotes_partial",
    "C03_getIndex_in_range_partial",
    "C03_getName_denotes",
    "C03_getIndex_float_refuted"
   ],
   "note": "Proved for ints, strings and floats inside the axis; refuted for integral floats outside (no range check)."
  },
  {
   "property": "C04",
   "status": "partial",
   "theorems": [
    "C04_slice_selection_partial",
    "C04_reverse_slice_refuted",
    "C04_mask_selection",
    "C04_mask_wrong_length",
    "C04_mixed_mask_refuted",
    "C04_identifier_list_selection"
   ],
   "note": "Slices, masks and lists characterised; refuted: [::-1] selects nothing, and a boolean key with extra non-boolean entries is accepted."
  },
  {
   "property": "C05",
   "status": "proved",
   "theorems": [
    "C05_structural_partition"
   ],
   "note": "All selection kinds (ids, predicate, range, number, random sample given as distinct members of the selection)."
  },
  {
   "property": "C06",
   "status": "proved",
   "theorems": [
    "C06_permute_moves_names_with_data",
    "C06_permute_accepts_every_rearrangement",
    "C06_permute_inverse"
   ],
   "note": "permute(None) is the same function applied to a shuffled range; the shuffle is covered by quantifying over all rearrangements."
  },
  {
   "property": "C07",
   "status": "proved",
   "theorems": [
    "C07_sort_by_keys",
    "C07_sort_by_function",
    "C07_sort_by_names"
   ],
   "note": "Keys by identifier list, by function and by names; comparison abstracted as an arbitrary total preorder."
  },
  {
   "property": "C08",
   "status": "partial",
   "theorems": [
    "C08_insert_places_contiguously",
    "C08_insert_then_extract",
    "C08_append_accepts",
    "C08_insert_into_empty_refuted",
    "C08_partial_names_refuted"
   ],
   "note": "Every accepted insert proved; append acceptance proved. Refuted: insert(0, other) on an empty axis and combination of consistent but partial names are rejected."
  },
  {
   "property": "C09",
   "status": "partial",
   "theorems": [
    "C09_repeat",
    "C09_repeat_partial_names_refuted"
   ],
   "note": "Proved when the axis is unnamed or fully named; refuted for partially named axes (TypeError)."
  },
  {
   "property": "C10",
   "status": "proved",
   "theorems": [
    "C10_transpose_swaps",
    "C10_transpose_involutive"
   ],
   "note": "List representation, all shapes."
  },
  {
   "property": "C11",
   "status": "partial",
   "theorems": [
    "C11_unique_partial",
    "C11_unique_set_partial",
    "C11_unique_marker_refuted",
    "C11_unique_empty_vectors_refuted"
   ],
   "note": "Proved when no stored value is a missing marker and vectors are non-empty; both exclusions are refuted by witnesses."
  },
  {
   "property": "C12",
   "status": "partial",
   "theorems": [
    "C12_flatten_places_every_element",
    "C12_unflatten_places_every_element",
    "C12_unflatten_inverts_flatten",
    "C12_names_round_trip_partial",
    "C12_names_round_trip_refuted_bar",
    "C12_names_round_trip_refuted_lost",
    "C12_flatten_atomic_refuted"
   ],
   "note": "Data: flatten/unflatten place every element exactly and are inverse for every shape and order. Names: proved for wholly named/unnamed axes with unambiguous names and more than one element; refuted otherwise (name ending in \" |\", partly named axes, 1x1, clashing joined names raise after mutation)."
  },
  {
   "property": "C13",
   "status": "proved",
   "theorems": [
    "C13_groupByFeature_partition",
    "C13_countUniqueValues"
   ],
   "note": "Grouping key is an arbitrary function of the row; also countUniqueValues mode."
  },
  {
   "property": "C14",
   "status": "partial",
   "theorems": [
    "C14_split_no_labels",
    "C14_split_label_columns_partial",
    "C14_split_label_object",
    "C14_split_rejects",
    "C14_empty_test_set_refuted"
   ],
   "note": "Proved for no labels and for a labels object with the same point names (complete), and for label columns whenever the test set is non-empty; refuted for an empty test set (labels stay in trainX). testFraction*n is taken exactly (no float rounding); the shuffle is an arbitrary permutation."
  },
  {
   "property": "C15",
   "status": "proved",
   "theorems": [
    "C15_integers",
    "C15_binary_columns",
    "C15_binary_one_hot",
    "C15_sparse_binary_partial",
    "C15_sparse_unique_values",
    "C15_sparse_zero_category_refuted",
    "C15_binary_failure_not_atomic_refuted"
   ],
   "note": "Proved for every input the statement ranges over."
  },
  {
   "property": "C16",
   "status": "partial",
   "theorems": [
    "C16_join_partial",
    "C16_no_sort",
    "C16_union_sorted_partial",
    "C16_list_names_in_order",
    "C16_names_required",
    "C16_key_unknown",
    "C16_key_not_unique",
    "C16_key_index_differs",
    "C16_left_on_feature_refuted",
    "C16_renamed_refuted",
    "C16_refill_refuted",
    "C16_failure_changes_refuted",
    "C16_with_itself_refuted",
    "C16_empty_refuted",
    "C16_sort_index_refuted",
    "C16_sort_index_zero_refuted",
    "C16_strict_features_partial",
    "C16_strict_points_partial",
    "C16_strict_key_partial",
    "C16_strict_key_unknown",
    "C16_strict_sizes",
    "C16_strict_names_refused",
    "C16_strict_sorted",
    "C16_strict_unsorted",
    "C16_strict_failed",
    "C16_strict_force_overrides_refuted",
    "C16_strict_failure_names_refuted"
   ],
   "note": "The join of List objects (all combinations of union, intersection, left; by point names, by a feature name or index) is proved equal to the relational join, with the errors for conflicts, under conditions that are each refuted when dropped (names set out of order, left join on a feature behind an unshared one, NaN refilled by several matches, empty objects, other is self). Strict points (by name, position or the values of a feature) and strict features are modelled too, with the names after the merge and the final sort. The other storage types are not modelled."
  },
  {
   "property": "C17",
   "status": "partial",
   "theorems": [
    "C17_elementwise",
    "C17_scalar",
    "C17_left_not_numeric",
    "C17_right_not_numeric",
    "C17_shapes",
    "C17_empty",
    "C17_refused_inplace_refuted",
    "C17_position_refuted"
   ],
   "note": "Proved for List objects and scalars, every operator, plain/reflected/in-place, with numpy arithmetic on a pair of elements as a parameter; outcome, names, values, errors and purity characterised exactly. Refuted in full: a refused in-place call has already converted numeric strings of self; elements of a sum depend on the element type of the whole array."
  },
  {
   "property": "C18",
   "status": "partial",
   "theorems": [
    "C18_abs_partial",
    "C18_point_names_refuted",
    "C18_truncates_refuted"
   ],
   "note": "Proved except for objects mixing bools and floats (C18_truncates_refuted) and for objects whose feature names were never created, whose point names are dropped (C18_point_names_refuted)."
  },
  {
   "property": "C19",
   "status": "partial",
   "theorems": [
    "C19_exists",
    "C19_window",
    "C19_live_partial",
    "C19_nested_partial",
    "C19_pointView_of_view",
    "C19_sparse",
    "C19_nested_names_refuted",
    "C19_nested_escape_refuted",
    "C19_sparse_live_refuted"
   ],
   "note": "Window contents, names, existence and out-of-window rejection proved for all objects; nesting to any depth for in-view non-negative indices; pointView/featureView of a view by any identifier; Sparse vector and window views. Refuted: names/negative indices in a view of a view, escape from the first window, Sparse vector views are copies."
  },
  {
   "property": "C20",
   "status": "partial",
   "theorems": [
    "C20_methods_partial",
    "C20_list",
    "C20_matrix_setitem_refuted"
   ],
   "note": "All overridden methods over any history; List views fully. Refuted: Matrix view item assignment writes to the source."
  },
  {
   "property": "C21",
   "status": "partial",
   "theorems": [
    "C21_setitem_one",
    "C21_setitem_lists_partial",
    "C21_setitem_keys_refuted",
    "C21_setitem_partial_write_refuted",
    "C21_rectangle_number",
    "C21_rectangle_object_partial",
    "C21_rectangle_mismatch",
    "C21_rectangle_default_end_refuted",
    "C21_rectangle_overflow_refuted",
    "C21_sparse_zero_partial",
    "C21_sparse_rectangle_partial",
    "C21_sparse_rectangle_refuted"
   ],
   "note": "Item assignment by single ids and by lists on both axes; replaceRectangle by number and by object (List and Sparse). Refuted: mixed/full keys raise TypeError, partial writes, default featureEnd for non-square objects, overflow below, Sparse IndexError."
  },
  {
   "property": "C22",
   "status": "partial",
   "theorems": [
    "C22_read_is_stored_value",
    "C22_write_changes_one_element",
    "C22_reads_after_any_history_partial",
    "C22_invariant_after_any_history_partial",
    "C22_inplace_without_cache",
    "C22_stale_cache_refuted"
   ],
   "note": "Reads/writes exact for every consistent object and after every history of reads, writes, structural operations and zero-free maps. Refuted in full: zero-creating in-place operations leave a stale index cache (C22_stale_cache_refuted)."
  },
  {
   "property": "C23",
   "status": "proved",
   "theorems": [
    "C23_copy_extract_points_features",
    "C23_delete_leaves",
    "C23_permute",
    "C23_transpose",
    "C23_insert",
    "C23_repeat",
    "C23_unique",
    "C23_results_consistent"
   ],
   "note": "Refinement of the dense table operations by the Sparse ones (copy/extract/delete/permute/transpose/insert/repeat/unique). Front-end name handling is C05-C11."
  },
  {
   "property": "C24",
   "status": "partial",
   "theorems": [
    "C24_sparse_to_dense_and_back",
    "C24_copy_preserves",
    "C24_isIdentical_sparse",
    "C24_isIdentical_same_type_partial",
    "C24_isIdentical_symmetric",
    "C24_copy_is_identical",
    "C24_isIdentical_across_types_refuted"
   ],
   "note": "Copies and conversions preserve elements and names; isIdentical is exact within a type and symmetric. isIdentical across types is always False (C24_isIdentical_across_types_refuted)."
  },
  {
   "property": "C25",
   "status": "partial",
   "theorems": [
    "C25_csv_dict_names",
    "C25_csv_dict_duplicates",
    "C25_csv_names_partial",
    "C25_csv_automatic",
    "C25_csv_blank_corner",
    "C25_csv_rectangular",
    "C25_csv_names_refuted"
   ],
   "note": "csv files: names given by list, dict, True/False or automatically, blank corner, rectangularity. In-memory data: C61; mtx files: C70. Nine deviations proved in C25_csv_names_refuted (e.g. point name list dropped with featureNames=False)."
  },
  {
   "property": "C26",
   "status": "partial",
   "theorems": [
    "C26_csv_keep_partial",
    "C26_csv_trailing_separator",
    "C26_csv_numeric_only",
    "C26_csv_unknown_points",
    "C26_csv_duplicate_points",
    "C26_csv_unknown_features",
    "C26_csv_unnamed_features",
    "C26_csv_ambiguous_names",
    "C26_csv_keep_refuted"
   ],
   "note": "csv files: exactly the requested points/features in requested order with their names and cells, for every explicit name setting; unknown/duplicate/ambiguous requests refused. In-memory data: C61; mtx files: C70_keep_partial. Exceptions proved in C26_csv_keep_refuted."
  },
  {
   "property": "C27",
   "status": "partial",
   "theorems": [
    "C27_csv_types_partial",
    "C27_kind_unique",
    "C27_csv_row_order_partial",
    "C27_csv_row_order_refuted"
   ],
   "note": "csv: a feature whose first kept entry is filled has the kind its entries determine; independent of line order when the first line is filled; refuted when the first entry is blank."
  },
  {
   "property": "C28",
   "status": "partial",
   "theorems": [
    "C28_text_read_back",
    "C28_save_load_partial",
    "C28_save_load_refuted",
    "C28_empty_refused",
    "C28_missing_names_refused",
    "C28_save_without_names",
    "C28_line_ends",
    "C28_last_line_end"
   ],
   "note": "Character-level model of the csv writer and of Python's csv.reader: every table of safe cells is read back exactly and save+load restores names and cells; eight deviations proved in C28_save_load_refuted (quotes, newlines, '#', blank cells, partly named axes). mtx files: C70. Missing: pickle."
  },
  {
   "property": "C29",
   "status": "partial",
   "theorems": [
    "C29_sound",
    "C29_rejects_malformed",
    "C29_axis_complete_partial",
    "C29_is_complete",
    "C29_element_complete_partial",
    "C29_element_is_complete",
    "C29_name_first",
    "C29_selects",
    "C29_structural",
    "C29_answered",
    "C29_comparisons",
    "C29_is_functions",
    "C29_accepted_names",
    "C29_operator_in_name_refuted",
    "C29_is_in_name_refuted",
    "C29_element_value_refuted"
   ],
   "note": "Query-string parser modelled with its regular expressions; soundness, rejection and is-queries in full; operator queries complete under the stated guard (one padded operator, harmless \"is\"), with refutations of the unrestricted claim. float() and the any/all functions on one element are parameters."
  },
  {
   "property": "C30",
   "status": "proved",
   "theorems": [
    "C30_any",
    "C30_all",
    "C30_raising",
    "C30_match_value",
    "C30_match_list",
    "C30_match_function",
    "C30_missing",
    "C30_signs",
    "C30_trichotomy",
    "C30_complements",
    "C30_types"
   ],
   "note": "Elementwise functions over Python ints, floats (exact rationals plus inf/nan), bools, strings, None; numpy scalars, complex and datetimes not modelled."
  },
  {
   "property": "C31",
   "status": "partial",
   "theorems": [
    "C31_constant",
    "C31_forward",
    "C31_backward",
    "C31_statistic",
    "C31_interpolate",
    "C31_fillMatching_function",
    "C31_fillMatching_matrix_partial",
    "C31_untouched",
    "C31_fills_conservative",
    "C31_limitTo_order_refuted",
    "C31_limitTo_name_refuted"
   ],
   "note": "All fill functions (interpolation over exact rationals, default arguments) and fillMatching; boolean-object matches are right only when limitTo is ascending and not one string (refuted otherwise). kNeighbors fills are not modelled."
  },
  {
   "property": "C32",
   "status": "proved",
   "theorems": [
    "C32_kfold_partition",
    "C32_kfold_rejects",
    "C32_leaveOneOut",
    "C32_group_folds",
    "C32_group_missing_dropped",
    "C32_validation_uses_folds",
    "C32_collected_labels"
   ],
   "note": "KFold, LeaveOneOut and GroupFold partitions, the per-fold (train,test) sets of every data object and the gathered labels. The order drawn by the random generator is a parameter (any permutation)."
  },
  {
   "property": "C33",
   "status": "partial",
   "theorems": [
    "C33_best_is_first_best",
    "C33_sorted_results",
    "C33_nan_first_refuted",
    "C33_bruteforce_all_combinations"
   ],
   "note": "Best and sorted results proved for every history of validations when performances are totally ordered; refuted when the first performance is NaN. Brute-force enumeration proved."
  },
  {
   "property": "C34",
   "status": "partial",
   "theorems": [
    "C34_consecutive_greedy_partial",
    "C34_single_value_ends_search_refuted",
    "C34_second_loop_skips_candidate_refuted",
    "C34_iterative_climbs_partial",
    "C34_iterative_picks_worse_refuted",
    "C34_iterative_position_lost_refuted"
   ],
   "note": "Consecutive with one loop equals the documented greedy search (guards: later Tunes have >= 2 distinct values); refuted for single-valued Tunes and for a second loop (late-bound key). Iterative climbs to the peak of a unimodal performance for one tuned argument; refuted when both neighbours are better and when moving two arguments at once fails."
  },
  {
   "property": "C35",
   "status": "partial",
   "theorems": [
    "C35_add_increasing",
    "C35_add_decreasing",
    "C35_add_wrong_direction",
    "C35_multiply_increasing_partial",
    "C35_multiply_decreasing_partial",
    "C35_multiply_diverges_refuted",
    "C35_equal_bounds_refuted",
    "C35_range_partial",
    "C35_descending_range_refuted"
   ],
   "note": "Exact integer add ranges and positive rational multiply ranges; refuted: divergence for start<=0 or change=1, start=end, descending ranges. Floating-point rounding is not modelled."
  },
  {
   "property": "C36",
   "status": "proved",
   "theorems": [
    "C36_block_restores",
    "C36_block_transparent",
    "C36_setSeed_refused",
    "C36_block_reproducible"
   ],
   "note": "All programs over abstract generators, with nesting, exceptions and failing seeds."
  },
  {
   "property": "C37",
   "status": "proved",
   "theorems": [
    "C37_random_data",
    "C37_random_full",
    "C37_random_rejects"
   ],
   "note": "Positions and values drawn are arbitrary (distinct positions, non-zero values); the rounding of the float product gridSize*density is not modelled."
  },
  {
   "property": "C38",
   "status": "partial",
   "theorems": [
    "C38_get_partial",
    "C38_file_partial",
    "C38_get_section_partial",
    "C38_get_all_partial",
    "C38_set_outcome_partial",
    "C38_save_outcome_partial",
    "C38_hook_called_partial",
    "C38_hook_registration",
    "C38_no_other_calls",
    "C38_hook_refuted",
    "C38_get_changes_hooks_refuted",
    "C38_percent_refuted",
    "C38_failed_save_refuted"
   ],
   "note": "All histories of set/setDefault/saveChanges/get/hook/restart, for string values without % and files without %. Refuted: hook missed when a changed option is set back to the saved value; get() changes whether later sets call hooks; values with %% read differently after saving; a failed saveChanges leaks half-saved changes into later saves."
  },
  {
   "property": "C39",
   "status": "partial",
   "theorems": [
    "C39_showLog_partial",
    "C39_session_constant",
    "C39_session_numbers_partial",
    "C39_rejects",
    "C39_most_inclusive_refuted",
    "C39_concurrent_sessions_refuted",
    "C39_number_reused_refuted",
    "C39_current_session_refuted",
    "C39_search_refuted"
   ],
   "note": "Query semantics over all histories for search texts without LIKE wildcards; session numbering when sessions do not overlap. Refuted: mostSessionsAgo inclusive; numbers of concurrent sessions; numbers of sessions that log nothing; current session before it logged; wildcards in searchForText. Date parsing and text layout not modelled."
  },
  {
   "property": "C40",
   "status": "partial",
   "theorems": [
    "C40_fractions",
    "C40_error_metrics",
    "C40_validation",
    "C40_confusion_matrix_labels_given",
    "C40_confusion_matrix_no_labels_partial",
    "C40_confusion_unseen_label_refuted",
    "C40_confusion_matrix_integer_labels",
    "C40_binary_counts",
    "C40_binary_ratios"
   ],
   "note": "All of it proved over exact rationals, except: without given labels the confusion matrix is only built when every predicted label occurs among the known ones (refuted otherwise: ValueError). RMSE is handled through its square (the final square root is not modelled); missing values and multi-feature inputs are not modelled."
  },
  {
   "property": "C41",
   "status": "partial",
   "theorems": [
    "C41_range_normalize",
    "C41_percentile_partial",
    "C41_percentile_formula",
    "C41_percentile_second_vector",
    "C41_two_missing_refuted",
    "C41_tied_minimum_refuted",
    "C41_single_value_refuted"
   ],
   "note": "rangeNormalize fully; percentileNormalize for any argsort order when at most one value is missing and at least two are present; refuted with two missing values, with a tied minimum looked up in the second vector, and for a single value (ZeroDivisionError). Exact rationals."
  },
  {
   "property": "C42",
   "status": "proved",
   "theorems": [
    "C42_mean",
    "C42_variance",
    "C42_proportion_zero",
    "C42_minimum_maximum",
    "C42_minimum_maximum_meaning",
    "C42_mode",
    "C42_unique_count"
   ],
   "note": "mean, variance (both divisors), proportionZero, minimum, maximum, mode, uniqueCount: Sparse formula equals dense one for every vector with implicit zeros and missing values. Standard deviation is the square root of the variance (root not modelled); median/quartiles go through the dense form."
  },
  {
   "property": "C43",
   "status": "proved",
   "theorems": [
    "C43_direction"
   ],
   "note": "For the list of scores of one trial. The randomised choice of the trials and the aggregation over trials are not modelled."
  },
  {
   "property": "C44",
   "status": "proved",
   "theorems": [
    "C44_merge_arguments"
   ],
   "note": "All dict pairs. Values compared with decidable equality (Python != on arrays or NaN not modelled)."
  },
  {
   "property": "C45",
   "status": "partial",
   "theorems": [
    "C45_retrain_arguments_used_partial",
    "C45_reported_arguments_refuted",
    "C45_refused_retrain_leaks_refuted"
   ],
   "note": "Arguments used by each training proved for all histories without Tune values; reported arguments refuted (only the last call), and a refused retrain leaves partial updates (refuted)."
  },
  {
   "property": "C46",
   "status": "proved",
   "theorems": [
    "C46_score_columns",
    "C46_one_vs_all_winner",
    "C46_one_vs_all_scores"
   ],
   "note": "Score order is np.unique(labels), as every interface sets it; scores of the backend are taken as given, one per class in that order."
  },
  {
   "property": "C47",
   "status": "partial",
   "theorems": [
    "C47_all_pairs_once",
    "C47_ovo_training_partial",
    "C47_ovo_label_column_first_refuted",
    "C47_pair_score_lookup",
    "C47_winning_label"
   ],
   "note": "Pairs, lookup, voting proved; training alignment proved when the label column is last or all features are named, refuted otherwise."
  },
  {
   "property": "C48",
   "status": "proved",
   "theorems": [
    "C48_knn_prediction",
    "C48_knn_scores"
   ],
   "note": "Exact integer coordinates instead of floats; k >= 1 and a nonempty training set."
  },
  {
   "property": "C49",
   "status": "partial",
   "theorems": [
    "C49_split_partial",
    "C49_split_reassembles",
    "C49_split_total",
    "C49_split_refused",
    "C49_split_count",
    "C49_collapse_partial",
    "C49_expand_partial",
    "C49_expand_clash",
    "C49_expand_same_text",
    "C49_round_trip_partial",
    "C49_split_long_separator_refuted",
    "C49_split_backwards_refuted",
    "C49_split_name_taken_refuted",
    "C49_collapse_types_refuted",
    "C49_collapse_nothing_refuted",
    "C49_collapse_default_names_refuted",
    "C49_expand_position_refuted"
   ],
   "note": "List objects. splitByParsing: proved for a separator, a position, a function, and lists of one-character separators and non-decreasing positions; refuted for longer separators in a list (rest of the separator stays), positions that go back, and a resulting name in use (object corrupted). Collapse: proved when numpy keeps the values (one type among retained, one among collapsed) and point names are absent or complete; refuted otherwise (1 becomes '1', True becomes 1, None_0 twice). Expand: proved when the feature of names does not stand behind all kept features, with the clash and same-text refusals; refuted for value, id, name (values lost silently). Round trip proved when the retained values tell the points apart. nan among the grouping values is not covered; the Sparse implementation is the subject of C71."
  },
  {
   "property": "C50",
   "status": "partial",
   "theorems": [
    "C50_mapReduce_object_partial",
    "C50_mapReduce_object_refuted",
    "C50_mapReduce",
    "C50_dedup_spec"
   ],
   "note": "The pairs (C50_mapReduce): proved for all objects, mappers and reducers. The object made of them (List; C50_mapReduce_object_partial): proved unless the pairs read as a line of names above data, in which case the first pair becomes feature names (C50_mapReduce_object_refuted)."
  },
  {
   "property": "C51",
   "status": "partial",
   "theorems": [
    "C51_layout_partial",
    "C51_ends_partial",
    "C51_points_partial",
    "C51_cut",
    "C51_cut_quoted",
    "C51_unnamed",
    "C51_padding",
    "C51_center",
    "C51_tableString_partial",
    "C51_never_ends_refuted",
    "C51_fits_but_hidden_refuted",
    "C51_range_refuted",
    "C51_requests_refused_refuted",
    "C51_features_number_refuted",
    "C51_empty_refuted",
    "C51_table_limit_refuted",
    "C51_snip_refuted",
    "C51_headers_overwritten_refuted"
   ],
   "note": "The layout of toString (points, features, names, widths, limits), the padding of cells and tableString without a row limit, for all shapes, texts and limits; proved under guards, the failures outside them are the _refuted theorems (a loop that never ends, columns hidden although they fit, wrong points for a range, tableString with a row limit). Number formatting (formatIfNeeded) is an uninterpreted function; box characters are ASCII of the same length."
  },
  {
   "property": "C52",
   "status": "partial",
   "theorems": [
    "C52_outermost_validates_partial",
    "C52_second_nested_call_refuted"
   ],
   "note": "Outermost call always validates, for all call trees and exceptions; exactly-once only for chains of nested calls, refuted for two nested calls."
  },
  {
   "property": "C53",
   "status": "partial",
   "theorems": [
    "C53_transformElements_partial",
    "C53_transformElements_False_refuted",
    "C53_calculateOnElements_partial",
    "C53_calculateOnElements_truncates_refuted",
    "C53_calculateOnElements_header_refuted",
    "C53_calculateOnElements_empty_refuted",
    "C53_sparse_subset_refuted",
    "C53_transform_frame",
    "C53_transform_accepts",
    "C53_calculate_rows_partial",
    "C53_calculate_names_refuted"
   ],
   "note": "transform: exact frame, including the state after an exception. calculate: values and order proved; names proved unless all points are selected in a different order, which is refuted. transformElements/calculateOnElements (List, Matrix): exact frame for functions that treat 0, 0.0 and False alike and, for calculateOnElements with a one-argument function, give results of one kind, and for functions of the position, whose results do not read as a line of names above data (then the first point becomes feature names: C53_calculateOnElements_header_refuted); the unrestricted claims are refuted (False becomes 0.0, results truncated to the type of the first, empty selection means all, Sparse subset shape)."
  },
  {
   "property": "C54",
   "status": "partial",
   "theorems": [
    "C54_repeated_validations_partial",
    "C54_after_failure_refuted"
   ],
   "note": "Proved for histories in which no validation raises; refuted after a failure (fold index is not reset)."
  },
  {
   "property": "C55",
   "status": "partial",
   "theorems": [
    "C55_setSeed_reproducible",
    "C55_failed_setSeed_refuted"
   ],
   "note": "Reproducibility proved; \"a failing setSeed leaves the state unchanged\" is refuted (pythonRandom is already reseeded when numpy rejects the seed)."
  },
  {
   "property": "C56",
   "status": "partial",
   "theorems": [
    "C56_matching_partial",
    "C56_matching_string",
    "C56_count_partial",
    "C56_count_comparison",
    "C56_count_false_refuted"
   ],
   "note": "matchingElements proved for nonempty duplicate-free selections; countElements for every comparison query and every condition that treats 0, 0.0 and False alike; \"is false\" counted as 0 is refuted. DataFrame (applymap) and Sparse (preserveZeros) variants not modelled apart from the Sparse subset refutation in C53."
  },
  {
   "property": "C57",
   "status": "partial",
   "theorems": [
    "C57_source",
    "C57_arithmetic_partial",
    "C57_left_not_numeric",
    "C57_right_not_numeric",
    "C57_logical_partial",
    "C57_names_asked_refuted",
    "C57_names_asked_both_refuted",
    "C57_single_element_refuted",
    "C57_operands_changed_refuted",
    "C57_scalar_refuted",
    "C57_empty_other_refuted",
    "C57_reflected_both_refuted"
   ],
   "note": "List objects, every arithmetic operator and and/or/xor, with an object on either side or with a second stretched object; numpy arithmetic on a pair of elements is a parameter. Outcome, shape, values, names, errors and the state of both operands characterised exactly under guards; outside them refuted: asking for default names makes the same call fail, a single named element raises IndexError, an object without points, a scalar gets AttributeError, both operands are converted in place (powers turn their ints into floats)."
  },
  {
   "property": "C58",
   "status": "proved",
   "theorems": [
    "C58_matmul",
    "C58_empty",
    "C58_not_numeric",
    "C58_not_an_object",
    "C58_in_place",
    "C58_integers",
    "C58_associative",
    "C58_power",
    "C58_power_sum",
    "C58_negative_power",
    "C58_singular",
    "C58_not_square",
    "C58_refused_changes_refuted",
    "C58_empty_power_zero_refuted"
   ],
   "note": "List objects; element multiplication and addition and scipy inversion are parameters. Exact outcome of @ (both orders, in place), integer matrices: product, associativity, powers, power sums; negative powers are powers of the inverse. Refuted: a refused multiplication may already have converted numeric strings in place; power 0 of a 0x0 object raises."
  },
  {
   "property": "C59",
   "status": "partial",
   "theorems": [
    "C59_same_as_dense_partial",
    "C59_same_as_dense_scalar_partial",
    "C59_sum_difference_product",
    "C59_quotient",
    "C59_power",
    "C59_remainder",
    "C59_scalar",
    "C59_scalar_zero_divisor",
    "C59_shapes",
    "C59_stretched_partial",
    "C59_stretched_sum_partial",
    "C59_remainder_of_zero_refuted",
    "C59_nan_scalar_refuted",
    "C59_invalid_refuted",
    "C59_floor_of_rounded_refuted",
    "C59_stretched_single_refuted"
   ],
   "note": "Sparse with Sparse or scalar, all seven operators, plain and reflected; numpy and scipy element arithmetic are parameters, scipy sparse-sparse operations are modelled by their documented effect. Proved exactly per operator and as agreement with dense arithmetic. Refuted: the remainder fails when the left object has zeros, not-a-number and infinite scalars skip the zeros, invalid operations are not refused, floor division is the floor of a rounded quotient, one pair of stretched objects is refused. Non-Sparse objects as other operand are not modelled."
  },
  {
   "property": "C60",
   "status": "proved",
   "theorems": [
    "C60_logical",
    "C60_invert",
    "C60_not_an_object",
    "C60_commutes",
    "C60_de_morgan",
    "C60_double_negation",
    "C60_with_itself"
   ],
   "note": "List objects (the operand conversion, matchingElements, name merging and the elementwise operation); other operand a stretched object is C57. Boolean Matrix/Sparse data, which skips the conversion, not modelled. FloatOracle (float(s) gives a float) is the only assumption on parameters."
  },
  {
   "property": "C61",
   "status": "partial",
   "theorems": [
    "C61_rows_partial",
    "C61_flat_partial",
    "C61_dict_rows_partial",
    "C61_dict_values_partial",
    "C61_list_of_dicts_partial",
    "C61_keep",
    "C61_convert",
    "C61_convert_kept",
    "C61_convert_keys",
    "C61_rows_as_features",
    "C61_no_data_refuted",
    "C61_only_header_refuted",
    "C61_empty_rows_refuted",
    "C61_dict_header_refuted",
    "C61_dict_values_refuted",
    "C61_empty_dict_refuted",
    "C61_flat_names_refuted",
    "C61_keep_all_refuted",
    "C61_keep_turned_refuted",
    "C61_callers_dict_refuted",
    "C61_negative_key_refuted"
   ],
   "note": "Return type List; names given as a dict not covered (rows, dicts), sources other than Python lists and dicts not modelled. The full statement is false of the code: data without elements has uninitialised elements (C61_no_data_refuted, C61_only_header_refuted, C61_empty_rows_refuted); a dict whose first list is text loses it to the header detection (C61_dict_header_refuted); dicts of values and empty dicts drop names (C61_dict_values_refuted, C61_empty_dict_refuted); featureNames=True on a flat list raises IndexError (C61_flat_names_refuted); keeping every point is refused (C61_keep_all_refuted); keepPoints with rowsArePoints=False keeps features (C61_keep_turned_refuted); the caller's convertToType dict is emptied and negative keys ignored (C61_callers_dict_refuted, C61_negative_key_refuted)."
  },
  {
   "property": "C62",
   "status": "partial",
   "theorems": [
    "C62_where",
    "C62_inside",
    "C62_elsewhere",
    "C62_no_network",
    "C62_plain",
    "C62_gzip",
    "C62_archive_partial",
    "C62_escaping_archive",
    "C62_again_partial",
    "C62_failed",
    "C62_history_partial",
    "C62_query_refuted",
    "C62_dots_refuted",
    "C62_second_archive_refuted",
    "C62_member_overwrites_refuted",
    "C62_compressed_tar_refuted",
    "C62_gzip_name_refuted",
    "C62_below_refuted",
    "C62_slash_refuted",
    "C62_killed_refuted"
   ],
   "note": "Direct urls only (uci:: and nimble:: sources not modelled); the file system is a tree of files and folders, the web a function from urls to content. The full statement is false of the code: urls that differ in the query share a file (C62_query_refuted), a url with .. is stored outside (C62_dots_refuted), a second archive with the same member names is not extracted (C62_second_archive_refuted), members overwrite fetched files (C62_member_overwrites_refuted), compressed tars raise on the second call (C62_compressed_tar_refuted), gzip data without .gz is destroyed (C62_gzip_name_refuted), urls below one another (C62_below_refuted), urls ending in / (C62_slash_refuted), a killed process leaves a partial file taken for the data (C62_killed_refuted)."
  },
  {
   "property": "C63",
   "status": "partial",
   "theorems": [
    "C63_accepted_arguments",
    "C63_train_receives",
    "C63_retrain_receives",
    "C63_settings_exist",
    "C63_apply_receives",
    "C63_incremental_receives",
    "C63_apply_only_argument_refuted",
    "C63_required_apply_parameter_refuted",
    "C63_retrain_never_again_refuted",
    "C63_incremental_never_refuted",
    "C63_incremental_arguments_refuted",
    "C63_scores_ignore_arguments_refuted",
    "C63_default_of_apply_hides_refuted",
    "C63_keyword_only_refuted"
   ],
   "note": "Signatures, defaults, validation, Python call binding and the stored dicts are modelled; data, seeds, Tune values and exceptions of the learner itself are not. Proved: accepted arguments, what train/retrain/apply/incrementalTrain receive after any history with any outcomes. The full statement is false of the code: arguments of apply only cannot be given at training (C63_apply_only_argument_refuted, C63_required_apply_parameter_refuted), one such retrain disables retraining (C63_retrain_never_again_refuted), arguments block incrementalTrain (C63_incremental_never_refuted), incrementalTrain arguments are not seen by apply and retrain forgets them (C63_incremental_arguments_refuted), scores ignore arguments (C63_scores_ignore_arguments_refuted), defaults of apply hide missing train arguments (C63_default_of_apply_hides_refuted), keyword-only parameters (C63_keyword_only_refuted)."
  },
  {
   "property": "C64",
   "status": "partial",
   "theorems": [
    "C64_parameter_sets",
    "C64_last_set_wins_refuted",
    "C64_init_trees"
   ],
   "note": "Init trees and the choice of the parameter set are modelled for any interface (a function from names to parameter sets); calling a class builds an object from its keyword arguments. The statement about parameter sets is false of the code: the last satisfiable set is chosen and arguments that fit another one are refused (C64_last_set_wins_refuted)."
  },
  {
   "property": "C65",
   "status": "partial",
   "theorems": [
    "C65_fill",
    "C65_exclusive",
    "C65_atomic_partial",
    "C65_knn",
    "C65_knn_clean",
    "C65_knn_determined",
    "C65_knn_fill_complete",
    "C65_nameless_mask_refuted",
    "C65_misaligned_refuted",
    "C65_half_filled_refuted",
    "C65_knn_other_data_refuted"
   ],
   "note": "List objects; learners are arbitrary functions that may raise. The full statement is false of the code: a match object without names is refused for an object with names (C65_nameless_mask_refuted); with a learner that drops features elements are filled from the wrong feature (C65_misaligned_refuted) or the call fails half way (C65_half_filled_refuted), so C65_atomic_partial assumes that the learner keeps the shape; KNNImputation applied to other data than it was trained on drops points and leaves missing values (C65_knn_other_data_refuted)."
  },
  {
   "property": "C66",
   "status": "partial",
   "theorems": [
    "C66_getitem",
    "C66_getitem_complete",
    "C66_selection_unique",
    "C66_single_key",
    "C66_axis_item",
    "C66_iterate",
    "C66_iterate_total",
    "C66_iterate_determined",
    "C66_sparse_iterate",
    "C66_sparse_iterate_total",
    "C66_sparse_dense_agree",
    "C66_sparse_only_zero_refuted",
    "C66_count_partial",
    "C66_sparse_count_partial",
    "C66_count_one_element_refuted",
    "C66_count_nan_refuted",
    "C66_count_sparse_empty_refuted",
    "C66_count_stored_zero_refuted"
   ],
   "note": "Two-dimensional objects. Indexing and iteration hold in full (C66_getitem, C66_getitem_complete, C66_single_key, C66_axis_item, C66_iterate, C66_sparse_iterate). Counting is false of the code in corners: one element selected (C66_count_one_element_refuted), distinct NaN objects (C66_count_nan_refuted), no stored value of a non-numeric Sparse (C66_count_sparse_empty_refuted), an explicitly stored 0 (C66_count_stored_zero_refuted); Sparse calls `only` with 0 even without zeros (C66_sparse_only_zero_refuted)."
  },
  {
   "property": "C67",
   "status": "partial",
   "theorems": [
    "C67_ova_train",
    "C67_ova_train_feature",
    "C67_ova_predict_partial",
    "C67_ova_best_partial",
    "C67_ova_all_partial",
    "C67_ova_other_mode",
    "C67_ovo_predict",
    "C67_ovo_best",
    "C67_ovo_all_partial",
    "C67_format_binary",
    "C67_format_ova",
    "C67_format_ovo",
    "C67_test_data",
    "C67_ova_point_names_refuted",
    "C67_label_text_refuted",
    "C67_set_order_refuted",
    "C67_best_label_text_refuted",
    "C67_missing_label_refuted",
    "C67_ovo_string_labels_refuted"
   ],
   "note": "Training, OneVsOne prediction and best scores, the conversion of raw scores (for the sizes a strategy produces) and the shape check hold in full. OneVsAll results need labels with distinct texts (C67_label_text_refuted) and lose the point names (C67_ova_point_names_refuted), report the text instead of the label in bestScore (C67_best_label_text_refuted), depend on the order of a Python set when scores tie (C67_set_order_refuted), and labels read as missing are predicted as nan (C67_missing_label_refuted); OneVsOne allScores needs numeric labels (C67_ovo_string_labels_refuted)."
  },
  {
   "property": "C68",
   "status": "partial",
   "theorems": [
    "C68_create",
    "C68_create_unequal",
    "C68_create_exact",
    "C68_copy_array",
    "C68_copy_list_partial",
    "C68_shape",
    "C68_point",
    "C68_point_range",
    "C68_sparse_point",
    "C68_points_copy",
    "C68_points_extract",
    "C68_insert_partial",
    "C68_insert_reject",
    "C68_permute",
    "C68_flatten",
    "C68_flatten_reject",
    "C68_unflatten",
    "C68_unflatten_reject",
    "C68_flatten_unflatten",
    "C68_by_feature",
    "C68_binary",
    "C68_binary_reject",
    "C68_ragged_refuted",
    "C68_spread_refuted",
    "C68_letters_refuted",
    "C68_copy_list_refuted",
    "C68_many_keys_refuted",
    "C68_insert_refuted"
   ],
   "note": "Regular nested lists, single points, ranges, copy/extract/insert/permute, flatten/unflatten and operators are proved. Irregular lists are accepted with values dropped or repeated (C68_ragged_refuted, C68_spread_refuted, C68_letters_refuted), copy to a python list converts values (C68_copy_list_partial, C68_copy_list_refuted), points[[...]] returns a two-dimensional object (C68_many_keys_refuted) and insert compares only the number of features (C68_insert_partial, C68_insert_refuted)."
  },
  {
   "property": "C69",
   "status": "partial",
   "theorems": [
    "C69_independent_partial",
    "C69_no_operator",
    "C69_consistent_partial",
    "C69_consistent_holds",
    "C69_private_data",
    "C69_linked",
    "C69_treat_as_2D",
    "C69_alias_refuted"
   ],
   "note": "Independence and consistent dimensions are proved for every program that does not resize in place an object linked by an operator (C69_independent_partial, C69_consistent_partial; all programs without operators: C69_no_operator), and the data of other objects is untouched in every program. The full statement is false: the result of an operator shares the list of dimensions of its left operand (C69_linked, C69_alias_refuted)."
  },
  {
   "property": "C70",
   "status": "partial",
   "theorems": [
    "C70_names_read",
    "C70_dense_read",
    "C70_list_round_trip_partial",
    "C70_list_no_names_partial",
    "C70_scipy_round_trip_partial",
    "C70_scipy_no_names_partial",
    "C70_load_partial",
    "C70_comment_names",
    "C70_keep_partial",
    "C70_list_refused",
    "C70_scipy_refused",
    "C70_format_csv",
    "C70_format_mtx",
    "C70_comma_refuted",
    "C70_white_refuted",
    "C70_empty_refuted",
    "C70_newline_refuted",
    "C70_bool_refuted",
    "C70_truncated_refuted",
    "C70_given_refuted",
    "C70_both_refuted",
    "C70_columns_refuted",
    "C70_format_refuted",
    "C70_dot_refuted"
   ],
   "note": "Round trips are proved for names without commas, line ends and trailing white space, and elements that print as numbers; reading of comments, dense bodies and formats is proved for every file. The full statement is false: C70_comma_refuted, C70_white_refuted, C70_empty_refuted, C70_newline_refuted, C70_bool_refuted, C70_truncated_refuted, C70_given_refuted, C70_both_refuted, C70_columns_refuted, C70_format_refuted, C70_dot_refuted. scipy.io.mmwrite/mmread on coordinate files are parameters, assumed to agree on the matrix saved."
  },
  {
   "property": "C71",
   "status": "partial",
   "theorems": [
    "C71_split_text",
    "C71_split_partial",
    "C71_split_same_result",
    "C71_split_refused",
    "C71_collapse_partial",
    "C71_collapse_does",
    "C71_collapse_orders",
    "C71_collapse_zero",
    "C71_expand_partial",
    "C71_expand_clash",
    "C71_expand_same_text",
    "C71_collapse_order_refuted",
    "C71_collapse_kept_zero_refuted",
    "C71_split_numbers_refuted",
    "C71_stored_zero_refuted",
    "C71_expand_unnamed_refuted"
   ],
   "note": "Split: proved for text rules in objects that can hold text, and any rule when each new feature is of one type (or everything is a float); the result and the names are always those of the other types. Collapse: proved for all objects without zeros among the collapsed values, zeros last among the kept ones and an order of features that undoes itself; C71_collapse_does says exactly what happens without the last two, C71_collapse_zero that a collapsed zero is always an exception. Expand: proved for named features wherever the feature of names stands. The full statement is false: C71_collapse_order_refuted, C71_collapse_kept_zero_refuted, C71_collapse_zero, C71_split_numbers_refuted, C71_stored_zero_refuted, C71_expand_unnamed_refuted."
  },
  {
   "property": "C72",
   "status": "partial",
   "theorems": [
    "C72_spelling",
    "C72_unknown_format",
    "C72_high_refused",
    "C72_flat_format",
    "C72_flat_shape",
    "C72_flat",
    "C72_array",
    "C72_pandas_partial",
    "C72_list",
    "C72_list_turned_partial",
    "C72_coo_partial",
    "C72_compressed_partial",
    "C72_compressed_text_refused",
    "C72_list_of_dict_partial",
    "C72_dict_of_list_partial",
    "C72_nimble_partial",
    "C72_there_and_back_partial",
    "C72_source_partial",
    "C72_source_changes",
    "C72_list_turned_text_refuted",
    "C72_list_turned_empty_refuted",
    "C72_unnamed_lost_refuted",
    "C72_csr_turned_refuted",
    "C72_coo_none_refuted",
    "C72_csr_mixed_refuted",
    "C72_pandas_empty_refuted",
    "C72_source_refuted",
    "C72_sparse_empty_text_refuted"
   ],
   "note": "Proved for all objects and formats with exactly the guards that the counterexamples make necessary: C72_list_turned_text_refuted, C72_list_turned_empty_refuted, C72_unnamed_lost_refuted, C72_csr_turned_refuted, C72_coo_none_refuted, C72_csr_mixed_refuted, C72_pandas_empty_refuted, C72_source_refuted, C72_sparse_empty_text_refuted. C72_source_changes says exactly what the one kind of copy that changes its object does to it. Views and the copies of objects with more than two dimensions are not covered here."
  },
  {
   "property": "C73",
   "status": "partial",
   "theorems": [
    "C73_take_matrix",
    "C73_drop_matrix",
    "C73_permute_matrix",
    "C73_take_frame",
    "C73_permute_frame",
    "C73_drop_frame",
    "C73_repeat_matrix",
    "C73_repeat_frame",
    "C73_insert_matrix",
    "C73_insert_frame",
    "C73_assign_matrix",
    "C73_assign_many_partial",
    "C73_assign_any_value_refuted",
    "C73_replace_matrix_partial",
    "C73_replace_matrix_constant_partial",
    "C73_replace_frame",
    "C73_replace_frame_constant",
    "C73_replace_matrix_refuted",
    "C73_flatten_matrix",
    "C73_unflatten_matrix",
    "C73_flatten_round_trip",
    "C73_flatten_frame",
    "C73_unflatten_frame_partial",
    "C73_unflatten_frame_refuted",
    "C73_transform_matrix",
    "C73_transform_none_refuted",
    "C73_collapse_frame_partial",
    "C73_collapse_first_refuted",
    "C73_expand_frame_partial",
    "C73_expand_missing_refuted"
   ],
   "note": "Selections, insertions, DataFrame replaceRectangle, flatten, Matrix unflatten and Matrix transform are proved without restriction. Partial where the code changes values: C73_assign_any_value_refuted, C73_replace_matrix_refuted, C73_unflatten_frame_refuted, C73_transform_none_refuted, C73_collapse_first_refuted, C73_expand_missing_refuted; the positive theorems carry exactly the guards needed (C73_assign_matrix is an equivalence). Floats are exact and integers unbounded in the model; datetimes and the transform of DataFrame objects are not modelled."
  },
  {
   "property": "C74",
   "status": "partial",
   "theorems": [
    "C74_join_partial",
    "C74_join_filled",
    "C74_with_itself",
    "C74_no_sort",
    "C74_union_sorted_partial",
    "C74_names_required",
    "C74_key_unknown",
    "C74_key_not_unique",
    "C74_key_index_differs",
    "C74_fill_refuted",
    "C74_left_on_feature_refuted",
    "C74_renamed_refuted",
    "C74_renamed_by_names_refuted",
    "C74_failure_changes_refuted"
   ],
   "note": "The join with the values of self is proved for all shapes, several matches and aliasing. Partial because the code does not fill NaN of self from other (C74_fill_refuted), swaps columns when names were set out of order (C74_renamed_refuted, C74_renamed_by_names_refuted), compares another feature in some left joins (C74_left_on_feature_refuted) and leaves a broken object when refused (C74_failure_changes_refuted)."
  },
  {
   "property": "C75",
   "status": "partial",
   "theorems": [
    "C75_join_partial",
    "C75_with_itself",
    "C75_names_required",
    "C75_key_unknown",
    "C75_key_not_unique",
    "C75_key_index_differs",
    "C75_zero_key_refuted",
    "C75_zero_key_lost_refuted",
    "C75_rest_zero_refuted",
    "C75_empty_refuted",
    "C75_text_refuted",
    "C75_text_number_refuted",
    "C75_unnamed_refuted",
    "C75_unnamed_broken_refuted",
    "C75_fill_refuted",
    "C75_renamed_refuted"
   ],
   "note": "The join with the values of self is proved for all shapes and all storage orders of numeric objects. Partial because the code loses or misplaces points whose key is zero (C75_zero_key_refuted, C75_zero_key_lost_refuted), shifts the zeros of unmatched points of other (C75_rest_zero_refuted), fails on an empty join (C75_empty_refuted) and on text (C75_text_refuted, C75_text_number_refuted), joins unnamed points with names that look like positions (C75_unnamed_refuted, C75_unnamed_broken_refuted), does not fill NaN (C75_fill_refuted) and swaps columns when names were set out of order (C75_renamed_refuted)."
  },
  {
   "property": "C76",
   "status": "partial",
   "theorems": [
    "C76_inversion_exists",
    "C76_ridge_minimises_partial",
    "C76_ridge_trains_partial",
    "C76_ridge_exact_partial",
    "C76_ridge_order_partial",
    "C76_ridge_predicts_partial",
    "C76_multi_predicts_partial",
    "C76_multi_same_partial",
    "C76_solve",
    "C76_least_squares",
    "C76_solve_passes_on",
    "C76_solve_not_square",
    "C76_solve_not_vector",
    "C76_solve_incompatible_partial",
    "C76_inverse",
    "C76_inverse_not_square",
    "C76_booleans_refuted",
    "C76_solution_shape_refuted",
    "C76_single_element_refuted"
   ],
   "note": "Proved over exact rationals for all numeric data, given an inversion (solving) routine that inverts (solves); such routines are constructed (C76_inversion_exists, C76_example_solver). Partial because features that are all booleans are multiplied with and/or (C76_booleans_refuted), the solution is a point even if b is a feature (C76_solution_shape_refuted) and a single element b of the wrong size raises ValueError (C76_single_element_refuted)."
  },
  {
   "property": "C77",
   "status": "partial",
   "theorems": [
    "C77_duplicates_summed",
    "C77_duplicates_text_refused",
    "C77_sparse_source_partial",
    "C77_same_as_list_partial",
    "C77_coo_source_partial",
    "C77_convert_partial",
    "C77_text_first_refuted",
    "C77_repeated_names_refuted",
    "C77_zero_name_refuted",
    "C77_single_row_refuted",
    "C77_zero_missing_refuted",
    "C77_zero_replacement_refuted",
    "C77_convert_zeros_refuted"
   ],
   "note": "Proved for all matrices of entries (numbers where positions repeat), against what the nested list gives (C77_same_as_list_partial). Partial because the full statement is false: repeated feature names are renamed (C77_repeated_names_refuted), a zero among the point names is refused if feature names are in the data too (C77_zero_name_refuted), a single row of text is taken for names (C77_single_row_refuted), zeros that are not stored are neither replaced nor converted (C77_zero_missing_refuted, C77_convert_zeros_refuted), zeros made are stored (C77_zero_replacement_refuted), and text before a number at a position raises TypeError (C77_text_first_refuted)."
  },
  {
   "property": "C78",
   "status": "partial",
   "theorems": [
    "C78_train",
    "C78_apply",
    "C78_test",
    "C78_train_and_apply",
    "C78_train_and_test",
    "C78_training_data",
    "C78_normalize_partial",
    "C78_retrain_partial",
    "C78_performance_checked",
    "C78_normalize_labels_refuted",
    "C78_strategy_case_refuted",
    "C78_mode_case_refuted",
    "C78_test_labels_alone_refuted",
    "C78_retrain_names_refuted"
   ],
   "note": "Proved in full for train, apply, test, trainAndApply, trainAndTest, trainAndTestOnTrainingData and the checks of performance functions, for all learners and performance functions as parameters, without tuning and the strategies OneVsAll and OneVsOne (C67). Partial because the full statement is false: normalizeData with labels named by an identifier never succeeds (C78_normalize_labels_refuted), retrain keeps the names of the first labels (C78_retrain_names_refuted), strategies and score modes in another case pass the check and are ignored or refused later (C78_strategy_case_refuted, C78_mode_case_refuted), and labels to test with are not accepted without data to test with (C78_test_labels_alone_refuted)."
  },
  {
   "property": "C79",
   "status": "partial",
   "theorems": [
    "C79_replace_partial",
    "C79_accepts",
    "C79_everything",
    "C79_matrix",
    "C79_column_refuted",
    "C79_names_ignored_refuted"
   ],
   "note": "Proved in full for what the code does, for all inputs of two dimensions. Partial because the statement is false in two respects: raw data for an object with one feature (point) is turned and then refused (C79_column_refuted), and the names of data with as many points as the object are not followed (C79_names_ignored_refuted)."
  },
  {
   "property": "C80",
   "status": "partial",
   "theorems": [
    "C80_statistics",
    "C80_grouped",
    "C80_similarities_partial",
    "C80_unreadable",
    "C80_refused",
    "C80_symmetric",
    "C80_diagonal",
    "C80_correlation_bounds",
    "C80_nothing_over_zero",
    "C80_dot_product",
    "C80_count_refuted",
    "C80_no_elements_refuted",
    "C80_dot_changes_refuted"
   ],
   "note": "Proved for all inputs (exact numbers; np.std is a parameter, exact where the bounds need it). Partial because the statement is false in three respects: 'count' is accepted and then raises ValueError (C80_count_refuted), covariances of vectors without elements are 0 instead of missing (C80_no_elements_refuted), and asking for dot products changes strings in the object (C80_dot_changes_refuted)."
  },
  {
   "property": "C81",
   "status": "partial",
   "theorems": [
    "C81_transform",
    "C81_transform_empty",
    "C81_transformElements_zeros_partial",
    "C81_transformElements_bool_refuted",
    "C81_transformElements_partial",
    "C81_transformElements_none_refuted",
    "C81_transformElements_header_refuted",
    "C81_transform_numbers",
    "C81_transformElements_zeros_numbers"
   ],
   "note": "points.transform and features.transform in full. transformElements is partial because the statement is false in three respects: integers stored in an object of type bool become True (C81_transformElements_bool_refuted), None results of functions that do not keep zeros leave the element (C81_transformElements_none_refuted), and results that read as names lose the first point (C81_transformElements_header_refuted). The element type after a transformElements that does not keep zeros is not modelled."
  },
  {
   "property": "C82",
   "status": "partial",
   "theorems": [
    "C82_calculateOnElements_zeros_partial",
    "C82_calculateOnElements_partial",
    "C82_calculateOnElements_one_axis",
    "C82_calculateOnElements_subset_partial",
    "C82_calculateOnElements_subset_refuted",
    "C82_calculateOnElements_zero_subset_refuted",
    "C82_calculateOnElements_truncates_refuted"
   ],
   "note": "Proved for preserveZeros over the whole object and for everything without preserveZeros. The statement is false for preserveZeros with points and features given: the results keep their original positions and the shape is cut at the last of them (C82_calculateOnElements_subset_refuted), nothing but zeros selected is a ValueError (C82_calculateOnElements_zero_subset_refuted), and one of the two without the other is a TypeError (C82_calculateOnElements_one_axis). What holds with points and features given is C82_calculateOnElements_subset_partial. Results of more than one kind are truncated (C82_calculateOnElements_truncates_refuted)."
  },
  {
   "property": "C83",
   "status": "partial",
   "theorems": [
    "C83_normalize_self",
    "C83_normalize_self_accepts",
    "C83_normalize_both_partial",
    "C83_normalize_both_accepts_partial",
    "C83_normalize_refuses",
    "C83_normalize_unknown",
    "C83_normalize_index_refuted",
    "C83_normalize_name_refuted",
    "C83_normalize_names_refuted",
    "C83_normalize_range_partial"
   ],
   "note": "Proved for the calling object alone, and with applyResultTo for all features or a list of identifiers. The statement is false with applyResultTo for a single identifier, which is documented: an index raises TypeError (C83_normalize_index_refuted) and a name is taken letter by letter (C83_normalize_name_refuted). Whether names contradict each other depends on earlier failed lookups (C83_normalize_names_refuted)."
  },
  {
   "property": "C84",
   "status": "proved",
   "theorems": [
    "C84_residuals",
    "C84_residuals_orthogonal",
    "C84_residuals_exact",
    "C84_residuals_determined",
    "C84_residuals_accepts",
    "C84_residuals_refuses"
   ],
   "note": "Exact rationals for floats; scipy.linalg.lstsq is a parameter of which the least squares property is required, used one column after the other (a routine that meets it is given, lsq_least). Text that reads as a number is converted (floatOf); objects with missing values are not followed."
  },
  {
   "property": "C85",
   "status": "proved",
   "theorems": [
    "C85_report",
    "C85_report_accepts",
    "C85_report_labels",
    "C85_report_refuses",
    "C85_report_names_refuted"
   ],
   "note": "nimble.calculate's functions are parameters that read the elements of the feature; dtypes=False. The condition that names have no parenthesis is needed: C85_report_names_refuted gives functions called f, f and 'f (0)', for which the numbering makes a label twice and the report fails. Objects without features are not followed."
  }
 ]
}