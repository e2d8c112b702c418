{
 "claims": [
  {
   "property": "C01",
   "status": "proved",
   "theorems": [
    "C01_dense_schedule_independent"
   ],
   "note": "every interleaving of single loads and stores; at most 2^53 rows"
  },
  {
   "property": "C02",
   "status": "proved",
   "theorems": [
    "C02_csr_schedule_independent"
   ],
   "note": "as C01, with the reused feature buffer"
  },
  {
   "property": "C03",
   "status": "proved",
   "theorems": [
    "C03_dense_always_completes",
    "C03_csr_always_completes"
   ],
   "note": "every execution is finite, crash free and never stuck"
  },
  {
   "property": "C04",
   "status": "proved",
   "theorems": [
    "C04_dense_no_data_race",
    "C04_csr_no_data_race"
   ],
   "note": ""
  },
  {
   "property": "C05",
   "status": "proved",
   "theorems": [
    "C05_dense_rows_equal_predict"
   ],
   "note": "for transformations that accept the number of raw groups (see C21)"
  },
  {
   "property": "C06",
   "status": "proved",
   "theorems": [
    "C06_csr_rows_equal_predict"
   ],
   "note": "for transformations that accept the number of raw groups (see C21)"
  },
  {
   "property": "C07",
   "status": "proved",
   "theorems": [
    "C07_predict_window",
    "C07_dense_window",
    "C07_csr_window"
   ],
   "note": ""
  },
  {
   "property": "C08",
   "status": "proved",
   "theorems": [
    "C08_predict_errors",
    "C08_errors_write_nothing"
   ],
   "note": "that an error return writes nothing is part of the model's type: errors come before the first write, and no write can produce an error"
  },
  {
   "property": "C09",
   "status": "proved",
   "theorems": [
    "C09_dense_errors",
    "C09_csr_errors",
    "C09_overflow_refuted"
   ],
   "note": "the refutation shows that the products have to be ints"
  },
  {
   "property": "C10",
   "status": "proved",
   "theorems": [
    "C10_adjusted_estimators",
    "C10_later_estimators_ignored",
    "C10_linear_one_estimator"
   ],
   "note": ""
  },
  {
   "property": "C11",
   "status": "proved",
   "theorems": [
    "C11_raw_score_is_sum",
    "C11_raw_score_is_plain_sum"
   ],
   "note": ""
  },
  {
   "property": "C12",
   "status": "proved",
   "theorems": [
    "C12_average_output"
   ],
   "note": ""
  },
  {
   "property": "C13",
   "status": "proved",
   "theorems": [
    "C13_xgboost_score"
   ],
   "note": ""
  },
  {
   "property": "C14",
   "status": "proved",
   "theorems": [
    "C14_gblinear_score"
   ],
   "note": ""
  },
  {
   "property": "C15",
   "status": "proved",
   "theorems": [
    "C15_leaf_indices"
   ],
   "note": "for tree models that store no more leaf values than leaves"
  },
  {
   "property": "C16",
   "status": "proved",
   "theorems": [
    "C16_nleaves_layout"
   ],
   "note": "the number of leaves of a tree is its number of nodes plus one, as for every proper binary tree"
  },
  {
   "property": "C17",
   "status": "proved",
   "theorems": [
    "C17_predict_single"
   ],
   "note": ""
  },
  {
   "property": "C18",
   "status": "proved",
   "theorems": [
    "C18_views_compose",
    "C18_views_exist"
   ],
   "note": ""
  },
  {
   "property": "C19",
   "status": "proved",
   "theorems": [
    "C19_logistic_range",
    "C19_exponential_range"
   ],
   "note": "under the stated contract on math.Exp (good_exp)"
  },
  {
   "property": "C20",
   "status": "proved",
   "theorems": [
    "C20_softmax_distribution",
    "C20_softmax_predictions",
    "C20_softmax_accuracy",
    "C20_softmax_sums_to_one",
    "C20_predictions_sum_to_one",
    "C20_overflow_gives_nan_refuted",
    "C20_sum_overflow_gives_zero_refuted",
    "C20_underflow_gives_inf_refuted",
    "C20_large_sum_exceeds_one_refuted"
   ],
   "note": "both the positive range and each failure named in the property"
  },
  {
   "property": "C21",
   "status": "proved",
   "theorems": [
    "C21_outputs_written",
    "C21_unwritten_logistic_refuted",
    "C21_unwritten_gblinear_leaves_refuted"
   ],
   "note": "holds when the transformation accepts the number of raw groups; the two refutations show the failures named in the property"
  },
  {
   "property": "C22",
   "status": "partial",
   "theorems": [
    "C22_names_partial",
    "C22_type_names_partial",
    "C22_exponential_name_refuted"
   ],
   "note": "false for the exponential transformation: its name is logistic and its type's name panics"
  },
  {
   "property": "C23",
   "status": "proved",
   "theorems": [
    "C23_numerical_split"
   ],
   "note": ""
  },
  {
   "property": "C24",
   "status": "partial",
   "theorems": [
    "C24_categorical_split",
    "C24_other_values",
    "C24_amd64_other_values_go_right",
    "C24_nan_platform_independent_refuted"
   ],
   "note": "membership is proved for all encodings; the last sentence (NaN does not depend on the platform) is false"
  },
  {
   "property": "C25",
   "status": "proved",
   "theorems": [
    "C25_number_of_set_bits"
   ],
   "note": ""
  },
  {
   "property": "C26",
   "status": "proved",
   "theorems": [
    "C26_first_non_zero_bit"
   ],
   "note": ""
  },
  {
   "property": "C27",
   "status": "proved",
   "theorems": [
    "C27_construct_bitset",
    "C27_negative_values"
   ],
   "note": ""
  },
  {
   "property": "C28",
   "status": "proved",
   "theorems": [
    "C28_text_tree",
    "C28_text_file",
    "C28_text_predictions"
   ],
   "note": "from the bytes of the file to the prediction; the last theorem is for the raw view"
  },
  {
   "property": "C29",
   "status": "proved",
   "theorems": [
    "C29_loop_bounded",
    "C29_text_source_returns",
    "C29_text_load_returns",
    "C29_xgb_source_returns",
    "C29_xgb_tree_returns",
    "C29_xgb_load_returns",
    "C29_sklearn_source_returns",
    "C29_sklearn_tree_returns",
    "C29_sklearn_load_returns",
    "C29_json_load_returns"
   ],
   "note": "the bound is 2*nodes+1 iterations, for each of the three array formats; the load theorems are about whole files; the JSON loader is bounded by the size of the document"
  },
  {
   "property": "C30",
   "status": "partial",
   "theorems": [
    "C30_proper_file_predicts_partial",
    "C39_xgboost_file",
    "C47_sklearn_file",
    "C30_cyclic_refuted",
    "C30_shared_refuted",
    "C30_xgb_cyclic_refuted",
    "C30_xgb_no_groups_refuted",
    "C30_sklearn_cyclic_refuted",
    "C34_json_predictions",
    "C34_understated_leaves_refuted",
    "C34_no_num_cat_refuted"
   ],
   "note": "false in general (accepted files that never return or panic); proved for files of proper trees"
  },
  {
   "property": "C31",
   "status": "proved",
   "theorems": [
    "C31_header",
    "C31_bad_header"
   ],
   "note": ""
  },
  {
   "property": "C32",
   "status": "proved",
   "theorems": [
    "C32_block",
    "C32_end_of_input",
    "C32_two_equals_signs",
    "C32_exact",
    "C32_leading_blank_lines_skipped_refuted"
   ],
   "note": "the refutation shows that leading blank lines are not skipped"
  },
  {
   "property": "C33",
   "status": "proved",
   "theorems": [
    "C33_objective",
    "C33_unknown_objective",
    "C28_text_file"
   ],
   "note": "C28_text_file contains the converse: with a known objective the load succeeds with that transformation"
  },
  {
   "property": "C34",
   "status": "proved",
   "theorems": [
    "C34_json_tree",
    "C34_json_file",
    "C34_json_predictions",
    "C34_understated_leaves_refuted",
    "C34_no_num_cat_refuted",
    "C34_wide_category_refuted",
    "C34_negative_category_refuted",
    "C34_huge_num_leaves_refuted"
   ],
   "note": "from the parsed JSON value; leaf indices up to renumbering; the refutations show that the conditions are needed"
  },
  {
   "property": "C35",
   "status": "proved",
   "theorems": [
    "C35_tree",
    "C35_models",
    "C35_random_forest_refuted"
   ],
   "note": "the refutation is the exception named in the property"
  },
  {
   "property": "C36",
   "status": "proved",
   "theorems": [
    "C36_header_round_trip",
    "C36_gbtree_round_trip",
    "C36_tree_round_trip",
    "C36_gblinear_round_trip",
    "C36_string_and_slice_round_trip"
   ],
   "note": "for any following bytes"
  },
  {
   "property": "C37",
   "status": "proved",
   "theorems": [
    "C37_truncated_trees",
    "C37_truncated_linear",
    "C37_trailing_bytes_ignored"
   ],
   "note": "the last theorem is the other side: anything after the model is ignored"
  },
  {
   "property": "C38",
   "status": "partial",
   "theorems": [
    "C38_tree_partial",
    "C38_tie_refuted",
    "C38_pruned_root_refuted"
   ],
   "note": "proved for feature vectors without ties and trees without pruned root; both exceptions are shown to be real"
  },
  {
   "property": "C39",
   "status": "proved",
   "theorems": [
    "C39_xgboost_file"
   ],
   "note": "tree values by the code's own <= comparison; C38_tree_partial relates it to XGBoost's <"
  },
  {
   "property": "C40",
   "status": "proved",
   "theorems": [
    "C40_gblinear_file",
    "C40_short_weights_refuted"
   ],
   "note": ""
  },
  {
   "property": "C41",
   "status": "partial",
   "theorems": [
    "C30_proper_file_predicts_partial",
    "C41_feature_above_max_refuted",
    "C41_single_feature_refuted",
    "C41_xgb_refuted",
    "C41_sklearn_refuted",
    "C39_xgboost_file",
    "C47_sklearn_file"
   ],
   "note": "false in general; proved for LightGBM text files with max_feature_idx >= 1 that bounds the features, and for XGBoost and sklearn files whose trees keep to the declared features"
  },
  {
   "property": "C42",
   "status": "partial",
   "theorems": [
    "C42_decode_partial",
    "C42_dumps",
    "C42_decode_stateless",
    "C42_terminates"
   ],
   "note": "every object, with or without sharing of strings, numbers, tuples and dicts; shared lists and instances are decoded wrongly (C43), C42_decode_stateless says what is returned for instances"
  },
  {
   "property": "C43",
   "status": "proved",
   "theorems": [
    "C43_get_returns_put",
    "C43_dict_is_current",
    "C43_list_is_stale",
    "C43_list_refuted",
    "C43_instance_refuted"
   ],
   "note": "true for dicts, false for lists and, in addition to the property, for instances with state"
  },
  {
   "property": "C44",
   "status": "proved",
   "theorems": [
    "C44_unicode_escape",
    "C44_other_escapes_refuted"
   ],
   "note": "backslash and newline; other escapes that newer Pythons write are not undone"
  },
  {
   "property": "C45",
   "status": "proved",
   "theorems": [
    "C45_iterate",
    "C45_iterate_rejects",
    "C45_float_round_trip",
    "C45_int_round_trip",
    "C45_node_round_trip",
    "C45_node_array",
    "C45_float_array",
    "C45_int_array"
   ],
   "note": ""
  },
  {
   "property": "C46",
   "status": "proved",
   "theorems": [
    "C46_sklearn_tree",
    "C46_rule",
    "C46_constant_refuted"
   ],
   "note": "every non-empty feature vector; the refutation shows that a constant tree still asks for one feature value"
  },
  {
   "property": "C47",
   "status": "proved",
   "theorems": [
    "C47_sklearn_class",
    "C47_sklearn_file"
   ],
   "note": "the second theorem starts at the bytes of the pickle file"
  },
  {
   "property": "C48",
   "status": "proved",
   "theorems": [
    "C48_from_array",
    "C48_dense_csr_agree",
    "C48_dense_follows_csr",
    "C48_single_feature_refuted",
    "C48_negative_dimensions_refuted",
    "C48_overflow_refuted"
   ],
   "note": "the converse of C48_dense_follows_csr fails for models that look beyond NFeatures() (first refutation); the others show accepted dimensions that describe no matrix"
  },
  {
   "property": "C49",
   "status": "proved",
   "theorems": [
    "C49_csr_libsvm",
    "C49_csr_rejects",
    "C49_every_text",
    "C49_dense_libsvm",
    "C49_dense_rejects",
    "C49_inconsistent_refuted",
    "C49_double_space_refuted"
   ],
   "note": "both exceptions named in the property are shown to be real"
  },
  {
   "property": "C50",
   "status": "proved",
   "theorems": [
    "C50_text",
    "C50_empty_text",
    "C50_wrong_size",
    "C50_csv_round_trip",
    "C50_file_round_trip",
    "C50_empty_refuted",
    "C50_delimiter_refuted"
   ],
   "note": "delimiter without newline whose first byte occurs in no printed value; the refutations show the hypotheses are needed"
  },
  {
   "property": "C51",
   "status": "proved",
   "theorems": [
    "C51_almost_equal_slices",
    "C51_real_distance",
    "C51_num_mismatched",
    "C51_nan_refuted",
    "C51_rounding_refuted"
   ],
   "note": "distance is the float64 difference; C51_rounding_refuted shows it is not the exact one"
  },
  {
   "property": "C52",
   "status": "proved",
   "theorems": [
    "C52_traversal_bounded_or_divergent",
    "predict_hang_is_divergence"
   ],
   "note": ""
  },
  {
   "property": "C53",
   "status": "proved",
   "theorems": [
    "C53_batches_partition_rows"
   ],
   "note": "up to 2^53 rows (the batch count is computed in float64)"
  },
  {
   "property": "C54",
   "status": "proved",
   "theorems": [
    "C54_raw_view_predicts",
    "C54_logistic",
    "C54_exponential",
    "C54_softmax"
   ],
   "note": ""
  },
  {
   "property": "C55",
   "status": "proved",
   "theorems": [
    "C55_extra_features_ignored"
   ],
   "note": ""
  },
  {
   "property": "C56",
   "status": "proved",
   "theorems": [
    "C56_csv",
    "C56_csv_rejects",
    "C56_every_text",
    "C56_whitespace_delimiter_refuted"
   ],
   "note": ""
  },
  {
   "property": "C57",
   "status": "proved",
   "theorems": [
    "C57_json_header",
    "C57_bad_json_header"
   ],
   "note": "from the parsed JSON value"
  },
  {
   "property": "C58",
   "status": "proved",
   "theorems": [
    "C58_write_str",
    "C58_same_text",
    "C58_csv_file",
    "C58_refused",
    "C58_lost_data_refuted"
   ],
   "note": "the refutation shows that the exception named in the property is real"
  },
  {
   "property": "C59",
   "status": "proved",
   "theorems": [
    "C59_logistic_order",
    "C59_exponential_order",
    "C59_softmax_order",
    "C59_strict_order_refuted"
   ],
   "note": "weak order; the refutation shows that different raw scores may get the same probability"
  },
  {
   "property": "C60",
   "status": "proved",
   "theorems": [
    "C60_lightgbm_score",
    "C60_random_forest_score",
    "C60_xgboost_score",
    "C60_gblinear_score",
    "C60_growth",
    "C60_inexact_refuted"
   ],
   "note": "the refutation shows that rounding errors do occur"
  },
  {
   "property": "C61",
   "status": "proved",
   "theorems": [
    "C61_concurrent_calls_independent",
    "C61_concurrent_results",
    "C61_concurrent_calls_complete",
    "C61_single_threaded_completes",
    "C61_overlapping_slices_refuted"
   ],
   "note": "the refutation shows that the slices have to be disjoint; calls are modelled from the point where their checks, and the buffer of a single-threaded CSR call, have succeeded"
  },
  {
   "property": "C62",
   "status": "proved",
   "theorems": [
    "C62_lightgbm_text",
    "C62_lightgbm_json",
    "C62_xgboost",
    "C62_gblinear",
    "C62_sklearn",
    "C62_text_misfit_refuted",
    "C62_xgb_misfit_refuted",
    "C62_sklearn_no_groups_refuted",
    "C30_xgb_no_groups_refuted"
   ],
   "note": "the refutations show that the exceptions named in the property are real"
  },
  {
   "property": "C63",
   "status": "proved",
   "theorems": [
    "C63_lightgbm_text",
    "C63_lightgbm_json",
    "C63_xgboost",
    "C63_gblinear",
    "C63_sklearn",
    "C63_dense_from_rows",
    "C63_csr_from_rows"
   ],
   "note": "joins C28, C34, C39, C40, C47 with C03, C05, C06 and C54; for XGBoost trees the split rule is the one of C38 (ties)"
  },
  {
   "property": "C64",
   "status": "proved",
   "theorems": [
    "C64_json_stream",
    "C64_layout_irrelevant",
    "C64_one_meaning",
    "C64_not_json",
    "C64_accepted",
    "C64_truncated",
    "C64_too_deep",
    "C64_returns",
    "C64_predictions"
   ],
   "note": "the scanner of encoding/json is modelled from its documentation and sources; strings that are not UTF-8 are read with U+FFFD, as the package does"
  },
  {
   "property": "C65",
   "status": "proved",
   "theorems": [
    "C65_sklearn_accepts_only_models",
    "C65_other_class_refused",
    "C65_column_major_refused"
   ],
   "note": "what is tolerated (state on top of a byte string, a list instead of bytes, byte strings of the priors of any length) is spelt out in Spec_SkAccept.v"
  },
  {
   "property": "C66",
   "status": "proved",
   "theorems": [
    "C66_lightgbm_text",
    "C66_lightgbm_json",
    "C66_xgboost",
    "C66_gblinear",
    "C66_sklearn",
    "C66_matrix_files",
    "C66_text_short_array_refuted",
    "C66_text_missing_child_refuted",
    "C66_xg_missing_child_refuted",
    "C66_json_category_refuted",
    "C66_sk_missing_child_refuted",
    "C66_sk_empty_stack_refuted"
   ],
   "note": "the _refuted theorems show that the conditions are needed: such files panic"
  },
  {
   "property": "C67",
   "status": "proved",
   "theorems": [
    "C67_models_from_files",
    "C67_matrices_from_files",
    "C67_text_model_file"
   ],
   "note": ""
  },
  {
   "property": "C68",
   "status": "proved",
   "theorems": [
    "C68_text_model",
    "C68_xgboost",
    "C68_sklearn",
    "C68_sklearn_any_stream",
    "C68_matrices",
    "C68_batches",
    "C68_same_stream",
    "C68_stream_cases",
    "C68_text_gives_up",
    "C68_matrices_give_up",
    "C68_text_stalls_refuted",
    "C68_sklearn_stalls_refuted"
   ],
   "note": "The buffering of the JSON decoder is not modelled."
  },
  {
   "property": "C69",
   "status": "proved",
   "theorems": [
    "C69_rows_independent",
    "C69_dense_split"
   ],
   "note": ""
  },
  {
   "property": "C70",
   "status": "proved",
   "theorems": [
    "C70_leaves_determine_prediction"
   ],
   "note": ""
  },
  {
   "property": "C71",
   "status": "proved",
   "theorems": [
    "C71_same_cells_same_result",
    "C71_order_of_entries",
    "C71_missing_values"
   ],
   "note": ""
  },
  {
   "property": "C72",
   "status": "partial",
   "theorems": [
    "C72_xgboost",
    "C72_json",
    "C72_sklearn",
    "C72_text_complete",
    "C72_text_partial",
    "C72_text_refuted"
   ],
   "note": "LightGBM text: the end of the file ends the last tree, so a cut there may load with another last tree (C72_text_refuted); everything else agrees. The other formats are covered in full."
  },
  {
   "property": "C73",
   "status": "proved",
   "theorems": [
    "C73_spelling",
    "C73_line_order"
   ],
   "note": ""
  },
  {
   "property": "C74",
   "status": "proved",
   "theorems": [
    "C74_lightgbm_text",
    "C74_lightgbm_json",
    "C74_xgboost",
    "C74_sklearn"
   ],
   "note": ""
  },
  {
   "property": "C75",
   "status": "proved",
   "theorems": [
    "C75_score_range",
    "C75_forest_range",
    "C75_xgboost_range"
   ],
   "note": ""
  },
  {
   "property": "C76",
   "status": "proved",
   "theorems": [
    "C76_message",
    "C76_only_self_containing",
    "C76_pickled",
    "C76_error_for_every_file_refuted"
   ],
   "note": "the stronger claim that no file ends the program is refuted"
  },
  {
   "property": "C77",
   "status": "proved",
   "theorems": [
    "C77_predict",
    "C77_predict_in_place",
    "C77_dense",
    "C77_dense_in_place",
    "C77_dense_raw_in_place",
    "C77_csr",
    "C77_raw_in_place_refuted",
    "C77_ahead_refuted",
    "C77_transform",
    "C77_raw_then_transform",
    "C77_transform_ahead_refuted"
   ],
   "note": "single-threaded calls; with goroutines the slices are assumed not to overlap"
  },
  {
   "property": "C78",
   "status": "proved",
   "theorems": [
    "C78_lightgbm_text",
    "C78_lightgbm_json",
    "C78_xgboost",
    "C78_gblinear",
    "C78_sklearn",
    "C78_sklearn_linear_refuted",
    "C78_json_words_refuted",
    "C78_text_words_refuted"
   ],
   "note": "nodes, leaf values and weights of the result; memory used only while loading is not counted"
  },
  {
   "property": "C79",
   "status": "proved",
   "theorems": [
    "C79_lightgbm_text",
    "C79_lightgbm_json",
    "C79_xgboost",
    "C79_gblinear",
    "C79_sklearn",
    "C79_lightgbm_probability",
    "C79_xgboost_probability",
    "C79_tree_scores",
    "C79_xgboost_scores",
    "C79_numerical_splits",
    "C79_zero_missing_refuted"
   ],
   "note": "leaf values finite; probabilities for a monotone exponential"
  },
  {
   "property": "C80",
   "status": "proved",
   "theorems": [
    "C80_lightgbm_text",
    "C80_lightgbm_json",
    "C80_xgboost",
    "C80_gblinear",
    "C80_sklearn",
    "C80_formats_agree"
   ],
   "note": "the number parser reads integers written in decimal"
  },
  {
   "property": "C81",
   "status": "proved",
   "theorems": [
    "C81_same_models",
    "C81_stops_behind",
    "C81_one_after_another",
    "C81_came_from",
    "C81_prefix_free",
    "C81_end_of_stream_refuted"
   ],
   "note": "JSON not included: encoding/json reads ahead"
  },
  {
   "property": "C82",
   "status": "proved",
   "theorems": [
    "C82_csr_libsvm",
    "C82_csr_libsvm_back",
    "C82_dense_libsvm",
    "C82_csv",
    "C82_dense_libsvm_back",
    "C82_csv_back",
    "C82_widths_refuted"
   ],
   "note": ""
  },
  {
   "property": "C83",
   "status": "proved",
   "theorems": [
    "C83_load_flag",
    "C83_load_flag_json",
    "C83_same_raw_scores"
   ],
   "note": ""
  },
  {
   "property": "C84",
   "status": "proved",
   "theorems": [
    "C84_lightgbm_text",
    "C84_xgboost",
    "C84_lightgbm_json",
    "C84_sklearn"
   ],
   "note": ""
  },
  {
   "property": "C85",
   "status": "proved",
   "theorems": [
    "C85_predict",
    "C85_dense",
    "C85_csr"
   ],
   "note": ""
  },
  {
   "property": "C86",
   "status": "proved",
   "theorems": [
    "C86_logistic",
    "C86_exponential",
    "C86_softmax",
    "C86_lightgbm_probability",
    "C86_xgboost_probability",
    "C86_gblinear_probability",
    "C86_lightgbm_softmax",
    "C86_xgboost_softmax",
    "C86_rounded_exp"
   ],
   "note": "the exponential function is a parameter; C86_rounded_exp shows that the correctly rounded one meets the hypotheses"
  },
  {
   "property": "C87",
   "status": "proved",
   "theorems": [
    "C87_predict",
    "C87_numerical",
    "C87_batch",
    "C87_load",
    "C87_load_json",
    "C87_nan_refuted",
    "C87_text_conversions_refuted"
   ],
   "note": "without fused multiply-add (see C88); the two refuted theorems show that the conditions on categorical splits are needed"
  },
  {
   "property": "C88",
   "status": "proved",
   "theorems": [
    "C88_unchanged",
    "C88_dense",
    "C88_csr",
    "C88_dense_rows",
    "C88_csr_rows",
    "C88_same_success",
    "C88_dense_always_completes",
    "C88_csr_always_completes",
    "C88_dense_no_data_race",
    "C88_csr_no_data_race",
    "C88_dense_includes",
    "C88_csr_includes",
    "C88_fma",
    "C88_random_forest_score",
    "C88_xgboost_score",
    "C88_gblinear_score",
    "C88_sklearn_load",
    "C88_sklearn_leaf",
    "C88_sklearn_later_estimators",
    "C88_sklearn_rate_one",
    "C88_sklearn_refuted",
    "C88_forest_refuted",
    "C88_dart_refuted"
   ],
   "note": "the error bounds are stated for single predictions and carry over to the rows of batch calls by C88_dense_rows and C88_csr_rows; the refuted theorems show that random forests, weighted trees and first scikit-learn estimators do depend on fusing"
  },
  {
   "property": "C89",
   "status": "proved",
   "theorems": [
    "C89_zero_matrix",
    "C89_from_own_values",
    "C89_shape_unchecked_refuted"
   ],
   "note": "the last one shows shapes that are accepted although no such matrix exists"
  },
  {
   "property": "C90",
   "status": "proved",
   "theorems": [
    "C90_lightgbm",
    "C90_random_forest",
    "C90_xgboost",
    "C90_bits_refuted",
    "C90_same_success"
   ],
   "note": "C90_bits_refuted shows two orders with different bits"
  },
  {
   "property": "C91",
   "status": "proved",
   "theorems": [
    "C91_predict",
    "C91_batch"
   ],
   "note": "tree models; renumbering the features of a linear model changes the order of its sum"
  },
  {
   "property": "C92",
   "status": "proved",
   "theorems": [
    "C92_class_alone",
    "C92_classes_together"
   ],
   "note": "raw outputs; a transformation may mix classes (softmax does)"
  }
 ]
}