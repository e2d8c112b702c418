"""Writes MANIFEST.json from the table below; properties without entry are listed as
partial with no theorem until they are done."""
import json, os
root = os.path.dirname(os.path.dirname(os.path.abspath(__file__)))
P, T, N = "proved", "partial", "not_applicable"
claims = [
 ("C01", P, ["C01_dense_schedule_independent"], "every interleaving of single loads and stores; at most 2^53 rows"),
 ("C02", P, ["C02_csr_schedule_independent"], "as C01, with the reused feature buffer"),
 ("C03", P, ["C03_dense_always_completes", "C03_csr_always_completes"], "every execution is finite, crash free and never stuck"),
 ("C04", P, ["C04_dense_no_data_race", "C04_csr_no_data_race"], ""),
 ("C05", P, ["C05_dense_rows_equal_predict"], "for transformations that accept the number of raw groups (see C21)"),
 ("C06", P, ["C06_csr_rows_equal_predict"], "for transformations that accept the number of raw groups (see C21)"),
 ("C07", P, ["C07_predict_window", "C07_dense_window", "C07_csr_window"], ""),
 ("C08", P, ["C08_predict_errors", "C08_errors_write_nothing"], "that an error return writes nothing is part of the model's type: errors come before the first write, and no write can produce an error"),
 ("C09", P, ["C09_dense_errors", "C09_csr_errors", "C09_overflow_refuted"], "the refutation shows that the products have to be ints"),
 ("C10", P, ["C10_adjusted_estimators", "C10_later_estimators_ignored", "C10_linear_one_estimator"], ""),
 ("C11", P, ["C11_raw_score_is_sum", "C11_raw_score_is_plain_sum"], ""),
 ("C12", P, ["C12_average_output"], ""),
 ("C13", P, ["C13_xgboost_score"], ""),
 ("C14", P, ["C14_gblinear_score"], ""),
 ("C15", P, ["C15_leaf_indices"], "for tree models that store no more leaf values than leaves"),
 ("C16", P, ["C16_nleaves_layout"], "the number of leaves of a tree is its number of nodes plus one, as for every proper binary tree"),
 ("C18", P, ["C18_views_compose", "C18_views_exist"], ""),
 ("C21", P, ["C21_outputs_written", "C21_unwritten_logistic_refuted", "C21_unwritten_gblinear_leaves_refuted"], "holds when the transformation accepts the number of raw groups; the two refutations show the failures named in the property"),
 ("C22", T, ["C22_names_partial", "C22_type_names_partial", "C22_exponential_name_refuted"], "false for the exponential transformation: its name is logistic and its type's name panics"),
 ("C19", P, ["C19_logistic_range", "C19_exponential_range"], "under the stated contract on math.Exp (good_exp)"),
 ("C20", P, ["C20_softmax_distribution", "C20_softmax_predictions", "C20_softmax_accuracy", "C20_softmax_sums_to_one", "C20_predictions_sum_to_one", "C20_overflow_gives_nan_refuted", "C20_sum_overflow_gives_zero_refuted", "C20_underflow_gives_inf_refuted", "C20_large_sum_exceeds_one_refuted"], "both the positive range and each failure named in the property"),
 ("C51", P, ["C51_almost_equal_slices", "C51_real_distance", "C51_num_mismatched", "C51_nan_refuted", "C51_rounding_refuted"], "distance is the float64 difference; C51_rounding_refuted shows it is not the exact one"),
 ("C54", P, ["C54_raw_view_predicts", "C54_logistic", "C54_exponential", "C54_softmax"], ""),
 ("C23", P, ["C23_numerical_split"], ""),
 ("C24", T, ["C24_categorical_split", "C24_other_values", "C24_amd64_other_values_go_right", "C24_nan_platform_independent_refuted"], "membership is proved for all encodings; the last sentence (NaN does not depend on the platform) is false"),
 ("C25", P, ["C25_number_of_set_bits"], ""),
 ("C26", P, ["C26_first_non_zero_bit"], ""),
 ("C27", P, ["C27_construct_bitset", "C27_negative_values"], ""),
 ("C52", P, ["C52_traversal_bounded_or_divergent", "predict_hang_is_divergence"], ""),
 ("C32", P, ["C32_block", "C32_end_of_input", "C32_two_equals_signs", "C32_exact", "C32_leading_blank_lines_skipped_refuted"], "the refutation shows that leading blank lines are not skipped"),
 ("C28", P, ["C28_text_tree", "C28_text_file", "C28_text_predictions"], "from the bytes of the file to the prediction; the last theorem is for the raw view"),
 ("C29", P, ["C29_loop_bounded", "C29_text_source_returns", "C29_text_load_returns", "C29_xgb_source_returns", "C29_xgb_tree_returns", "C29_xgb_load_returns", "C29_sklearn_source_returns", "C29_sklearn_tree_returns", "C29_sklearn_load_returns", "C29_json_load_returns"], "the bound is 2*nodes+1 iterations, for each of the three array formats; the load theorems are about whole files; the JSON loader is bounded by the size of the document"),
 ("C30", T, ["C30_proper_file_predicts_partial", "C39_xgboost_file", "C47_sklearn_file", "C30_cyclic_refuted", "C30_shared_refuted", "C30_xgb_cyclic_refuted", "C30_xgb_no_groups_refuted", "C30_sklearn_cyclic_refuted", "C34_json_predictions", "C34_understated_leaves_refuted", "C34_no_num_cat_refuted"], "false in general (accepted files that never return or panic); proved for files of proper trees"),
 ("C31", P, ["C31_header", "C31_bad_header"], ""),
 ("C33", P, ["C33_objective", "C33_unknown_objective", "C28_text_file"], "C28_text_file contains the converse: with a known objective the load succeeds with that transformation"),
 ("C41", T, ["C30_proper_file_predicts_partial", "C41_feature_above_max_refuted", "C41_single_feature_refuted", "C41_xgb_refuted", "C41_sklearn_refuted", "C39_xgboost_file", "C47_sklearn_file"], "false in general; proved for LightGBM text files with max_feature_idx >= 1 that bounds the features, and for XGBoost and sklearn files whose trees keep to the declared features"),
 ("C34", P, ["C34_json_tree", "C34_json_file", "C34_json_predictions", "C34_understated_leaves_refuted", "C34_no_num_cat_refuted", "C34_wide_category_refuted", "C34_negative_category_refuted", "C34_huge_num_leaves_refuted"], "from the parsed JSON value; leaf indices up to renumbering; the refutations show that the conditions are needed"),
 ("C35", P, ["C35_tree", "C35_models", "C35_random_forest_refuted"], "the refutation is the exception named in the property"),
 ("C57", P, ["C57_json_header", "C57_bad_json_header"], "from the parsed JSON value"),
 ("C36", P, ["C36_header_round_trip", "C36_gbtree_round_trip", "C36_tree_round_trip", "C36_gblinear_round_trip", "C36_string_and_slice_round_trip"], "for any following bytes"),
 ("C37", P, ["C37_truncated_trees", "C37_truncated_linear", "C37_trailing_bytes_ignored"], "the last theorem is the other side: anything after the model is ignored"),
 ("C38", T, ["C38_tree_partial", "C38_tie_refuted", "C38_pruned_root_refuted"], "proved for feature vectors without ties and trees without pruned root; both exceptions are shown to be real"),
 ("C39", P, ["C39_xgboost_file"], "tree values by the code's own <= comparison; C38_tree_partial relates it to XGBoost's <"),
 ("C40", P, ["C40_gblinear_file", "C40_short_weights_refuted"], ""),
 ("C42", T, ["C42_decode_partial", "C42_dumps", "C42_decode_stateless", "C42_terminates"], "every object, with or without sharing of strings, numbers, tuples and dicts; shared lists and instances are decoded wrongly (C43), C42_decode_stateless says what is returned for instances"),
 ("C43", P, ["C43_get_returns_put", "C43_dict_is_current", "C43_list_is_stale", "C43_list_refuted", "C43_instance_refuted"], "true for dicts, false for lists and, in addition to the property, for instances with state"),
 ("C44", P, ["C44_unicode_escape", "C44_other_escapes_refuted"], "backslash and newline; other escapes that newer Pythons write are not undone"),
 ("C45", P, ["C45_iterate", "C45_iterate_rejects", "C45_float_round_trip", "C45_int_round_trip", "C45_node_round_trip", "C45_node_array", "C45_float_array", "C45_int_array"], ""),
 ("C17", P, ["C17_predict_single"], ""),
 ("C53", P, ["C53_batches_partition_rows"], "up to 2^53 rows (the batch count is computed in float64)"),
 ("C46", P, ["C46_sklearn_tree", "C46_rule", "C46_constant_refuted"], "every non-empty feature vector; the refutation shows that a constant tree still asks for one feature value"),
 ("C47", P, ["C47_sklearn_class", "C47_sklearn_file"], "the second theorem starts at the bytes of the pickle file"),
 ("C48", P, ["C48_from_array", "C48_dense_csr_agree", "C48_dense_follows_csr", "C48_single_feature_refuted", "C48_negative_dimensions_refuted", "C48_overflow_refuted"], "the converse of C48_dense_follows_csr fails for models that look beyond NFeatures() (first refutation); the others show accepted dimensions that describe no matrix"),
 ("C49", P, ["C49_csr_libsvm", "C49_csr_rejects", "C49_every_text", "C49_dense_libsvm", "C49_dense_rejects", "C49_inconsistent_refuted", "C49_double_space_refuted"], "both exceptions named in the property are shown to be real"),
 ("C50", P, ["C50_text", "C50_empty_text", "C50_wrong_size", "C50_csv_round_trip", "C50_file_round_trip", "C50_empty_refuted", "C50_delimiter_refuted"], "delimiter without newline whose first byte occurs in no printed value; the refutations show the hypotheses are needed"),
 ("C58", P, ["C58_write_str", "C58_same_text", "C58_csv_file", "C58_refused", "C58_lost_data_refuted"], "the refutation shows that the exception named in the property is real"),
 ("C59", P, ["C59_logistic_order", "C59_exponential_order", "C59_softmax_order", "C59_strict_order_refuted"], "weak order; the refutation shows that different raw scores may get the same probability"),
 ("C60", P, ["C60_lightgbm_score", "C60_random_forest_score", "C60_xgboost_score", "C60_gblinear_score", "C60_growth", "C60_inexact_refuted"], "the refutation shows that rounding errors do occur"),
 ("C61", P, ["C61_concurrent_calls_independent", "C61_concurrent_results", "C61_concurrent_calls_complete", "C61_single_threaded_completes", "C61_overlapping_slices_refuted"], "the refutation shows that the slices have to be disjoint; calls are modelled from the point where their checks, and the buffer of a single-threaded CSR call, have succeeded"),
 ("C62", P, ["C62_lightgbm_text", "C62_lightgbm_json", "C62_xgboost", "C62_gblinear", "C62_sklearn", "C62_text_misfit_refuted", "C62_xgb_misfit_refuted", "C62_sklearn_no_groups_refuted", "C30_xgb_no_groups_refuted"], "the refutations show that the exceptions named in the property are real"),
 ("C63", P, ["C63_lightgbm_text", "C63_lightgbm_json", "C63_xgboost", "C63_gblinear", "C63_sklearn", "C63_dense_from_rows", "C63_csr_from_rows"], "joins C28, C34, C39, C40, C47 with C03, C05, C06 and C54; for XGBoost trees the split rule is the one of C38 (ties)"),
 ("C64", P, ["C64_json_stream", "C64_layout_irrelevant", "C64_one_meaning", "C64_not_json", "C64_accepted", "C64_truncated", "C64_too_deep", "C64_returns", "C64_predictions"], "the scanner of encoding/json is modelled from its documentation and sources; strings that are not UTF-8 are read with U+FFFD, as the package does"),
 ("C65", P, ["C65_sklearn_accepts_only_models", "C65_other_class_refused", "C65_column_major_refused"], "what is tolerated (state on top of a byte string, a list instead of bytes, byte strings of the priors of any length) is spelt out in Spec_SkAccept.v"),
 ("C66", P, ["C66_lightgbm_text", "C66_lightgbm_json", "C66_xgboost", "C66_gblinear", "C66_sklearn", "C66_matrix_files", "C66_text_short_array_refuted", "C66_text_missing_child_refuted", "C66_xg_missing_child_refuted", "C66_json_category_refuted", "C66_sk_missing_child_refuted", "C66_sk_empty_stack_refuted"], "the _refuted theorems show that the conditions are needed: such files panic"),
 ("C67", P, ["C67_models_from_files", "C67_matrices_from_files", "C67_text_model_file"], ""),
 ("C68", P, ["C68_text_model", "C68_xgboost", "C68_sklearn", "C68_sklearn_any_stream", "C68_matrices", "C68_batches", "C68_same_stream", "C68_stream_cases", "C68_text_gives_up", "C68_matrices_give_up", "C68_text_stalls_refuted", "C68_sklearn_stalls_refuted"], "The buffering of the JSON decoder is not modelled."),
 ("C69", P, ["C69_rows_independent", "C69_dense_split"], ""),
 ("C70", P, ["C70_leaves_determine_prediction"], ""),
 ("C71", P, ["C71_same_cells_same_result", "C71_order_of_entries", "C71_missing_values"], ""),
 ("C72", "partial", ["C72_xgboost", "C72_json", "C72_sklearn", "C72_text_complete", "C72_text_partial", "C72_text_refuted"], "LightGBM text: the end of the file ends the last tree, so a cut there may load with another last tree (C72_text_refuted); everything else agrees. The other formats are covered in full."),
 ("C73", P, ["C73_spelling", "C73_line_order"], ""),
 ("C74", P, ["C74_lightgbm_text", "C74_lightgbm_json", "C74_xgboost", "C74_sklearn"], ""),
 ("C75", P, ["C75_score_range", "C75_forest_range", "C75_xgboost_range"], ""),
 ("C76", P, ["C76_message", "C76_only_self_containing", "C76_pickled", "C76_error_for_every_file_refuted"], "the stronger claim that no file ends the program is refuted"),
 ("C77", P, ["C77_predict", "C77_predict_in_place", "C77_dense", "C77_dense_in_place", "C77_dense_raw_in_place", "C77_csr", "C77_raw_in_place_refuted", "C77_ahead_refuted", "C77_transform", "C77_raw_then_transform", "C77_transform_ahead_refuted"], "single-threaded calls; with goroutines the slices are assumed not to overlap"),
 ("C78", P, ["C78_lightgbm_text", "C78_lightgbm_json", "C78_xgboost", "C78_gblinear", "C78_sklearn", "C78_sklearn_linear_refuted", "C78_json_words_refuted", "C78_text_words_refuted"], "nodes, leaf values and weights of the result; memory used only while loading is not counted"),
 ("C79", P, ["C79_lightgbm_text", "C79_lightgbm_json", "C79_xgboost", "C79_gblinear", "C79_sklearn", "C79_lightgbm_probability", "C79_xgboost_probability", "C79_tree_scores", "C79_xgboost_scores", "C79_numerical_splits", "C79_zero_missing_refuted"], "leaf values finite; probabilities for a monotone exponential"),
 ("C80", P, ["C80_lightgbm_text", "C80_lightgbm_json", "C80_xgboost", "C80_gblinear", "C80_sklearn", "C80_formats_agree"], "the number parser reads integers written in decimal"),
 ("C81", P, ["C81_same_models", "C81_stops_behind", "C81_one_after_another", "C81_came_from", "C81_prefix_free", "C81_end_of_stream_refuted"], "JSON not included: encoding/json reads ahead"),
 ("C82", P, ["C82_csr_libsvm", "C82_csr_libsvm_back", "C82_dense_libsvm", "C82_csv", "C82_dense_libsvm_back", "C82_csv_back", "C82_widths_refuted"], ""),
 ("C83", P, ["C83_load_flag", "C83_load_flag_json", "C83_same_raw_scores"], ""),
 ("C84", P, ["C84_lightgbm_text", "C84_xgboost", "C84_lightgbm_json", "C84_sklearn"], ""),
 ("C85", P, ["C85_predict", "C85_dense", "C85_csr"], ""),
 ("C86", P, ["C86_logistic", "C86_exponential", "C86_softmax", "C86_lightgbm_probability", "C86_xgboost_probability", "C86_gblinear_probability", "C86_lightgbm_softmax", "C86_xgboost_softmax", "C86_rounded_exp"], "the exponential function is a parameter; C86_rounded_exp shows that the correctly rounded one meets the hypotheses"),
 ("C87", P, ["C87_predict", "C87_numerical", "C87_batch", "C87_load", "C87_load_json", "C87_nan_refuted", "C87_text_conversions_refuted"], "without fused multiply-add (see C88); the two refuted theorems show that the conditions on categorical splits are needed"),
 ("C88", P, ["C88_unchanged", "C88_dense", "C88_csr", "C88_dense_rows", "C88_csr_rows", "C88_same_success", "C88_dense_always_completes", "C88_csr_always_completes", "C88_dense_no_data_race", "C88_csr_no_data_race", "C88_dense_includes", "C88_csr_includes", "C88_fma", "C88_random_forest_score", "C88_xgboost_score", "C88_gblinear_score", "C88_sklearn_load", "C88_sklearn_leaf", "C88_sklearn_later_estimators", "C88_sklearn_rate_one", "C88_sklearn_refuted", "C88_forest_refuted", "C88_dart_refuted"], "the error bounds are stated for single predictions and carry over to the rows of batch calls by C88_dense_rows and C88_csr_rows; the refuted theorems show that random forests, weighted trees and first scikit-learn estimators do depend on fusing"),
 ("C89", P, ["C89_zero_matrix", "C89_from_own_values", "C89_shape_unchecked_refuted"], "the last one shows shapes that are accepted although no such matrix exists"),
 ("C90", P, ["C90_lightgbm", "C90_random_forest", "C90_xgboost", "C90_bits_refuted", "C90_same_success"], "C90_bits_refuted shows two orders with different bits"),
 ("C91", P, ["C91_predict", "C91_batch"], "tree models; renumbering the features of a linear model changes the order of its sum"),
 ("C92", P, ["C92_class_alone", "C92_classes_together"], "raw outputs; a transformation may mix classes (softmax does)"),
 ("C55", P, ["C55_extra_features_ignored"], ""),
 ("C56", P, ["C56_csv", "C56_csv_rejects", "C56_every_text", "C56_whitespace_delimiter_refuted"], ""),
]
ids = [json.loads(l)["id"] for l in open(os.path.join(root, "properties.jsonl"))]
done = {c[0] for c in claims}
out = [dict(property=a, status=b, theorems=c, note=d) for a, b, c, d in claims]
out += [dict(property=i, status=T, theorems=[], note="not yet proved") for i in ids if i not in done]
out.sort(key=lambda c: int(c["property"][1:]))
json.dump({"claims": out}, open(os.path.join(root, "MANIFEST.json"), "w"), indent=1)
