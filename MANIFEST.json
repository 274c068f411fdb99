{
 "claims": [
  {
   "property": "C01",
   "status": "proved",
   "theorems": [
    "c01_split_partition",
    "c01_root_samples"
   ],
   "note": "every non-leaf node of every tree NewTree returns, any Env"
  },
  {
   "property": "C02",
   "status": "proved",
   "theorems": [
    "c02_training_sample_leaf"
   ],
   "note": "leaf found by PredictSingle holds the sample and is the only leaf holding it"
  },
  {
   "property": "C03",
   "status": "proved",
   "theorems": [
    "c03_depth"
   ],
   "note": ""
  },
  {
   "property": "C04",
   "status": "proved",
   "theorems": [
    "c04_branches"
   ],
   "note": ""
  },
  {
   "property": "C05",
   "status": "proved",
   "theorems": [
    "c05_leaf_children"
   ],
   "note": ""
  },
  {
   "property": "C06",
   "status": "proved",
   "theorems": [
    "c06_node_value"
   ],
   "note": "bit for bit, for any summation order of floats.Sum"
  },
  {
   "property": "C07",
   "status": "proved",
   "theorems": [
    "c07_best_split"
   ],
   "note": "node at distance k from the root; AllowedColumns only constrains k=0"
  },
  {
   "property": "C08",
   "status": "proved",
   "theorems": [
    "c08_min_child_weight",
    "c08_right_child_refuted"
   ],
   "note": "positive part plus a witness with an empty right child"
  },
  {
   "property": "C09",
   "status": "proved",
   "theorems": [
    "c09_threshold_between",
    "c09_threshold_overflow"
   ],
   "note": ""
  },
  {
   "property": "C10",
   "status": "proved",
   "theorems": [
    "c10_no_panic",
    "c10_no_panic_refuted"
   ],
   "note": "positive part plus a witness of finite data on which NewTree panics"
  },
  {
   "property": "C11",
   "status": "proved",
   "theorems": [
    "c11_allowed_root",
    "c11_descendants_refuted"
   ],
   "note": "root constrained; witness of a child splitting on a column not allowed"
  },
  {
   "property": "C12",
   "status": "proved",
   "theorems": [
    "c12_positive_gain"
   ],
   "note": ""
  },
  {
   "property": "C13",
   "status": "proved",
   "theorems": [
    "c13_value_optimal",
    "c13_gain_is_decrease"
   ],
   "note": "same generic formulas as the float64 model, at the reals"
  },
  {
   "property": "C14",
   "status": "proved",
   "theorems": [
    "c14_mean_optimal",
    "c14_score_is_change"
   ],
   "note": "same generic formulas as the float64 model, at the reals"
  },
  {
   "property": "C15",
   "status": "proved",
   "theorems": [
    "c15_predict_total"
   ],
   "note": ""
  },
  {
   "property": "C16",
   "status": "proved",
   "theorems": [
    "c16_predict_elementwise"
   ],
   "note": ""
  },
  {
   "property": "C17",
   "status": "proved",
   "theorems": [
    "c17_remembers_indexes"
   ],
   "note": ""
  },
  {
   "property": "C18",
   "status": "proved",
   "theorems": [
    "c18_argsort"
   ],
   "note": "any legal sort.Sort"
  },
  {
   "property": "C19",
   "status": "proved",
   "theorems": [
    "c19_sample_slice",
    "c19_sample_matrix"
   ],
   "note": ""
  },
  {
   "property": "C20",
   "status": "proved",
   "theorems": [
    "c20_transpose",
    "c20_transpose_panic"
   ],
   "note": ""
  },
  {
   "property": "C21",
   "status": "proved",
   "theorems": [
    "c21_densecol",
    "c21_addtocol"
   ],
   "note": "including the behaviour at col == columns"
  },
  {
   "property": "C22",
   "status": "proved",
   "theorems": [
    "c22_one_hot"
   ],
   "note": ""
  },
  {
   "property": "C23",
   "status": "proved",
   "theorems": [
    "c23_softmax_range",
    "c23_softmax_no_nan",
    "c23_softmax_overflow"
   ],
   "note": "any summation order and any never-negative exponential"
  },
  {
   "property": "C24",
   "status": "proved",
   "theorems": [
    "c24_softmax_exact"
   ],
   "note": ""
  },
  {
   "property": "C25",
   "status": "proved",
   "theorems": [
    "c25_normalization_exact",
    "c25_normalization_range"
   ],
   "note": ""
  },
  {
   "property": "C26",
   "status": "proved",
   "theorems": [
    "c26_gradients",
    "c26_derivative"
   ],
   "note": ""
  },
  {
   "property": "C27",
   "status": "proved",
   "theorems": [
    "c27_loss_nonneg",
    "c27_sq_hessian",
    "c27_mse_hessian",
    "c27_mse_hessian_exact"
   ],
   "note": ""
  },
  {
   "property": "C28",
   "status": "proved",
   "theorems": [
    "c28_training_scores",
    "c28_no_early_stop"
   ],
   "note": "Hypothesis: at least as many labels as rows and a non-empty ensemble."
  },
  {
   "property": "C29",
   "status": "proved",
   "theorems": [
    "c29_round_contents",
    "c29_reproduction_refuted"
   ],
   "note": "Round contents for all runs; the naive reproduction claim is refuted by a computed training run."
  },
  {
   "property": "C30",
   "status": "proved",
   "theorems": [
    "c30_shape"
   ],
   "note": ""
  },
  {
   "property": "C31",
   "status": "proved",
   "theorems": [
    "c31_trained_rounds",
    "c31_nothing_trained"
   ],
   "note": ""
  },
  {
   "property": "C32",
   "status": "proved",
   "theorems": [
    "c32_early_stop"
   ],
   "note": ""
  },
  {
   "property": "C33",
   "status": "proved",
   "theorems": [
    "c33_subsample"
   ],
   "note": ""
  },
  {
   "property": "C34",
   "status": "proved",
   "theorems": [
    "c34_update_leaves"
   ],
   "note": ""
  },
  {
   "property": "C35",
   "status": "proved",
   "theorems": [
    "c35_rounds_classes_swapped"
   ],
   "note": ""
  },
  {
   "property": "C36",
   "status": "proved",
   "theorems": [
    "c36_first_maximum",
    "c36_index_in_labels"
   ],
   "note": ""
  },
  {
   "property": "C37",
   "status": "proved",
   "theorems": [
    "c37_accuracy"
   ],
   "note": ""
  },
  {
   "property": "C38",
   "status": "proved",
   "theorems": [
    "c38_buffers_ignored"
   ],
   "note": ""
  },
  {
   "property": "C39",
   "status": "proved",
   "theorems": [
    "c39_classes_from_probs"
   ],
   "note": ""
  },
  {
   "property": "C40",
   "status": "proved",
   "theorems": [
    "c40_not_log_odds",
    "c40_float_entries"
   ],
   "note": ""
  },
  {
   "property": "C41",
   "status": "proved",
   "theorems": [
    "c41_tree_round_trip"
   ],
   "note": "encoding/json is a codec with CodecOk (round trip of finite records, no newline, no ROUND/CLASS in node text); codec0 shows CodecOk satisfiable."
  },
  {
   "property": "C42",
   "status": "proved",
   "theorems": [
    "c42_preorder_ids"
   ],
   "note": ""
  },
  {
   "property": "C43",
   "status": "proved",
   "theorems": [
    "c43_reload",
    "c43_trained_writable"
   ],
   "note": "All writes succeed; predictions of the reloaded model are those of the model without its last round."
  },
  {
   "property": "C44",
   "status": "proved",
   "theorems": [
    "c44_save_errors"
   ],
   "note": "wok is an arbitrary pattern of write failures; the bytes a failed WriteString may leave are not recorded."
  },
  {
   "property": "C45",
   "status": "proved",
   "theorems": [
    "c45_truncated_file",
    "c45_truncated_any"
   ],
   "note": ""
  },
  {
   "property": "C46",
   "status": "proved",
   "theorems": [
    "c46_unknown_activation"
   ],
   "note": ""
  },
  {
   "property": "C47",
   "status": "proved",
   "theorems": [
    "c47_importance_after_reload"
   ],
   "note": ""
  },
  {
   "property": "C48",
   "status": "proved",
   "theorems": [
    "c48_folds_partition"
   ],
   "note": "rand.IntN is an arbitrary stream of values below the bound."
  },
  {
   "property": "C49",
   "status": "proved",
   "theorems": [
    "c49_train_test_complementary"
   ],
   "note": ""
  },
  {
   "property": "C50",
   "status": "proved",
   "theorems": [
    "c50_sampler_ends"
   ],
   "note": ""
  },
  {
   "property": "C51",
   "status": "proved",
   "theorems": [
    "c51_fold_count"
   ],
   "note": ""
  },
  {
   "property": "C52",
   "status": "proved",
   "theorems": [
    "c52_too_few_rows_panic"
   ],
   "note": ""
  },
  {
   "property": "C53",
   "status": "proved",
   "theorems": [
    "c53_drawing_terminates"
   ],
   "note": ""
  },
  {
   "property": "C54",
   "status": "proved",
   "theorems": [
    "c54_mean_over_folds"
   ],
   "note": "Data with one label per row; log output not modelled."
  },
  {
   "property": "C55",
   "status": "proved",
   "theorems": [
    "c55_grid_points",
    "c55_finite",
    "c55_terminates"
   ],
   "note": ""
  },
  {
   "property": "C56",
   "status": "proved",
   "theorems": [
    "c56_grid_result",
    "c56_last_batch_missed"
   ],
   "note": "c56_last_batch_missed is the witness that the best combination can be missed."
  },
  {
   "property": "C57",
   "status": "proved",
   "theorems": [
    "c57_schedules"
   ],
   "note": "Evaluations that panic are excluded (a panic in a goroutine ends the program); verbose output is not modelled; files written with WriteBest are C112."
  },
  {
   "property": "C58",
   "status": "proved",
   "theorems": [
    "c58_needs_processors",
    "c58_default_options"
   ],
   "note": ""
  },
  {
   "property": "C59",
   "status": "proved",
   "theorems": [
    "c59_step_in_box"
   ],
   "note": "Evaluations are any that report what they return, as the cross-validation does (MCCV_shape)."
  },
  {
   "property": "C60",
   "status": "proved",
   "theorems": [
    "c60_sends",
    "c60_blocked"
   ],
   "note": "Number of sends for all outcomes; a step with two sends never ends in any interleaving of GradStep."
  },
  {
   "property": "C61",
   "status": "proved",
   "theorems": [
    "c61_read_first",
    "c61_some_run",
    "c61_race_refuted",
    "c61_progress"
   ],
   "note": "The shared record is cloned in one step and evaluations are part of that step; the race theorem is a witness on two finished interleavings."
  },
  {
   "property": "C62",
   "status": "proved",
   "theorems": [
    "c62_gradient",
    "c62_hybrid"
   ],
   "note": ""
  },
  {
   "property": "C63",
   "status": "proved",
   "theorems": [
    "c63_returned_best_refuted",
    "c63_hybrid_refuted"
   ],
   "note": "Witness runs on a 7 row data set."
  },
  {
   "property": "C64",
   "status": "proved",
   "theorems": [
    "c64_fuzz_real",
    "c64_fuzz_float",
    "c64_fuzz_options"
   ],
   "note": "Also for float64, with rounding slack, and for the whole option record."
  },
  {
   "property": "C65",
   "status": "proved",
   "theorems": [
    "c65_central"
   ],
   "note": ""
  },
  {
   "property": "C66",
   "status": "proved",
   "theorems": [
    "c66_clone_equal",
    "c66_equal_characterised",
    "c66_clone_grid",
    "c66_reflexive_symmetric_refuted"
   ],
   "note": ""
  },
  {
   "property": "C67",
   "status": "proved",
   "theorems": [
    "c67_check",
    "c67_default_options",
    "c67_nan_rejected_refuted"
   ],
   "note": ""
  },
  {
   "property": "C68",
   "status": "proved",
   "theorems": [
    "c68_gains_accumulate",
    "c68_merge_self"
   ],
   "note": "For a set in which concurrent Adds left a feature twice (C69), merging into itself does not double the gains."
  },
  {
   "property": "C69",
   "status": "proved",
   "theorems": [
    "c69_no_gain_lost",
    "c69_known_features_safe",
    "c69_concurrent_add_refuted"
   ],
   "note": "Unlocked slice reads are modelled as atomic."
  },
  {
   "property": "C70",
   "status": "proved",
   "theorems": [
    "c70_tree_importance",
    "c70_ensemble_importance",
    "c70_new_tree_shape",
    "c70_trained_shape"
   ],
   "note": ""
  },
  {
   "property": "C71",
   "status": "proved",
   "theorems": [
    "c71_unique_ids"
   ],
   "note": ""
  },
  {
   "property": "C72",
   "status": "proved",
   "theorems": [
    "c72_matrix_counts",
    "c72_more_labels_panic",
    "c72_trained_labels"
   ],
   "note": "For models with distinct classes, as all trained models have. Changes a program makes to the exported fields or to the returned matrix are not modelled."
  },
  {
   "property": "C73",
   "status": "proved",
   "theorems": [
    "c73_margins"
   ],
   "note": ""
  },
  {
   "property": "C74",
   "status": "proved",
   "theorems": [
    "c74_top_n"
   ],
   "note": ""
  },
  {
   "property": "C75",
   "status": "proved",
   "theorems": [
    "c75_copies_kept",
    "c75_shared",
    "c75_overwritten"
   ],
   "note": ""
  },
  {
   "property": "C76",
   "status": "proved",
   "theorems": [
    "c76_round_trip",
    "c76_special_values"
   ],
   "note": "For every float parser that satisfies ParserOk (strconv.ParseFloat: empty text is an error, correct rounding of texts with four decimals); pf0 is a parser proved to satisfy it."
  },
  {
   "property": "C77",
   "status": "proved",
   "theorems": [
    "c77_text_lines",
    "c77_data",
    "c77_panic",
    "c77_terminates"
   ],
   "note": "Outcome characterised by equivalences; the remaining outcome is an error."
  },
  {
   "property": "C78",
   "status": "proved",
   "theorems": [
    "c78_data",
    "c78_panic",
    "c78_terminates"
   ],
   "note": "Over the records csv.Reader returns; it never returns an empty record, so the panic needs another reader."
  },
  {
   "property": "C79",
   "status": "proved",
   "theorems": [
    "c79_names",
    "c79_success",
    "c79_failures",
    "c79_terminates",
    "c79_split"
   ],
   "note": "strings.Fields is characterised by the relation wordsOf, strings.Split by c79_split."
  },
  {
   "property": "C80",
   "status": "proved",
   "theorems": [
    "c80_softmax_dense"
   ],
   "note": ""
  },
  {
   "property": "C81",
   "status": "proved",
   "theorems": [
    "c81_gradient_boosting"
   ],
   "note": ""
  },
  {
   "property": "C82",
   "status": "proved",
   "theorems": [
    "c82_prediction_total"
   ],
   "note": ""
  },
  {
   "property": "C83",
   "status": "proved",
   "theorems": [
    "c83_loader_total",
    "c83_read_error"
   ],
   "note": "Go stack exhaustion on very deep files is not modelled."
  },
  {
   "property": "C84",
   "status": "proved",
   "theorems": [
    "c84_cv_accuracy_range"
   ],
   "note": ""
  },
  {
   "property": "C85",
   "status": "proved",
   "theorems": [
    "c85_zero_step"
   ],
   "note": ""
  },
  {
   "property": "C86",
   "status": "proved",
   "theorems": [
    "c86_goroutine_leak"
   ],
   "note": ""
  },
  {
   "property": "C87",
   "status": "proved",
   "theorems": [
    "c87_box_all_schedules",
    "c87_escape_refuted"
   ],
   "note": ""
  },
  {
   "property": "C88",
   "status": "proved",
   "theorems": [
    "c88_plain_not_moved",
    "c88_plain_all_schedules",
    "c88_default_plain"
   ],
   "note": ""
  },
  {
   "property": "C89",
   "status": "proved",
   "theorems": [
    "c89_five_folds"
   ],
   "note": ""
  },
  {
   "property": "C90",
   "status": "proved",
   "theorems": [
    "c90_ignored"
   ],
   "note": "Verbose output is not modelled; files written with WriteBest are C112 and C116."
  },
  {
   "property": "C91",
   "status": "proved",
   "theorems": [
    "c91_gradient_starts",
    "c91_hybrid_starts"
   ],
   "note": ""
  },
  {
   "property": "C92",
   "status": "proved",
   "theorems": [
    "c92_terminates",
    "c92_smallest_step"
   ],
   "note": ""
  },
  {
   "property": "C93",
   "status": "proved",
   "theorems": [
    "c93_zero_to_nan"
   ],
   "note": ""
  },
  {
   "property": "C94",
   "status": "proved",
   "theorems": [
    "c94_fuzz_invalid_refuted"
   ],
   "note": ""
  },
  {
   "property": "C95",
   "status": "proved",
   "theorems": [
    "c95_print",
    "c95_simple_names"
   ],
   "note": ""
  },
  {
   "property": "C96",
   "status": "proved",
   "theorems": [
    "c96_round_trip",
    "c96_ragged"
   ],
   "note": "for any reader that agrees with csvPlain on texts without quotes (ReaderOk); the model of csv.Reader does (c141_reader)"
  },
  {
   "property": "C97",
   "status": "proved",
   "theorems": [
    "c97_empty_data",
    "c97_string"
   ],
   "note": ""
  },
  {
   "property": "C98",
   "status": "proved",
   "theorems": [
    "c98_training_total",
    "c98_losses",
    "c98_empty_round",
    "c98_close_values_refuted"
   ],
   "note": "Row and column numbers below 2^62. The refutation is a witness on two rows."
  },
  {
   "property": "C99",
   "status": "proved",
   "theorems": [
    "c99_midpoint",
    "c99_table",
    "c99_integers",
    "c99_float32"
   ],
   "note": ""
  },
  {
   "property": "C100",
   "status": "proved",
   "theorems": [
    "c100_cv_returns",
    "c100_checked_options",
    "c100_default_options"
   ],
   "note": "Draws that reach every index again and again (fairInts), otherwise fold selection may loop for ever (C53)."
  },
  {
   "property": "C101",
   "status": "proved",
   "theorems": [
    "c101_tree_order",
    "c101_training_order",
    "c101_sort_exists"
   ],
   "note": "The sort is assumed to use its elements through the comparison only (sortsByComparison), as sort.Sort must; tables as in C98 (goodTable)."
  },
  {
   "property": "C102",
   "status": "proved",
   "theorems": [
    "c102_depth_cut"
   ],
   "note": ""
  },
  {
   "property": "C103",
   "status": "proved",
   "theorems": [
    "c103_rounds_prefix"
   ],
   "note": ""
  },
  {
   "property": "C104",
   "status": "proved",
   "theorems": [
    "c104_tree_constant",
    "c104_training_constant",
    "c104_prediction_constant"
   ],
   "note": ""
  },
  {
   "property": "C105",
   "status": "proved",
   "theorems": [
    "c105_training_renamed",
    "c105_accuracy_renamed"
   ],
   "note": ""
  },
  {
   "property": "C106",
   "status": "proved",
   "theorems": [
    "c106_single_label"
   ],
   "note": ""
  },
  {
   "property": "C107",
   "status": "proved",
   "theorems": [
    "c107_returns",
    "c107_trained_tree_prints",
    "c107_faithful",
    "c107_feature_number",
    "c107_three_decimals",
    "c107_lines",
    "c107_reading",
    "c107_reading_refuted"
   ],
   "note": "%.3f is modelled by fmt3 (rounding to nearest, ties to even). The refutation is a witness on a trained tree."
  },
  {
   "property": "C108",
   "status": "proved",
   "theorems": [
    "c108_text",
    "c108_faithful",
    "c108_order_refuted"
   ],
   "note": ""
  },
  {
   "property": "C109",
   "status": "proved",
   "theorems": [
    "c109_faithful",
    "c109_text",
    "c109_all_fields_refuted"
   ],
   "note": ""
  },
  {
   "property": "C110",
   "status": "proved",
   "theorems": [
    "c110_matrix"
   ],
   "note": "The %v format of a float64 is a parameter."
  },
  {
   "property": "C111",
   "status": "proved",
   "theorems": [
    "c111_cannot_create",
    "c111_effect",
    "c111_one_file",
    "c111_complete",
    "c111_silent_failure",
    "c111_names",
    "c111_keeps_old_refuted",
    "c111_nil_error_refuted"
   ],
   "note": "bufio.Writer is modelled; the contents after a panic inside JSONMultiClass are not (trained models cause none)."
  },
  {
   "property": "C112",
   "status": "proved",
   "theorems": [
    "c112_grid_files",
    "c112_numbers",
    "c112_save_exists",
    "c112_best_file"
   ],
   "note": "Saves happen where the sequential collector reads the results; os.Create is taken to succeed."
  },
  {
   "property": "C113",
   "status": "proved",
   "theorems": [
    "c113_loss_error",
    "c113_loss_exact",
    "c113_perfect",
    "c113_zero_refuted"
   ],
   "note": ""
  },
  {
   "property": "C114",
   "status": "proved",
   "theorems": [
    "c114_mean_value",
    "c114_xgb_value",
    "c114_equal_targets_refuted"
   ],
   "note": ""
  },
  {
   "property": "C115",
   "status": "proved",
   "theorems": [
    "c115_softmax_sum",
    "c115_normalization_sum",
    "c115_predictions",
    "c115_exact_sum_refuted"
   ],
   "note": ""
  },
  {
   "property": "C116",
   "status": "proved",
   "theorems": [
    "c116_gradient_files",
    "c116_hybrid_files",
    "c116_library_cv",
    "c116_best_file",
    "c116_returned_options_refuted",
    "c116_hybrid_returned_refuted"
   ],
   "note": ""
  },
  {
   "property": "C117",
   "status": "proved",
   "theorems": [
    "c117_tree_redundant",
    "c117_training_redundant"
   ],
   "note": ""
  },
  {
   "property": "C118",
   "status": "proved",
   "theorems": [
    "c118_objective",
    "c118_best",
    "c118_regression",
    "c118_deeper"
   ],
   "note": "exact arithmetic over the tree's sample lists"
  },
  {
   "property": "C119",
   "status": "proved",
   "theorems": [
    "c119_separated",
    "c119_memorised"
   ],
   "note": ""
  },
  {
   "property": "C120",
   "status": "proved",
   "theorems": [
    "c120_nan_tree",
    "c120_saturated",
    "c120_more_rounds_refuted"
   ],
   "note": "the expectation that more rounds keep a perfect training accuracy is refuted"
  },
  {
   "property": "C121",
   "status": "proved",
   "theorems": [
    "c121_learns",
    "c121_high_base_refuted"
   ],
   "note": "math.Exp is assumed to have a relative error of at most 2^-40 between -610 and 610; the theorem with a bound on the scores is proved, without it the claim is refuted"
  },
  {
   "property": "C122",
   "status": "proved",
   "theorems": [
    "c122_same_options",
    "c122_deterministic",
    "c122_options_left",
    "c122_draws_refuted"
   ],
   "note": "with sub-sampling the draws decide (witness)"
  },
  {
   "property": "C123",
   "status": "proved",
   "theorems": [
    "c123_tree_size",
    "c123_model_size",
    "c123_close_values_refuted"
   ],
   "note": "for values without a representable number between them MinChildWeight is not respected (witness)"
  },
  {
   "property": "C124",
   "status": "proved",
   "theorems": [
    "c124_pairs",
    "c124_total",
    "c124_order",
    "c124_sorted",
    "c124_argsort",
    "c124_insertion"
   ],
   "note": "sort.Sort is any program over Less and Swap; insertion sort (Go's choice for at most 12 elements) is modelled"
  },
  {
   "property": "C125",
   "status": "proved",
   "theorems": [
    "c125_names",
    "c125_different_names",
    "c125_labels"
   ],
   "note": ""
  },
  {
   "property": "C126",
   "status": "proved",
   "theorems": [
    "c126_text",
    "c126_split_refuted"
   ],
   "note": "the feature of the split is missing from the text (witness)"
  },
  {
   "property": "C127",
   "status": "proved",
   "theorems": [
    "c127_first_bad_line",
    "c127_number",
    "c127_message",
    "c127_lines",
    "c127_same_reader"
   ],
   "note": "the text of the underlying error of a line is a parameter"
  },
  {
   "property": "C128",
   "status": "proved",
   "theorems": [
    "c128_row_order",
    "c128_integers",
    "c128_halves",
    "c128_rounding_refuted"
   ],
   "note": "for two runs that return (C10); with rounding in the sums the order matters (witness)"
  },
  {
   "property": "C129",
   "status": "proved",
   "theorems": [
    "c129_unused_features",
    "c129_tree",
    "c129_leaf",
    "c129_no_feature",
    "c129_converse_refuted"
   ],
   "note": "the converse is false (witness: learning rate 0)"
  },
  {
   "property": "C130",
   "status": "proved",
   "theorems": [
    "c130_ceiling",
    "c130_conflict"
   ],
   "note": "the strict bound for up to 2^40 rows"
  },
  {
   "property": "C131",
   "status": "proved",
   "theorems": [
    "c131_cycles"
   ],
   "note": "number formatting as in C41: any codec that parses back what it prints"
  },
  {
   "property": "C132",
   "status": "proved",
   "theorems": [
    "c132_tree",
    "c132_model",
    "c132_close_values_refuted"
   ],
   "note": "without midpoints the claim is false (witness)"
  },
  {
   "property": "C133",
   "status": "proved",
   "theorems": [
    "c133_no_learning"
   ],
   "note": ""
  },
  {
   "property": "C134",
   "status": "proved",
   "theorems": [
    "c134_order",
    "c134_class",
    "c134_strict_refuted"
   ],
   "note": "monotonicity of math.Exp on the scores at hand is a hypothesis"
  },
  {
   "property": "C135",
   "status": "proved",
   "theorems": [
    "c135_leaf_stays",
    "c135_gamma_shrinks_refuted",
    "c135_mcw_shrinks_refuted",
    "c135_lambda_value",
    "c135_lambda_gain",
    "c135_lambda_leaf_refuted"
   ],
   "note": "the claim about worthwhile splits is about exact arithmetic; the float64 counterexample is c135_lambda_leaf_refuted"
  },
  {
   "property": "C136",
   "status": "proved",
   "theorems": [
    "c136_score_error",
    "c136_score_finite",
    "c136_margin"
   ],
   "note": "accuracy of math.Exp (relative error 2^-40 between -610 and 610) is a hypothesis of c136_margin"
  },
  {
   "property": "C137",
   "status": "proved",
   "theorems": [
    "c137_extra_line",
    "c137_same_file",
    "c137_resave"
   ],
   "note": "encoding/json as in C41"
  },
  {
   "property": "C138",
   "status": "proved",
   "theorems": [
    "c138_int_values",
    "c138_float_values",
    "c138_grid_returns",
    "c138_no_error",
    "c138_error"
   ],
   "note": "the random integers keep reaching every row, as in C100"
  },
  {
   "property": "C139",
   "status": "proved",
   "theorems": [
    "c139_step_size",
    "c139_direction",
    "c139_whole_step"
   ],
   "note": "c139_whole_step is about the execution described in C61 (each parameter step reads the options before the first receive)"
  },
  {
   "property": "C140",
   "status": "proved",
   "theorems": [
    "c140_gradient_returns",
    "c140_hybrid_returns",
    "c140_gradient_evaluations",
    "c140_hybrid_evaluations",
    "c140_no_error",
    "c140_gradient_error",
    "c140_hybrid_error"
   ],
   "note": "for the executions of GradStep described in C61 (each parameter step reads the options before the first receive)"
  },
  {
   "property": "C141",
   "status": "proved",
   "theorems": [
    "c141_reader",
    "c141_fields",
    "c141_quoted_file",
    "c141_fuel",
    "c141_fields_fuel"
   ],
   "note": "csv.Reader (library code) is modelled line by line in CsvReader.v"
  },
  {
   "property": "C142",
   "status": "proved",
   "theorems": [
    "c142_keys",
    "c142_separator",
    "c142_bare_quote",
    "c142_open_quote",
    "c142_after_quote",
    "c142_same_text",
    "c142_keys_kept_refuted"
   ],
   "note": "with the model of csv.Reader of C141"
  },
  {
   "property": "C143",
   "status": "proved",
   "theorems": [
    "c143_tree_columns",
    "c143_training_columns",
    "c143_ties_refuted"
   ],
   "note": ""
  },
  {
   "property": "C144",
   "status": "proved",
   "theorems": [
    "c144_empty_nodes",
    "c144_nan_threshold",
    "c144_missing_column",
    "c144_missing_table",
    "c144_one_missing_refuted"
   ],
   "note": ""
  },
  {
   "property": "C145",
   "status": "proved",
   "theorems": [
    "c145_zero_trees",
    "c145_certain",
    "c145_raw_score",
    "c145_same_everywhere",
    "c145_boosting_nan"
   ],
   "note": "The exponential at BaseScore is assumed positive and finite."
  },
  {
   "property": "C146",
   "status": "proved",
   "theorems": [
    "c146_plain",
    "c146_same_rows",
    "c146_score_error",
    "c146_score_finite",
    "c146_difference",
    "c146_margin",
    "c146_gain",
    "c146_class_refuted",
    "c146_training_scores_refuted"
   ],
   "note": "Fused operations of the steps of cv/grad.go are not modelled."
  },
  {
   "property": "C147",
   "status": "proved",
   "theorems": [
    "c147_defaults",
    "c147_default_grid_size",
    "c147_grid_size",
    "c147_few_rows",
    "c147_few_cv",
    "c147_few_grid",
    "c147_small",
    "c147_class",
    "c147_failures",
    "c147_ends"
   ],
   "note": "The formatting of what the program prints is not modelled; the file's contents are a parameter."
  },
  {
   "property": "C148",
   "status": "proved",
   "theorems": [
    "c148_surplus",
    "c148_losses",
    "c148_early_stop_refuted",
    "c148_fewer",
    "c148_none",
    "c148_accuracy",
    "c148_classes"
   ],
   "note": "The statement that surplus labels are also harmless with early stopping is refuted (c148_early_stop_refuted)."
  },
  {
   "property": "C149",
   "status": "proved",
   "theorems": [
    "c149_caller_unchanged",
    "c149_sent",
    "c149_final",
    "c149_same_as_copy",
    "c149_nil_channel",
    "c149_nil_runs",
    "c149_early_stop",
    "c149_progress",
    "c149_always_sends_refuted"
   ],
   "note": "That the result is always sent is refuted (c149_always_sends_refuted)."
  },
  {
   "property": "C150",
   "status": "proved",
   "theorems": [
    "c150_shared",
    "c150_copied",
    "c150_independent",
    "c150_ended",
    "c150_separate_refuted"
   ],
   "note": "Rows are whole arrays; slices that overlap in part are not modelled. That the default samples are separate from the data is refuted (c150_separate_refuted)."
  },
  {
   "property": "C151",
   "status": "proved",
   "theorems": [
    "c151_node",
    "c151_meta",
    "c151_unique",
    "c151_order",
    "c151_unknown",
    "c151_string",
    "c151_integer",
    "c151_float",
    "c151_negative_id"
   ],
   "note": "About a model of encoding/json (Go 1.22), whose source is not in /repo. Not modelled: the nesting limit of 10000 and 64-bit ranges of integers."
  },
  {
   "property": "C152",
   "status": "proved",
   "theorems": [
    "c152_node",
    "c152_meta",
    "c152_name",
    "c152_codec",
    "c152_formatter",
    "c152_reload"
   ],
   "note": "The text of a float64 is a parameter with the law FmtOk; c152_formatter exhibits one. c152_reload is for that one."
  },
  {
   "property": "C153",
   "status": "proved",
   "theorems": [
    "c153_lines",
    "c153_edit_node",
    "c153_edit_meta"
   ],
   "note": ""
  },
  {
   "property": "C154",
   "status": "proved",
   "theorems": [
    "c154_first_call",
    "c154_cached",
    "c154_calls_keep",
    "c154_own_memory",
    "c154_snapshot_refuted",
    "c154_copy_refuted"
   ],
   "note": "Replacing a whole field or a row of the returned matrix by another slice is not modelled."
  },
  {
   "property": "C155",
   "status": "proved",
   "theorems": [
    "c155_results",
    "c155_panic",
    "c155_progress",
    "c155_finite",
    "c155_unshared",
    "c155_race_refuted"
   ],
   "note": "The data and the rows are not written by anyone during the calls."
  },
  {
   "property": "C156",
   "status": "proved",
   "theorems": [
    "c156_loss",
    "c156_neg_gradients",
    "c156_gradients",
    "c156_shapes",
    "c156_sq_hessian",
    "c156_mse_hessian",
    "c156_mse_hessian_panic",
    "c156_softmax",
    "c156_normalization",
    "c156_softmax_dense",
    "c156_normalization_dense",
    "c156_longer_refuted",
    "c156_dense_short"
   ],
   "note": "Matrices that overlap in part and empty destinations are not modelled."
  },
  {
   "property": "C157",
   "status": "proved",
   "theorems": [
    "c157_same",
    "c157_quiet",
    "c157_training",
    "c157_train_lines",
    "c157_streams",
    "c157_texts"
   ],
   "note": "The date in front of logged lines is not modelled."
  },
  {
   "property": "C158",
   "status": "proved",
   "theorems": [
    "c158_same",
    "c158_says",
    "c158_fold_number_refuted"
   ],
   "note": "The date in front of logged lines is not modelled."
  },
  {
   "property": "C159",
   "status": "proved",
   "theorems": [
    "c159_same",
    "c159_quiet",
    "c159_says",
    "c159_heading_refuted"
   ],
   "note": "What the concurrent evaluations log is not modelled. The theorem c159_heading_refuted shows a best line below the heading of another pair."
  },
  {
   "property": "C160",
   "status": "proved",
   "theorems": [
    "c160_same",
    "c160_quiet",
    "c160_gradient_says",
    "c160_hybrid_says",
    "c160_printed_options_refuted"
   ],
   "note": "What the cross-validations inside print is not modelled."
  },
  {
   "property": "C161",
   "status": "proved",
   "theorems": [
    "c161_total",
    "c161_rows",
    "c161_number",
    "c161_chance"
   ],
   "note": "Chances are counts of the sequences of draws with an effect; that the draws are independent and equally likely, and that rand.Float64 gives k/2^53, is the behaviour of math/rand and not part of the model."
  },
  {
   "property": "C162",
   "status": "proved",
   "theorems": [
    "c162_uniform",
    "c162_sizes",
    "c162_share",
    "c162_ends",
    "c162_begins"
   ],
   "note": "Chances are counts of the sequences of N draws with an effect."
  },
  {
   "property": "C163",
   "status": "proved",
   "theorems": [
    "c163_symmetric",
    "c163_rounds_biased",
    "c163_small_rounds",
    "c163_never_back"
   ],
   "note": "Symmetry and bias in exact arithmetic; small numbers of rounds in float64."
  },
  {
   "property": "C164",
   "status": "proved",
   "theorems": [
    "c164_seen",
    "c164_accuracy",
    "c164_distinct",
    "c164_next",
    "c164_together"
   ],
   "note": "Chances by counting sequences of random integers."
  },
  {
   "property": "C165",
   "status": "proved",
   "theorems": [
    "c165_tree",
    "c165_score",
    "c165_confidence",
    "c165_finite",
    "c165_mse_refuted"
   ],
   "note": "Trees in float64 for every external sum that adds in some order; scores and probabilities in exact arithmetic; absence of NaN in float64 for an exponential with relative error 2^-40."
  },
  {
   "property": "C166",
   "status": "proved",
   "theorems": [
    "c166_alike",
    "c166_training_row",
    "c166_distance",
    "c166_left_out_refuted"
   ],
   "note": "In float64; c166_distance gives the condition in real numbers."
  },
  {
   "property": "C167",
   "status": "proved",
   "theorems": [
    "c167_cancels",
    "c167_unchecked",
    "c167_trees",
    "c167_predictions"
   ],
   "note": "c167_cancels in the reals, the others in float64 for every exponential and every external sum that adds in some order."
  },
  {
   "property": "C168",
   "status": "proved",
   "theorems": [
    "c168_round",
    "c168_rounds",
    "c168_nothing",
    "c168_returns"
   ],
   "note": "Chances by counting sequences of draws; c168_returns gives data and options for which training always returns."
  },
  {
   "property": "C169",
   "status": "proved",
   "theorems": [
    "c169_columns",
    "c169_root"
   ],
   "note": "Chances by counting sequences of draws; optimality in float64."
  }
 ]
}