#!/usr/bin/env python3
"""Writes MANIFEST.json. Edit CLAIMS below and rerun."""
import json, os
CLAIMS = [
 ("C01", "proved", ["C01_pack_unpack_lossless", "C01_needs_63_bits_refuted", "C01_no_rows_refuted"],
  "For entries below 2^63 and at least one row and column; outside of that the code fails, which is exhibited."),
 ("C02", "proved", ["C02_column_writes_are_isolated", "C02_column_write_touches_own_words"],
  "For every history of column writes, from any uninitialised memory."),
 ("C03", "proved", ["C03_bins_are_intervals", "C03_bins_are_intervals_binary64", "C03_bins_monotone"],
  "For every arithmetic with a transitive comparison, and for IEEE doubles."),
 ("C04", "proved", ["C04_thresholds_sorted_and_few", "C04_bins_below_max_bins", "C04_encoder_thresholds"],
  "Exact arithmetic, for the binning function and for whole fitted encoders; np.percentile's virtual index is computed exactly."),
 ("C05", "proved", ["C05_few_values_rank", "C05_few_values_separated", "C05_encoder_separates", "C05_doubles_merged_refuted"],
  "True in exact arithmetic; false for IEEE doubles, in three ways, each exhibited."),
 ("C13", "proved", ["C13_features_distinct", "C13_all_features", "C13_one_tape_per_arrangement"],
  "For every generator whose draws are in range; each ordered choice of features is reached by exactly one sequence of draws."),
 ("C17", "proved", ["C17_classification", "C17_regression", "C17_tree_classification", "C17_tree_regression"],
  "any arithmetic; sums in the order of the samples; a division by zero is the only possible error"),
 ("C18", "proved", ["C18_classification", "C18_regression", "C18_tree_classification", "C18_tree_regression", "C18_forest_classifier", "C18_forest_regressor"],
  "For one node, for every inner node of a fitted tree, and for every tree of a fitted forest with the criterion, strategy, max_features and min_samples_leaf the user gave. Exact arithmetic, positive weights; any node, any tried features, both criteria, all three strategies for categorical features."),
 ("C20", "proved", ["C20_gini_value", "C20_entropy_value", "C20_mse_value", "C20_childs_values", "C20_zero_weight_raises",
   "C20_nonneg_zero_iff_pure", "C20_mse_nonneg_zero_iff_constant", "C20_gain_order", "C20_gain_nonneg"],
  "Exact arithmetic."),
 ("C21", "proved", ["C21_classification", "C21_regression", "C21_partition_meaning"],
  "Any arithmetic; any node whose slices are inside of the arrays; includes the sizes announced by the split and min_samples_leaf."),
 ("C19", "proved", ["C19_min_samples_leaf"], "Any arithmetic; every child of every node of a fitted tree."),
 ("C22", "proved", ["C22_categorical_test"], "Any arithmetic; every inner node of a fitted tree, every bin value, seen or not when fitting."),
 ("C24", "proved", ["C24_growing_ends", "C24_small"], "Any arithmetic, including ones where comparisons misbehave."),
 ("C25", "proved", ["C25_well_formed"], "Any arithmetic."),
 ("C26", "proved", ["C26_limits", "C26_leaf_classification", "C26_leaf_regression", "C26_pure_root_refuted"],
  "Limits of split nodes in any arithmetic; the reasons for which a node is a leaf in exact arithmetic. The claim that a pure node is never split fails at the root, which is exhibited."),
 ("C27", "proved", ["C27_growing", "C27_predicting_classifier", "C27_predicting_regressor"],
  "Any arithmetic: the only error fitting or predicting can raise is a division by zero, so in particular no out-of-bounds access."),
 ("C28", "proved", ["C28_samples"], "Any arithmetic."),
 ("C29", "proved", ["C29_walk"], "Any arithmetic."),
 ("C23", "proved", ["C23_two_classes_gini", "C23_regression_refuted", "C23_min_samples_leaf_refuted"],
  "Exact arithmetic, min_samples_leaf = 1 without aggregation. C23_min_samples_leaf_refuted: with min_samples_leaf = 2 a node is not split although a subset of the categories is admissible and lowers the Gini index. The regression claim is refuted by a concrete data set."),
 ("C30", "proved", ["C30_stack_is_lifo", "C30_zero_capacity_refuted"],
  "For every history of operations and any uninitialised memory."),
 ("C31", "proved", ["C31_value", "C31_symmetric", "C31_bounds", "C31_no_overflow"],
  "Values in exact arithmetic; the absence of exponentials of positive numbers for every arithmetic."),
 ("C32", "proved", ["C32_weights", "C32_loss_classification", "C32_loss_regression"],
  "Exact arithmetic: every node of every fitted tree; the loss of a pruning is its loss on the validation samples."),
 ("C33", "proved", ["C33_classification", "C33_regression"], "Exact arithmetic; every tree, every data set to predict."),
 ("C36", "proved", ["C36_weighted_depth", "C36_rows", "C36_forest"], "Exact arithmetic. C36_weighted_depth: one row of one tree; C36_rows: all the rows of one tree, in their order; C36_forest: the table returned by a fitted regressor, one line per tree and one cell per row."),
 ("C48", "proved", ["C48_classifier", "C48_regressor", "C48_forest_classifier", "C48_forest_regressor", "C48_zero_weights_refuted", "C48_single_precision_refuted"],
  "Exact arithmetic; a division by zero is exhibited with null weights, and in single precision with the positive weights 1e8 and 1."),
 ("C47", "proved", ["C47_classification", "C47_regression", "C47_trees_classifier", "C47_trees_regressor", "C47_counts_refuted"],
  "Exact arithmetic. Every node: statistics, impurities and gains of all the cuts. Whole trees and their predictions when the minimum counts are 1 and 2 and no feature is categorical (ties between bins of equal score are broken by the order of the rows). With larger minimum counts the trees differ: witness."),
 ("C14", "proved", ["C14_bootstrap", "C14_weights"], "Every generator whose draws are in range, every seed, size and recursion limit; weights in any arithmetic."),
 ("C15", "proved", ["C15_returns", "C15_fails", "C15_one_sample_refuted"],
  "Both outcomes are characterised; with one sample the procedure never returns a result, whatever the generator."),
 ("C16", "proved", ["C16_max_features", "C16_errors", "C16_exact", "C16_binary64"],
  "Every accepted value and number of features; the conversions are those of exact arithmetic and of IEEE doubles (C16_binary64)."),
 ("C42", "proved", ["C42_classifier", "C42_regressor", "C42_frozen", "C42_always_valid", "reachable_classifier", "reachable_regressor", "C42_random_state_refuted", "C42_random_state_fit", "C42_nan_refuted", "C42_encoder_parameters"],
  "Every setter, every value; every history of setters, fits and lighten; reachable_classifier and reachable_regressor: in any arithmetic, so that the hypotheses of the theorems about forests are met by every object a program can build. Two parts of the claim are false of the code and refuted: random_state is not validated, and NaN passes for step and dirichlet."),
 ("C45", "proved", ["C45_pickle", "C45_forest_classifier", "C45_forest_regressor"],
  "Any arithmetic: the loaded tree object, and the loaded forest, is equal to the pickled one."),
 ("C34", "proved", ["C34_tree", "C34_forest", "C34_from_constructor", "C34_single_precision_refuted", "C34_rounded_tree", "C34_rounded_forest"],
  "Exact arithmetic, strictly positive weights; every fitted forest, every data set the encoder accepts, every order in which the threads add their tree. C34_from_constructor: any history of calls from the constructor on, any table, the real encoder. C34_single_precision_refuted: in binary32, for every C library correctly rounded at the eight points used, a fit on four rows with positive weights gives a negative probability. C34_rounded_tree, C34_rounded_forest: with aggregation=False no probability is negative, in any binary floating-point format, for any C library."),
 ("C35", "proved", ["C35_tree", "C35_forest", "C35_from_constructor", "C35_single_precision_refuted", "C35_constant_labels_refuted", "C35_rounded_forest"], "Exact arithmetic, strictly positive weights; every order of the threads. C35_from_constructor: any history of calls from the constructor on, any table, the real encoder. C35_single_precision_refuted: in binary32, labels 0 and 1 and a negative prediction. C35_constant_labels_refuted: in binary32, without aggregation and for any C library, four rows with the same label and the weight 3 and a prediction below the label. C35_rounded_forest: in any binary floating-point format, without aggregation, labels that are not negative give predictions that are not negative."),
 ("C37", "proved", ["C37_step", "C37_sequence", "C37_forest_classifier", "C37_forest_regressor", "C37_forest_sequence"],
  "Any arithmetic: the forest object with the new step is equal to the one obtained by setting the step first, also for sequences of settings."),
 ("C38", "proved", ["C38_dirichlet", "C38_dirichlet_positive", "C38_no_aggregation", "C38_forest"],
  "Exact arithmetic: the forest object with the new dirichlet is equal to the one obtained by setting it first."),
 ("C43", "proved", ["C43_lighten", "C43_lighten_frees", "C43_forest_classifier", "C43_forest_regressor"], "Any arithmetic, every data set to predict."),
 ("C44", "proved", ["C44_lightened_step", "C44_lightened_dirichlet", "C44_lightened_pickle", "C44_refuted", "C44_forest_step", "C44_forest_pickle", "C44_forest_refuted"],
  "The claim is false of the code: the general theorems say what happens, C44_forest_refuted is a concrete forest of two trees."),
 ("C39", "proved", ["C39_predict_proba", "C39_predict_reg", "C39_rows", "C39_classifier", "C39_regressor", "C39_no_deadlock", "C39_without_lock_refuted", "C39_rounding_refuted"],
  "Every schedule of every set of threads. Any arithmetic: a completed execution gives what adding the trees in some order gives; the rows written by the trees do not depend on the schedule. Exact arithmetic: the mean over the trees (or the one-versus-rest formula). The order shows in binary64, and additions are lost without the lock."),
 ("C49", "proved", ["C49_classifier", "C49_regressor", "C49_classifier_completes", "C49_regressor_completes", "C49_two_fits_classifier", "C49_two_fits_regressor", "C49_unseeded_refuted"],
  "Any arithmetic, any number of threads, any previous state of their generators, any schedule: the whole fitted object is the one of a serial fit."),
 ("C40", "proved", ["C40_any", "C40_binary64", "C40_classifier"],
  "predict returns the label of the first largest probability: for every linearly ordered arithmetic with NaN, for binary64, and for whole forests under every schedule of the threads in exact arithmetic."),
 ("C41", "proved", ["C41_actual_seeds", "C41_same_trees", "C41_refuted", "C41_few_trees"],
  "The property is false of the code, for every data set and all seeds: tree t has seed number t / n_classes but class t / n_estimators; the first two trees are always identical, and at most n_estimators + n_classes - 1 trees are different."),
 ("C46", "proved", ["C46_no_effect", "C46_no_effect_regressor", "C46_refuted"],
  "The property is false of the code: setting aggregation on a fitted forest never changes a prediction."),
 ("C51", "proved", ["C51_untouched", "C51_regressor", "C51_overwritten", "C51_refuted"],
  "Any arithmetic. The array is untouched unless it is float32 and class_weight is balanced in multinomial mode; then its content after the call is given exactly, and two calls see different weights."),
 ("C52", "proved", ["C52_trees_kept", "C52_trees_kept_regressor", "C52_refuted"],
  "The trees are kept (proved); the labels are not (witness): a failed fit makes predict return labels that no successful fit ever saw."),
 ("C53", "proved", ["C53_classes"], "Any totally ordered labels."),
 ("C54", "proved", ["C54_totals", "C54_multinomial"], "C54_totals: exact arithmetic. C54_multinomial: any arithmetic, whole fit, exceptions included."),
 ("C50", "proved", ["C50_get_depth_refuted", "C50_is_left_refuted", "C50_actual_depth", "C50_path_leaf"],
  "Any arithmetic, every fit. get_depth is 0 and is_left is False whatever the tree (the property is false of the code); get_actual_depth is the greatest distance from the root, reached at a leaf; path_leaf of a tree lists the decisions on the route of a sample, and raises IndexError when the tree is a single leaf."), ("C06", "proved", ["C06_categories_by_rank", "C06_injective", "C06_categories_found"],
  "Any arithmetic, any values with an equivalence for ==; data frames with different names and arrays without missing objects. Two encodings by the same encoder."),
 ("C07", "proved", ["C07_encoded_bins_fit", "C07_exact", "C07_object_array_missing_refuted"],
  "What is read back is the documented bin, for every table and every fitted encoder. The order of the thresholds, needed for numerical columns, is C04. False for arrays of objects with missing values in a categorical column: the bin of missing values overflows its bits."),
 ("C08", "proved", ["C08_error", "C08_total", "C08_consider_missing"],
  "Both values of handle_unknown; C08_total says that nothing else in the cells makes transform raise."),
 ("C09", "proved", ["C09_inverse", "C09_total", "C09_exact", "C09_no_category_refuted"],
  "False of a categorical column without any value at fit: inverse_transform raises IndexError."),
 ("C10", "proved", ["C10_positions", "C10_duplicate_names_refuted"],
  "Proved for different names. With equal names columns are shifted, and the last ones contain uninitialised memory."),
 ("C11", "proved", ["C11_data_frame", "C11_array", "C11_fit_succeeds", "C11_bad_dtype", "C11_specification", "C11_frame_and_array_disagree_refuted"],
  "The decision for every kind of column, for data frames and for arrays, and which specifications of categorical features are accepted. The same values can be categorical in a data frame and continuous in an array."),
 ("C12", "proved", ["C12_fit_argument", "C12_constructor_ignored", "C12_constructor_ignored_refuted"],
  "Proved for the argument of fit. The value given to the constructor has no effect on any fit (general theorem and witness)."),
 ("C55", "proved", ["C55_no_subsampling", "C55_subsample_refuted"],
  "False of the code above subsample rows: the forest does not pass its random_state to the encoder. Proved up to subsample rows."),
 ("C56", "proved", ["C56_learned_kept", "C56_same_columns", "C56_failed_fit_refuted"],
  "What was learned is kept, and the encoder works as before if the refused table has as many columns as the last one. Otherwise the claim is false of the code: the number of features is replaced before the failure, and transform then refuses the data it accepted."),
 ("C57", "proved", ["C57_clone_classifier", "C57_clone_unfitted", "C57_clone_refit", "C57_set_params", "C57_set_params_stops", "C57_clone_regressor", "C57_clone_refit_regressor", "C57_random_state_refuted", "C57_multiclass_refuted"],
  "Any arithmetic, any history. False of the code for other values of random_state, which the constructor drops, and for the parameter multiclass, which fit changes when there are two classes. get_params, set_params and clone of sklearn are modelled from their documentation."),
 ("C58", "proved", ["C58_layout", "C58_picture", "C58_max_depth_refuted"],
  "C58_layout gives the coordinates in any arithmetic. C58_picture is for exact coordinates; doubles hold them exactly down to depth 51 or so, and coincide below. max_depth has no effect (false of the code). The rendering by bokeh is not modelled."),
 ("C59", "proved", ["C59_partition", "C59_learns_from_training_rows", "C59_unseen_class_refuted"],
  "Any arithmetic. train_test_split is any function that puts each row in one of the sets, StandardScaler any function of the training cells of a column. A class without training rows makes extract raise ValueError."),
 ("C60", "proved", ["C60_columns", "C60_mask", "C60_boston_refuted", "C60_boston_mask_refuted", "C60_drop_refuted", "C60_pd_refuted"],
  "Proved when the constructor's lists are the columns of the file in its order, without drop='first'. False of the code otherwise; the bundled Boston dataset is such a case."),
 ("C61", "proved", ["C61_label_not_used", "C61_from_dtype", "C61_raw", "C61_from_dtype_refuted"],
  "Any arithmetic. False of from_dtype when the label is among the types."),
 ("C62", "proved", ["C62_classifier", "C62_regressor", "C62_limits_classifier", "C62_limits_regressor"],
  "Any arithmetic, every successful fit of a forest whose parameters are legal. The sums are in increasing order of the rows, as in the code."),
 ("C63", "proved", ["C63_multinomial", "C63_ovr", "C63_regressor", "C63_mean"],
  "Any arithmetic, for the order in which the threads add; C63_mean: exact arithmetic, any order."),
 ("C64", "proved", ["C64_scaled_gini", "C64_compute_gini", "C64_one_class_refuted"],
  "Exact arithmetic. Two missing labels are the same label. With one class the index is 0 / 0 (double precision)."),
 ("C65", "proved", ["C65_get_signal", "C65_empty", "C65_make_regression", "C65_seed", "C65_one_input_refuted"],
  "Exact arithmetic. False of the code for one input or a constant signal, which give NaN in double precision. make_regression uses and resets the global generator of numpy."),
 ("C66", "proved", ["C66_interrupted", "C66_cached", "C66_offline", "C66_direct", "C66_bank", "C66_truncated_refuted", "C66_checksum_refuted", "C66_second_archive_refuted"],
  "A call is a program with one operation on the file system per step; the contents of files are lists of blocks and pandas is not modelled. True for converted datasets unless a call is interrupted while it writes the converted file; false of the code otherwise, and for a wrong checksum (higgs, bank) and an interruption between two archives (epsilon)."),
 ("C67", "proved", ["C67_concurrent", "C67_direct_concurrent", "C67_truncated_refuted", "C67_removed_refuted", "C67_home_refuted", "C67_bank_refuted"],
  "Interleavings of the operations on files of any number of calls. True when the files are there (not for bank); false of the code otherwise."),
 ("C68", "proved", ["C68_classifier", "C68_regressor", "C68_encoder"],
  "Any arithmetic and any values of the cells; tables are data frames with different column names and arrays (without missing values when they are not numerical). Two tables are compared when their columns are converted in the same way (data frames and numerical arrays, or arrays of objects)."),
 ("C69", "proved", ["C69_bins", "C69_encoder", "C69_classifier", "C69_regressor", "C69_new_values_refuted"],
  "The cells of the table are exact real numbers (thresholds are not rounded), the trees are in any arithmetic. The values stay below the value used for infinity, and subsample does not make fit use a part of the rows. False of the code for rows that are not in the training table."),
 ("C70", "proved", ["C70_constructor", "C70_classifier", "C70_order_refuted"],
  "Any arithmetic, any encoder, any types of labels. The function needs to keep the order of the labels that are used only. False of the code for renamings that change the order."),
 ("C71", "proved", ["C71_regressor", "C71_shift", "C71_categorical_refuted"],
  "Exact real numbers; any random draws, sort, encoder and workers. False of the code when a column is categorical and b is not 0."),
 ("C72", "proved", ["C72_regressor", "C72_classifier", "C72_no_weights_regressor", "C72_no_weights_classifier", "C72_dirichlet_refuted"],
  "Exact real numbers (any arithmetic for the absent weights); any random draws, encoder and workers. False of the code if dirichlet is not changed with the weights."),
 ("C73", "proved", ["C73_classifier", "C73_regressor", "C73_values_classifier", "C73_values_regressor", "C73_constant_classifier", "C73_constant_regressor"],
  "Any arithmetic, any encoder for the bins, the encoder of the forests for the values; any random draws and workers."),
 ("C74", "proved", ["C74_share", "C74_regression", "C74_classification"],
  "Exact real numbers, one tree; the forest averages its trees (C63). The losses of the prunings are those of C32."),
]
here = os.path.dirname(os.path.abspath(__file__))
CLAIMS.sort()
json.dump({"claims": [dict(property=p, status=s, theorems=t, note=n) for p, s, t, n in CLAIMS]},
          open(os.path.join(here, "..", "MANIFEST.json"), "w"), indent=1)
