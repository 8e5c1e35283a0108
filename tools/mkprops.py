#!/usr/bin/env python3
"""Writes /verif/properties.jsonl. Edit the list here, then run it."""
import json, os
P = []
def p(title, statement, quantifier, why, anchors):
    P.append(dict(id="C%02d" % (len(P) + 1), title=title, statement=statement,
                  quantifier=quantifier, why_tests_cant=why, anchors=anchors))

FB = "wildwood/preprocessing/features_bitarray.py"
BN = "wildwood/preprocessing/_binning.py"
EN = "wildwood/preprocessing/encoder.py"
CH = "wildwood/preprocessing/_checks.py"
UT = "wildwood/_utils.py"
IM = "wildwood/_impurity.py"
SP = "wildwood/_split.py"
ND = "wildwood/_node.py"
TC = "wildwood/_tree_context.py"
TR = "wildwood/_tree.py"
GR = "wildwood/_grow.py"
TP = "wildwood/tree.py"
FO = "wildwood/forest.py"

# ---- preprocessing -------------------------------------------------------
p("Packing a matrix of bins and unpacking it is lossless",
  "features_bitarray_to_array(array_to_bitarray(X)) has the same shape and the same values as X, although every column is packed with its own number of bits into shared 64-bit words; get_value(fb, i, j) returns X[i, j].",
  "every number of rows >= 1, every number of columns >= 1, every unsigned matrix X (each column with its own maximum), every cell (i, j)",
  "the packing position depends on the row index modulo a column-dependent number of values per word; no finite list of sizes covers all of these combinations",
  [FB+":FeaturesBitArray.__init__", FB+":_features_bitarray_fill_column", FB+":get_value_from_column", FB+":array_to_bitarray", FB+":features_bitarray_to_array", FB+":get_value"])
p("Writing one packed column never changes another",
  "features_bitarray_fill_column(fb, j, col) makes column j read back as col and leaves every cell of every other column readable with its previous value, whatever the order in which columns are filled, and it never touches memory outside the words of column j.",
  "every bitarray layout, every column j, every col whose values are at most max_values[j], every history of earlier fills",
  "interference would only show for particular bit widths and lengths and for particular orders of fills",
  [FB+":features_bitarray_fill_column", FB+":_features_bitarray_fill_column", FB+":FeaturesBitArray.__init__"])
p("Binning is exactly the interval lookup",
  "A non-missing value x of a continuous column is put in bin i if and only if thresholds[i-1] < x <= thresholds[i] (with -inf and +inf at both ends), so binning is monotone in x and never exceeds the number of thresholds; a missing value is put in a bin of its own that no non-missing value uses.",
  "every sorted list of thresholds of any length (possibly with repetitions, possibly empty) and every value x",
  "binary-search off-by-one errors only appear for particular lengths and particular positions of x",
  [BN+":_bin_continuous_column", EN+":Encoder.transform"])
p("Binning thresholds are sorted and there are at most max_bins bins",
  "The thresholds computed by Encoder.fit for a continuous column are sorted, never exceed 1e300, and there are min(max_bins, number of distinct values) - 1 of them, so that a column never uses more than max_bins bins besides the missing-values bin.",
  "every column of values (any length, any repetitions, any missing values) and every max_bins >= 3",
  "depends on all possible multisets of values",
  [BN+":_find_binning_thresholds", EN+":Encoder.fit"])
p("Distinct values are not merged when they fit in max_bins",
  "If a continuous column has at most max_bins distinct values then two different values of the column are put in two different bins (for values not above 1e300, in exact arithmetic; with IEEE doubles two consecutive floats can be merged, which is exhibited).",
  "every column with at most max_bins distinct values",
  "quantifies over all value sets, including adjacent floating point numbers",
  [BN+":_find_binning_thresholds", BN+":_bin_continuous_column"])
p("Categories are encoded injectively, missing and unknown ones apart",
  "For a categorical column, Encoder.transform maps a category known at fit to its rank among the fitted categories, maps missing and unknown values to the extra bin (the number of fitted categories), and hence two different known categories never share a bin and never share it with missing or unknown values.",
  "every list of distinct fitted categories and every column passed to transform",
  "quantifies over all sets of categories at fit and at transform time",
  [EN+":Encoder.transform"])
p("Encoded bins always fit in the packed representation",
  "Every bin written by Encoder.transform in column j is at most the max_values[j] used to choose the number of bits, so that what the trees read back for sample i and feature j is exactly the bin of X[i, j] (column names being distinct).",
  "every fitted encoder and every matrix or dataframe passed to transform",
  "an overflow would silently corrupt neighbouring samples only for particular counts of bins (powers of two) and particular positions of missing values",
  [EN+":Encoder.transform", FB+":FeaturesBitArray"])
p("handle_unknown decides between an error and the missing bin",
  "transform raises ValueError if handle_unknown is 'error' and some categorical column declares a category that was not seen at fit; with 'consider_missing' it never raises for that reason and unknown values get the missing bin.",
  "every fitted encoder, every transform input, both values of handle_unknown",
  "quantifies over all pairs of category sets",
  [EN+":Encoder.transform"])
p("inverse_transform undoes transform",
  "inverse_transform(transform(X)) returns, for each cell, the original category (categorical columns), an interval closed on the right that contains the original value (continuous columns), and NaN exactly for the cells that were missing or unknown.",
  "every fitted encoder and every X",
  "round trip over all inputs",
  [EN+":Encoder.inverse_transform", EN+":Encoder.transform"])
p("Columns keep their position whatever their names",
  "Column j of the encoded data is the encoding of column j of the input dataframe. This holds when column names are distinct and is false when two columns share a name.",
  "every list of named columns",
  "needs all possible name collisions",
  [EN+":Encoder.fit", EN+":Encoder.transform", CH+":check_X"])
p("Which columns are treated as categorical",
  "For each column the decision (categorical or continuous) is the documented one: a flag given by the user is obeyed for numeric columns, non-numeric columns are categorical, unflagged numeric columns are categorical exactly when they have at most cat_min_categories distinct values; an invalid specification raises ValueError instead of being ignored.",
  "every dtype kind, every number of distinct values, every user specification (None, mask, indices)",
  "decision table over an unbounded set of counts and index lists",
  [CH+":is_series_categorical", CH+":get_array_dtypes", CH+":get_is_categorical"])
p("The user-declared categorical features are the ones used",
  "The columns declared categorical by the user, through the constructor or through fit, are the ones used by the fit. (Refuted: the value given to the constructor is ignored.)",
  "every value of the constructor argument and of the fit argument",
  "all combinations of the two arguments",
  [FO+":ForestBase.fit", CH+":get_is_categorical"])
# ---- sampling ------------------------------------------------------------
p("Feature subsampling draws distinct features",
  "At each node the tried features are max_features pairwise distinct column indices, and all columns are tried when max_features equals n_features.",
  "every stream of random draws, every n_features, every max_features <= n_features",
  "over all outcomes of the random generator",
  [UT+":sample_without_replacement", ND+":init_node_context", ND+":compute_node_classifier_context"])
p("Bootstrap and out-of-bag samples partition the data",
  "For each tree, training and validation indices are disjoint, cover all the samples, are both non-empty, and the bootstrap counts (which multiply the sample weights) are positive on the training samples and add up to n_samples.",
  "every random generator, every n_samples, every seed, whenever the drawing procedure returns",
  "over all outcomes of the random generator",
  [FO+":_generate_train_valid_samples", FO+":_parallel_build_trees"])
p("The bootstrap procedure terminates",
  "Drawing the bootstrap sample returns as soon as some draw leaves a sample out. With a single training sample no draw ever does, whatever the generator, and the call ends with a RecursionError.",
  "every random generator and every number of retries",
  "non-termination cannot be observed by a test",
  [FO+":_generate_train_valid_samples"])
p("The number of tried features is valid",
  "After fit, max_features_ is an integer between 1 and n_features, or fit raised ValueError, for every accepted value of max_features.",
  "every n_features >= 1 and every max_features (None, 'auto', 'sqrt', 'log2', integers, real numbers)",
  "all pairs of values including rounding at the boundaries",
  [FO+":ForestBase._get_max_features_", FO+":ForestBase.max_features"])
# ---- splits --------------------------------------------------------------
p("Node statistics are exactly those of the node's samples",
  "The counts, total weight, per-bin statistics, prediction and validation loss computed at a node are the ones of the training and validation samples of that node and of no other sample: the prediction is the (Dirichlet-smoothed) weighted class frequency or the weighted mean, the loss is the weighted log or squared loss on the validation samples.",
  "every data set, every node, every set of tried features",
  "quantifies over all data sets and nodes",
  [ND+":compute_node_classifier_context", ND+":compute_node_regressor_context"])
p("The split found is the best admissible one",
  "Among all thresholds of all tried features (for categorical features, along each tried ordering) that leave at least min_samples_leaf training samples (and validation samples when aggregation is used) on both sides, the split chosen has the largest gain; a split is found as soon as one admissible threshold has a comparable gain. In particular the early exit of the scan loses nothing.",
  "every histogram, every ordering of bins, every min_samples_leaf",
  "optimality over all candidates for all data",
  [SP+":find_node_split", SP+":try_feature_order_for_classifier_split", SP+":find_best_split_classifier_along_feature", SP+":find_best_split_regressor_along_feature"])
p("min_samples_leaf is respected",
  "Every node of a grown tree except the root has at least min_samples_leaf training samples, and also at least min_samples_leaf validation samples when aggregation is used.",
  "every data set, every hyper-parameters, every random draw",
  "over all trees that can be grown",
  [SP+":try_feature_order_for_classifier_split", SP+":find_best_split_regressor_along_feature", GR+":grow"])
p("Gain ordering is information gain ordering, impurities are the textbook ones",
  "Gini and entropy impurities are those of the weighted class frequencies, mse is the weighted variance; they are non-negative and vanish exactly on pure sets; comparing candidate splits of a node with the gain used in the scan orders them as their information gain does, and the information gain is non-negative.",
  "every non-negative weights and counts, every pair of splits",
  "universally quantified real inequalities",
  [IM+":gini_node", IM+":gini_childs", IM+":entropy_node", IM+":entropy_childs", IM+":mse_node", IM+":mse_childs", IM+":information_gain", IM+":information_gain_proxy"])
p("Splitting a node is a stable partition in place",
  "split_indices rearranges the training (validation) samples of the node so that the samples going left come first, each side keeping its order; it is a permutation inside the node's slice, it leaves every position outside of the slice unchanged, and the sample counts announced by the chosen split are the sizes of the two sides.",
  "every partition array, every slice, every split",
  "over all arrays and slices",
  [SP+":split_indices"])
p("Categorical partitions are tested exactly",
  "At prediction time a sample goes left at a categorical split if and only if its bin belongs to the set of bins that was chosen for the left child; bins that were not seen at fit go right.",
  "every non-empty sorted set of bins and every bin",
  "binary search over all sizes",
  [SP+":is_bin_in_partition", SP+":compute_bin_partition", TR+":find_leaf"])
p("Categorical splits are globally optimal for binary classification",
  "For two classes, the best split along the ordering of the bins by class proportion has a gain at least as large as the gain of any of the 2^k subsets of the k categories (Gini). The analogous claim made in the documentation for regression is false of the code, which sorts the bins by label sum and not by label mean.",
  "every table of weights per category and class, every subset of categories",
  "2^k subsets for every k",
  [SP+":find_best_split_classifier_along_feature", SP+":find_best_split_regressor_along_feature"])
# ---- growing -------------------------------------------------------------
p("Growing terminates and the tree is small",
  "fit terminates for every data set and every random draw, and a grown tree has at most 2 * n_train - 1 nodes, where n_train is the number of training samples of the tree.",
  "every data set, hyper-parameters and random draws",
  "termination of an unbounded loop",
  [GR+":grow"])
p("Grown trees are well-formed binary trees",
  "The nodes array of a grown tree encodes a single rooted binary tree: node 0 is the root, every other node is the left or the right child of exactly one node, the parent field is the inverse of the child fields, a child has a larger identifier and depth one more than its parent, and the number of nodes is twice the number of leaves minus one.",
  "every grown tree",
  "invariant of an unbounded construction",
  [GR+":grow", TR+":add_node_tree"])
p("Depth and minimum size limits are respected",
  "No node is deeper than max_depth, and a node that was split has at least min_samples_split training samples (and validation samples when aggregation is used) and non-zero impurity.",
  "every grown tree",
  "invariant of an unbounded construction",
  [GR+":grow"])
p("No array access is out of bounds",
  "Growing a tree and predicting with it never index an array outside of its bounds (bounds checks are switched off in the compiled code), including when the arrays that hold nodes, records and category partitions are reallocated.",
  "every data set accepted by fit, every random draw, every reallocation point",
  "with bounds checks off an out-of-bounds access is silent",
  [GR+":grow", TR+":add_node_tree", TR+":resize_tree", SP+":split_indices", ND+":compute_node_classifier_context"])
p("Training samples are routed to the leaf that holds them",
  "For a sample used to train (or validate) a tree, apply returns a leaf whose slice of the partition contains that sample; hence the leaves partition the training samples, and each leaf has as many training samples reaching it as its n_samples_train field says.",
  "every grown tree and every training or validation sample",
  "agreement of two independent implementations of routing on all trees",
  [TR+":find_leaf", TR+":tree_apply", SP+":split_indices", GR+":grow"])
p("Prediction always reaches a leaf",
  "For every grown tree and every row of bins, including bins never seen at fit, the walk down the tree terminates in a leaf of the tree, and the walk up from that leaf terminates at the root and visits exactly the ancestors of the leaf.",
  "every grown tree and every row",
  "termination of an unbounded loop for all inputs",
  [TR+":find_leaf", TR+":tree_classifier_predict_proba", TR+":tree_regressor_predict"])
p("Pending nodes are processed exactly once",
  "The stack of nodes to be processed gives back exactly the records that were pushed, last in first out, across any number of reallocations of its storage.",
  "every history of pushes and pops",
  "all histories and all reallocation points",
  [GR+":Records", GR+":push_record", GR+":pop_node_record", GR+":has_records"])
# ---- aggregation ---------------------------------------------------------
p("log_sum_2_exp is exact and safe",
  "log_sum_2_exp(a, b) equals log((exp(a) + exp(b)) / 2), is symmetric, lies between max(a, b) - log 2 and max(a, b), and only ever exponentiates non-positive numbers.",
  "all real numbers a, b",
  "universally quantified real identity",
  [UT+":log_sum_2_exp"])
p("Node weights aggregate all prunings",
  "The tree weight stored at a node is the logarithm of the sum, over all prunings of the subtree rooted there, of the prior of the pruning times exp(-step * validation loss of the pruning).",
  "every grown tree, every losses, every step",
  "number of prunings is doubly exponential in the depth",
  [GR+":compute_tree_weights", UT+":log_sum_2_exp"])
p("Aggregated predictions are the exponentially weighted average over all prunings",
  "With aggregation, the prediction of a tree for x is exactly the average, over all prunings of the tree, of the prediction of the pruning at x, weighted by the prior times exp(-step * validation loss): the recursion along one root-to-leaf path computes it exactly.",
  "every grown tree, every x, every step",
  "number of prunings is doubly exponential in the depth",
  [TR+":tree_classifier_predict_proba", TR+":tree_regressor_predict", GR+":compute_tree_weights"])
p("Predicted probabilities are probabilities",
  "predict_proba returns non-negative numbers that sum to one for every row, for single trees and for forests, with and without aggregation, in multinomial and in one-versus-rest mode (including when all one-versus-rest scores vanish). This holds in exact arithmetic; in single precision a probability can be negative with aggregation, which is exhibited.",
  "every fitted forest with positive dirichlet or positive weights, every row",
  "over all models and inputs",
  [TR+":tree_classifier_predict_proba", FO+":ForestClassifier.predict_proba"])
p("Regression predictions stay within the range of the training labels",
  "ForestRegressor.predict returns values between the smallest and the largest training label, with and without aggregation. This holds in exact arithmetic; in single precision a prediction can leave the range with aggregation, which is exhibited.",
  "every fitted regression forest with positive sample weights, every row",
  "over all models and inputs",
  [TR+":tree_regressor_predict", FO+":ForestRegressor.predict"])
p("The weighted depth lies between zero and the depth of the leaf",
  "The weighted depth computed for x is between 0 and the depth of the leaf that contains x, and is the average depth of the pruned leaf containing x over all prunings.",
  "every grown regression tree and every x",
  "over all trees and inputs",
  [TR+":tree_regressor_weighted_depth"])
# ---- forest --------------------------------------------------------------
p("Changing step after fit is the same as refitting with it",
  "Setting the step of a fitted forest gives the same trees and predictions as fitting with that step in the first place.",
  "every fitted forest, every pair of steps, every sequence of settings",
  "over all models and histories of settings",
  [TP+":TreeBase.step", GR+":compute_tree_weights", FO+":ForestBase.step"])
p("Changing dirichlet after fit is the same as refitting with it",
  "Setting dirichlet on a fitted classifier with aggregation gives the same tree structure, node predictions, losses and weights as fitting with that value in the first place.",
  "every fitted classifier, every pair of positive values",
  "over all models and histories of settings",
  [TP+":TreeClassifier.dirichlet", GR+":recompute_node_predictions", FO+":ForestClassifier.dirichlet"])
p("Predictions do not depend on the thread schedule",
  "predict_proba and predict add the contributions of the trees under a lock, so for every interleaving of the worker threads the result is the sum over trees; apply and predict_proba_trees write disjoint rows, so their result is the same for every schedule. (In floating point the sum depends on the order, which is exhibited.)",
  "every number of trees, every number of threads, every interleaving",
  "tests see a handful of schedules",
  [FO+":_accumulate_prediction", FO+":ForestBase.apply", FO+":ForestClassifier.predict_proba", FO+":ForestRegressor.predict"])
p("The predicted class is an arg max",
  "predict returns, for each row, an element of classes_ whose probability is the largest, the first one in case of ties.",
  "every probability matrix and classes list",
  "over all outputs",
  [FO+":ForestClassifier.predict"])
p("One-versus-rest trees of one class use different seeds",
  "In one-versus-rest mode the n_estimators trees of a class are grown with the n_estimators different seeds, and the k-th trees of all classes share a seed. (Refuted: seeds are repeated in the wrong order and several trees of one class are identical.)",
  "every n_estimators, every n_classes",
  "all pairs of sizes",
  [FO+":ForestBase.fit", FO+":ForestBase._generate_random_states"])
p("Parameters are validated and frozen",
  "An invalid hyper-parameter raises ValueError and leaves the estimator unchanged, a valid one is stored, and n_estimators, random_state and multiclass cannot change once the forest is fitted, whatever the sequence of calls. (False for random_state, whose invalid values are silently dropped.)",
  "every sequence of setter calls with every Python value",
  "all histories of setter calls",
  [FO+":ForestBase", FO+":ForestClassifier"])
p("lighten keeps predictions",
  "After lighten(), predict, predict_proba and apply return the same values as before.",
  "every fitted forest, every input",
  "over all models",
  [TP+":TreeBase.lighten", FO+":ForestBase.lighten"])
p("A lightened forest can still be reconfigured or pickled",
  "After lighten(), setting step or dirichlet and pickling still work or raise without changing the forest. (Refuted: the setter fails half-way, leaving a step that does not match the stored weights; the pickled forest cannot be loaded.)",
  "every sequence of fit, lighten, step, dirichlet, pickle",
  "all histories of calls",
  [TP+":TreeBase.lighten", TP+":TreeBase.step", TP+":serialize", TP+":unserialize"])
p("Pickling a fitted forest is faithful",
  "Unpickling a pickled fitted tree gives a tree with the same nodes, partitions, predictions and context, hence the same predictions and the same behaviour of the step and dirichlet setters.",
  "every fitted (not lightened) tree",
  "over all models",
  [TP+":serialize", TP+":unserialize", FO+":ForestBase.__getstate__"])
p("Changing aggregation after fit takes effect",
  "Setting aggregation on a fitted forest changes the predictions accordingly. (Refuted: trees keep the value used at fit; and dirichlet can be set to 0 after fit although fit rejects 0 with aggregation.)",
  "every fitted forest and every sequence of setter calls",
  "all histories of calls",
  [FO+":ForestBase.aggregation", FO+":ForestClassifier.dirichlet", TP+":TreeClassifier"])
p("Integer weights behave like repeated rows",
  "Giving weight k to a training or validation sample has the same effect on node predictions, impurities, losses and weights as repeating it k times. (At the level of the minimum sample counts it is false, since these count rows.)",
  "every node and every vector of positive integer weights",
  "over all data and weights",
  [ND+":compute_node_classifier_context", ND+":compute_node_regressor_context", FO+":ForestBase.fit"])
p("Fit does not fail on positive weights",
  "With strictly positive sample weights growing a tree raises no error (in exact arithmetic); with zero weights, or with weights of very different magnitudes in single precision, it raises ZeroDivisionError, which is exhibited.",
  "every data set, every positive weights",
  "over all weights",
  [IM+":gini_childs", IM+":mse_childs", ND+":compute_node_regressor_context", GR+":grow"])
p("Fits are reproducible",
  "Two fits with the same random_state and the same data give the same trees, whatever the number of threads and the schedule, since each tree seeds the generator of its own thread before drawing.",
  "every seed, every number of threads, every assignment of trees to threads and interleaving",
  "tests see a handful of schedules",
  [FO+":_parallel_build_trees", FO+":ForestBase._generate_random_states", TR+":_TreeClassifier"])
p("Tree introspection tells the truth",
  "get_depth is the depth of the tree and the is_left column of the nodes tells left from right children. (Refuted: the depth is always 0 and is_left is never set.) get_actual_depth is the greatest distance from the root to a leaf, and the path listed for a sample is its route.",
  "every grown tree",
  "over all trees",
  [TP+":TreeBase.get_depth", TR+":add_node_tree"])
p("fit leaves the caller's arrays alone",
  "fit does not modify the sample_weight array passed by the caller, so that fitting twice with the same arguments gives the same weights. (Refuted for float32 arrays when class_weight is used.)",
  "every sequence of fits with every sample_weight and class_weight",
  "aliasing only shows for some dtypes",
  [FO+":ForestBase.fit", FO+":_parallel_build_trees"])
p("A fit that raises leaves the forest as it was",
  "When fit raises an exception on a fitted forest, the forest goes on predicting what it predicted before. (Refuted: the trees are kept but the class labels are replaced before the checks, so the forest predicts labels it was never fitted with.)",
  "every fitted forest, every failing call of fit",
  "over all failure points",
  [FO+":ForestBase.fit", FO+":ForestClassifier._encode_y"])
p("Class labels are the sorted distinct labels",
  "After fit, classes_ lists the distinct labels of y in increasing order, and the column k of predict_proba is for classes_[k]: the code used for the training of each sample is the position of its label.",
  "every list of labels of a totally ordered type",
  "over all label vectors",
  [FO+":ForestClassifier._encode_y", FO+":ForestClassifier.predict"])
p("Balanced class weights balance the classes",
  "class_weight='balanced' gives every class present the same total weight n_samples / n_classes, and fitting with it is the same as fitting with the sample weights multiplied by the class weights.",
  "every list of labels and every sample weights",
  "over all label vectors",
  [FO+":ForestBase.fit", FO+":_parallel_build_trees"])
p("Encodings are reproducible",
  "Two fits of forests with the same random_state and the same data bin the features in the same way. (True up to `subsample` rows; refuted above, where the rows used to compute the bins are drawn by numpy's global generator.)",
  "every table, every number of rows, every state of the generators",
  "needs tables with more than 200000 rows and control over the global generator",
  [FO+":ForestBase.fit", "wildwood/preprocessing/encoder.py:Encoder.fit"])
p("An Encoder.fit that raises leaves the encoder as it was",
  "When Encoder.fit raises an exception on a fitted encoder, the encoder goes on encoding what it encoded before. (Refuted: the number of features of the refused data has replaced the one of the previous fit.)",
  "every fitted encoder, every failing call of fit",
  "over all failure points",
  ["wildwood/preprocessing/encoder.py:Encoder.fit", "wildwood/preprocessing/encoder.py:Encoder.transform"])
p("Copying a forest by its parameters",
  "sklearn's clone of a forest, at any point of its life, is a new forest with the same parameters that learned nothing; a forest that was only configured is equal to its copy; a copy fitted on the same data is the same fitted forest; setting parameters to the values read from get_params changes nothing before fit. (Refuted when random_state is not None or a non-negative int: get_params raises; and a one-versus-rest forest fitted on two classes has changed its multiclass parameter, so its copy has another value than the one given.)",
  "every sequence of constructor call, attribute assignments, fits and lightenings",
  "over all histories and all parameter values",
  [FO+":ForestBase.__init__", FO+":ForestClassifier.__init__", FO+":ForestRegressor.__init__", FO+":ForestBase.random_state", FO+":ForestClassifier._encode_y"])
p("The drawing of a tree",
  "plot_tree draws every node of a fitted tree at its own place inside of the frame; a child is one line below its parent and its segment ends at its parent; what is below the left child is on the left of its parent and what is below the right child on its right. Nodes deeper than max_depth are not drawn. (The last sentence is refuted: the argument is not used.)",
  "every fitted tree, of any depth and shape",
  "over all trees",
  ["wildwood/plot.py:_compute_display_tree", "wildwood/plot.py:plot_tree", FO+":ForestBase.get_nodes"])

DS = "wildwood/datasets/dataset.py"
p("Extracting a dataset partitions the rows",
  "Dataset.extract puts each row of the file in exactly one of the training set and the test set, with its own label at the same position; and all that is learned (scaling, categories, classes, column names) is learned from the training rows only: two files with the same training rows give the same training matrix, and the same row is transformed in the same way in both, whether it is in the training set or in the test set. (A class that no training row has makes extract raise.)",
  "every file, every configuration, every random state and every way to split",
  "over all files and all splits",
  [DS+":Dataset.extract", DS+":Dataset._build_transform"])
p("The columns of an extracted dataset have the right names",
  "The columns_ of an extracted dataset describe its matrices: column j contains the values of the column named columns_[j], scaled or encoded as documented, and categorical_mask_ says which columns are categorical. (Proved when the lists given to the constructor are the columns of the file in its order. Refuted otherwise: for the bundled Boston dataset, the first column is called crim and contains zn, and there are more columns than names; with drop='first' there are more names than columns; pd_df_categories raises with one-hot encoding or a missing category.)",
  "every file and every configuration",
  "over all files and configurations",
  [DS+":Dataset.extract", DS+":Dataset._build_transform", "wildwood/datasets/loaders.py:load_boston"])
p("The labels of a dataset are not among its features",
  "The matrices of an extracted dataset do not depend on the column of the labels, given the choice of the rows: files that only differ in their labels give the same matrices. load_raw_dataset separates the labels from the unchanged other columns. (from_dtype with the label among the types puts the labels in the matrices.)",
  "every file and configuration",
  "non-interference: over all pairs of files",
  [DS+":Dataset.extract", DS+":Dataset.from_dtype", DS+":get_X_y_from_dataframe", DS+":load_raw_dataset"])
p("The trees of a forest describe the user's data",
  "After fit, each tree was trained on the user's rows: its training rows are n draws with replacement from the n rows given, its validation rows the others; the weight of a row is the user's, times the class balancing, times how often it was drawn; its labels are the positions of the user's labels among classes_ (or 1 for the class of the tree and 0 for the others, with multiclass='ovr'); and every node counts exactly the rows that pass through it, predicts their smoothed class frequencies (or their mean) and holds the loss of this prediction on the validation rows. The limits max_depth, min_samples_split and min_samples_leaf given by the user hold in every tree.",
  "every table, labels, weights, configuration and random state; every tree and every node",
  "over all data, all forests and all nodes",
  [FO+":ForestBase.fit", FO+":_parallel_build_trees", FO+":_generate_train_valid_samples", FO+":ForestClassifier._encode_y"])
p("The predictions of a forest are averages of those of its trees",
  "predict_proba of a forest is, for each class, the sum of what predict_proba_trees gives divided by the number of trees (with multiclass='ovr': the sum over the trees of this class, divided by the total over the classes, or uniform if the total is too small); predict of a regressor is the sum of the predictions of the trees divided by their number. In exact arithmetic it is the mean, whatever the order in which the threads add.",
  "every forest, every table, every order of the threads",
  "over all forests and schedules",
  [FO+":ForestClassifier.predict_proba", FO+":ForestClassifier.predict_proba_trees", FO+":ForestRegressor.predict"])

p("The scaled Gini index of a dataset",
  "scaled_gini_ of an extracted classification dataset is the proportion of pairs of rows with different labels, divided by its largest possible value for this number of classes; it is between 0 and 1, and it is 1 exactly when the classes have equal sizes. compute_gini is the proportion of pairs with different labels. (With one class scaled_gini_ is NaN.)",
  "every file with labels, every split",
  "over all label columns; a number which a reader trusts without recomputing it",
  [DS+":scaled_gini", DS+":gini", DS+":Dataset.extract", DS+":Dataset.compute_gini"])
p("Artificial signals",
  "get_signal gives Donoho's signal of this name after an increasing affine change of unit: its values are in [0, 1], and 0 and 1 are attained. make_regression gives sorted inputs, one per row, and the label of a row is the signal at its input plus the noise; with a seed its result does not depend on the state of the generator. (Refuted for one input, or a constant signal: NaN.)",
  "all inputs, names, noise levels and generators",
  "over all inputs",
  ["wildwood/datasets/signals.py:get_signal", "wildwood/datasets/signals.py:make_regression"])
p("Interrupted loads of downloaded datasets",
  "If earlier calls of a load function were interrupted, or got wrong data from the network, a later call that returns gives the complete dataset; and it does return if the network works. (Proved for the datasets that are converted, when no call is interrupted while it writes the converted file. Refuted otherwise: the truncated file is returned for ever. Refuted for higgs and bank: after a wrong checksum the next call returns the wrong data. Refuted for epsilon: after an interruption between the two archives all calls raise.)",
  "all histories of calls, all points of interruption, all networks, all contents",
  "crash points: over all interruptions and histories",
  ["wildwood/datasets/_adult.py:_fetch_adult", "wildwood/datasets/_car.py:_fetch_car", "wildwood/datasets/_bank.py:load_bank", "wildwood/datasets/_epsilon.py:_fetch_epsilon", "wildwood/datasets/_higgs.py:_fetch_higgs", "wildwood/datasets/_utils.py:get_data_home"])
p("Concurrent loads of downloaded datasets",
  "Any number of processes can load a dataset at the same time, and all get the complete dataset. (Proved when the files are there already. Refuted otherwise: a process gets a truncated dataset, or FileNotFoundError or FileExistsError. Refuted for bank even when its archive is there.)",
  "all numbers of processes and all interleavings of their operations on files",
  "over all schedules",
  ["wildwood/datasets/_adult.py:_fetch_adult", "wildwood/datasets/_car.py:_fetch_car", "wildwood/datasets/_bank.py:load_bank", "wildwood/datasets/_utils.py:get_data_home"])

p("The prediction for a row depends on this row only",
  "The predictions of a fitted forest for a row do not depend on the other rows of the table: in two tables, rows with the same cells get the same result; and for any list of rows (a part of the rows, another order, repetitions) the predictions for X[rows] are those for X taken at these rows, and they do not fail if those for X did not. This holds for predict_proba, predict, predict_proba_trees, apply and the weighted depths, for both kinds of forests, whatever was done with the forest before (for a given order of the additions of the threads), and for the transform of the encoder.",
  "every forest, every history of calls, every pair of tables and every list of rows",
  "relates runs on different tables: over all pairs of tables",
  [FO+":ForestBase.predict_helper", FO+":ForestClassifier.predict_proba", FO+":ForestClassifier.predict_proba_trees", FO+":ForestRegressor.predict", FO+":ForestBase.apply", "wildwood/preprocessing/encoder.py:Encoder.transform"])

p("Increasing changes of unit of the features do not matter",
  "If the values of each numerical column are replaced by other values in the same order (a logarithm, another unit), fit on the new table succeeds when it did on the old one and gives the same trees, classes and parameters; and the predictions for the new table are those for the old one. A different function can be used for each column; missing values and categorical columns are unchanged. (Refuted for rows that are not in the training table: a value between two training values may go to another bin, because thresholds are middles.)",
  "all tables, all increasing functions, all labels, weights and parameters",
  "relates the runs on two tables, over all increasing functions",
  ["wildwood/preprocessing/_binning.py:_find_binning_thresholds", "wildwood/preprocessing/encoder.py:Encoder.fit", FO+":ForestBase.fit"])

p("The names of the classes do not matter",
  "Renaming the classes without changing their order (numbers instead of strings, say) changes nothing but the names: two classifiers built with the same arguments and given the same calls, with the labels renamed in one of them, raise the same exceptions, have the same trees, parameters and probabilities, and the predicted labels of one are the renamed labels of the other. (Refuted for a renaming that changes the order: ties go to the first class.)",
  "all histories of calls, all types of labels, all renamings which keep the order, all data",
  "relates two histories; over all renamings",
  [FO+":ForestClassifier._encode_y", FO+":ForestBase.fit", FO+":ForestClassifier.predict", FO+":ForestClassifier.predict_proba"])

p("The unit of the labels does not matter for regression",
  "If the labels y of a regression are replaced by a * y + b with a > 0 (another unit), and the aggregation step is divided by a * a (the square loss is multiplied by a * a), then fit ends in the same way, and each prediction p becomes a * p + b; the leaves of the rows (apply) and the average depths are the same. When b is added only (a = 1), no parameter has to change. Without aggregation the step is not used and does not have to change. If a column is categorical, this is for b = 0 and a sort of the bins which depends on comparisons only. (Refuted: adding a constant to the labels when a column is categorical changes the trees, because the bins are sorted by the sum of their labels.)",
  "all tables, labels, weights, parameters, random draws, all a > 0 and all b, all tables given to the methods, all orders of the workers",
  "relates the runs on two lists of labels, over all units",
  [FO+":ForestRegressor.fit", FO+":ForestRegressor.predict", FO+":ForestBase.apply", "wildwood/_split.py:find_best_split_regressor_along_feature", "wildwood/_node.py:compute_node_regressor_context", "wildwood/_impurity.py:mse_childs"])

p("Only the ratios of the sample weights matter",
  "If all the weights given to fit are multiplied by the same k > 0, and the aggregation step is divided by k and, for a classifier, dirichlet is multiplied by k, then fit ends in the same way, and the predictions, the probabilities (of the forest and of each tree), the classes and the leaves of the rows are the same; for a regressor the average depths too. Without aggregation the step does not have to change. Not giving weights is the same as giving ones. For a regressor with a categorical column, this is for a sort of the bins which depends on comparisons only. (Refuted if dirichlet is not changed: doubling all the weights changes the probabilities.)",
  "all tables, labels, weights, parameters, random draws, all k > 0, all tables given to the methods, all orders of the workers",
  "relates the runs on two lists of weights, over all factors",
  [FO+":ForestClassifier.fit", FO+":ForestRegressor.fit", FO+":ForestBase.fit", FO+":ForestClassifier.predict_proba", FO+":ForestRegressor.predict", "wildwood/_node.py:compute_node_classifier_context", "wildwood/_impurity.py:gini_childs", "wildwood/_impurity.py:information_gain_proxy"])

p("Every split separates rows that differ",
  "In every tree of a fitted forest, a node that is split uses a column in which two of the rows drawn for this tree that reach the node have different values (or one is missing and the other is not); with aggregation, two of the rows left out that reach it do too. In particular a column whose values are all equal, or all missing, is never used.",
  "all tables, labels, weights, legal parameters, random draws, all nodes of all the trees",
  "over all tables and parameters, for every node of every tree",
  [FO+":ForestBase.fit", "wildwood/_split.py:find_best_split_classifier_along_feature", "wildwood/_split.py:find_best_split_regressor_along_feature", "wildwood/_grow.py:grow", "wildwood/preprocessing/encoder.py:Encoder.transform"])

p("A large step selects the prunings that predict the rows left out best",
  "With aggregation and a non-negative step, take any pruning of a tree and any delta > 0. The prunings whose loss on the rows left out is larger by delta or more have together a share of at most exp(-step * delta) / prior of the weight, where the prior of the pruning is 1/2 to the power of the number of its nodes which have children in the tree. The prediction of the tree for any row is in the range of the predictions of the other prunings, up to this share of the range of all predictions.",
  "all fits of trees, all steps, all prunings, all rows of new data",
  "an inequality about sums over exponentially many prunings, over all data",
  ["wildwood/_grow.py:compute_tree_weights", "wildwood/_tree.py:tree_regressor_predict", "wildwood/_tree.py:tree_classifier_predict_proba", FO+":ForestBase.step"])

out = os.path.join(os.path.dirname(os.path.abspath(__file__)), "..", "properties.jsonl")
with open(out, "w") as f:
    for q in P:
        f.write(json.dumps(q) + "\n")
print(len(P))
