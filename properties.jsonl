{"id": "C01", "title": "Packing a matrix of bins and unpacking it is lossless", "statement": "features_bitarray_to_array(array_to_bitarray(X)) has the same shape and the same values as X, although every column is packed with its own number of bits into shared 64-bit words; get_value(fb, i, j) returns X[i, j].", "quantifier": "every number of rows >= 1, every number of columns >= 1, every unsigned matrix X (each column with its own maximum), every cell (i, j)", "why_tests_cant": "the packing position depends on the row index modulo a column-dependent number of values per word; no finite list of sizes covers all of these combinations", "anchors": ["wildwood/preprocessing/features_bitarray.py:FeaturesBitArray.__init__", "wildwood/preprocessing/features_bitarray.py:_features_bitarray_fill_column", "wildwood/preprocessing/features_bitarray.py:get_value_from_column", "wildwood/preprocessing/features_bitarray.py:array_to_bitarray", "wildwood/preprocessing/features_bitarray.py:features_bitarray_to_array", "wildwood/preprocessing/features_bitarray.py:get_value"]}
{"id": "C02", "title": "Writing one packed column never changes another", "statement": "features_bitarray_fill_column(fb, j, col) makes column j read back as col and leaves every cell of every other column readable with its previous value, whatever the order in which columns are filled, and it never touches memory outside the words of column j.", "quantifier": "every bitarray layout, every column j, every col whose values are at most max_values[j], every history of earlier fills", "why_tests_cant": "interference would only show for particular bit widths and lengths and for particular orders of fills", "anchors": ["wildwood/preprocessing/features_bitarray.py:features_bitarray_fill_column", "wildwood/preprocessing/features_bitarray.py:_features_bitarray_fill_column", "wildwood/preprocessing/features_bitarray.py:FeaturesBitArray.__init__"]}
{"id": "C03", "title": "Binning is exactly the interval lookup", "statement": "A non-missing value x of a continuous column is put in bin i if and only if thresholds[i-1] < x <= thresholds[i] (with -inf and +inf at both ends), so binning is monotone in x and never exceeds the number of thresholds; a missing value is put in a bin of its own that no non-missing value uses.", "quantifier": "every sorted list of thresholds of any length (possibly with repetitions, possibly empty) and every value x", "why_tests_cant": "binary-search off-by-one errors only appear for particular lengths and particular positions of x", "anchors": ["wildwood/preprocessing/_binning.py:_bin_continuous_column", "wildwood/preprocessing/encoder.py:Encoder.transform"]}
{"id": "C04", "title": "Binning thresholds are sorted and there are at most max_bins bins", "statement": "The thresholds computed by Encoder.fit for a continuous column are sorted, never exceed 1e300, and there are min(max_bins, number of distinct values) - 1 of them, so that a column never uses more than max_bins bins besides the missing-values bin.", "quantifier": "every column of values (any length, any repetitions, any missing values) and every max_bins >= 3", "why_tests_cant": "depends on all possible multisets of values", "anchors": ["wildwood/preprocessing/_binning.py:_find_binning_thresholds", "wildwood/preprocessing/encoder.py:Encoder.fit"]}
{"id": "C05", "title": "Distinct values are not merged when they fit in max_bins", "statement": "If a continuous column has at most max_bins distinct values then two different values of the column are put in two different bins (for values not above 1e300, in exact arithmetic; with IEEE doubles two consecutive floats can be merged, which is exhibited).", "quantifier": "every column with at most max_bins distinct values", "why_tests_cant": "quantifies over all value sets, including adjacent floating point numbers", "anchors": ["wildwood/preprocessing/_binning.py:_find_binning_thresholds", "wildwood/preprocessing/_binning.py:_bin_continuous_column"]}
{"id": "C06", "title": "Categories are encoded injectively, missing and unknown ones apart", "statement": "For a categorical column, Encoder.transform maps a category known at fit to its rank among the fitted categories, maps missing and unknown values to the extra bin (the number of fitted categories), and hence two different known categories never share a bin and never share it with missing or unknown values.", "quantifier": "every list of distinct fitted categories and every column passed to transform", "why_tests_cant": "quantifies over all sets of categories at fit and at transform time", "anchors": ["wildwood/preprocessing/encoder.py:Encoder.transform"]}
{"id": "C07", "title": "Encoded bins always fit in the packed representation", "statement": "Every bin written by Encoder.transform in column j is at most the max_values[j] used to choose the number of bits, so that what the trees read back for sample i and feature j is exactly the bin of X[i, j] (column names being distinct).", "quantifier": "every fitted encoder and every matrix or dataframe passed to transform", "why_tests_cant": "an overflow would silently corrupt neighbouring samples only for particular counts of bins (powers of two) and particular positions of missing values", "anchors": ["wildwood/preprocessing/encoder.py:Encoder.transform", "wildwood/preprocessing/features_bitarray.py:FeaturesBitArray"]}
{"id": "C08", "title": "handle_unknown decides between an error and the missing bin", "statement": "transform raises ValueError if handle_unknown is 'error' and some categorical column declares a category that was not seen at fit; with 'consider_missing' it never raises for that reason and unknown values get the missing bin.", "quantifier": "every fitted encoder, every transform input, both values of handle_unknown", "why_tests_cant": "quantifies over all pairs of category sets", "anchors": ["wildwood/preprocessing/encoder.py:Encoder.transform"]}
{"id": "C09", "title": "inverse_transform undoes transform", "statement": "inverse_transform(transform(X)) returns, for each cell, the original category (categorical columns), an interval closed on the right that contains the original value (continuous columns), and NaN exactly for the cells that were missing or unknown.", "quantifier": "every fitted encoder and every X", "why_tests_cant": "round trip over all inputs", "anchors": ["wildwood/preprocessing/encoder.py:Encoder.inverse_transform", "wildwood/preprocessing/encoder.py:Encoder.transform"]}
{"id": "C10", "title": "Columns keep their position whatever their names", "statement": "Column j of the encoded data is the encoding of column j of the input dataframe. This holds when column names are distinct and is false when two columns share a name.", "quantifier": "every list of named columns", "why_tests_cant": "needs all possible name collisions", "anchors": ["wildwood/preprocessing/encoder.py:Encoder.fit", "wildwood/preprocessing/encoder.py:Encoder.transform", "wildwood/preprocessing/_checks.py:check_X"]}
{"id": "C11", "title": "Which columns are treated as categorical", "statement": "For each column the decision (categorical or continuous) is the documented one: a flag given by the user is obeyed for numeric columns, non-numeric columns are categorical, unflagged numeric columns are categorical exactly when they have at most cat_min_categories distinct values; an invalid specification raises ValueError instead of being ignored.", "quantifier": "every dtype kind, every number of distinct values, every user specification (None, mask, indices)", "why_tests_cant": "decision table over an unbounded set of counts and index lists", "anchors": ["wildwood/preprocessing/_checks.py:is_series_categorical", "wildwood/preprocessing/_checks.py:get_array_dtypes", "wildwood/preprocessing/_checks.py:get_is_categorical"]}
{"id": "C12", "title": "The user-declared categorical features are the ones used", "statement": "The columns declared categorical by the user, through the constructor or through fit, are the ones used by the fit. (Refuted: the value given to the constructor is ignored.)", "quantifier": "every value of the constructor argument and of the fit argument", "why_tests_cant": "all combinations of the two arguments", "anchors": ["wildwood/forest.py:ForestBase.fit", "wildwood/preprocessing/_checks.py:get_is_categorical"]}
{"id": "C13", "title": "Feature subsampling draws distinct features", "statement": "At each node the tried features are max_features pairwise distinct column indices, and all columns are tried when max_features equals n_features.", "quantifier": "every stream of random draws, every n_features, every max_features <= n_features", "why_tests_cant": "over all outcomes of the random generator", "anchors": ["wildwood/_utils.py:sample_without_replacement", "wildwood/_node.py:init_node_context", "wildwood/_node.py:compute_node_classifier_context"]}
{"id": "C14", "title": "Bootstrap and out-of-bag samples partition the data", "statement": "For each tree, training and validation indices are disjoint, cover all the samples, are both non-empty, and the bootstrap counts (which multiply the sample weights) are positive on the training samples and add up to n_samples.", "quantifier": "every random generator, every n_samples, every seed, whenever the drawing procedure returns", "why_tests_cant": "over all outcomes of the random generator", "anchors": ["wildwood/forest.py:_generate_train_valid_samples", "wildwood/forest.py:_parallel_build_trees"]}
{"id": "C15", "title": "The bootstrap procedure terminates", "statement": "Drawing the bootstrap sample returns as soon as some draw leaves a sample out. With a single training sample no draw ever does, whatever the generator, and the call ends with a RecursionError.", "quantifier": "every random generator and every number of retries", "why_tests_cant": "non-termination cannot be observed by a test", "anchors": ["wildwood/forest.py:_generate_train_valid_samples"]}
{"id": "C16", "title": "The number of tried features is valid", "statement": "After fit, max_features_ is an integer between 1 and n_features, or fit raised ValueError, for every accepted value of max_features.", "quantifier": "every n_features >= 1 and every max_features (None, 'auto', 'sqrt', 'log2', integers, real numbers)", "why_tests_cant": "all pairs of values including rounding at the boundaries", "anchors": ["wildwood/forest.py:ForestBase._get_max_features_", "wildwood/forest.py:ForestBase.max_features"]}
{"id": "C17", "title": "Node statistics are exactly those of the node's samples", "statement": "The counts, total weight, per-bin statistics, prediction and validation loss computed at a node are the ones of the training and validation samples of that node and of no other sample: the prediction is the (Dirichlet-smoothed) weighted class frequency or the weighted mean, the loss is the weighted log or squared loss on the validation samples.", "quantifier": "every data set, every node, every set of tried features", "why_tests_cant": "quantifies over all data sets and nodes", "anchors": ["wildwood/_node.py:compute_node_classifier_context", "wildwood/_node.py:compute_node_regressor_context"]}
{"id": "C18", "title": "The split found is the best admissible one", "statement": "Among all thresholds of all tried features (for categorical features, along each tried ordering) that leave at least min_samples_leaf training samples (and validation samples when aggregation is used) on both sides, the split chosen has the largest gain; a split is found as soon as one admissible threshold has a comparable gain. In particular the early exit of the scan loses nothing.", "quantifier": "every histogram, every ordering of bins, every min_samples_leaf", "why_tests_cant": "optimality over all candidates for all data", "anchors": ["wildwood/_split.py:find_node_split", "wildwood/_split.py:try_feature_order_for_classifier_split", "wildwood/_split.py:find_best_split_classifier_along_feature", "wildwood/_split.py:find_best_split_regressor_along_feature"]}
{"id": "C19", "title": "min_samples_leaf is respected", "statement": "Every node of a grown tree except the root has at least min_samples_leaf training samples, and also at least min_samples_leaf validation samples when aggregation is used.", "quantifier": "every data set, every hyper-parameters, every random draw", "why_tests_cant": "over all trees that can be grown", "anchors": ["wildwood/_split.py:try_feature_order_for_classifier_split", "wildwood/_split.py:find_best_split_regressor_along_feature", "wildwood/_grow.py:grow"]}
{"id": "C20", "title": "Gain ordering is information gain ordering, impurities are the textbook ones", "statement": "Gini and entropy impurities are those of the weighted class frequencies, mse is the weighted variance; they are non-negative and vanish exactly on pure sets; comparing candidate splits of a node with the gain used in the scan orders them as their information gain does, and the information gain is non-negative.", "quantifier": "every non-negative weights and counts, every pair of splits", "why_tests_cant": "universally quantified real inequalities", "anchors": ["wildwood/_impurity.py:gini_node", "wildwood/_impurity.py:gini_childs", "wildwood/_impurity.py:entropy_node", "wildwood/_impurity.py:entropy_childs", "wildwood/_impurity.py:mse_node", "wildwood/_impurity.py:mse_childs", "wildwood/_impurity.py:information_gain", "wildwood/_impurity.py:information_gain_proxy"]}
{"id": "C21", "title": "Splitting a node is a stable partition in place", "statement": "split_indices rearranges the training (validation) samples of the node so that the samples going left come first, each side keeping its order; it is a permutation inside the node's slice, it leaves every position outside of the slice unchanged, and the sample counts announced by the chosen split are the sizes of the two sides.", "quantifier": "every partition array, every slice, every split", "why_tests_cant": "over all arrays and slices", "anchors": ["wildwood/_split.py:split_indices"]}
{"id": "C22", "title": "Categorical partitions are tested exactly", "statement": "At prediction time a sample goes left at a categorical split if and only if its bin belongs to the set of bins that was chosen for the left child; bins that were not seen at fit go right.", "quantifier": "every non-empty sorted set of bins and every bin", "why_tests_cant": "binary search over all sizes", "anchors": ["wildwood/_split.py:is_bin_in_partition", "wildwood/_split.py:compute_bin_partition", "wildwood/_tree.py:find_leaf"]}
{"id": "C23", "title": "Categorical splits are globally optimal for binary classification", "statement": "For two classes, the best split along the ordering of the bins by class proportion has a gain at least as large as the gain of any of the 2^k subsets of the k categories (Gini). The analogous claim made in the documentation for regression is false of the code, which sorts the bins by label sum and not by label mean.", "quantifier": "every table of weights per category and class, every subset of categories", "why_tests_cant": "2^k subsets for every k", "anchors": ["wildwood/_split.py:find_best_split_classifier_along_feature", "wildwood/_split.py:find_best_split_regressor_along_feature"]}
{"id": "C24", "title": "Growing terminates and the tree is small", "statement": "fit terminates for every data set and every random draw, and a grown tree has at most 2 * n_train - 1 nodes, where n_train is the number of training samples of the tree.", "quantifier": "every data set, hyper-parameters and random draws", "why_tests_cant": "termination of an unbounded loop", "anchors": ["wildwood/_grow.py:grow"]}
{"id": "C25", "title": "Grown trees are well-formed binary trees", "statement": "The nodes array of a grown tree encodes a single rooted binary tree: node 0 is the root, every other node is the left or the right child of exactly one node, the parent field is the inverse of the child fields, a child has a larger identifier and depth one more than its parent, and the number of nodes is twice the number of leaves minus one.", "quantifier": "every grown tree", "why_tests_cant": "invariant of an unbounded construction", "anchors": ["wildwood/_grow.py:grow", "wildwood/_tree.py:add_node_tree"]}
{"id": "C26", "title": "Depth and minimum size limits are respected", "statement": "No node is deeper than max_depth, and a node that was split has at least min_samples_split training samples (and validation samples when aggregation is used) and non-zero impurity.", "quantifier": "every grown tree", "why_tests_cant": "invariant of an unbounded construction", "anchors": ["wildwood/_grow.py:grow"]}
{"id": "C27", "title": "No array access is out of bounds", "statement": "Growing a tree and predicting with it never index an array outside of its bounds (bounds checks are switched off in the compiled code), including when the arrays that hold nodes, records and category partitions are reallocated.", "quantifier": "every data set accepted by fit, every random draw, every reallocation point", "why_tests_cant": "with bounds checks off an out-of-bounds access is silent", "anchors": ["wildwood/_grow.py:grow", "wildwood/_tree.py:add_node_tree", "wildwood/_tree.py:resize_tree", "wildwood/_split.py:split_indices", "wildwood/_node.py:compute_node_classifier_context"]}
{"id": "C28", "title": "Training samples are routed to the leaf that holds them", "statement": "For a sample used to train (or validate) a tree, apply returns a leaf whose slice of the partition contains that sample; hence the leaves partition the training samples, and each leaf has as many training samples reaching it as its n_samples_train field says.", "quantifier": "every grown tree and every training or validation sample", "why_tests_cant": "agreement of two independent implementations of routing on all trees", "anchors": ["wildwood/_tree.py:find_leaf", "wildwood/_tree.py:tree_apply", "wildwood/_split.py:split_indices", "wildwood/_grow.py:grow"]}
{"id": "C29", "title": "Prediction always reaches a leaf", "statement": "For every grown tree and every row of bins, including bins never seen at fit, the walk down the tree terminates in a leaf of the tree, and the walk up from that leaf terminates at the root and visits exactly the ancestors of the leaf.", "quantifier": "every grown tree and every row", "why_tests_cant": "termination of an unbounded loop for all inputs", "anchors": ["wildwood/_tree.py:find_leaf", "wildwood/_tree.py:tree_classifier_predict_proba", "wildwood/_tree.py:tree_regressor_predict"]}
{"id": "C30", "title": "Pending nodes are processed exactly once", "statement": "The stack of nodes to be processed gives back exactly the records that were pushed, last in first out, across any number of reallocations of its storage.", "quantifier": "every history of pushes and pops", "why_tests_cant": "all histories and all reallocation points", "anchors": ["wildwood/_grow.py:Records", "wildwood/_grow.py:push_record", "wildwood/_grow.py:pop_node_record", "wildwood/_grow.py:has_records"]}
{"id": "C31", "title": "log_sum_2_exp is exact and safe", "statement": "log_sum_2_exp(a, b) equals log((exp(a) + exp(b)) / 2), is symmetric, lies between max(a, b) - log 2 and max(a, b), and only ever exponentiates non-positive numbers.", "quantifier": "all real numbers a, b", "why_tests_cant": "universally quantified real identity", "anchors": ["wildwood/_utils.py:log_sum_2_exp"]}
{"id": "C32", "title": "Node weights aggregate all prunings", "statement": "The tree weight stored at a node is the logarithm of the sum, over all prunings of the subtree rooted there, of the prior of the pruning times exp(-step * validation loss of the pruning).", "quantifier": "every grown tree, every losses, every step", "why_tests_cant": "number of prunings is doubly exponential in the depth", "anchors": ["wildwood/_grow.py:compute_tree_weights", "wildwood/_utils.py:log_sum_2_exp"]}
{"id": "C33", "title": "Aggregated predictions are the exponentially weighted average over all prunings", "statement": "With aggregation, the prediction of a tree for x is exactly the average, over all prunings of the tree, of the prediction of the pruning at x, weighted by the prior times exp(-step * validation loss): the recursion along one root-to-leaf path computes it exactly.", "quantifier": "every grown tree, every x, every step", "why_tests_cant": "number of prunings is doubly exponential in the depth", "anchors": ["wildwood/_tree.py:tree_classifier_predict_proba", "wildwood/_tree.py:tree_regressor_predict", "wildwood/_grow.py:compute_tree_weights"]}
{"id": "C34", "title": "Predicted probabilities are probabilities", "statement": "predict_proba returns non-negative numbers that sum to one for every row, for single trees and for forests, with and without aggregation, in multinomial and in one-versus-rest mode (including when all one-versus-rest scores vanish). This holds in exact arithmetic; in single precision a probability can be negative with aggregation, which is exhibited.", "quantifier": "every fitted forest with positive dirichlet or positive weights, every row", "why_tests_cant": "over all models and inputs", "anchors": ["wildwood/_tree.py:tree_classifier_predict_proba", "wildwood/forest.py:ForestClassifier.predict_proba"]}
{"id": "C35", "title": "Regression predictions stay within the range of the training labels", "statement": "ForestRegressor.predict returns values between the smallest and the largest training label, with and without aggregation. This holds in exact arithmetic; in single precision a prediction can leave the range with aggregation, which is exhibited.", "quantifier": "every fitted regression forest with positive sample weights, every row", "why_tests_cant": "over all models and inputs", "anchors": ["wildwood/_tree.py:tree_regressor_predict", "wildwood/forest.py:ForestRegressor.predict"]}
{"id": "C36", "title": "The weighted depth lies between zero and the depth of the leaf", "statement": "The weighted depth computed for x is between 0 and the depth of the leaf that contains x, and is the average depth of the pruned leaf containing x over all prunings.", "quantifier": "every grown regression tree and every x", "why_tests_cant": "over all trees and inputs", "anchors": ["wildwood/_tree.py:tree_regressor_weighted_depth"]}
{"id": "C37", "title": "Changing step after fit is the same as refitting with it", "statement": "Setting the step of a fitted forest gives the same trees and predictions as fitting with that step in the first place.", "quantifier": "every fitted forest, every pair of steps, every sequence of settings", "why_tests_cant": "over all models and histories of settings", "anchors": ["wildwood/tree.py:TreeBase.step", "wildwood/_grow.py:compute_tree_weights", "wildwood/forest.py:ForestBase.step"]}
{"id": "C38", "title": "Changing dirichlet after fit is the same as refitting with it", "statement": "Setting dirichlet on a fitted classifier with aggregation gives the same tree structure, node predictions, losses and weights as fitting with that value in the first place.", "quantifier": "every fitted classifier, every pair of positive values", "why_tests_cant": "over all models and histories of settings", "anchors": ["wildwood/tree.py:TreeClassifier.dirichlet", "wildwood/_grow.py:recompute_node_predictions", "wildwood/forest.py:ForestClassifier.dirichlet"]}
{"id": "C39", "title": "Predictions do not depend on the thread schedule", "statement": "predict_proba and predict add the contributions of the trees under a lock, so for every interleaving of the worker threads the result is the sum over trees; apply and predict_proba_trees write disjoint rows, so their result is the same for every schedule. (In floating point the sum depends on the order, which is exhibited.)", "quantifier": "every number of trees, every number of threads, every interleaving", "why_tests_cant": "tests see a handful of schedules", "anchors": ["wildwood/forest.py:_accumulate_prediction", "wildwood/forest.py:ForestBase.apply", "wildwood/forest.py:ForestClassifier.predict_proba", "wildwood/forest.py:ForestRegressor.predict"]}
{"id": "C40", "title": "The predicted class is an arg max", "statement": "predict returns, for each row, an element of classes_ whose probability is the largest, the first one in case of ties.", "quantifier": "every probability matrix and classes list", "why_tests_cant": "over all outputs", "anchors": ["wildwood/forest.py:ForestClassifier.predict"]}
{"id": "C41", "title": "One-versus-rest trees of one class use different seeds", "statement": "In one-versus-rest mode the n_estimators trees of a class are grown with the n_estimators different seeds, and the k-th trees of all classes share a seed. (Refuted: seeds are repeated in the wrong order and several trees of one class are identical.)", "quantifier": "every n_estimators, every n_classes", "why_tests_cant": "all pairs of sizes", "anchors": ["wildwood/forest.py:ForestBase.fit", "wildwood/forest.py:ForestBase._generate_random_states"]}
{"id": "C42", "title": "Parameters are validated and frozen", "statement": "An invalid hyper-parameter raises ValueError and leaves the estimator unchanged, a valid one is stored, and n_estimators, random_state and multiclass cannot change once the forest is fitted, whatever the sequence of calls. (False for random_state, whose invalid values are silently dropped.)", "quantifier": "every sequence of setter calls with every Python value", "why_tests_cant": "all histories of setter calls", "anchors": ["wildwood/forest.py:ForestBase", "wildwood/forest.py:ForestClassifier"]}
{"id": "C43", "title": "lighten keeps predictions", "statement": "After lighten(), predict, predict_proba and apply return the same values as before.", "quantifier": "every fitted forest, every input", "why_tests_cant": "over all models", "anchors": ["wildwood/tree.py:TreeBase.lighten", "wildwood/forest.py:ForestBase.lighten"]}
{"id": "C44", "title": "A lightened forest can still be reconfigured or pickled", "statement": "After lighten(), setting step or dirichlet and pickling still work or raise without changing the forest. (Refuted: the setter fails half-way, leaving a step that does not match the stored weights; the pickled forest cannot be loaded.)", "quantifier": "every sequence of fit, lighten, step, dirichlet, pickle", "why_tests_cant": "all histories of calls", "anchors": ["wildwood/tree.py:TreeBase.lighten", "wildwood/tree.py:TreeBase.step", "wildwood/tree.py:serialize", "wildwood/tree.py:unserialize"]}
{"id": "C45", "title": "Pickling a fitted forest is faithful", "statement": "Unpickling a pickled fitted tree gives a tree with the same nodes, partitions, predictions and context, hence the same predictions and the same behaviour of the step and dirichlet setters.", "quantifier": "every fitted (not lightened) tree", "why_tests_cant": "over all models", "anchors": ["wildwood/tree.py:serialize", "wildwood/tree.py:unserialize", "wildwood/forest.py:ForestBase.__getstate__"]}
{"id": "C46", "title": "Changing aggregation after fit takes effect", "statement": "Setting aggregation on a fitted forest changes the predictions accordingly. (Refuted: trees keep the value used at fit; and dirichlet can be set to 0 after fit although fit rejects 0 with aggregation.)", "quantifier": "every fitted forest and every sequence of setter calls", "why_tests_cant": "all histories of calls", "anchors": ["wildwood/forest.py:ForestBase.aggregation", "wildwood/forest.py:ForestClassifier.dirichlet", "wildwood/tree.py:TreeClassifier"]}
{"id": "C47", "title": "Integer weights behave like repeated rows", "statement": "Giving weight k to a training or validation sample has the same effect on node predictions, impurities, losses and weights as repeating it k times. (At the level of the minimum sample counts it is false, since these count rows.)", "quantifier": "every node and every vector of positive integer weights", "why_tests_cant": "over all data and weights", "anchors": ["wildwood/_node.py:compute_node_classifier_context", "wildwood/_node.py:compute_node_regressor_context", "wildwood/forest.py:ForestBase.fit"]}
{"id": "C48", "title": "Fit does not fail on positive weights", "statement": "With strictly positive sample weights growing a tree raises no error (in exact arithmetic); with zero weights, or with weights of very different magnitudes in single precision, it raises ZeroDivisionError, which is exhibited.", "quantifier": "every data set, every positive weights", "why_tests_cant": "over all weights", "anchors": ["wildwood/_impurity.py:gini_childs", "wildwood/_impurity.py:mse_childs", "wildwood/_node.py:compute_node_regressor_context", "wildwood/_grow.py:grow"]}
{"id": "C49", "title": "Fits are reproducible", "statement": "Two fits with the same random_state and the same data give the same trees, whatever the number of threads and the schedule, since each tree seeds the generator of its own thread before drawing.", "quantifier": "every seed, every number of threads, every assignment of trees to threads and interleaving", "why_tests_cant": "tests see a handful of schedules", "anchors": ["wildwood/forest.py:_parallel_build_trees", "wildwood/forest.py:ForestBase._generate_random_states", "wildwood/_tree.py:_TreeClassifier"]}
{"id": "C50", "title": "Tree introspection tells the truth", "statement": "get_depth is the depth of the tree and the is_left column of the nodes tells left from right children. (Refuted: the depth is always 0 and is_left is never set.) get_actual_depth is the greatest distance from the root to a leaf, and the path listed for a sample is its route.", "quantifier": "every grown tree", "why_tests_cant": "over all trees", "anchors": ["wildwood/tree.py:TreeBase.get_depth", "wildwood/_tree.py:add_node_tree"]}
{"id": "C51", "title": "fit leaves the caller's arrays alone", "statement": "fit does not modify the sample_weight array passed by the caller, so that fitting twice with the same arguments gives the same weights. (Refuted for float32 arrays when class_weight is used.)", "quantifier": "every sequence of fits with every sample_weight and class_weight", "why_tests_cant": "aliasing only shows for some dtypes", "anchors": ["wildwood/forest.py:ForestBase.fit", "wildwood/forest.py:_parallel_build_trees"]}
{"id": "C52", "title": "A fit that raises leaves the forest as it was", "statement": "When fit raises an exception on a fitted forest, the forest goes on predicting what it predicted before. (Refuted: the trees are kept but the class labels are replaced before the checks, so the forest predicts labels it was never fitted with.)", "quantifier": "every fitted forest, every failing call of fit", "why_tests_cant": "over all failure points", "anchors": ["wildwood/forest.py:ForestBase.fit", "wildwood/forest.py:ForestClassifier._encode_y"]}
{"id": "C53", "title": "Class labels are the sorted distinct labels", "statement": "After fit, classes_ lists the distinct labels of y in increasing order, and the column k of predict_proba is for classes_[k]: the code used for the training of each sample is the position of its label.", "quantifier": "every list of labels of a totally ordered type", "why_tests_cant": "over all label vectors", "anchors": ["wildwood/forest.py:ForestClassifier._encode_y", "wildwood/forest.py:ForestClassifier.predict"]}
{"id": "C54", "title": "Balanced class weights balance the classes", "statement": "class_weight='balanced' gives every class present the same total weight n_samples / n_classes, and fitting with it is the same as fitting with the sample weights multiplied by the class weights.", "quantifier": "every list of labels and every sample weights", "why_tests_cant": "over all label vectors", "anchors": ["wildwood/forest.py:ForestBase.fit", "wildwood/forest.py:_parallel_build_trees"]}
{"id": "C55", "title": "Encodings are reproducible", "statement": "Two fits of forests with the same random_state and the same data bin the features in the same way. (True up to `subsample` rows; refuted above, where the rows used to compute the bins are drawn by numpy's global generator.)", "quantifier": "every table, every number of rows, every state of the generators", "why_tests_cant": "needs tables with more than 200000 rows and control over the global generator", "anchors": ["wildwood/forest.py:ForestBase.fit", "wildwood/preprocessing/encoder.py:Encoder.fit"]}
{"id": "C56", "title": "An Encoder.fit that raises leaves the encoder as it was", "statement": "When Encoder.fit raises an exception on a fitted encoder, the encoder goes on encoding what it encoded before. (Refuted: the number of features of the refused data has replaced the one of the previous fit.)", "quantifier": "every fitted encoder, every failing call of fit", "why_tests_cant": "over all failure points", "anchors": ["wildwood/preprocessing/encoder.py:Encoder.fit", "wildwood/preprocessing/encoder.py:Encoder.transform"]}
{"id": "C57", "title": "Copying a forest by its parameters", "statement": "sklearn's clone of a forest, at any point of its life, is a new forest with the same parameters that learned nothing; a forest that was only configured is equal to its copy; a copy fitted on the same data is the same fitted forest; setting parameters to the values read from get_params changes nothing before fit. (Refuted when random_state is not None or a non-negative int: get_params raises; and a one-versus-rest forest fitted on two classes has changed its multiclass parameter, so its copy has another value than the one given.)", "quantifier": "every sequence of constructor call, attribute assignments, fits and lightenings", "why_tests_cant": "over all histories and all parameter values", "anchors": ["wildwood/forest.py:ForestBase.__init__", "wildwood/forest.py:ForestClassifier.__init__", "wildwood/forest.py:ForestRegressor.__init__", "wildwood/forest.py:ForestBase.random_state", "wildwood/forest.py:ForestClassifier._encode_y"]}
{"id": "C58", "title": "The drawing of a tree", "statement": "plot_tree draws every node of a fitted tree at its own place inside of the frame; a child is one line below its parent and its segment ends at its parent; what is below the left child is on the left of its parent and what is below the right child on its right. Nodes deeper than max_depth are not drawn. (The last sentence is refuted: the argument is not used.)", "quantifier": "every fitted tree, of any depth and shape", "why_tests_cant": "over all trees", "anchors": ["wildwood/plot.py:_compute_display_tree", "wildwood/plot.py:plot_tree", "wildwood/forest.py:ForestBase.get_nodes"]}
{"id": "C59", "title": "Extracting a dataset partitions the rows", "statement": "Dataset.extract puts each row of the file in exactly one of the training set and the test set, with its own label at the same position; and all that is learned (scaling, categories, classes, column names) is learned from the training rows only: two files with the same training rows give the same training matrix, and the same row is transformed in the same way in both, whether it is in the training set or in the test set. (A class that no training row has makes extract raise.)", "quantifier": "every file, every configuration, every random state and every way to split", "why_tests_cant": "over all files and all splits", "anchors": ["wildwood/datasets/dataset.py:Dataset.extract", "wildwood/datasets/dataset.py:Dataset._build_transform"]}
{"id": "C60", "title": "The columns of an extracted dataset have the right names", "statement": "The columns_ of an extracted dataset describe its matrices: column j contains the values of the column named columns_[j], scaled or encoded as documented, and categorical_mask_ says which columns are categorical. (Proved when the lists given to the constructor are the columns of the file in its order. Refuted otherwise: for the bundled Boston dataset, the first column is called crim and contains zn, and there are more columns than names; with drop='first' there are more names than columns; pd_df_categories raises with one-hot encoding or a missing category.)", "quantifier": "every file and every configuration", "why_tests_cant": "over all files and configurations", "anchors": ["wildwood/datasets/dataset.py:Dataset.extract", "wildwood/datasets/dataset.py:Dataset._build_transform", "wildwood/datasets/loaders.py:load_boston"]}
{"id": "C61", "title": "The labels of a dataset are not among its features", "statement": "The matrices of an extracted dataset do not depend on the column of the labels, given the choice of the rows: files that only differ in their labels give the same matrices. load_raw_dataset separates the labels from the unchanged other columns. (from_dtype with the label among the types puts the labels in the matrices.)", "quantifier": "every file and configuration", "why_tests_cant": "non-interference: over all pairs of files", "anchors": ["wildwood/datasets/dataset.py:Dataset.extract", "wildwood/datasets/dataset.py:Dataset.from_dtype", "wildwood/datasets/dataset.py:get_X_y_from_dataframe", "wildwood/datasets/dataset.py:load_raw_dataset"]}
{"id": "C62", "title": "The trees of a forest describe the user's data", "statement": "After fit, each tree was trained on the user's rows: its training rows are n draws with replacement from the n rows given, its validation rows the others; the weight of a row is the user's, times the class balancing, times how often it was drawn; its labels are the positions of the user's labels among classes_ (or 1 for the class of the tree and 0 for the others, with multiclass='ovr'); and every node counts exactly the rows that pass through it, predicts their smoothed class frequencies (or their mean) and holds the loss of this prediction on the validation rows. The limits max_depth, min_samples_split and min_samples_leaf given by the user hold in every tree.", "quantifier": "every table, labels, weights, configuration and random state; every tree and every node", "why_tests_cant": "over all data, all forests and all nodes", "anchors": ["wildwood/forest.py:ForestBase.fit", "wildwood/forest.py:_parallel_build_trees", "wildwood/forest.py:_generate_train_valid_samples", "wildwood/forest.py:ForestClassifier._encode_y"]}
{"id": "C63", "title": "The predictions of a forest are averages of those of its trees", "statement": "predict_proba of a forest is, for each class, the sum of what predict_proba_trees gives divided by the number of trees (with multiclass='ovr': the sum over the trees of this class, divided by the total over the classes, or uniform if the total is too small); predict of a regressor is the sum of the predictions of the trees divided by their number. In exact arithmetic it is the mean, whatever the order in which the threads add.", "quantifier": "every forest, every table, every order of the threads", "why_tests_cant": "over all forests and schedules", "anchors": ["wildwood/forest.py:ForestClassifier.predict_proba", "wildwood/forest.py:ForestClassifier.predict_proba_trees", "wildwood/forest.py:ForestRegressor.predict"]}
{"id": "C64", "title": "The scaled Gini index of a dataset", "statement": "scaled_gini_ of an extracted classification dataset is the proportion of pairs of rows with different labels, divided by its largest possible value for this number of classes; it is between 0 and 1, and it is 1 exactly when the classes have equal sizes. compute_gini is the proportion of pairs with different labels. (With one class scaled_gini_ is NaN.)", "quantifier": "every file with labels, every split", "why_tests_cant": "over all label columns; a number which a reader trusts without recomputing it", "anchors": ["wildwood/datasets/dataset.py:scaled_gini", "wildwood/datasets/dataset.py:gini", "wildwood/datasets/dataset.py:Dataset.extract", "wildwood/datasets/dataset.py:Dataset.compute_gini"]}
{"id": "C65", "title": "Artificial signals", "statement": "get_signal gives Donoho's signal of this name after an increasing affine change of unit: its values are in [0, 1], and 0 and 1 are attained. make_regression gives sorted inputs, one per row, and the label of a row is the signal at its input plus the noise; with a seed its result does not depend on the state of the generator. (Refuted for one input, or a constant signal: NaN.)", "quantifier": "all inputs, names, noise levels and generators", "why_tests_cant": "over all inputs", "anchors": ["wildwood/datasets/signals.py:get_signal", "wildwood/datasets/signals.py:make_regression"]}
{"id": "C66", "title": "Interrupted loads of downloaded datasets", "statement": "If earlier calls of a load function were interrupted, or got wrong data from the network, a later call that returns gives the complete dataset; and it does return if the network works. (Proved for the datasets that are converted, when no call is interrupted while it writes the converted file. Refuted otherwise: the truncated file is returned for ever. Refuted for higgs and bank: after a wrong checksum the next call returns the wrong data. Refuted for epsilon: after an interruption between the two archives all calls raise.)", "quantifier": "all histories of calls, all points of interruption, all networks, all contents", "why_tests_cant": "crash points: over all interruptions and histories", "anchors": ["wildwood/datasets/_adult.py:_fetch_adult", "wildwood/datasets/_car.py:_fetch_car", "wildwood/datasets/_bank.py:load_bank", "wildwood/datasets/_epsilon.py:_fetch_epsilon", "wildwood/datasets/_higgs.py:_fetch_higgs", "wildwood/datasets/_utils.py:get_data_home"]}
{"id": "C67", "title": "Concurrent loads of downloaded datasets", "statement": "Any number of processes can load a dataset at the same time, and all get the complete dataset. (Proved when the files are there already. Refuted otherwise: a process gets a truncated dataset, or FileNotFoundError or FileExistsError. Refuted for bank even when its archive is there.)", "quantifier": "all numbers of processes and all interleavings of their operations on files", "why_tests_cant": "over all schedules", "anchors": ["wildwood/datasets/_adult.py:_fetch_adult", "wildwood/datasets/_car.py:_fetch_car", "wildwood/datasets/_bank.py:load_bank", "wildwood/datasets/_utils.py:get_data_home"]}
{"id": "C68", "title": "The prediction for a row depends on this row only", "statement": "The predictions of a fitted forest for a row do not depend on the other rows of the table: in two tables, rows with the same cells get the same result; and for any list of rows (a part of the rows, another order, repetitions) the predictions for X[rows] are those for X taken at these rows, and they do not fail if those for X did not. This holds for predict_proba, predict, predict_proba_trees, apply and the weighted depths, for both kinds of forests, whatever was done with the forest before (for a given order of the additions of the threads), and for the transform of the encoder.", "quantifier": "every forest, every history of calls, every pair of tables and every list of rows", "why_tests_cant": "relates runs on different tables: over all pairs of tables", "anchors": ["wildwood/forest.py:ForestBase.predict_helper", "wildwood/forest.py:ForestClassifier.predict_proba", "wildwood/forest.py:ForestClassifier.predict_proba_trees", "wildwood/forest.py:ForestRegressor.predict", "wildwood/forest.py:ForestBase.apply", "wildwood/preprocessing/encoder.py:Encoder.transform"]}
{"id": "C69", "title": "Increasing changes of unit of the features do not matter", "statement": "If the values of each numerical column are replaced by other values in the same order (a logarithm, another unit), fit on the new table succeeds when it did on the old one and gives the same trees, classes and parameters; and the predictions for the new table are those for the old one. A different function can be used for each column; missing values and categorical columns are unchanged. (Refuted for rows that are not in the training table: a value between two training values may go to another bin, because thresholds are middles.)", "quantifier": "all tables, all increasing functions, all labels, weights and parameters", "why_tests_cant": "relates the runs on two tables, over all increasing functions", "anchors": ["wildwood/preprocessing/_binning.py:_find_binning_thresholds", "wildwood/preprocessing/encoder.py:Encoder.fit", "wildwood/forest.py:ForestBase.fit"]}
{"id": "C70", "title": "The names of the classes do not matter", "statement": "Renaming the classes without changing their order (numbers instead of strings, say) changes nothing but the names: two classifiers built with the same arguments and given the same calls, with the labels renamed in one of them, raise the same exceptions, have the same trees, parameters and probabilities, and the predicted labels of one are the renamed labels of the other. (Refuted for a renaming that changes the order: ties go to the first class.)", "quantifier": "all histories of calls, all types of labels, all renamings which keep the order, all data", "why_tests_cant": "relates two histories; over all renamings", "anchors": ["wildwood/forest.py:ForestClassifier._encode_y", "wildwood/forest.py:ForestBase.fit", "wildwood/forest.py:ForestClassifier.predict", "wildwood/forest.py:ForestClassifier.predict_proba"]}
{"id": "C71", "title": "The unit of the labels does not matter for regression", "statement": "If the labels y of a regression are replaced by a * y + b with a > 0 (another unit), and the aggregation step is divided by a * a (the square loss is multiplied by a * a), then fit ends in the same way, and each prediction p becomes a * p + b; the leaves of the rows (apply) and the average depths are the same. When b is added only (a = 1), no parameter has to change. Without aggregation the step is not used and does not have to change. If a column is categorical, this is for b = 0 and a sort of the bins which depends on comparisons only. (Refuted: adding a constant to the labels when a column is categorical changes the trees, because the bins are sorted by the sum of their labels.)", "quantifier": "all tables, labels, weights, parameters, random draws, all a > 0 and all b, all tables given to the methods, all orders of the workers", "why_tests_cant": "relates the runs on two lists of labels, over all units", "anchors": ["wildwood/forest.py:ForestRegressor.fit", "wildwood/forest.py:ForestRegressor.predict", "wildwood/forest.py:ForestBase.apply", "wildwood/_split.py:find_best_split_regressor_along_feature", "wildwood/_node.py:compute_node_regressor_context", "wildwood/_impurity.py:mse_childs"]}
{"id": "C72", "title": "Only the ratios of the sample weights matter", "statement": "If all the weights given to fit are multiplied by the same k > 0, and the aggregation step is divided by k and, for a classifier, dirichlet is multiplied by k, then fit ends in the same way, and the predictions, the probabilities (of the forest and of each tree), the classes and the leaves of the rows are the same; for a regressor the average depths too. Without aggregation the step does not have to change. Not giving weights is the same as giving ones. For a regressor with a categorical column, this is for a sort of the bins which depends on comparisons only. (Refuted if dirichlet is not changed: doubling all the weights changes the probabilities.)", "quantifier": "all tables, labels, weights, parameters, random draws, all k > 0, all tables given to the methods, all orders of the workers", "why_tests_cant": "relates the runs on two lists of weights, over all factors", "anchors": ["wildwood/forest.py:ForestClassifier.fit", "wildwood/forest.py:ForestRegressor.fit", "wildwood/forest.py:ForestBase.fit", "wildwood/forest.py:ForestClassifier.predict_proba", "wildwood/forest.py:ForestRegressor.predict", "wildwood/_node.py:compute_node_classifier_context", "wildwood/_impurity.py:gini_childs", "wildwood/_impurity.py:information_gain_proxy"]}
{"id": "C73", "title": "Every split separates rows that differ", "statement": "In every tree of a fitted forest, a node that is split uses a column in which two of the rows drawn for this tree that reach the node have different values (or one is missing and the other is not); with aggregation, two of the rows left out that reach it do too. In particular a column whose values are all equal, or all missing, is never used.", "quantifier": "all tables, labels, weights, legal parameters, random draws, all nodes of all the trees", "why_tests_cant": "over all tables and parameters, for every node of every tree", "anchors": ["wildwood/forest.py:ForestBase.fit", "wildwood/_split.py:find_best_split_classifier_along_feature", "wildwood/_split.py:find_best_split_regressor_along_feature", "wildwood/_grow.py:grow", "wildwood/preprocessing/encoder.py:Encoder.transform"]}
{"id": "C74", "title": "A large step selects the prunings that predict the rows left out best", "statement": "With aggregation and a non-negative step, take any pruning of a tree and any delta > 0. The prunings whose loss on the rows left out is larger by delta or more have together a share of at most exp(-step * delta) / prior of the weight, where the prior of the pruning is 1/2 to the power of the number of its nodes which have children in the tree. The prediction of the tree for any row is in the range of the predictions of the other prunings, up to this share of the range of all predictions.", "quantifier": "all fits of trees, all steps, all prunings, all rows of new data", "why_tests_cant": "an inequality about sums over exponentially many prunings, over all data", "anchors": ["wildwood/_grow.py:compute_tree_weights", "wildwood/_tree.py:tree_regressor_predict", "wildwood/_tree.py:tree_classifier_predict_proba", "wildwood/forest.py:ForestBase.step"]}
