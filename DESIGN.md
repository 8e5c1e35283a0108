# A Rocq model of pyensemble/wildwood

The source is `/repo/wildwood` (python + numba) at the pinned commit. It is only
read as text; see the note at the end of "Not modelled" for one exception. Everything below is in `rocq/theories` (logical name `Verif`), for
Coq 8.16.1 with its standard library and Flocq (for the correctness of the rounding
of IEEE operations only; it adds no axiom).

## Layout

| files | contents |
|---|---|
| `Base.v` | result monad (`Ok` / `Err`), bounds-checked arrays, fuelled loops |
| `Num.v`, `Cells.v` | the arithmetic interface the model is parametrised by and its instances (`R_arith`, `F32`, `F64`); arithmetics extended with a NaN |
| `M_*.v` | the model, roughly one file per python module; every definition cites file and lines |
| `S_*.v` | specifications which do not use the functions of the model (at most its data types) |
| `P_*.v` | proofs |
| `T_*.v` | the property theorems, `Print Assumptions`, and an `Example` beside each theorem which shows that its hypotheses can be met |
| `Ex_*.v` | concrete data, forests and schedules used by these examples and by the refutations |
| `../../tools/mkprops.py`, `mkmanifest.py` | write `properties.jsonl` and `MANIFEST.json` |
| `../../tools/mutate.py`, `../../seeded/mutants*.py`, `LOG.jsonl` | wrong programs, and which theorems reject them |
| `../../tools/assumptions.py` | the table of assumptions at the end of this file |

Model files and python files:

| model | python |
|---|---|
| `M_Bitarray.v` | `preprocessing/features_bitarray.py` |
| `M_Binning.v` | `preprocessing/_binning.py` |
| `M_Encoder.v` | `preprocessing/encoder.py`, `preprocessing/_checks.py` |
| `M_EncoderForest.v` | how `forest.py` uses the encoder |
| `M_Utils.v` | `_utils.py` |
| `M_Impurity.v`, `M_Node.v`, `M_Split.v`, `M_Tree.v`, `M_Grow.v`, `M_Context.v` | `_impurity.py`, `_node.py`, `_split.py`, `_tree.py`, `_grow.py`, `_tree_context.py`, and the `fit` methods of `tree.py` |
| `M_Object.v`, `M_Inspect.v` | the rest of `tree.py`: setters of fitted trees, `lighten`, pickling, inspection |
| `M_Forest.v` | `forest.py`: parameters, setters, `fit`, predictions, bootstrap, labels, weights |
| `M_Parallel.v` | the threads of `fit` and `predict*` (`forest.py`), `joblib` |
| `M_Clone.v` | scikit-learn's `get_params`, `set_params`, `clone` on forests |
| `M_Plot.v` | `plot.py`, coordinates only |
| `M_Dataset.v` | `datasets/dataset.py` |
| `M_Signals.v` | `datasets/signals.py` |
| `M_Fetch.v` | the downloads of `datasets/_*.py` |

## Modelling decisions

* Functions are total, computable Gallina functions which follow the python text
  branch by branch. An out-of-bounds access, a division by zero (numba's default
  error model raises `ZeroDivisionError`), a raised exception and the exhaustion
  of the fuel of a `while` loop are *values* (`Err e`), so "this never happens"
  is a theorem about every run and not an assumption. The fuel is chosen by the model
  from the sizes of the input, and `Err Fuel` is excluded by C24 and C27.
* Arrays are lists, read and written with a bounds check which yields `Err OOB`.
  `np.empty` gives arbitrary values: they are arguments of the model (`junk`).
* Machine words of the packed features are `N` with explicit truncation to 64 bits.
* Floating-point numbers: the model is polymorphic in an arithmetic (`Num.arith`:
  carrier and operations, *no laws*). Structural theorems (growth, partitions,
  routing, limits, memory safety, objects, threads, encoder) hold for every such
  arithmetic, in particular for binary32 and binary64 with all their rounding.
  Numerical theorems (aggregation over prunings, impurities, probabilities) are for the
  instance `R`, that is for exact arithmetic. Where rounding makes a claim false a
  witness is computed with IEEE semantics (`SpecFloat`, connected to Flocq's rounding
  in `P_Float.v`), and some claims (C03, C16, C40) are proved for binary64 too.
* One arithmetic is used at a time. The code mixes binary32 (node statistics, weights of
  samples) and binary64 (labels, thresholds, probabilities): a theorem for every
  arithmetic covers a program which uses one of them throughout, and conversions
  between the two, which round, are not modelled except in the encoder (C05).
* Random generators, bootstrap draws, tie-breaking of `argsort`, thread schedules
  are universally quantified arguments (`env`), never axioms.
* Classifier and regressor share their growing loop; what differs is a record `task` (`clf_task`,
  `reg_task`) whose fields model the pairs of python functions.
* A fitted tree or a forest is an object (`tobj`, `fobj`): a record with the python
  attributes, where an attribute which may not exist is an option. Histories of calls
  (set an attribute, fit, lighten) are lists of operations.
* Threads: small-step semantics in which a step of a thread is one access to shared
  memory, acquisition or release of the lock, or one draw from its generator.
  Theorems quantify over all schedules.

## Properties

"Proved" below: for all inputs the statement quantifies over. When the property is false of the
code, the theorem named `..._refuted` has a witness, and the other theorems say what is
true. The hypotheses which are needed are in `MANIFEST.json` and in the comments of the
theorems.

| id | what is modelled | how it is proved |
|---|---|---|
| C01 | the four functions of the packed array on `N` words, allocation included | invariant on the fill loop (a word holds the values written so far, shifted); reading is a shift and a mask. Refuted for entries of 64 bits and for no rows |
| C02 | the same | frame lemma: a column writes only its own words, for every history of writes |
| C03 | `find_bin`-style binary search of the encoder | invariant `thr[left-1] < x <= thr[right]`, for any transitive comparison |
| C04 | sorted distinct values, midpoints, midpoint percentiles | induction over sorted lists, in exact arithmetic |
| C05 | the same | from C03 and C04; refuted for doubles (midpoint equal to an end, overflow, percentiles) |
| C06 - C11 | `Encoder.fit`, `transform`, `inverse_transform` on data frames and arrays | fold invariants over the columns; refuted for arrays of objects with missing values (C07), a column without any value (C09), equal names (C10), the same values as a frame or an array (C11) |
| C12 | the arguments of the forest, its constructor and `fit` | the value given to the constructor is never read: refuted, and the argument of `fit` is used |
| C13 | `sample_without_replacement` | invariant: the pool is a permutation; bijection between draws and arrangements |
| C14, C15 | the recursive bootstrap function with fuel for the recursion limit | induction on the limit; refuted for one sample |
| C16 | the conversion of `max_features` in `fit` | case analysis, over `R` and for binary64 through Flocq |
| C17 | the loops which compute the contexts of nodes | loops are sums over the slice; then the invariant of the growth |
| C18, C19 | the scan over bins, with its early exit, for every strategy | the prefix counts are monotone, so the early exit loses nothing; the kept candidate is the best of all admissible cuts, as enumerated by the specification; for whole forests, with the criterion the user named, in T_Criterion.v |
| C20 | Gini, entropy, mean squared error | real analysis by elementary means |
| C21 | the two-buffer partition of the samples | the loop is `filter` on both sides, with a frame |
| C22 | binary search in the sorted bins of a node | membership in the partition, also for bins never seen |
| C23 | sorting bins by proportion | exchange argument for two classes and Gini; refuted for regression, and for two classes with `min_samples_leaf = 2` (T_CatLeaf.v) |
| C24 - C29 | `grow` and the walk down of a sample | one invariant of the loop over the stack (stack, arrays, inductive tree), for any arithmetic; measure `2 * training samples on the stack - records on the stack` |
| C30 | the array stack | refinement of a list; refuted for a capacity 0 |
| C31 | `log_sum_2_exp` | real analysis; for every arithmetic, no exponential of a positive number |
| C32, C33, C36 | the upward pass and the prediction along a path | the arrays represent an inductive tree, prunings of an inductive tree are enumerated, induction on the tree; the table of a whole regressor in T_Depth.v |
| C34, C35 | predictions | convex combinations; averages over the trees in every order. Refuted in binary32 (T_Single.v) for every correctly rounded C library; the rounded values of `ln` and `exp` are certified by integer bounds (P_Libm.v). Without aggregation no probability is negative in any format (T_Sign.v), and no prediction of a regressor if no label is (T_SignReg.v) |
| C37, C38 | the setters `step` and `dirichlet` of trees and forests | the recomputation loop equals the one of `fit` with the new value |
| C39 | threads, lock, shared output array | invariant over all schedules; refuted without the lock, and equality of sums refuted with rounding |
| C40 | `argmax`, `predict` | for any linearly ordered arithmetic with NaN, for binary64 |
| C41 | seeds of one-versus-rest trees | index arithmetic; the property is refuted for all inputs |
| C42 | all setters and constructors, all python values | induction over histories; refuted for `random_state` and NaN |
| C43 - C46, C52 | objects | equality of objects or of predictions; C44, C46, C52 refuted |
| C47 | whole fits of trees | simulation of the growth on the repeated rows; refuted for the minimum counts |
| C48 | whole fits | every denominator is positive in exact arithmetic; refuted for null weights and in binary32 |
| C49 | worker threads with a generator each | invariant over schedules: a worker seeds its generator before it draws |
| C50 | `get_depth`, `is_left`, `get_actual_depth`, `path_leaf` | invariant of growth; two refuted |
| C51 | aliasing of the weights given by the caller | the array after the call is returned by the model; refuted for float32 |
| C53, C54 | `_encode_y`, balanced weights | lists; sums over `R` |
| C55, C56 | `Encoder.fit` with its generator, and as a method which can raise half-way | equality of states; refuted above `subsample` rows, and for another number of columns |
| C57 | `get_params`, `set_params`, `clone` | attributes after every history; refuted for `random_state` and `multiclass` |
| C58 | layout of `plot_tree` | coordinates by induction on the depth; `max_depth` refuted |
| C59 - C61 | `Dataset.extract` on frames: split, scaler, encoders, names, mask, labels | each output column is a function of one input column, learned from the training rows; relational proofs for two files; C60 refuted for the bundled Boston dataset |
| C62 | whole fits of forests | C14, C17, C24 - C29, C53 and C54 composed, in the terms of the user's rows, labels and weights |
| C63 | `predict_proba`, `predict` | the accumulation loops are sums in the order of the threads |
| C64 | `gini`, `scaled_gini`, the class proportions | counting of pairs; sum of squared deviations from equal proportions |
| C65 | the signals, rescaling, `make_regression` with the global generator as an argument | real analysis; refuted for one input |
| C66 | downloads as programs with one file operation per step, so that a call can stop between any two | invariant over all points of all calls of a history; three refutations, general in the contents |
| C67 | the same programs, interleaved | calls which find the files never change anything; refuted for first calls and for bank |
| C68 | S_Rows.v (`picked_table`, `by_row`); M_Encoder, M_EncoderForest, M_Forest as before | each method is shown to be a function of each row of the packed array, and the packed row a function of the row of the table |
| C69 | S_Monotone.v (`recoded_table`); M_Binning, M_Encoder, M_EncoderForest, M_Forest as before | thresholds are middles of neighbours in the sorted column, so the bin of a training value counts the thresholds whose lower neighbour is below it, which an increasing function keeps; the packed array is the same, and so is everything after it. Refuted for values that are not in the training table |
| C70 | T_Renaming.v (`keeps_order`, `renamed_op`); M_Forest as before | the renamed object commutes with each setter, with fit and with the methods (one lemma each); induction on the history. Refuted when the order changes |
| C71 | S_Units.v (`new_unit`, `comparison_sort`); M_Forest, M_Grow, M_Split as before | simulation: two runs are in relation when the sums of labels, means, impurities, gains and losses are scaled and shifted as expected and all else is equal (P_Affine.v); the growth of the trees, the aggregation and the forest keep the relation. Refuted with a categorical column |
| C72 | M_Forest, M_Grow, M_Split, M_Context as before; `owrel` | simulation: two runs are in relation when the weights, sums, losses are multiplied by k and the weights of aggregation are equal (P_Scale.v); for gini, entropy, mse and both losses. Absent weights: the two calls compute the same term. Refuted with the same dirichlet |
| C73 | M_Forest, M_Encoder as before; S_Trained.v | from C62 (the nodes hold the rows that reach them) and the limits: both children hold a row, and rows with the same bin go to the same side; the bin is a function of the cell (P_Rows.v) |
| C74 | S_Prune.v | the priors of all prunings add up to one (induction on the tree); then C33 and inequalities between weighted sums |

## Findings about the code

What the theorems found false is in the table above. Other things seen while reading the
code for the model, and not stated as properties:

* After `lighten()`, setting `step` or `dirichlet` raises `AttributeError` after the
  attribute has been changed, a pickled lightened forest cannot be loaded, and
  `lighten()` of an unfitted forest is a `TypeError`.
* `ForestBase.path_leaf`, `ForestRegressor.predict_trees` and `get_n_leaves` always raise
  `AttributeError`. `check_is_fitted` never fails.
* The documentation says that `categorical_features=None` means that no feature is categorical; the
  encoder then guesses. It says that `handle_unknown` is `"error"` by default; the forests use
  `"consider_missing"`.
* A fit in one-versus-rest mode with at most two classes changes `multiclass` silently; a refit of a
  forest fitted in one-versus-rest mode with two classes raises `AttributeError`.
* One sample and bootstrap: `RecursionError` (C15). A single class, a categorical feature
  and the strategy `"binary"`: the strategy reads the second class, out of bounds.
* Any admissible split is taken, also with a null gain. The regressor sorts the
  bins of a categorical feature by the sum of the labels and not by their mean, so that C23 fails,
  and adding a constant to the labels changes the trees (`C71_categorical_refuted`).
* A node of a categorical feature may stay unsplit with `min_samples_leaf = 2` although a subset of its
  categories is admissible and lowers the Gini index (`C23_min_samples_leaf_refuted`).
* `predict_proba` can return negative numbers with `aggregation=True`: `log_weight_tree` is a binary32
  number, a multiple of 2^-11 once the validation loss of a node exceeds 4096, so `alpha` reaches
  1.0002 when the subtree of the node has no weight. A leaf whose class is rarer than 2 in 10000 at
  such a node then gets a negative probability (`C34_single_precision_refuted`), and a regressor
  leaves the range of the labels (`C35_single_precision_refuted`). Only aggregation does this: with
  `aggregation=False` no probability is negative, in any format (`C34_rounded_forest`). A regressor
  can leave the range even without aggregation, by one unit in the last place: all labels equal
  and all weights 3 (`C35_constant_labels_refuted`).
* Multiplying all the sample weights by a constant changes the probabilities, unless `dirichlet` and
  `step` are changed too (C72).
* Declared but unused categories which were not seen when fitting make `transform` raise with
  `handle_unknown="error"`.
* In double precision `np.percentile` can give `-inf` when `hi - lo` overflows.
* The numba signature of the regressor's tree context lists 15 types for 14 parameters.
* The drawing has a fixed vertical range, so that nodes deeper than 11 are
  outside, and in doubles the positions of nodes deeper than about 52 coincide.
* `set_params(**get_params())` on a fitted forest raises: `n_estimators` is frozen.
* In `Dataset.extract`, the names of columns follow the file and the matrix follows the lists of the
  constructor, which disagree for the bundled Boston dataset (C60). With `pd_df_categories`, one-hot
  encoding is a `KeyError` and a missing category a `ValueError`.
* The conversion of the adult dataset skips the first line of the training file, which is a record; only the test file
  has a line to skip.
* `make_regression(random_state=...)` resets the global generator of numpy.
* A truncated or corrupted file in the data directory is never repaired: only its existence is tested (C66).
* A NaN is accepted for `step`, `dirichlet` and `max_features`, a boolean is accepted as an integer.

## Not modelled

* numba: compilation, types, its integer widths except for the words of the packed
  features, and the wrap-around of negative indices (an index is a natural number; that
  subtractions do not go below 0 is part of the invariants).
* Internals of numpy, pandas and scikit-learn: `np.unique`, `np.percentile`,
  `argsort`, `LabelEncoder`, `check_array`, `_check_sample_weight`, `compute_class_weight`,
  `BaseEstimator` and `clone` are replaced by their documented contract. In the encoder: the codes of
  a pandas column are unbounded (pandas uses 8 bits or more), categories which cannot be sorted are not
  considered, tables have columns of equal lengths.
* `joblib` beyond interleavings of threads; `n_jobs` only decides how many threads there are.
* Warnings and verbose output; `get_nodes` as a data frame (only the array behind it); the rendering by
  `bokeh`; what `pandas` reads from the downloaded files (in C66 and C67 the result of a load is the contents of the files); `experiments/`, `randomized_depth` (draws from numpy's global generator).
* Two fields of records which are written and never read (`threshold` of a node,
  the statistics copied in a split).

Note: while looking for configurations of datasets, the functions of `datasets/loaders.py` were executed once with
stubs, although the code was not to be run. Nothing in `/repo` was changed, and the outcome is not used: the
configuration of the Boston dataset in `Ex_Dataset.v` was read from the text of `loaders.py` and the header of its
data file.

## Tests by wrong programs

`tools/mutate.py` applies one edit to one definition of the model in a scratch copy,
builds the files of the theorems of the claim it breaks, and records in `seeded/LOG.jsonl` which theorem
fails. Since proofs go through lemmas which characterise each function exactly, most wrong
programs are rejected by these lemmas before the property theorem is reached; the
statements of the property theorems were reviewed separately by asking, for each, which wrong
program would still satisfy it. What was tightened that way is in the log.

How to read the log. `theorems_failed` lists the theorems whose file did not build. It is per file and
transitive: a theorem may be listed because a lemma or another theorem before it was rejected, and the
entry does not show that its own statement is false of the edited program. `first_failing_proofs` are the
proofs that were rejected.

Correction. Until late in the work the script also listed a theorem as failed when the build stopped for
another reason (a scratch copy missing newer files). Fourteen entries were of that kind or mixed with it
(no rejected proof, or theorems absent from the scratch copy): they were removed. The script now refuses a
scratch copy that is out of date and records nothing when no proof was rejected. Some of them were run
again and are in the log; the other names, which are in `seeded/mutants*.py` and not in the log, have no result.
It also listed as failed the theorems of files that do not depend on the edited file and were therefore not
rebuilt. In 21 entries these were moved to `theorems_still_proved`, after the graph of the `Require`s; in each of
them another theorem had failed.

## Trusted base

* Coq 8.16.1's kernel, including `vm_compute` (used for concrete examples and refutations).
* The definitions in `M_*.v` as a reading of the python text, within the limits above, and the
  definitions in `S_*.v` and at the top of the `T_*.v` files as a reading of the properties.
* Axioms of the standard library, as listed by `Print Assumptions` (in the `T_*.v` files, and for
  every theorem below). There are no other axioms. `-` is "Closed under the global context";
  otherwise:
  `D` is `ClassicalDedekindReals.sig_forall_dec`,
  `N` is `ClassicalDedekindReals.sig_not_dec`,
  `E` is `FunctionalExtensionality.functional_extensionality_dep`,
  `C` is `Classical_Prop.classic`.

| id | axioms: theorems |
|---|---|
| C01 | -: `C01_pack_unpack_lossless`, `C01_needs_63_bits_refuted`, `C01_no_rows_refuted` |
| C02 | -: `C02_column_writes_are_isolated`, `C02_column_write_touches_own_words` |
| C03 | -: `C03_bins_are_intervals`, `C03_bins_are_intervals_binary64`, `C03_bins_monotone` |
| C04 | CDEN: `C04_thresholds_sorted_and_few`, `C04_bins_below_max_bins`, `C04_encoder_thresholds` |
| C05 | -: `C05_doubles_merged_refuted`; CDEN: `C05_few_values_rank`, `C05_few_values_separated`, `C05_encoder_separates` |
| C06 | -: `C06_categories_by_rank`, `C06_injective`, `C06_categories_found` |
| C07 | -: `C07_encoded_bins_fit`, `C07_object_array_missing_refuted`; CDEN: `C07_exact` |
| C08 | -: `C08_error`, `C08_total`, `C08_consider_missing` |
| C09 | -: `C09_inverse`, `C09_total`, `C09_no_category_refuted`; CDEN: `C09_exact` |
| C10 | -: `C10_positions`, `C10_duplicate_names_refuted` |
| C11 | -: `C11_data_frame`, `C11_array`, `C11_fit_succeeds`, `C11_bad_dtype`, `C11_specification`, `C11_frame_and_array_disagree_refuted` |
| C12 | -: `C12_fit_argument`, `C12_constructor_ignored`, `C12_constructor_ignored_refuted` |
| C13 | -: `C13_features_distinct`, `C13_all_features`, `C13_one_tape_per_arrangement` |
| C14 | -: `C14_bootstrap`, `C14_weights` |
| C15 | -: `C15_returns`, `C15_fails`, `C15_one_sample_refuted` |
| C16 | -: `C16_max_features`, `C16_errors`; CDEN: `C16_exact`, `C16_binary64` |
| C17 | -: `C17_classification`, `C17_regression`, `C17_tree_classification`, `C17_tree_regression` |
| C18 | CDEN: `C18_classification`, `C18_regression`, `C18_tree_classification`, `C18_tree_regression`, `C18_forest_classifier`, `C18_forest_regressor` |
| C19 | -: `C19_min_samples_leaf` |
| C20 | CDEN: `C20_gini_value`, `C20_entropy_value`, `C20_mse_value`, `C20_childs_values`, `C20_zero_weight_raises`, `C20_nonneg_zero_iff_pure`, `C20_gain_order`, `C20_gain_nonneg`; DE: `C20_mse_nonneg_zero_iff_constant` |
| C21 | -: `C21_classification`, `C21_regression`, `C21_partition_meaning` |
| C22 | -: `C22_categorical_test` |
| C23 | -: `C23_regression_refuted`, `C23_min_samples_leaf_refuted`; CDEN: `C23_two_classes_gini` |
| C24 | -: `C24_growing_ends`, `C24_small` |
| C25 | -: `C25_well_formed` |
| C26 | -: `C26_limits`, `C26_pure_root_refuted`; CDEN: `C26_leaf_classification`, `C26_leaf_regression` |
| C27 | -: `C27_growing`, `C27_predicting_classifier`, `C27_predicting_regressor` |
| C28 | -: `C28_samples` |
| C29 | -: `C29_walk` |
| C30 | -: `C30_stack_is_lifo`, `C30_zero_capacity_refuted` |
| C31 | CDEN: `C31_value`, `C31_symmetric`, `C31_bounds`, `C31_no_overflow` |
| C32 | CDEN: `C32_weights`, `C32_loss_classification`, `C32_loss_regression` |
| C33 | CDEN: `C33_classification`, `C33_regression` |
| C34 | -: `C34_rounded_tree`, `C34_rounded_forest`; CDEN: `C34_tree`, `C34_forest`, `C34_from_constructor`, `C34_single_precision_refuted` |
| C35 | -: `C35_constant_labels_refuted`, `C35_rounded_forest`; CDEN: `C35_tree`, `C35_forest`, `C35_from_constructor`, `C35_single_precision_refuted` |
| C36 | CDEN: `C36_weighted_depth`, `C36_rows`, `C36_forest` |
| C37 | -: `C37_step`, `C37_sequence`, `C37_forest_classifier`, `C37_forest_regressor`, `C37_forest_sequence` |
| C38 | CDEN: `C38_dirichlet`, `C38_dirichlet_positive`, `C38_no_aggregation`, `C38_forest` |
| C39 | -: `C39_predict_proba`, `C39_predict_reg`, `C39_rows`, `C39_no_deadlock`, `C39_without_lock_refuted`, `C39_rounding_refuted`; CDEN: `C39_classifier`, `C39_regressor` |
| C40 | -: `C40_any`, `C40_binary64`; CDEN: `C40_classifier` |
| C41 | -: `C41_actual_seeds`, `C41_same_trees`, `C41_refuted`, `C41_few_trees` |
| C42 | -: `C42_frozen`, `reachable_classifier`, `reachable_regressor`, `C42_random_state_refuted`, `C42_nan_refuted`, `C42_encoder_parameters`; CDEN: `C42_classifier`, `C42_regressor`, `C42_always_valid`, `C42_random_state_fit` |
| C43 | -: `C43_lighten`, `C43_lighten_frees`, `C43_forest_classifier`, `C43_forest_regressor` |
| C44 | -: `C44_lightened_step`, `C44_lightened_dirichlet`, `C44_lightened_pickle`, `C44_forest_step`, `C44_forest_pickle`; CDEN: `C44_refuted`, `C44_forest_refuted` |
| C45 | -: `C45_pickle`, `C45_forest_classifier`, `C45_forest_regressor` |
| C46 | -: `C46_no_effect`, `C46_no_effect_regressor`, `C46_refuted` |
| C47 | CDEN: `C47_classification`, `C47_regression`, `C47_trees_classifier`, `C47_trees_regressor`, `C47_counts_refuted` |
| C48 | -: `C48_zero_weights_refuted`, `C48_single_precision_refuted`; CDEN: `C48_classifier`, `C48_regressor`, `C48_forest_classifier`, `C48_forest_regressor` |
| C49 | -: `C49_classifier`, `C49_regressor`, `C49_classifier_completes`, `C49_regressor_completes`, `C49_two_fits_classifier`, `C49_two_fits_regressor`, `C49_unseeded_refuted` |
| C50 | -: `C50_get_depth_refuted`, `C50_is_left_refuted`, `C50_actual_depth`, `C50_path_leaf` |
| C51 | -: `C51_untouched`, `C51_regressor`, `C51_overwritten`, `C51_refuted` |
| C52 | -: `C52_trees_kept`, `C52_trees_kept_regressor`, `C52_refuted` |
| C53 | -: `C53_classes` |
| C54 | -: `C54_multinomial`; CDEN: `C54_totals` |
| C55 | -: `C55_no_subsampling`, `C55_subsample_refuted` |
| C56 | -: `C56_learned_kept`, `C56_same_columns`, `C56_failed_fit_refuted` |
| C57 | -: `C57_clone_classifier`, `C57_clone_unfitted`, `C57_clone_refit`, `C57_set_params`, `C57_set_params_stops`, `C57_clone_regressor`, `C57_clone_refit_regressor`, `C57_multiclass_refuted`; CDEN: `C57_random_state_refuted` |
| C58 | -: `C58_layout`; CDEN: `C58_picture`, `C58_max_depth_refuted` |
| C59 | -: `C59_partition`, `C59_learns_from_training_rows`, `C59_unseen_class_refuted` |
| C60 | -: `C60_columns`, `C60_mask`, `C60_boston_refuted`, `C60_boston_mask_refuted`, `C60_drop_refuted`, `C60_pd_refuted` |
| C61 | -: `C61_label_not_used`, `C61_from_dtype`, `C61_raw`, `C61_from_dtype_refuted` |
| C62 | -: `C62_classifier`, `C62_regressor`, `C62_limits_classifier`, `C62_limits_regressor` |
| C63 | -: `C63_multinomial`, `C63_ovr`, `C63_regressor`; CDEN: `C63_mean` |
| C64 | -: `C64_one_class_refuted`; CDEN: `C64_scaled_gini`, `C64_compute_gini` |
| C65 | -: `C65_empty`, `C65_seed`, `C65_one_input_refuted`; CDEN: `C65_get_signal`, `C65_make_regression` |
| C66 | -: `C66_interrupted`, `C66_cached`, `C66_offline`, `C66_direct`, `C66_bank`, `C66_truncated_refuted`, `C66_checksum_refuted`, `C66_second_archive_refuted` |
| C67 | -: `C67_concurrent`, `C67_direct_concurrent`, `C67_truncated_refuted`, `C67_removed_refuted`, `C67_home_refuted`, `C67_bank_refuted` |
| C68 | -: `C68_classifier`, `C68_regressor`, `C68_encoder` |
| C69 | CDEN: `C69_bins`, `C69_encoder`, `C69_classifier`, `C69_regressor`, `C69_new_values_refuted` |
| C70 | -: `C70_constructor`, `C70_classifier`, `C70_order_refuted` |
| C71 | -: `C71_categorical_refuted`; CDEN: `C71_regressor`, `C71_shift` |
| C72 | -: `C72_no_weights_regressor`, `C72_no_weights_classifier`, `C72_dirichlet_refuted`; CDEN: `C72_regressor`, `C72_classifier` |
| C73 | -: `C73_classifier`, `C73_regressor`, `C73_values_classifier`, `C73_values_regressor`, `C73_constant_classifier`, `C73_constant_regressor` |
| C74 | CDEN: `C74_share`, `C74_regression`, `C74_classification` |
