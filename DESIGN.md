# Formal model of py-pdp-partitioner in Rocq (Coq 8.16.1)

## 1. Approach

The model is a set of small, total, computable Gallina functions that mirror the
Python functions branch by branch; Python exceptions are values (`Err e` of
`res A`).  Each definition cites the file and lines it models.

* **Numbers.**  Python/numpy floats are modelled by an interface `Num` (a record
  of operations: `<=`, `<`, `==`, `+ - * /`, integer literals, `exp`, `log`,
  `sqrt`, rounding).  The model functions are written once for every `N : Num`.
  Instances: `RNum` (real numbers - "exact arithmetic"), `QNum` (computable
  rationals, used for worked examples and witnesses) and `B64` (IEEE-754
  binary64 from Flocq, with `exp`/`log` as parameters).  Theorems that need only
  comparisons are proved for *every* `N` that satisfies `order_laws` (a Prop
  record that all three instances provably satisfy), so they hold for rounded
  arithmetic too.  Theorems about sums, means, logarithms are proved for `RNum`.
* **Arrays.**  numpy arrays are nested lists; `repeat`, `reshape`, `transpose`,
  `meshgrid`, fancy assignment and boolean masks are modelled explicitly.
* **Mutable objects.**  Objects with history (ICE, partitioner, samplers, axes)
  are records with `step`-like functions; theorems are proved for every state
  reachable by any list of operations.  Tree regions live in an explicit heap.
* **External code** (surrogate, objective, random generators, ConfigSpace,
  matplotlib) enters as function parameters or as a small contract, listed in
  the trusted base below.

Layout: `theories/*Model.v` (model, no proofs), `*Spec.v` (independent
specifications), `*Proofs.v` (lemmas), `Prop_*.v` (property theorems with
`Print Assumptions` and non-vacuity examples only).

## 2. Plan per property

| id | model | proof method |
|----|-------|--------------|
| C01-C08, C12-C14 | region heap + stack loop of `partition`, `calc_best_split` as fold over candidates | loop invariant over the stack machine, permutation/counting arguments; order laws only |
| C03 | `RNum`: strict monotonicity of unscale; `B64`, integer kinds: refuted with computed witnesses | |
| C09 | constructor of `Partitioner` with name filtering | induction over histories |
| C10 | `RNum`, variance decomposition | algebra on finite sums |
| C11 | bounds folded over split conditions | induction over the conditions, strict monotonicity |
| C15-C16 | error values; ICE object with centered flag; `from_ICE` as the constructor on the ICE's arguments | case analysis over all trees / witness; the theorems about the constructor |
| C17-C20 | forest as fold over trees with an explicit random stream | induction over trees |
| C21-C24 | numpy layer with index arithmetic, meshgrid by mixed-radix digits | pointwise lemmas, div/mod |
| C25 | ICE state machine | invariant against an abstract spec machine |
| C26-C27 | means over lists of reals | sums over permutations |
| C28-C30 | `scale_float`, `unscale_float`, `unscale` | real analysis; Flocq rounding monotonicity; witness |
| C31 | union type of selections | structural |
| C32 | heap of generators | separation invariant |
| C33-C46 | sampler state machines with cache, file system, failing objective | invariants over operation lists; witnesses for refutations |
| C47-C50 | argmax folds, real analysis with a cdf characterised by its derivative and limit | monotonicity by mean value theorem |
| C51-C53 | closed formulas over `R`, Riemann integral (Coquelicot) | calculus, induction over dimensions |
| C54-C59 | closed formulas, axis state machine | algebra, induction |
| C60 | PDP object with one cache per array over a changing ICE | trace invariant; witness for mixed arrays |
| C61 | construction of `Partitioner` from any ICE | case analysis of the constructor |
| C62 | forest whose trees draw from an empty list of names | case analysis |
| C63 | random sampler over a stream of batches (call sizes so far, size, index) | induction over calls; two witnesses for the columnwise order |
| C64 | MD5 in Gallina, `seed + md5(class name)` | computation of the digests of the class names, then arithmetic modulo 2^31 |
| C65-C66 | colorsys over `R` | closed form of each channel as a piecewise linear weight |
| C67-C80 | statements on an axis: new axis state, list of drawn things, exception | draws of a loop are the concatenation of the draws; then the lemmas of C28-C31, C57, C58 |
| C81 | the model of C51-C53 | the loops of the implementation against sums over coordinates |
| C82 | `SplitCondition` with optional arguments of any type | strict monotonicity of scaling; witness for binary64 |
| C83 | surrogate object around an arbitrary pipeline | induction over operation lists |
| C84 | calls with keywords around an arbitrary benchmark | the lemmas on keywords of C81 |
| C85 | heap of spaces with random states (C33, C64), an arbitrary generator and constructor | case analysis on the seed; frame on the heap |
| C86-C88 | two constructor argument lists that differ in the surrogate or the order of samples | one simulation lemma: a relation on regions kept by selection, under which all comparisons of losses agree, is kept by the tree |
| C89 | the tree of C05 at two depths | induction over the shallower tree |
| C90 | the model of C47-C50 over R | the formulas are homogeneous; the choice depends on comparisons only |
| C91 | the model of C33-C46, two worlds related by a map of the values | every statement of the samplers commutes with the map of the state; C90 for the worlds of the package |
| C92 | `_calculate` with the conversion of the grid to the element type of the samples | the lemmas on positions of C21; the grid lies in [0, 1] and meets 0 and 1 at its ends only |
| C93 | an object whose sizes, samples and grid are fields of their own | simulation by the object of C25 while the fields agree; an invariant that makes every calculation raise while they do not |
| C94 | buffers in memory, views, surrogates that transform memory | simulation by the object of C25; frame on addresses |
| C95 | texts of objectives, seeds and samplers; a world with its objective exchanged | replay of the saved points (C40) with another objective; splitting of concatenated texts |
| C96 | item access and slices on the object of C25, Python's loop protocol as a relation | the reads of C25; determinism of the relation |
| C97 | equality, membership and search as `@dataclass` generates them from the annotated fields | there are none, so equality is always true |
| C98, C99 | the model of C21-C27, surrogates that predict row by row | a closed form of the three arrays, pointwise facts about rows and means |
| C100 | the same, two algorithms and two setups that differ in the order of the selection | axis positions of the grid points carried from one order to the other, a bijection on a duplicate-free list; simulation of the two trees over reordered regions |
| C101 | two spaces of one length, hyperparameters related by position; any number type | simulation: every function that takes a hyperparameter uses only its index; related nodes, trees and forests; scale(unscale(u)) = u for the leaf of a configuration |
| C102 | mean of square roots over `R` | the variances of a node are squares of predictions of its curves; sums over leaves as in C10; Jensen through the variance of the square roots; witnesses by computation in binary64 |
| C103 | loop of the experiment over numbers of splits, fold over replications | induction over the loop with C02, C11, C12 and the likelihood of C55 on another space; closed form of the fold |
| C104 | stack of partition: right child popped first; leaves of the recursive tree are right ++ left | induction over the grown tree (C04's tree), then C04 for the curves |
| C105 | order of the candidates in the two loops; loss 0 of regions with equal variances | positions in the filtered space; C98 for equal variances; the step split has total 0, the best split too, subsets keep loss 0 |
| C106 | best split over a larger set of candidates | C05 on both settings; depth one by the recursive tree; witnesses found by search and checked by computation |
| C107 | positions on both axes by C24 and the closed form of linspace | embedding of the position tuples; closed form of row-wise curves; binary64 witness by computation |
| C108 | origin of the configurations of a sampler and C02 | invariant over sampler histories; C37 and C02 composed |
| C109 | row-wise rearrangement as a relation between two runs | name lookup invariant under permutation, closed form of x_ice, optimality of the best split in both orders, induction over the tree |
| C110 | a table of class, task and seed per function, the library an arbitrary function that may raise | case distinction, then C84 and C95 |
| C111 | sums as trees of additions (`added`), val and fin of B64Proofs | induction on the tree with relative error per addition (Flocq: Plus_error), division and square root by error_N_FLT |
| C112 | losses as trees of additions (`some_loss`), exact loss as within_variance of the real values | error of one squared deviation, then of the sum (C111), disjoint sides of a split, and C05 |
| C113 | points of the axis through val and fin of B64Proofs, `axis_refines` of GridSpec for any number type | rounding error of the step and of the product (Flocq), exactness for scaled integers, C107's argument for any N |
| C114 | the exact line, size of bounds, slack and gap in ScaleSpec, in real numbers | rounding errors of the three operations (Flocq), clamping never moves away from the line, then the argument of C03 with the gap instead of strict monotonicity |
| C115 | cube averages (iterated Riemann integrals), Lipschitz bounds, evenly spread rows and full grids in SpreadSpec; the rest in SpreadSynSpec | induction over the coordinates: the mean over a slice is close to the average there, the slices' averages sum to the integral (Coquelicot); additive functions averaged term by term; pd_integral from C51 |
| C116 | boxes of conditions, volumes, box averages and half-open cells in BoxSpec | split values are borders of cells, so the rows of a region are those of whole cells (counting by induction over the coordinates); rescaling each kept range to the unit interval reduces the mean to C115 |
| C117 | the grid as the list of all rows with one value per axis (SpreadSpec); steps64 rounds every operation of the number of values per axis to the nearest binary64 number, pow correctly rounded | the loop takes the whole shuffled grid; inverse transform of each axis is evenly spaced; spread does not depend on the order, so C115 and C116 apply; 1/5 rounds up by 1/(5 2^54), which moves the root past half the distance to the next number |
| C118 | samples lying in at least k regions as in C18, the sets of samples of each region given as lists of indices | the loop keeps what the ICE object shows, then C18, C19 and C02 for every row; counting pairs of samples and regions in two ways; a leaf of a tree holds a bootstrapped curve (C08) and its sample lies in the leaf (C03) |
| C119 | mean over repetitions of averages over samples, written with positions along the axis as in C76; the exact partial dependence as in C103; evenly spread samples as in C115 | every repetition gives the mean curve of C76, means of these are taken entry by entry; the drawing lemmas of C76; C115 for the exact function and the triangle inequality |
| C120 | the leaf of the incumbent by its conditions, means and deviations over the lines with a given key, strictly ascending keys | the leaf is unique by C02, its share of the weighted mean of C102 bounds the quotient; the point of a group by cases on unusable lines; two strictly sorted lists with the same elements are equal |
| C121 | the real values of the floats; weighted means and within_variance of C10, C27, C102; slack of C112 | the leaves are a partition of the rows of the root (C01 in binary64); each average and loss is near its exact value (C111, C112); sizes add up, so the errors do not grow with the number of leaves |
| C122 | the real values of the floats; the formulas over the reals of C48, C49 with the normal distribution; accurate: error of a float function against a real one | errors of single operations (Flocq); the distribution function is Lipschitz with 1/2 and the gain z Phi(z) + phi(z) with 1, as their derivatives are phi and Phi; comparisons are exact, so the chosen one is within twice the error |
| C123 | band: values within tau deviations of the means; nearly_best: at most r worse than every candidate; deviation: the row of the prediction | the optimum has the highest bound (C47), the bound of each candidate is at least its value; the steps of a run unfold to choices on the points known by then (C44, C46); rounding by C122 |
| C124 | tends: epsilon and delta; no_jump: tends to the value at 0; the formulas over the reals | gain(z) = z Phi(z) + phi(z) is increasing, gain(z) = z + gain(-z) and gain(0) <= 1/2; limits of Phi; uniqueness of limits; the optimum has the highest value (C47), positive for sigma > 0 |
| C125 | sure_of_known, unsure_of_others, answers: predictions of the fitted surrogate, row by row | each step chooses by the surrogate fitted on all points before (C44, C46); either a known point is chosen again - then its regret is 0 (C123), or nothing unknown is left (C124) - or the n choices differ and cover the list |

No property is considered inexpressible.  What the model cannot exhibit (libm
accuracy, sklearn's fit, wall-clock time, matplotlib rendering) is listed
in the trusted base.

## 3. Trusted base

### 3.1 Proof checker and axioms

* The Coq 8.16.1 kernel, including the `vm_compute` machine (used for the
  concrete examples, for the refutation witnesses and for the MD5 digests).
* The development adds no axiom.  It uses the libraries Flocq (binary64) and
  Coquelicot (integrals, derivatives); neither contributes an axiom of its own.
  The axioms below are those of Coq's standard library of real numbers.
  Each `Prop_*.v` file prints the assumptions of each theorem; the table is
  generated from that output by `tools/assumptions.py`.

<!-- axioms:begin -->

**No axioms (closed under the global context)** - 225 theorems:
C01_leaves_partition_curves, C01_root_is_ice, C02_before_partition, C02_exactly_one_leaf, C03_integer_refuted, C04_leaf_is_its_conditions, C05_best_split, C05_sides, C05_tree_splits_optimal, C06_terminates, C07_stop_reason, C08_min_points, C09_never_split_selected, C100_curves, C100_pdp, C100_two, C101_curves, C101_forests, C101_integer_refuted, C101_trees, C104_curves, C104_left_first_refuted, C104_one_axis, C104_order, C104_two, C105_first_best, C105_split_needs_gain_refuted, C105_step_place_refuted, C106_depth_two_refuted, C106_node_size_refuted, C106_one_region, C107_more_points_refuted, C109_curves, C109_incumbent, C109_pdp, C109_ties_refuted, C109_trees, C110_cache, C110_calls, C110_defaults, C110_made, C110_text, C112_model_loss, C118_nan_refuted, C118_region_size, C118_rows, C11_not_numerical, C12_history_independent, C13_conditions, C13_tree_links, C14_constant_never_split, C15_membership_raises, C15_region_or_error, C15_root, C15_root_split_on_categorical, C16_centered_refuted, C16_constructor, C16_root_is_fresh_ice, C16_root_is_given_ice, C16_settings, C17_sample_size_required, C18_call_succeeds, C18_region_is_the_overlap, C18_shrinks_with_the_threshold, C18_thresholds, C19_trees_if_raised, C19_trees_of_a_partition, C20_settings_have_no_influence, C20_single_curve_leaf, C21_calculation_succeeds, C21_x_values, C22_rowwise, C22_values_are_predictions, C23_centered, C24_cartesian_product, C24_order, C25_history, C30_categorical_raises, C31_name_resolves, C31_positions, C31_selection, C32_congruent, C32_false, C32_independent, C32_private, C32_sampling, C32_shared, C32_streams, C33_pairs, C34_extra_configuration, C34_one_more_per_failure, C34_pairs_without_failure, C34_wrong_values, C35_adds, C36_bo_needs_bare, C36_random_needs_list, C36_random_with_list, C37_best, C37_empty, C37_nan, C38_legal, C38_replay, C39_file_shrinks, C39_histories, C39_used_iff, C40_longest_prefix, C41_direction_ignored, C41_every_part, C41_key, C42_distinct, C42_from_grid, C43_constant_fails, C43_later_call_fails, C43_number_of_points, C43_too_few_points, C44_acquisition_steps, C44_fitted_after_sample, C45_bound, C45_bound_reached, C45_exact_if_enough, C45_random_points, C46_always_refits, C47_bare_candidate, C47_get_incumbent, C47_get_optimum, C47_values, C48_update, C49_no_maximization, C50_array, C50_configurations, C50_surrogate_score, C53_any_bounds, C53_dimensions_ignored, C53_errors, C53_for_n_dimensions, C53_scalar_bounds, C57_labels_persist, C57_one_space, C57_raises, C57_sets, C57_two_spaces, C60_first_read, C60_one_calculation_refuted, C60_read_is_final, C61_constructor_succeeds, C62_nothing_to_split, C63_batches, C63_one_hyperparameter, C63_one_stream, C63_repeats_after_drop, C63_repeats_call, C63_split_matters, C64_classes, C64_state, C67_stds_or_variances, C69_errors, C70_constants, C70_errors, C75_not_numerical_refuted, C81_calls, C81_keyword_order, C82_arguments, C82_choice, C82_complementary, C82_errors, C82_flag_assigned, C82_flag_cleared, C82_float_choice, C82_in_trees, C83_fitted_points, C83_last_fit, C83_only_fit_changes, C83_text, C84_benchmark, C84_callable, C84_names, C85_one_sample_refuted, C85_same_seed, C85_samples, C85_seed_range, C85_tree, C86_means_do_not_matter, C89_refines, C91_run, C92_accepted, C92_float, C92_list, C92_predictions, C92_same_curve_refuted, C93_new_samples, C93_no_assignments, C93_other_number_refuted, C93_resolution_breaks, C93_resolution_ignored, C93_resolution_one, C94_argument, C94_argument_refuted, C94_as_values, C94_curve_is_view, C94_handed_out, C94_samples_after_reset, C94_samples_untouched, C94_shared_refuted, C94_write_shows, C95_ambiguous_refuted, C95_benchmarks, C95_callables, C95_key_tells, C95_library, C95_name, C95_own_values_refuted, C95_same_key, C96_all_visited_refuted, C96_item, C96_loop, C96_names, C96_slice, C97_all_equal, C97_values_refuted, C98_flat, C98_flat_pdp_only_refuted, C98_same, C99_alone, C99_batch_refuted, C99_permuted_curves.

**`ClassicalDedekindReals.sig_forall_dec`, `FunctionalExtensionality.functional_extensionality_dep`** - 13 theorems:
C115_grid, C116_grid, C52_styblinski_tang_docstring, C65_ends, C65_grey, C65_identity, C65_lightness, C65_monotone, C65_valid_color, C66_above_one_lighter, C66_below_one_darker, C66_docstring_refuted, C67_below_max_sigma.

**`ClassicalDedekindReals.sig_forall_dec`, `ClassicalDedekindReals.sig_not_dec`, `FunctionalExtensionality.functional_extensionality_dep`** - 9 theorems:
C120_bound, C54_error, C54_formula, C54_nan, C54_order, C54_scale_free, C54_symmetric, C56_no_figure, C56_shape.

**`ClassicalDedekindReals.sig_forall_dec`, `ClassicalDedekindReals.sig_not_dec`, `Classical_Prop.classic`, `FunctionalExtensionality.functional_extensionality_dep`** - 258 theorems:
C01_binary64, C01_with_nan_refuted, C02_binary64, C03_binary64_refuted, C03_sample_in_its_leaf, C09_split_values, C100_tree, C101_incumbents, C102_binary64_refuted, C102_incumbent_refuted, C102_size, C102_value, C102_weighted_mean, C103_averages, C103_averages_refuted, C103_drawn_truth, C103_drawn_truth_refuted, C103_rows, C103_table, C103_table_refuted, C105_no_gain, C105_step, C106_depth_one, C106_split_values, C107_binary64_refuted, C107_curves, C107_one, C107_pdp, C107_two, C108_counts, C108_incumbent, C108_point, C109_one_level, C10_binary64_refuted, C10_leaves_at_most_root, C10_loss_is_within_variance, C10_split_never_increases_loss, C111_confidence, C111_mean, C111_pdp, C111_region, C112_any_order, C112_clear_best, C112_loss, C112_near_best, C112_offered, C112_stop, C113_axis, C113_centered, C113_infinite_refuted, C113_power_of_two, C113_refined_curves, C113_refined_one, C113_refined_pdp, C113_refined_two, C113_split_values, C114_array, C114_array_refuted, C114_configuration, C114_round_trip, C114_sample_in_its_leaf, C114_scale, C114_unscale, C115_near, C115_row, C115_slope, C115_styblinski_tang, C116_empty, C116_near, C116_row, C116_size, C117_five_dimensions_refuted, C117_full_grid, C117_pdp_near, C117_regions, C117_steps_exact, C117_styblinski_tang, C117_success, C118_few_trees, C118_mean_std, C118_no_empty_tree_region, C119_figure, C119_near, C119_no_repetition, C119_one_sampler_refuted, C119_panel, C119_pooled, C11_implied_space, C120_objective, C120_order, C120_points, C120_repetitions_refuted, C121_confidence, C121_exact_refuted, C121_loss, C121_pdp, C122_best_refuted, C122_optimum, C122_value, C123_binary64, C123_choice, C123_first_call, C123_others_refuted, C123_run, C124_certain_last, C124_ei, C124_ei_bounds, C124_lcb, C124_pi, C125_fewer_refuted, C125_first_call, C125_first_call_improvement, C125_improvement, C125_lcb, C125_runs, C23_starts_at_zero_keeps_differences, C24_grid, C26_binary64_refuted, C26_object, C26_pdp_is_mean, C27_weighted_mean, C28_scaling, C28_values, C29_bounds_and_monotone, C29_roundtrip_refuted, C30_arrays, C30_linear_not_clamped, C42_symmetric, C43_exact_steps, C43_first_call, C48_lcb, C48_norm_cdf, C48_pi_eps, C48_pi_eta, C48_pi_half, C48_pi_mean, C48_pi_probability, C48_pi_range, C48_pi_zero, C49_above_improvement, C49_expectation, C49_increasing, C49_mean_decreasing, C49_nonneg, C49_sigma_increasing, C49_zero_sigma, C49_zero_sigma_below_improvement, C51_errors, C51_errors_anywhere, C51_integer_hyperparameter, C51_integrand, C51_pd_integral, C51_repeated, C52_ackley, C52_cross_in_tray, C52_defined, C52_levy, C52_negative_square, C52_square, C52_styblinski_tang, C54_range, C54_same, C55_any_function, C55_best_fit, C55_best_variance, C55_delta, C55_nan, C55_not_implemented, C55_one_dimension, C55_two_selected, C55_value, C56_binary64, C56_binary64_large_refuted, C56_binary64_no_figure, C58_ranges, C59_curve_space, C67_bands, C67_nested, C68_close_lines_refuted, C68_iterator_after_zero, C68_iterator_refuted, C68_lines, C69_one, C69_two, C70_one, C70_two, C71_confidences, C71_many, C71_means, C71_two, C72_many, C72_one, C72_two, C72_two_empty_refuted, C73_plot, C73_star_refuted, C74_many, C74_other_name, C74_two, C74_x1, C75_confidences_one, C75_confidences_two, C75_flat_refuted, C75_incumbent_one, C75_incumbent_two, C75_many, C75_values_one, C75_values_two, C76_colors, C76_ice, C76_many, C76_tree, C77_full, C77_full_many, C77_pdp, C77_region, C78_box, C78_integer_refuted, C78_no_region, C79_boxes, C79_colors, C79_short_refuted, C80_curve, C80_one, C80_one_point_refuted, C80_two, C81_ackley, C81_cross_in_tray, C81_levy, C81_squares, C81_styblinski_tang, C82_by_value, C82_by_value_refuted, C87_binary64_refuted, C87_order_of_samples, C88_binary64_refuted, C88_scaled_variances, C89_loss, C90_incumbent, C90_negated, C90_optimum, C90_same_exploration_refuted, C90_values, C91_negated, C91_negated_binary64, C91_shift_binary64_refuted, C91_unit, C92_corners, C92_two_values, C98_additive, C98_flat_pdp, C98_linear, C98_monotone, C98_monotone_one, C99_binary64_refuted, C99_permuted, C99_repeated, C99_union.

<!-- axioms:end -->

### 3.2 What is modelled

| repository file | model file | remarks |
|---|---|---|
| `pyPDP/utils/utils.py` | `UtilsModel.v`, `SeedModel.v`, `Md5Model.v`, `MmdModel.v`, `PlottingModel.v` | all functions |
| `pyPDP/algorithms/__init__.py`, `ice.py`, `pdp.py` | `IceModel.v`, `DtypeModel.v`, `IceAttrModel.v`, `MemoryModel.v`, `IceSeqModel.v` | drawing in `DrawModel.v` |
| `pyPDP/algorithms/partitioner/__init__.py`, `decision_tree_partitioner.py` | `PartitionModel.v`, `NllModel.v`, `ConditionModel.v` | drawing in `DrawModel.v` |
| `.../random_forest_partitioner.py` | `ForestModel.v` | drawing in `DrawModel.v` |
| `pyPDP/sampler/*.py` | `SamplerModel.v`, `CacheTextModel.v`, `AcquisitionModel.v`, `MmdModel.v` | drawing in `DrawModel.v`; no progress bars, logging |
| `pyPDP/surrogate_models/__init__.py` | `AcquisitionModel.v` | the call on arrays and configurations; `fit`/`predict` are parameters |
| `Algorithm.from_random_points` | `RandomPointsModel.v` | the generator of samples is a parameter; `RandomState` takes True as 1 and False as 0 |
| `pyPDP/surrogate_models/sklearn_surrogates.py` | `WrapperModel.v` | the pipeline is a parameter |
| `pyPDP/blackbox_functions/*.py` | `SyntheticModel.v`, `WrapperModel.v`, `ReadyModel.v` | the benchmark, and for the `get_*` functions the library that makes it, are parameters |
| `pyPDP/utils/plotting.py` | `PlottingModel.v`, `ColorModel.v`, `DrawModel.v` | axis labels, figure grid, colours, what is drawn |
| `pyPDP/utils/advanced_plots.py` and all `plot*` methods | `DrawModel.v` | data coordinates of everything drawn; no legends, markers, titles, layout |
| `examples/main_paper.py`, `main_random_forest.py`, `main_sampler_analysis.py`, `main_meta_pdp.py` | `ExperimentModel.v`, `ForestExperimentModel.v`, `AnalysisModel.v`, `MetaModel.v` | the numbers they compute and the data they draw (C103, C118-C120); the other examples only call the library |

### 3.3 What is assumed of code outside the repository

These are parameters or definitions of the model; the theorems say nothing about
a library version that behaves differently.

* **numpy** (`NumpyModel.v`): `linspace`, `repeat`, `reshape`, `meshgrid`,
  `argmin`, boolean and fancy indexing, `mean`, `min`, `max`.  Sums are
  left-to-right; numpy's pairwise summation differs in rounding only for eight
  terms or more.  The theorems about binary64 that go through longer sums are
  C111_mean, C112_loss and C112_any_order, which hold for every order of the
  additions, and their instances for the model's order; computed refutations use
  fewer than eight terms.
* **Python sequences** (C96, C97): an object with `__getitem__` and without
  `__iter__` is iterated with 0, 1, ... until IndexError; indexing an array by an
  integer raises IndexError outside -n..n-1, slices are clipped; `@dataclass`
  compares the tuples of annotated fields (ICECurve has none).
* **numpy arrays** (C92-C94): assigning floats into an integer array drops the
  fraction and into a boolean array tests for non-zero, without an exception; a
  dimension of length one is repeated in an assignment and other lengths that
  differ raise ValueError; `repeat`, masks and arithmetic give new arrays, while
  `transpose`, basic indexing and `reshape` of a contiguous array give views, and
  `reshape` of a transposed (n, f, g) array is a view exactly when one of the
  lengths is at most one.
* **binary64**: `B64` takes `exp`, `log` and rounding to integer as parameters.
  No accuracy of libm is assumed.  Where a theorem about binary64 mentions log
  axes it says so; otherwise the axes are linear.
* **ConfigSpace** (`ConfigSpaceModel.v`): a space is an ordered list of named
  hyperparameters with distinct names where a theorem says so; no conditions,
  no forbidden clauses.  `sample_configuration(1)` returns a bare configuration
  (`w_bare`), a larger size returns a list.  The result of a batch may depend on
  the sizes of all earlier calls (`w_batch`), because ConfigSpace draws column by
  column.  The tolerance 1e-8 of integer checks is not modelled.
* **Random generators**: arbitrary streams (functions of the seed and of what was
  drawn before).  Distribution and independence are not modelled.
* **Surrogate, objective**: arbitrary functions that may fail.  scikit-learn's
  fitting is a parameter.  They do not modify pyPDP objects.
* **scipy.stats.norm**: the real functions `norm_pdf` and `norm_cdf` of `Gauss.v`
  (C48_norm_cdf states the derivative and the limits); no numerical accuracy.
* **json and the file system**: `json.loads`, `json.dumps` and the digest used as file
  name are arbitrary functions; theorems that need a round trip say so (`json_ok`).
  The file system is a map from names to contents.  Concurrent processes are not
  modelled.
* **matplotlib**: an axis is its two labels, scales and limits and the list of drawn
  things with their data coordinates.  `plot`, `fill_between`, `pcolormesh`, `tripcolor` raise
  for arrays that do not fit, `plot` and `axvspan` for an alpha outside 0..1, the
  triangulation for fewer than three or collinear points.  Rendering is not modelled.
* **colorsys** is transcribed in `ColorModel.v`.
* **hashlib.md5** is not assumed: `Md5Model.v` implements RFC 1321 and agrees with
  the known digests in the examples there.
* Progress bars, logging, warnings and wall-clock time are not modelled.

### 3.4 Simplifications inside the model

* Real-number models (`MmdModel.v`, `NllModel.v`, `SyntheticModel.v`, C47-C49)
  ignore rounding; `nan` is `None`.
* Object identity matters only where stated (C32: heap of spaces; C13: heap of
  regions).  Elsewhere objects are values.
* Seeds are integers, booleans or `None`; other types accepted by numpy are left out.
* `Algorithm` objects are used through their methods; assigning to their fields
  from outside is not an operation of the state machines, except `ice.centered`
  and the fields of C93.  Arrays are values except in C94.

## 4. Testing the theorems

`seeded/LOG.jsonl` records edits of the model that imitate realistic bugs, the
claim each one breaks, and the theorems that stopped proving.
