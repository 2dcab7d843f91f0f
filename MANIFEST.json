{
 "claims": [
  {
   "property": "C01",
   "status": "proved",
   "theorems": [
    "C01_leaves_partition_curves",
    "C01_root_is_ice",
    "C01_binary64",
    "C01_with_nan_refuted"
   ],
   "note": "for every number type with order laws (reals, rationals, binary64); C01_with_nan_refuted shows the loss of a curve with a NaN coordinate"
  },
  {
   "property": "C02",
   "status": "proved",
   "theorems": [
    "C02_exactly_one_leaf",
    "C02_before_partition",
    "C02_binary64"
   ],
   "note": "generic, and for binary64 with linear axes"
  },
  {
   "property": "C03",
   "status": "proved",
   "theorems": [
    "C03_sample_in_its_leaf",
    "C03_binary64_refuted",
    "C03_integer_refuted"
   ],
   "note": "true over the reals for float spaces; refuted in binary64 and for integer hyperparameters (exact arithmetic), as the property says"
  },
  {
   "property": "C04",
   "status": "proved",
   "theorems": [
    "C04_leaf_is_its_conditions"
   ],
   "note": ""
  },
  {
   "property": "C05",
   "status": "proved",
   "theorems": [
    "C05_best_split",
    "C05_sides",
    "C05_tree_splits_optimal"
   ],
   "note": "calc_best_split in isolation, and every split of every reachable tree"
  },
  {
   "property": "C06",
   "status": "proved",
   "theorems": [
    "C06_terminates"
   ],
   "note": ""
  },
  {
   "property": "C07",
   "status": "proved",
   "theorems": [
    "C07_stop_reason"
   ],
   "note": ""
  },
  {
   "property": "C08",
   "status": "proved",
   "theorems": [
    "C08_min_points"
   ],
   "note": ""
  },
  {
   "property": "C09",
   "status": "proved",
   "theorems": [
    "C09_never_split_selected",
    "C09_split_values"
   ],
   "note": ""
  },
  {
   "property": "C10",
   "status": "proved",
   "theorems": [
    "C10_loss_is_within_variance",
    "C10_split_never_increases_loss",
    "C10_leaves_at_most_root",
    "C10_binary64_refuted"
   ],
   "note": "refuted in binary64 (constant uncertainty 0.3)"
  },
  {
   "property": "C11",
   "status": "proved",
   "theorems": [
    "C11_implied_space",
    "C11_not_numerical"
   ],
   "note": ""
  },
  {
   "property": "C12",
   "status": "proved",
   "theorems": [
    "C12_history_independent"
   ],
   "note": ""
  },
  {
   "property": "C13",
   "status": "proved",
   "theorems": [
    "C13_conditions",
    "C13_tree_links"
   ],
   "note": "for regions created by the call; regions of earlier calls keep their old parent"
  },
  {
   "property": "C14",
   "status": "proved",
   "theorems": [
    "C14_constant_never_split"
   ],
   "note": ""
  },
  {
   "property": "C15",
   "status": "proved",
   "theorems": [
    "C15_root",
    "C15_membership_raises",
    "C15_region_or_error",
    "C15_root_split_on_categorical"
   ],
   "note": "partition never fails (C06); membership and get_incumbent_region as stated"
  },
  {
   "property": "C16",
   "status": "proved",
   "theorems": [
    "C16_constructor",
    "C16_settings",
    "C16_root_is_fresh_ice",
    "C16_root_is_given_ice",
    "C16_centered_refuted"
   ],
   "note": "C16_centered_refuted: a centered ICE is not what is partitioned"
  },
  {
   "property": "C17",
   "status": "proved",
   "theorems": [
    "C17_sample_size_required"
   ],
   "note": ""
  },
  {
   "property": "C18",
   "status": "proved",
   "theorems": [
    "C18_region_is_the_overlap",
    "C18_thresholds",
    "C18_shrinks_with_the_threshold",
    "C18_call_succeeds"
   ],
   "note": ""
  },
  {
   "property": "C19",
   "status": "proved",
   "theorems": [
    "C19_trees_of_a_partition",
    "C19_trees_if_raised"
   ],
   "note": ""
  },
  {
   "property": "C20",
   "status": "proved",
   "theorems": [
    "C20_settings_have_no_influence",
    "C20_single_curve_leaf"
   ],
   "note": ""
  },
  {
   "property": "C21",
   "status": "proved",
   "theorems": [
    "C21_x_values",
    "C21_calculation_succeeds"
   ],
   "note": ""
  },
  {
   "property": "C22",
   "status": "proved",
   "theorems": [
    "C22_values_are_predictions",
    "C22_rowwise"
   ],
   "note": ""
  },
  {
   "property": "C23",
   "status": "proved",
   "theorems": [
    "C23_centered",
    "C23_starts_at_zero_keeps_differences"
   ],
   "note": ""
  },
  {
   "property": "C24",
   "status": "proved",
   "theorems": [
    "C24_cartesian_product",
    "C24_grid",
    "C24_order"
   ],
   "note": ""
  },
  {
   "property": "C25",
   "status": "proved",
   "theorems": [
    "C25_history"
   ],
   "note": ""
  },
  {
   "property": "C26",
   "status": "proved",
   "theorems": [
    "C26_pdp_is_mean",
    "C26_binary64_refuted",
    "C26_object"
   ],
   "note": "in binary64 the mean can lie above all values (C26_binary64_refuted)"
  },
  {
   "property": "C27",
   "status": "proved",
   "theorems": [
    "C27_weighted_mean"
   ],
   "note": ""
  },
  {
   "property": "C28",
   "status": "proved",
   "theorems": [
    "C28_scaling",
    "C28_values"
   ],
   "note": ""
  },
  {
   "property": "C29",
   "status": "proved",
   "theorems": [
    "C29_bounds_and_monotone",
    "C29_roundtrip_refuted"
   ],
   "note": "linear scale, |bounds| <= 2^900, |x| <= 2^60; round trip refuted by a computed witness"
  },
  {
   "property": "C30",
   "status": "proved",
   "theorems": [
    "C30_arrays",
    "C30_linear_not_clamped",
    "C30_categorical_raises"
   ],
   "note": ""
  },
  {
   "property": "C31",
   "status": "proved",
   "theorems": [
    "C31_selection",
    "C31_name_resolves",
    "C31_positions"
   ],
   "note": ""
  },
  {
   "property": "C32",
   "status": "proved",
   "theorems": [
    "C32_streams",
    "C32_private",
    "C32_sampling",
    "C32_independent",
    "C32_shared",
    "C32_congruent",
    "C32_false"
   ],
   "note": "any program of holders, copies and samples over any draw function; seeds are integers, booleans or None"
  },
  {
   "property": "C33",
   "status": "proved",
   "theorems": [
    "C33_pairs"
   ],
   "note": ""
  },
  {
   "property": "C34",
   "status": "proved",
   "theorems": [
    "C34_pairs_without_failure",
    "C34_one_more_per_failure",
    "C34_extra_configuration",
    "C34_wrong_values"
   ],
   "note": ""
  },
  {
   "property": "C35",
   "status": "proved",
   "theorems": [
    "C35_adds"
   ],
   "note": ""
  },
  {
   "property": "C36",
   "status": "proved",
   "theorems": [
    "C36_random_needs_list",
    "C36_random_with_list",
    "C36_bo_needs_bare"
   ],
   "note": ""
  },
  {
   "property": "C37",
   "status": "proved",
   "theorems": [
    "C37_best",
    "C37_empty",
    "C37_nan"
   ],
   "note": ""
  },
  {
   "property": "C38",
   "status": "proved",
   "theorems": [
    "C38_replay",
    "C38_legal"
   ],
   "note": ""
  },
  {
   "property": "C39",
   "status": "proved",
   "theorems": [
    "C39_used_iff",
    "C39_histories",
    "C39_file_shrinks"
   ],
   "note": ""
  },
  {
   "property": "C40",
   "status": "proved",
   "theorems": [
    "C40_longest_prefix"
   ],
   "note": ""
  },
  {
   "property": "C41",
   "status": "proved",
   "theorems": [
    "C41_direction_ignored",
    "C41_key",
    "C41_every_part"
   ],
   "note": "both directions use the same file; shown on every sampler and by a concrete run"
  },
  {
   "property": "C42",
   "status": "proved",
   "theorems": [
    "C42_distinct",
    "C42_from_grid",
    "C42_symmetric"
   ],
   "note": ""
  },
  {
   "property": "C43",
   "status": "proved",
   "theorems": [
    "C43_first_call",
    "C43_exact_steps",
    "C43_too_few_points",
    "C43_number_of_points",
    "C43_later_call_fails",
    "C43_constant_fails"
   ],
   "note": "capacity of the grid; exact number of steps over the reals"
  },
  {
   "property": "C44",
   "status": "proved",
   "theorems": [
    "C44_fitted_after_sample",
    "C44_acquisition_steps"
   ],
   "note": ""
  },
  {
   "property": "C45",
   "status": "proved",
   "theorems": [
    "C45_random_points",
    "C45_exact_if_enough",
    "C45_bound",
    "C45_bound_reached"
   ],
   "note": ""
  },
  {
   "property": "C46",
   "status": "proved",
   "theorems": [
    "C46_always_refits"
   ],
   "note": ""
  },
  {
   "property": "C47",
   "status": "proved",
   "theorems": [
    "C47_values",
    "C47_get_optimum",
    "C47_get_incumbent",
    "C47_bare_candidate"
   ],
   "note": ""
  },
  {
   "property": "C48",
   "status": "proved",
   "theorems": [
    "C48_update",
    "C48_lcb",
    "C48_norm_cdf",
    "C48_pi_range",
    "C48_pi_zero",
    "C48_pi_eta",
    "C48_pi_mean",
    "C48_pi_eps",
    "C48_pi_half",
    "C48_pi_probability"
   ],
   "note": "over the reals with the standard normal distribution proved from its density"
  },
  {
   "property": "C49",
   "status": "proved",
   "theorems": [
    "C49_nonneg",
    "C49_zero_sigma",
    "C49_above_improvement",
    "C49_zero_sigma_below_improvement",
    "C49_increasing",
    "C49_mean_decreasing",
    "C49_sigma_increasing",
    "C49_expectation",
    "C49_no_maximization"
   ],
   "note": "over the reals; the closed form is proved to be the expectation"
  },
  {
   "property": "C50",
   "status": "proved",
   "theorems": [
    "C50_array",
    "C50_configurations",
    "C50_surrogate_score"
   ],
   "note": ""
  },
  {
   "property": "C51",
   "status": "proved",
   "theorems": [
    "C51_pd_integral",
    "C51_integrand",
    "C51_repeated",
    "C51_errors",
    "C51_errors_anywhere",
    "C51_integer_hyperparameter"
   ],
   "note": ""
  },
  {
   "property": "C52",
   "status": "proved",
   "theorems": [
    "C52_square",
    "C52_negative_square",
    "C52_levy",
    "C52_ackley",
    "C52_styblinski_tang",
    "C52_styblinski_tang_docstring",
    "C52_cross_in_tray",
    "C52_defined"
   ],
   "note": "the documented global minimum of StyblinskiTang is off in the last digits (C52_styblinski_tang_docstring)"
  },
  {
   "property": "C53",
   "status": "proved",
   "theorems": [
    "C53_scalar_bounds",
    "C53_any_bounds",
    "C53_errors",
    "C53_dimensions_ignored",
    "C53_for_n_dimensions"
   ],
   "note": ""
  },
  {
   "property": "C54",
   "status": "proved",
   "theorems": [
    "C54_range",
    "C54_formula",
    "C54_order",
    "C54_symmetric",
    "C54_same",
    "C54_scale_free",
    "C54_nan",
    "C54_error"
   ],
   "note": "over the reals, nan as None"
  },
  {
   "property": "C55",
   "status": "proved",
   "theorems": [
    "C55_value",
    "C55_any_function",
    "C55_nan",
    "C55_best_fit",
    "C55_best_variance",
    "C55_one_dimension",
    "C55_not_implemented",
    "C55_two_selected",
    "C55_delta"
   ],
   "note": "over the reals, nan as None"
  },
  {
   "property": "C56",
   "status": "proved",
   "theorems": [
    "C56_shape",
    "C56_no_figure",
    "C56_binary64",
    "C56_binary64_no_figure",
    "C56_binary64_large_refuted"
   ],
   "note": "binary64 square root and ceiling as well as exact arithmetic"
  },
  {
   "property": "C57",
   "status": "proved",
   "theorems": [
    "C57_raises",
    "C57_sets",
    "C57_labels_persist",
    "C57_one_space",
    "C57_two_spaces"
   ],
   "note": ""
  },
  {
   "property": "C58",
   "status": "proved",
   "theorems": [
    "C58_ranges"
   ],
   "note": ""
  },
  {
   "property": "C59",
   "status": "proved",
   "theorems": [
    "C59_curve_space"
   ],
   "note": ""
  },
  {
   "property": "C60",
   "status": "proved",
   "theorems": [
    "C60_first_read",
    "C60_read_is_final",
    "C60_one_calculation_refuted"
   ],
   "note": "C60_one_calculation_refuted shows arrays from two calculations"
  },
  {
   "property": "C61",
   "status": "proved",
   "theorems": [
    "C61_constructor_succeeds"
   ],
   "note": ""
  },
  {
   "property": "C62",
   "status": "proved",
   "theorems": [
    "C62_nothing_to_split"
   ],
   "note": ""
  },
  {
   "property": "C63",
   "status": "proved",
   "theorems": [
    "C63_batches",
    "C63_one_stream",
    "C63_one_hyperparameter",
    "C63_split_matters",
    "C63_repeats_after_drop",
    "C63_repeats_call"
   ],
   "note": "the split into calls does not matter for a stream of configurations; it does for the columnwise order of ConfigSpace (C63_split_matters)"
  },
  {
   "property": "C64",
   "status": "proved",
   "theorems": [
    "C64_classes",
    "C64_state"
   ],
   "note": "digests computed by MD5 implemented in Gallina"
  },
  {
   "property": "C65",
   "status": "proved",
   "theorems": [
    "C65_identity",
    "C65_valid_color",
    "C65_lightness",
    "C65_monotone",
    "C65_ends",
    "C65_grey"
   ],
   "note": ""
  },
  {
   "property": "C66",
   "status": "proved",
   "theorems": [
    "C66_docstring_refuted",
    "C66_below_one_darker",
    "C66_above_one_lighter"
   ],
   "note": "the docstring is refuted; the direction is the other way round"
  },
  {
   "property": "C67",
   "status": "proved",
   "theorems": [
    "C67_bands",
    "C67_nested",
    "C67_below_max_sigma",
    "C67_stds_or_variances"
   ],
   "note": ""
  },
  {
   "property": "C68",
   "status": "proved",
   "theorems": [
    "C68_lines",
    "C68_close_lines_refuted",
    "C68_iterator_refuted",
    "C68_iterator_after_zero"
   ],
   "note": "refuted for factors below 1/5 and for iterators"
  },
  {
   "property": "C69",
   "status": "proved",
   "theorems": [
    "C69_one",
    "C69_two",
    "C69_errors"
   ],
   "note": ""
  },
  {
   "property": "C70",
   "status": "proved",
   "theorems": [
    "C70_one",
    "C70_two",
    "C70_constants",
    "C70_errors"
   ],
   "note": ""
  },
  {
   "property": "C71",
   "status": "proved",
   "theorems": [
    "C71_means",
    "C71_confidences",
    "C71_two",
    "C71_many"
   ],
   "note": ""
  },
  {
   "property": "C72",
   "status": "proved",
   "theorems": [
    "C72_one",
    "C72_two",
    "C72_two_empty_refuted",
    "C72_many"
   ],
   "note": "an empty sampler cannot be plotted over two hyperparameters (C72_two_empty_refuted)"
  },
  {
   "property": "C73",
   "status": "proved",
   "theorems": [
    "C73_plot",
    "C73_star_refuted"
   ],
   "note": "the position of the star is refuted for a hyperparameter that is not the first"
  },
  {
   "property": "C74",
   "status": "proved",
   "theorems": [
    "C74_x1",
    "C74_two",
    "C74_other_name",
    "C74_many"
   ],
   "note": "the last marker is drawn at (0, x1)"
  },
  {
   "property": "C75",
   "status": "proved",
   "theorems": [
    "C75_values_one",
    "C75_values_two",
    "C75_confidences_one",
    "C75_confidences_two",
    "C75_incumbent_one",
    "C75_incumbent_two",
    "C75_flat_refuted",
    "C75_many",
    "C75_not_numerical_refuted"
   ],
   "note": "that every curve can be plotted is refuted for collinear points and for spaces with non-numerical hyperparameters"
  },
  {
   "property": "C76",
   "status": "proved",
   "theorems": [
    "C76_ice",
    "C76_tree",
    "C76_colors",
    "C76_many"
   ],
   "note": ""
  },
  {
   "property": "C77",
   "status": "proved",
   "theorems": [
    "C77_pdp",
    "C77_full",
    "C77_full_many",
    "C77_region"
   ],
   "note": ""
  },
  {
   "property": "C78",
   "status": "proved",
   "theorems": [
    "C78_box",
    "C78_no_region",
    "C78_integer_refuted"
   ],
   "note": "that only hyperparameters that are not selected are drawn is refuted for integer ones"
  },
  {
   "property": "C79",
   "status": "proved",
   "theorems": [
    "C79_boxes",
    "C79_colors",
    "C79_short_refuted"
   ],
   "note": "that every tree is drawn is refuted for too few colours"
  },
  {
   "property": "C80",
   "status": "proved",
   "theorems": [
    "C80_curve",
    "C80_one",
    "C80_two",
    "C80_one_point_refuted"
   ],
   "note": "one grid point per axis is refuted; plot_hyperparameter_array_1D draws new samples for every hyperparameter"
  },
  {
   "property": "C81",
   "status": "proved",
   "theorems": [
    "C81_levy",
    "C81_ackley",
    "C81_cross_in_tray",
    "C81_styblinski_tang",
    "C81_squares",
    "C81_calls",
    "C81_keyword_order"
   ],
   "note": ""
  },
  {
   "property": "C82",
   "status": "proved",
   "theorems": [
    "C82_arguments",
    "C82_errors",
    "C82_by_value",
    "C82_by_value_refuted",
    "C82_complementary",
    "C82_choice",
    "C82_float_choice",
    "C82_in_trees",
    "C82_flag_assigned",
    "C82_flag_cleared"
   ],
   "note": "that a condition is satisfied by its own value is refuted in binary64"
  },
  {
   "property": "C83",
   "status": "proved",
   "theorems": [
    "C83_fitted_points",
    "C83_last_fit",
    "C83_only_fit_changes",
    "C83_text"
   ],
   "note": "the pipeline is a parameter; scikit-learn's fit is not modelled"
  },
  {
   "property": "C84",
   "status": "proved",
   "theorems": [
    "C84_benchmark",
    "C84_callable",
    "C84_names"
   ],
   "note": "the benchmark is a parameter; the functions that build benchmarks are not modelled"
  },
  {
   "property": "C85",
   "status": "proved",
   "theorems": [
    "C85_samples",
    "C85_same_seed",
    "C85_seed_range",
    "C85_tree",
    "C85_one_sample_refuted"
   ],
   "note": "that any number of samples works is refuted for one: sample_configuration(1) returns a bare configuration"
  },
  {
   "property": "C86",
   "status": "proved",
   "theorems": [
    "C86_means_do_not_matter"
   ],
   "note": ""
  },
  {
   "property": "C87",
   "status": "proved",
   "theorems": [
    "C87_order_of_samples",
    "C87_binary64_refuted"
   ],
   "note": "refuted in binary64"
  },
  {
   "property": "C88",
   "status": "proved",
   "theorems": [
    "C88_scaled_variances",
    "C88_binary64_refuted"
   ],
   "note": "refuted in binary64"
  },
  {
   "property": "C89",
   "status": "proved",
   "theorems": [
    "C89_refines",
    "C89_loss"
   ],
   "note": ""
  },
  {
   "property": "C90",
   "status": "proved",
   "theorems": [
    "C90_values",
    "C90_optimum",
    "C90_negated",
    "C90_incumbent",
    "C90_same_exploration_refuted"
   ],
   "note": "over the reals; with the exploration unchanged the same choice is refuted"
  },
  {
   "property": "C91",
   "status": "proved",
   "theorems": [
    "C91_run",
    "C91_unit",
    "C91_negated",
    "C91_negated_binary64",
    "C91_shift_binary64_refuted"
   ],
   "note": "a shift in binary64 is refuted"
  },
  {
   "property": "C92",
   "status": "proved",
   "theorems": [
    "C92_float",
    "C92_list",
    "C92_accepted",
    "C92_corners",
    "C92_predictions",
    "C92_two_values",
    "C92_same_curve_refuted"
   ],
   "note": "that the curves do not depend on the element type is refuted"
  },
  {
   "property": "C93",
   "status": "proved",
   "theorems": [
    "C93_no_assignments",
    "C93_new_samples",
    "C93_other_number_refuted",
    "C93_resolution_ignored",
    "C93_resolution_breaks",
    "C93_resolution_one"
   ],
   "note": "the docstring of reset is refuted for another number of samples"
  },
  {
   "property": "C94",
   "status": "proved",
   "theorems": [
    "C94_as_values",
    "C94_write_shows",
    "C94_samples_after_reset",
    "C94_handed_out",
    "C94_curve_is_view",
    "C94_samples_untouched",
    "C94_argument",
    "C94_argument_refuted",
    "C94_shared_refuted"
   ],
   "note": "refuted for surrogates that return arrays they keep, and for one sample with a surrogate that writes into its argument"
  },
  {
   "property": "C95",
   "status": "proved",
   "theorems": [
    "C95_same_key",
    "C95_callables",
    "C95_benchmarks",
    "C95_own_values_refuted",
    "C95_key_tells",
    "C95_library",
    "C95_ambiguous_refuted",
    "C95_name"
   ],
   "note": "bug: objectives with one text share a cache file; positive parts assume a digest without collisions"
  },
  {
   "property": "C96",
   "status": "proved",
   "theorems": [
    "C96_item",
    "C96_loop",
    "C96_names",
    "C96_slice",
    "C96_all_visited_refuted"
   ],
   "note": "that a loop which does not raise visits every curve is refuted"
  },
  {
   "property": "C97",
   "status": "proved",
   "theorems": [
    "C97_all_equal",
    "C97_values_refuted"
   ],
   "note": "bug: the dataclass has no annotated fields; that equal curves have equal values is refuted"
  },
  {
   "property": "C98",
   "status": "proved",
   "theorems": [
    "C98_flat",
    "C98_flat_pdp",
    "C98_same",
    "C98_additive",
    "C98_monotone",
    "C98_monotone_one",
    "C98_linear",
    "C98_flat_pdp_only_refuted"
   ],
   "note": "that a flat PDP means flat curves is refuted"
  },
  {
   "property": "C99",
   "status": "proved",
   "theorems": [
    "C99_alone",
    "C99_permuted_curves",
    "C99_permuted",
    "C99_repeated",
    "C99_union",
    "C99_batch_refuted",
    "C99_binary64_refuted"
   ],
   "note": "refuted for surrogates that look at the batch, and for the order of the samples in binary64"
  },
  {
   "property": "C100",
   "status": "proved",
   "theorems": [
    "C100_curves",
    "C100_pdp",
    "C100_two",
    "C100_tree"
   ],
   "note": ""
  },
  {
   "property": "C101",
   "status": "proved",
   "theorems": [
    "C101_curves",
    "C101_trees",
    "C101_forests",
    "C101_incumbents",
    "C101_integer_refuted"
   ],
   "note": "the leaf of a configuration with an integer hyperparameter in place of a float one is refuted"
  },
  {
   "property": "C102",
   "status": "proved",
   "theorems": [
    "C102_value",
    "C102_weighted_mean",
    "C102_size",
    "C102_incumbent_refuted",
    "C102_binary64_refuted"
   ],
   "note": "that a split makes the incumbent's region more confident is refuted; the value is refuted in binary64 for tiny deviations"
  },
  {
   "property": "C103",
   "status": "proved",
   "theorems": [
    "C103_rows",
    "C103_averages",
    "C103_table",
    "C103_averages_refuted",
    "C103_table_refuted",
    "C103_drawn_truth",
    "C103_drawn_truth_refuted"
   ],
   "note": "bug: visualize_bad_nll averages relative gains of running sums; that a positive table entry means better regions on average is refuted; its drawn ground truth counts the offset of the space twice"
  },
  {
   "property": "C104",
   "status": "proved",
   "theorems": [
    "C104_order",
    "C104_curves",
    "C104_one_axis",
    "C104_two",
    "C104_left_first_refuted"
   ],
   "note": "bug: figure_4 unpacks the leaves as left, right but they come right, left"
  },
  {
   "property": "C105",
   "status": "proved",
   "theorems": [
    "C105_first_best",
    "C105_no_gain",
    "C105_split_needs_gain_refuted",
    "C105_step",
    "C105_step_place_refuted"
   ],
   "note": "refuted: that a split needs a gain; that a step is split where it is"
  },
  {
   "property": "C106",
   "status": "proved",
   "theorems": [
    "C106_one_region",
    "C106_split_values",
    "C106_depth_one",
    "C106_depth_two_refuted",
    "C106_node_size_refuted"
   ],
   "note": "refuted for trees of depth two"
  },
  {
   "property": "C107",
   "status": "proved",
   "theorems": [
    "C107_curves",
    "C107_pdp",
    "C107_one",
    "C107_two",
    "C107_more_points_refuted",
    "C107_binary64_refuted"
   ],
   "note": "refuted for grids that are not refinements and for binary64"
  },
  {
   "property": "C108",
   "status": "proved",
   "theorems": [
    "C108_point",
    "C108_incumbent",
    "C108_counts"
   ],
   "note": ""
  },
  {
   "property": "C109",
   "status": "proved",
   "theorems": [
    "C109_curves",
    "C109_pdp",
    "C109_trees",
    "C109_incumbent",
    "C109_one_level",
    "C109_ties_refuted"
   ],
   "note": "C109_ties_refuted: with a tie between two hyperparameters the order decides the tree and its loss; the tree theorem therefore assumes no such ties"
  },
  {
   "property": "C110",
   "status": "proved",
   "theorems": [
    "C110_made",
    "C110_calls",
    "C110_defaults",
    "C110_text",
    "C110_cache"
   ],
   "note": "C110_cache: the task and the benchmark's seed are not part of a sampler's cache key"
  },
  {
   "property": "C111",
   "status": "proved",
   "theorems": [
    "C111_mean",
    "C111_pdp",
    "C111_region",
    "C111_confidence"
   ],
   "note": ""
  },
  {
   "property": "C112",
   "status": "proved",
   "theorems": [
    "C112_loss",
    "C112_model_loss",
    "C112_any_order",
    "C112_offered",
    "C112_near_best",
    "C112_clear_best",
    "C112_stop"
   ],
   "note": ""
  },
  {
   "property": "C113",
   "status": "proved",
   "theorems": [
    "C113_axis",
    "C113_power_of_two",
    "C113_refined_curves",
    "C113_refined_pdp",
    "C113_refined_one",
    "C113_refined_two",
    "C113_split_values",
    "C113_centered",
    "C113_infinite_refuted"
   ],
   "note": ""
  },
  {
   "property": "C114",
   "status": "proved",
   "theorems": [
    "C114_unscale",
    "C114_configuration",
    "C114_array",
    "C114_array_refuted",
    "C114_scale",
    "C114_round_trip",
    "C114_sample_in_its_leaf"
   ],
   "note": "C114_array_refuted: the array version exceeds the upper bound"
  },
  {
   "property": "C115",
   "status": "proved",
   "theorems": [
    "C115_near",
    "C115_row",
    "C115_grid",
    "C115_styblinski_tang",
    "C115_slope"
   ],
   "note": ""
  },
  {
   "property": "C116",
   "status": "proved",
   "theorems": [
    "C116_size",
    "C116_empty",
    "C116_near",
    "C116_row",
    "C116_grid"
   ],
   "note": ""
  },
  {
   "property": "C117",
   "status": "proved",
   "theorems": [
    "C117_success",
    "C117_full_grid",
    "C117_steps_exact",
    "C117_pdp_near",
    "C117_styblinski_tang",
    "C117_regions",
    "C117_five_dimensions_refuted"
   ],
   "note": "refuted for five hyperparameters in binary64 (one value per axis too many); pow is assumed correctly rounded there"
  },
  {
   "property": "C118",
   "status": "proved",
   "theorems": [
    "C118_rows",
    "C118_mean_std",
    "C118_region_size",
    "C118_no_empty_tree_region",
    "C118_few_trees",
    "C118_nan_refuted"
   ],
   "note": "refuted for three trees (nan for an empty region)"
  },
  {
   "property": "C119",
   "status": "proved",
   "theorems": [
    "C119_panel",
    "C119_pooled",
    "C119_near",
    "C119_figure",
    "C119_one_sampler_refuted",
    "C119_no_repetition"
   ],
   "note": "refuted for one sampler (TypeError)"
  },
  {
   "property": "C120",
   "status": "proved",
   "theorems": [
    "C120_objective",
    "C120_repetitions_refuted",
    "C120_points",
    "C120_order",
    "C120_bound"
   ],
   "note": "refuted in binary64 for three repetitions; division by 0 other than 0/0 is taken to be nan"
  },
  {
   "property": "C121",
   "status": "proved",
   "theorems": [
    "C121_loss",
    "C121_pdp",
    "C121_confidence",
    "C121_exact_refuted"
   ],
   "note": "without tolerance refuted"
  },
  {
   "property": "C122",
   "status": "proved",
   "theorems": [
    "C122_value",
    "C122_optimum",
    "C122_best_refuted"
   ],
   "note": "best candidate refuted, near-best proved"
  },
  {
   "property": "C123",
   "status": "proved",
   "theorems": [
    "C123_choice",
    "C123_binary64",
    "C123_run",
    "C123_first_call",
    "C123_others_refuted"
   ],
   "note": "refuted for EI and PI, proved for LCB"
  },
  {
   "property": "C124",
   "status": "proved",
   "theorems": [
    "C124_ei_bounds",
    "C124_ei",
    "C124_pi",
    "C124_lcb",
    "C124_certain_last"
   ],
   "note": ""
  },
  {
   "property": "C125",
   "status": "proved",
   "theorems": [
    "C125_lcb",
    "C125_improvement",
    "C125_runs",
    "C125_first_call",
    "C125_first_call_improvement",
    "C125_fewer_refuted"
   ],
   "note": "fewer steps refuted"
  }
 ]
}