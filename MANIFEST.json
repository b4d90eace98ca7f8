{
 "claims": [
  {
   "property": "C01",
   "status": "proved",
   "theorems": [
    "C01_universe_size",
    "C01_reach_reads_kplus",
    "C01_frequency_is_difference",
    "C01_argument_ranges",
    "C01_kplus_roundtrip",
    "C01_frequencies_roundtrip",
    "C01_constructor_rejects"
   ],
   "note": "Exact arithmetic (integers); the model is polymorphic in the number type."
  },
  {
   "property": "C02",
   "status": "proved",
   "theorems": [
    "C02_histogram_accounts_for_universe",
    "C02_histogram_nonneg_iff",
    "C02_no_universe_raises"
   ],
   "note": "Exact integer arithmetic."
  },
  {
   "property": "C03",
   "status": "proved",
   "theorems": [
    "C03_kplus_counts_users",
    "C03_zero_counts_inflate",
    "C03_zero_count_refuted",
    "C03_no_frequencies_raises"
   ],
   "note": "Positive counts: proved. The last sentence of the property is false of the code: a count of 0 wraps to the last bucket; C03_zero_count_refuted is a witness and C03_zero_counts_inflate gives the exact wrong value."
  },
  {
   "property": "C04",
   "status": "proved",
   "theorems": [
    "C04_reach_by_spend_counts_users"
   ],
   "note": ""
  },
  {
   "property": "C05",
   "status": "proved",
   "theorems": [
    "C05_reach_by_impressions_counts_users",
    "C05_whole_log"
   ],
   "note": ""
  },
  {
   "property": "C06",
   "status": "proved",
   "theorems": [
    "C06_monotone_in_spend",
    "C06_monotone_in_impressions",
    "C06_antitone_in_frequency"
   ],
   "note": ""
  },
  {
   "property": "C07",
   "status": "proved",
   "theorems": [
    "C07_union_bounds",
    "C07_component_lower_bound",
    "C07_full_spend_reaches_everyone",
    "C07_publisher_maxima"
   ],
   "note": ""
  },
  {
   "property": "C08",
   "status": "proved",
   "theorems": [
    "C08_spend_by_impressions_least",
    "C08_zero_and_overflow",
    "C08_impressions_by_spend_sorted",
    "C08_galois_sorted",
    "C08_unsorted_log_refuted"
   ],
   "note": "Price-order hypothesis for impressions_by_spend is part of the property; violation for unsorted logs is C08_unsorted_log_refuted."
  },
  {
   "property": "C09",
   "status": "proved",
   "theorems": [
    "C09_matching_spend",
    "C09_matching_impressions"
   ],
   "note": "For positive prices; with a price <= 0, zero impressions cost 0 and buy the free impression, covered by the at-least half."
  },
  {
   "property": "C10",
   "status": "proved",
   "theorems": [
    "C10_spend_vector_length",
    "C10_impression_vector_length",
    "C10_returned_point",
    "C10_returned_point_impressions",
    "C10_negative_impressions_refuted",
    "C10_default_universe",
    "C10_default_name_refuted",
    "C10_names",
    "C10_impressions_by_spend_each"
   ],
   "note": "For non-negative impression counts; a negative count of the right length can raise IndexError (C10_negative_impressions_refuted). The documented default name raises NameError (C10_default_name_refuted)."
  },
  {
   "property": "C11",
   "status": "proved",
   "theorems": [
    "C11_log_order_irrelevant",
    "C11_publisher_order_irrelevant",
    "C11_user_names_irrelevant"
   ],
   "note": ""
  },
  {
   "property": "C12",
   "status": "proved",
   "theorems": [
    "C12_round_trip",
    "C12_every_line_counts",
    "C12_accepted",
    "C12_first_bad_line",
    "C12_bad_line_is_an_error",
    "C12_complete"
   ],
   "note": "Float literals are a parameter (print-back hypothesis, shown satisfiable by a fraction format); integer literals, lines and commas are modelled in full."
  },
  {
   "property": "C13",
   "status": "proved",
   "theorems": [
    "C13_round_trip",
    "C13_same_reach_by_spend",
    "C13_same_reach_by_impressions",
    "C13_read_any_directory",
    "C13_bad_file_fails",
    "C13_reads_are_past_reads",
    "C13_current_if_not_changed_after_first_read",
    "C13_cache_bounded",
    "C13_universe_lost_refuted",
    "C13_stale_read_refuted",
    "C13_duplicate_names_refuted",
    "C13_copy_refuted"
   ],
   "note": "Full over all disks and histories; the four violations are *_refuted theorems with witnesses."
  },
  {
   "property": "C14",
   "status": "proved",
   "theorems": [
    "C14_open",
    "C14_add_existing",
    "C14_add_new",
    "C14_add_reports",
    "C14_names_listed",
    "C14_history",
    "C14_reopen",
    "C14_interrupted_add",
    "C14_interrupted_add_refuted",
    "C14_lookup_before_add_refuted"
   ],
   "note": "Invariant over all histories of add; crash points as prefixes of the elementary disk operations; two violations are *_refuted theorems."
  },
  {
   "property": "C15",
   "status": "proved",
   "theorems": [
    "C15_exact_users",
    "C15_homogeneous_frequencies",
    "C15_heterogeneous_frequencies",
    "C15_heavy_tailed_frequencies",
    "C15_heavy_tailed_refused",
    "C15_publisher_reach",
    "C15_generation_succeeds"
   ],
   "note": "All random outcomes: numpy draws and shuffles are functions of a state, with what numpy documents (ranges, permutation) as hypotheses."
  },
  {
   "property": "C16",
   "status": "proved",
   "theorems": [
    "C16_spend_by_impressions",
    "C16_impressions_by_spend",
    "C16_max_spend_and_round_trip",
    "C16_users_at_spend"
   ],
   "note": "Exact rationals; all id lists and prices."
  },
  {
   "property": "C17",
   "status": "proved",
   "theorems": [
    "C17_publisher_preserved",
    "C17_data_set",
    "C17_union_of_labels",
    "C17_wrong_size_refused",
    "C17_publishers_dropped_refuted",
    "C17_generator_argument_refuted",
    "C17_repeated_labels_refuted",
    "C17_independent_data_set",
    "C17_sequential_data_set"
   ],
   "note": "Set iteration order is a parameter. Three violations are *_refuted theorems."
  },
  {
   "property": "C18",
   "status": "proved",
   "theorems": [
    "C18_consumption_is_worst_bucket",
    "C18_bucket_consumption"
   ],
   "note": "Exact rationals; ranges of buckets on the unit circle, worst bucket attained and never exceeded."
  },
  {
   "property": "C19",
   "status": "proved",
   "theorems": [
    "C19_mechanisms",
    "C19_appending_never_lowers",
    "C19_subadditive",
    "C19_additive_full_range",
    "C19_order_irrelevant",
    "C19_disjoint_ranges_compose_in_parallel"
   ],
   "note": "Appending, reordering, full-range additivity and parallel composition of disjoint ranges."
  },
  {
   "property": "C20",
   "status": "proved",
   "theorems": [
    "C20_simulated_reach_well_formed",
    "C20_requested_frequencies",
    "C20_impressions_bought",
    "C20_request_succeeds"
   ],
   "note": "For every behaviour of sketches, estimator, noise and generator."
  },
  {
   "property": "C21",
   "status": "proved",
   "theorems": [
    "C21_reach_below_impressions",
    "C21_no_impressions_refuted",
    "C21_one_impression_refuted"
   ],
   "note": "Violations at 0 and 1 impressions exhibited by the two _refuted theorems."
  },
  {
   "property": "C22",
   "status": "proved",
   "theorems": [
    "C22_reach_request_charges_budget",
    "C22_venn_request_charges_budget",
    "C22_venn_zero_spends_free",
    "C22_venn_frequency_refused"
   ],
   "note": "Hypothesis: the external estimator reports noise parameters that add up to those it was given."
  },
  {
   "property": "C23",
   "status": "proved",
   "theorems": [
    "C23_m3_within_budget",
    "C23_m3_exact",
    "C23_m3_few_publishers",
    "C23_single_publisher_exact",
    "C23_single_publisher_within_budget"
   ],
   "note": "stays_within covers every prefix of recorded events and every failure point."
  },
  {
   "property": "C24",
   "status": "proved",
   "theorems": [
    "C24_regions_count_users",
    "C24_region_is_exact_reach",
    "C24_regions_add_up",
    "C24_total_is_union_reach",
    "C24_free_impressions_refuted",
    "C24_too_many_publishers_refused"
   ],
   "note": "Free impressions at a zero-spend publisher break the equality with union reach (C24_free_impressions_refuted)."
  },
  {
   "property": "C25",
   "status": "proved",
   "theorems": [
    "C25_points_are_region_sums",
    "C25_monotone",
    "C25_subadditive",
    "C25_nonnegative",
    "C25_points_consistent",
    "C25_negative_reach_refuted",
    "C25_noiseless_points_exact",
    "C25_no_spend",
    "C25_no_register",
    "C25_nothing_bought_refuted"
   ],
   "note": "Negative noised cardinality breaks non-negativity (C25_negative_reach_refuted)."
  },
  {
   "property": "C26",
   "status": "proved",
   "theorems": [
    "C26_answer_brackets_target",
    "C26_quantile_inverts",
    "C26_search_ends",
    "C26_raises_iff",
    "C26_goerg_impressions",
    "C26_goerg_spend"
   ],
   "note": "For every reach function; instantiated for the Goerg impression curve. Reach function is a parameter returning a value or an exception."
  },
  {
   "property": "C27",
   "status": "proved",
   "theorems": [
    "C27_accepts_exactly_valid_points",
    "C27_interpolates",
    "C27_strictly_increasing",
    "C27_below_max_reach",
    "C27_max_reach_is_limit",
    "C27_kplus_nonincreasing",
    "C27_zero_at_zero",
    "C27_concave",
    "C27_zero_training_reach_refuted"
   ],
   "note": "Exact rational arithmetic; zero training reach exhibited by the _refuted theorem."
  },
  {
   "property": "C28",
   "status": "proved",
   "theorems": [
    "C28_spend_is_impressions",
    "C28_constant_price",
    "C28_training_spend",
    "C28_reports_its_spend",
    "C28_unknown_price_rejected"
   ],
   "note": "Exact rational arithmetic."
  },
  {
   "property": "C29",
   "status": "proved",
   "theorems": [
    "C29_mixed_points_refused",
    "C29_union_bounds",
    "C29_monotone",
    "C29_one_active",
    "C29_formula",
    "C29_solver_constraints",
    "C29_fit_gives_coefficients",
    "C29_by_spend_buys_impressions",
    "C29_by_spend_fails"
   ],
   "note": "For all publisher counts, curves and coefficients; the solver (cvxopt) is a parameter whose feasibility is a hypothesis of the fit theorem."
  },
  {
   "property": "C30",
   "status": "proved",
   "theorems": [
    "C30_universe",
    "C30_union_bounds",
    "C30_monotone",
    "C30_one_active",
    "C30_solver_constraints",
    "C30_fit_gives_weights",
    "C30_universe_bound_refuted"
   ],
   "note": "The bound by N is refuted with a witness; bounds that hold are proved for all inputs."
  },
  {
   "property": "C31",
   "status": "proved",
   "theorems": [
    "C31_fit_not_worse",
    "C31_loss_is_squared_error",
    "C31_data_symmetric",
    "C31_bound_is_exact",
    "C31_step_is_best",
    "C31_descent_sound",
    "C31_coefficients_admissible",
    "C31_fit_gives_coefficients",
    "C31_prediction_matches_fit",
    "C31_tolerant_start_refuted",
    "C31_bound_iff_check_refuted",
    "C31_converged_flag_refuted",
    "C31_loss_is_training_error",
    "C31_start_check",
    "C31_feasible_start_accepted"
   ],
   "note": "numpy nan (all predictors zero) is an error value in the model; the theorems speak about steps that return a number."
  },
  {
   "property": "C32",
   "status": "proved",
   "theorems": [
    "C32_mixture_start",
    "C32_mixture_fit",
    "C32_mixture_fit_only",
    "C32_restricted_fit_only",
    "C32_restricted_fit",
    "C32_keeps_best",
    "C32_number_of_starts",
    "C32_stops_when_close",
    "C32_k_smallest_losses",
    "C32_ends",
    "C32_mixture_makes_ten_starts",
    "C32_success_flag_refuted",
    "C32_mixture_loss_refuted",
    "C32_linear_model_exact",
    "C32_linear_model_matches_surface",
    "C32_mixture_loss_value",
    "C32_nonpositive_loss_never_close"
   ],
   "note": "Generic in what a start returns; heap kept as sorted list."
  },
  {
   "property": "C33",
   "status": "proved",
   "theorems": [
    "C33_series",
    "C33_saturated",
    "C33_beta",
    "C33_beta_refuted",
    "C33_universe_from_beta",
    "C33_universe",
    "C33_scale_below_one",
    "C33_scale_meaning_refuted",
    "C33_loop",
    "C33_fit",
    "C33_fitted_at",
    "C33_model_answer",
    "C33_match_refuted",
    "C33_zero_reach_refuted",
    "C33_training_reach_refuted",
    "C33_one_impression_refuted",
    "C33_capacity_refuted",
    "C33_accepted",
    "C33_one_point",
    "C33_nobody_twice"
   ],
   "note": "scipy.stats.nbinom is a parameter; with first parameter 1 it is the geometric distribution (hypothesis nbinom_geometric). Exact rationals. Violations are *_refuted theorems."
  },
  {
   "property": "C34",
   "status": "proved",
   "theorems": [
    "C34_one_spend",
    "C34_distribution",
    "C34_entries",
    "C34_negative_inflation_refuted",
    "C34_kplus",
    "C34_exactly",
    "C34_gap_fails",
    "C34_shape",
    "C34_extremes",
    "C34_answer",
    "C34_answer_shape",
    "C34_conserved",
    "C34_inflation",
    "C34_by_spend",
    "C34_no_spend"
   ],
   "note": "scipy mass functions and minimiser are parameters; hypotheses are non-negativity and finite sums at most one."
  },
  {
   "property": "C35",
   "status": "proved",
   "theorems": [
    "C35_after_first_fit",
    "C35_failed_query",
    "C35_within_training",
    "C35_history_refuted"
   ],
   "note": "Goerg, linear and ground-truth curves are pure functions in the model; the lazy fit of the k-inflated model is explicit state. The general claim is refuted."
  },
  {
   "property": "C36",
   "status": "proved",
   "theorems": [
    "C36_read_back",
    "C36_computed",
    "C36_unreadable",
    "C36_idempotent",
    "C36_failed",
    "C36_crash_safe",
    "C36_crash",
    "C36_every_part",
    "C36_truncated_result_refuted",
    "C36_marker_stays_refuted",
    "C36_marker_text",
    "C36_marker_unwritable",
    "C36_result_unwritable",
    "C36_marker_taken"
   ],
   "note": "Crash points are the single effects on the disk (model of pathlib in ModelFiles.v); pandas is lab_print / lab_parse, whose round trip and refusal of incomplete files are hypotheses. Violations are *_refuted theorems."
  },
  {
   "property": "C37",
   "status": "proved",
   "theorems": [
    "C37_paths",
    "C37_second_gets_first",
    "C37_ignored_refuted",
    "C37_analysis_refuted",
    "C37_seed_refuted",
    "C37_printed_alike_refuted"
   ],
   "note": "Float printing is a parameter with the hypothesis prints_floats. Violations are *_refuted theorems."
  },
  {
   "property": "C38",
   "status": "proved",
   "theorems": [
    "C38_trials",
    "C38_names",
    "C38_complete",
    "C38_none_twice",
    "C38_generated_sane",
    "C38_parallel",
    "C38_no_deadlock",
    "C38_failure",
    "C38_combine",
    "C38_combine_any"
   ],
   "note": "Workers are interleaved at the level of single effects on the disk. md5 is a parameter: different results files of the trials have different marker names."
  },
  {
   "property": "C39",
   "status": "proved",
   "theorems": [
    "C39_sequential",
    "C39_own_generators",
    "C39_no_draws",
    "C39_order",
    "C39_resumed",
    "C39_again",
    "C39_parallel",
    "C39_shared_generator_refuted",
    "C39_order_refuted"
   ],
   "note": "Under the hypothesis unaffected (own generators or no draws); the shared-generator case is refuted. A worker gets its own copy of the generators."
  },
  {
   "property": "C40",
   "status": "proved",
   "theorems": [
    "C40_grid",
    "C40_grid_inside",
    "C40_grid_distinct_needs_spend_refuted",
    "C40_uniform",
    "C40_latin_hypercube",
    "C40_experiment_points",
    "C40_unknown_strategy",
    "C40_same_points_for_same_seed",
    "C40_at_least_100_points_refuted",
    "C40_latin_hypercube_seed_refuted"
   ],
   "note": "numpy and pyDOE draws are parameters: uniform draws in [0,1), permutations, Latin hypercube designs (random_ok, permutation_ok, lhs_ok). Violations are *_refuted theorems."
  },
  {
   "property": "C41",
   "status": "proved",
   "theorems": [
    "C41_columns",
    "C41_absolute_errors",
    "C41_relative_errors",
    "C41_squared_relative_errors",
    "C41_quantiles",
    "C41_shuffle_distance",
    "C41_shuffle_columns",
    "C41_perfect_model",
    "C41_order_irrelevant",
    "C41_different_lengths",
    "C41_perfect_shape_refuted",
    "C41_lengths_checked_refuted",
    "C41_no_points",
    "C41_zero_truth"
   ],
   "note": "Exact rationals; NaN and infinities are one missing value; floating-point rounding is not modelled."
  },
  {
   "property": "C42",
   "status": "proved",
   "theorems": [
    "C42_other_publishers_at_zero",
    "C42_by_impressions_is_single_publisher",
    "C42_by_spend_is_single_publisher",
    "C42_free_impressions_refuted",
    "C42_impressions_for_spend"
   ],
   "note": "Also shown: the curve counts the single publisher's users, unless another publisher has free impressions (C42_free_impressions_refuted)."
  },
  {
   "property": "C43",
   "status": "proved",
   "theorems": [
    "C43_fit_minimises_training_error",
    "C43_exact_data_fitted_exactly"
   ],
   "note": "Optimality of the external solver is a hypothesis."
  },
  {
   "property": "C44",
   "status": "proved",
   "theorems": [
    "C44_campaign_spends",
    "C44_reach_of_campaign",
    "C44_matches_truth",
    "C44_spend_is_capped"
   ],
   "note": "Exactness of the sketch library is a hypothesis (exact_sketches), met by the example library."
  },
  {
   "property": "C45",
   "status": "proved",
   "theorems": [
    "C45_m3_training_data",
    "C45_single_publisher_training_data"
   ],
   "note": "For logs in price order with positive prices and non-negative fractions; exact sketch library as in C44."
  },
  {
   "property": "C46",
   "status": "proved",
   "theorems": [
    "C46_max_spends",
    "C46_publisher_true_reach",
    "C46_agrees_with_data_set",
    "C46_free_impressions_refuted"
   ],
   "note": "All logs."
  },
  {
   "property": "C47",
   "status": "proved",
   "theorems": [
    "C47_full_overlap",
    "C47_sizes",
    "C47_smallest_publisher",
    "C47_maximum_reach",
    "C47_smallest_size_refuted",
    "C47_empty_publisher_fails",
    "C47_overlap"
   ],
   "note": "pow, str and the set generators are parameters. Names and sizes for all publisher counts; rounding of the smallest size is a *_refuted theorem."
  },
  {
   "property": "C48",
   "status": "proved",
   "theorems": [
    "C48_simulator",
    "C48_row_iff",
    "C48_columns",
    "C48_outcome",
    "C48_success",
    "C48_settings",
    "C48_privacy",
    "C48_single",
    "C48_analysis_refuted"
   ],
   "note": "The model classes are lab_fit / lab_ask / lab_training, arbitrary functions; C48_single assumes models that answer without changing. Numbers are exact. The violation is C48_analysis_refuted."
  },
  {
   "property": "C49",
   "status": "proved",
   "theorems": [
    "C49_accepted",
    "C49_one_point",
    "C49_answer",
    "C49_refused",
    "C49_shape",
    "C49_by_spend",
    "C49_no_spend",
    "C49_distance",
    "C49_distance_outside",
    "C49_distance_zero",
    "C49_histogram",
    "C49_exact_fit",
    "C49_start",
    "C49_best",
    "C49_fitted",
    "C49_fixed",
    "C49_refit",
    "C49_refit_refuted",
    "C49_training_reach_refuted",
    "C49_penalty_refuted"
   ],
   "note": "scipy is a parameter: the negative binomial mass is only assumed non-negative with partial sums at most 1, the minimiser to respect its bounds and report the objective. The hill climb for the start has fuel. Numbers are exact. The bounds allow a mean of 10001 impressions per user, so almost all users may be beyond the table of 1000. Violations: C49_training_reach_refuted, C49_penalty_refuted, C49_refit_refuted."
  },
  {
   "property": "C50",
   "status": "proved",
   "theorems": [
    "C50_accepted",
    "C50_one_point",
    "C50_grid",
    "C50_grids",
    "C50_grid_shape",
    "C50_in_bound_refuted",
    "C50_answer",
    "C50_refused",
    "C50_shape",
    "C50_spend",
    "C50_history",
    "C50_training",
    "C50_one_component",
    "C50_universe_refuted",
    "C50_training_refuted",
    "C50_no_maximum",
    "C50_relative_entropy",
    "C50_relative_entropy_documented",
    "C50_relative_entropy_2d"
   ],
   "note": "ModelDirac.v, SpecDirac.v, PropsDirac.v. Hypotheses: scipy's Poisson functions are a distribution that grows with its mean, solvers are right when they find a solution, int32 conversion is the identity in its range. Floats are exact rationals. ModelEntropy.v, PropsEntropy.v for relative_entropy: the logarithm lies between 1 - 1/z and z - 1 and log(1/z) = -log z."
  },
  {
   "property": "C51",
   "status": "proved",
   "theorems": [
    "C51_names_identify",
    "C51_names_usable",
    "C51_given_name",
    "C51_lhs_levels",
    "C51_lhs_balanced",
    "C51_m3_universe",
    "C51_cartesian",
    "C51_generate",
    "C51_stops",
    "C51_name_taken",
    "C51_rerun",
    "C51_order_changed",
    "C51_lhs_generate",
    "C51_cartesian_generate",
    "C51_shipped",
    "C51_m3",
    "C51_m3_random_order_refuted",
    "C51_impression_arguments",
    "C51_pricing_arguments",
    "C51_overlap_arguments",
    "C51_missing_argument",
    "C51_generators_used",
    "C51_defaults",
    "C51_m3_missing"
   ],
   "note": "The claim that the M3 design always succeeds is refuted (C51_m3_random_order_refuted); limits on the length of file names and on memory are not modelled."
  },
  {
   "property": "C52",
   "status": "proved",
   "theorems": [
    "C52_product",
    "C52_single_product",
    "C52_trials",
    "C52_lost",
    "C52_m3",
    "C52_analysis",
    "C52_single_publisher",
    "C52_settings",
    "C52_m3_comment_refuted",
    "C52_sample",
    "C52_sample_balanced",
    "C52_sample_fewer_refuted",
    "C52_rows",
    "C52_m3_first_run",
    "C52_single_first_run",
    "C52_replicas",
    "C52_one_data_set",
    "C52_points",
    "C52_two_data_sets_refuted"
   ],
   "note": "Refuted where the code does otherwise: the comment about 192 trials, 100 trials for each data set of the sample design, rows that do not depend on what was computed before when there are two data sets. C52_replicas states that replicas repeat each other in a fresh run. The Latin sample of pyDOE and the models are parameters."
  },
  {
   "property": "C53",
   "status": "proved",
   "theorems": [
    "C53_trials",
    "C53_starts",
    "C53_one_core",
    "C53_any_way",
    "C53_ends",
    "C53_interrupted",
    "C53_meanwhile",
    "C53_stale",
    "C53_temporary",
    "C53_failure",
    "C53_no_files",
    "C53_no_design",
    "C53_unreadable",
    "C53_no_trials",
    "C53_missing_design",
    "C53_missing_output",
    "C53_nested",
    "C53_nested_refuted"
   ],
   "note": "Hypotheses on the laboratory: a reader that gets back what was printed and refuses what was written only in part (needed for interrupted runs only), rows that do not depend on what was computed before (C39), and for Beam a runner that loses and adds nothing. C53_nested_refuted exhibits results kept inside the data design. The import of the experimental design is a parameter; parsing of the command line is not modelled."
  },
  {
   "property": "C54",
   "status": "proved",
   "theorems": [
    "C54_uniform_start",
    "C54_uniform_ends",
    "C54_simplex_start",
    "C54_drawn_fit_is_fit",
    "C54_simplex_fit",
    "C54_three_publishers",
    "C54_state_forgotten",
    "C54_negative_overlap_refuted",
    "C54_simplex_fit_not_worse"
   ],
   "note": "Hypothesis on the generator: rand(n) gives n numbers in [0,1], permutation(n) a rearrangement (numpy_draws). For the simplex sampler the square root must not round down (with a rounding error the point may leave the region by as much). C54_negative_overlap_refuted exhibits the default fit with four publishers leaving the region."
  },
  {
   "property": "C55",
   "status": "proved",
   "theorems": [
    "C55_privacy",
    "C55_single_publisher_strategy",
    "C55_no_surface",
    "C55_goerg_arguments",
    "C55_truth_single_analysis",
    "C55_restricted_forgets_seed",
    "C55_state_kept",
    "C55_truth_one_publisher",
    "C55_truth_surface",
    "C55_no_frequencies",
    "C55_goerg_one_publisher",
    "C55_goerg_training_spend",
    "C55_goerg_surface",
    "C55_kinflated_arguments",
    "C55_gamma_poisson_arguments",
    "C55_one_publisher_training",
    "C55_kinflated_one_publisher",
    "C55_kinflated_shape",
    "C55_truth_counts",
    "C55_unknown_curve",
    "C55_unknown_argument",
    "C55_gamma_poisson_one_publisher"
   ],
   "note": "Hypotheses: honest_estimator for privacy; exact_sketches for the Goerg theorems; sound_surface (the solver respects its constraints, or the restricted surface with at most three publishers). Floats are exact rationals."
  },
  {
   "property": "C56",
   "status": "proved",
   "theorems": [
    "C56_joinpath",
    "C56_open",
    "C56_read",
    "C56_history",
    "C56_every_bucket",
    "C56_interrupted_add",
    "C56_empty_lost_refuted",
    "C56_slash_name_refuted",
    "C56_read_back",
    "C56_computed",
    "C56_crash_safe",
    "C56_attempts",
    "C56_two_unreadable_refuted",
    "C56_look",
    "C56_write"
   ],
   "note": "cloudpathlib and Google Cloud Storage are modelled: objects under names, an upload in one step when a file is closed, gs:// addresses in normal form; errors of the network and of the local copies are left out."
  },
  {
   "property": "C57",
   "status": "proved",
   "theorems": [
    "C57_output_address",
    "C57_output_directory",
    "C57_any_way",
    "C57_interrupted",
    "C57_meanwhile",
    "C57_ends",
    "C57_temporary",
    "C57_no_temporary",
    "C57_temporary_taken",
    "C57_failure",
    "C57_no_design",
    "C57_unreadable",
    "C57_no_data_sets",
    "C57_trials"
   ],
   "note": "Beam is modelled as any attempts at the trials with any interleaving of their requests, of which one ended attempt per trial is used, and any order of putting tables together; attempts that have not ended when the rest begins are taken to be stopped."
  },
  {
   "property": "C58",
   "status": "proved",
   "theorems": [
    "C58_rounding",
    "C58_rounding_errors",
    "C58_same_code",
    "C58_tracker",
    "C58_tracker_grows",
    "C58_order_refuted",
    "C58_single_publisher",
    "C58_m3",
    "C58_m3_over_budget_refuted",
    "C58_fixed_price",
    "C58_campaign_spends",
    "C58_random_points",
    "C58_grid"
   ],
   "note": "Overflow, infinities and NaN are not modelled. The M3 claim is proved with its error bound; that the budget itself can be exceeded by rounding is C58_m3_over_budget_refuted."
  },
  {
   "property": "C59",
   "status": "proved",
   "theorems": [
    "C59_reach_request",
    "C59_venn_request",
    "C59_m3_draws",
    "C59_single_publisher_draws",
    "C59_spent_privacy_ignored"
   ],
   "note": "The generator, the estimator and the noisers are outside the repository and arbitrary functions of their state or seed."
  },
  {
   "property": "C60",
   "status": "proved",
   "theorems": [
    "C60_truth",
    "C60_no_model",
    "C60_latest_model",
    "C60_session_within_budget",
    "C60_session_exact",
    "C60_m3_session",
    "C60_single_publisher_session"
   ],
   "note": "Strategies are arbitrary in the first theorems; the M3 and single publisher strategies are instances."
  },
  {
   "property": "C61",
   "status": "proved",
   "theorems": [
    "C61_histogram",
    "C61_distance",
    "C61_objective",
    "C61_run",
    "C61_handover",
    "C61_fit",
    "C61_stop",
    "C61_more_inflation",
    "C61_inventory_refuted",
    "C61_outside_refuted"
   ],
   "note": "The minimiser is any function that returns as many parameters and never a worse point; scipy's nbinom and chi2 are arbitrary functions with the mass function sane."
  },
  {
   "property": "C62",
   "status": "proved",
   "theorems": [
    "C62_shared_disk",
    "C62_one_process",
    "C62_any_moment",
    "C62_together",
    "C62_two",
    "C62_readable",
    "C62_ends",
    "C62_crash",
    "C62_two_refuted",
    "C62_three_refuted",
    "C62_partial_result_refuted",
    "C62_sessions_any_moment",
    "C62_sessions",
    "C62_sessions_results",
    "C62_two_sessions",
    "C62_sessions_end",
    "C62_groups",
    "C62_groups_then_one"
   ],
   "note": "Refuted alongside: two processes that find the same unreadable results file (one of them fails with FileNotFoundError), three that find none, and a reader that accepts incomplete files."
  },
  {
   "property": "C63",
   "status": "proved",
   "theorems": [
    "C63_line",
    "C63_help",
    "C63_one_meaning",
    "C63_joined",
    "C63_order",
    "C63_others",
    "C63_nothing_done",
    "C63_local",
    "C63_cloud",
    "C63_ends",
    "C63_beam_refuses",
    "C63_dash_refuted",
    "C63_misspelt_refuted"
   ],
   "note": "argparse is modelled for the parser that main builds (Python 3.8 to 3.11, lines without the argument --); absl's own handling of the line before main, Beam's parser and the import of the experimental design are parameters or outside."
  },
  {
   "property": "C64",
   "status": "proved",
   "theorems": [
    "C64_pipeline",
    "C64_m3",
    "C64_analysis",
    "C64_single_publisher",
    "C64_m3_design"
   ],
   "note": "Composition of C51 (the data design), C52 (the trials) and C53 (the driver) for a first run. Runs with several workers or Beam need a CSV reader that reads back printed tables, and different markers; floats are printed differently if they differ, and without ':' for the shipped designs."
  },
  {
   "property": "C65",
   "status": "proved",
   "theorems": [
    "C65_one_request",
    "C65_nothing_done",
    "C65_unknown_flag",
    "C65_bad_seed",
    "C65_no_directory",
    "C65_no_parameters",
    "C65_run",
    "C65_design",
    "C65_driver",
    "C65_driver_refuses",
    "C65_evaluation",
    "C65_documented_refuted",
    "C65_stray_word_refuted",
    "C65_without_dashes_refuted"
   ],
   "note": "absl-py 0.12.0, read from memory of its source, is modelled as far as these programs use it: string, integer and boolean flags. Lines that use a flag of absl itself (--help, --v, --flagfile, ...) are recognised but what they do is not modelled. Importing the file of parameters is an external function."
  },
  {
   "property": "C66",
   "status": "proved",
   "theorems": [
    "C66_strategies",
    "C66_designs",
    "C66_trials",
    "C66_table"
   ],
   "note": "Both sides use the models of C53 and C57, with their trusted base. A data set without a file is left out: on cloud storage such a directory does not exist (C56_empty_lost_refuted)."
  }
 ]
}