"""Writes MANIFEST.json: which theorems settle which property."""
import json
P, PART = "proved", "partial"
claims = [
 ("C01", P, ["c01_weights_subprob", "c01_bib_p_out_of_range_refuted"],
  "All ten classes, all histories including caught exceptions; the refutation shows the restriction on BetaInBeta's p is needed."),
 ("C02", P, ["c02_random_stick_image", "c02_history_stick_image", "c02_bb_after_exception_refuted", "c02_random_zero_refuted"],
  "Positive sizes and exception-free histories; the refutations show both restrictions are needed."),
 ("C03", P, ["c03_complete_appends", "c03_fixed_size_ignores_size", "c03_dirichlet_distribution_keeps", "c03_bb_fresh_complete_raises"],
  "Growing classes append; the named exceptions are theorems of their own."),
 ("C04", P, ["c04_tail_mass", "c04_tail_extends", "c04_tail_out_of_range", "c04_strictly_greater_refuted"], ""),
 ("C05", P, ["c05_geometric_tail", "c05_next_weight_reaches", "c05_contract_iff", "c05_size_is_floor_of_log_ratio", "c05_degenerate_p", "c05_geometric_mass_refuted"],
  "Exact arithmetic; the truncation is linked to the real quotient of logarithms."),
 ("C06", P, ["c06_returns_iff", "c06_loops_iff", "c06_bounded_draws_terminate", "c06_zero_draws_never_return", "c06_dirichlet_process_loops_forever", "c06_fixed_size_terminate", "c06_empty_dirichlet_loops_forever"],
  "The two iff theorems start from an object that already has weights."),
 ("C07", P, ["c07_truncation_exact", "c07_geometric_refuted"], "GeometricProcess violates it (its tail stops short)."),
 ("C08", P, ["c08_dp_random_fitted", "c08_dp_random_size_fitted", "c08_dp_random_prior"], "Sizes >= 1."),
 ("C09", P, ["c09_py_random_fitted", "c09_py_random_size_fitted", "c09_py_random_prior", "c09_py_complete_absolute_index", "c09_py_bad_alpha_raises"], "Sizes >= 1; 0 <= pyd < 1 and alpha > 0 for the successful calls."),
 ("C10", P, ["c10_geometric_random"], ""),
 ("C11", P, ["c11_dirichlet_random", "c11_dirichlet_random_prior", "c11_label_out_of_range_raises"], ""),
 ("C12", P, ["c12_betabinomial_random_fitted", "c12_betabinomial_random_prior"], ""),
 ("C13", P, ["c13_random_same_as_dp", "c13_complete_same_as_dp", "c13_history_same_as_dp", "c13_numpy_size_refuted"], ""),
 ("C14", P, ["c14_unfitted_repeats_p", "c14_fitted_random_equal_sticks", "c14_complete_redraws", "c14_equal_sticks_refuted"], ""),
 ("C15", P, ["c15_p1_prior_independent_sticks", "c15_p1_fitted_dp_posterior", "c15_p0_prior_equal_sticks", "c15_p0_fitted_equal_sticks"], "For objects whose indicator array is non-empty (all objects on which random(0) was never called, C16)."),
 ("C16", P, ["c16_last_proposal_zero_raises", "c16_otherwise_succeeds", "c16_random_zero", "c16_unusable_afterwards", "c16_never_fails_refuted"], ""),
 ("C17", P, ["c17_no_index_error", "c17_fitted_draw_consistent", "c17_single_group_raises", "c17_labels_in_range_refuted"], ""),
 ("C18", P, ["c18_length_of_random", "c18_size_ignored_refuted"], ""),
 ("C19", P, ["c19_random_without_size_unfitted"], ""),
 ("C20", P, ["c20_refit_replaces", "c20_reset_forgets", "c20_beta_in_dirichlet_refuted"], ""),
 ("C21", P, ["c21_label_iff", "c21_interval_length", "c21_label_in_range", "c21_label_has_weight", "c21_zero_draw_refuted", "c21_call", "c21_call_in_range", "c21_no_size_raises", "c21_zero_total_labels_zero", "c21_double_label_in_range_refuted"], ""),
 ("C22", P, ["c22_normalized", "c22_normalized_history", "c22_zero_total_nan"], ""),
 ("C23", P, ["c23_value", "c23_growing_no_index_error", "c23_beta_bernoulli_fresh_refuted", "c23_fixed_size"], ""),
 ("C24", P, ["c24_dp_sticks_recovered", "c24_py_sticks_recovered", "c24_bib_sticks_recovered", "c24_dp_stick_one_gives_nan", "c24_no_weights_index_error"], "The value is given as the list of log-density terms that the code adds."),
 ("C25", P, ["c25_accepted_iff", "c25_rejected_how", "c25_generator_shared", "c25_int_seed_same_stream", "c25_none_separate_streams", "c25_int_seed_fresh_draws_refuted"], ""),
 ("C26", P, ["c26_dp_agrees", "c26_dirichlet_agrees", "c26_py_larger", "c26_geometric_smaller"], ""),
 ("C27", P, ["c27_dp_mean_sums_to_1", "c27_dirichlet_mean_sums_to_1", "c27_equal_mean_sums_to_1", "c27_frequency_mean_sums_to_1", "c27_frequency_fewer_observations", "c27_py_missing_mass", "c27_geometric_missing_mass"], ""),
 ("C28", P, ["c28_dp_outside", "c28_equal_outside", "c28_frequency_outside", "c28_dirichlet_boundary", "c28_py_boundary", "c28_geometric_one"], ""),
 ("C29", P, ["c29_geometric_mean_not_expectation"], "E[p^m(1-p)^n] is characterised by its recurrences."),
 ("C30", P, ["c30_mode_in_unit_interval", "c30_dp_error", "c30_dp_value", "c30_dp_modes_sum_to_1", "c30_py_error", "c30_geometric_error", "c30_dirichlet_error"], "The range theorem covers every class; ValueError is characterised for DirichletProcess, PitmanYor, Geometric and DirichletDistribution."),
 ("C31", P, ["c31_dp_log_probability", "c31_py_log_probability", "c31_geometric_log_probability", "c31_dirichlet_below_expectation", "c31_expected_label_log", "c31_geometric_drops_factor", "c31_equal_wrong_sign", "c31_frequency_no_log"], "digamma is any function strictly increasing on the positive reals."),
 ("C32", P, ["c32_before_fit", "c32_equal_answers", "c32_not_implemented"], ""),
 ("C33", P, ["c33_saved_states", "c33_warm_start_adds"], "Iteration settings are the integers the constructor stores; C57 covers the constructor."),
 ("C34", P, ["c34_affinity_frequency", "c34_affinity_shape", "c34_after_failed_fit_refuted"], ""),
 ("C35", P, ["c35_map_is_best_visited"], "The visited states are those of a replayed run that uses the same draws."),
 ("C36", P, ["c36_fresh_fit", "c36_priors_frozen", "c36_prior_mean_of_first_data", "c36_map_survives_refuted"], ""),
 ("C37", P, ["c37_labels_in_range", "c37_labels_after_step", "c37_next_slice", "c37_likelihood_in_range", "c37_frequency_refit_refuted", "c37_equal_refit_refuted"], ""),
 ("C38", P, ["c38_respects_slice", "c38_slice_above_all", "c38_zero_weight_refuted"], ""),
 ("C39", P, ["c39_saved_self_contained", "c39_eap_density", "c39_eap_affinity", "c39_map_refuted"], ""),
 ("C40", P, ["c40_counts", "c40_atoms_redrawn"], ""),
 ("C41", P, ["c41_natural_parameters", "c41_sequential", "c41_order", "c41_symmetric", "c41_positive_definite", "c41_call"], "Exact arithmetic."),
 ("C61", P, ["c61_dp_densities", "c61_py_densities", "c61_geometric_densities", "c61_dirichlet_densities"], "lgamma is any function with the recurrence."),
 ("C62", P, ["c62_fitted_random", "c62_prior_random", "c62_complete_new_p"], ""),
 ("C63", P, ["c63_complete_chain", "c63_prior_chain"], ""),
 ("C45", P, ["c45_size_biased", "c45_bad_k"], ""),
 ("C47", P, ["c47_flags_of_history", "c47_gibbs_queries_guarded", "c47_variational_queries_guarded"], "Assuming scipy, sklearn and the weight model raise no NotFittedError of their own."),
 ("C48", P, ["c48_bad_type_changes_nothing", "c48_unknown_method", "c48_no_groups", "c48_results_lost_refuted", "c48_data_replaced_refuted"], ""),
 ("C57", P, ["c57_truncation", "c57_rejected", "c57_accepted", "c57_at_least_one_saved", "c57_nothing_saved", "c57_fractional_refuted", "c57_zero_step"], ""),
 ("C58", P, ["c58_never_fits", "c58_never_fitted_history", "c58_without_groups", "c58_with_groups", "c58_marked_fitted_refuted"], ""),
 ("C59", P, ["c59_betabinomial_terms", "c59_first_stick_ignored", "c59_chain_density_refuted"], ""),
 ("C60", P, ["c60_betabernoulli_terms", "c60_new_sticks_refuted"], ""),
 ("C43", P, ["c43_density_of_one_mixture", "c43_sum_of_components", "c43_average_over_window", "c43_average_sum_of_components", "c43_missing_component", "c43_zero_periods_uses_all", "c43_negative_periods_drop_oldest", "c43_average_nonnegative", "c43_map_nonnegative"], "The density of a single atom is any non-negative function."),
 ("C44", P, ["c44_map_clusters", "c44_uncertainty_range", "c44_single_row_fails", "c44_affinity_of_new_data", "c44_labels_are_components_refuted"], "The density of a single atom is any non-negative function."),
 ("C49", P, ["c49_loop", "c49_nan_counts_as_converged"], "The ELBO is any function to extended reals or NaN."),
 ("C51", P, ["c51_training_affinity", "c51_affinity_of_new_data"], "Responsibilities are any positive columns with sum one; exact arithmetic."),
 ("C52", P, ["c52_training_clusters", "c52_clusters_of_new_data"], "Responsibilities are any positive columns with sum one; exact arithmetic."),
 ("C54", P, ["c54_stored_data", "c54_other_types_rejected", "c54_series_without_nu_fails", "c54_series_never_fits_variationally", "c54_queries_reject_series", "c54_single_observation_fails"], "The Series fit with nu_prior given is c54_nontrivial."),
 ("C64", P, ["c64_weights_are_subprobabilities"], "Exact arithmetic."),
 ("C65", P, ["c65_marginal_uses_first_column", "c65_ignores_other_columns", "c65_marginal_at_own_column_refuted"], ""),
 ("C46", P, ["c46_exponential_race", "c46_returns_an_index", "c46_support", "c46_volume", "c46_nan_wins", "c46_zero_draw_refuted"], "Volumes are integrals of box cuts (Riemann integral); real arithmetic."),
 ("C55", P, ["c55_symmetric", "c55_addition_rule", "c55_one_block", "c55_ewens_formula"], "loggamma is any function with the recurrence and value 0 at 1."),
 ("C56", P, ["c56_first_accepted", "c56_runs_on", "c56_in_range", "c56_many_under_graph", "c56_many_fresh_pairs_refuted"], ""),
 ("C42", P, ["c42_location", "c42_scale_matrix", "c42_conjugate_scale_matrix", "c42_hard_assignments", "c42_one_dimension", "c42_symmetric", "c42_positive_definite", "c42_empty_group_is_nan", "c42_after_fit", "c42_scale_matrix_refuted"], "matrix inversion is an arbitrary function; NaN atoms are modelled as None."),
 ("C50", P, ["c50_probability_vector", "c50_otherwise_nan", "c50_label", "c50_responsibilities", "c50_score", "c50_score_one_dimension", "c50_mean_centred", "c50_mean_centred_label", "c50_same_label", "c50_mean_centred_overflow", "c50_mean_centred_label_refuted"], "reals with infinities and NaN; eps and the overflow threshold of exp are parameters; underflow is not modelled."),
 ("C53", P, ["c53_map_density_default_raises", "c53_int_dim_raises", "c53_map_density_sum", "c53_eap_density_sum", "c53_eap_density_default", "c53_marginal_block", "c53_marginal_right_iff_uncorrelated", "c53_normal_density", "c53_normal_density_one_dimension", "c53_normal_density_identity", "c53_student_density"], "the values of q_normal/q_student in the query theorems are arbitrary functions; the analytic theorems treat one row."),
 ("C66", P, ["c66_data_term", "c66_one_group", "c66_prior_term", "c66_atom_entropy", "c66_gap", "c66_weights_ignored", "c66_infinite_prior_is_nan"], "digamma and log-gamma are arbitrary functions."),
 ("C67", P, ["c67_default_priors", "c67_too_few_rows_not_finite", "c67_explicit_priors_kept", "c67_scale_semidefinite", "c67_few_rows_singular", "c67_row_order", "c67_change_of_units"], "Exact arithmetic."),
 ("C68", P, ["c68_argument_against_fitted_logs", "c68_dp_rows_beyond_fit", "c68_other_rows_beyond_fit", "c68_geometric_argument", "c68_equal_counts_columns", "c68_frequency_argument", "c68_frequency_argument_kept", "c68_frequency_query_changes_answers_refuted", "c68_unfitted"], "digamma is an arbitrary function."),
 ("C69", P, ["c69_variational_fit_keeps_gibbs_results", "c69_variational_fit_keeps_gibbs_answers", "c69_queries_without_data_use_last_data", "c69_gibbs_fit_keeps_variational_results", "c69_gibbs_fit_keeps_variational_answers", "c69_equal_weights_follow_variational_groups", "c69_equal_weights_unchanged_refuted", "c69_variational_start_overwrites_refuted"], ""),
 ("C70", P, ["c70_dp_factor", "c70_py_factor", "c70_dirichlet_factor", "c70_geometric_short_by_one", "c70_geometric_factor_refuted", "c70_geometric_without_data", "c70_dp_fit_maximises_bound", "c70_py_fit_maximises_bound"], "The divergence hypothesis is satisfied e.g. by (ln, x ln x - x); that the real digamma and log-gamma satisfy it is not proved here."),
 ("C71", P, ["c71_best_possible", "c71_softmax_attains_it", "c71_update_nearly_optimal"], "Real arithmetic; underflow of exp is not modelled."),
 ("C72", P, ["c72_what_is_drawn", "c72_right_components_iff_first_ones", "c72_component_of_rows_refuted", "c72_eleven_clusters_fail", "c72_other_failures", "c72_unfitted_is_index_error"], "The drawing commands are modelled, not the rendering; labels, ticks and grid are left out."),
 ("C73", P, ["c73_distance_of_points", "c73_on_contour_iff_uncorrelated", "c73_on_contour_refuted", "c73_area", "c73_always_a_hundred_points"], "Real arithmetic; scipy's ldl is modelled by LAPACK's 2x2 pivoting rule."),
 ("C74", P, ["c74_saved_states_are_visited_states", "c74_settings_do_not_change_the_chain", "c74_more_sweeps_extend_the_chain", "c74_thinning_selects", "c74_longer_run_extends", "c74_total_with_variational_start_refuted"], ""),
 ("C75", P, ["c75_warm_start_continues_the_chain", "c75_same_as_one_fit", "c75_burn_in_counts_again_refuted"], ""),
 ("C76", P, ["c76_dirichlet_process", "c76_pitman_yor", "c76_geometric", "c76_dirichlet_distribution", "c76_beta_binomial_given_counts", "c76_beta_in_beta_given_p", "c76_beta_bernoulli_given_indicators", "c76_beta_in_dirichlet_given_bases", "c76_atoms"], "Laws are compared through the parameters of the requests; that numpy's generators follow the requested laws is assumed."),
 ("C77", P, ["c77_marginal_is_moment", "c77_base_scores_exact_iff", "c77_scores_match_requests", "c77_new_base_stick_refuted", "c77_beta_in_beta_p_refuted", "c77_beta_in_beta_p_given_stick_refuted", "c77_beta_binomial_counts_refuted", "c77_beta_bernoulli_indicator_refuted", "c77_beta_bernoulli_last_indicator_refuted"], "The statement names each violation exactly."),
 ("C78", P, ["c78_requests", "c78_label_law", "c78_label_law_zero", "c78_label_law_nothing_above", "c78_kernel", "c78_kernel_total", "c78_reversible_without_shift", "c78_invariant_without_shift", "c78_balance_error", "c78_invariance_error", "c78_shift_favours_heavier", "c78_two_components_not_invariant_refuted", "c78_tiny_weights_unreachable"], "Exact arithmetic; that the generator follows the requested laws is assumed.  The statement names the violation (the eps shift) exactly."),
 ("C79", P, ["c79_beta_in_beta_zero_mixture", "c79_pitman_yor_zero_mixture", "c79_single_fit", "c79_same_answers", "c79_pitman_yor_zero_weights", "c79_size_zero_refuted", "c79_variational_start_refuted"], "Fits that do not start from a variational fit."),
 ("C80", P, ["c80_weights_are_frequencies", "c80_labels_were_in_use", "c80_group_count", "c80_warm_start", "c80_one_group_forever", "c80_cold_start", "c80_kmeans_start", "c80_dirichlet_process_refuted"], ""),
 ("C81", P, ["c81_unit_origin_order", "c81_default_priors", "c81_mirror_refuted"], "Real arithmetic with exact matrix inverses; after NaN has entered the arrays the fit is not followed."),
 ("C82", P, ["c82_positive_responsibilities", "c82_nan_iff_empty_group", "c82_few_distinct_values"], "Real arithmetic; np.linalg.inv succeeds on positive definite matrices."),
 ("C83", P, ["c83_gibbs_argument_forms", "c83_variational_argument_forms", "c83_no_argument_is_the_data", "c83_other_types_rejected", "c83_gibbs_negative_dim", "c83_variational_negative_dim", "c83_dim_out_of_range", "c83_gibbs_negative_component", "c83_variational_negative_component"], "Densities are abstract functions; atoms square of dimension d for the statements about dim."),
 ("C84", P, ["c84_dirichlet_distribution", "c84_equal_weighting", "c84_frequency_weighting", "c84_pitman_yor_single_stick", "c84_dirichlet_process_single_stick", "c84_geometric_process", "c84_geometric_mode", "c84_geometric_at_most_one_refuted", "c84_before_the_first"], "Real arithmetic; digamma abstract."),
 ("C85", P, ["c85_atoms_are_posteriors", "c85_starting_atoms", "c85_totals", "c85_when_it_stops", "c85_default_priors"], "Real arithmetic with exact matrix inverses; fits that meet NaN are not followed."),
 ("C86", P, ["c86_visit", "c86_all_visited", "c86_map_maximises"], "Sums are exact; rounding is not modelled."),
 ("C87", P, ["c87_kmeans_start", "c87_random_start", "c87_group_count", "c87_random_without_groups", "c87_bad_arguments"], ""),
 ("C88", P, ["c88_other_length", "c88_never_fitted"], "With burn_in = total_iter = 0 the warm start does nothing and succeeds."),
 ("C89", P, ["c89_first_slices", "c89_start", "c89_sweep_slices"], ""),
 ("C90", P, ["c90_label_chosen", "c90_undefined_density_captures"], ""),
 ("C91", P, ["c91_saving_fails", "c91_failed_cold_start_refuted"], ""),
 ("C92", P, ["c92_fitted_without_a_sweep", "c92_queries_without_a_state"], ""),
 ("C93", P, ["c93_new", "c93_fit", "c93_map_density", "c93_eap_density", "c93_clusters"], "Each theorem is one call; relations are preserved, so sequences follow call by call."),
 ("C94", P, ["c94_fuel", "c94_bounded", "c94_sticks", "c94_zero_sticks_never_end"], "Numerical routines (logpdf, inverse, variational updates, ELBO) are assumed to return or raise."),
 ("C95", P, ["c95_tagged", "c95_untagged", "c95_unparsed", "c95_long_round_trip", "c95_describe_style", "c95_branch", "c95_detached_branch", "c95_distinct", "c95_collision_refuted"], "Text is ASCII; git's output is an arbitrary function of directory and command."),
 ("C96", P, ["c96_keywords_read", "c96_archive", "c96_release_first", "c96_highest_refuted"], ""),
 ("C97", P, ["c97_fallback", "c97_import_fails_only", "c97_failing_show_raises", "c97_failing_count_raises", "c97_blank_show_raises", "c97_bad_count_raises", "c97_no_file"], ""),
 ("C98", P, ["c98_default", "c98_pre", "c98_branch", "c98_post", "c98_unchanged", "c98_exact", "c98_untagged", "c98_untagged_exact", "c98_post_of_post_refuted", "c98_dev_of_dev_refuted", "c98_pre_raises_refuted"], ""),
 ("C99", P, ["c99_round_trip", "c99_chaetocnema", "c99_penguins", "c99_too_few_columns", "c99_shipped_chaetocnema", "c99_shipped_penguins"], "Cells are texts; their conversion to numbers by pandas is left out."),
 ("C100", P, ["c100_prior_is_an_urn", "c100_complete_continues_the_urn", "c100_fitted_draw_has_seen_its_labels", "c100_chance_of_the_labels", "c100_law_of_the_ties", "c100_law_is_the_eppf", "c100_likelihood_terms"], ""),
 ("C101", P, ["c101_the_mean_is_determined", "c101_dirichlet_process_means", "c101_dirichlet_process_products", "c101_dirichlet_process_fitted_means", "c101_pitman_yor_means", "c101_pitman_yor_process_mean_refuted", "c101_geometric_means", "c101_geometric_products", "c101_dirichlet_distribution_means", "c101_dirichlet_distribution_products", "c101_dirichlet_distribution_fitted_means", "c101_beta_in_beta_means", "c101_beta_bernoulli_stick", "c101_beta_bernoulli_pair", "c101_beta_bernoulli_means", "c101_beta_in_dirichlet_stick", "c101_beta_in_dirichlet_pair", "c101_beta_in_dirichlet_means", "c101_beta_binomial_sticks", "c101_beta_binomial_second_weight"], "The law of the answers is any record with the listed moment properties (S_Moment.moments); Beta moments are needed up to the degree the statement names.  BetaBinomial: first two moments of a stick only."),
 ("C102", P, ["c102_laws_exist", "c102_dirichlet_process", "c102_pitman_yor_process", "c102_beta_in_beta_static", "c102_geometric_process", "c102_dirichlet_distribution"], "Posterior is meant through all its moments: monomials of any degree, under any law with the moments of the requested distributions up to the degree used."),
 ("C103", P, ["c103_off_is_not_bayes", "c103_beta_in_beta_independent_too_small", "c103_beta_in_beta_geometric_too_large", "c103_beta_binomial_too_small", "c103_beta_in_beta_one"], "The bias is shown on the single label 0; the prior of BetaInBeta is random_p() followed by random(1)."),
 ("C104", P, ["c104_constructs", "c104_stores", "c104_unknown_keyword", "c104_too_short", "c104_order_irrelevant", "c104_default_explicit", "c104_beta_in_beta_fixed", "c104_beta_in_beta_refuses", "c104_dirichlet_number", "c104_dirichlet_list", "c104_dirichlet_lost", "c104_show_progress_refuted", "c104_dirichlet_length_refuted"], "Strings and arrays as iteration settings, and non-numbers as pyd, a, b, are a TypeError in the model."),
 ("C105", P, ["c105_density", "c105_one_component", "c105_eap_density", "c105_eap_density_order", "c105_map_density", "c105_map_cluster", "c105_affinity", "c105_labels_refuted", "c105_partition_tie_refuted", "c105_partition_zero_refuted"], "Values are equal as rational numbers; when a query raises, the exception may depend on which component fails first."),
 ("C106", P, ["c106_eap_density", "c106_map_density", "c106_map_cluster", "c106_affinity", "c106_var_eap_density", "c106_var_map_density", "c106_label_refuted", "c106_other_dim_refuted"], "That scipy's densities work row by row on arrays with k columns is the hypothesis rowwise; scipy itself is not modelled. Without a component argument every state must have a weight; the affinity matrix is for arrays that do not have exactly one row."),
]
json.dump({"claims": [dict(property=a, status=b, theorems=c, note=n) for a, b, c, n in claims]},
          open("/verif/MANIFEST.json", "w"), indent=1)
