# Formal model of pyrichlet in Coq 8.16.1

## Approach

* **Numbers.**  Float values are dyadic rationals, so generator draws, weights,
  slice variables and data are modelled in `Q` with *exact* arithmetic; parts
  that need exp/log (responsibilities, expected logs, densities, Gumbel noise)
  are modelled in `R`.  Rounding is not modelled except where a property is
  about it (`random_assignment`, with binary64 arithmetic
  from `Coq.Floats.SpecFloat`).
* **Randomness.**  A generator is an *oracle*: a function from the log of all
  earlier requests and the current request to an answer.  Every theorem
  quantifies over all oracles (only the documented range of each numpy draw is
  assumed: `valid_oracle`).  The request log is part of the state, so "which
  distribution is sampled with which parameters" is observable.
* **Exceptions.**  Every method returns `Ok`, `Err e` or `Diverge` (loop fuel
  exhausted) together with the state reached, also after an exception.
* **Histories.**  Objects are state machines; histories are lists of calls.

Layout of `rocq/theories`: `Prelude`, `Numpy`, `Rng` (substrate); `M_*` the
model; `S_*` small independent specifications; `P_*` proofs; `T_*` the property
theorems only, each closed by `exact` with `Print Assumptions`.

## Plan per property

| property | model | proof |
|---|---|---|
| C01 | all ten weight classes as one state machine | invariant, induction on history |
| C02 | `stick` = v * cumprod(...) | induction on sticks |
| C03 C04 C07 | `complete`, `tail` (fuel) | case analysis + induction on fuel |
| C05 | `GeometricProcess.tail` (integer part of a log ratio) | counterexample + bound; log link in R |
| C06 | `tail` with unbounded fuel | induction; divergence for all fuel |
| C08-C12 | request log of `random` | counting lemmas for bincount/cumsum |
| C13-C17 | BetaInBeta, BetaBernoulli, BetaInDirichlet | equivalence, invariants, counterexamples |
| C18-C20 | `random` of each class | symbolic execution |
| C21 C22 | normalisation, inverse CDF; doubles for the float witness | induction; vm_compute for the witness |
| C23 C24 | log likelihoods, stick recovery | induction |
| C25 | `rng_parser` on a type of Python arguments | cases |
| C26-C32 | variational parts in R | induction, digamma abstract (monotone) |
| C33-C40 | Gibbs sampler state machine over the ten weight models | invariants over runs |
| C41 C42 | NIW update on rational vectors | finite-sum algebra |
| C43-C46 | mixture_density, cluster, kmeans relabel, gumbel | list lemmas; Riemann integral |
| C47-C49 | mixture object state machine | invariants over histories |
| C50-C53 | softmax, affinity, densities | real analysis |
| C54-C58 | shapes, EPPF, rejection sampling, settings | cases, induction |
| C59-C61 | log likelihood terms, expected log densities | algebra in R |
| C62 C63 | BetaInBeta and BetaBernoulli draws | symbolic execution |
| C64 C65 | sub-probabilities after any history, marginal densities | invariants, cases |
| C66 | the lower bound | algebra in R |
| C67 C69 | derived priors; interaction of the two kinds of fits | linear algebra over Q, frame lemmas |
| C68 | explicit responsibilities in the expected label log | algebra in R |
| C70 C71 | coordinate updates of weights and labels | summation by parts, Gibbs' inequality |
| C72 C73 | what a pair plot shows; its dashed lines | cases on panels, algebra in R |
| C74 C75 | thinning selects from one chain; warm starts continue it | runs related by a view of the object that hides the settings |
| C76 C77 | draws from exact conditionals, and latent updates that are not | requested Beta kernel = log likelihood + log prior; witnesses of non-proportionality |
| C78 | slice update of a label as a Markov kernel: reversible up to eps | Riemann integral of the label law over the slice; requests of `gibbs_step` |
| C79 | mixtures over coinciding weight models fit identically | relational run of `fit_gibbs` from states equal up to the weight model |
| C80 | frequency weights never open a group | symbolic execution of a sweep with `CFreq`; visited states of C74 |
| C81 | `M_VarLoop`: the whole variational fit with numbers | commuting diagram per update; shift of the lower bound |
| C82 | `M_VarLoop` | positive definiteness of the inverted matrix; loop invariant |
| C83 | `M_Query` | equal casts; index arithmetic from the start |
| C84 | `M_VarNeg`: the variational weight methods at -i | the fitted parameters of `M_Var`, read from the end |
| C85 | `M_VarLoop` | trace of the loop; the update of one row |
| C86 | `M_Mix` | complete-data log likelihood of a dictionary |
| C87 | `M_Mix` | one-hot rows of the ordered labels; `1/k` rows; draws of the prior |
| C88 | `M_Mix` | lengths of the labels and of the data |
| C89 | `M_Mix` | request log: `first_slices`, `sweep_slices`, one `RKMeans` |
| C90 | `M_Mix` | `chosen` (`S_Odd`), scores as in `S_SliceStep` |
| C91 | `M_Mix` | sizes of the saved lists |
| C92 | `M_Mix`, `M_Query` | results of the calls |
| C93 | `M_Mix`, `M_Query`, `M_Niw` | `coords`, `point_moved`, `cov_moved`, `draws_moved`, `mix_moved` (`S_GAffine`) |
| C94 | `M_Mix`, `M_Weights` | `env_returns`, `after_fits`, `diverges` (`S_Finish`), `drawn_sticks`, `fixed_ok`, `qpow` |
| C95 | `M_Version` | `described`, `tagged_version`, `shows`, `succeeds`, `installed`, `branch_known` (`S_Version`) |
| C96 | `M_Version` | `decoration`, `candidate`, `alpha_lt`, `assignment`, `other_line` (`S_Version`) |
| C97 | `M_Version` | `path`, `nearest`, `no_git`, `outcome` (`S_Version`) |
| C98 | `M_Version` | `pep440` (the grammar: `parts`, `parts_ok`, `spell`), `tagged`, `value` (`S_Version`) |
| C99 | `M_Load` | `field`, `line`, `file`, `missing`, `value_at`, `complete` (`S_Load`) |
| C100 | `M_Weights`, `M_Loglik`, `M_Sample` | `picks`, `urn_requests`, `urn_extends`, `urn_chance`, `pattern`, `same_ties`, `block_sizes` (`S_Urn`) |
| C101 | `M_Weights` | `tree`, `law`, `mean_of`, `moments`, `beta_moment`, `one_stick`, `two_sticks` (`S_Moment`) |
| C102 | `M_Weights` | `label_chance`, `stick_powers`, `p_powers`, `weight_powers`, `bayes`, `dir_moments` (`S_Bayes`) |
| C103 | `M_Weights` | `bayes_off`, `bayes` (`S_Bayes`) |
| C104 | `M_Construct` | `parameter`, `given`, `all_parameters`, `weight_fine`, `iterations`, `stores` (`S_Construct`) |
| C105 | `M_Query` | `same_mixture`, `agree`, `decided` (`S_Renumber`), `same_partition` (`S_Sort`) |
| C106 | `M_Query` | `filled`, `rowwise`, `row_function`, `by_rows`, `clusters_by_rows`, `affinity_by_rows` (`S_Rowwise`) |

## Trusted base

* Coq 8.16.1's kernel (and its compiler for `vm_compute`).
* The axioms listed by `Print Assumptions` beneath every theorem
  (`python3 tools/assumptions.py` prints the list after a build).  No file
  declares an axiom, parameter or section-less variable.
  * Most theorems (weights, Gibbs sampler, queries, histories, rejection
    sampling, NIW and variational atom updates) are *closed under the global
    context*.
  * Theorems over `R` (all of C23 C26 C27 C28 C29 C30 C31 C32 C46 C50 C55 C61 C66 C68 C70 C71 C73;
    some of C05 C53) use at most the axioms of the standard library's
    reals: `ClassicalDedekindReals.sig_forall_dec`,
    `ClassicalDedekindReals.sig_not_dec`,
    `FunctionalExtensionality.functional_extensionality_dep` and
    `Classical_Prop.classic`.
  The exact list per theorem is at the end of this file.
* The reading of the Python source and of the numpy/scipy functions it calls;
  every model definition cites the lines it follows.

## What is modelled

| code | model | notes |
|---|---|---|
| `weight_models/*.py`: constructors, `random`, `complete`, `fit`, `tail`, `reset`, getters, `random_assignment`, `assignation_log_likelihood` | `M_Weights` | exact arithmetic; `tail` has fuel (`Diverge`) |
| rounding in `random_assignment` | `M_Float` | binary64 via `Coq.Floats.SpecFloat` (no primitive floats) |
| `weighting_log_likelihood` | `M_Loglik` | extended reals |
| variational methods of the weight models | `M_Var` | digamma/log-gamma are arbitrary functions with the stated hypotheses; `variational_*_w_j(j)` for `j >= 0` |
| `rng_parser`, seeding | `M_Seed` | |
| `posterior_norm_invw_params` | `M_Niw` | |
| `kmeans_cluster_size_biased`, label relabelling | `M_Utils` | k-means itself is an oracle answer |
| mixture constructors, `fit_gibbs`, `fit_variational`, `_initialize_*`, `_update_*`, `_save_params`, `_update_map_params`, log likelihoods | `M_Mix` | log densities, `argsort`, inverse, responsibilities, atoms and bound come from an environment `env` of arbitrary functions |
| `gibbs_*`/`var_*` queries, getters, `mixture_density`, `cluster` | `M_Query` | densities, spectral clustering, expected weights from `qenv` |
| `BetaInDirichlet.random`, values of the scores | `M_BidScore` | real numbers; the request model only keeps which scores are finite (`bid_logits`), agreeing when all sticks lie strictly inside (0, 1) |
| `gibbs_map_pairplot` | `M_Plot`, `M_Contour` | the drawing commands; labels, ticks, grid and opacity left out; `scipy.linalg.ldl` by LAPACK's 2x2 pivoting rule |
| `gumbel_max_sampling`, `dirichlet_log_eppf` | `M_Sample` | extended reals |
| `rejection_sample` | `M_Reject` | `f` exact; fuel |
| `_update_var_theta` | `M_VarTheta` | exact; matrix inversion an arbitrary function |
| `utils/_loaders.py` | `M_Load` | functions of the text of the file; `read_csv` in its default dialect, cells are texts; carriage returns and rows longer than the header left out |
| Constructors of the ten mixture classes and the argument checks of the weight models | `M_Construct` | keyword lists of tagged values; strings and arrays as iteration settings, and non-numbers as `pyd`, `a`, `b`, become TypeError; NaN left out |
| `_version.py`: all of it | `M_Version` | ASCII text; git is an arbitrary function of directory, program and arguments; decoding errors of its output and `verbose` printing left out |
| `_update_var_d`, `var_map_cluster(y)` scores, `density_normal`, `density_students_t`, `_calc_elbo` and its terms, Wishart helpers | `M_VarNum` | extended reals |

## What is not modelled

* Statistical correctness of numpy/scipy samplers, k-means and spectral
  clustering quality; `multivariate_normal`/`invwishart` internals.
* Rounding, except `M_Float`; overflow only where stated (`ext_exp`); underflow
  of `exp`; the endpoint `b` that `rng.uniform(a, b)` can reach by rounding.
* Gumbel noise is finite in `M_Mix` (`M_Sample` treats uniform draw 0).
* NaN priors become `ValueError`; NaN atoms are `None` in `M_VarTheta`; `M_VarLoop`
  stops following a variational fit once NaN is in its arrays.
* Broadcasting between data and priors of different dimension; DataFrame column
  names and index alignment; `show_progress`; rendering of plots;
  conversion of CSV cells to numbers; setup scripts and `versioneer.py`.
* `tol` is a finite number; block sizes of `dirichlet_log_eppf` are positive where
  a theorem says so.

## Print Assumptions per theorem

**Closed under the global context**

* `T_Assign`: c21_label_iff, c21_interval_length, c21_label_in_range, c21_label_has_weight, c21_zero_draw_refuted, c21_call, c21_call_in_range, c21_no_size_raises, c21_zero_total_labels_zero, c21_double_label_in_range_refuted, c22_normalized, c22_normalized_history, c22_zero_total_nan
* `T_Bayes`: c102_laws_exist, c102_dirichlet_process, c102_pitman_yor_process, c102_beta_in_beta_static, c102_geometric_process, c102_dirichlet_distribution
* `T_BayesNot`: c103_off_is_not_bayes, c103_beta_in_beta_independent_too_small, c103_beta_in_beta_geometric_too_large, c103_beta_binomial_too_small, c103_beta_in_beta_one
* `T_C01`: c01_weights_subprob, c01_bib_p_out_of_range_refuted
* `T_Chain`: c74_saved_states_are_visited_states, c74_settings_do_not_change_the_chain, c74_more_sweeps_extend_the_chain, c74_thinning_selects, c74_longer_run_extends, c74_total_with_variational_start_refuted, c75_warm_start_continues_the_chain, c75_same_as_one_fit, c75_burn_in_counts_again_refuted
* `T_Construct`: c104_constructs, c104_stores, c104_unknown_keyword, c104_too_short, c104_order_irrelevant, c104_default_explicit, c104_beta_in_beta_fixed, c104_beta_in_beta_refuses, c104_dirichlet_number, c104_dirichlet_list, c104_dirichlet_lost, c104_show_progress_refuted, c104_dirichlet_length_refuted
* `T_Crit`: c86_visit, c86_all_visited, c86_map_maximises
* `T_Cross`: c67_default_priors, c67_too_few_rows_not_finite, c67_explicit_priors_kept, c67_scale_semidefinite, c67_few_rows_singular, c67_row_order, c67_change_of_units, c69_variational_fit_keeps_gibbs_results, c69_variational_fit_keeps_gibbs_answers, c69_queries_without_data_use_last_data, c69_gibbs_fit_keeps_variational_results, c69_gibbs_fit_keeps_variational_answers, c69_equal_weights_follow_variational_groups, c69_equal_weights_unchanged_refuted, c69_variational_start_overwrites_refuted
* `T_Finish`: c94_fuel, c94_bounded, c94_sticks, c94_zero_sticks_never_end
* `T_Forms`: c83_gibbs_argument_forms, c83_variational_argument_forms, c83_no_argument_is_the_data, c83_other_types_rejected, c83_gibbs_negative_dim, c83_variational_negative_dim, c83_dim_out_of_range, c83_gibbs_negative_component, c83_variational_negative_component
* `T_FreqMix`: c80_weights_are_frequencies, c80_labels_were_in_use, c80_group_count, c80_warm_start, c80_one_group_forever, c80_cold_start, c80_kmeans_start, c80_dirichlet_process_refuted
* `T_GAffine`: c93_fit, c93_new, c93_map_density, c93_eap_density, c93_clusters
* `T_GibbsStart`: c89_first_slices, c89_start, c89_sweep_slices
* `T_Latent`: c77_beta_bernoulli_indicator_refuted, c77_beta_bernoulli_last_indicator_refuted
* `T_Load`: c99_round_trip, c99_chaetocnema, c99_penguins, c99_too_few_columns, c99_shipped_chaetocnema, c99_shipped_penguins
* `T_Loglik`: c24_dp_sticks_recovered, c24_py_sticks_recovered, c24_bib_sticks_recovered, c24_dp_stick_one_gives_nan, c24_no_weights_index_error, c59_betabinomial_terms, c59_first_stick_ignored, c59_chain_density_refuted, c60_betabernoulli_terms, c60_new_sticks_refuted
* `T_MixGibbs`: c33_saved_states, c33_warm_start_adds, c34_affinity_frequency, c34_affinity_shape, c34_after_failed_fit_refuted, c37_labels_in_range, c37_labels_after_step, c37_next_slice, c37_likelihood_in_range, c37_frequency_refit_refuted, c37_equal_refit_refuted, c38_respects_slice, c38_slice_above_all, c38_zero_weight_refuted, c39_saved_self_contained, c39_eap_density, c39_eap_affinity, c39_map_refuted, c40_counts, c40_atoms_redrawn, c41_natural_parameters, c41_sequential, c41_order, c41_symmetric, c41_positive_definite, c41_call
* `T_MixQuery`: c64_weights_are_subprobabilities, c43_density_of_one_mixture, c43_sum_of_components, c43_average_over_window, c43_average_sum_of_components, c43_missing_component, c43_zero_periods_uses_all, c43_negative_periods_drop_oldest, c43_average_nonnegative, c43_map_nonnegative, c44_map_clusters, c44_uncertainty_range, c44_single_row_fails, c44_affinity_of_new_data, c44_labels_are_components_refuted, c65_marginal_uses_first_column, c65_ignores_other_columns, c65_marginal_at_own_column_refuted, c49_loop, c49_nan_counts_as_converged, c51_training_affinity, c51_affinity_of_new_data, c52_training_clusters, c52_clusters_of_new_data, c54_stored_data, c54_other_types_rejected, c54_series_without_nu_fails, c54_series_never_fits_variationally, c54_queries_reject_series, c54_single_observation_fails
* `T_MixState`: c35_map_is_best_visited, c36_fresh_fit, c36_priors_frozen, c36_prior_mean_of_first_data, c36_map_survives_refuted, c47_flags_of_history, c47_gibbs_queries_guarded, c47_variational_queries_guarded, c48_bad_type_changes_nothing, c48_unknown_method, c48_no_groups, c48_results_lost_refuted, c48_data_replaced_refuted, c57_truncation, c57_rejected, c57_accepted, c57_at_least_one_saved, c57_nothing_saved, c57_fractional_refuted, c57_zero_step, c58_never_fits, c58_never_fitted_history, c58_without_groups, c58_with_groups, c58_marked_fitted_refuted, c45_size_biased, c45_bad_k
* `T_Moment`: c101_the_mean_is_determined, c101_dirichlet_process_means, c101_dirichlet_process_products, c101_dirichlet_process_fitted_means, c101_pitman_yor_means, c101_pitman_yor_process_mean_refuted, c101_geometric_means, c101_geometric_products, c101_dirichlet_distribution_means, c101_dirichlet_distribution_products, c101_dirichlet_distribution_fitted_means, c101_beta_in_beta_means, c101_beta_bernoulli_stick, c101_beta_bernoulli_pair, c101_beta_bernoulli_means, c101_beta_in_dirichlet_stick, c101_beta_in_dirichlet_pair, c101_beta_in_dirichlet_means, c101_beta_binomial_sticks, c101_beta_binomial_second_weight
* `T_More`: c62_fitted_random, c62_prior_random, c62_complete_new_p, c63_complete_chain, c63_prior_chain
* `T_Odd`: c90_label_chosen, c90_undefined_density_captures, c91_saving_fails, c91_failed_cold_start_refuted, c92_fitted_without_a_sweep, c92_queries_without_a_state
* `T_Plot`: c72_what_is_drawn, c72_right_components_iff_first_ones, c72_component_of_rows_refuted, c72_eleven_clusters_fail, c72_other_failures, c72_unfitted_is_index_error
* `T_Post`: c08_dp_random_fitted, c08_dp_random_size_fitted, c08_dp_random_prior, c09_py_random_fitted, c09_py_random_size_fitted, c09_py_random_prior, c09_py_complete_absolute_index, c09_py_bad_alpha_raises, c10_geometric_random, c11_dirichlet_random, c11_dirichlet_random_prior, c11_label_out_of_range_raises, c12_betabinomial_random_fitted, c12_betabinomial_random_prior
* `T_Renumber`: c105_density, c105_one_component, c105_eap_density, c105_eap_density_order, c105_map_density, c105_map_cluster, c105_affinity, c105_labels_refuted, c105_partition_tie_refuted, c105_partition_zero_refuted
* `T_Rowwise`: c106_eap_density, c106_map_density, c106_map_cluster, c106_affinity, c106_var_eap_density, c106_var_map_density, c106_label_refuted, c106_other_dim_refuted
* `T_Sample`: c56_first_accepted, c56_runs_on, c56_in_range, c56_many_under_graph, c56_many_fresh_pairs_refuted
* `T_Seed`: c25_accepted_iff, c25_rejected_how, c25_generator_shared, c25_int_seed_same_stream, c25_none_separate_streams, c25_int_seed_fresh_draws_refuted
* `T_Slice`: c78_requests
* `T_Sticks`: c02_random_stick_image, c02_history_stick_image, c02_bb_after_exception_refuted, c02_random_zero_refuted, c03_complete_appends, c03_fixed_size_ignores_size, c03_dirichlet_distribution_keeps, c03_bb_fresh_complete_raises
* `T_Tail`: c04_tail_mass, c04_tail_extends, c04_tail_out_of_range, c04_strictly_greater_refuted, c05_geometric_tail, c05_next_weight_reaches, c05_contract_iff, c05_degenerate_p, c05_geometric_mass_refuted, c06_returns_iff, c06_loops_iff, c06_bounded_draws_terminate, c06_zero_draws_never_return, c06_dirichlet_process_loops_forever, c06_fixed_size_terminate, c06_empty_dirichlet_loops_forever, c07_truncation_exact, c07_geometric_refuted
* `T_Twin`: c79_beta_in_beta_zero_mixture, c79_pitman_yor_zero_mixture, c79_single_fit, c79_same_answers, c79_pitman_yor_zero_weights, c79_size_zero_refuted, c79_variational_start_refuted
* `T_Urn`: c100_prior_is_an_urn, c100_complete_continues_the_urn, c100_fitted_draw_has_seen_its_labels, c100_chance_of_the_labels, c100_law_of_the_ties, c100_likelihood_terms
* `T_VarStart`: c87_kmeans_start, c87_random_start, c87_group_count, c87_random_without_groups, c87_bad_arguments
* `T_VarTheta`: c42_location, c42_scale_matrix, c42_conjugate_scale_matrix, c42_hard_assignments, c42_one_dimension, c42_symmetric, c42_positive_definite, c42_empty_group_is_nan, c42_after_fit, c42_scale_matrix_refuted, c53_map_density_default_raises, c53_int_dim_raises, c53_map_density_sum, c53_eap_density_sum, c53_eap_density_default, c53_marginal_block, c53_marginal_right_iff_uncorrelated
* `T_Version`: c95_tagged, c95_untagged, c95_unparsed, c95_long_round_trip, c95_describe_style, c95_branch, c95_detached_branch, c95_distinct, c95_collision_refuted, c96_keywords_read, c96_archive, c96_release_first, c96_highest_refuted, c97_fallback, c97_import_fails_only, c97_failing_show_raises, c97_failing_count_raises, c97_blank_show_raises, c97_bad_count_raises, c97_no_file, c98_default, c98_pre, c98_branch, c98_post, c98_unchanged, c98_exact, c98_untagged_exact, c98_untagged, c98_post_of_post_refuted, c98_dev_of_dev_refuted, c98_pre_raises_refuted
* `T_Warm`: c88_other_length, c88_never_fitted
* `T_Weights`: c13_random_same_as_dp, c13_complete_same_as_dp, c13_history_same_as_dp, c13_numpy_size_refuted, c14_unfitted_repeats_p, c14_fitted_random_equal_sticks, c14_complete_redraws, c14_equal_sticks_refuted, c15_p1_prior_independent_sticks, c15_p1_fitted_dp_posterior, c15_p0_prior_equal_sticks, c15_p0_fitted_equal_sticks, c16_last_proposal_zero_raises, c16_otherwise_succeeds, c16_random_zero, c16_unusable_afterwards, c16_never_fails_refuted, c17_no_index_error, c17_fitted_draw_consistent, c17_single_group_raises, c17_labels_in_range_refuted, c18_length_of_random, c18_size_ignored_refuted, c19_random_without_size_unfitted, c20_refit_replaces, c20_reset_forgets, c20_beta_in_dirichlet_refuted

**ClassicalDedekindReals.sig_forall_dec, ClassicalDedekindReals.sig_not_dec, Classical_Prop.classic, FunctionalExtensionality.functional_extensionality_dep**

* `T_Arg`: c68_argument_against_fitted_logs, c68_dp_rows_beyond_fit, c68_other_rows_beyond_fit, c68_geometric_argument, c68_equal_counts_columns, c68_frequency_argument, c68_frequency_argument_kept, c68_frequency_query_changes_answers_refuted, c68_unfitted
* `T_Cond`: c76_dirichlet_process, c76_pitman_yor, c76_geometric, c76_dirichlet_distribution, c76_beta_binomial_given_counts, c76_beta_in_beta_given_p, c76_beta_bernoulli_given_indicators, c76_beta_in_dirichlet_given_bases
* `T_Latent`: c77_base_scores_exact_iff, c77_scores_match_requests, c77_new_base_stick_refuted, c77_beta_in_beta_p_refuted, c77_beta_in_beta_p_given_stick_refuted, c77_beta_binomial_counts_refuted
* `T_Loglik`: c23_value, c23_growing_no_index_error, c23_beta_bernoulli_fresh_refuted, c23_fixed_size
* `T_Opt`: c70_dp_factor, c70_py_factor, c70_dirichlet_factor, c70_geometric_short_by_one, c70_geometric_factor_refuted, c70_dp_fit_maximises_bound, c70_py_fit_maximises_bound, c71_best_possible, c71_softmax_attains_it, c71_update_nearly_optimal
* `T_Sample`: c46_exponential_race, c46_returns_an_index, c46_support, c46_volume, c46_nan_wins, c46_zero_draw_refuted, c55_symmetric, c55_addition_rule, c55_one_block, c55_ewens_formula
* `T_Slice`: c78_label_law, c78_label_law_zero, c78_label_law_nothing_above, c78_kernel, c78_kernel_total, c78_reversible_without_shift, c78_invariant_without_shift, c78_balance_error, c78_invariance_error, c78_shift_favours_heavier, c78_two_components_not_invariant_refuted, c78_tiny_weights_unreachable
* `T_Tail`: c05_size_is_floor_of_log_ratio
* `T_Urn`: c100_law_is_the_eppf
* `T_Var`: c31_dp_log_probability, c31_py_log_probability, c31_geometric_log_probability, c31_dirichlet_below_expectation, c31_expected_label_log, c31_geometric_drops_factor, c31_equal_wrong_sign, c31_frequency_no_log, c32_before_fit, c32_equal_answers, c32_not_implemented, c61_dp_densities, c61_py_densities, c61_geometric_densities, c61_dirichlet_densities
* `T_VarLoop`: c81_unit_origin_order, c81_default_priors, c81_mirror_refuted, c82_positive_responsibilities, c82_nan_iff_empty_group, c82_few_distinct_values
* `T_VarNeg`: c84_dirichlet_distribution, c84_equal_weighting, c84_frequency_weighting, c84_pitman_yor_single_stick, c84_dirichlet_process_single_stick, c84_geometric_process
* `T_VarNum`: c50_probability_vector, c50_label, c50_responsibilities, c50_score, c50_score_one_dimension, c50_mean_centred, c50_mean_centred_label, c50_same_label, c50_mean_centred_label_refuted, c53_student_density, c66_data_term, c66_one_group, c66_prior_term, c66_atom_entropy, c66_gap, c66_weights_ignored, c66_infinite_prior_is_nan
* `T_VarRun`: c85_atoms_are_posteriors, c85_starting_atoms, c85_totals, c85_when_it_stops

**ClassicalDedekindReals.sig_forall_dec, ClassicalDedekindReals.sig_not_dec, FunctionalExtensionality.functional_extensionality_dep**

* `T_Contour`: c73_distance_of_points, c73_on_contour_iff_uncorrelated, c73_on_contour_refuted, c73_area, c73_always_a_hundred_points
* `T_VarNum`: c50_otherwise_nan, c50_mean_centred_overflow, c53_normal_density, c53_normal_density_one_dimension, c53_normal_density_identity

**ClassicalDedekindReals.sig_forall_dec, FunctionalExtensionality.functional_extensionality_dep**

* `T_Cond`: c76_atoms
* `T_Latent`: c77_marginal_is_moment
* `T_Opt`: c70_geometric_without_data
* `T_Var`: c26_dp_agrees, c26_dirichlet_agrees, c26_py_larger, c26_geometric_smaller, c27_dp_mean_sums_to_1, c27_dirichlet_mean_sums_to_1, c27_equal_mean_sums_to_1, c27_frequency_mean_sums_to_1, c27_frequency_fewer_observations, c27_py_missing_mass, c27_geometric_missing_mass, c28_dp_outside, c28_equal_outside, c28_frequency_outside, c28_dirichlet_boundary, c28_py_boundary, c28_geometric_one, c29_geometric_mean_not_expectation, c30_mode_in_unit_interval, c30_dp_error, c30_dp_value, c30_dp_modes_sum_to_1, c30_py_error, c30_geometric_error, c30_dirichlet_error
* `T_VarNeg`: c84_geometric_mode, c84_geometric_at_most_one_refuted, c84_before_the_first
* `T_VarRun`: c85_default_priors
