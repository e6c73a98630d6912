{
 "claims": [
  {
   "property": "C01",
   "status": "proved",
   "theorems": [
    "C01_samples_within_limits",
    "C01_samples_within_limits_real"
   ],
   "note": "For every number type and arithmetic, every sequence of settings changes, fresh and resumed runs. An entry that is NaN counts as inside, as in the code."
  },
  {
   "property": "C02",
   "status": "proved",
   "theorems": [
    "C02_user_functions_see_admissible_vectors"
   ],
   "note": "Every recorded call of the sum-of-squares function."
  },
  {
   "property": "C03",
   "status": "proved",
   "theorems": [
    "C03_sschain_is_ss_of_chain"
   ],
   "note": "Hypothesis: the SS function is deterministic and returns a constant number of components."
  },
  {
   "property": "C04",
   "status": "proved",
   "theorems": [
    "C04_rows_follow_from_proposals"
   ],
   "note": "The event list of a run explains every row. Resumed runs need distinct names of sampled parameters (restart matches by name)."
  },
  {
   "property": "C05",
   "status": "proved",
   "theorems": [
    "C05_rejection_counters",
    "C05_fraction_exact"
   ],
   "note": "Any arithmetic for the fractions; exact value over the reals."
  },
  {
   "property": "C06",
   "status": "proved",
   "theorems": [
    "C06_delayed_rejection_counts"
   ],
   "note": "Entry 0 counts the initial point as an acceptance."
  },
  {
   "property": "C07",
   "status": "proved",
   "theorems": [
    "C07_final_theta"
   ],
   "note": ""
  },
  {
   "property": "C08",
   "status": "proved",
   "theorems": [
    "C08_run_yields_nsimu_rows",
    "C08_single_simulation_raises"
   ],
   "note": "Row provenance is C04. Finding: nsimu=1 always raises."
  },
  {
   "property": "C09",
   "status": "proved",
   "theorems": [
    "C09_metropolis_acceptance",
    "C09_improvement_always_accepted",
    "C09_undefined_never_accepted"
   ],
   "note": "Exact arithmetic over the extended reals (inf and NaN included)."
  },
  {
   "property": "C10",
   "status": "proved",
   "theorems": [
    "C10_metropolis_detailed_balance",
    "C10_proposal_density"
   ],
   "note": "The acceptance probability is the one the step compares its uniform draw with; the proposal density is identified with the density of the standard normal draws of the generator up to its constant factor, which cancels and is arbitrary here."
  },
  {
   "property": "C100",
   "status": "proved",
   "theorems": [
    "C100_idle",
    "C100_short_runs",
    "C100_adapting"
   ],
   "note": "Whole sessions over an arbitrary arithmetic. That lastadapt is among the settings without any effect contradicts its documentation (SimulationOptions.py line 51); see C16_refuted_lastadapt. adascale is left out: it is stored in the covariance object even if it is not used. Printing is not part of this model of the run (see C62, C64)."
  },
  {
   "property": "C101",
   "status": "proved",
   "theorems": [
    "C101_given",
    "C101_same_samples"
   ],
   "note": "Fresh runs (also from a restart file); a continued run estimates the variance, because the first run sets N0 (C27_refuted_updatesigma). The observations themselves enter through the sum-of-squares function, which is a parameter of the model and the same in both runs."
  },
  {
   "property": "C11",
   "status": "proved",
   "theorems": [
    "C11_delayed_rejection_balance"
   ],
   "note": "All path lengths, paths through points outside the limits included."
  },
  {
   "property": "C12",
   "status": "proved",
   "theorems": [
    "C12_delayed_rejection_tries",
    "C12_delayed_rejection_course"
   ],
   "note": "First theorem for any arithmetic, second over the extended reals."
  },
  {
   "property": "C13",
   "status": "proved",
   "theorems": [
    "C13_metropolis_rejects_undefined",
    "C13_delayed_rejection_rejects_undefined",
    "C13_accepted_points_finite",
    "C13_run_stores_no_undefined",
    "C13_undefined_try_blocks_next"
   ],
   "note": "Any arithmetic with inf and NaN in which 1*(1-1)=0 and not 1<=0; C13_accepted_points_finite over the extended reals. The last theorem records a side effect: an undefined try makes the next try impossible to accept."
  },
  {
   "property": "C14",
   "status": "proved",
   "theorems": [
    "C14_recursive_equals_batch",
    "C14_weighted"
   ],
   "note": "Weights at least 1."
  },
  {
   "property": "C15",
   "status": "partial",
   "theorems": [
    "C15_statistics_of_past_rows_partial",
    "C15_statistics_of_any_run",
    "C15_blocks_of_a_fresh_run",
    "C15_refuted_for_resumed_runs"
   ],
   "note": "For every run it is proved exactly which rows enter the statistics, and how often. Fresh runs with initqcovn unset: proved, the newest row entering at the next adaptation. Resumed runs: false, shown by a run whose statistics count 18 rows of a chain of 15."
  },
  {
   "property": "C16",
   "status": "partial",
   "theorems": [
    "C16_changes_only_when_due_partial",
    "C16_never_for_mh_and_dr",
    "C16_refuted_lastadapt"
   ],
   "note": "lastadapt is never consulted by the sampler: that clause is false."
  },
  {
   "property": "C17",
   "status": "proved",
   "theorems": [
    "C17_adapted_factor",
    "C17_adapted_factor_along_run"
   ],
   "note": "Assumes of numpy.linalg.cholesky only that what it returns is a lower triangular factor."
  },
  {
   "property": "C18",
   "status": "proved",
   "theorems": [
    "C18_cholupdate"
   ],
   "note": "The inputs are not modified: the function copies them first, and the model is functional."
  },
  {
   "property": "C19",
   "status": "proved",
   "theorems": [
    "C19_stages_at_setup",
    "C19_stages_after_adaptation",
    "C19_stages_along_run",
    "C19_stages_given_by_user"
   ],
   "note": "Burn-in adaptations drop the factors, see C20."
  },
  {
   "property": "C20",
   "status": "partial",
   "theorems": [
    "C20_burnin_rescales_partial",
    "C20_refuted_for_delayed_rejection"
   ],
   "note": "The rescaling is proved; that the run can continue is false with delayed rejection."
  },
  {
   "property": "C21",
   "status": "partial",
   "theorems": [
    "C21_accepted_options_run_partial",
    "C21_refuted_ntry_without_dr",
    "C21_refuted_ram_with_dr"
   ],
   "note": "Runs with the named safe option sets, fresh or resumed, never raise attribute or type errors; ntry>1 with am/mh and RAM with delayed rejection do."
  },
  {
   "property": "C22",
   "status": "partial",
   "theorems": [
    "C22_ram_update_partial",
    "C22_valid_exactly_if",
    "C22_log_alpha_valid_exactly_if",
    "C22_refuted_log_alpha"
   ],
   "note": "Proved for alpha >= 0; the code passes the logarithm, for which it is false. The exact condition on the number passed, and on the ratio when its logarithm is passed, is proved."
  },
  {
   "property": "C23",
   "status": "proved",
   "theorems": [
    "C23_default_covariance"
   ],
   "note": ""
  },
  {
   "property": "C24",
   "status": "proved",
   "theorems": [
    "C24_update_draws",
    "C24_positive",
    "C24_sampler_returns",
    "C24_components_separate",
    "C24_along_run"
   ],
   "note": "Exact arithmetic over the extended reals, any streams of finite normal and non-negative uniform numbers. What is proved is the algorithm of Marsaglia and Tsang on a given stream; that this algorithm yields the gamma distribution is not part of it."
  },
  {
   "property": "C25",
   "status": "partial",
   "theorems": [
    "C25_scale_fixed_partial",
    "C25_shared_array_scale",
    "C25_refuted_shared_array"
   ],
   "note": "Proved when S20 is given or sigma2 has one entry. Otherwise S20 and sigma2 are one array and the claim is false; what happens then is described exactly."
  },
  {
   "property": "C26",
   "status": "partial",
   "theorems": [
    "C26_first_variances_partial",
    "C26_refuted_default"
   ],
   "note": "The claim is false: without sigma2 the first variance is always 1. Proved: what the first row is."
  },
  {
   "property": "C27",
   "status": "partial",
   "theorems": [
    "C27_options_stable_partial",
    "C27_model_settings_stable_partial",
    "C27_refuted_observations",
    "C27_refuted_updatesigma"
   ],
   "note": "updatesigma turns on at the second run; several data sets with one SS component make it exit. Everything else is stable."
  },
  {
   "property": "C28",
   "status": "proved",
   "theorems": [
    "C28_setting_sizes"
   ],
   "note": "Hypothesis: the SS function returns a constant number of components."
  },
  {
   "property": "C29",
   "status": "proved",
   "theorems": [
    "C29_log_blocks"
   ],
   "note": "The four log files must have different names."
  },
  {
   "property": "C30",
   "status": "partial",
   "theorems": [
    "C30_bin_log_reads_back_partial",
    "C30_longer_logs_read_wrong",
    "C30_refuted_bin_log_out_of_order"
   ],
   "note": "False in general: datasets are read in string order. Proved exactly when all later blocks start at rows with as many digits as savesize; otherwise the result differs from the chain."
  },
  {
   "property": "C31",
   "status": "proved",
   "theorems": [
    "C31_resumed_run_extends"
   ],
   "note": "Hypothesis: names of sampled parameters are pairwise distinct."
  },
  {
   "property": "C32",
   "status": "partial",
   "theorems": [
    "C32_resumed_text_log_repeats_old_rows",
    "C32_resuming_with_bin_log_fails",
    "C32_refuted_new_rows_not_logged"
   ],
   "note": "False: text logs receive the old rows again, binary logs make the run fail."
  },
  {
   "property": "C33",
   "status": "partial",
   "theorems": [
    "C33_restart_values",
    "C33_restart_covariance_partial",
    "C33_restart_at_last_row",
    "C33_refuted_restart_fails_with_fixed_parameter_between"
   ],
   "note": "Values proved. The covariance is used when the sampled parameters come first; otherwise the run fails."
  },
  {
   "property": "C34",
   "status": "partial",
   "theorems": [
    "C34_results_file_partial",
    "C34_results_file_written",
    "C34_initial_covariance_is_stored"
   ],
   "note": "All proved except that options are stored with the initial covariance, against the claim."
  },
  {
   "property": "C35",
   "status": "partial",
   "theorems": [
    "C35_generated_points_admissible",
    "C35_user_points_partial",
    "C35_declared_values_are_replaced",
    "C35_refuted_fixed_parameter_keeps_its_value",
    "C35_refuted_user_point_within_infinite_limits"
   ],
   "note": "Generated points are within the limits (finite or infinite), over the extended reals. User points are accepted exactly when within the limits, for parameters with finite limits. The full statement is false: a parameter that is not sampled is moved, and a user point within infinite limits is refused; both are shown by a counterexample."
  },
  {
   "property": "C36",
   "status": "proved",
   "theorems": [
    "C36_chains_do_not_collide",
    "C36_number_of_workers"
   ],
   "note": "For every schedule and every interleaving of the file operations. At least one worker whenever at least one is asked for; otherwise the run stops."
  },
  {
   "property": "C37",
   "status": "partial",
   "theorems": [
    "C37_first_chains_of_workers_share_their_numbers",
    "C37_refuted_identical_chains",
    "C37_chains_of_one_worker_partial"
   ],
   "note": "The statement is false with forked workers: the first chains of any two busy workers replay the same numbers (proved for every schedule, with a run giving identical chains). Chains run by the same worker use disjoint numbers."
  },
  {
   "property": "C38",
   "status": "partial",
   "theorems": [
    "C38_combined_chain",
    "C38_parallel_run_combined",
    "C38_labels_differ",
    "C38_refuted_for_resumed_chain"
   ],
   "note": "The burn-in fraction refers to the stored number of simulations, which is the length of the chain for every parallel run. A chain that was resumed before being combined loses too few rows (counterexample)."
  },
  {
   "property": "C39",
   "status": "partial",
   "theorems": [
    "C39_loading_from_logs_partial",
    "C39_loading_keeps_other_entries_partial",
    "C39_full_results_files_cannot_be_loaded",
    "C39_refuted_for_json_only_run"
   ],
   "note": "Proved for runs whose chains are in the text logs, or in binary logs that can be read back (C30). The full statement is false: results files that hold the chains cannot be loaded."
  },
  {
   "property": "C40",
   "status": "proved",
   "theorems": [
    "C40_scale_reduction",
    "C40_units",
    "C40_order_of_chains",
    "C40_each_parameter"
   ],
   "note": "Over the reals, for within-chain variance > 0."
  },
  {
   "property": "C41",
   "status": "proved",
   "theorems": [
    "C41_batches",
    "C41_short_chains_rejected",
    "C41_constant_chain",
    "C41_scaling"
   ],
   "note": "Over the reals, for every batch length giving at least two batches."
  },
  {
   "property": "C42",
   "status": "partial",
   "theorems": [
    "C42_compares_ends_partial",
    "C42_when_refused",
    "C42_default_disjoint",
    "C42_refuted_overlap_accepted",
    "C42_refuted_disjoint_refused"
   ],
   "note": "The segments compared and the value of the scores are as stated. The full statement is false: the program compares the starting rows, so overlapping segments can be accepted and disjoint ones refused (exact conditions and counterexamples). The default fractions never overlap."
  },
  {
   "property": "C43",
   "status": "partial",
   "theorems": [
    "C43_quantiles",
    "C43_outside_refused",
    "C43_order_of_rows",
    "C43_refuted_single_row"
   ],
   "note": "Proved for samples of at least two rows. A sample of one row gives NaN."
  },
  {
   "property": "C44",
   "status": "partial",
   "theorems": [
    "C44_bands_partial",
    "C44_larger_encloses_smaller",
    "C44_impossible_levels_refused",
    "C44_prediction_intervals",
    "C44_credible_intervals",
    "C44_refuted_90_percent",
    "C44_refuted_no_prediction"
   ],
   "note": "True of every band drawn except the one labelled 90% by PredictionIntervals, which spans 5% to 90% (counterexample); nesting holds for all of them."
  },
  {
   "property": "C45",
   "status": "partial",
   "theorems": [
    "C45_prediction_intervals_partial",
    "C45_drawn_rows_exist",
    "C45_every_row_can_be_drawn",
    "C45_first_rows_used",
    "C45_draws_not_used",
    "C45_refuted_propagation"
   ],
   "note": "True of PredictionIntervals. False of propagation.calculate_intervals, which draws rows but evaluates the first ones (proved for all inputs, with a counterexample)."
  },
  {
   "property": "C46",
   "status": "partial",
   "theorems": [
    "C46_propagation_partial",
    "C46_whole_chain",
    "C46_prediction_intervals_partial",
    "C46_refuted_theta_changed"
   ],
   "note": "All entries but 'theta' are unchanged; 'theta' is overwritten with the last row used, so the statement is false unless that row is the last of the chain (counterexample)."
  },
  {
   "property": "C47",
   "status": "partial",
   "theorems": [
    "C47_stride",
    "C47_number_of_points_partial",
    "C47_failures",
    "C47_refuted_maximum"
   ],
   "note": "In range, increasing and with constant stride for all inputs. The maximum is exceeded exactly when the chain is longer than the maximum and not a multiple of it; up to almost twice as many points are returned."
  },
  {
   "property": "C48",
   "status": "proved",
   "theorems": [
    "C48_room",
    "C48_nearly_square"
   ],
   "note": "For all n >= 1."
  },
  {
   "property": "C49",
   "status": "proved",
   "theorems": [
    "C49_settings_are_merged"
   ],
   "note": ""
  },
  {
   "property": "C50",
   "status": "partial",
   "theorems": [
    "C50_sorted_partial",
    "C50_no_index_error_partial",
    "C50_refuted_short",
    "C50_refuted_order"
   ],
   "note": "True of samples of at least eight values given in increasing order. False otherwise: the code sorts along the wrong axis and samples of fewer than eight values raise IndexError (proved, with counterexample for the order)."
  },
  {
   "property": "C51",
   "status": "partial",
   "theorems": [
    "C51_data_sets_aligned_partial",
    "C51_refuted_with_n",
    "C51_refuted_flat_list"
   ],
   "note": "Proved for calls without n; a call with n appends no count, a flat list counts as one observation."
  },
  {
   "property": "C52",
   "status": "proved",
   "theorems": [
    "C52_default_sum_of_squares",
    "C52_nonnegative_and_zero",
    "C52_flat_output_raises"
   ],
   "note": "Observations and outputs as columns, the documented layout."
  },
  {
   "property": "C53",
   "status": "proved",
   "theorems": [
    "C53_default_prior",
    "C53_prior_settings",
    "C53_restart_keeps_means"
   ],
   "note": ""
  },
  {
   "property": "C54",
   "status": "proved",
   "theorems": [
    "C54_options_resolve",
    "C16_never_for_mh_and_dr"
   ],
   "note": ""
  },
  {
   "property": "C55",
   "status": "proved",
   "theorems": [
    "C55_index_sets",
    "C55_bad_limits_exit"
   ],
   "note": "Limits: runs without restart file (with one, the checks apply to the restored values)."
  },
  {
   "property": "C56",
   "status": "proved",
   "theorems": [
    "C56_default_names",
    "C56_completed_names",
    "C56_generated_names",
    "C56_declared_without_names"
   ],
   "note": "A completed list can repeat a given name only if that name is itself a default name of a higher number."
  },
  {
   "property": "C57",
   "status": "partial",
   "theorems": [
    "C57_units_partial",
    "C57_middle_irrelevant",
    "C57_refuted_origin"
   ],
   "note": "Unit and middle rows: proved. Origin: false, the values are not centred before the spectral estimate (counterexample)."
  },
  {
   "property": "C58",
   "status": "proved",
   "theorems": [
    "C58_autocorrelation_time",
    "C58_constant_chain",
    "C58_units",
    "C58_each_parameter"
   ],
   "note": "The transform (scipy.fftpack.fft) is assumed to be the discrete Fourier transform (is_dft); the autocorrelations are circular."
  },
  {
   "property": "C59",
   "status": "partial",
   "theorems": [
    "C59_summary",
    "C59_short_chains",
    "C59_refuted_selected_columns"
   ],
   "note": "The summary is as stated when there are at most as many names as columns. Columns selected from a chain, with the results of the whole chain: IndexError. Chains of 20 to 39 rows raise ZeroDivisionError."
  },
  {
   "property": "C60",
   "status": "partial",
   "theorems": [
    "C60_acceptance_figures_partial",
    "C60_chain_only",
    "C60_refuted_results_from_file"
   ],
   "note": "Holds for the results of the run in memory; with results read from their file print_chain_acceptance_info raises AttributeError (a list has no sum)."
  },
  {
   "property": "C61",
   "status": "proved",
   "theorems": [
    "C61_longer_run_begins_with_shorter",
    "C61_shorter_run_ends"
   ],
   "note": ""
  },
  {
   "property": "C62",
   "status": "proved",
   "theorems": [
    "C62_logging_does_not_influence_sampling",
    "C62_run_without_binary_log_ends"
   ],
   "note": "Switching binary logs on can make a run fail (the log cannot be opened, see C26), hence the direction of the second theorem."
  },
  {
   "property": "C63",
   "status": "partial",
   "theorems": [
    "C63_resumed_run_is_one_run_partial",
    "C63_refuted_default_covariance",
    "C63_refuted_adaptation"
   ],
   "note": "Proved without adaptation, with a given covariance and with estimation of the error variance. False for the default covariance (made from the starting values) and for adaptive methods (adaptation starts anew); runs without variance estimation cannot be continued at all (C27)."
  },
  {
   "property": "C64",
   "status": "proved",
   "theorems": [
    "C64_display_does_not_disturb",
    "C64_percentages"
   ],
   "note": "For any clock (times at which the bar is updated) and every run with at least one simulation. The counters are recomputed from the outcomes of the iterations."
  },
  {
   "property": "C65",
   "status": "partial",
   "theorems": [
    "C65_progress_bar_partial",
    "C65_refuted_number_within_total"
   ],
   "note": "The number shown is two ahead of the iterations done and can exceed the total by one (refuted for every run with slow iterations); all other parts proved. For a total of at most 38 the bar showing total + 1 may be longer than 38 characters."
  },
  {
   "property": "C66",
   "status": "proved",
   "theorems": [
    "C66_ellipse",
    "C66_equal_angles",
    "C66_refused"
   ],
   "note": "cos, sin, pi and the Cholesky routine are parameters assumed to be what their names say (the Cholesky routine on the lower triangle only). Symmetry is tested with the tolerances of np.allclose; the ellipse is that of the lower triangle."
  },
  {
   "property": "C67",
   "status": "partial",
   "theorems": [
    "C67_many_points",
    "C67_few_points",
    "C67_values_covered_partial",
    "C67_refuted_values_covered",
    "C67_single_value_and_none"
   ],
   "note": "Values are covered for samples of 2 to 17 and of more than 200 values (Samuelson inequality), and not in general for any size from 18 to 200 (counterexample for each size). A single value gives NaN, none raises ValueError."
  },
  {
   "property": "C68",
   "status": "partial",
   "theorems": [
    "C68_bandwidth_partial",
    "C68_refuted_short",
    "C68_refuted_order"
   ],
   "note": "Depends on the order of the sample because the interquartile range is taken without sorting (C50; counterexample). Fewer than eight values raise IndexError."
  },
  {
   "property": "C69",
   "status": "proved",
   "theorems": [
    "C69_density",
    "C69_refused"
   ],
   "note": ""
  },
  {
   "property": "C70",
   "status": "proved",
   "theorems": [
    "C70_factor_follows_covariance",
    "C70_covariance_unaffected"
   ],
   "note": "For positive weights and a total weight above one of the rows seen so far (the square roots are not real otherwise). The code keeps the factor in a local variable and never returns it; the model returns it."
  },
  {
   "property": "C71",
   "status": "proved",
   "theorems": [
    "C71_posterior_ratio",
    "C71_log_posterior_ratio",
    "C71_number_priors_fail",
    "C71_same_decision"
   ],
   "note": "For prior values given as arrays, as by the default prior function; with plain numbers both old functions raise TypeError (proved). The two tests take different amounts of random numbers."
  },
  {
   "property": "C72",
   "status": "partial",
   "theorems": [
    "C72_chains_from_logs_partial",
    "C72_chains_from_results_file",
    "C72_logs_only",
    "C72_file_asked_for_is_ignored",
    "C72_refuted_file_asked_for_is_loaded"
   ],
   "note": "False for the file asked for, which is ignored as soon as the directory holds a .json file; loading from binary logs inherits the condition of C30, and log files must not hold rows of earlier runs. The covariance chain is not compared."
  },
  {
   "property": "C73",
   "status": "partial",
   "theorems": [
    "C73_bands_and_colours_partial",
    "C73_descending_limits",
    "C73_no_limits",
    "C73_refuted_colour_of_given_limit"
   ],
   "note": "Limits are sorted in place in descending order and colours are not, so that colours go with the sorted limits; true for limits given in descending order. The lists of the caller are reordered."
  },
  {
   "property": "C74",
   "status": "proved",
   "theorems": [
    "C74_outline",
    "C74_too_few_points"
   ],
   "note": ""
  },
  {
   "property": "C75",
   "status": "proved",
   "theorems": [
    "C75_watching_samplers_change_nothing",
    "C75_watching_samplers_do_not_fail"
   ],
   "note": "The call counter of the model and the ghost trace are compared as well. The second theorem is for runs without binary logs or samplers that do not save chains: data sets of the same name would collide otherwise."
  },
  {
   "property": "C76",
   "status": "proved",
   "theorems": [
    "C76_samplers_follow_the_chain"
   ],
   "note": "For samplers that leave the parameter set as it is; the numbers they draw are unrestricted. The length of the sum of squares must not depend on the outputs."
  },
  {
   "property": "C77",
   "status": "partial",
   "theorems": [
    "C77_stored_ss_has_outputs_of_acceptance_partial",
    "C77_refuted_outputs_in_force"
   ],
   "note": "False: the sum of squares of the current point is not computed again after an update, so the stored value belongs to the outputs in force when the point was accepted (none for the starting point), while candidates are evaluated with the latest outputs. That is proved exactly."
  },
  {
   "property": "C78",
   "status": "proved",
   "theorems": [
    "C78_custom_chain_logs"
   ],
   "note": "For samplers whose update in iteration i leaves the rows before row i as they are, and chain names used by no other chain."
  },
  {
   "property": "C79",
   "status": "partial",
   "theorems": [
    "C79_changed_set_is_the_next_start",
    "C79_limits_kept_partial",
    "C79_refuted_limits_and_ss"
   ],
   "note": "False for the limits and the sums of squares: the set left by the samplers is neither checked nor evaluated (counterexample). The limits are kept if the samplers keep to them."
  },
  {
   "property": "C80",
   "status": "partial",
   "theorems": [
    "C80_flag_without_effect_partial",
    "C80_fixed_local_fails",
    "C80_refuted_value_for_each_batch",
    "C80_without_batches",
    "C80_scan_for_local_variables"
   ],
   "note": "False: a local flag has no effect for sampled parameters, a fixed local parameter makes the run fail with two or more batches, and without batches the last declarations are lost. All cases are proved."
  },
  {
   "property": "C81",
   "status": "partial",
   "theorems": [
    "C81_lines_of_the_table_partial",
    "C81_refuted_marks",
    "C81_marks_of_python_flags"
   ],
   "note": "The mark is never printed in a run, because the flags are numpy booleans and are compared with \"is True\"; all the rest of the statement is proved, and the marks are right for Python booleans."
  },
  {
   "property": "C82",
   "status": "partial",
   "theorems": [
    "C82_data_sets_for_prediction_partial",
    "C82_columns",
    "C82_refuted_weights",
    "C82_same_structure_as_in_runs"
   ],
   "note": "False for the weights, which are not taken along: the weight is 1 in the structures for prediction. All other fields are proved."
  },
  {
   "property": "C83",
   "status": "proved",
   "theorems": [
    "C83_density_panels",
    "C83_histogram_panels",
    "C83_chain_panels",
    "C83_pair_panels",
    "C83_names_of_the_caller"
   ],
   "note": "For chains that are rectangular. A density curve is represented by the column it is made from. Beside it: a list of names that is too short is completed in the list of the caller."
  },
  {
   "property": "C84",
   "status": "partial",
   "theorems": [
    "C84_label_of_the_last_row_partial",
    "C84_refuted_label_of_each_column",
    "C84_name_of_the_chain",
    "C84_refuted_default_name"
   ],
   "note": "False whenever the last row of the grid is not full (three parameters, for example): exactly the panels of the last row have the label. The default name of a single chain is shown as a list, with brackets and quotes. Both proved for all chains."
  },
  {
   "property": "C85",
   "status": "proved",
   "theorems": [
    "C85_units",
    "C85_default_variance_has_no_units"
   ],
   "note": "Over the extended reals, for sum-of-squares functions that never return an empty array. Beside it: the default error variance is 1 in any units, and then decisions depend on the units."
  },
  {
   "property": "C86",
   "status": "partial",
   "theorems": [
    "C86_propagation",
    "C86_prediction_intervals_partial",
    "C86_credible_intervals",
    "C86_other_layouts_refused",
    "C86_refuted_scale_asked_for",
    "C86_results_have_no_scale"
   ],
   "note": "Proved in full for propagation.py, where the scale asked for is used. In PredictionIntervals.py any scale given by the caller is replaced by 0, and the results of a run hold none, so that errors are always added to the response itself: everything else is proved. Over the extended reals, for finite responses and variances that are not negative; at least two rows drawn in PredictionIntervals. A vector of p variances is read as one for each response unless p is the number of rows of the chain."
  },
  {
   "property": "C87",
   "status": "proved",
   "theorems": [
    "C87_origin",
    "C87_default_prior",
    "C87_default_covariance_has_an_origin"
   ],
   "note": "Over the extended reals, for declarations whose names differ (a resumed run finds parameters by name). The covariance of the proposals is given by the user or every parameter has a prior of positive finite width. Beside it: with the default prior function only the sum of squares has to be moved, and the default covariance of a parameter without a prior depends on the origin."
  },
  {
   "property": "C88",
   "status": "proved",
   "theorems": [
    "C88_well_formed_runs_complete",
    "C88_without_variances",
    "C88_continued_runs_complete",
    "C88_delayed_rejection_over_the_reals"
   ],
   "note": "For runs without a restart file and their continuations, in any arithmetic. The rejection loop of the gamma generator, entered when error variances are estimated, has no bound: for such runs the theorem says that they return or are still in that loop when the fuel of the model is used up. Errors raised by the functions of the user, the file system or the linear algebra beyond the stated conditions are not modelled. Over the reals any factorisation with a positive diagonal and solver for triangular systems meets the condition on inverses."
  },
  {
   "property": "C89",
   "status": "proved",
   "theorems": [
    "C89_units",
    "C89_first_run",
    "C89_exact_linear_algebra",
    "C89_default_prior",
    "C89_adjustment_has_units",
    "C89_default_variance_has_units"
   ],
   "note": "Over the extended reals, for declarations whose names differ. The condition on factorisation and inverse is proved for all exact ones. Beside it: what is added to a singular covariance and the first variance of a parameter that starts from zero without a prior are numbers in the units of the parameters, so the statement is false for them."
  },
  {
   "property": "C90",
   "status": "proved",
   "theorems": [
    "C90_names",
    "C90_equal_names_are_confused"
   ],
   "note": "Renamings are functions under which different names stay different; any finite renaming extends to one. Beside it: with two equal names both parameters get the last value."
  },
  {
   "property": "C91",
   "status": "proved",
   "theorems": [
    "C91_interval_plots",
    "C91_zero_is_not_off"
   ],
   "note": "Arrays have one column of times and y-data of two dimensions, as the data structure makes them. Beside it: an integer 0 given as the flag leaves prediction intervals in."
  },
  {
   "property": "C92",
   "status": "proved",
   "theorems": [
    "C92_only_numbers",
    "C92_default_prior",
    "C92_perfect_fit"
   ],
   "note": "First run without a restart file; uniform random numbers are positive (the generator returns 0 with probability 2^-53). Runs with the robust adaptive rule are excluded: it divides by the norm of the last step. Beside it: the default prior is never -inf, and a perfect fit with N0 = 0 draws a variance of 0."
  },
  {
   "property": "C93",
   "status": "proved",
   "theorems": [
    "C93_every_point_can_be_proposed",
    "C93_candidate_anywhere",
    "C93_refuted_zero_variance"
   ],
   "note": "Assumes of the library that the Cholesky factor of a matrix of numbers is lower triangular with a positive diagonal. The robust adaptive rule is excluded (it divides by the norm of the last step). The third theorem shows that the condition on the variances is needed."
  },
  {
   "property": "C94",
   "status": "partial",
   "theorems": [
    "C94_figure_partial",
    "C94_figure_3d_partial",
    "C94_refuted_data_3d",
    "C94_refuted_no_data_3d",
    "C94_refuted_styles_3d",
    "C94_refuted_label"
   ],
   "note": "True of plot_intervals unless the display settings of intervals contain a label or face colour (the call fails). In three dimensions observations at points of their own are refused unless they are as many as the times, asking for observations without giving any is an error, and display settings of intervals have no effect. Colours go with the sorted limits (C73)."
  },
  {
   "property": "C95",
   "status": "proved",
   "theorems": [
    "C95_fixed_are_constants",
    "C95_only_through_the_model"
   ],
   "note": "For any arithmetic and any sequence of actions without restart files (these read the stored covariance at the wrong positions if there are fixed parameters, see C33). At least one parameter is sampled."
  },
  {
   "property": "C96",
   "status": "proved",
   "theorems": [
    "C96_unreached_limits",
    "C96_smaller_intervals"
   ],
   "note": "For any arithmetic, where narrower limits are those that refuse at least what the wider ones refuse; over the extended reals this is the inclusion of the intervals."
  },
  {
   "property": "C97",
   "status": "proved",
   "theorems": [
    "C97_first_proposals",
    "C97_all_proposals",
    "C97_given_factors"
   ],
   "note": "Assumes of the library that a Cholesky factor, if returned, is one of the lower triangle of its argument. Runs that end normally."
  },
  {
   "property": "C98",
   "status": "proved",
   "theorems": [
    "C98_only_posterior",
    "C98_constant_in_squares",
    "C98_prior_as_squares"
   ],
   "note": "One given error variance (applied to all responses), not estimated; fresh run without a restart file. In exact arithmetic: with rounding, ratios of densities that differ by a constant factor can differ in the last digit."
  },
  {
   "property": "C99",
   "status": "proved",
   "theorems": [
    "C99_one_try",
    "C99_ends_normally",
    "C99_with_inverses",
    "C99_methods"
   ],
   "note": "Whole sessions over an arbitrary arithmetic. One difference is part of the statement, because the program has it: dr and dram invert the proposal factor even if there is only one try, so they may stop with LinAlgError where mh and am go on (C99_ends_normally, C99_with_inverses). If the user gives RDR, it replaces the factor in dr and dram only: these sessions are left out by o_RDR = None."
  }
 ]
}