# Formal model of pymcmcstat: design

Prover: Coq 8.16.1, standard library only.  Sources: `rocq/theories/*.v`, logical prefix `Verif`.
Properties: `properties.jsonl`.  Status and theorem names: `MANIFEST.json` and section 6.

## 1. How the code is modelled

The model is a set of total Gallina functions that follow the Python source function by function.
Each definition cites file and lines.

* **Exceptions are values.**  A computation that can stop is a function into `res A := Ok a | Err e`.
  `e` names the kind of stop (`SysExit`, `AttributeError`, `TypeError`, `IndexError`, `ValueError`, `UnboundLocal`,
  `LinAlgError`, `KeyError`, `FileNotFound`, `ZeroDivision`, and `OutOfFuel` for loops that need not end).
* **Floats are an arbitrary structure.**  The simulator is written once over a record of operations `Num F`
  (addition, exp, log, comparisons to `bool`, ...) with *no laws assumed*.  Properties of control flow (bounds, counters,
  pairing of chain and SS chain, logs, restarts, schedules) are proved for every such structure, so they hold for IEEE
  doubles.
* **Numerical identities** (detailed balance, covariance recursion, Cholesky update, quantiles, diagnostics) are proved for
  the instance `XR`: real numbers extended by +inf, -inf and NaN with the IEEE/numpy rules for the special values, and exact
  arithmetic otherwise.  Rounding is not modelled.  Zeros have no sign.
* **An executable instance** on rationals (`XQ`) serves for examples and counterexamples, checked by computation.
* **Randomness** is an arbitrary stream: `randn` and `rand` read position `k` of a stream and advance `k`.
  Theorems quantify over all streams.
* **Fractions, limits and percentages** given by the caller are rationals.  Every float is one.  Products such as `a*n` are exact.
* **Linear algebra** (`np.linalg.cholesky`, `np.linalg.solve`) and the user's functions are parameters.  Theorems that
  need the meaning of a linear algebra call state it as a hypothesis, and an instance meeting it is shown beside the theorem.
  The user's functions are functions of their arguments: they do not change them and have no memory.
* **Files** are replayed from the ordered list of file operations, so a crash is a prefix of that list.
  Text file = list of rows, h5 file = named datasets in the order of their names, json file = a tree.
  The decimal text of a float is taken to read back as the same float.
* **Aliasing** is modelled where it is observable: S20 and sigma2 as one array, chain arrays held by the logger,
  dictionary objects in the results (positions in a store), `results['theta']` during propagation.
* **Ghost traces** record SS evaluations and, for each iteration, the factors in force and the random position.
  They only serve to state properties; no modelled decision reads them.

## 2. What is modelled

| file of the repository | model | left out |
|---|---|---|
| MCMC.py | Simulator.v, Results.v (414-455); two runs compared in TwinSpec.v; printing and progress bar during a run (297-342, 638-663) in Display.v ; custom samplers (219-223, 309-329, 367-408) in Custom.v | the statistics printed after the run |
| samplers/Metropolis.py, DelayedRejection.py, utilities.py, structures/ParameterSet.py | Samplers.v, Deprecated.v | the counter `dr_step_counter` (never read) |
| samplers/Adaptation.py | Adapt.v, CholLoop.v (factor updated beside the covariance) | messages |
| samplers/SamplingMethods.py | Simulator.v | |
| procedures/CovarianceProcedures.py, ErrorVarianceEstimator.py | Adapt.v | messages |
| procedures/SumOfSquares.py, PriorFunction.py | Samplers.v, Procedures.v | SS styles 2 and 3, which call the same user function with other arguments |
| settings/*.py | Settings.v, Opening.v (local parameters, table of parameters), PredData.v (data structure with arrays and user objects) | `display_model_settings`, `display_simulation_options`; `local` is the default in the simulator |
| structures/ResultsStructure.py, utilities/general.py, NumpyEncoder.py | Results.v | json text, creation of directories |
| chain/ChainProcessing.py | ChainFiles.v, Parallel.v, Serial.v, Simulator.v (writing) | `print_log_files`, warnings |
| ParallelMCMC.py | Parallel.v | messages |
| chain/ChainStatistics.py | ChainStats.v, Summary.v | printed text (its numbers and exceptions are modelled) |
| plotting/utilities.py | PlotUtil.v, PlotCurves.v (grids, bandwidth, density, ellipse), ChainStats.v (names) | drawing |
| propagation.py | Propagation.v, Colours.v, IntervalFigures.v (what the figures consist of) | drawing itself, figure sizes |
| plotting/PredictionIntervals.py | PredInt.v, PredData.v, IntervalPlots.v (panels and their contents) | drawing itself, figure sizes and line styles |
| utilities/progressbar.py | Display.v | the two printers (terminal, IPython) and the rounding of the seconds shown |
| plotting/MCMCPlotting.py | Panels.v (panels, their contents and labels) | drawing itself, figure sizes |

Simplifications beyond section 1, each repeated at the definition concerned:

* Arrays of the wrong shape raise `ValueError` in the model wherever numpy would raise or where the shape check is the
  only difference (`Samplers.v`, proposals).
* The user passing one and the same array object as S20 and sigma2 is not modelled; the aliasing the code itself creates is.
* In parallel runs workers are forked (the default on Linux).  A schedule says which chains each worker gets.
  Every schedule and every interleaving of the file operations is covered.
* numpy is of the time of the repository (>= 1.14): `array == []` is a single False with a warning, `np.int` exists.
* `scipy.interpolate.interp1d` is linear interpolation that refuses points outside the grid, and gives NaN for a grid of one point.
* Log index files (`*_log.txt`) are operations of their own kind, so their text cannot be confused with chain rows.

## 3. Specifications

Specifications are separate from the model and do not use its helpers: RunSpec.v (bounds, sequences of user actions),
BalanceSpec.v (posterior and proposal densities, probability flow along a path), StatSpec.v (sample statistics,
factors), GammaSpec.v (Marsaglia-Tsang rejection), LogSpec.v (blocks tiling a range), ResultSpec.v, ParallelSpec.v,
StatsSpec.v (mean, variance, batches), CustomSpec.v (what a custom sampler was asked for, outputs in force), CompleteSpec.v (well-formed problems), NumberSpec.v (numbers among floating point values, decent functions, usable settings), ScaleSpec.v, OriginSpec.v, UnitSpec.v and NameSpec.v
(two sessions with responses in different units, with parameters measured from different origins, in different units, or with different names), FixedSpec.v (two sessions, with and without the parameters that are not sampled), LimitsSpec.v (two sessions with different limits), GivenSpec.v (what an array given as covariance says), PostSpec.v (two runs with the same posterior), SwitchSpec.v (two sessions with one try under different methods), IdleSpec.v (two sessions with different settings that are not in use), KnownSpec.v (two runs with the same given error variance), QuantSpec.v (interpolation, order statistics), FigureSpec.v (contents of figures).
Short specifications are placed in the file of the theorem, e.g. `holds_row` and `sampled_rows` (PropagFacts.v),
`is_band` (BandFacts.v), `factor_of`, `inverse_of`, `exact` (UnitExact.v), `observed`, `variances`, `layout` (NoiseFacts.v), `rows_of` (Prop_Stats.v), `act`, `enough`, `is_dft` (SummaryFacts.v), `different` (SummaryThms.v).

Theorems are in `Prop_*.v`.  Each is followed by `Print Assumptions`; each property has an example `Cnn_case` that
exhibits a non-trivial case meeting the hypotheses.  Theorem names ending in `_partial` state less than the property.
Names containing `_refuted` prove that the property is false of the code, in general or by a witness.

## 4. Findings: properties the code does not have

| id | what the code does instead | lines |
|---|---|---|
| C15 | the covariance statistics of a resumed run count the rows of the earlier runs again | MCMC.py 226-255, Adaptation.py 35-95 |
| C16 | `lastadapt` is set and never consulted | SimulationOptions.py, Adaptation.py |
| C20 | below-burn-in rescaling leaves no delayed rejection factors: the run fails with `ntry` > 1 | Adaptation.py |
| C21 | `ntry` > 1 with method am or mh, and RAM with delayed rejection, end in AttributeError or TypeError | MCMC.py 319-329 |
| C22 | RAM is given the logarithm of the acceptance ratio where the ratio is needed | Metropolis.py, Adaptation.py |
| C25 | without S20 the prior variance is the array sigma2 itself, so it follows the sampled variances | ModelSettings.py 114 |
| C26 | the first row of the variance chain is 1 when sigma2 is not given, whatever S20 | ModelSettings.py 82-114 |
| C27 | giving N0 turns `updatesigma` on only in the second run | MCMC.py 172-223 |
| C30 | datasets of h5 logs are read in the order of their names: rows come back in another order | ChainProcessing.py 249-290 |
| C32 | resumed runs write old rows again (text) or fail on an existing dataset (h5) | MCMC.py 501-525 |
| C33 | the stored covariance makes the restart fail unless the sampled parameters come first | CovarianceProcedures.py |
| C34 | the initial covariance is stored with the options | ResultsStructure.py |
| C35 | parallel starting points also move parameters that are not sampled; points within infinite limits are refused | ParallelMCMC.py 34-83, 287-308 |
| C37 | forked workers replay the same random numbers | ParallelMCMC.py 85-114 |
| C38 | burn-in of a resumed chain is taken from the number of simulations of the last run | ChainProcessing.py 378-417 |
| C39 | results files that hold the chains cannot be loaded | ParallelMCMC.py 376-409 |
| C42 | the overlap test compares starting rows: overlapping segments pass, disjoint ones are refused | ChainStatistics.py 229-266 |
| C43 | a sample of one row has NaN as its quantiles | plotting/utilities.py |
| C44 | the band labelled 90% spans 5% to 90%; plotting without prediction intervals fails by default | PredictionIntervals.py 271-291, propagation.py 244-248, 533 |
| C45 | `calculate_intervals` draws rows and then uses the first ones | propagation.py 56-68 |
| C46 | both interval functions overwrite `results['theta']` | propagation.py 54-68, PredictionIntervals.py 455-530 |
| C47 | up to twice the maximum number of points | plotting/utilities.py |
| C50 | `iqrange` sorts along the wrong axis and needs at least eight values | plotting/utilities.py |
| C51 | a data set given with `n` adds no count; a flat list counts as one observation | DataStructure.py 42-99 |
| C57 | Geweke's variances are estimated from values that are not centred, so the scores depend on the origin | ChainStatistics.py 269-326 |
| C59 | summary of selected columns with the results of the whole chain: the table has a line per name, IndexError; 20 to 39 rows: ZeroDivisionError | ChainStatistics.py 22-70, 73-130 |
| C60 | results read from their json file hold the acceptances in a list, which has no `sum`: AttributeError | ChainStatistics.py 134-193 |
| C63 | the default covariance is made from the starting values, so a continued run proposes with another one; adaptation starts anew in a continued run | CovarianceProcedures.py 107-137, MCMC.py 134-151 |
| C65 | the number shown by the progress bar is two ahead of the iterations done and can exceed the total by one | progressbar.py 22-30, MCMC.py 297-342 |
| C67 | the grid of four standard deviations can miss values of samples of 18 to 200 values; a single value gives NaN | plotting/utilities.py 126-150 |
| C68 | the bandwidth depends on the order of the sample; fewer than eight values raise IndexError | plotting/utilities.py 155-212 |
| C72 | `json_file` is overwritten by the first `.json` item of the directory listing: the file asked for is ignored | ChainProcessing.py 56-96 |
| C73 | limits are sorted in place, colours are not: with limits 50 and 90, the first colour goes to the 90% band, and the caller's list is reordered | propagation.py 222-238, 584-621, 635-639 |
| C77 | the sum of squares of the current point is not computed again when custom samplers change their outputs | MCMC.py 205, 309-329 |
| C79 | the set left by custom samplers is neither checked against the limits nor evaluated again | MCMC.py 309-374 |
| C80 | `local` is ignored for sampled parameters; a fixed local parameter raises ValueError with two or more batches; without batches it makes the last declarations disappear | ModelParameters.py 85-140 |
| C81 | `no_adapt is True` is never true for numpy booleans, so the mark of parameters left out of adaptation is not printed | ModelParameters.py 404-417, MCMC.py 189 |
| C82 | weights of the data sets are lost in the structures for prediction | PredictionIntervals.py 95-100 |
| C84 | only the last row of chain panels is labelled, although columns can end in the row above it; the default name of a single chain is shown with brackets and quotes | MCMCPlotting.py 135-138, 196-226, plotting/utilities.py 33-54 |
| C86 | `sstype` given to `generate_prediction_intervals` is replaced by 0, and results of a run have no `sstype`: errors are always added to the response itself | PredictionIntervals.py 294-316, 122-127 |
| C94 | in three dimensions observations at points of their own are refused unless they are as many as the times, `adddata=True` without observations is an AttributeError, and `interval_display` has no effect; in two dimensions a label or face colour in `interval_display` is a TypeError | propagation.py 244-254, 390-435 |

Further observations, proved beside the properties: the `sstype` argument of PredictionIntervals is not used
(`PredInt.setup_sstype`); with `nsimu` = 1 the loop variable is unbound and the run fails (`Simulator.execute`);
a completed list of names can repeat a given one; the variance 1 of the first proposals of a parameter that starts from
zero, and what is added to a singular covariance, do not follow the units of the parameters (`Prop_Units.v`);
the flag 0 does not switch prediction intervals off (`Prop_IntervalPlots.v`);
a perfect fit with the default weights of unknown variances draws a variance of 0 (`Prop_Numbers.v`);
a variance of 0 in a given list of variances is accepted, and without adaptation that parameter never moves (`Prop_Reach.v`).

## 5. Trusted base

* The Coq kernel, including its virtual machine (`vm_compute` in examples and witnesses).
* The axioms listed by `Print Assumptions` for each theorem, all from the standard library.  Section 6 gives them by letter:
  `d` = `ClassicalDedekindReals.sig_forall_dec`, `n` = `ClassicalDedekindReals.sig_not_dec`,
  `f` = `FunctionalExtensionality.functional_extensionality_dep` (these three come with the real numbers),
  `c` = `Classical_Prop.classic` (comes with lemmas about real analysis).  `-` = closed under the global context.
* That the Gallina functions render the cited Python lines.  The repository was read as text and not run.
* The behaviour of numpy, scipy, h5py, json, multiprocessing as described in sections 1 and 2.

No axioms, parameters or admitted proofs of our own; no functors, module types or plugins; no kernel check is switched off.

## 6. Theorems

| id | property | status | file | theorems [assumptions] |
|---|---|---|---|---|
| C01 | Samples never leave the declared limits | proved | Prop_Run.v | `C01_samples_within_limits` [-], `C01_samples_within_limits_real` [cdfn] |
| C02 | User functions only see admissible parameter vectors | proved | Prop_Run.v | `C02_user_functions_see_admissible_vectors` [-] |
| C03 | sschain is the SS of chain, row by row | proved | Prop_Run.v | `C03_sschain_is_ss_of_chain` [-] |
| C04 | A chain row is either the previous row or an accepted Gaussian candidate built from it | proved | Prop_Run.v | `C04_rows_follow_from_proposals` [-] |
| C05 | Rejection counters account for every iteration | proved | Prop_Run.v | `C05_rejection_counters` [-], `C05_fraction_exact` [cdfn] |
| C06 | Delayed-rejection acceptance bookkeeping closes | proved | Prop_Run.v | `C06_delayed_rejection_counts` [-] |
| C07 | Final theta is the last sample and fixed parameters keep their value | proved | Prop_Run.v | `C07_final_theta` [-] |
| C08 | A run of nsimu simulations yields exactly nsimu rows, all of them written | proved | Prop_Run.v | `C08_run_yields_nsimu_rows` [-], `C08_single_simulation_raises` [-] |
| C09 | Metropolis acceptance is u < min(1, posterior ratio) | proved | Prop_Accept.v | `C09_metropolis_acceptance` [cdfn], `C09_improvement_always_accepted` [cdfn], `C09_undefined_never_accepted` [cdfn] |
| C10 | Metropolis step satisfies detailed balance | proved | Prop_Accept.v | `C10_metropolis_detailed_balance` [cdfn], `C10_proposal_density` [dfn] |
| C100 | Settings of the adaptation that are not in use have no influence | proved | Prop_Idle.v | `C100_idle` [-], `C100_short_runs` [-], `C100_adapting` [-] |
| C101 | With a given error variance, the settings for its estimation have no influence | proved | Prop_Known.v | `C101_given` [-], `C101_same_samples` [-] |
| C11 | Delayed-rejection acceptance satisfies detailed balance for every number of stages | proved | Prop_Accept.v | `C11_delayed_rejection_balance` [cdfn] |
| C12 | Delayed rejection never accepts an out-of-bounds try, makes at most ntry tries and leaves the state alone on failure | proved | Prop_Accept.v | `C12_delayed_rejection_tries` [-], `C12_delayed_rejection_course` [cdfn] |
| C13 | A candidate with undefined (NaN) sum-of-squares is never accepted | proved | Prop_Accept.v | `C13_metropolis_rejects_undefined` [-], `C13_delayed_rejection_rejects_undefined` [-], `C13_accepted_points_finite` [cdfn], `C13_run_stores_no_undefined` [-], `C13_undefined_try_blocks_next` [-] |
| C14 | The recursive mean/covariance update equals the batch formula | proved | Prop_Adapt.v | `C14_recursive_equals_batch` [cdfn], `C14_weighted` [cdfn] |
| C15 | Adaptation uses every past sample exactly once | partial | Prop_Adapt.v | `C15_statistics_of_past_rows_partial` [cdfn], `C15_statistics_of_any_run` [cdfn], `C15_blocks_of_a_fresh_run` [-], `C15_refuted_for_resumed_runs` [-] |
| C16 | The proposal changes only when adaptation is due | partial | Prop_Adapt.v | `C16_changes_only_when_due_partial` [-], `C16_never_for_mh_and_dr` [-], `C16_refuted_lastadapt` [-] |
| C17 | The adapted proposal is the scaled factor of the intended covariance | proved | Prop_Adapt.v | `C17_adapted_factor` [cdfn], `C17_adapted_factor_along_run` [cdfn] |
| C18 | Rank-one Cholesky update is correct | proved | Prop_Adapt.v | `C18_cholupdate` [cdfn] |
| C19 | Delayed-rejection factors are mutually consistent | proved | Prop_Adapt.v | `C19_stages_at_setup` [cdfn], `C19_stages_after_adaptation` [cdfn], `C19_stages_along_run` [cdfn], `C19_stages_given_by_user` [cdfn] |
| C20 | Burn-in only rescales the proposal and the run carries on | partial | Prop_Adapt.v | `C20_burnin_rescales_partial` [cdfn], `C20_refuted_for_delayed_rejection` [-] |
| C21 | Any accepted option combination runs | partial | Prop_Adapt.v | `C21_accepted_options_run_partial` [-], `C21_refuted_ntry_without_dr` [-], `C21_refuted_ram_with_dr` [-] |
| C22 | Robust adaptive Metropolis update keeps a valid covariance | partial | Prop_Adapt.v | `C22_ram_update_partial` [cdfn], `C22_valid_exactly_if` [cdfn], `C22_log_alpha_valid_exactly_if` [cdfn], `C22_refuted_log_alpha` [cdfn] |
| C23 | The default proposal covariance is a valid covariance | proved | Prop_Adapt.v | `C23_default_covariance` [cdfn] |
| C24 | Error-variance draws follow the documented conjugate update and stay positive | proved | Prop_Settings.v | `C24_update_draws` [cdfn], `C24_positive` [cdfn], `C24_sampler_returns` [cdfn], `C24_components_separate` [cdfn], `C24_along_run` [cdfn] |
| C25 | The prior scale S20 stays what the user (or the initial sigma2) said for the whole run | partial | Prop_Settings.v | `C25_scale_fixed_partial` [cdfn], `C25_shared_array_scale` [cdfn], `C25_refuted_shared_array` [-] |
| C26 | sigma2 defaults to S20 when only S20 is given | partial | Prop_Settings.v | `C26_first_variances_partial` [-], `C26_refuted_default` [-] |
| C27 | Dependent settings are stable under repeated runs | partial | Prop_Settings.v | `C27_options_stable_partial` [-], `C27_model_settings_stable_partial` [cdfn], `C27_refuted_observations` [-], `C27_refuted_updatesigma` [-] |
| C28 | Setting sizes match the SS output | proved | Prop_Settings.v | `C28_setting_sizes` [-] |
| C29 | Log blocks partition the chain and survive a crash | proved | Prop_Logs.v | `C29_log_blocks` [-] |
| C30 | Binary logs read back as the chain | partial | Prop_Logs.v | `C30_bin_log_reads_back_partial` [-], `C30_longer_logs_read_wrong` [-], `C30_refuted_bin_log_out_of_order` [-] |
| C31 | A resumed run extends the chain | proved | Prop_Run.v | `C31_resumed_run_extends` [-] |
| C32 | A resumed run logs its new samples | partial | Prop_Logs.v | `C32_resumed_text_log_repeats_old_rows` [-], `C32_resuming_with_bin_log_fails` [-], `C32_refuted_new_rows_not_logged` [-] |
| C33 | Restart from a results file restores the last point and covariance | partial | Prop_Logs.v | `C33_restart_values` [-], `C33_restart_covariance_partial` [-], `C33_restart_at_last_row` [-], `C33_refuted_restart_fails_with_fixed_parameter_between` [-] |
| C34 | Result export keeps everything but what it says it drops | partial | Prop_Logs.v | `C34_results_file_partial` [-], `C34_results_file_written` [-], `C34_initial_covariance_is_stored` [-] |
| C35 | Generated parallel starting points are admissible | partial | Prop_Parallel.v | `C35_generated_points_admissible` [cdfn], `C35_user_points_partial` [-], `C35_declared_values_are_replaced` [-], `C35_refuted_fixed_parameter_keeps_its_value` [-], `C35_refuted_user_point_within_infinite_limits` [-] |
| C36 | Parallel chains do not collide | proved | Prop_Parallel.v | `C36_chains_do_not_collide` [-], `C36_number_of_workers` [-] |
| C37 | Parallel chains use different random streams | partial | Prop_Parallel.v | `C37_first_chains_of_workers_share_their_numbers` [-], `C37_refuted_identical_chains` [-], `C37_chains_of_one_worker_partial` [-] |
| C38 | Combining chains keeps exactly the rows after burn-in, with their chain label | partial | Prop_Parallel.v | `C38_combined_chain` [-], `C38_parallel_run_combined` [-], `C38_labels_differ` [-], `C38_refuted_for_resumed_chain` [-] |
| C39 | Loading parallel results works whatever was saved | partial | Prop_Parallel.v | `C39_loading_from_logs_partial` [-], `C39_loading_keeps_other_entries_partial` [-], `C39_full_results_files_cannot_be_loaded` [-], `C39_refuted_for_json_only_run` [-] |
| C40 | Gelman-Rubin diagnostic has its defining properties | proved | Prop_Stats.v | `C40_scale_reduction` [cdfn], `C40_units` [cdfn], `C40_order_of_chains` [cdfn], `C40_each_parameter` [-] |
| C41 | Batch-mean error uses disjoint full batches | proved | Prop_Stats.v | `C41_batches` [cdfn], `C41_short_chains_rejected` [-], `C41_constant_chain` [cdfn], `C41_scaling` [cdfn] |
| C42 | Geweke compares disjoint segments | partial | Prop_Stats.v | `C42_compares_ends_partial` [cdfn], `C42_when_refused` [-], `C42_default_disjoint` [-], `C42_refuted_overlap_accepted` [cdfn], `C42_refuted_disjoint_refused` [cdfn] |
| C43 | Empirical quantiles are monotone, within range, and exact at order statistics | partial | Prop_Stats.v | `C43_quantiles` [cdfn], `C43_outside_refused` [cdfn], `C43_order_of_rows` [cdfn], `C43_refuted_single_row` [cdfn] |
| C44 | Interval bands contain what they promise and are nested | partial | Prop_Post.v | `C44_bands_partial` [cdfn], `C44_larger_encloses_smaller` [df], `C44_impossible_levels_refused` [cdfn], `C44_prediction_intervals` [cdfn], `C44_credible_intervals` [cdfn], `C44_refuted_90_percent` [cdfn], `C44_refuted_no_prediction` [-] |
| C45 | Propagated intervals are computed from the randomly selected rows | partial | Prop_Post.v | `C45_prediction_intervals_partial` [-], `C45_drawn_rows_exist` [-], `C45_every_row_can_be_drawn` [-], `C45_first_rows_used` [-], `C45_draws_not_used` [-], `C45_refuted_propagation` [-] |
| C46 | Post-processing does not change the stored results | partial | Prop_Post.v | `C46_propagation_partial` [-], `C46_whole_chain` [-], `C46_prediction_intervals_partial` [-], `C46_refuted_theta_changed` [-] |
| C47 | Plot subsampling stays in range and bounded | partial | Prop_Post.v | `C47_stride` [-], `C47_number_of_points_partial` [-], `C47_failures` [-], `C47_refuted_maximum` [-] |
| C48 | Subplot grids have room for every parameter | proved | Prop_Post.v | `C48_room` [-], `C48_nearly_square` [dfn] |
| C49 | User settings override defaults key by key, recursively | proved | Prop_Logs.v | `C49_settings_are_merged` [-] |
| C50 | Interquartile range is order-independent and non-negative | partial | Prop_Post.v | `C50_sorted_partial` [cdfn], `C50_no_index_error_partial` [-], `C50_refuted_short` [-], `C50_refuted_order` [cdfn] |
| C51 | Data-set bookkeeping stays aligned | partial | Prop_Settings.v | `C51_data_sets_aligned_partial` [-], `C51_refuted_with_n` [-], `C51_refuted_flat_list` [-] |
| C52 | Default sum of squares is the weighted residual sum per batch | proved | Prop_Settings.v | `C52_default_sum_of_squares` [cdfn], `C52_nonnegative_and_zero` [df], `C52_flat_output_raises` [cdfn] |
| C53 | Default prior is Gaussian, flat when sigma is infinite | proved | Prop_Settings.v | `C53_default_prior` [cdfn], `C53_prior_settings` [cdfn], `C53_restart_keeps_means` [-] |
| C54 | Options resolve as documented | proved | Prop_Adapt.v, Prop_Settings.v | `C54_options_resolve` [-], `C16_never_for_mh_and_dr` [-] |
| C55 | Parameter declarations open into consistent index sets | proved | Prop_Settings.v | `C55_index_sets` [-], `C55_bad_limits_exit` [-] |
| C56 | Generated names are complete and distinct | proved | Prop_Post.v | `C56_default_names` [-], `C56_completed_names` [-], `C56_generated_names` [-], `C56_declared_without_names` [-] |
| C57 | Geweke scores depend only on the two ends and not on the unit | partial | Prop_Stats.v | `C57_units_partial` [cdfn], `C57_middle_irrelevant` [-], `C57_refuted_origin` [cdfn] |
| C58 | Integrated autocorrelation time uses the shortest adequate window | proved | Prop_Summary.v | `C58_autocorrelation_time` [cdfn], `C58_constant_chain` [cdfn], `C58_units` [cdfn], `C58_each_parameter` [cdfn] |
| C59 | Chain summary reports the statistics of the chain given | partial | Prop_Summary.v | `C59_summary` [cdfn], `C59_short_chains` [-], `C59_refuted_selected_columns` [-] |
| C60 | Acceptance figures agree with the run | partial | Prop_Summary.v | `C60_acceptance_figures_partial` [cdfn], `C60_chain_only` [cdfn], `C60_refuted_results_from_file` [cdfn] |
| C61 | A longer run begins with the shorter one | proved | Prop_Twin.v | `C61_longer_run_begins_with_shorter` [-], `C61_shorter_run_ends` [-] |
| C62 | Logging, printing and naming have no influence on sampling | proved | Prop_Twin.v | `C62_logging_does_not_influence_sampling` [-], `C62_run_without_binary_log_ends` [-] |
| C63 | A stopped and resumed run gives the samples of one long run | partial | Prop_Twin.v | `C63_resumed_run_is_one_run_partial` [-], `C63_refuted_default_covariance` [-], `C63_refuted_adaptation` [-] |
| C64 | Rejection statistics printed during a run are those of the run | proved | Prop_Display.v | `C64_display_does_not_disturb` [-], `C64_percentages` [cdfn] |
| C65 | The progress bar shows the progress of the run | partial | Prop_Display.v | `C65_progress_bar_partial` [-], `C65_refuted_number_within_total` [-] |
| C66 | Contour ellipse lies on the contour | proved | Prop_Curves.v | `C66_ellipse` [cdfn], `C66_equal_angles` [cdfn], `C66_refused` [cdfn] |
| C67 | Plot grid covers the values | partial | Prop_Curves.v | `C67_many_points` [cdfn], `C67_few_points` [cdfn], `C67_values_covered_partial` [cdfn], `C67_refuted_values_covered` [cdfn], `C67_single_value_and_none` [cdfn] |
| C68 | Bandwidth is a scale of the sample | partial | Prop_Curves.v | `C68_bandwidth_partial` [cdfn], `C68_refuted_short` [cdfn], `C68_refuted_order` [cdfn] |
| C69 | Normal density | proved | Prop_Curves.v | `C69_density` [cdfn], `C69_refused` [cdfn] |
| C70 | Cholesky factor updated beside the covariance stays its factor | proved | Prop_CholLoop.v | `C70_factor_follows_covariance` [cdfn], `C70_covariance_unaffected` [-] |
| C71 | Deprecated acceptance functions agree with the current ones | proved | Prop_Deprecated.v | `C71_posterior_ratio` [cdfn], `C71_log_posterior_ratio` [cdfn], `C71_number_priors_fail` [-], `C71_same_decision` [cdfn] |
| C72 | Results of a serial run can be loaded from its directory | partial | Prop_Serial.v | `C72_chains_from_logs_partial` [-], `C72_chains_from_results_file` [-], `C72_logs_only` [-], `C72_file_asked_for_is_ignored` [-], `C72_refuted_file_asked_for_is_loaded` [-] |
| C73 | Limits and colours of plotted bands | partial | Prop_Colours.v | `C73_bands_and_colours_partial` [-], `C73_descending_limits` [-], `C73_no_limits` [-], `C73_refuted_colour_of_given_limit` [-] |
| C74 | Outline of a band in three dimensions | proved | Prop_Colours.v | `C74_outline` [-], `C74_too_few_points` [-] |
| C75 | Custom samplers that only watch change nothing | proved | Prop_Custom.v | `C75_watching_samplers_change_nothing` [f], `C75_watching_samplers_do_not_fail` [f] |
| C76 | Custom samplers follow the chain | proved | Prop_Custom.v | `C76_samplers_follow_the_chain` [-] |
| C77 | Stored sum of squares uses the outputs in force | partial | Prop_Custom.v | `C77_stored_ss_has_outputs_of_acceptance_partial` [-], `C77_refuted_outputs_in_force` [-] |
| C78 | Logs of the chains of custom samplers | proved | Prop_Custom.v | `C78_custom_chain_logs` [-] |
| C79 | Sets changed by custom samplers | partial | Prop_Custom.v | `C79_changed_set_is_the_next_start` [-], `C79_limits_kept_partial` [-], `C79_refuted_limits_and_ss` [-] |
| C80 | Local parameters | partial | Prop_Opening.v | `C80_flag_without_effect_partial` [-], `C80_fixed_local_fails` [-], `C80_refuted_value_for_each_batch` [-], `C80_without_batches` [-], `C80_scan_for_local_variables` [-] |
| C81 | Table of the sampled parameters | partial | Prop_Opening.v | `C81_lines_of_the_table_partial` [-], `C81_refuted_marks` [-], `C81_marks_of_python_flags` [-] |
| C82 | Data sets used for prediction | partial | Prop_PredData.v | `C82_data_sets_for_prediction_partial` [-], `C82_columns` [-], `C82_refuted_weights` [-], `C82_same_structure_as_in_runs` [-] |
| C83 | Panels of the plots | proved | Prop_Panels.v | `C83_density_panels` [-], `C83_histogram_panels` [-], `C83_chain_panels` [-], `C83_pair_panels` [-], `C83_names_of_the_caller` [-] |
| C84 | Labels of chain plots | partial | Prop_Panels.v | `C84_label_of_the_last_row_partial` [-], `C84_refuted_label_of_each_column` [-], `C84_name_of_the_chain` [-], `C84_refuted_default_name` [-] |
| C85 | Units of the response | proved | Prop_Scale.v | `C85_units` [cdfn], `C85_default_variance_has_no_units` [cdfn] |
| C86 | Simulated observations | partial | Prop_Noise.v | `C86_propagation` [cdfn], `C86_prediction_intervals_partial` [cdfn], `C86_credible_intervals` [cdfn], `C86_other_layouts_refused` [-], `C86_refuted_scale_asked_for` [-], `C86_results_have_no_scale` [-] |
| C87 | Origin of the parameters | proved | Prop_Origin.v | `C87_origin` [cdfn], `C87_default_prior` [cdfn], `C87_default_covariance_has_an_origin` [cdfn] |
| C88 | Well-formed problems run to the end | proved | Prop_Complete.v | `C88_well_formed_runs_complete` [-], `C88_without_variances` [-], `C88_continued_runs_complete` [-], `C88_delayed_rejection_over_the_reals` [cdfn] |
| C89 | Units of the parameters | proved | Prop_Units.v | `C89_units` [cdfn], `C89_first_run` [cdfn], `C89_exact_linear_algebra` [df], `C89_default_prior` [cdfn], `C89_adjustment_has_units` [cdfn], `C89_default_variance_has_units` [cdfn] |
| C90 | Names of the parameters | proved | Prop_Names.v | `C90_names` [-], `C90_equal_names_are_confused` [-] |
| C91 | Plots of prediction and credible intervals | proved | Prop_IntervalPlots.v | `C91_interval_plots` [-], `C91_zero_is_not_off` [-] |
| C92 | Results hold only numbers | proved | Prop_Numbers.v | `C92_only_numbers` [cdfn], `C92_default_prior` [cdfn], `C92_perfect_fit` [cdfn] |
| C93 | Every point can be proposed | proved | Prop_Reach.v | `C93_every_point_can_be_proposed` [cdfn], `C93_candidate_anywhere` [cdfn], `C93_refuted_zero_variance` [cdfn] |
| C94 | Figures of propagated intervals | partial | Prop_Figures.v | `C94_figure_partial` [cdfn], `C94_figure_3d_partial` [cdfn], `C94_refuted_data_3d` [-], `C94_refuted_no_data_3d` [-], `C94_refuted_styles_3d` [cdfn], `C94_refuted_label` [cdfn] |
| C95 | Parameters that are not sampled are constants of the model | proved | Prop_Fixed.v | `C95_fixed_are_constants` [-], `C95_only_through_the_model` [f] |
| C96 | Limits that are not reached have no influence | proved | Prop_Limits.v | `C96_unreached_limits` [-], `C96_smaller_intervals` [cdfn] |
| C97 | The first proposals have the covariance given by the user | proved | Prop_Given.v | `C97_first_proposals` [cdfn], `C97_all_proposals` [cdfn], `C97_given_factors` [-] |
| C98 | Only the posterior matters | proved | Prop_Posterior.v | `C98_only_posterior` [cdfn], `C98_constant_in_squares` [cdfn], `C98_prior_as_squares` [cdfn] |
| C99 | With one try, the method is only a name | proved | Prop_Switch.v | `C99_one_try` [-], `C99_ends_normally` [-], `C99_with_inverses` [-], `C99_methods` [-] |

## 7. Tests of the theorems

`seeded/LOG.jsonl` records wrong programs tried against the theorems: a definition of the model was edited in a scratch copy
as a programmer might get it wrong, every proof that broke was located, and the theorems that no longer hold are listed.
