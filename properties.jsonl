{"id": "C01", "title": "Samples never leave the declared limits", "statement": "After run_simulation returns, no entry of any row of results['chain'] is below the 'minimum' or above the 'maximum' that was declared for the parameter of that column.", "quantifier": "all parameter lists, limits (finite or infinite), methods (mh, am, dr, dram), proposal matrices, adaptation settings, random streams, user SS/prior functions, chain lengths, and any float arithmetic", "why_tests_cant": "A test observes a few seeds; a single boundary slip in one delayed-rejection stage or after one adaptation would only show for particular random streams.", "anchors": ["pymcmcstat/MCMC.py: run_simulation, __execute_simulator, __update_chain", "pymcmcstat/samplers/Metropolis.py: run_metropolis_step", "pymcmcstat/samplers/DelayedRejection.py: run_delayed_rejection", "pymcmcstat/samplers/utilities.py: is_sample_outside_bounds"]}
{"id": "C02", "title": "User functions only see admissible parameter vectors", "statement": "The user's sum-of-squares function is only ever called with a full parameter vector whose sampled entries are within their limits and whose non-sampled entries equal the declared theta0.", "quantifier": "all runs as in C01, every call made before, during and after the main loop", "why_tests_cant": "Users write SS functions that crash or loop outside the limits; only a statement about every call in every run excludes that.", "anchors": ["pymcmcstat/procedures/SumOfSquares.py: evaluate_sos_function", "pymcmcstat/samplers/Metropolis.py: run_metropolis_step", "pymcmcstat/samplers/DelayedRejection.py: run_delayed_rejection", "pymcmcstat/MCMC.py: _initialize_simulation"]}
{"id": "C03", "title": "sschain is the SS of chain, row by row", "statement": "results['sschain'][k] equals the SS function evaluated at results['chain'][k] (with fixed parameters at their declared values) for every k.", "quantifier": "all runs with a deterministic SS function and no custom samplers, every row k", "why_tests_cant": "The pairing is carried through accept/reject/DR branches as mutable state; a test checks one path.", "anchors": ["pymcmcstat/MCMC.py: __execute_simulator (lines 331-333), __update_chain", "pymcmcstat/structures/ParameterSet.py"]}
{"id": "C04", "title": "A chain row is either the previous row or an accepted Gaussian candidate built from it", "statement": "For every k, chain[k+1] equals chain[k], or equals chain[k] + z.P for a standard-normal draw z of that iteration, where P is the proposal factor in force (first stage) or one of the delayed-rejection factors in force (later stages).", "quantifier": "all runs and all iterations", "why_tests_cant": "It is a statement about the transition of every iteration under every interleaving of rejection, DR and adaptation.", "anchors": ["pymcmcstat/MCMC.py: __update_chain", "pymcmcstat/samplers/utilities.py: sample_candidate_from_gaussian_proposal", "pymcmcstat/samplers/DelayedRejection.py: initialize_next_metropolis_step"]}
{"id": "C05", "title": "Rejection counters account for every iteration", "statement": "total_rejected*nsimu is the number of iterations whose proposals were all rejected; it is at most nsimu-1; rejections attributed to the bounds never exceed total rejections; an iteration not counted as rejected stored an accepted candidate.", "quantifier": "all runs and all random streams", "why_tests_cant": "Counters are incremented on scattered branches; tests look at totals of one run.", "anchors": ["pymcmcstat/MCMC.py: __update_rejected", "pymcmcstat/structures/ResultsStructure.py: add_basic"]}
{"id": "C06", "title": "Delayed-rejection acceptance bookkeeping closes", "statement": "For a run with ntry>1, the entries of results['iacce'] after add_dram plus the number of rejected iterations sum exactly to nsimu, and entry j (j>=1) is the number of iterations accepted at DR stage j+1.", "quantifier": "all DR/DRAM runs, every ntry", "why_tests_cant": "Requires counting over the whole history of the run.", "anchors": ["pymcmcstat/structures/ResultsStructure.py: add_dram", "pymcmcstat/samplers/DelayedRejection.py: run_delayed_rejection"]}
{"id": "C07", "title": "Final theta is the last sample and fixed parameters keep their value", "statement": "results['theta'] has the last row of the chain in the sampled positions and the declared theta0 in all other positions; results['names'] and results['limits'] list exactly the sampled parameters in column order.", "quantifier": "all runs, all sample/no-sample patterns", "why_tests_cant": "Index juggling between full and sampled vectors must be right for every pattern.", "anchors": ["pymcmcstat/MCMC.py: lines 410-411", "pymcmcstat/structures/ResultsStructure.py: add_basic", "pymcmcstat/settings/ModelParameters.py: _openparameterstructure"]}
{"id": "C08", "title": "A run of nsimu simulations yields exactly nsimu rows, all of them written", "statement": "For nsimu >= 1 a run that does not raise returns chain and sschain (and s2chain when updatesigma) with nsimu rows, row 0 the initial point, and no row left at its zero initialisation by omission.", "quantifier": "all nsimu >= 1 and all settings", "why_tests_cant": "Off-by-one in the chain index shows only at the ends, and nsimu=1 is a boundary nobody tests.", "anchors": ["pymcmcstat/MCMC.py: __initialize_chains, __execute_simulator"]}
{"id": "C09", "title": "Metropolis acceptance is u < min(1, posterior ratio)", "statement": "With 0<=u<1 the Metropolis step accepts an in-bounds candidate exactly when u is below min(1, exp(log posterior ratio)); a candidate at least as probable as the current point is always accepted; a candidate whose SS or prior is NaN, or whose SS is +inf, is never accepted.", "quantifier": "all finite or non-finite SS/prior values, all sigma2, all u in [0,1)", "why_tests_cant": "The test is done on log scale; equivalence with the documented rule is an analytic statement over all reals plus special values.", "anchors": ["pymcmcstat/samplers/utilities.py: log_posterior_ratio_acceptance_test, calculate_log_posterior_ratio", "pymcmcstat/samplers/Metropolis.py: run_metropolis_step"]}
{"id": "C10", "title": "Metropolis step satisfies detailed balance", "statement": "For any two admissible points x,y: posterior(x) q(x,y) a(x,y) = posterior(y) q(y,x) a(y,x), with q the Gaussian proposal density of the implemented candidate generator and a the implemented acceptance probability.", "quantifier": "all pairs of points, all invertible proposal factors, all sigma2>0", "why_tests_cant": "Correctness of the stationary distribution is not observable from finitely many draws.", "anchors": ["pymcmcstat/samplers/Metropolis.py", "pymcmcstat/samplers/utilities.py"]}
{"id": "C11", "title": "Delayed-rejection acceptance satisfies detailed balance for every number of stages", "statement": "For every path x,y1,..,yn: posterior(x) prod q_i * prod(1-alpha of the shorter prefixes) * alpha(path) is invariant under reversing the path, where alpha is what alphafun computes; alpha always lies in [0,1].", "quantifier": "all path lengths n>=1, all points, all inverse proposal factors, including paths through zero-probability points", "why_tests_cant": "It is an identity over a recursively defined function of unbounded depth.", "anchors": ["pymcmcstat/samplers/DelayedRejection.py: alphafun, nth_stage_log_proposal_ratio, extract_state_elements"]}
{"id": "C12", "title": "Delayed rejection never accepts an out-of-bounds try, makes at most ntry tries and leaves the state alone on failure", "statement": "run_delayed_rejection accepts only an in-bounds try; it performs at most ntry-1 further tries; when nothing is accepted it returns the current set unchanged; previously out-of-bounds tries on the path neither break the computation nor make a later try impossible to evaluate.", "quantifier": "all ntry, all patterns of in/out-of-bounds tries, all random streams", "why_tests_cant": "The number of patterns is exponential in ntry; infinities flow through the recursion.", "anchors": ["pymcmcstat/samplers/DelayedRejection.py: run_delayed_rejection", "pymcmcstat/samplers/utilities.py: set_outside_bounds"]}
{"id": "C13", "title": "A candidate with undefined (NaN) sum-of-squares is never accepted", "statement": "No step (Metropolis or delayed rejection) accepts a candidate at which the SS function returned NaN.", "quantifier": "all SS functions that return NaN somewhere, all streams", "why_tests_cant": "Tests do not feed NaN through the recursive DR formula; python's min() with NaN is order dependent.", "anchors": ["pymcmcstat/samplers/DelayedRejection.py: alphafun line 150", "pymcmcstat/samplers/utilities.py: posterior_ratio_acceptance_test"]}
{"id": "C14", "title": "The recursive mean/covariance update equals the batch formula", "statement": "Feeding a chain in any number of consecutive segments through update_covariance_mean_sum (unit weights) yields exactly the mean, the (n-1)-normalised covariance and the count of all rows; the covariance is symmetric and positive semidefinite. With arbitrary weights a weighted analogue holds.", "quantifier": "all chains, all segmentations, all dimensions (exact real arithmetic)", "why_tests_cant": "An algebraic identity by induction on the number of rows; a test compares a few floats.", "anchors": ["pymcmcstat/samplers/Adaptation.py: update_covariance_mean_sum, initialize_covariance_mean_sum"]}
{"id": "C15", "title": "Adaptation uses every past sample exactly once", "statement": "At each adaptation of a run, the mean/covariance/weight held by the sampler are those of the chain rows produced so far, each row counted once.", "quantifier": "all adaptation intervals, burn-in times and chain lengths, fresh and resumed runs", "why_tests_cant": "Window indices are carried between adaptations; double counting is silent.", "anchors": ["pymcmcstat/samplers/Adaptation.py: run_adaptation lines 62-93", "pymcmcstat/MCMC.py: lines 344-359"]}
{"id": "C16", "title": "The proposal changes only when adaptation is due", "statement": "The proposal factor is modified only at iterations that are multiples of adaptint, never for methods 'mh' and 'dr', and (as documented for lastadapt) never beyond iteration lastadapt.", "quantifier": "all runs, all iterations", "why_tests_cant": "Needs the whole schedule of a run.", "anchors": ["pymcmcstat/MCMC.py: lines 344-359", "pymcmcstat/settings/SimulationOptions.py: define_simulation_options", "pymcmcstat/samplers/Adaptation.py: run_adaptation"]}
{"id": "C17", "title": "The adapted proposal is the scaled factor of the intended covariance", "statement": "After adaptation the proposal factor P satisfies P'P = s^2 C, where C is the updated covariance with the rows/columns of non-adapted parameters replaced by those of the initial covariance (or C + qcov_adjust I when C is singular), or P is unchanged when neither can be factorised; entries between adapted parameters come from the chain only.", "quantifier": "all covariance matrices, all no-adapt masks, all scales", "why_tests_cant": "Universally quantified matrix statement.", "anchors": ["pymcmcstat/samplers/Adaptation.py: update_cov_from_covchain, check_for_singular_cov_matrix, adjust_cov_matrix"]}
{"id": "C18", "title": "Rank-one Cholesky update is correct", "statement": "For every upper-triangular R with non-zero diagonal and every x, cholupdate(R,x) is upper triangular with strictly positive diagonal and R1'R1 = R'R + x x'; the inputs are not modified.", "quantifier": "all dimensions, all R and x", "why_tests_cant": "Matrix identity by induction on the dimension.", "anchors": ["pymcmcstat/samplers/Adaptation.py: cholupdate"]}
{"id": "C19", "title": "Delayed-rejection factors are mutually consistent", "statement": "For every stage i<ntry the stored inverse factor is the inverse of the stored proposal factor, and the stage-i proposal factor is the first-stage factor divided by the product of the (last-repeated) drscale entries, both at set-up and after every adaptation.", "quantifier": "all ntry, all non-empty drscale with non-zero entries, all invertible R", "why_tests_cant": "Quantifies over ntry and drscale length, including ntry beyond len(drscale).", "anchors": ["pymcmcstat/samplers/Adaptation.py: update_delayed_rejection", "pymcmcstat/procedures/CovarianceProcedures.py: __setup_RDR_matrix"]}
{"id": "C20", "title": "Burn-in only rescales the proposal and the run carries on", "statement": "During burn-in the proposal factor is multiplied by burnin_scale, divided by it, or kept, by the rejection ratio of the interval only, the chain statistics are untouched, and the sampler can continue with any method.", "quantifier": "all methods, burn-in times, rejection histories", "why_tests_cant": "The damage done at an adaptation point appears only at a later rejection.", "anchors": ["pymcmcstat/samplers/Adaptation.py: below_burnin_threshold, run_adaptation lines 62-69"]}
{"id": "C21", "title": "Any accepted option combination runs", "statement": "If the options pass define_simulation_options and the dependent checks, the sampler does not fail with an internal attribute/type error; in particular ntry>1 selects delayed rejection whatever the method (as documented).", "quantifier": "all methods x ntry x nsimu", "why_tests_cant": "Combinatorial; the failure needs a rejection to occur.", "anchors": ["pymcmcstat/settings/SimulationOptions.py: _check_dependent_simulation_options", "pymcmcstat/procedures/CovarianceProcedures.py: _initialize_covariance_settings", "pymcmcstat/MCMC.py: lines 318-329"]}
{"id": "C22", "title": "Robust adaptive Metropolis update keeps a valid covariance", "statement": "The RAM update returns a symmetric positive definite matrix driven by the acceptance probability min(1, alpha) of the last step.", "quantifier": "all normal draws u != 0, all iterations, all acceptance ratios, all R", "why_tests_cant": "Positive definiteness over all inputs; the unit in which alpha is passed matters only for rare large log ratios.", "anchors": ["pymcmcstat/samplers/Adaptation.py: update_cov_via_ram", "pymcmcstat/MCMC.py: line 356"]}
{"id": "C23", "title": "The default proposal covariance is a valid covariance", "statement": "Without a user covariance the initial covariance is diagonal with strictly positive entries: prior variance if finite, else (5% of the value)^2, else 1; the initial factor satisfies R'R = that matrix restricted to sampled parameters; the scale is adascale if positive else 2.4/sqrt(npar).", "quantifier": "all initial values (incl. zero/negative), all prior sigmas (incl. zero, negative, inf, NaN)", "why_tests_cant": "Case analysis over special values for every coordinate.", "anchors": ["pymcmcstat/procedures/CovarianceProcedures.py: setup_covariance_matrix, __setup_R_matrix, __check_adascale", "pymcmcstat/settings/ModelParameters.py: setup_prior_sigma, _check_prior_sigma"]}
{"id": "C24", "title": "Error-variance draws follow the documented conjugate update and stay positive", "statement": "Each update draws 1/Gamma(shape (N0+N)/2, scale 2/(N0*S20+SS)) per SS component; whenever the gamma sampler returns (a>0, scale>0, non-zero uniform) its value is strictly positive and so is the new variance; the sampler returns as soon as its stream contains an acceptable pair, and components are independent of each other's entries.", "quantifier": "all N, N0, S20, SS, all random streams on which the sampler stops", "why_tests_cant": "Rejection loops have unbounded length; positivity must hold on every path out of them.", "anchors": ["pymcmcstat/procedures/ErrorVarianceEstimator.py: update_error_variance, gammar, _gammar_mt1"]}
{"id": "C25", "title": "The prior scale S20 stays what the user (or the initial sigma2) said for the whole run", "statement": "During a run with updatesigma the value S20 used in every error-variance draw is the one fixed before the first iteration.", "quantifier": "all nsos, all settings of sigma2/S20/N0", "why_tests_cant": "Needs the history of a run; array aliasing only bites for particular lengths.", "anchors": ["pymcmcstat/settings/ModelSettings.py: lines 106-114, __check_size_of_setting_wrt_nsos", "pymcmcstat/procedures/ErrorVarianceEstimator.py: update_error_variance lines 54-63"]}
{"id": "C26", "title": "sigma2 defaults to S20 when only S20 is given", "statement": "When sigma2 is not given and S20 is, the initial error variance is S20 (documented: 'default for sigma2 is S20 or 1').", "quantifier": "all S20 without NaN, all N0, all data sets", "why_tests_cant": "The branch is dead for every input; only reasoning over all inputs shows it.", "anchors": ["pymcmcstat/settings/ModelSettings.py: lines 106-114"]}
{"id": "C27", "title": "Dependent settings are stable under repeated runs", "statement": "Running the dependent-settings checks a second time (second call of run_simulation, or a resumed run) changes neither updatesigma, N, N0, S20, sigma2 sizes, savesize, printint nor lastadapt, and does not exit.", "quantifier": "all settings accepted by the first run", "why_tests_cant": "A property of histories of calls on a mutable object.", "anchors": ["pymcmcstat/settings/SimulationOptions.py: _check_dependent_simulation_options", "pymcmcstat/settings/ModelSettings.py: _check_dependent_model_settings, _check_number_of_observations, _check_dependent_model_settings_wrt_nsos"]}
{"id": "C28", "title": "Setting sizes match the SS output", "statement": "After initialisation S20, N0, sigma2 each have exactly nsos entries (a single value is repeated), or the run exits; N has nsos entries when the data structure determines them; with one SS component N is the total number of observations.", "quantifier": "all lengths of the user settings and all nsos >= 1", "why_tests_cant": "Length arithmetic over all combinations.", "anchors": ["pymcmcstat/settings/ModelSettings.py: __check_size_of_setting_wrt_nsos, __check_size_of_observations_wrt_nsos"]}
{"id": "C29", "title": "Log blocks partition the chain and survive a crash", "statement": "For every savesize the blocks written to the log files during a run are consecutive, non-empty, disjoint and cover rows 0..nsimu-1; at any crash point each text log holds exactly a prefix of the final chain, and at most savesize rows of completed iterations (plus the current one) are missing.", "quantifier": "all nsimu >= 2, all savesize (incl. 0, negative, > nsimu), all crash points between file operations", "why_tests_cant": "Crash points and block boundaries are unbounded.", "anchors": ["pymcmcstat/MCMC.py: __execute_simulator lines 376-408, __save_to_log_file, __save_chains"]}
{"id": "C30", "title": "Binary logs read back as the chain", "statement": "Reading the h5 chain log of a finished run with read_in_bin_file returns the rows of the chain in iteration order.", "quantifier": "all nsimu, savesize", "why_tests_cant": "Dataset names are ordered as strings; the order breaks only when numbers of digits differ, i.e. for long runs.", "anchors": ["pymcmcstat/chain/ChainProcessing.py: read_in_bin_file, _save_to_bin_file", "pymcmcstat/MCMC.py: __save_chains"]}
{"id": "C31", "title": "A resumed run extends the chain", "statement": "run_simulation(use_previous_results=True) leaves all previously stored rows unchanged as a prefix, appends exactly nsimu-1 rows, continues from the last sample of the previous run, and never reads undefined storage.", "quantifier": "all first and second run lengths and settings", "why_tests_cant": "History property over pairs of runs.", "anchors": ["pymcmcstat/MCMC.py: __setup_simulator, __expand_chains", "pymcmcstat/settings/ModelParameters.py: _results_to_params"]}
{"id": "C32", "title": "A resumed run logs its new samples", "statement": "The blocks a resumed run writes to the log files are its own new rows.", "quantifier": "all resumed runs with logging enabled", "why_tests_cant": "Array identity after concatenation is not visible to single-run tests.", "anchors": ["pymcmcstat/MCMC.py: __initialize_chains lines 246-253, __expand_chains, lines 376-398"]}
{"id": "C33", "title": "Restart from a results file restores the last point and covariance", "statement": "Starting with json_restart_file sets theta0 of each sampled parameter to the stored final value of the parameter with that name, leaves others alone, and uses the stored covariance for the sampled parameters.", "quantifier": "all parameter lists (any names, any sampled subset)", "why_tests_cant": "Name matching and sub-indexing must be right for every subset.", "anchors": ["pymcmcstat/MCMC.py: lines 155-159", "pymcmcstat/settings/ModelParameters.py: _results_to_params", "pymcmcstat/procedures/CovarianceProcedures.py: __setup_R_matrix"]}
{"id": "C34", "title": "Result export keeps everything but what it says it drops", "statement": "Light export removes exactly chain, sschain and s2chain and changes no other entry; the in-memory results are not modified; file names resolve by the documented priority; options are stored without user function handles and covariance inputs.", "quantifier": "all results dictionaries", "why_tests_cant": "Statement about every key.", "anchors": ["pymcmcstat/structures/ResultsStructure.py: lighten_results, removekey, determine_filename, add_options", "pymcmcstat/utilities/general.py: removekey"]}
{"id": "C35", "title": "Generated parallel starting points are admissible", "statement": "Without user starting points, every generated starting value of each chain is within the declared limits of its parameter; user-supplied points within the declared limits are accepted; parameters declared sample=False keep their declared value in every chain.", "quantifier": "all parameter lists, limits (finite/infinite), chain counts, uniform draws", "why_tests_cant": "Infinite limits and zero initial values are corner cases over a continuum.", "anchors": ["pymcmcstat/ParallelMCMC.py: check_initial_values, get_parameter_features, generate_initial_values, check_shape_of_users_initial_values, is_sample_outside_bounds usage"]}
{"id": "C36", "title": "Parallel chains do not collide", "statement": "Chain i of a parallel run writes only to its own directory and results file; directories of different chains are different; results are returned in chain order; the number of worker processes is at least 1 and never exceeds the machine's.", "quantifier": "all numbers of chains and workers, all schedules", "why_tests_cant": "Requires injectivity over all indices and all schedules.", "anchors": ["pymcmcstat/ParallelMCMC.py: setup_parallel_simulation, run_parallel_simulation, assign_number_of_cores"]}
{"id": "C37", "title": "Parallel chains use different random streams", "statement": "Two chains of one parallel run do not replay the same random numbers.", "quantifier": "all worker counts >= 2, all assignments of chains to workers", "why_tests_cant": "Depends on process creation and scheduling, not on a function's value.", "anchors": ["pymcmcstat/ParallelMCMC.py: run_parallel_simulation, run_serial_simulation", "pymcmcstat/MCMC.py: __init__ (rngseed)"]}
{"id": "C38", "title": "Combining chains keeps exactly the rows after burn-in, with their chain label", "statement": "generate_combined_chain_with_index concatenates, for each chain in order, precisely the rows after the requested burn-in fraction, and labels each row with its own chain.", "quantifier": "all numbers and lengths of chains, all burn-in percentages in [0,100]", "why_tests_cant": "Index arithmetic over all lengths and percentages.", "anchors": ["pymcmcstat/chain/ChainProcessing.py: generate_combined_chain_with_index, generate_chain_list"]}
{"id": "C39", "title": "Loading parallel results works whatever was saved", "statement": "load_parallel_simulation_results returns one results dictionary per chain directory, with the chains, whether these are stored in the json files or in the log files.", "quantifier": "all saved parallel runs", "why_tests_cant": "Requires every combination of save flags.", "anchors": ["pymcmcstat/chain/ChainProcessing.py: load_parallel_simulation_results, check_parallel_directory_contents"]}
{"id": "C40", "title": "Gelman-Rubin diagnostic has its defining properties", "statement": "The reported potential scale reduction R satisfies R^2 = (n-1)/n + (m+1)/m * Bn/W, hence R^2 >= (n-1)/n with equality iff all chain means agree; it is invariant under affine change of units and under reordering of chains; the effective sample size never exceeds m*n.", "quantifier": "all numbers and lengths of chains and all real values with W>0", "why_tests_cant": "Universally quantified real identity/inequality.", "anchors": ["pymcmcstat/chain/ChainStatistics.py: calculate_psrf, gelman_rubin"]}
{"id": "C41", "title": "Batch-mean error uses disjoint full batches", "statement": "batch_mean_standard_deviation splits the chain into floor(n/b) disjoint consecutive windows of exactly b in-range rows; with the default b it rejects exactly chains with fewer than 20 rows; the value is zero for a constant chain and scales with |c| under multiplication by c.", "quantifier": "all chain lengths and batch sizes", "why_tests_cant": "Index arithmetic and real identities over all lengths.", "anchors": ["pymcmcstat/chain/ChainStatistics.py: batch_mean_standard_deviation"]}
{"id": "C42", "title": "Geweke compares disjoint segments", "statement": "geweke compares the means of the first a*n and the last b*n rows, refuses settings for which the two segments overlap and accepts those for which they do not.", "quantifier": "all chain lengths and fractions a,b in (0,1)", "why_tests_cant": "The check is an inequality over all a,b,n.", "anchors": ["pymcmcstat/chain/ChainStatistics.py: geweke"]}
{"id": "C43", "title": "Empirical quantiles are monotone, within range, and exact at order statistics", "statement": "empirical_quantiles/generate_quantiles: the p-quantile lies between the sample minimum and maximum, is monotone in p, equals the k-th order statistic at p=k/(n-1), and does not depend on the order of the rows; p outside [0,1] is refused.", "quantifier": "all samples, all p", "why_tests_cant": "Universally quantified over samples and p.", "anchors": ["pymcmcstat/plotting/utilities.py: empirical_quantiles", "pymcmcstat/propagation.py: generate_quantiles"]}
{"id": "C44", "title": "Interval bands contain what they promise and are nested", "statement": "A band labelled L% spans the quantiles (50-L/2)% to (50+L/2)%; a band with larger L contains a band with smaller L pointwise.", "quantifier": "all levels L in [0,100], all samples; all bands offered by the prediction interval plots", "why_tests_cant": "Nestedness quantifies over all samples.", "anchors": ["pymcmcstat/propagation.py: _convert_limits, _check_limits, generate_quantiles", "pymcmcstat/plotting/PredictionIntervals.py: lims settings and labels"]}
{"id": "C45", "title": "Propagated intervals are computed from the randomly selected rows", "statement": "calculate_intervals evaluates the model at the chain rows drawn by define_sample_points; every row of the (burn-in-free) chain can be drawn; all drawn indices are valid.", "quantifier": "all chains, sample sizes and uniform draws", "why_tests_cant": "A fixed-index bug gives plausible numbers in any test.", "anchors": ["pymcmcstat/propagation.py: calculate_intervals, define_sample_points"]}
{"id": "C46", "title": "Post-processing does not change the stored results", "statement": "Computing propagation or prediction intervals leaves results['theta'] (and the other entries of the results dictionary) as the simulation left them.", "quantifier": "all results and chains", "why_tests_cant": "Mutation through aliasing; tests check return values only.", "anchors": ["pymcmcstat/propagation.py: calculate_intervals", "pymcmcstat/plotting/PredictionIntervals.py: _setup_generation_requirements, _calc_credible_ii, _calc_credible_and_prediction_ii"]}
{"id": "C47", "title": "Plot subsampling stays in range and bounded", "statement": "setup_subsample returns strictly increasing in-range row indices starting at 0, with constant stride, and never more than maxpoints points (documented maximum).", "quantifier": "all chain lengths, skips and maxpoints", "why_tests_cant": "Integer arithmetic over all values.", "anchors": ["pymcmcstat/plotting/utilities.py: setup_subsample"]}
{"id": "C48", "title": "Subplot grids have room for every parameter", "statement": "generate_subplot_grid(n) returns ns1 x ns2 with ns1*ns2 >= n, and is at most one row larger than needed.", "quantifier": "all n >= 1", "why_tests_cant": "Arithmetic for every n.", "anchors": ["pymcmcstat/plotting/utilities.py: generate_subplot_grid"]}
{"id": "C49", "title": "User settings override defaults key by key, recursively", "statement": "check_settings returns a dictionary where each key present in the user's (non-None) settings has the user's value, recursively for nested dictionaries, every other default is kept, and no key is lost.", "quantifier": "all nested dictionaries", "why_tests_cant": "Structural induction over nested dictionaries.", "anchors": ["pymcmcstat/utilities/general.py: check_settings", "pymcmcstat/plotting/utilities.py: check_settings"]}
{"id": "C50", "title": "Interquartile range is order-independent and non-negative", "statement": "iqrange(x) depends only on the values of the sample, not their order, is non-negative and never indexes outside the sample.", "quantifier": "all samples of any length", "why_tests_cant": "Quantifies over permutations and lengths.", "anchors": ["pymcmcstat/plotting/utilities.py: iqrange"]}
{"id": "C51", "title": "Data-set bookkeeping stays aligned", "statement": "After any sequence of add_data_set calls the lists of x, y, shapes, weights and observation counts have the same length and entry i describes data set i; the number of observations of a set is its number of rows (scalars and flat lists count their elements).", "quantifier": "all call sequences and argument kinds", "why_tests_cant": "History of calls with optional arguments.", "anchors": ["pymcmcstat/settings/DataStructure.py: add_data_set, get_number_of_data_sets, get_number_of_observations, get_number_of_batches, _convert_to_numpy_array"]}
{"id": "C52", "title": "Default sum of squares is the weighted residual sum per batch", "statement": "With only a model function, the SS of batch i is sum_j w_i (y_ij - model(x_i,theta)_j)^2: non-negative for non-negative weights, zero iff all weighted residuals vanish, and independent of the other batches.", "quantifier": "all data, models, parameters", "why_tests_cant": "Universally quantified identity.", "anchors": ["pymcmcstat/procedures/SumOfSquares.py: mcmc_sos_function"]}
{"id": "C53", "title": "Default prior is Gaussian, flat when sigma is infinite", "statement": "The default prior contribution is sum((mu-theta)/sigma)^2: non-negative, zero at theta=mu, unaffected by parameters with infinite sigma; prior sigma <= 0 is treated as infinite; NaN prior mean means the initial value, also after a restart.", "quantifier": "all parameters and priors", "why_tests_cant": "Special values and all coordinates.", "anchors": ["pymcmcstat/procedures/PriorFunction.py: default_priorfun", "pymcmcstat/settings/ModelParameters.py: setup_prior_mu, setup_prior_sigma, _check_prior_sigma, _results_to_params"]}
{"id": "C54", "title": "Options resolve as documented", "statement": "Method-dependent defaults apply exactly when the user gave no value; 'mh' and 'dr' never adapt; savesize ends in 1..nsimu; lastadapt and printint get their defaults; giving N0 turns on updatesigma; chains are dropped from json exactly when a log keeps them.", "quantifier": "all option values", "why_tests_cant": "Case analysis over all combinations.", "anchors": ["pymcmcstat/settings/SimulationOptions.py"]}
{"id": "C55", "title": "Parameter declarations open into consistent index sets", "statement": "The sampled index list is exactly the increasing list of parameters declared sample=True; a parameter is adapted only if sampled; the no-adapt mask has one entry per sampled parameter and marks exactly those sampled with adapt=False; inconsistent limits or an initial value outside the limits of a sampled parameter make the run exit.", "quantifier": "all parameter lists", "why_tests_cant": "All boolean patterns.", "anchors": ["pymcmcstat/settings/ModelParameters.py: _openparameterstructure, setup_adaptation_indices, _check_parameter_limits, _check_initial_values_wrt_parameter_limits"]}
{"id": "C56", "title": "Generated names are complete and distinct", "statement": "Default parameter names are pairwise distinct; name lists are completed to the number of parameters without altering the given ones.", "quantifier": "all numbers of parameters and all partial name lists", "why_tests_cant": "Distinctness over all indices.", "anchors": ["pymcmcstat/settings/ModelParameters.py: generate_default_name", "pymcmcstat/plotting/utilities.py: generate_names, extend_names_to_match_nparam, generate_default_names", "pymcmcstat/chain/ChainStatistics.py: get_parameter_names"]}
{"id": "C57", "title": "Geweke scores depend only on the two ends and not on the unit", "statement": "The Geweke z-scores and p-values depend only on the rows in the two compared segments; they do not change when a parameter is measured in another unit (positive factor) or from another origin (added constant).", "quantifier": "all chains, fractions, positive factors and offsets", "why_tests_cant": "Invariance over all chains and all real factors.", "anchors": ["pymcmcstat/chain/ChainStatistics.py: geweke, spectral_estimate_for_variance, power_spectral_density_using_hanning_window"]}
{"id": "C58", "title": "Integrated autocorrelation time uses the shortest adequate window", "statement": "For a column that is not constant the time returned is 1 + 2*(sum of the autocorrelations at lags 1..m-1) for the smallest window m with m > 3*time + 1; such a window exists and is no longer than the chain; the time does not change with the unit or origin of the parameter; a constant column gives 0.", "quantifier": "all chains of at least two rows, all units and origins", "why_tests_cant": "Existence and minimality of the window for every chain, and correctness of the transform-based computation, are identities over all real sequences.", "anchors": ["pymcmcstat/chain/ChainStatistics.py: integrated_autocorrelation_time"]}
{"id": "C59", "title": "Chain summary reports the statistics of the chain given", "statement": "chainstats returns, for each column of the chain, mean, standard deviation, batch-means error, its Monte Carlo error (divided by sqrt of the number of rows), Geweke scores of first tenth against last half, and integrated autocorrelation time; it does so for every chain long enough, also when columns were selected from the chain.", "quantifier": "all chains and results dictionaries", "why_tests_cant": "All chain lengths (batching, segments) and result dictionaries.", "anchors": ["pymcmcstat/chain/ChainStatistics.py: chainstats, print_chain_statistics, get_parameter_names"]}
{"id": "C60", "title": "Acceptance figures agree with the run", "statement": "The acceptance figures shown with a chain are those of the run: per stage, their sum, and the number of simulations from the results; the number of different values in the first column never exceeds the number of acceptances plus the starting point; results read back from their file give the same figures.", "quantifier": "all runs, chains and results", "why_tests_cant": "Relates every run's chain, counters and exported results.", "anchors": ["pymcmcstat/chain/ChainStatistics.py: print_chain_acceptance_info", "pymcmcstat/structures/ResultsStructure.py"]}
{"id": "C61", "title": "A longer run begins with the shorter one", "statement": "Two runs from the same object with the same sampling options and the same random numbers, one asked for more simulations than the other, have the same chain, sum-of-squares chain, error variances, proposals and acceptance stages up to the length of the shorter one: the number of simulations asked for has no influence on how sampling or adaptation proceeds.", "quantifier": "all objects after any course of actions, option settings, lengths, first and resumed runs", "why_tests_cant": "Two-run property over all lengths.", "anchors": ["pymcmcstat/MCMC.py: __setup_simulator, __execute_simulator", "pymcmcstat/samplers/Adaptation.py", "pymcmcstat/samplers/SamplingMethods.py"]}
{"id": "C62", "title": "Logging, printing and naming have no influence on sampling", "statement": "Options that concern printing, logging to binary or text files, names of files and directories, and the json export have no influence on the samples: after any course of actions the chains, error variances, random numbers used, counters and results have the same numbers; switching off binary logs never makes a run fail.", "quantifier": "all courses of actions, all settings of these options", "why_tests_cant": "Non-interference, a two-run property over all option settings.", "anchors": ["pymcmcstat/MCMC.py: run_simulation, __execute_simulator, __save_to_log_file", "pymcmcstat/settings/SimulationOptions.py", "pymcmcstat/utilities/progressbar.py"]}
{"id": "C63", "title": "A stopped and resumed run gives the samples of one long run", "statement": "A run of n1 simulations continued by one of n2 ends with the chain, sum-of-squares chain, error variances and position in the random stream of a single run of n1 + n2 - 1 simulations with the same options, and every iteration has the same outcome.", "quantifier": "all objects, options, lengths and random streams", "why_tests_cant": "Two-run property over all lengths: all state carried from one run to the next has to be complete.", "anchors": ["pymcmcstat/MCMC.py: run_simulation, __setup_simulator, _initialize_simulation, __expand_chains", "pymcmcstat/procedures/CovarianceProcedures.py: setup_covariance_matrix", "pymcmcstat/settings/ModelParameters.py: results_to_params"]}
{"id": "C64", "title": "Rejection statistics printed during a run are those of the run", "statement": "Printing does not disturb the run: with any verbosity, with or without progress bar, the run ends the same way with the same object. With verbosity 2 or more a line is printed exactly at the iterations that are multiples of the printing interval, and it gives the percentages of rejected proposals so far, of rejected proposals since the last adaptation, and of proposals outside the limits, as counted from the outcomes of the iterations.", "quantifier": "all runs, options, verbosity levels and clocks", "why_tests_cant": "Interaction of print interval, adaptation interval and counters over all run lengths.", "anchors": ["pymcmcstat/MCMC.py: __execute_simulator, print_rejection_statistics", "pymcmcstat/utilities/progressbar.py"]}
{"id": "C65", "title": "The progress bar shows the progress of the run", "statement": "Every bar drawn has the length of the bar and refers to the total of the run; the numbers shown never decrease and never exceed the total; bars are drawn at most every half second, except for the last one; the last bar drawn is complete.", "quantifier": "all runs, lengths and clocks", "why_tests_cant": "All clocks and run lengths: which updates are shown depends on elapsed time.", "anchors": ["pymcmcstat/utilities/progressbar.py: ProgressBar, TextProgressBar, progress_bar", "pymcmcstat/MCMC.py: __execute_simulator"]}
{"id": "C66", "title": "Contour ellipse lies on the contour", "statement": "The contour drawn for a mean and a 2x2 covariance matrix consists of the requested number of points, all on the ellipse (p - mu)' C^-1 (p - mu) = 1, closed, equally spaced in angle after mapping to the unit circle and within one standard deviation in each coordinate. Matrices that are not 2x2, not symmetric or without Cholesky factor are refused by exit.", "quantifier": "all means, real matrices and numbers of points", "why_tests_cant": "Identity over all real matrices, means and numbers of points.", "anchors": ["pymcmcstat/plotting/utilities.py: generate_ellipse, check_symmetric, is_semi_pos_def_chol"]}
{"id": "C67", "title": "Plot grid covers the values", "statement": "make_x_grid returns the requested number of equally spaced points, from the smallest to the largest value with a margin for more than 200 values and from four standard deviations below to four above the mean otherwise; every value lies within the grid.", "quantifier": "all samples and numbers of points", "why_tests_cant": "Bounds over all samples of all sizes.", "anchors": ["pymcmcstat/plotting/utilities.py: make_x_grid"]}
{"id": "C68", "title": "Bandwidth is a scale of the sample", "statement": "scale_bandwidth returns 1.06 min(sd, iqr/1.34) n^(-1/5), which is non-negative, zero only for constant samples, proportional under change of unit, unchanged by a shift and by reordering the sample.", "quantifier": "all samples", "why_tests_cant": "Invariance over all samples and all orders.", "anchors": ["pymcmcstat/plotting/utilities.py: scale_bandwidth, iqrange"]}
{"id": "C69", "title": "Normal density", "statement": "gaussian_density_function is the normal density: positive, symmetric about the mean and decreasing away from it; a variance that is not positive is refused.", "quantifier": "all arguments", "why_tests_cant": "Holds for every real argument.", "anchors": ["pymcmcstat/plotting/utilities.py: gaussian_density_function"]}
{"id": "C70", "title": "Cholesky factor updated beside the covariance stays its factor", "statement": "If a Cholesky factor of the covariance of the rows seen so far is handed to the recursive covariance update together with it, the factor obtained after a further segment of the chain is a Cholesky factor of the covariance of all rows, and covariance, mean and weight are those obtained without a factor.", "quantifier": "all samples, weights, dimensions and factors", "why_tests_cant": "Rank-one update identity over all real samples, by induction on the number of rows.", "anchors": ["pymcmcstat/samplers/Adaptation.py: update_covariance_mean_sum, setup_cholupdate, cholupdate"]}
{"id": "C71", "title": "Deprecated acceptance functions agree with the current ones", "statement": "calculate_posterior_ratio is the ratio of the posterior densities and the exponential of the log ratio in use, log_posterior_ratio its logarithm; acceptance_test on the ratio decides as the test in use does on its logarithm, for every uniform number in [0, 1).", "quantifier": "all sums of squares, error variances, priors and uniform numbers", "why_tests_cant": "Equivalence over all real inputs; tests compare single values.", "anchors": ["pymcmcstat/samplers/utilities.py: acceptance_test, log_posterior_ratio_acceptance_test", "pymcmcstat/samplers/Metropolis.py: calculate_posterior_ratio", "pymcmcstat/samplers/DelayedRejection.py: log_posterior_ratio"]}
{"id": "C72", "title": "Results of a serial run can be loaded from its directory", "statement": "Loading the directory of a finished run gives the results dictionary with the chains of the run, taken from the results file if it holds them and from the logs otherwise, and all other entries of the results file with lists turned into arrays. The results file asked for is the one that is loaded.", "quantifier": "all runs, log settings and directory listings", "why_tests_cant": "Round trip over all runs and directory listings.", "anchors": ["pymcmcstat/chain/ChainProcessing.py: load_serial_simulation_results, read_in_savedir_files, load_json_object"]}
{"id": "C73", "title": "Limits and colours of plotted bands", "statement": "plot_intervals and plot_3d_intervals draw one band for each limit, widest first, labelled with its limit and spanning its quantiles. If as many colours as limits are given, each limit has the colour given for it; otherwise its colour is the colour map's at the limit, scaled to the range of the limits. The lists given are left as they are.", "quantifier": "all lists of limits, colours and settings", "why_tests_cant": "All orders and numbers of limits and colours; sharing of list objects between the settings.", "anchors": ["pymcmcstat/propagation.py: plot_intervals, plot_3d_intervals, setup_interval_colors, _check_limits, __setup_cmap_norm, __setup_default_cmap"]}
{"id": "C74", "title": "Outline of a band in three dimensions", "statement": "The outline drawn by plot_3d_intervals goes along the lower edge of the band and back along its upper edge, each corner above its own point of the plane; intervals at too few points are refused.", "quantifier": "all numbers of points", "why_tests_cant": "Index reversal for every length.", "anchors": ["pymcmcstat/propagation.py: plot_3d_intervals"]}
{"id": "C75", "title": "Custom samplers that only watch change nothing", "statement": "Adding custom samplers that draw no random numbers and leave the parameter set as it is, with a sum of squares that does not use their outputs, leaves every chain, result and stored file of a run as without them, apart from the files of their own chains; they do not make a run fail that would finish without them, unless their chains collide in a binary log.", "quantifier": "all custom samplers of this kind, states, methods, options and random streams", "why_tests_cant": "Non-interference compares two runs step by step over all inputs.", "anchors": ["pymcmcstat/MCMC.py: _initialize_simulation, __execute_simulator", "pymcmcstat/procedures/SumOfSquares.py: evaluate_sos_function"]}
{"id": "C76", "title": "Custom samplers follow the chain", "statement": "Every custom sampler is set up once and then updated once in every iteration, in order, with the number of the iteration, whether a point was accepted in it, and the parameter set, sums of squares and error variances stored for it in the chains.", "quantifier": "all custom samplers that leave the parameter set as it is, all runs and resumed runs", "why_tests_cant": "Invariant over all iterations and samplers.", "anchors": ["pymcmcstat/MCMC.py: _initialize_simulation, __execute_simulator"]}
{"id": "C77", "title": "Stored sum of squares uses the outputs in force", "statement": "With custom samplers, the sum of squares stored for an iteration is that of the stored point under the outputs of the samplers in force in that iteration.", "quantifier": "all runs with custom samplers", "why_tests_cant": "Which outputs a stored value belongs to depends on the whole history of acceptances.", "anchors": ["pymcmcstat/MCMC.py: _initialize_simulation, __execute_simulator", "pymcmcstat/procedures/SumOfSquares.py: evaluate_sos_function"]}
{"id": "C78", "title": "Logs of the chains of custom samplers", "statement": "A chain of a custom sampler that asks for it to be saved is written to the logs completely: text logs gain its rows in order, binary logs data sets that tile its rows in pieces of at most savesize rows.", "quantifier": "all custom samplers that only append to their chain, all options and numbers of simulations", "why_tests_cant": "Tiling for all savesize and nsimu, and all states of the samplers.", "anchors": ["pymcmcstat/MCMC.py: __execute_simulator, __save_to_log_file, __save_chains"]}
{"id": "C79", "title": "Sets changed by custom samplers", "statement": "If a custom sampler changes the parameter set, the next iteration starts from the changed set: a rejected iteration repeats it in the chain, and new points are proposed from it. All rows stay within the limits, and the sum of squares stored with a row is that of the row.", "quantifier": "all custom samplers, runs and resumed runs", "why_tests_cant": "Invariant over all iterations and all changes a sampler can make.", "anchors": ["pymcmcstat/MCMC.py: __execute_simulator, __update_chain"]}
{"id": "C80", "title": "Local parameters", "statement": "A parameter declared local has a value for each batch of data and a parameter that is not local a single one, and the flags change nothing else.", "quantifier": "all declarations, flags and numbers of batches", "why_tests_cant": "Declarations and numbers of batches are unbounded, and the code writes slices that grow with both.", "anchors": ["pymcmcstat/settings/ModelParameters.py: _openparameterstructure, scan_for_local_variables"]}
{"id": "C81", "title": "Table of the sampled parameters", "statement": "If it is printed, the table shown before a run has one line for each sampled parameter, in order, with its name, starting value, limits and prior, and marks exactly the parameters left out of adaptation.", "quantifier": "all declarations and levels of verbosity", "why_tests_cant": "All lists of parameters; the mark depends on the type of the flag and not on its value.", "anchors": ["pymcmcstat/settings/ModelParameters.py: display_parameter_settings, noadapt_display_setting, prior_display_setting", "pymcmcstat/MCMC.py: _initialize_simulation"]}
{"id": "C82", "title": "Data sets used for prediction", "statement": "For prediction intervals the model function is given, for each data set of the run, a structure with exactly the x values, y values, user object and weight of that data set.", "quantifier": "all sequences of data sets, shapes and user objects", "why_tests_cant": "Data sets are converted twice, and any number of them of any shape can be added.", "anchors": ["pymcmcstat/plotting/PredictionIntervals.py: _analyze_data_structure, _setup_data_structure_for_prediction", "pymcmcstat/settings/DataStructure.py: add_data_set"]}
{"id": "C83", "title": "Panels of the plots", "statement": "Density, histogram and chain plots have one panel for each parameter, in order, on a grid without empty rows, showing the chain of that parameter and labelled with its name; pair plots have one panel for each pair of parameters, all in different places, showing the two chains at the same rows with the names at the edges of the grid.", "quantifier": "all chains, numbers of parameters, lists of names and ways of subsampling", "why_tests_cant": "Numbers of parameters and pairs are unbounded; places must be different for all pairs.", "anchors": ["pymcmcstat/plotting/MCMCPlotting.py: plot_density_panel, plot_histogram_panel, plot_chain_panel, plot_pairwise_correlation_panel"]}
{"id": "C84", "title": "Labels of chain plots", "statement": "In chain plots exactly the panels without a panel beneath them have the label of the x axis, and the plot of a single chain is labelled with the name given, or the default name if there is none.", "quantifier": "all chains, numbers of parameters and names", "why_tests_cant": "Which panels have one beneath them depends on the number of parameters in a way that examples miss.", "anchors": ["pymcmcstat/plotting/MCMCPlotting.py: plot_chain_panel, plot_chain_metrics", "pymcmcstat/plotting/utilities.py: generate_names"]}
{"id": "C85", "title": "Units of the response", "statement": "If the user gives an error variance, measuring the response in other units (sum of squares, error variance and its prior variance multiplied by one positive number) and adding a constant to the prior function changes nothing in a session except that sums of squares and error variances are multiplied by that number: the same random numbers lead through the same candidates, decisions, chains, files and failures.", "quantifier": "all models, priors, settings, random streams and sequences of runs, in exact arithmetic", "why_tests_cant": "Two runs must agree for every model and random stream; rounding hides the equality from tests.", "anchors": ["pymcmcstat/samplers/Metropolis.py: run_metropolis_step", "pymcmcstat/samplers/DelayedRejection.py: alphafun, run_delayed_rejection", "pymcmcstat/procedures/ErrorVarianceEstimator.py: update_error_variance", "pymcmcstat/settings/ModelSettings.py: _check_dependent_model_settings", "pymcmcstat/MCMC.py: run_simulation"]}
{"id": "C86", "title": "Simulated observations", "statement": "Simulated observations are the responses of the model at the rows drawn from the chain plus errors on the scale asked for, with the error variance of the same row and of the response and data set concerned, and no random number is used for two of them. Credible intervals are the quantiles of the responses and prediction intervals those of the observations. A chain of variances whose columns fit neither the responses nor the data sets is refused.", "quantifier": "all chains, models, variances, numbers of data sets and responses, random streams and scales", "why_tests_cant": "The variance used depends on three indices that run together, and a wrong one still gives plausible bands.", "anchors": ["pymcmcstat/propagation.py: calculate_intervals, observation_sample, check_s2chain", "pymcmcstat/plotting/PredictionIntervals.py: generate_prediction_intervals, _calculate_ci_for_data_sets, _observation_sample, _analyze_s2chain, _setup_sstype"]}
{"id": "C87", "title": "Origin of the parameters", "statement": "If the proposals do not start from a covariance made from the starting values and no restart file is named, measuring each parameter from another origin (starting value, limits, prior mean and the user's functions moved by a constant of its own) changes nothing in a session except that points and means of points are moved: the same random numbers lead through the same proposals, decisions, sums of squares, covariances, files and failures.", "quantifier": "all models, priors, declarations with different names, constants, settings, random streams and sequences of runs, in exact arithmetic", "why_tests_cant": "Two runs must agree for every model, constant and random stream; rounding hides the equality from tests.", "anchors": ["pymcmcstat/samplers/Metropolis.py: run_metropolis_step", "pymcmcstat/samplers/DelayedRejection.py: run_delayed_rejection", "pymcmcstat/samplers/Adaptation.py: run_adaptation, update_covariance_mean_sum", "pymcmcstat/settings/ModelParameters.py: _openparameterstructure, _results_to_params", "pymcmcstat/procedures/CovarianceProcedures.py: _initialize_covariance_settings", "pymcmcstat/MCMC.py: run_simulation"]}
{"id": "C88", "title": "Well-formed problems run to the end", "statement": "A run of a well-formed problem comes to its end without raising an error: every array is long enough, every dictionary entry and attribute is there, every name is free, every conversion succeeds, whatever the random numbers and the values of the user's functions are. (Well-formed: at least two simulations, a sampled parameter, starting values between their limits, settings that fit the number of sums of squares and the data, a covariance that can be factorised, stages that fit the method with factors that can be inverted, and different unused names for binary logs.) So does any number of continuations, if variances are estimated from the beginning, the names of the sampled parameters differ and the continuations write no binary logs.", "quantifier": "all models, priors, well-formed settings, random streams, lengths of runs and numbers of continuations", "why_tests_cant": "Failures that need a particular length of run, block size, stage or sequence of random numbers are missed by examples.", "anchors": ["pymcmcstat/MCMC.py: run_simulation, __execute_simulator", "pymcmcstat/samplers/Metropolis.py: run_metropolis_step", "pymcmcstat/samplers/DelayedRejection.py: run_delayed_rejection", "pymcmcstat/samplers/Adaptation.py: run_adaptation", "pymcmcstat/procedures/CovarianceProcedures.py: _initialize_covariance_settings", "pymcmcstat/settings/ModelSettings.py: _check_dependent_model_settings_wrt_nsos", "pymcmcstat/chain/ChainProcessing.py: _save_to_bin_file"]}
{"id": "C89", "title": "Units of the parameters", "statement": "If no restart file is named, nothing is added to the diagonal of singular covariances (or one constant serves all sampled parameters), and the first covariance is given, comes from priors or from starting values other than zero, then measuring each parameter in another unit (starting value, limits, prior and given covariance multiplied by positive constants, the user's functions given the old values) changes nothing in a session except that points, means, factors and covariances are converted: the same random numbers lead through the same decisions, sums of squares, error variances, files and failures. The default prior function needs no conversion, and exact factorisations and inverses follow the change.", "quantifier": "all models, priors, declarations with different names, positive constants, settings, random streams and sequences of runs, in exact arithmetic", "why_tests_cant": "Two runs must agree for every model, set of constants and random stream; rounding hides the equality from tests.", "anchors": ["pymcmcstat/samplers/Metropolis.py: run_metropolis_step", "pymcmcstat/samplers/DelayedRejection.py: run_delayed_rejection", "pymcmcstat/samplers/Adaptation.py: run_adaptation, update_covariance_mean_sum, check_for_singular_cov_matrix", "pymcmcstat/settings/ModelParameters.py: _openparameterstructure, _results_to_params", "pymcmcstat/procedures/CovarianceProcedures.py: _initialize_covariance_settings, setup_covariance_matrix", "pymcmcstat/MCMC.py: run_simulation"]}
{"id": "C90", "title": "Names of the parameters", "statement": "Giving the parameters other names, with different names staying different, changes nothing in a session but the names in declarations, restart files and results: chains, sums of squares, error variances, covariances, files, failures and the use of random numbers are the same. (Two parameters with one name are confused when a run is continued or restarted.)", "quantifier": "all models, declarations, renamings, settings, restart files, random streams and sequences of runs, in any arithmetic", "why_tests_cant": "Continued and restarted runs find parameters by name; a wrong comparison shows only for particular names.", "anchors": ["pymcmcstat/settings/ModelParameters.py: _results_to_params, _openparameterstructure", "pymcmcstat/MCMC.py: run_simulation, __generate_simulation_results", "pymcmcstat/structures/ResultsStructure.py: add_basic"]}
{"id": "C91", "title": "Plots of prediction and credible intervals", "statement": "Every column of every data set gets a figure of its own, with a name no other figure has. It shows at the times of that data set, and for that column, the outermost curves of the prediction intervals (unless there are none or the flag is False or 'off'), a band between each curve of the credible intervals and its mirror image, the middle curve as the model, and the data of that column if asked for. Bands in one figure differ in label and colour. Where there is more than one panel all have titles, and no two have the same. (A flag of 0 does not switch prediction intervals off.)", "quantifier": "all numbers of data sets and columns, all curves, data and times, up to one band with prediction intervals and four without", "why_tests_cant": "Batch, column and quantile are three indices into nested lists; a swap of two of them goes unnoticed on symmetric examples.", "anchors": ["pymcmcstat/plotting/PredictionIntervals.py: plot_prediction_intervals, _initialize_plot_features, _add_batch_column_title, _setup_interval_plotting, _check_prediction_interval_flag, _setup_labels, _setup_interval_colors, _setup_counting_metrics", "pymcmcstat/plotting/utilities.py: convert_flag_to_boolean"]}
{"id": "C92", "title": "Results hold only numbers", "statement": "If the random numbers are numbers, the user's sum of squares returns only non-negative numbers, +inf or NaN, the prior never -inf, the factor of a matrix of numbers is one, and the starting point, given variances, weights and options are numbers (variances positive, starting point with finite sum of squares and prior), then after a run without the robust rule, and any number of continuations, the chain holds only numbers (no NaN, no infinity), the chain of sums of squares only non-negative numbers and the chain of error variances only positive ones; so do the results, whose factor, covariances and means are numbers. Where variances are estimated this needs observations in every data set and positive prior weights or sums of squares: a perfect fit with the default weights of unknown variances draws the variance 0.", "quantifier": "all models, priors, declarations, settings, random streams, lengths of runs and numbers of continuations, in exact arithmetic with infinities and NaN", "why_tests_cant": "Candidates where the model returns NaN or inf occur rarely, and a single non-number spreads through adaptation to everything that follows.", "anchors": ["pymcmcstat/MCMC.py: run_simulation, __generate_simulation_results", "pymcmcstat/samplers/Metropolis.py: run_metropolis_step", "pymcmcstat/samplers/DelayedRejection.py: run_delayed_rejection", "pymcmcstat/samplers/Adaptation.py: run_adaptation", "pymcmcstat/procedures/ErrorVarianceEstimator.py: update_error_variance", "pymcmcstat/procedures/CovarianceProcedures.py: _initialize_covariance_settings", "pymcmcstat/settings/ModelSettings.py: _check_dependent_model_settings"]}
{"id": "C93", "title": "Every point can be proposed", "statement": "With options that are numbers (no robust rule, scale factors other than 0) and positive variances wherever a given covariance is not factorised by the library (given as a list of variances, or a single sampled parameter), whatever is run, continued, restarted or set up anew: in every iteration, the proposal factor in force for every stage of delayed rejection leads from every point to every other by exactly one vector of normal draws, and so does the factor in the results. Adaptation, burn-in scaling, singular sample covariances, parameters left out of adaptation and starting values of zero never collapse a direction. (A variance of 0 given in a list is accepted, and without adaptation that parameter then never moves.)", "quantifier": "all models, priors, declarations, settings, restart files, random streams and sequences of runs, in exact arithmetic with infinities and NaN", "why_tests_cant": "A collapsed direction shows only as a chain that fails to explore; it depends on rare singular covariances and on the order of adaptations.", "anchors": ["pymcmcstat/samplers/Adaptation.py: run_adaptation, below_burnin_threshold, check_for_singular_cov_matrix, update_delayed_rejection", "pymcmcstat/procedures/CovarianceProcedures.py: setup_covariance_matrix, setup_R_matrix, setup_RDR_matrix, check_adascale", "pymcmcstat/samplers/Metropolis.py: run_metropolis_step", "pymcmcstat/samplers/utilities.py: sample_candidate_from_gaussian_proposal", "pymcmcstat/MCMC.py: run_simulation"]}
{"id": "C94", "title": "Figures of propagated intervals", "statement": "plot_intervals and plot_3d_intervals show, each only if its flag is True, the prediction bands, then the credible bands, then the median of the responses, then the observations (also if their flag is None), and a legend. There is a band for each limit, at the given times, between the quantiles of the responses at each time, with the label and colour of its limit; no band reaches outside of those of its kind drawn before it, and the median lies in every credible band. Observations are drawn at points of their own where these are given. Everything is drawn with the user's display settings, and with the defaults for what is not set. The settings of the bands are returned exactly if asked for.", "quantifier": "all samples of responses, times, limits, colours, display settings, observations and flags", "why_tests_cant": "The order of drawing, positions and styles of a figure are not inspected by tests; combinations of the flags are too many.", "anchors": ["pymcmcstat/propagation.py: plot_intervals, plot_3d_intervals, setup_display_settings, generate_quantiles", "pymcmcstat/utilities/general.py: check_settings"]}
{"id": "C95", "title": "Parameters that are not sampled are constants of the model", "statement": "Declaring a parameter with sample=False is the same as not declaring it and writing its value into the sum of squares. Whatever the user does with the object (new options or model settings, runs and continued runs, no restart file), the session goes the same way, failures included: the same chains, error variances, proposal covariances, counts, files, use of random numbers and results; only the positions and the full parameter vector in the results and the vectors that the sum of squares is called with show the other parameters, with their declared values, and a covariance given for all parameters is used at the sampled ones only. So parameters that are not sampled influence a session only through the user's own function.", "quantifier": "all sessions, declarations with at least one sampled parameter, user functions, random numbers, covariances given as a matrix, row or column", "why_tests_cant": "A test compares a few runs; that no name, limit, prior or initial value of a fixed parameter reaches any of the computations is a statement about all of them.", "anchors": ["pymcmcstat/settings/ModelParameters.py: _openparameterstructure, _results_to_params", "pymcmcstat/procedures/SumOfSquares.py: evaluate_sos_function", "pymcmcstat/procedures/CovarianceProcedures.py: _initialize_covariance_settings, __setup_R_based_on_covariance_matrix", "pymcmcstat/MCMC.py: run_simulation"]}
{"id": "C96", "title": "Limits that are not reached have no influence", "statement": "Two sessions that differ only in the declared limits, one set being narrower than the other: same values, options, data, random numbers and sequence of actions (new settings, runs, continued runs, restarts). If the session with the wider limits ends normally, the session with the narrower limits is the same in every respect (chains, sums of squares, variances, adaptation, counters, files, use of random numbers, later behaviour), except for the limits recorded, if and only if every vector that the sum-of-squares function received lies within the narrower limits.", "quantifier": "All arithmetics, user functions, declarations, pairs of limits (finite or infinite), numbers of parameters sampled or not, option sets, random streams and sequences of actions.", "why_tests_cant": "It compares two runs for every choice of limits and every random stream; a test compares two particular runs and cannot exclude that limits enter elsewhere (initial covariance, prior, adaptation, restart).", "anchors": ["pymcmcstat/samplers/utilities.py: is_sample_outside_bounds", "pymcmcstat/settings/ModelParameters.py: _check_parameter_limits, _check_initial_values_wrt_parameter_limits", "pymcmcstat/samplers/Metropolis.py: run_metropolis_step", "pymcmcstat/samplers/DelayedRejection.py: run_delayed_rejection", "pymcmcstat/MCMC.py: run_simulation, _initialize_simulation"]}
{"id": "C97", "title": "The first proposals have the covariance given by the user", "statement": "If the user gives a covariance (a symmetric matrix for all declared parameters, or their variances as a row or a column), the proposals of a run, until the first adaptation, have exactly this covariance, restricted to the sampled parameters in their order: the factor R in force satisfies R^T R = given covariance, and it is upper triangular. The same holds for the covariance read from a restart file and for continued runs. With a weight for it (initqcovn) it is also the covariance of the chain before the first update. Without adaptation it holds for all proposals of the run, and the covariance in the results is the one given. Factors given for delayed rejection (RDR) take precedence in the methods dr and dram, and only in these.", "quantifier": "All numbers of parameters, sampled or not, in any position, all symmetric matrices with nonnegative diagonal and all nonnegative variances, methods, options, data, user functions, random streams and Cholesky routines that return a factor.", "why_tests_cant": "A test compares factors for a few small matrices; that rows and columns of fixed parameters are taken out at the right places, whichever parameters are fixed, and that the factor reaches every proposal, is a statement about all of them.", "anchors": ["pymcmcstat/procedures/CovarianceProcedures.py: _initialize_covariance_settings, __setup_covariance_matrix, __setup_R_matrix, __setup_R_based_on_variances, __setup_R_based_on_covariance_matrix, __setup_RDR_matrix", "pymcmcstat/MCMC.py: run_simulation, _initialize_simulation", "pymcmcstat/samplers/Metropolis.py: run_metropolis_step"]}
{"id": "C98", "title": "Only the posterior matters", "statement": "With an error variance that is given and not estimated, a run depends on the sum-of-squares function and the prior function of the user only through the posterior density, up to a constant factor. Two runs with functions for which sum of squares / sigma2 + prior value differs by a constant (everywhere, infinite or NaN values included) fail in the same way or agree in everything but the sums of squares: chain, accepted stages, adaptation, counters, use of random numbers, evaluated points, results and files other than the one of the sums of squares. In particular, a constant added to a sum of squares has no influence, and a prior function can be replaced by a term sigma2 * prior in the sum of squares.", "quantifier": "All pairs of user functions with the same posterior, all declarations, priors, methods with any number of tries, options, random streams and numbers of responses, in exact arithmetic with infinities and NaN; fresh runs without a restart file.", "why_tests_cant": "It compares runs with different functions for every random stream; that sum of squares and prior enter only in this combination, in every stage of delayed rejection and for candidates outside of the limits, is a statement about all of them.", "anchors": ["pymcmcstat/samplers/Metropolis.py: run_metropolis_step", "pymcmcstat/samplers/DelayedRejection.py: run_delayed_rejection, alphafun, log_posterior_ratio", "pymcmcstat/samplers/utilities.py: calculate_log_posterior_ratio", "pymcmcstat/procedures/SumOfSquares.py: evaluate_sos_function", "pymcmcstat/procedures/PriorFunction.py: evaluate_prior", "pymcmcstat/MCMC.py: run_simulation, _initialize_simulation"]}
{"id": "C99", "title": "With one try, the method is only a name", "statement": "With one try, dram is am and dr is mh; with adaptation interval 0, mh, am, dr and dram with one try are all the same. Two sessions with the same declarations, data, random numbers and actions (new settings, runs, continued runs, restarts), whose options differ only in the name of the method, the scales for further tries and the flag derived from them, and in which no factors for further tries are given, go the same way: same chains, sums of squares, variances, adapted covariances and factors in every iteration, use of random numbers, calls of the user functions, files, results and failures. The only exception is that dr and dram invert the proposal factor even if there is no further try, and stop with LinAlgError if it has no inverse; if every matrix has an inverse there is no exception.", "quantifier": "All arithmetics, user functions, declarations, options, scales, random streams and sequences of actions.", "why_tests_cant": "It compares two runs for every random stream; that the method enters nowhere else than in the number of tries, the adaptation interval and the preparation of further tries is a statement about all of the code.", "anchors": ["pymcmcstat/settings/SimulationOptions.py: define_simulation_options", "pymcmcstat/procedures/CovarianceProcedures.py: _initialize_covariance_settings, __setup_RDR_matrix", "pymcmcstat/samplers/Adaptation.py: run_adaptation, update_delayed_rejection", "pymcmcstat/MCMC.py: run_simulation"]}
{"id": "C100", "title": "Settings of the adaptation that are not in use have no influence", "statement": "Two sessions with the same declarations, data, random numbers and actions (new settings, runs, continued runs, restarts) go the same way, failures included, if their options differ only in settings that are not in use. Not in use are: all settings of the adaptation (interval, burn-in and its scale, qcov_adjust, target and exponent of the robust adaptation, am instead of mh, dram instead of dr) if there is no adaptation interval or the run ends before the first adaptation; the scale of the burn-in if the burn-in is not longer than the interval; target and exponent unless the adaptation is robust; and, in every run, the last adaptation (lastadapt), contrary to its documentation. The same are chains, sums of squares, variances, covariances and factors in every iteration, use of random numbers, calls of the user functions, files and results.", "quantifier": "All arithmetics, user functions, declarations, options, numbers of tries, random streams and sequences of actions.", "why_tests_cant": "It compares two runs for every random stream and all values of the settings; that a setting enters nowhere else is a statement about all of the code.", "anchors": ["pymcmcstat/settings/SimulationOptions.py: define_simulation_options, _check_dependent_simulation_options", "pymcmcstat/samplers/Adaptation.py: run_adaptation, below_burnin_threshold, update_cov_via_ram", "pymcmcstat/procedures/CovarianceProcedures.py: _initialize_covariance_settings", "pymcmcstat/MCMC.py: run_simulation"]}
{"id": "C101", "title": "With a given error variance, the settings for its estimation have no influence", "statement": "If the error variance is given (or left at its default), N0 is not given and updatesigma is off, then the numbers of observations, the prior scale S20, the number of batches and the data structure have no influence on a fresh run other than that the run may be refused because sizes do not fit: for the same sum-of-squares function, two runs that differ only in these have the same chain, sums of squares, factors and covariances in every iteration, use of random numbers, calls of the user functions, files, results (apart from the recorded settings themselves) and failures, and the error variance at the end is the same.", "quantifier": "All arithmetics, user functions, declarations, options with any method and number of tries, pairs of data structures and settings, restart files and random streams.", "why_tests_cant": "It compares two runs for every random stream and all values of the settings; that they enter nowhere else than in the estimation of the variance and in the checks of the sizes is a statement about all of the code.", "anchors": ["pymcmcstat/settings/ModelSettings.py: _check_dependent_model_settings, _check_dependent_model_settings_wrt_nsos, __check_size_of_setting_wrt_nsos, _check_number_of_observations", "pymcmcstat/settings/SimulationOptions.py: _check_dependent_simulation_options", "pymcmcstat/procedures/ErrorVarianceEstimator.py: update_error_variance", "pymcmcstat/MCMC.py: run_simulation"]}
