{"id": "C01", "title": "No lost updates on a shared resource", "statement": "A worker's put on a shared resource is accepted exactly when nobody else has put to that resource since this worker's handle was last created, loaded, synced or itself put; a rejected put raises VersionMismatchError and leaves the stored data untouched. Hence the accepted puts form one linear history and no accepted update is ever overwritten by a worker that had not seen it.", "quantifier": "all numbers of workers, all interleavings of lock-protected new/load/synced/put/acquire operations, all data", "why_tests_cant": "Only a handful of schedules can be executed; the claim is about every schedule.", "anchors": ["neps/state/protocols.py:VersionedResource", "neps/state/protocols.py:Synced", "neps/state/filebased.py:FileVersioner"]}
{"id": "C02", "title": "A synced read returns the latest accepted write", "statement": "After any history of operations by any number of workers, synced() (and the value yielded by acquire()) returns exactly the data of the last accepted put (or of the creation when there was none), provided nobody mutates the returned object in place without putting it. With in-place mutation followed by a rejected or failed put, the guarantee is lost.", "quantifier": "all interleavings, all handles, all data; the negative part over in-place mutations", "why_tests_cant": "Cache coherence must hold for every history, including handles idle for arbitrarily long.", "anchors": ["neps/state/protocols.py:VersionedResource.sync", "neps/state/protocols.py:Synced.synced", "neps/state/protocols.py:Synced.acquire"]}
{"id": "C03", "title": "Concurrent creation elects one creator", "statement": "If any number of workers call new_or_load on the same resource in any order, exactly one of them creates it, all others load it, nobody gets an error, and until somebody puts, all of them hold the creator's data (the data argument of the others is ignored).", "quantifier": "all numbers of workers, all interleavings of the two lock-protected sections of new_or_load, all initial data", "why_tests_cant": "Races on creation depend on the schedule.", "anchors": ["neps/state/protocols.py:Synced.new_or_load"]}
{"id": "C04", "title": "A trial is evaluated at most once", "statement": "Whatever the number of workers and the schedule, no sampled trial is evaluated twice: once a worker has managed to mark a trial as evaluating, no other worker evaluates it.", "quantifier": "all numbers of workers, all interleavings of the list-pending, re-read, mark-evaluating and report steps", "why_tests_cant": "The bad schedule needs a second worker to act between two lock sections of the first; unit tests fix the interleaving.", "anchors": ["neps/runtime.py:DefaultWorker.run", "neps/state/neps_state.py:NePSState.get_next_pending_trial", "neps/state/filebased.py:TrialRepoInDirectory.pending"]}
{"id": "C05", "title": "Of the workers that fetched the same trial version, exactly one claims it", "statement": "If several workers obtained a trial at the same stored version and all try to mark it as evaluating, the first to do so succeeds and every other one is told VersionMismatchError and does not evaluate, and the stored trial names the winner as evaluating worker.", "quantifier": "all numbers of competing workers, all orders of the puts", "why_tests_cant": "Needs all orders of the competing writes.", "anchors": ["neps/runtime.py:DefaultWorker.run", "neps/state/neps_state.py:NePSState.put_updated_trial"]}
{"id": "C06", "title": "Losing a claim race is harmless", "statement": "A worker whose attempt to mark a trial as evaluating is rejected retries with the next trial; it gives up with WorkerFailedToGetPendingTrialsError only after 10 rejected attempts in a row.", "quantifier": "all sequences of accepted and rejected claim attempts of one worker", "why_tests_cant": "The failing history (rejection before any acceptance) needs a race at start-up.", "anchors": ["neps/runtime.py:DefaultWorker.run", "neps/runtime.py:N_FAILED_TO_SET_TRIAL_STATE"]}
{"id": "C07", "title": "Reported results are final", "statement": "Once a worker's report of a trial is stored, the trial's stored status is a final one (success, failed, crashed), and neither status nor report changes afterwards.", "quantifier": "all schedules of any number of workers", "why_tests_cant": "Ranges over all schedules after the report.", "anchors": ["neps/runtime.py:DefaultWorker.run", "neps/state/neps_state.py:NePSState.report_trial_evaluation"]}
{"id": "C08", "title": "Cost accounting never loses a report", "statement": "Whatever the interleaving of any number of workers sampling and reporting, the used cost budget stored in the optimizer state equals its initial value plus the sum of the costs of all reports whose accounting step has run; sampling does not change it; resources without a budget stay without one.", "quantifier": "all interleavings of report and sample steps, all costs (including missing ones)", "why_tests_cant": "Read-modify-write races only show on particular schedules.", "anchors": ["neps/state/neps_state.py:NePSState.report_trial_evaluation", "neps/state/neps_state.py:NePSState.sample_trial", "neps/state/optimizer.py"]}
{"id": "C09", "title": "The shared error log is complete", "statement": "Whatever the interleaving of reporting workers, the shared error dump contains exactly one entry per reported error, in the order in which the workers entered the critical section, no entry is lost, duplicated or altered, and reports without an error add nothing.", "quantifier": "all interleavings of reports, all errors", "why_tests_cant": "Read-modify-write races only show on particular schedules.", "anchors": ["neps/state/neps_state.py:NePSState.report_trial_evaluation", "neps/state/err_dump.py:ErrDump"]}
{"id": "C10", "title": "Stopping decision", "statement": "A worker continues exactly when none of its limits is reached: own error (unless errors are ignored), own evaluation count, own cost, wall clock, own evaluation time, any shared error (in the *_ANY_ERROR modes), total evaluations, total cost, total evaluation time; it raises instead of stopping exactly in the RAISE_* modes; a limit of n stops at n, not n+1.", "quantifier": "all settings, all worker counters, all sets of trials", "why_tests_cant": "The decision is a table over a dozen independent settings; tests cover few cells and boundaries.", "anchors": ["neps/runtime.py:DefaultWorker._check_if_should_stop"]}
{"id": "C11", "title": "A single worker performs exactly max_evaluations_total evaluations", "statement": "A single worker that samples successfully, starting from a state with r reported trials, evaluates exactly max(0, n - r) trials when only max_evaluations_total = n is set, whatever the evaluations return (errors ignored), and then stops; with max_evaluations_per_run = m it evaluates exactly m.", "quantifier": "all n, r, m, all evaluation outcomes, all optimizers", "why_tests_cant": "Off-by-one and resumption behaviour must hold for every n and history.", "anchors": ["neps/runtime.py:DefaultWorker.run", "neps/runtime.py:DefaultWorker._check_if_should_stop"]}
{"id": "C12", "title": "Bounded overshoot of max_evaluations_total with several workers", "statement": "With W workers and max_evaluations_total = n, at most n + W - 1 trials are ever reported, whatever the schedule (each worker may finish the one evaluation it had started); the bound is attained.", "quantifier": "all numbers of workers, all schedules, all n", "why_tests_cant": "Needs all schedules.", "anchors": ["neps/runtime.py:DefaultWorker.run", "neps/runtime.py:DefaultWorker._check_if_should_stop"]}
{"id": "C13", "title": "Cost limit overshoots by at most the last evaluation", "statement": "For a single worker with max_cost_total = c and non-negative costs, the sum of the costs of all reported trials except the last one is below c; so the overshoot is at most the cost of one evaluation.", "quantifier": "all costs, all histories, all c", "why_tests_cant": "Needs all cost sequences.", "anchors": ["neps/runtime.py:DefaultWorker.run", "neps/runtime.py:DefaultWorker._check_if_should_stop"]}
{"id": "C14", "title": "Error policy", "statement": "With ignore_errors a crashing evaluation never stops a worker and is recorded as a crashed trial with the configured default loss/cost; without it the worker that saw the error raises after having stored the report, and every other worker raises at its next check (or stops there, if a limit of its own is reached).", "quantifier": "all evaluation outcome sequences, all settings", "why_tests_cant": "Interaction of policies over arbitrary histories.", "anchors": ["neps/runtime.py:DefaultWorker.run", "neps/state/_eval.py:evaluate_trial", "neps/runtime.py:_launch_runtime"]}
{"id": "C15", "title": "Sampling is reproducible from the seed state", "statement": "The k-th sampled configuration depends only on the initial shared random state and the optimizer, not on which workers sample, on what random numbers they draw in between, or on how sampling interleaves with evaluations, for any optimizer whose proposal depends only on the random state and the number of existing trials.", "quantifier": "all schedules, all worker-local random states, all seeds", "why_tests_cant": "Ranges over all schedules and private random states.", "anchors": ["neps/state/neps_state.py:NePSState.sample_trial", "neps/state/seed_snapshot.py:SeedSnapshot"]}
{"id": "C16", "title": "A crash while a trial is being created never blocks the run", "statement": "If a worker is killed at any point while it creates a new trial, the other workers and later runs can still list and read all trials.", "quantifier": "all crash points inside trial creation", "why_tests_cant": "Needs a kill at each instruction boundary.", "anchors": ["neps/state/filebased.py:TrialRepoInDirectory.put_new", "neps/state/protocols.py:VersionedResource.new"]}
{"id": "C17", "title": "A crash while a trial is being updated leaves the old or the new trial", "statement": "If a worker is killed at any point while it stores an update of a trial, readers afterwards see either the trial before the update or after it, entirely; and if the version number moved then they see the trial after it.", "quantifier": "all crash points inside an update, all trials", "why_tests_cant": "Needs a kill at each instruction boundary.", "anchors": ["neps/state/protocols.py:VersionedResource.put", "neps/state/filebased.py:ReaderWriterTrial.write"]}
{"id": "C18", "title": "Start-up is idempotent, safe under races and resumable", "statement": "Opening the same result directory any number of times with the same optimizer description succeeds and leaves an existing state unchanged; opening it with a different description fails without changing any stored data; concurrent first openings and openings after a crash at any point succeed.", "quantifier": "all sequences of openings, all crash points, all interleavings of two openings", "why_tests_cant": "Needs a kill at each instruction boundary and all interleavings.", "anchors": ["neps/state/filebased.py:create_or_load_filebased_neps_state"]}
{"id": "C19", "title": "Stored trials read back equal", "statement": "Writing a trial to its directory and reading it back yields the same config, metadata, status and report.", "quantifier": "all trials, all previous contents of the directory", "why_tests_cant": "Tests write into fresh directories; the claim is for any earlier content.", "anchors": ["neps/state/filebased.py:ReaderWriterTrial"]}
{"id": "C20", "title": "Trial ids survive the directory encoding", "statement": "The set of ids reported for a result directory is exactly the set of ids of the trials put there, and each listed id can be fetched.", "quantifier": "all sets of ids", "why_tests_cant": "Ids are arbitrary strings chosen by optimizers.", "anchors": ["neps/state/filebased.py:TrialRepoInDirectory.all_trial_ids", "neps/state/filebased.py:TrialRepoInDirectory.put_new"]}
{"id": "C21", "title": "Putting a trial under an existing id is refused", "statement": "Putting a new trial whose id already exists raises TrialAlreadyExistsError and leaves the stored trial as it was; otherwise the trial is stored and every other trial is unchanged.", "quantifier": "all repositories, all trials", "why_tests_cant": "For all prior contents.", "anchors": ["neps/state/filebased.py:TrialRepoInDirectory.put_new"]}
{"id": "C22", "title": "Pending trials are handed out oldest first", "statement": "In a quiescent repository the next pending trial is a pending trial with the smallest sampling time, all pending trials and nothing else are listed, and none is handed out when nothing is pending.", "quantifier": "all repositories", "why_tests_cant": "For all contents and all directory listing orders.", "anchors": ["neps/state/filebased.py:TrialRepoInDirectory.pending", "neps/state/neps_state.py:NePSState.get_next_pending_trial"]}
{"id": "C23", "title": "Equality of reports is an equivalence that treats NaN as equal to itself", "statement": "Report equality is reflexive, symmetric and transitive even when loss or cost are NaN, and two equal reports agree in every field up to the error's text.", "quantifier": "all reports", "why_tests_cant": "NaN in every position and asymmetric None/NaN combinations.", "anchors": ["neps/state/trial.py:Report.__eq__"]}
{"id": "C24", "title": "User results are parsed as documented", "statement": "A number is taken as loss; a dictionary must contain loss, may contain cost and learning_curve (also inside info_dict), every other entry ends up unchanged in extra, defaults are used exactly for missing entries, and anything that is not convertible is rejected with an error.", "quantifier": "all user results, all default settings", "why_tests_cant": "Combination of optional keys and defaults.", "anchors": ["neps/state/_eval.py:parse_user_result"]}
{"id": "C25", "title": "Every evaluation ends in a stored report", "statement": "Whatever the user's function does (return anything or raise), the trial ends with a status success or crashed and a stored report, and the worker is ready for the next trial.", "quantifier": "all behaviours of the user's function", "why_tests_cant": "Includes malformed results.", "anchors": ["neps/state/_eval.py:evaluate_trial", "neps/runtime.py:_set_global_trial", "neps/runtime.py:DefaultWorker.run"]}
{"id": "C26", "title": "Resetting a trial restores its freshly sampled state", "statement": "reset() makes a trial indistinguishable from the same trial just after sampling.", "quantifier": "all trials in all states", "why_tests_cant": "For all trial states, including reported ones.", "anchors": ["neps/state/trial.py:Trial.reset"]}
{"id": "C27", "title": "Status summary: best configuration", "statement": "The reported best loss is the smallest loss over all successfully evaluated trials, the reported best config/id/metadata belong to a trial attaining it, it is infinite/None exactly when no successful trial has a loss below infinity, and the evaluated and error counts equal the number of reported and of non-successful reported trials.", "quantifier": "all sets of trials, including NaN and infinite losses", "why_tests_cant": "All sets and orders of trials.", "anchors": ["neps/status/status.py:get_summary_dict", "neps/utils/types.py:_ConfigResultForStats"]}
{"id": "C28", "title": "Status summary: pending counts", "statement": "The summary's pending count equals the number of trials that are pending or evaluating, and the with-worker count the number being evaluated.", "quantifier": "all sets of trials", "why_tests_cant": "All combinations of statuses.", "anchors": ["neps/status/status.py:get_summary_dict"]}
{"id": "C29", "title": "The CSV summary never goes backwards", "statement": "When several workers write the CSV summary, the number of evaluated configurations in the file never decreases, whatever the order in which they computed and wrote their summaries.", "quantifier": "all interleavings of summary computation and writing", "why_tests_cant": "Needs particular schedules.", "anchors": ["neps/status/status.py:_save_data_to_csv", "neps/status/status.py:post_run_csv"]}
{"id": "C30", "title": "Fidelity ladder", "statement": "For successive halving with eta >= 2, the budget of each rung lies between the minimal and maximal fidelity, the highest rung has exactly the maximal fidelity, budgets increase strictly from rung to rung, each rung gets eta times the previous one (up to integer truncation), and early_stopping_rate s removes exactly the lowest s rungs.", "quantifier": "all fidelity bounds, all eta, all early stopping rates", "why_tests_cant": "Arithmetic over all parameters.", "anchors": ["neps/optimizers/multi_fidelity/successive_halving.py:_get_rung_map", "neps/optimizers/multi_fidelity/successive_halving.py:stopping_rate_limit"]}
{"id": "C31", "title": "Configuration ids are never reused", "statement": "Over any history of asks and reports in any order, each ask of a successive-halving optimizer returns an id that no existing trial has, so no result is overwritten.", "quantifier": "all histories of asks, reports and failures, all numbers of workers", "why_tests_cant": "Inductive over histories.", "anchors": ["neps/optimizers/multi_fidelity/successive_halving.py:get_config_and_ids", "neps/optimizers/multi_fidelity/successive_halving.py:_generate_new_config_id"]}
{"id": "C32", "title": "A promotion continues an existing, finished evaluation", "statement": "Whenever a successive-halving style optimizer promotes, the returned trial names as predecessor an existing finished trial of the same configuration exactly one rung below, keeps all its hyperparameters except the fidelity, sets the fidelity to the budget of the new rung, and the same promotion is never made twice.", "quantifier": "all histories of asks and reports in any order", "why_tests_cant": "Inductive over histories.", "anchors": ["neps/optimizers/multi_fidelity/successive_halving.py:get_config_and_ids", "neps/optimizers/multi_fidelity/promotion_policy.py"]}
{"id": "C33", "title": "Asynchronous promotions come from the top 1/eta of a rung", "statement": "The asynchronous policy promotes only a configuration that is among the best floor(n/eta) of the n finished configurations of its rung, never from the highest rung, never a configuration already promoted, and promotes from the highest rung where that is possible.", "quantifier": "all rung contents, all eta, all rung numbers", "why_tests_cant": "For all performances and all sizes.", "anchors": ["neps/optimizers/multi_fidelity/promotion_policy.py:AsyncPromotionPolicy"]}
{"id": "C34", "title": "Synchronous promotions wait for a full rung", "statement": "The synchronous policy promotes from a rung only when the rung holds at least as many finished configurations as its configured size, takes only among the best ones, and never from the highest rung.", "quantifier": "all rung contents, all rung sizes", "why_tests_cant": "For all contents.", "anchors": ["neps/optimizers/multi_fidelity/promotion_policy.py:SyncPromotionPolicy"]}
{"id": "C35", "title": "The optimizer's view does not depend on directory order", "statement": "The table of observed configurations a multi-fidelity optimizer derives from finished trials holds, for each configuration, the performance at its highest finished rung, independent of the order in which the trials are listed, except that configurations with a running higher rung show that rung as pending.", "quantifier": "all sets of trials, all listing orders", "why_tests_cant": "All permutations.", "anchors": ["neps/optimizers/multi_fidelity/successive_halving.py:_load_previous_observations", "neps/optimizers/multi_fidelity/successive_halving.py:_handle_pending_evaluations"]}
{"id": "C36", "title": "Bracket sizes", "statement": "Each successive-halving bracket starts at most as many configurations at each rung as configured, rung sizes shrink from rung to rung by eta, and the lowest rung of hyperband bracket s has ceil((s_max+1)/(s+1) * eta^s) configurations as in the paper (up to the code's rounding).", "quantifier": "all eta, all fidelity bounds", "why_tests_cant": "Arithmetic over all parameters.", "anchors": ["neps/optimizers/multi_fidelity/successive_halving.py:_get_config_map", "neps/optimizers/multi_fidelity/hyperband.py"]}
{"id": "C37", "title": "Observed-data table operations are all-or-nothing", "statement": "Adding or updating observations for a set of (configuration, budget) keys either changes exactly these keys or, when one of them conflicts, changes nothing and raises/warns as documented; next_config_id is larger than every stored id.", "quantifier": "all tables, all key sets", "why_tests_cant": "All key overlap patterns.", "anchors": ["neps/optimizers/multi_fidelity/utils.py:MFObservedData"]}
{"id": "C38", "title": "Keeping only the highest budget", "statement": "Reducing to the highest seen budget keeps exactly one row per configuration, namely the one with the largest budget, with its performance unchanged.", "quantifier": "all tables", "why_tests_cant": "All row orders and duplicates.", "anchors": ["neps/optimizers/multi_fidelity/utils.py:MFObservedData.reduce_to_max_seen_budgets", "neps/optimizers/models/ftpfn.py:_keep_highest_budget_evaluation"]}
{"id": "C39", "title": "PriorBand sampling weights are probabilities", "statement": "The weights for sampling from the prior, around the incumbent and at random are non-negative and sum to one for every rung, every eta and every weighting option, also when the incumbent is inactive.", "quantifier": "all rungs, all eta, all options", "why_tests_cant": "Arithmetic over all parameters.", "anchors": ["neps/optimizers/multi_fidelity_prior/priorband.py:PriorBandBase"]}
{"id": "C40", "title": "Incumbent search terminates and returns the best configuration", "statement": "find_incumbent returns a configuration with the smallest performance among the observed ones, with and without a rung argument.", "quantifier": "all observation tables, all rungs", "why_tests_cant": "Non-termination cannot be tested.", "anchors": ["neps/optimizers/multi_fidelity_prior/priorband.py:PriorBandBase.find_incumbent"]}
{"id": "C41", "title": "IFBO continues existing learning curves", "statement": "Whenever ifBO proposes to continue a configuration, the predecessor it names exists.", "quantifier": "all fidelity ranges, all step sizes, all curve lengths", "why_tests_cant": "Fails only for particular combinations of range, step and depth.", "anchors": ["neps/optimizers/multi_fidelity/ifbo.py:IFBO.ask"]}
{"id": "C42", "title": "IFBO step adjustment", "statement": "Adjusting the fidelity range to the step size keeps the upper bound, moves the lower bound up by less than one step, and makes the range an exact multiple of the step.", "quantifier": "all ranges and steps", "why_tests_cant": "Arithmetic over all parameters.", "anchors": ["neps/optimizers/multi_fidelity/ifbo.py:_adjust_pipeline_space_to_match_stepsize"]}
{"id": "C43", "title": "Decoded values respect the bounds", "statement": "Every value produced from a unit-interval value by a domain lies within the domain's bounds and is an integer for integer domains, and on the bin grid for binned ones; unit values 0 and 1 map to the lower and upper bound.", "quantifier": "all domains (linear/log, integer/float, binned), all unit values", "why_tests_cant": "Infinitely many domains and values.", "anchors": ["neps/search_spaces/domain.py:Domain.from_unit"]}
{"id": "C44", "title": "Numeric encoding round-trips", "statement": "Encoding a legal value to the unit interval and decoding it returns the value, for integer and float, linear and log domains.", "quantifier": "all domains, all legal values", "why_tests_cant": "Infinitely many domains and values.", "anchors": ["neps/search_spaces/domain.py:Domain.to_unit", "neps/search_spaces/domain.py:Domain.from_unit", "neps/search_spaces/encoding.py:MinMaxNormalizer"]}
{"id": "C45", "title": "Casting between domains agrees with going through the unit interval", "statement": "Casting a value from one domain to another gives the same result as normalising it in the source domain and denormalising it in the target domain, in particular it stays in the target's bounds; casting to the same domain is the identity on legal values.", "quantifier": "all pairs of domains, all legal values", "why_tests_cant": "The shortcut branches depend on bound coincidences.", "anchors": ["neps/search_spaces/domain.py:Domain.cast"]}
{"id": "C46", "title": "Configurations round-trip through the encoder", "statement": "Encoding a list of configurations to a tensor and decoding it returns the configurations (restricted to encoded parameters, plus the constants), column order depends only on the names, and each configuration is encoded independently of the others.", "quantifier": "all encoders, all lists of configurations", "why_tests_cant": "All parameter sets and orders.", "anchors": ["neps/search_spaces/encoding.py:ConfigEncoder", "neps/search_spaces/encoding.py:CategoricalToIntegerTransformer", "neps/search_spaces/encoding.py:CategoricalToUnitNorm"]}
{"id": "C47", "title": "Parameter values are always legal", "statement": "Any sequence of set_value, sample, clone and mutation operations on a numeric or categorical parameter leaves its value within its bounds/choices, and a rejected assignment leaves the parameter unchanged.", "quantifier": "all parameters, all operation sequences", "why_tests_cant": "All histories.", "anchors": ["neps/search_spaces/hyperparameters/numerical.py", "neps/search_spaces/hyperparameters/integer.py", "neps/search_spaces/hyperparameters/categorical.py"]}
{"id": "C48", "title": "Grid covers the space without repetition", "statement": "The grid of a search space contains each combination of the per-parameter grid values exactly once (constants and fidelities fixed).", "quantifier": "all search spaces, all grid sizes", "why_tests_cant": "All combinations.", "anchors": ["neps/search_spaces/search_space.py:SearchSpace.get_search_space_grid", "neps/search_spaces/hyperparameters/numerical.py:NumericalParameter.grid"]}
{"id": "C49", "title": "Grid search visits every grid point exactly once", "statement": "Over a run, grid search proposes every grid point exactly once and then refuses, whatever the seed.", "quantifier": "all grids, all seeds, all histories", "why_tests_cant": "All permutations and lengths.", "anchors": ["neps/optimizers/grid_search/optimizer.py:GridSearch.ask"]}
{"id": "C50", "title": "Random search, grid search and Bayesian optimization never reuse an id", "statement": "Each proposal's id differs from the ids of all trials proposed before in the run.", "quantifier": "all histories", "why_tests_cant": "Inductive over histories.", "anchors": ["neps/optimizers/random_search/optimizer.py", "neps/optimizers/grid_search/optimizer.py", "neps/optimizers/bayesian_optimization/optimizer.py"]}
{"id": "C51", "title": "Border sampler enumerates the corners", "statement": "Asked for at least 2^d points the border sampler returns every corner of the unit hypercube exactly once; asked for fewer it returns that many distinct corners.", "quantifier": "all dimensions, all requested numbers, all permutations drawn", "why_tests_cant": "All dimensions.", "anchors": ["neps/sampling/samplers.py:BorderSampler"]}
{"id": "C52", "title": "Prior log-probability is the sum over the parameters", "statement": "The log-probability of a configuration under a centered prior equals the sum of the log-probabilities of its parameters under their own distributions.", "quantifier": "all priors, all configurations", "why_tests_cant": "All mixes of uniform and non-uniform parameters.", "anchors": ["neps/sampling/priors.py:CenteredPrior.log_prob"]}
{"id": "C53", "title": "Categorical prior weights", "statement": "The weights of a categorical parameter's prior are non-negative, sum to one, give the default the configured confidence and all others the same weight.", "quantifier": "all numbers of choices, all defaults, all confidences", "why_tests_cant": "All sizes.", "anchors": ["neps/sampling/priors.py:Prior.make_centered"]}
{"id": "C54", "title": "Prior columns correspond to encoder columns", "statement": "When a prior is built from the same parameters as an encoder, column i of the prior describes the parameter encoded in column i.", "quantifier": "all parameter sets and names", "why_tests_cant": "Depends on the alphabetical order of names.", "anchors": ["neps/sampling/priors.py:Prior.from_parameters", "neps/optimizers/bayesian_optimization/optimizer.py", "neps/search_spaces/encoding.py:ConfigEncoder"]}
{"id": "C55", "title": "Settings priority", "statement": "When run arguments are given both in code and in YAML, an explicit code argument wins over YAML, YAML wins over the default, searcher options are merged key by key with code winning, and unknown keys are rejected.", "quantifier": "all combinations of arguments", "why_tests_cant": "Exponentially many combinations.", "anchors": ["neps/utils/run_args.py:Settings"]}
{"id": "C56", "title": "Flattening of run arguments", "statement": "Flattening a nested YAML mapping keeps every leaf exactly once under its own name and keeps the special keys whole.", "quantifier": "all nested mappings", "why_tests_cant": "All nestings.", "anchors": ["neps/utils/run_args.py:extract_leaf_keys"]}
{"id": "C57", "title": "Default searcher choice", "statement": "Without an explicit searcher, the optimizer chosen is PriorBand for spaces with prior and fidelity, piBO for prior only, Hyperband for fidelity only, and Bayesian optimization otherwise.", "quantifier": "all search spaces", "why_tests_cant": "All spaces.", "anchors": ["neps/api.py:_run_args"]}
{"id": "C58", "title": "YAML number formats are understood", "statement": "A YAML value written as number in scientific notation is converted to the number it denotes, other strings are left alone, and the parameter type deduced is integer iff both bounds are integers.", "quantifier": "all strings and bounds", "why_tests_cant": "All strings.", "anchors": ["neps/search_spaces/yaml_search_space_utils.py"]}
{"id": "C59", "title": "Replacing a subtree of an architecture string", "statement": "Removing a subtree from an architecture string and concatenating the three parts gives back the string; replacing it by another balanced subtree yields a balanced string.", "quantifier": "all trees, all subtree positions", "why_tests_cant": "All strings.", "anchors": ["neps/search_spaces/architecture/cfg.py:Grammar.remove_subtree", "neps/search_spaces/architecture/cfg.py:Grammar.mutate"]}
{"id": "C60", "title": "Checkpoint directory lookup finds the root of the chain", "statement": "For any trial continued through any number of predecessors, the initial directory returned is the one of the first trial of its chain in the current run.", "quantifier": "all chains, all sequences of lookups, several result directories in one process", "why_tests_cant": "All chain lengths and lookup histories.", "anchors": ["neps/utils/common.py:get_initial_directory"]}
{"id": "C61", "title": "Optimizers and status see what was reported", "statement": "After a successful evaluation, the loss, the cost and every other entry the user returned are exactly what an optimizer is given for that trial and what the status functions show; a failed evaluation is presented to both as an error; the status functions can always read a stored report.", "quantifier": "all user results, all default settings", "why_tests_cant": "Name clashes between the user's keys and the keys the code adds need all dictionaries.", "anchors": ["neps/state/trial.py:Trial.into_config_result", "neps/state/trial.py:Report.to_deprecate_result_dict", "neps/state/_eval.py:parse_user_result"]}
{"id": "C62", "title": "No configuration is handed out twice after a kill while sampling", "statement": "If the optimizer proposes different configurations from different random states, then the configurations stored by any number of workers, some of which may be killed while they sample, are pairwise different.", "quantifier": "all schedules and kill points", "why_tests_cant": "Needs a kill between two particular writes.", "anchors": ["neps/state/neps_state.py:NePSState.sample_trial"]}
{"id": "C63", "title": "The post-run summary can be created for every run", "statement": "Creating the CSV summary after a run succeeds whatever the outcomes of the trials, including when no trial succeeded.", "quantifier": "all sets of trials", "why_tests_cant": "Only sets of trials with particular outcomes fail.", "anchors": ["neps/status/status.py:_save_data_to_csv", "neps/status/status.py:post_run_csv", "neps/api.py:run"]}
{"id": "C64", "title": "A multi-fidelity optimizer always gives an answer", "statement": "In every state a run can get into, asking successive halving, ASHA, Hyperband or asynchronous Hyperband for the next configuration ends and returns one, for every legal fidelity range, eta and early stopping rate.", "quantifier": "all histories of asks and reports, all listing orders, all fidelity bounds", "why_tests_cant": "The exceptions need particular combinations of pending, failed and finished trials.", "anchors": ["neps/optimizers/multi_fidelity/successive_halving.py:ask", "neps/optimizers/multi_fidelity/hyperband.py"]}
{"id": "C65", "title": "Promotions are not put off", "statement": "When a rung of a bracket of a synchronous optimizer is full, all evaluations of the bracket are finished and the next rung has room, the next answer is a promotion.", "quantifier": "all histories of asks and reports", "why_tests_cant": "Liveness over all histories.", "anchors": ["neps/optimizers/multi_fidelity/promotion_policy.py:SyncPromotionPolicy", "neps/optimizers/multi_fidelity/successive_halving.py:clear_old_brackets"]}
{"id": "C66", "title": "The best learning curve and the history of a configuration", "statement": "For a table of observations in which evaluations may be pending, get_best_learning_curve_id returns the lowest configuration id among those whose performance at any budget is best (smallest, or largest when maximizing), get_best_seen_performance returns a recorded performance that none beats, and extract_learning_curve(i, b) returns the performances of configuration i at budgets strictly below b in increasing order of budget, with NaN where it has none.", "quantifier": "all tables, ids, budgets and both directions", "why_tests_cant": "Ties between configurations, pending evaluations and gaps in budgets appear only in particular tables", "anchors": ["neps/optimizers/multi_fidelity/utils.py:get_best_learning_curve_id", "neps/optimizers/multi_fidelity/utils.py:extract_learning_curve"]}
{"id": "C67", "title": "PriorBand's weights follow the documented schedule", "statement": "Random sampling gets 1 part against eta^rung parts (geometric), against linearly 1 to eta parts from the lowest to the highest rung (linear), or against 1 part (50-50). Of the rest, the incumbent, once used, gets 1/eta of the prior's part (constant), or the prior's share halves each time eta * max_budget is spent (decay), or 1/eta of the prior's part until some rung has eta evaluations (dynamic). The incumbent is never drawn while it is not used, and with valid weights exactly one policy with positive weight is drawn.", "quantifier": "all trials, rungs, eta, types of weights, styles and random numbers", "why_tests_cant": "Ratios of random draws are not visible in single runs.", "anchors": ["neps/optimizers/multi_fidelity_prior/priorband.py:calc_sampling_args", "neps/optimizers/multi_fidelity_prior/priorband.py:prior_to_incumbent_ratio", "neps/optimizers/multi_fidelity/sampling_policy.py:EnsemblePolicy.sample"]}
{"id": "C68", "title": "When PriorBand uses the incumbent", "statement": "The incumbent is used exactly when the configurations in the table have cost at least what one full successive-halving bracket with continuation costs and some evaluation at the highest rung has finished; once it is used it stays in use.", "quantifier": "all histories of asks and reports", "why_tests_cant": "Needs long histories with several workers.", "anchors": ["neps/optimizers/multi_fidelity_prior/priorband.py:is_activate_inc"]}
{"id": "C69", "title": "The draw of a bracket in asynchronous Hyperband and PriorBand", "statement": "For every eta >= 2 and number of rungs the probabilities are positive, sum to one, are proportional to eta^(K-s)/(K-s+1), do not grow with the bracket's number, and every random number selects an existing bracket.", "quantifier": "all eta, numbers of rungs and random numbers", "why_tests_cant": "Distribution over unboundedly many settings.", "anchors": ["neps/optimizers/multi_fidelity/hyperband.py:AsynchronousHyperband._get_bracket_to_run", "neps/optimizers/multi_fidelity_prior/async_priorband.py:PriorBandAshaHB._get_bracket_to_run"]}
{"id": "C70", "title": "Model-based sampling takes over after the initial design", "statement": "With model_based, the sampling policy is used until the initial design is complete (for a model per rung: some rung has init_size finished evaluations, the highest such rung being modelled), and afterwards the model returns a configuration.", "quantifier": "all states of the table", "why_tests_cant": "The initial design must be complete before the branch is reached.", "anchors": ["neps/optimizers/multi_fidelity/mf_bo.py:MFBOBase.sample_new_config", "neps/optimizers/multi_fidelity/mf_bo.py:MFBOBase.is_init_phase", "neps/optimizers/multi_fidelity/sampling_policy.py:ModelPolicy.sample"]}
{"id": "C71", "title": "Translating tensors between domains", "statement": "Translating a tensor casts each entry from the source domain of its column to the target domain of its column, keeping the shape; it is rejected exactly when the number of given domains is not the number of columns.", "quantifier": "all tensors with two dimensions, all lists of domains", "why_tests_cant": "All shapes and domains.", "anchors": ["neps/search_spaces/domain.py:Domain.translate"]}
{"id": "C72", "title": "Clones of hyperparameters", "statement": "Cloning a hyperparameter succeeds and gives an object with the same bounds or choices, scale, default, value and domain, which compares equal to the original; the confidence in the default is kept.", "quantifier": "all hyperparameters and all histories of operations on them", "why_tests_cant": "Any sequence of operations can precede the clone.", "anchors": ["neps/search_spaces/hyperparameters/float.py:FloatParameter.clone", "neps/search_spaces/hyperparameters/integer.py:IntegerParameter.clone", "neps/search_spaces/hyperparameters/categorical.py:CategoricalParameter.clone"]}
{"id": "C73", "title": "Mutation and crossover of hyperparameters", "statement": "Mutating a hyperparameter gives a legal value different from the parent's; crossover gives two legal values, which for categorical parameters are the parents' values swapped; both succeed for every supported strategy.", "quantifier": "all hyperparameters, parents, random draws", "why_tests_cant": "The outcome depends on random draws.", "anchors": ["neps/search_spaces/hyperparameters/numerical.py:NumericalParameter.mutate", "neps/search_spaces/hyperparameters/numerical.py:NumericalParameter.crossover", "neps/search_spaces/hyperparameters/categorical.py:CategoricalParameter.mutate", "neps/search_spaces/hyperparameters/categorical.py:CategoricalParameter.crossover"]}
{"id": "C74", "title": "The prior of a hyperparameter", "statement": "The prior of a number is centred at its current default, on the parameter's scale; the prior over choices has positive weights that add up to one, the default's being the confidence score times each of the others.", "quantifier": "all hyperparameters and all histories of operations on them", "why_tests_cant": "Any sequence of operations; weights over arbitrary choices.", "anchors": ["neps/search_spaces/hyperparameters/numerical.py:NumericalParameter._get_truncnorm_prior_and_std", "neps/search_spaces/hyperparameters/categorical.py:CategoricalParameter._compute_prior_probabilities"]}
{"id": "C75", "title": "Normalised values of hyperparameters", "statement": "The normalised value of a float parameter is in [0, 1] and decodes to the value; every number in [0, 1] decodes to a legal value; the search for neighbours ends as soon as enough draws are in [0, 1].", "quantifier": "all float parameters, values and draws", "why_tests_cant": "Real intervals.", "anchors": ["neps/search_spaces/hyperparameters/float.py:FloatParameter.value_to_normalized", "neps/search_spaces/hyperparameters/float.py:FloatParameter.normalized_to_value", "neps/search_spaces/hyperparameters/float.py:FloatParameter._get_neighbours"]}
{"id": "C76", "title": "Making a search space", "statement": "The parameters of a search space are in alphabetical order whatever the order in which they were given; a space is refused exactly when it has more than one fidelity; each parameter is exactly one of numerical, categorical, constant or the fidelity.", "quantifier": "all sets of parameters and orders of giving them", "why_tests_cant": "Unbounded sets of parameters and permutations.", "anchors": ["neps/search_spaces/search_space.py:SearchSpace.__init__"]}
{"id": "C77", "title": "Sampling a search space", "statement": "A sampled configuration has exactly the parameters of the space, each with a legal value; when the fidelity is ignored it is left as it is; sampling succeeds whatever is drawn.  What random search proposes can be evaluated.", "quantifier": "all spaces, draws and numbers of attempts", "why_tests_cant": "All draws of all spaces.", "anchors": ["neps/search_spaces/search_space.py:SearchSpace.sample", "neps/optimizers/random_search/optimizer.py:RandomSearch.ask"]}
{"id": "C78", "title": "Configurations survive serialisation", "statement": "A complete configuration is serialised to its values and reading them back with the space gives the same values; missing values and unknown names raise.", "quantifier": "all spaces and configurations", "why_tests_cant": "All values of all parameters.", "anchors": ["neps/search_spaces/search_space.py:SearchSpace.serialize", "neps/search_spaces/search_space.py:SearchSpace.from_dict"]}
{"id": "C79", "title": "Mutation and crossover of configurations", "statement": "Mutating a configuration changes exactly one value, which is neither the fidelity nor a constant; the children of a crossover are legal configurations that have the values of the parents where they are not crossed.", "quantifier": "all configurations, draws and numbers of attempts", "why_tests_cant": "All draws and retries.", "anchors": ["neps/search_spaces/search_space.py:SearchSpace.mutate", "neps/search_spaces/search_space.py:SearchSpace._smbo_mutation", "neps/search_spaces/search_space.py:SearchSpace.crossover", "neps/search_spaces/search_space.py:SearchSpace._simple_crossover"]}
{"id": "C80", "title": "Default configuration, setting of values and defaults", "statement": "The default configuration has every default and legal values elsewhere; it is refused exactly when a default is missing and must not be; setting the maximum fidelity or values from a dict changes just these values; current values can be made the defaults.", "quantifier": "all spaces and dicts of legal values", "why_tests_cant": "All combinations of missing defaults.", "anchors": ["neps/search_spaces/search_space.py:SearchSpace.sample_default_configuration", "neps/search_spaces/search_space.py:SearchSpace.set_to_max_fidelity", "neps/search_spaces/search_space.py:SearchSpace.set_hyperparameters_from_dict", "neps/search_spaces/search_space.py:SearchSpace.set_defaults_to_current_values"]}
{"id": "C81", "title": "Comparing configurations", "statement": "Two configurations count as equal exactly when all their values do: floats whose normalised values differ by at most half of the eighth decimal, integers and choices that are the same; it is an equivalence relation.", "quantifier": "all pairs and triples of configurations of a space", "why_tests_cant": "Real-valued parameters near the rounding threshold.", "anchors": ["neps/search_spaces/search_space.py:SearchSpace.is_equal_value"]}
{"id": "C82", "title": "Local mutation and crossover around an incumbent", "statement": "Local mutation never changes the fidelity, constants or (unless asked to) categoricals; its result differs from the incumbent unless all attempts failed.  Custom crossover mixes the values of both parents, keeps the fidelity of the first, is not equal to the first, and never raises.", "quantifier": "all configurations, coins, draws and numbers of attempts", "why_tests_cant": "All draws and retries.", "anchors": ["neps/optimizers/multi_fidelity_prior/utils.py:local_mutation", "neps/optimizers/multi_fidelity_prior/utils.py:custom_crossover"]}
{"id": "C83", "title": "ifBO's learning curves have no gaps", "statement": "In every run of ifBO with any number of workers, if a step of a configuration exists then so do all earlier steps of that configuration, and no step is beyond the number of steps of the range.", "quantifier": "all histories of proposals and reports, all scores, all ranges and steps", "why_tests_cant": "Depends on the interplay of rounding and histories.", "anchors": ["neps/optimizers/multi_fidelity/ifbo.py:IFBO.ask"]}
{"id": "C84", "title": "ifBO continues the last finished step", "statement": "When ifBO continues a configuration, the predecessor it names is the last finished step of that configuration, the proposal has the same configuration, and its identifier is that of the next step.", "quantifier": "all histories, all scores", "why_tests_cant": "Requires all orders of reports.", "anchors": ["neps/optimizers/multi_fidelity/ifbo.py:IFBO.ask", "neps/optimizers/bayesian_optimization/models/ftpfn.py:_keep_highest_budget_evaluation"]}
{"id": "C85", "title": "ifBO starts new configurations at the lowest fidelity", "statement": "A proposal of ifBO that continues nothing has a configuration number above all existing ones, step zero, and the lowest fidelity of the adjusted range.", "quantifier": "all histories, all ranges", "why_tests_cant": "Ranges that end at 1 behave differently from others.", "anchors": ["neps/optimizers/multi_fidelity/ifbo.py:IFBO.ask", "neps/optimizers/bayesian_optimization/models/ftpfn.py:acquire_next_from_ftpfn"]}
{"id": "C86", "title": "ifBO takes steps of the step size", "statement": "The fidelity of step k is the lower bound of the adjusted range plus k times the step size, and within the range.", "quantifier": "all histories, all ranges and steps", "why_tests_cant": "Needs exact arithmetic over all parameters.", "anchors": ["neps/optimizers/multi_fidelity/ifbo.py:IFBO.__init__", "neps/optimizers/multi_fidelity/ifbo.py:IFBO.ask"]}
{"id": "C87", "title": "ifBO's identifiers are new", "statement": "The identifier that ifBO proposes is not that of an existing trial.", "quantifier": "all histories, including trials under evaluation", "why_tests_cant": "Happens only with several workers.", "anchors": ["neps/optimizers/multi_fidelity/ifbo.py:IFBO.ask"]}
{"id": "C88", "title": "ifBO always has a proposal", "statement": "As long as all reported losses are within [0, 1] and the surrogate gives numbers, ifBO proposes something.", "quantifier": "all histories, all ranges and steps", "why_tests_cant": "Fails only for special ranges.", "anchors": ["neps/optimizers/multi_fidelity/ifbo.py:IFBO.ask"]}
{"id": "C89", "title": "ifBO rejects losses outside [0, 1]", "statement": "After the initial design, a reported loss outside [0, 1] is rejected with an error.", "quantifier": "all histories", "why_tests_cant": "Depends on what else is being evaluated.", "anchors": ["neps/optimizers/bayesian_optimization/models/ftpfn.py:encode_ftpfn"]}
{"id": "C90", "title": "Crashed evaluations are not preferred by ifBO", "statement": "The score that a crashed evaluation enters the surrogate with is not better than that of evaluations that finished.", "quantifier": "all histories", "why_tests_cant": "A matter of sign and defaults that no error shows.", "anchors": ["neps/optimizers/bayesian_optimization/models/ftpfn.py:encode_ftpfn"]}
{"id": "C91", "title": "Priors peak at the defaults", "statement": "A prior built from parameters gives each parameter with a default a distribution whose most likely value is that default and that falls with the distance from it on the parameter's scale, with a spread depending on the confidence only; parameters without a default are uniform.", "quantifier": "all parameters the constructors accept, all lists of them", "why_tests_cant": "Densities are not compared at all values.", "anchors": ["neps/sampling/priors.py:Prior.from_parameters", "neps/sampling/priors.py:Prior.make_centered", "neps/sampling/distributions.py:TruncatedNormal"]}
{"id": "C92", "title": "Samplers give legal values", "statement": "Samples that the uniform, Sobol and centered samplers give for target domains are legal values of these domains and depend on the draws, whatever dtype is asked for.", "quantifier": "all domains, all draws, all dtypes", "why_tests_cant": "All draws.", "anchors": ["neps/sampling/samplers.py:Sobol.sample", "neps/sampling/priors.py:UniformPrior.sample", "neps/sampling/priors.py:CenteredPrior.sample"]}
{"id": "C93", "title": "Weighted sampler", "statement": "The weighted sampler picks its samplers with probabilities proportional to the weights, and every row of the result is a row of the sampler picked for it, each used once.", "quantifier": "all numbers of samplers, all weights, all picks", "why_tests_cant": "All interleavings of picks.", "anchors": ["neps/sampling/samplers.py:WeightedSampler"]}
{"id": "C94", "title": "The prior's weight in piBO decays", "statement": "In Bayesian optimization with a prior, the weight of the prior decays with the number of evaluations to nothing: the acquisition is weighted with a power of the prior whose exponent falls, for all spaces with a prior.", "quantifier": "all spaces, all histories, all acquisition values", "why_tests_cant": "A matter of values that no error shows.", "anchors": ["neps/optimizers/bayesian_optimization/acquisition_functions/pibo.py", "neps/optimizers/bayesian_optimization/optimizer.py:_pibo_exp_term"]}
{"id": "C95", "title": "Directories of tasks and development stages", "statement": "Runs with different task or development stage identifiers write to different directories below the root directory.", "quantifier": "all identifiers", "why_tests_cant": "Any strings and objects.", "anchors": ["neps/api.py:run"]}
{"id": "C96", "title": "Options reach the searcher", "statement": "A searcher that was asked for gets the options of the call, else those of its configuration, else those of its default file; and the budget and error values of the run. An optimizer of the user is used unchanged.", "quantifier": "all searchers, configurations and options", "why_tests_cant": "All dictionaries.", "anchors": ["neps/api.py:_run_args", "neps/utils/common.py:get_searcher_data"]}
{"id": "C97", "title": "ConfigSpace spaces and mixed pipeline spaces", "statement": "Parameters given as a ConfigSpace are treated like those of NePS: the searcher is chosen by what the user stated, and no parameter gets lost.", "quantifier": "all spaces", "why_tests_cant": "All spaces.", "anchors": ["neps/search_spaces/search_space.py:pipeline_space_from_configspace", "neps/api.py:_run_args"]}
{"id": "C98", "title": "Settings of a run are complete and typed", "statement": "A run starts only with a pipeline to evaluate, a root directory, a space or an optimizer, and a limit; YAML settings have the types of the arguments they set.", "quantifier": "all arguments and files", "why_tests_cant": "All combinations.", "anchors": ["neps/utils/run_args.py:check_run_args", "neps/utils/run_args.py:check_essential_arguments"]}
{"id": "C99", "title": "Reading the same search space dictionary again", "statement": "Reading a search space from a dictionary changes the dictionary, but reading the changed dictionary again gives the same space; after a failed reading the dictionary still means what it said.", "quantifier": "all dictionaries", "why_tests_cant": "All dictionaries; the second reading of a changed object.", "anchors": ["neps/search_spaces/search_space.py:pipeline_space_from_yaml", "neps/search_spaces/yaml_search_space_utils.py:deduce_type"]}
{"id": "C100", "title": "Problems of a search space are reported as such", "statement": "Whatever is wrong in a search space given as a file or dictionary, the user gets a SearchSpaceFromYamlFileError.", "quantifier": "all dictionaries and files", "why_tests_cant": "All ill-formed inputs.", "anchors": ["neps/search_spaces/search_space.py:pipeline_space_from_yaml", "neps/search_spaces/yaml_search_space_utils.py"]}
{"id": "C101", "title": "Sampling architectures from a grammar", "statement": "Every string sampled from a grammar stands for a tree that the grammar derives from the start symbol; every derivable tree can be sampled; a grammar in which a name is both a terminal and a nonterminal, or in which a nonterminal has no production, is rejected when it is created.", "quantifier": "all grammars, all random draws", "why_tests_cant": "Missing trees and rejections that never happen are not visible in samples.", "anchors": ["neps/search_spaces/architecture/cfg.py:Grammar._sampler", "neps/search_spaces/architecture/cfg.py:Grammar.__init__"]}
{"id": "C102", "title": "The probability of an architecture under a prior", "statement": "For every tree of a grammar, compute_prior returns the product of the probabilities of the productions the tree uses, or with log=True (the default) the sum of their logarithms.", "quantifier": "all grammars, priors and derivable trees", "why_tests_cant": "The string is parsed by looking for symbols; only particular sets of productions go wrong.", "anchors": ["neps/search_spaces/architecture/cfg.py:Grammar.compute_prior"]}
{"id": "C103", "title": "Mutation and crossover of architectures", "statement": "Mutating an architecture gives a different tree of the grammar; crossing two of them over exchanges subtrees with the same symbol and gives trees of the grammar; every subtree whose symbol has several productions can be chosen; an architecture that has such a subtree can always be mutated.", "quantifier": "all grammars, trees, random draws and both strategies", "why_tests_cant": "Needs all trees and all draws.", "anchors": ["neps/search_spaces/architecture/mutations.py:bananas_mutate", "neps/search_spaces/architecture/mutations.py:simple_mutate", "neps/search_spaces/architecture/cfg.py:Grammar.crossover", "neps/search_spaces/architecture/cfg.py:Grammar.rand_subtree", "neps/search_spaces/architecture/graph_grammar.py:GraphGrammar.mutate"]}
{"id": "C104", "title": "A continued trial loads its predecessor's checkpoint", "statement": "load_checkpoint in a trial that continues another returns exactly what that other trial last saved under the name (the user's values and the states of model and optimizer) and nothing if nothing was saved; different names do not interfere; Lightning checkpoints are found as documented.", "quantifier": "all histories of runs, processes, saves and names", "why_tests_cant": "Which saves can reach which loads is a question over all histories and names.", "anchors": ["neps/utils/common.py:load_checkpoint", "neps/utils/common.py:save_checkpoint", "neps/utils/common.py:load_lightning_checkpoint", "neps/state/neps_state.py:sample_trial"]}
{"id": "C105", "title": "An evaluation does not affect later runs of the process", "statement": "However an evaluation ends, later evaluations in the same process, of this or another run, can begin and reach the user's function.", "quantifier": "all outcomes of evaluations, all later histories", "why_tests_cant": "Needs every way an evaluation can end followed by every later history.", "anchors": ["neps/runtime.py:_set_global_trial", "neps/runtime.py:DefaultWorker.run"]}
{"id": "C106", "title": "results shows the incumbents", "statement": "`neps results` lists exactly the trials whose loss is smaller than that of every trial before them, newest first, with identifier, loss and configuration; with --plot it plots each at its position among all trials. The listing does not depend on the order in which the file system lists the trials, and trials whose evaluation failed do not disturb it.", "quantifier": "For all sets of trials, all losses (also inf and nan), all listing orders.", "why_tests_cant": "Tests use a few successful trials numbered 1, 2, 3; the order of directory listings, failing evaluations and identifiers such as 1_0 of multi-fidelity runs are not tried together.", "anchors": ["neps/utils/cli.py:results", "neps/utils/cli.py:plot_incumbents"]}
{"id": "C107", "title": "neps run is neps.run", "statement": "`neps run` with some options does what neps.run with the corresponding arguments does, options that are absent having neps.run's defaults. Each item key=value of --searcher-kwargs gives the searcher the argument key: true/false in any case as booleans, decimal integers, decimal numbers with point or exponent rounded to the nearest float, everything else as text; the last item for a key counts, an item without = is a ValueError. No item changes another option.", "quantifier": "For all combinations of options and all lists of items.", "why_tests_cant": "There are exponentially many combinations of options and infinitely many texts of numbers.", "anchors": ["neps/utils/cli.py:run_optimization", "neps/utils/cli.py:parse_kv_pairs"]}
{"id": "C108", "title": "info-config shows any trial", "statement": "`neps info-config id` shows identifier, state, configuration, metadata and report of the trial with that identifier, whatever its state, and says so if there is no such trial.", "quantifier": "For all states of a run and all identifiers.", "why_tests_cant": "A trial in a test is usually finished; pending and running ones exist only while a worker is at work.", "anchors": ["neps/utils/cli.py:info_config"]}
{"id": "C109", "title": "status is right", "statement": "`neps status` shows the numbers of succeeded, failed, active and pending trials, the smallest loss and a trial with it, and lists the seven trials sampled last, newest first - or, with a filter, all trials in that state - with identifier, worker, state, loss and times.", "quantifier": "For all states of a run and all filters.", "why_tests_cant": "Numbers and order have to be right for all mixtures of states and sampling times.", "anchors": ["neps/utils/cli.py:status", "neps/status/status.py:get_summary_dict"]}
{"id": "C110", "title": "Commands look where the run writes, and only look", "statement": "Commands that show something look at the directory given, or at that of the run that run_config.yaml describes, or else raise ValueError; they leave files and directories as they are, apart from the plot. `neps init` does not overwrite an existing file.", "quantifier": "For all contents of the file system and all commands.", "why_tests_cant": "That nothing else is touched is a statement about all files and all commands.", "anchors": ["neps/utils/cli.py:get_root_directory", "neps/utils/cli.py:init_config", "neps/utils/cli.py:main"]}
{"id": "C111", "title": "tblogger.log writes exactly what was asked for, to the directory of the first trial of the chain", "statement": "Calling tblogger.log during an evaluation appends exactly the records asked for (the loss as a scalar, the hyperparameters with the loss, extra scalars, images at every n-th epoch), with the configuration of the trial being evaluated and the epoch given, to 'tbevents' in the directory of the first trial of the chain the trial continues; it raises nothing, except FileNotFoundError when a continued trial's first trial has no such directory; it changes no trial, checkpoint or state of the run; all records of one trial's loss have one tag.", "quantifier": "All histories of a process (trials sampled, updated and continued by any worker, evaluations that end, fail or are interrupted, lookups, calls with any arguments, enabling and disabling), all calls", "why_tests_cant": "The writer and the identifier are variables of a class that live as long as the process, and depend on all calls made before and on other workers' trials; tests make single calls in single evaluations", "anchors": ["neps/plot/tensorboard_eval.py:tblogger.log", "neps/plot/tensorboard_eval.py:tblogger._initialize_writers", "neps/utils/common.py:get_initial_directory"]}
{"id": "C112", "title": "tblogger's incumbent trajectory shows the best loss so far", "statement": "With write_summary_incumbent the end of an evaluation appends one record to 'summary' in the run's directory: the number of trials reported and the smallest loss among them, the trial that just ended included; without it, or with the logger disabled, nothing is appended.", "quantifier": "All histories of a process, all outcomes of evaluations", "why_tests_cant": "Needs the order of callbacks and of storing reports, and what a process keeps from earlier trials and runs; tests do not run evaluations with the logger", "anchors": ["neps/plot/tensorboard_eval.py:tblogger.end_of_config", "neps/plot/tensorboard_eval.py:tblogger._tracking_incumbent_api", "neps/runtime.py:_set_global_trial"]}
{"id": "C113", "title": "Grids of images show every image once, without overlap", "statement": "The grid tblogger builds from a batch of images contains each image in full size at its own place: all places lie within the grid and no two overlap.", "quantifier": "All numbers of images, all numbers of columns, all sizes", "why_tests_cant": "Tests would look at some numbers of images only; rounding of the number of rows depends on divisibility", "anchors": ["neps/plot/tensorboard_eval.py:tblogger._make_grid"]}
{"id": "C114", "title": "The initial design of Bayesian optimization is what was asked for, and is gone through once", "statement": "make_initial_design returns the default configuration first if asked for, then the requested number of different sampled configurations, spread over the space as the sampler drew them, all at the requested fidelities; during the initial design the optimizer hands out each of them once, by whatever process is asked.", "quantifier": "All spaces, sizes, fidelity requests and draws; all runs of any number of processes", "why_tests_cant": "Tests fix a seed and a space; the order of the rows, repeated draws and designs of several processes are not looked at", "anchors": ["neps/optimizers/initial_design.py:make_initial_design", "neps/optimizers/bayesian_optimization/optimizer.py:BayesianOptimization.ask"]}
{"id": "C115", "title": "The surrogate is trained on the evaluated trials, with the median for missing losses", "statement": "encode_trials_for_gp gives for every trial with a report its encoded configuration, its loss (the median of the known losses if it has none) and its cost, in the same order; all targets are finite; exactly the trials without report are pending.", "quantifier": "All lists of trials with any losses and costs, including missing, NaN and infinite ones", "why_tests_cant": "Tests use a few finite losses; medians of even numbers of losses, infinities and the absence of any loss are corner cases", "anchors": ["neps/optimizers/bayesian_optimization/models/gp.py:encode_trials_for_gp", "neps/optimizers/bayesian_optimization/models/gp.py:make_default_single_obj_gp"]}
{"id": "C116", "title": "Bayesian optimization always proposes a configuration", "statement": "BayesianOptimization.ask returns a new configuration in every state of a run that is within its budget: whatever evaluations crashed, are still running or lack a cost, and also after the run was continued with a greater budget.", "quantifier": "All optimizers, all trials, all budgets, all settings of the worker", "why_tests_cant": "The failing states occur after the initial design only, with crashes, several workers or continued runs", "anchors": ["neps/optimizers/bayesian_optimization/optimizer.py:BayesianOptimization.ask", "neps/optimizers/bayesian_optimization/models/gp.py:fit_and_acquire_from_gp", "neps/optimizers/bayesian_optimization/acquisition_functions/cost_cooling.py:cost_cooled_acq"]}
{"id": "C117", "title": "The acquisition function is optimized for every combination of categories", "statement": "optimize_acq lets botorch optimize over every possible combination of categories exactly once, with at least one restart each.", "quantifier": "All numbers of categorical columns and choices", "why_tests_cant": "Tests use one or two small categoricals; the number of restarts drops to 0 for some allowed numbers of combinations", "anchors": ["neps/optimizers/bayesian_optimization/models/gp.py:optimize_acq"]}
{"id": "C118", "title": "Losses and costs of results are read as documented", "statement": "BaseOptimizer.get_loss and get_cost return the loss and the cost of a result or report, and treat errors as configured.", "quantifier": "All results, reports and settings for errors", "why_tests_cant": "No test calls get_cost with a report", "anchors": ["neps/optimizers/base_optimizer.py:BaseOptimizer.get_loss", "neps/optimizers/base_optimizer.py:BaseOptimizer.get_cost"]}
{"id": "C119", "title": "The plot of a run shows the best loss after every evaluation", "statement": "plot draws for a run one curve that over 1, 2, 3, ... shows the least loss among that many evaluations, in the order in which they were made.", "quantifier": "All runs with any trials, losses and identifiers", "why_tests_cant": "Tests run one example with a few evaluations and look at no curve; more than nine trials and identifiers of fidelities order differently", "anchors": ["neps/plot/read_results.py:process_seed", "neps/plot/plot.py:plot", "neps/plot/plotting.py:_interpolate_time", "neps/plot/plotting.py:_df_to_x_range"]}
{"id": "C120", "title": "Every run with an evaluated configuration can be plotted", "statement": "plot saves a figure for every run in which at least one configuration was evaluated successfully.", "quantifier": "All runs, including those with crashed, running and waiting trials", "why_tests_cant": "Tests plot runs without failures only", "anchors": ["neps/plot/plot.py:plot", "neps/plot/read_results.py:process_seed"]}
{"id": "C121", "title": "The horizontal axis shows the cost asked for", "statement": "With key_to_extract the cost of an evaluation is that entry of its info_dict; with consider_continuations the cost of a continued trial is reduced by that of the trial it continues, and with several workers evaluations are shown at the time at which they ended since the start of the run.", "quantifier": "All runs, keys and numbers of workers", "why_tests_cant": "Tests never pass consider_continuations or several workers", "anchors": ["neps/plot/read_results.py:process_seed", "neps/plot/plotting.py:_interpolate_time"]}
{"id": "C122", "title": "Curves of several seeds show the incumbents of their own times", "statement": "For several seeds with any costs, each seed's curve has at every position of any seed the incumbent that this seed had then, within the x_range asked for.", "quantifier": "All numbers of seeds, evaluations, costs and ranges", "why_tests_cant": "Interpolation is only visible for seeds with different costs, which no test has", "anchors": ["neps/plot/plotting.py:_interpolate_time", "neps/plot/plotting.py:_df_to_x_range", "neps/plot/plotting.py:_plot_incumbent"]}
{"id": "C123", "title": "The figure of several benchmarks has each in its own labelled axes", "statement": "plot draws every benchmark and algorithm, each benchmark into axes of its own with its title; the lowest axes of every column have an x label, the leftmost of every row a y label.", "quantifier": "All numbers of benchmarks and algorithms", "why_tests_cant": "Tests use one benchmark; the layout depends on the number of benchmarks, and fails for large ones only", "anchors": ["neps/plot/plot.py:plot", "neps/plot/plotting.py:_map_axs", "neps/plot/plotting.py:_set_legend", "neps/plot/plotting.py:_get_fig_and_axs"]}
{"id": "C124", "title": "Plotter3D reads configurations and epochs from the identifiers", "statement": "Plotter3D takes from the identifiers of a stored run the number of the configuration and the epoch, counted from 1, for every run that was summarised.", "quantifier": "All sets of identifiers", "why_tests_cant": "Tests use no stored run", "anchors": ["neps/plot/plot3D.py:Plotter3D.prep_df"]}
{"id": "C125", "title": "The user's function is called with the configuration and the directories it names", "statement": "If the names in the configuration and the directories named by the function fit its signature, the function is called once, every parameter gets the configuration's value, the trial's directory, or its default, and everything else goes to **kwargs; the two directories are given exactly to functions that name them. If they do not fit, the function is not run and the trial is reported as crashed.", "quantifier": "for all signatures, configurations, locations and previous locations", "why_tests_cant": "Tests use a handful of signatures; clashes between hyperparameters and directory names only show for particular names.", "anchors": ["neps/state/_eval.py:evaluate_trial", "neps/state/_eval.py:_eval_trial"]}
{"id": "C126", "title": "Environment variables set the polling interval and time limit of every lock", "statement": "On import every one of the ten settings is what its own environment variable says, or its default if that is not set; a value that cannot be read is an error on import; a variable never changes another setting.", "quantifier": "for all environments", "why_tests_cant": "Tests run in one environment.", "anchors": ["neps/env.py:get_env", "neps/env.py:is_nullable"]}
{"id": "C127", "title": "Waiting for a lock respects the time limit", "statement": "A lock is only taken when nobody else holds it; waiting is given up not before the time limit, ends for every finite limit, and never with an infinite one; a lock that gets free for good within the limit is taken at most one interval later; a limit of none means no limit; is_locked tells whether the lock is held.", "quantifier": "for all schedules of other holders, delays of the scheduler, intervals and limits", "why_tests_cant": "Timing of several processes cannot be enumerated.", "anchors": ["neps/state/filebased.py:FileLocker.lock", "neps/state/filebased.py:FileLocker.is_locked"]}
{"id": "C128", "title": "Workers taking turns draw the random numbers one process would draw", "statement": "Setting a snapshot of the random number generators restores each of them; so workers that ask the optimizer in turn through the shared directory together draw exactly what a single process would draw, whatever each drew before.", "quantifier": "for all states of generators, optimizers, numbers of workers and orders of turns", "why_tests_cant": "Tests capture and restore in one process on one machine.", "anchors": ["neps/state/seed_snapshot.py:SeedSnapshot.recapture", "neps/state/seed_snapshot.py:SeedSnapshot.set_as_global_seed_state", "neps/state/neps_state.py:NePSState.sample_trial"]}
{"id": "C129", "title": "Stored snapshots of the random number generators are read as written, and compared exactly", "statement": "A snapshot that is written is read again unchanged, whatever the directory held before; two snapshots are equal exactly when all their states are.", "quantifier": "for all snapshots and contents of the directory", "why_tests_cant": "The difference only shows for particular combinations of libraries and devices.", "anchors": ["neps/state/filebased.py:ReaderWriterSeedSnapshot.read", "neps/state/filebased.py:ReaderWriterSeedSnapshot.write", "neps/state/seed_snapshot.py:SeedSnapshot.__eq__"]}
{"id": "C130", "title": "Information about searchers is that of the searcher named", "statement": "The searchers listed are the shipped yaml files; the algorithms are those they name, each once; the searchers of an algorithm are those that name it; the text given for a searcher is that of its own file, and a name that is no searcher's is refused.", "quantifier": "for all contents of the directory in any order", "why_tests_cant": "The order of a directory is that of the file system on which a test runs.", "anchors": ["neps/optimizers/info.py:SearcherConfigs.get_searchers", "neps/optimizers/info.py:SearcherConfigs.get_available_algorithms", "neps/optimizers/info.py:SearcherConfigs.get_searcher_from_algorithm", "neps/optimizers/info.py:SearcherConfigs.get_searcher_kwargs"]}
{"id": "C131", "title": "Pruning an architecture's graph leaves exactly the paths from its input to its output", "statement": "From a graph without cycles prune_unconnected_parts removes exactly the nodes that are not on a path from the input to the output, with their edges, and keeps all others; an architecture is refused as invalid exactly if there is no path from the input to the output at all.", "quantifier": "for all acyclic graphs and orders of their nodes", "why_tests_cant": "Graphs and orders of removal cannot be enumerated; removal of one node cascades to others.", "anchors": ["neps/search_spaces/architecture/core_graph_grammar.py:CoreGraphGrammar.prune_unconnected_parts", "neps/search_spaces/architecture/core_graph_grammar.py:CoreGraphGrammar._check_graph"]}
{"id": "C132", "title": "Pruning zero and identity operations preserves the function computed by the graph", "statement": "With operations at the nodes, zeros are removed and identities are bypassed, so two remaining nodes are joined exactly if they were joined directly or by identities only; with primitives at the edges exactly the edges with a zero operation are removed; afterwards only paths from input to output are left; graphs with no or several inputs or outputs are refused.", "quantifier": "for all acyclic graphs, sets of zero and identity operations and orders of nodes", "why_tests_cant": "Chains of identities of any length and in any order of removal.", "anchors": ["neps/search_spaces/architecture/core_graph_grammar.py:CoreGraphGrammar.prune_graph"]}
{"id": "C133", "title": "The text of an architecture is composed as its parse tree says", "statement": "Composing the text of a parse tree applies each topology to what its own children stand for, in their order, a nonterminal with one child standing for that child.", "quantifier": "for all grammars with plain symbols and all their parse trees", "why_tests_cant": "Parse trees of any depth; a wrong composition is another valid architecture, so nothing fails.", "anchors": ["neps/search_spaces/architecture/core_graph_grammar.py:CoreGraphGrammar._compose_functions", "neps/search_spaces/architecture/core_graph_grammar.py:find_longest_match", "neps/search_spaces/architecture/core_graph_grammar.py:skip_char"]}
{"id": "C134", "title": "Calling a topology gives what its operations make of the input", "statement": "Calling a topology with x gives the value at its last node, where every node has what the operations at its incoming edges make of the values at their beginnings, merged; the operations given belong to the edges in their order.", "quantifier": "for all operations, merge functions and inputs, all numbers of edges of chains, all numbers of nodes of dense graphs, and all graphs whose breadth first order is sorted", "why_tests_cant": "Graphs of any size; a node that is visited too early merges stale values, and nothing fails.", "anchors": ["neps/search_spaces/architecture/topologies.py:AbstractTopology.__call__", "neps/search_spaces/architecture/topologies.py:AbstractTopology.create_graph", "neps/search_spaces/architecture/topologies.py:_DenseNNodeDAG.get_edge_list", "neps/search_spaces/architecture/topologies.py:_SequentialNEdge.get_edge_list"]}
{"id": "C135", "title": "Flattening an architecture does not change what it computes", "statement": "The flat graph of a graph whose operations may be graphs has every primitive operation in its order, one source and one sink, and computes the same results as the nested graph if values are added at nodes.", "quantifier": "for all nested graphs with one source and one sink at each level, all meanings of operations, all commutative additions", "why_tests_cant": "Any depth of nesting and any graph at each level; confused node numbers would still be a valid graph.", "anchors": ["neps/search_spaces/architecture/core_graph_grammar.py:CoreGraphGrammar.flatten_graph"]}
{"id": "C136", "title": "The generated module computes the graph", "statement": "The module generated from a graph with one source and one sink gives, for every input, the value at the sink; graphs with other sinks or unknown operations are refused.", "quantifier": "for all acyclic graphs, operations, combining operations and inputs", "why_tests_cant": "The variables and module numbers of the generated source depend on the whole graph.", "anchors": ["neps/search_spaces/architecture/graph.py:Graph._to_pytorch"]}
{"id": "C137", "title": "Architecture parameters keep what they stand for", "statement": "After any sequence of loading, sampling, cloning, reading and failed calls, the value of an architecture parameter is the graph of its id; an id that was read loads to an equal parameter with the same value; clones, samples and children stand for the text they were made from; parameters are equal exactly when their ids are.", "quantifier": "for all grammars, texts and sequences of calls", "why_tests_cant": "Value and id are cached separately and are filled in lazily; only particular orders of calls, or failing ones, can leave them apart.", "anchors": ["neps/search_spaces/architecture/graph_grammar.py:GraphParameter.load_from", "neps/search_spaces/architecture/graph_grammar.py:GraphParameter.clone", "neps/search_spaces/architecture/graph_grammar.py:GraphGrammar.create_from_id", "neps/search_spaces/architecture/api.py:ArchitectureParameter"]}
{"id": "C138", "title": "Modules of architectures are built along the graph", "statement": "Given set_recursive_attribute, every edge gets the attributes computed from its own data and the finished data of an edge before it (none at the input), and the module is made of that graph; all documented kinds of structure and the default of set_recursive_attribute are accepted.", "quantifier": "for all acyclic graphs, attribute functions and structures", "why_tests_cant": "The data of an edge are changed while later edges read them; the order and the choice of the edge before matter for all graphs.", "anchors": ["neps/search_spaces/architecture/api.py:_build", "neps/search_spaces/architecture/api.py:ArchitectureParameter"]}
{"id": "C139", "title": "The pool of candidates has its size, comes from the best, and the best of it are chosen", "statement": "The mutation sampler's pool has pool_size candidates: mutations of the n_best configurations with the smallest losses, all different unless isomorphisms are allowed, and random ones; a batch of it are the candidates with the greatest distinct acquisition values, a single sample one with the greatest.", "quantifier": "for all data, mutations, hashes, patience, sizes and acquisition values", "why_tests_cant": "Which mutations are kept depends on hashes of temporary objects, and what is chosen on ties; tests with a fixed seed see one outcome.", "anchors": ["neps/optimizers/bayesian_optimization/acquisition_samplers/mutation_sampler.py:MutationSampler.create_pool", "neps/optimizers/bayesian_optimization/acquisition_samplers/mutation_sampler.py:_propose_location", "neps/optimizers/bayesian_optimization/acquisition_samplers/mutation_sampler.py:MutationSampler.sample_batch"]}
{"id": "C140", "title": "Constrained grammars give what obeys the constraints", "statement": "Sampling from a grammar with constraints gives exactly the trees of the grammar in which, at every node, no subtree is one that the constraints refuse given the subtrees before it; mutation replaces a subtree by such a one that is not refused at its place; crossover does not bring in an operation that is refused.", "quantifier": "for all grammars, constraints (functions or objects), trees, places and random choices", "why_tests_cant": "Constraints depend on all subtrees sampled before; the trees are unboundedly many and a violation only shows for particular combinations.", "anchors": ["neps/search_spaces/architecture/cfg_variants/constrained_cfg.py:ConstrainedGrammar._constrained_sampler", "neps/search_spaces/architecture/cfg_variants/constrained_cfg.py:ConstrainedGrammar.mutate", "neps/search_spaces/architecture/cfg_variants/constrained_cfg.py:ConstrainedGrammar._compute_current_context", "neps/search_spaces/architecture/cfg_variants/constrained_cfg.py:ConstrainedGrammar.crossover"]}
{"id": "C141", "title": "Weighted acquisition functions consider pending points once and give one value, however many weights there are", "statement": "An acquisition function wrapped by WeightedAcquisition takes over the pending points, so they are considered once; with one weight every sample's value at every point is weighed before the reductions; with two weights (prior and costs) the second is put on the value of the first and one value comes out, also with pending points.", "quantifier": "All acquisition functions, weights, points, pending points and numbers of samples.", "why_tests_cant": "Tests use neither a prior together with costs nor pending trials; the shape error appears only when both weights and a running evaluation meet.", "anchors": ["neps/optimizers/bayesian_optimization/acquisition_functions/weighted_acquisition.py:WeightedAcquisition", "neps/optimizers/bayesian_optimization/models/gp.py:fit_and_acquire_from_gp"]}
{"id": "C142", "title": "Acquisition weights prefer what is cheaper, likelier and better, and state can be set", "statement": "Cost cooling prefers the cheaper of two points with equal values and the better of two with equal costs, and has no effect once the budget is used; the decaying prior counts complete observations and prefers the likelier point; the confidence bound rewards uncertainty and good means and its beta can be set; the incumbent of the expected improvement is the least observation or the one with the least predicted mean.", "quantifier": "All values, costs, priors, exponents, observations and predictions.", "why_tests_cant": "The orders hold for all real values; tests would compare a few numbers, and negative values, costs that are not positive and priors of exactly one are rare.", "anchors": ["neps/optimizers/bayesian_optimization/acquisition_functions/cost_cooling.py:apply_cost_cooling", "neps/optimizers/bayesian_optimization/acquisition_functions/prior_weighted.py:DecayingPriorWeightedAcquisition", "neps/optimizers/bayesian_optimization/acquisition_functions/ucb.py:UpperConfidenceBound", "neps/optimizers/bayesian_optimization/acquisition_functions/ei.py:ComprehensiveExpectedImprovement.set_state"]}
{"id": "C143", "title": "Distances tell configurations apart and a neighbour of the incumbent is found", "statement": "compute_config_dist is never negative, symmetric, and zero exactly for configurations that do not differ; sample_neighbour returns the first sample within the radius at its turn (which grows by one percent after each 1001 rejected samples) or within the tolerance, and always ends.", "quantifier": "for all configurations, norms, sequences of samples and radii", "why_tests_cant": "The samples are random and the loop has no bound; that it ends depends on a radius growing over thousands of samples.", "anchors": ["neps/optimizers/multi_fidelity_prior/utils.py:compute_config_dist", "neps/search_spaces/search_space.py:SearchSpace.get_normalized_hp_categories", "neps/optimizers/multi_fidelity/sampling_policy.py:EnsemblePolicy.sample_neighbour"]}
{"id": "C144", "title": "The prior is used as often and as long as it should be", "statement": "FixedPriorPolicy samples from the prior exactly for the given fraction of the random numbers; ModelPolicy.update_model weighs the acquisition function with the prior while the exponent 10 / decay_t is significant (at least 1e-4).", "quantifier": "for all fractions, random numbers and decay_t", "why_tests_cant": "The model's weight shows in no output but the distribution of later samples; a test would have to compare acquisition values.", "anchors": ["neps/optimizers/multi_fidelity/sampling_policy.py:FixedPriorPolicy", "neps/optimizers/multi_fidelity/sampling_policy.py:ModelPolicy.update_model"]}
{"id": "C145", "title": "The graph built from an architecture's string computes what its tree says", "statement": "from_stringTree_to_graph_repr (edge-attributed) gives a graph in which every operation of the derivation tree that is not pruned is on an edge of its own, and the paths from the first to the last node carry exactly the sequences of operations obtained by walking through the topologies and replacing their edges by the subtrees (without those with a pruned operation).", "quantifier": "for all topologies (edge lists), trees of any depth and pruned operations", "why_tests_cant": "Trees are nested without bound and nodes are renumbered at each level; a clash of numbers shows only for particular nestings.", "anchors": ["neps/search_spaces/architecture/core_graph_grammar.py:CoreGraphGrammar.from_stringTree_to_graph_repr"]}
{"id": "C146", "title": "A prior of a grammar that is accepted can be sampled from, and means what it says", "statement": "The setter of Grammar.prior takes a prior exactly if each nonterminal has as many probabilities as productions, summing up to 1, and keeps the one before otherwise; sampling with an accepted prior does not fail, draws each production with its probability, and never uses one whose probability is 0.", "quantifier": "for all grammars, priors, earlier priors and random numbers in [0, 1)", "why_tests_cant": "The productions drawn depend on random numbers; tests see a few draws, and a rare production or a failing one may never be drawn.", "anchors": ["neps/search_spaces/architecture/cfg.py:Grammar.prior", "neps/search_spaces/architecture/cfg.py:Grammar._sampler"]}
{"id": "C147", "title": "A topology with operations on nodes has the paths of the one with operations on edges", "statement": "to_node_attributed_edge_list turns the edges of a topology with one first and one last node into nodes such that the paths from input to output go over exactly the nodes of the paths of the topology; without one first and one last node it fails.", "quantifier": "for all lists of different edges", "why_tests_cant": "Topologies are any graphs, and the paths grow exponentially in number; a wrong connection shows only for particular shapes.", "anchors": ["neps/search_spaces/architecture/core_graph_grammar.py:CoreGraphGrammar.from_stringTree_to_graph_repr"]}
