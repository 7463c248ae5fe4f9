{
 "claims": [
  {
   "property": "C01",
   "status": "proved",
   "theorems": [
    "store_refines_register",
    "store_disk_is_last_accepted",
    "put_accepted_iff_nothing_stored_since"
   ],
   "note": "All schedules, any number of workers; versions (uuid4) assumed collision free, lock sections atomic."
  },
  {
   "property": "C02",
   "status": "partial",
   "theorems": [
    "store_refines_register",
    "store_disk_is_last_accepted",
    "synced_after_failed_put_refuted"
   ],
   "note": "Holds for callers that try to put their in-place modifications before asking again; refuted otherwise (the returned object is the cache)."
  },
  {
   "property": "C03",
   "status": "proved",
   "theorems": [
    "new_or_load_elects_one_creator"
   ],
   "note": "Both lock sections of new_or_load interleave freely."
  },
  {
   "property": "C04",
   "status": "partial",
   "theorems": [
    "evaluated_at_most_once_partial",
    "each_worker_evaluates_once",
    "single_worker_evaluates_once",
    "evaluated_at_most_once_refuted"
   ],
   "note": "Refuted in general: between listing pending trials and re-reading the chosen one another worker can take it. Proved: per worker always, and overall when no such late re-read happens."
  },
  {
   "property": "C05",
   "status": "proved",
   "theorems": [
    "first_claim_wins"
   ],
   "note": "From every reachable state, for any number of competing workers and anything happening in between."
  },
  {
   "property": "C06",
   "status": "partial",
   "theorems": [
    "rejected_claim_partial",
    "rejected_claim_refuted"
   ],
   "note": "Outcome of a rejected claim characterised for all histories; the claim itself is refuted: before the first accepted attempt a rejection ends the worker with UnboundLocalError."
  },
  {
   "property": "C07",
   "status": "partial",
   "theorems": [
    "reported_is_final_partial",
    "report_never_rejected_partial",
    "reported_is_final_refuted",
    "report_never_rejected_refuted"
   ],
   "note": "Refuted by the race of C04; proved when no trial is re-read after another worker took it."
  },
  {
   "property": "C08",
   "status": "proved",
   "theorems": [
    "used_cost_is_sum_of_charged",
    "stored_reports_are_charged_once"
   ],
   "note": "All schedules, including restarts and kills while sampling; exact float addition."
  },
  {
   "property": "C09",
   "status": "proved",
   "theorems": [
    "error_log_is_complete",
    "stored_errors_are_logged_once"
   ],
   "note": "All schedules, including restarts and kills while sampling."
  },
  {
   "property": "C10",
   "status": "proved",
   "theorems": [
    "stopping_decision",
    "evaluations_counted",
    "every_evaluation_reported_partial"
   ],
   "note": "Exact characterisation of continue/stop/raise; every_evaluation_reported_partial ties it to a running worker."
  },
  {
   "property": "C11",
   "status": "proved",
   "theorems": [
    "single_worker_total",
    "single_worker_own"
   ],
   "note": "For all histories, outcomes that can be read or raise, and optimizers that answer."
  },
  {
   "property": "C12",
   "status": "proved",
   "theorems": [
    "overshoot_of_total_evaluations"
   ],
   "note": "All schedules, restarts, numbers of workers; the bound is attained by overshoot_attained_example."
  },
  {
   "property": "C13",
   "status": "proved",
   "theorems": [
    "cost_overshoot",
    "nan_cost_refuted"
   ],
   "note": "Sums are exact in the model; a NaN cost is excluded by the hypothesis and shown to disable the limit."
  },
  {
   "property": "C14",
   "status": "proved",
   "theorems": [
    "crash_is_recorded",
    "ignored_errors",
    "own_error_ends_worker",
    "any_error_ends_others",
    "any_error_raises_refuted"
   ],
   "note": "The reading without the clause on own limits is refuted."
  },
  {
   "property": "C15",
   "status": "proved",
   "theorems": [
    "sampling_is_reproducible"
   ],
   "note": "Two arbitrary runs with different workers, settings, schedules and results."
  },
  {
   "property": "C16",
   "status": "partial",
   "theorems": [
    "crash_while_creating",
    "killed_while_creating_blocks_for_ever",
    "crash_while_creating_never_blocks_refuted",
    "next_pending_is_oldest",
    "get_all_trials_is_what_is_stored"
   ],
   "note": "Exact: killed before the directory exists or after the state file is written, everything keeps working (the theorems about listings include such kills); killed in between, every process is blocked for ever."
  },
  {
   "property": "C17",
   "status": "partial",
   "theorems": [
    "completed_put_stores_trial",
    "crash_while_updating_version_moved",
    "crash_while_updating_cached_reader_partial",
    "crash_while_updating_fresh_reader_partial",
    "crash_while_updating_atomic_refuted"
   ],
   "note": "Every crash point between single file operations. The clause about moved versions and cached readers is proved; fresh readers may see a mixture (proved to consist of old and new parts) or fail."
  },
  {
   "property": "C18",
   "status": "partial",
   "theorems": [
    "first_opening_creates_state",
    "reopening_changes_nothing",
    "loading_gives_stored_state",
    "other_description_refused",
    "opening_after_crash_succeeds_iff",
    "opening_after_crash_refuted",
    "opening_after_crash_state_refuted",
    "opening_directory_without_info_fails",
    "opening_empty_directory_refuted",
    "same_description_accepted_refuted",
    "racing_first_opener_never_fails",
    "racing_late_opener_never_fails",
    "racing_openers_agree",
    "racing_openers_fail_only_on_missing_info",
    "racing_first_opening_refuted"
   ],
   "note": "Idempotence and refusal proved; crash points characterised exactly; races: who fails is characterised and refuted in general."
  },
  {
   "property": "C19",
   "status": "partial",
   "theorems": [
    "stored_trial_reads_back_partial",
    "completed_put_stores_trial",
    "stored_tuple_reads_back_refuted",
    "stored_without_report_reads_back_refuted",
    "unwritable_report_poisons_trial_refuted"
   ],
   "note": "Proved for plain data; refuted for tuples, for a dropped report and for values YAML cannot write."
  },
  {
   "property": "C20",
   "status": "partial",
   "theorems": [
    "directory_name_gives_back_id_iff",
    "listed_ids_are_the_put_ids_partial",
    "listed_ids_refuted"
   ],
   "note": "Proved exactly for ids that do not contain 'config_'."
  },
  {
   "property": "C21",
   "status": "proved",
   "theorems": [
    "put_new_refuses_existing_id",
    "put_new_stores_new_id"
   ],
   "note": "One process at a time (sampling holds the optimizer lock)."
  },
  {
   "property": "C22",
   "status": "proved",
   "theorems": [
    "next_pending_is_oldest",
    "pending_lists_exactly_pending_in_order",
    "get_all_trials_is_what_is_stored",
    "worker_takes_oldest_pending"
   ],
   "note": "All histories of sampling, updating, listing, restarting processes with their caches; plain data. worker_takes_oldest_pending is the same inside the worker loop."
  },
  {
   "property": "C23",
   "status": "partial",
   "theorems": [
    "report_eq_means_same_report",
    "report_eq_symmetric",
    "report_eq_transitive",
    "report_eq_reflexive_partial",
    "report_eq_reflexive_refuted",
    "report_eq_error_presence_refuted"
   ],
   "note": "Symmetry, transitivity and the field-by-field meaning hold for all reports; reflexivity fails for NaN in the learning curve; 'no error' equals an error with text None."
  },
  {
   "property": "C24",
   "status": "proved",
   "theorems": [
    "parse_plain_result",
    "parse_dict_result_sound",
    "parse_dict_result_complete",
    "parse_dict_without_loss"
   ],
   "note": "float() is a parameter that leaves floats alone."
  },
  {
   "property": "C25",
   "status": "partial",
   "theorems": [
    "evaluation_outcome",
    "every_evaluation_reported_partial",
    "every_evaluation_reported_refuted",
    "evaluation_always_reported_refuted"
   ],
   "note": "Holds for raising functions and readable results; refuted for unreadable results (worker dies, trial stays EVALUATING, process unusable)."
  },
  {
   "property": "C26",
   "status": "partial",
   "theorems": [
    "trial_identity_never_changes",
    "reset_restores_new_iff_unreported",
    "reset_keeps_only_report_partial",
    "reset_restores_new_refuted"
   ],
   "note": "Holds exactly for trials that were never reported."
  },
  {
   "property": "C27",
   "status": "proved",
   "theorems": [
    "summary_of_best",
    "evaluated_reports_are_plain"
   ],
   "note": "For every set of trials in any listing order; trials read from the directory."
  },
  {
   "property": "C28",
   "status": "partial",
   "theorems": [
    "pending_counts_refuted",
    "pending_counts_partial"
   ],
   "note": "Refuted: both counts are 0 whatever the trials; pending_counts_partial proves that."
  },
  {
   "property": "C29",
   "status": "partial",
   "theorems": [
    "csv_never_backwards_refuted",
    "csv_never_backwards_partial"
   ],
   "note": "Refuted: summaries are computed before the lock is taken; proved when nobody writes between computing and writing."
  },
  {
   "property": "C30",
   "status": "partial",
   "theorems": [
    "fidelity_ladder",
    "early_stopping_removes_rungs",
    "early_stopping_rounded_refuted"
   ],
   "note": "Ladder proved for every logarithm that is never rounded up; removal of rungs for exact logarithms, refuted for the float quotient (243, eta 3). Exact rational budgets."
  },
  {
   "property": "C31",
   "status": "proved",
   "theorems": [
    "ids_never_reused"
   ],
   "note": "All four optimizers; any logarithm, sorting and listing order. Ids as pairs of numbers."
  },
  {
   "property": "C32",
   "status": "proved",
   "theorems": [
    "promotion_continues",
    "promotion_fidelity"
   ],
   "note": "promotion_fidelity for exact logarithms."
  },
  {
   "property": "C33",
   "status": "partial",
   "theorems": [
    "asynchronous_promotion",
    "asynchronous_promotion_all_evaluated_refuted",
    "failed_not_promoted_refuted"
   ],
   "note": "Proved relative to the configurations whose highest evaluation is at the rung; refuted relative to all configurations evaluated there, and failed configurations get promoted with ignore_errors."
  },
  {
   "property": "C34",
   "status": "proved",
   "theorems": [
    "synchronous_promotion"
   ],
   "note": "SuccessiveHalving and Hyperband, all histories; exact logarithm; without ignore_errors (with it see C64)."
  },
  {
   "property": "C35",
   "status": "proved",
   "theorems": [
    "table_content",
    "table_order",
    "answer_order"
   ],
   "note": "All histories."
  },
  {
   "property": "C36",
   "status": "partial",
   "theorems": [
    "bracket_sizes",
    "bracket_never_overfull",
    "bracket_sizes_against_paper",
    "paper_sizes_refuted"
   ],
   "note": "Sizes and that no run exceeds them proved for all histories; sizes differ from the paper's."
  },
  {
   "property": "C37",
   "status": "partial",
   "theorems": [
    "add_adds_all",
    "add_adds_nothing",
    "add_error_unchanged",
    "update_updates_all",
    "update_updates_nothing",
    "update_error_unchanged_partial",
    "update_error_unchanged_refuted",
    "tables_well_formed",
    "labels_added_twice_refuted",
    "next_id_larger"
   ],
   "note": "Proved for all tables and arguments, except that a failing update of a new column leaves the column behind (refuted) and that one call may add a label twice (refuted)."
  },
  {
   "property": "C38",
   "status": "partial",
   "theorems": [
    "reduced_ids",
    "reduced_row",
    "reduced_unchanged_partial",
    "reduced_unchanged_refuted",
    "highest_levels",
    "kept_highest"
   ],
   "note": "One row per configuration with the largest budget proved; the performance is that of a lower budget when the evaluation at the largest one is pending (refuted)."
  },
  {
   "property": "C39",
   "status": "partial",
   "theorems": [
    "priorband_weights_valid",
    "priorband_weights_exist",
    "dynamic_weights_refuted",
    "dynamic_nan_refuted",
    "linear_weights_refuted",
    "decay_weights_overflow",
    "nearest_neighbour_refuted"
   ],
   "note": "Proved for all trials, rungs, eta and options in exact arithmetic; the conditions are needed: scores that are all zero give NaN, all-NaN results raise, linear weights need a bracket from rung 0, decay overflows for float fidelities, hypersphere needs two different configurations."
  },
  {
   "property": "C40",
   "status": "partial",
   "theorems": [
    "incumbent_best",
    "priorband_incumbent_best",
    "incumbent_at_rung_refuted"
   ],
   "note": "Proved without a rung; with a rung the loop never ends."
  },
  {
   "property": "C41",
   "status": "partial",
   "theorems": [
    "ifbo_predecessor_float_partial",
    "ifbo_predecessor_integer_partial",
    "ifbo_predecessor_refuted"
   ],
   "note": "All histories, scores and samples, in exact arithmetic. Proved for every float fidelity, and for integer fidelities with steps that are long compared to their number; refuted for integer fidelities in general (epochs 1 to 4 with the default step 1)."
  },
  {
   "property": "C42",
   "status": "partial",
   "theorems": [
    "step_adjustment_float",
    "step_adjustment_float_possible",
    "step_adjustment_integer_partial",
    "step_adjustment_default_refuted",
    "step_adjustment_integer_refuted",
    "step_adjustment_binary64_refuted"
   ],
   "note": "Proved in exact arithmetic for floats, and for integers with integer steps; refuted for integers with fractional steps, for defaults below the new bound (refused with ValueError), and in binary64."
  },
  {
   "property": "C43",
   "status": "partial",
   "theorems": [
    "decoded_values_legal",
    "decoded_ends",
    "decoded_monotone",
    "decoded_integer_share",
    "decode_single_value_refuted",
    "decode_bounds_binary64_refuted",
    "decode_log_bounds_binary64_refuted"
   ],
   "note": "Proved in exact arithmetic for all ranges with at least two values, log and exp being oracles; refuted for domains with one value and, because of rounding, in double precision."
  },
  {
   "property": "C44",
   "status": "partial",
   "theorems": [
    "encoded_in_unit",
    "encode_decode_roundtrip",
    "encode_decode_ends",
    "decode_encode_roundtrip",
    "log_integer_roundtrip_refuted",
    "binned_integer_roundtrip_refuted",
    "roundtrip_binary64_refuted"
   ],
   "note": "Proved in exact arithmetic except for logarithmic or binned ranges of integers, for which it is refuted; in double precision rounding refutes it for floats."
  },
  {
   "property": "C45",
   "status": "partial",
   "theorems": [
    "cast_through_unit",
    "cast_same_domain",
    "cast_log_bounds_outside",
    "cast_log_bounds_refuted",
    "unit_shortcut_never_taken"
   ],
   "note": "Proved in exact arithmetic; refuted when the target's bounds are the logarithms of the source's bounds."
  },
  {
   "property": "C46",
   "status": "partial",
   "theorems": [
    "encode_decode_configs",
    "encoded_in_range",
    "encode_independent",
    "encode_ignores_other_keys",
    "decode_independent",
    "column_order_by_name",
    "columns_alphabetical",
    "decoded_configs_legal",
    "column_domains",
    "default_encoder_exists",
    "log_integer_configs_refuted",
    "log_unit_configs_outside",
    "log_unit_configs_refuted",
    "empty_space_configs_refuted"
   ],
   "note": "Round trip, shape, range of the codes, independence, column order and legality of whatever is decoded, for all parameters except logarithmic integers, the logarithmic range 1..e and the space without anything, where it is false (_refuted). Values in exact rational arithmetic with arbitrary mutually inverse increasing log and exp; the structural theorems hold in any arithmetic."
  },
  {
   "property": "C47",
   "status": "partial",
   "theorems": [
    "float_value_within",
    "float_refusal_harmless",
    "float_accepts_iff",
    "integer_value_within",
    "integer_set_value",
    "categorical_value_choice",
    "constant_keeps_value",
    "float_sample_total",
    "float_sample_is_draw",
    "integer_sample_total",
    "categorical_sample_total",
    "integer_default_refuted",
    "integer_load_refuted",
    "categorical_refused_refuted",
    "categorical_sample_nan_refuted"
   ],
   "note": "Floats: in full, for every arithmetic including binary64. Integers (exact arithmetic): without loading values outside the bounds and without refused defaults, where it is false (_refuted). Categorical parameters: without refused values, where it is false (_refuted: the refused value stays and the parameter can no longer be cloned or sampled)."
  },
  {
   "property": "C48",
   "status": "partial",
   "theorems": [
    "grid_points",
    "grid_combinations",
    "grid_distinct_partial",
    "grid_repetitions",
    "grid_repetition_refuted",
    "grid_fidelity_refuted",
    "grid_binary64_refuted"
   ],
   "note": "Proved in exact arithmetic: size, points and all combinations, and no repetitions as long as integers are linear and at least as many as the points. Refuted otherwise for integers, for the fidelity (which is gridded) and, by rounding, for the upper bound of floats."
  },
  {
   "property": "C49",
   "status": "partial",
   "theorems": [
    "grid_search_each_once_partial",
    "grid_search_no_seed_refuted"
   ],
   "note": "Proved for a fixed shuffle (a seed); refuted without a seed, the default."
  },
  {
   "property": "C50",
   "status": "proved",
   "theorems": [
    "decimal_injective",
    "random_search_ids",
    "bayesian_ids",
    "bayesian_design_first",
    "grid_search_ids"
   ],
   "note": "Every answer becomes a trial before the next one is asked for (the lock of C08)."
  },
  {
   "property": "C51",
   "status": "proved",
   "theorems": [
    "border_corners",
    "border_shape",
    "corners_differ"
   ],
   "note": "For any target domains, any number or shape asked for; requests for more than 2^d points as a shape are refused."
  },
  {
   "property": "C52",
   "status": "partial",
   "theorems": [
    "log_prob_sum_partial",
    "log_prob_value",
    "log_prob_gap_fails",
    "log_prob_gap_error",
    "log_prob_index_fails",
    "log_prob_index_refuted",
    "log_prob_weight_wrong",
    "log_prob_weight_refuted"
   ],
   "note": "Proved if at most the first parameter has a prior; refuted otherwise: all but the first informed distribution are divided by the number of parameters, and a parameter without a prior before one with a prior raises IndexError."
  },
  {
   "property": "C53",
   "status": "partial",
   "theorems": [
    "categorical_weights",
    "categorical_weights_unused",
    "categorical_prior_is_normal",
    "categorical_prior_refuted",
    "categorical_offset_refuted"
   ],
   "note": "Proved for make_centered with a categorical domain of indices; refuted for priors built from parameters, which treat choices as ordered numbers, and for categorical domains of other integers."
  },
  {
   "property": "C54",
   "status": "partial",
   "theorems": [
    "columns_partial",
    "columns_refuted"
   ],
   "note": "Exact characterisation: it holds iff every numerical name precedes every categorical name."
  },
  {
   "property": "C55",
   "status": "partial",
   "theorems": [
    "settings_priority",
    "yaml_values",
    "yaml_options",
    "yaml_names",
    "yaml_unknown_rejected",
    "yaml_options_leak_refuted",
    "yaml_unknown_null_refuted",
    "unknown_keyword_refuted"
   ],
   "note": "Priority and merging proved for all arguments and files. Refuted: misspelt keys without a value, and misspelt keywords of the call, are accepted; options of a YAML searcher reach another searcher chosen in the code."
  },
  {
   "property": "C56",
   "status": "partial",
   "theorems": [
    "flatten_leaves",
    "flatten_specials",
    "flatten_any",
    "flatten_same_name_refuted"
   ],
   "note": "Proved where each name is used once; two leaves of the same name lose a value silently."
  },
  {
   "property": "C57",
   "status": "proved",
   "theorems": [
    "default_searcher",
    "default_searcher_runs",
    "default_searcher_known"
   ],
   "note": "For all spaces; further options of the call are ignored."
  },
  {
   "property": "C58",
   "status": "partial",
   "theorems": [
    "nearest_double_unique",
    "const_read_right",
    "categorical_read_right",
    "float_read_right",
    "int_read_right",
    "deduced_int_iff",
    "constructors_get_right_types",
    "integers_not_truncated",
    "space_by_parameters",
    "plus_sign_stays_text_refuted",
    "bare_point_stays_text_refuted",
    "inner_blank_stays_text_refuted",
    "int_bound_inexact_refuted",
    "mixed_bounds_refuted"
   ],
   "note": "Proved for numbers in the form of the documentation, with correct rounding to binary64, in constants, choices, bounds and defaults. Refuted: plus signs, bare points and inner blanks stay texts; integers above 2^53 in scientific notation are inexact. Aside: characters outside ASCII."
  },
  {
   "property": "C59",
   "status": "partial",
   "theorems": [
    "parts_make_up_the_text",
    "parts_at_root_refuted",
    "subtree_is_removed",
    "replaced_is_balanced",
    "bracket_terminal_refuted",
    "mutation_is_derived",
    "mutation_differs",
    "mutation_at_root_refuted",
    "mutation_without_patience"
   ],
   "note": "Proved for all strings at all positions but the first and the last word, and for all derivable trees where a subtree begins. Refuted at the root (a blank is added), for terminals with unbalanced brackets, and that mutation at the root tries again."
  },
  {
   "property": "C60",
   "status": "partial",
   "theorems": [
    "initial_directory_found",
    "directory_spellings",
    "initial_directory_in_progress",
    "trial_locations",
    "initial_directory_continued_partial",
    "initial_directory_two_runs_refuted",
    "moved_results_refuted"
   ],
   "note": "Proved for processes whose runs use one directory, for all chains and histories of lookups. Refuted for several result directories in one process (the cache is keyed by the identifier alone) and for results that were moved."
  },
  {
   "property": "C61",
   "status": "partial",
   "theorems": [
    "optimizer_is_told_what_was_reported",
    "failure_is_told_as_error",
    "status_is_told_what_was_reported",
    "status_readable_refuted"
   ],
   "note": "Proved for optimizers; status raises TypeError exactly when info_dict is not a dictionary."
  },
  {
   "property": "C62",
   "status": "partial",
   "theorems": [
    "never_sampled_twice_refuted"
   ],
   "note": "Refuted: a kill between put_new and put_seed_state."
  },
  {
   "property": "C63",
   "status": "partial",
   "theorems": [
    "post_run_summary_partial",
    "post_run_summary_refuted"
   ],
   "note": "Exact: succeeds iff some trial has a loss; otherwise KeyError, raised as RuntimeError."
  },
  {
   "property": "C64",
   "status": "partial",
   "theorems": [
    "optimizer_answers",
    "asha_early_stopping_raises",
    "answers_with_ignored_errors_refuted",
    "answers_all_pending_refuted",
    "answers_float_log_refuted"
   ],
   "note": "Proved with conditions; each condition shown to be needed by a refutation."
  },
  {
   "property": "C65",
   "status": "partial",
   "theorems": [
    "promotes_when_possible",
    "nan_blocks_rung",
    "promotes_when_finished_refuted"
   ],
   "note": "Proved when all evaluations have a value; refuted for NaN, which blocks its rung for ever."
  },
  {
   "property": "C66",
   "status": "proved",
   "theorems": [
    "best_learning_curve",
    "best_learning_curve_exists",
    "best_performance",
    "learning_curve_before"
   ],
   "note": "All tables with unique labels."
  },
  {
   "property": "C67",
   "status": "proved",
   "theorems": [
    "priorband_schedule",
    "dynamic_shares",
    "policy_drawn",
    "inactive_incumbent_never_drawn",
    "crossover_partner"
   ],
   "note": "Exact arithmetic."
  },
  {
   "property": "C68",
   "status": "partial",
   "theorems": [
    "incumbent_activation",
    "activation_kept_refuted"
   ],
   "note": "Condition proved; refuted that it persists."
  },
  {
   "property": "C69",
   "status": "proved",
   "theorems": [
    "bracket_draw"
   ],
   "note": "Exact arithmetic."
  },
  {
   "property": "C70",
   "status": "partial",
   "theorems": [
    "model_free_sampling",
    "active_rung_highest",
    "joint_design_by_cost",
    "model_sampling_raises",
    "model_sampling_refuted"
   ],
   "note": "Initial phase proved; afterwards the model always raises AttributeError or, for the joint model, ValueError when nothing has finished at the rung."
  },
  {
   "property": "C71",
   "status": "proved",
   "theorems": [
    "translate_by_column",
    "translate_wrong_width"
   ],
   "note": "Any arithmetic."
  },
  {
   "property": "C72",
   "status": "partial",
   "theorems": [
    "float_clone",
    "integer_clone",
    "categorical_clone",
    "clone_equal_iff",
    "clone_confidence_refuted"
   ],
   "note": "All attributes are kept except a confidence set after construction, which is lost (_refuted)."
  },
  {
   "property": "C73",
   "status": "partial",
   "theorems": [
    "float_mutation",
    "integer_mutation",
    "categorical_mutation",
    "categorical_local_search_total",
    "numeric_crossover",
    "categorical_crossover",
    "numeric_simple_mutation_raises",
    "numeric_simple_mutation_refuted"
   ],
   "note": "Results are legal and different from the parent. The simple strategy always raises for numbers (_refuted)."
  },
  {
   "property": "C74",
   "status": "partial",
   "theorems": [
    "float_prior_centre",
    "categorical_prior",
    "integer_prior_centre_refuted"
   ],
   "note": "False for logarithmic integers after set_default (_refuted). The truncated normal density itself is not modelled."
  },
  {
   "property": "C75",
   "status": "proved",
   "theorems": [
    "normalized_value",
    "normalized_decode",
    "float_neighbours_total"
   ],
   "note": "Exact arithmetic with arbitrary mutually inverse increasing log and exp."
  },
  {
   "property": "C76",
   "status": "proved",
   "theorems": [
    "space_alphabetical",
    "space_order_free",
    "space_one_fidelity",
    "space_fidelity",
    "space_parts"
   ],
   "note": "Graph parameters are not modelled."
  },
  {
   "property": "C77",
   "status": "partial",
   "theorems": [
    "sample_legal",
    "sample_total",
    "random_search_fidelity_refuted"
   ],
   "note": "Exact arithmetic. Random search told to ignore the fidelity proposes it as None (_refuted)."
  },
  {
   "property": "C78",
   "status": "proved",
   "theorems": [
    "serialize_round_trip",
    "serialize_values",
    "from_dict_unknown_name"
   ],
   "note": "Exact arithmetic."
  },
  {
   "property": "C79",
   "status": "partial",
   "theorems": [
    "mutation_one_value",
    "crossover_children",
    "mutation_with_parent_fails",
    "mutation_with_parent_refuted"
   ],
   "note": "Mutation with a given parent never succeeds (_refuted)."
  },
  {
   "property": "C80",
   "status": "partial",
   "theorems": [
    "default_configuration",
    "default_missing",
    "max_fidelity",
    "set_from_dict_values",
    "set_defaults_refuted"
   ],
   "note": "set_defaults_to_current_values leaves out categoricals (_refuted). set_hyperparameters_from_dict only for values."
  },
  {
   "property": "C81",
   "status": "partial",
   "theorems": [
    "equality_iff",
    "equality_reflexive",
    "equality_transitive_refuted",
    "equality_constants_refuted"
   ],
   "note": "Reflexive but not transitive (_refuted); any two float constants are equal (_refuted)."
  },
  {
   "property": "C82",
   "status": "proved",
   "theorems": [
    "local_mutation_changes",
    "custom_crossover_mixes",
    "custom_crossover_total"
   ],
   "note": "Exact arithmetic with arbitrary mutually inverse increasing log and exp."
  },
  {
   "property": "C83",
   "status": "partial",
   "theorems": [
    "ifbo_curves_partial",
    "ifbo_curves_refuted"
   ],
   "note": "Proved for float fidelities and integer fidelities with long steps; refuted for integer fidelities with step 1."
  },
  {
   "property": "C84",
   "status": "partial",
   "theorems": [
    "ifbo_continues_partial",
    "ifbo_predecessor_refuted"
   ],
   "note": "Proved for float fidelities and integer fidelities with long steps; refuted otherwise."
  },
  {
   "property": "C85",
   "status": "partial",
   "theorems": [
    "ifbo_new_float_partial",
    "ifbo_new_float_refuted",
    "ifbo_fractions_never_continue"
   ],
   "note": "Proved unless the greatest fidelity is 1, in which case the fidelity proposed is NaN; with a greatest fidelity of at most 1 nothing is ever continued."
  },
  {
   "property": "C86",
   "status": "partial",
   "theorems": [
    "ifbo_fidelities_float_partial",
    "ifbo_increment_float",
    "ifbo_step_size_refuted"
   ],
   "note": "Exact characterisation for floats: step k is point k of n equidistant points, so that increments are n/(n-1) times the step size; hence the claim is refuted."
  },
  {
   "property": "C87",
   "status": "partial",
   "theorems": [
    "ifbo_ids_new_partial",
    "ifbo_ids_new_refuted"
   ],
   "note": "Proved while nothing is being evaluated; refuted otherwise."
  },
  {
   "property": "C88",
   "status": "partial",
   "theorems": [
    "ifbo_proposes_partial",
    "ifbo_one_step_stops",
    "ifbo_proposes_refuted"
   ],
   "note": "Proved for at least two steps; with one step every request after the initial design fails."
  },
  {
   "property": "C89",
   "status": "partial",
   "theorems": [
    "ifbo_losses_checked_partial",
    "ifbo_losses_checked_refuted"
   ],
   "note": "Proved while nothing is being evaluated; refuted otherwise."
  },
  {
   "property": "C90",
   "status": "partial",
   "theorems": [
    "ifbo_crashed_scores_greatest",
    "ifbo_crashed_is_worst_refuted"
   ],
   "note": "Refuted for all histories: the score of a crashed evaluation is the greatest of all."
  },
  {
   "property": "C91",
   "status": "proved",
   "theorems": [
    "prior_exists",
    "prior_peaks_at_default",
    "prior_spread",
    "prior_falls_with_distance",
    "prior_draws_in_unit"
   ],
   "note": "In exact arithmetic; erf and erfinv are arbitrary total functions. Aside: logarithmic ranges whose bounds have logarithms 0 and 1."
  },
  {
   "property": "C92",
   "status": "partial",
   "theorems": [
    "uniform_legal",
    "sobol_legal",
    "centered_legal",
    "sobol_integer_dtype",
    "centered_integer_dtype",
    "integer_dtype_refuted"
   ],
   "note": "Legality proved; with an integer dtype (which the weighted sampler asks for by default) Sobol and centered samples are always the lowest values."
  },
  {
   "property": "C93",
   "status": "proved",
   "theorems": [
    "weighted_probabilities",
    "weighted_rows",
    "weighted_total",
    "weighted_dtype_fits"
   ],
   "note": "Given what the samplers and torch.multinomial return."
  },
  {
   "property": "C94",
   "status": "partial",
   "theorems": [
    "pibo_exponent_value",
    "pibo_exponent_falls",
    "pibo_log_exponent_ignored",
    "pibo_log_exponent_refuted",
    "pibo_no_columns_refuted",
    "pibo_gap_fails"
   ],
   "note": "The exponent falls; but for log acquisitions it is added, not multiplied, so that it never matters; spaces of constants and priors with gaps raise."
  },
  {
   "property": "C95",
   "status": "partial",
   "theorems": [
    "run_directories_distinct",
    "run_directory_below",
    "run_directories_refuted",
    "run_directory_escapes_refuted"
   ],
   "note": "Proved for identifiers without a slash, up to their text; refuted with slashes."
  },
  {
   "property": "C96",
   "status": "partial",
   "theorems": [
    "chosen_searcher_arguments",
    "named_searchers_run",
    "own_optimizer",
    "own_class",
    "searcher_none_refuted",
    "own_class_budget_refuted",
    "searcher_algorithm_refuted",
    "searcher_tuple_option_refuted",
    "searcher_by_name_refuted"
   ],
   "note": "Proved for named searchers, files and dictionaries, up to Python equality. Refuted: classes of the user do not get the budget; searcher=None, tuples as options, dictionaries with the old key 'algorithm', and some names of NePS searchers are errors."
  },
  {
   "property": "C97",
   "status": "partial",
   "theorems": [
    "configspace_prior",
    "pipeline_space_name_refuted"
   ],
   "note": "Refuted: every ConfigSpace parameter counts as having a prior, so the default searcher is piBO; parameters of the same name replace each other silently."
  },
  {
   "property": "C98",
   "status": "partial",
   "theorems": [
    "settings_essential",
    "yaml_typed",
    "yaml_typed_accepted",
    "yaml_integer_loss_refuted",
    "zero_evaluations_refuted"
   ],
   "note": "Proved; but YAML refuses whole numbers for error values that code accepts, and a limit of 0 evaluations counts as missing."
  },
  {
   "property": "C99",
   "status": "partial",
   "theorems": [
    "same_space_again",
    "retry_after_error_refuted"
   ],
   "note": "Proved after a success; refuted after an error (a misspelt type is forgotten)."
  },
  {
   "property": "C100",
   "status": "partial",
   "theorems": [
    "errors_are_space_errors_partial",
    "infinite_int_bound_refuted",
    "huge_constant_refuted",
    "type_not_text_refuted",
    "empty_space_refuted"
   ],
   "note": "The three errors that are not wrapped are exactly characterised; each occurs."
  },
  {
   "property": "C101",
   "status": "partial",
   "theorems": [
    "sampled_is_derived",
    "all_trees_sampled_refuted",
    "constructor_accepts_all",
    "name_clash_noticed_refuted",
    "missing_production_noticed_refuted"
   ],
   "note": "Samples are derivable. Refuted: the cache makes siblings with the same symbol identical; the checks of the constructor never fail."
  },
  {
   "property": "C102",
   "status": "partial",
   "theorems": [
    "prior_is_product",
    "log_prior_fails",
    "log_prior_refuted",
    "prior_of_longer_refuted",
    "prior_of_shorter_refuted"
   ],
   "note": "Proved for log=False and grammars in which no right side is the beginning of another. Refuted: log=True always raises KeyError; other grammars give errors or the wrong probability."
  },
  {
   "property": "C103",
   "status": "partial",
   "theorems": [
    "considered_positions",
    "letter_and_nonterminal_refuted",
    "choosable_subtrees",
    "first_subtree_refuted",
    "single_subtree_refuted",
    "mutated_child",
    "default_mutation_refuted",
    "bananas_child",
    "crossover_children",
    "donor_root_refuted"
   ],
   "note": "Children are derivable trees. Refuted: the first subtree is never chosen, one alone gives ValueError, the default strategy may raise an error, a donor's root is not used, terminals may be mistaken for subtrees."
  },
  {
   "property": "C104",
   "status": "partial",
   "theorems": [
    "previous_location",
    "checkpoint_continued",
    "checkpoint_absent",
    "checkpoint_first",
    "lightning_checkpoint",
    "lightning_first",
    "checkpoint_names_refuted",
    "model_state_replaced_refuted",
    "lightning_documented_refuted"
   ],
   "note": "Proved for names with the same base name. Refuted: names that differ only after the last point share a file; a value named model_state_dict replaces the model's state; the documentation of load_lightning_checkpoint."
  },
  {
   "property": "C105",
   "status": "partial",
   "theorems": [
    "evaluation_ends_clean",
    "escaped_evaluation_blocks",
    "interrupted_evaluation_blocks",
    "nested_run_fails",
    "later_run_refuted"
   ],
   "note": "Proved for evaluations that end in a report; refuted for all others: no later evaluation in the process can begin."
  },
  {
   "property": "C106",
   "status": "partial",
   "theorems": [
    "results_are_incumbents",
    "results_plotted",
    "results_any_order",
    "results_fail",
    "results_crashed_refuted",
    "results_same_number_refuted",
    "results_later_refuted"
   ],
   "note": "Proved for trials numbered by decimal integers whose reports all have a loss. Refuted: TypeError as soon as one evaluation failed without loss_value_on_error (exactly then); identifiers config_rung are read as integers without the underscore, so that two trials may have the same number and later trials may count as earlier."
  },
  {
   "property": "C107",
   "status": "partial",
   "theorems": [
    "kwargs_values",
    "kwargs_pairs",
    "kwargs_errors",
    "kwargs_text",
    "command_is_call",
    "kwargs_inf_refuted",
    "kwargs_none_refuted",
    "kwargs_replace_refuted"
   ],
   "note": "Proved for all options and items that do not name a parameter of neps.run. Refuted: such items silently replace the option (root_directory=...); inf, nan and None stay texts."
  },
  {
   "property": "C108",
   "status": "partial",
   "theorems": [
    "info_of_evaluated",
    "info_of_unknown",
    "info_of_unfinished",
    "info_of_waiting_refuted"
   ],
   "note": "Proved for every evaluated trial. Refuted: pending and running trials give TypeError."
  },
  {
   "property": "C109",
   "status": "partial",
   "theorems": [
    "status_shown_right",
    "status_pending_refuted"
   ],
   "note": "All but the numbers of pending trials, which are always 0."
  },
  {
   "property": "C110",
   "status": "partial",
   "theorems": [
    "root_directory_chosen",
    "root_directory_missing",
    "commands_only_read",
    "init_keeps_files",
    "empty_config_refuted",
    "task_directory_refuted",
    "showing_makes_directories_refuted",
    "cli_md_refuted"
   ],
   "note": "Proved for directories made by runs, and all files but cli.md. Refuted: every command overwrites cli.md in the current directory; showing makes five directories in any other directory; an empty run_config.yaml gives AttributeError; task_id and development_stage_id in it are ignored."
  },
  {
   "property": "C111",
   "status": "partial",
   "theorems": [
    "log_in_evaluation",
    "first_call_tags",
    "later_call_tags",
    "log_leaves_run_alone",
    "disabled_call",
    "one_curve_per_trial_refuted",
    "logging_never_fails_refuted"
   ],
   "note": "Proved for every history of a process whose runs use one directory: directory, records, and the exact condition of the FileNotFoundError. Refuted: the tag of the loss changes between the first call of an evaluation and the later ones; a continued trial whose first trial did not log cannot log. Contents of images and torch's own checks are not modelled."
  },
  {
   "property": "C112",
   "status": "partial",
   "theorems": [
    "incumbent_records",
    "incumbent_includes_trial_refuted",
    "disabled_writes_nothing_refuted",
    "incumbent_second_run_refuted"
   ],
   "note": "Proved: each record is the summary of the reports stored when the evaluation ends, and is made exactly if the last call asked for it. Refuted: the trial that ends is not included; a disabled logger still writes it; a second run writes into the first run's summary."
  },
  {
   "property": "C113",
   "status": "partial",
   "theorems": [
    "image_grid",
    "empty_grid_refuted"
   ],
   "note": "Proved for at least one image. Refuted for none: an error is raised."
  },
  {
   "property": "C114",
   "status": "partial",
   "theorems": [
    "initial_design_made",
    "initial_design_contents",
    "least_rows_determined",
    "least_rows_number",
    "initial_design_low",
    "initial_answers",
    "initial_design_spread_refuted",
    "initial_design_number_refuted",
    "initial_answers_differ_refuted"
   ],
   "note": "Proved: exact contents for all draws, and that every process goes through its own design. Refuted: the rows chosen are the least in the first column; fewer or more configurations than asked for; several processes (or a continued run) have different designs, so that configurations repeat."
  },
  {
   "property": "C115",
   "status": "partial",
   "theorems": [
    "gp_data",
    "target_determined",
    "gp_targets",
    "gp_targets_nan",
    "gp_targets_refuted"
   ],
   "note": "Proved for all trials, with the exact condition for finite targets. Refuted: without any known loss all targets are NaN."
  },
  {
   "property": "C116",
   "status": "partial",
   "theorems": [
    "ask_answers",
    "design_there",
    "ask_proposes",
    "budget_while_going_on",
    "all_crashed",
    "none_reported",
    "many_categories",
    "missing_cost",
    "all_crashed_refuted",
    "none_reported_refuted",
    "many_categories_refuted",
    "missing_cost_refuted",
    "continued_budget_refuted"
   ],
   "note": "Proved: the exact condition for an answer. Refuted: no answer if all evaluations crashed, if none has been reported yet, with more than 30 combinations of categories, with costs after one report without cost, and after continuing with a greater max_cost_total. Numerical failures inside botorch are not modelled."
  },
  {
   "property": "C117",
   "status": "partial",
   "theorems": [
    "every_category",
    "categories_allowed",
    "no_restart_refuted"
   ],
   "note": "Every combination once, proved for all allowed numbers. Refuted: 0 restarts for 21 to 30 combinations."
  },
  {
   "property": "C118",
   "status": "partial",
   "theorems": [
    "loss_and_cost",
    "cost_of_report",
    "cost_of_report_refuted"
   ],
   "note": "Proved for results and for losses of reports. Refuted: the cost of a report is its loss."
  },
  {
   "property": "C119",
   "status": "partial",
   "theorems": [
    "default_plot",
    "order_refuted"
   ],
   "note": "Proved for all runs with numbered trials. Refuted with fidelities: identifiers 0_0, 1_0, 0_1 are drawn in the order 0_0, 0_1, 1_0, which shows losses before they were reached."
  },
  {
   "property": "C120",
   "status": "partial",
   "theorems": [
    "plot_made",
    "failed_evaluation",
    "nothing_evaluated",
    "failed_evaluation_refuted"
   ],
   "note": "Proved: the exact condition. Refuted: one failed evaluation makes plotting raise a TypeError."
  },
  {
   "property": "C121",
   "status": "partial",
   "theorems": [
    "key_axis",
    "fidelity_axis",
    "continuations_ignored",
    "parallel_times",
    "continuation_cost_refuted",
    "parallel_axis_refuted",
    "start_refuted"
   ],
   "note": "Proved: entries of info_dict, and the exact times for several workers. Refuted: continuations never reduce a cost (the key looked up is never written); times since the start are summed up as if they were durations; the start is that of the least identifier as a text."
  },
  {
   "property": "C122",
   "status": "partial",
   "theorems": [
    "same_costs",
    "shown_heights",
    "drawn_values",
    "different_numbers",
    "shown_early_refuted",
    "range_early_refuted",
    "different_numbers_refuted"
   ],
   "note": "Proved: seeds with equal costs are drawn exactly, and for others every height is that of the seed's next point. Refuted: so incumbents are shown before they were found, also at the left end of x_range; seeds with different numbers of evaluations raise a ValueError. The mean and its error are not modelled."
  },
  {
   "property": "C123",
   "status": "partial",
   "theorems": [
    "figure",
    "own_axes",
    "labels",
    "many_benchmarks",
    "label_missing_refuted",
    "many_benchmarks_refuted"
   ],
   "note": "Proved for all numbers of benchmarks up to 10. Refuted: more than 10 benchmarks raise a KeyError for the legend; an odd number leaves the right column without x label."
  },
  {
   "property": "C124",
   "status": "partial",
   "theorems": [
    "epochs_read",
    "numbers_not_read",
    "numbers_not_read_refuted"
   ],
   "note": "Proved for identifiers of configurations and epochs. Refuted: runs whose identifiers are numbers raise an AttributeError."
  },
  {
   "property": "C125",
   "status": "partial",
   "theorems": [
    "arguments_given",
    "directories_given",
    "wrong_signature_crashes",
    "directory_names_clash",
    "directory_names_clash_refuted",
    "kwargs_directory_refuted"
   ],
   "note": "Proved for every signature. Refuted: a hyperparameter named like a directory that the function names makes every evaluation crash; a function of **kwargs is not given the directories."
  },
  {
   "property": "C126",
   "status": "partial",
   "theorems": [
    "settings_loaded",
    "malformed_setting",
    "poll_none_refuted"
   ],
   "note": "Proved for every environment; float of a text is an oracle. Refuted: none is no polling interval."
  },
  {
   "property": "C127",
   "status": "partial",
   "theorems": [
    "acquired_when_free",
    "not_given_up_early",
    "taken_in_time",
    "waiting_ends",
    "never_given_up",
    "no_limit_refuted",
    "nan_limit",
    "nan_limit_refuted",
    "is_locked_true"
   ],
   "note": "Proved for every schedule, for portalocker's loop. Refuted: the limit none is portalocker's 5 seconds, and NaN, which can be set, a single attempt."
  },
  {
   "property": "C128",
   "status": "partial",
   "theorems": [
    "capture_restore",
    "turns_as_one",
    "without_cuda",
    "more_devices",
    "more_devices_refuted",
    "fewer_devices_refuted"
   ],
   "note": "Proved for machines with the same equipment, and for machines without CUDA. Refuted: a worker with fewer CUDA devices always raises an IndexError; one with more keeps states of its own."
  },
  {
   "property": "C129",
   "status": "partial",
   "theorems": [
    "seed_written_read",
    "seed_kept",
    "seed_stale_refuted",
    "snapshots_equal",
    "snapshots_equal_refuted"
   ],
   "note": "Proved without older files of torch and for equal numbers of devices. Refuted: an older state of CUDA stays and is read; snapshots of different numbers of devices are equal."
  },
  {
   "property": "C130",
   "status": "partial",
   "theorems": [
    "searchers_listed",
    "algorithms_listed",
    "searchers_of_algorithm",
    "kwargs_exact",
    "kwargs_other",
    "kwargs_other_refuted",
    "kwargs_unknown",
    "kwargs_unknown_refuted"
   ],
   "note": "Proved if no searcher's name begins another's. Refuted: asha is answered with asha_prior in some orders of the directory; prefixes of names are answered."
  },
  {
   "property": "C131",
   "status": "proved",
   "theorems": [
    "pruned_to_paths",
    "refused_without_path",
    "input_is_output"
   ],
   "note": "For acyclic graphs whose output has no successors and every topological order."
  },
  {
   "property": "C132",
   "status": "partial",
   "theorems": [
    "identities_bypassed",
    "several_ends_refused",
    "zeros_pruned",
    "zero_name_refuted"
   ],
   "note": "Proved with operations at the nodes, and at the edges up to the names. Refuted: an operation whose name just contains the name of a zero is removed too."
  },
  {
   "property": "C133",
   "status": "partial",
   "theorems": [
    "tree_composed",
    "primitive_alone",
    "nothing_refused",
    "renamed_nonterminal_refuted"
   ],
   "note": "Proved if topologies are at the nonterminals themselves, except topologies of primitives only. A primitive alone is an IndexError. Refuted: below a nonterminal that just stands for another, an inner topology takes the arguments of the outer one."
  },
  {
   "property": "C134",
   "status": "partial",
   "theorems": [
    "call_right",
    "sequential_called",
    "dense_called",
    "small_called",
    "surplus_ignored",
    "operations_in_order",
    "call_order_refuted",
    "missing_operations_refuted"
   ],
   "note": "Proved for all topologies that there are, and for graphs whose breadth first order is sorted. Refuted otherwise: a node is left before all its inputs are there, and its operations are applied twice. Refuted: too few operations are no error, edges are missing."
  },
  {
   "property": "C135",
   "status": "proved",
   "theorems": [
    "flat_same",
    "flat_operations"
   ],
   "note": "Both directions; the flat graph has exactly the results of the nested one."
  },
  {
   "property": "C136",
   "status": "partial",
   "theorems": [
    "module_right",
    "several_outputs_refused",
    "other_operations_refused",
    "second_output_lost_refuted",
    "merge_fn_refuted"
   ],
   "note": "Proved for one source and one sink. Refuted: a second sink with a greater number than the last node is lost. Refuted: merge_fn of a topology is ignored by the module."
  },
  {
   "property": "C137",
   "status": "partial",
   "theorems": [
    "id_and_value_agree",
    "load_takes_the_id",
    "reload_same",
    "clone_same",
    "sample_takes_the_text",
    "equal_by_id",
    "failed_load",
    "failed_load_keeps_refuted",
    "clone_has_no_default",
    "clone_keeps_default_refuted",
    "set_none_refused",
    "set_none_refuted"
   ],
   "note": "Proved for all states reachable by calls, failing ones included. Refuted: a failed load leaves the invalid text as the id; a clone loses the default; None is refused although the signature has it, so values cannot be deleted."
  },
  {
   "property": "C138",
   "status": "partial",
   "theorems": [
    "build_along_the_graph",
    "second_source_fails",
    "list_never",
    "list_refuted",
    "no_attributes_never",
    "no_attributes_refuted",
    "module_of_built_graph"
   ],
   "note": "Proved for graphs with one source. Refuted: lists of structures are never accepted; without set_recursive_attribute to_pytorch always fails."
  },
  {
   "property": "C139",
   "status": "partial",
   "theorems": [
    "pool_has_its_size",
    "pool_of_the_best",
    "mutations_differ_by_value",
    "mutations_differ_refuted",
    "mutations_kept_refuted",
    "patience_is_kept",
    "no_best_fails",
    "best_are_proposed",
    "few_values",
    "more_than_there_are",
    "sample_is_best",
    "batch_of_none",
    "batch_size_refuted"
   ],
   "note": "Size, origin and choice are proved for what numpy and torch promise. Refuted: the hash of a configuration is that of a temporary view, so mutations can repeat and different ones can be turned away; a batch of none is the whole pool."
  },
  {
   "property": "C140",
   "status": "partial",
   "theorems": [
    "sampled_obeys",
    "obeying_is_sampled",
    "function_is_obeyed",
    "only_the_operation",
    "no_constraints_no_subtrees",
    "no_constraints_refuted",
    "constrained_mutation",
    "mutation_refuted",
    "no_crossover",
    "crossover_refuted",
    "zero_is_turned_away",
    "none_is_turned_away_refuted"
   ],
   "note": "Sampling is proved in both directions, mutation for what is refused at the place. Refuted: a topology for which the object has no constraints (None) cannot have subtrees; with a function, a subtree cannot be mutated if the symbol above occurs before it; crossover never works with an object, and turns away only operations named zero."
  },
  {
   "property": "C141",
   "status": "partial",
   "theorems": [
    "pending_once",
    "one_weight",
    "two_weights",
    "two_weights_and_pending",
    "prior_and_costs_refuted"
   ],
   "note": "Proved for any acquisition function, weights and points. False as stated: with a prior and costs (two nested weights) and pending points the outer forward broadcasts one value over all points, the shape check fails and no candidate is found (prior_and_costs_refuted; two_weights_and_pending shows it always happens). Simplification: one set of points at a time; the checks of botorch's decorators as one check."
  },
  {
   "property": "C142",
   "status": "partial",
   "theorems": [
    "cheaper_is_no_worse",
    "better_is_no_worse",
    "costs_cool_down",
    "no_value_without_cost",
    "cheaper_refuted",
    "prior_decays",
    "weighing_before_state",
    "likelier_is_no_worse",
    "likelier_refuted",
    "log_prior_of_one_refuted",
    "nothing_complete",
    "confidence_bound",
    "beta_cannot_be_set",
    "beta_is_set_refuted",
    "incumbent_is_least",
    "incumbent_of_means"
   ],
   "note": "Numbers are rationals; logarithm, power and root are any functions with the orders stated. False: a predicted cost that is not positive leaves no value; negative values turn the prior around; with logarithms a log-prior of exactly one is not weighed; setting beta always raises TypeError (list | np.array)."
  },
  {
   "property": "C143",
   "status": "partial",
   "theorems": [
    "zero_distance",
    "same_both_ways",
    "graphs_differ_refuted",
    "first_within",
    "neighbour_is_found",
    "no_radius_no_end",
    "neighbour_is_found_refuted"
   ],
   "note": "The Euclidean norm is any function that is not negative, zero only at zero and the same for the opposite; numbers are rationals. The search ends for positive radii and bounded distances. Refuted: configurations that differ only in a graph are at the distance zero; with a radius of zero (the callers in the code exclude it) the radius never grows and the search need not end."
  },
  {
   "property": "C144",
   "status": "partial",
   "theorems": [
    "fraction_of_prior",
    "prior_when_insignificant",
    "significant_prior_refuted"
   ],
   "note": "The fraction is proved. Refuted: the comparison in update_model is the wrong way round, so the prior weighs only when its exponent is insignificant, for decay_t above 100000."
  },
  {
   "property": "C145",
   "status": "partial",
   "theorems": [
    "paths_are_sequences",
    "operations_are_edges",
    "numbering_refuted"
   ],
   "note": "Proved by induction over all trees for topologies numbered from 1 whose greatest number is in the last edge of the list in order. Refuted for other numberings: node_offset grows by max(max(edges)), which need not be the greatest node, so new nodes clash and operations overwrite each other. The string is given by its terminals; what is pruned after the loop is not modelled."
  },
  {
   "property": "C146",
   "status": "partial",
   "theorems": [
    "accepted_iff",
    "drawn_with_probability",
    "samples_are_possible",
    "fresh_numbers",
    "negative_accepted_refuted",
    "no_production_refuted"
   ],
   "note": "Proved for probabilities that are at least 0 and grammars in which each nonterminal on the right has a production. Refuted: the setter accepts negative probabilities that sum up to 1, then every draw is a ValueError; and the check of the constructor for nonterminals without productions looks at left sides only and never fails, so sampling does. Exact rational sums."
  },
  {
   "property": "C147",
   "status": "proved",
   "theorems": [
    "same_paths",
    "dual_edges",
    "no_single_end"
   ],
   "note": "Proved for all lists of different edges; to_node_attributed_edge_list only, not how the rest of from_stringTree_to_graph_repr puts these lists together."
  }
 ]
}