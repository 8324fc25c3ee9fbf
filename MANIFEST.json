{
 "claims": [
  {
   "property": "C01",
   "status": "proved",
   "theorems": [
    "C01_merit_filter"
   ],
   "note": ""
  },
  {
   "property": "C02",
   "status": "proved",
   "theorems": [
    "C02_distance_filter",
    "C02_order_irrelevant",
    "C02_additions_only_reject",
    "C02_new_fails_iff_negative"
   ],
   "note": ""
  },
  {
   "property": "C03",
   "status": "proved",
   "theorems": [
    "C03_best_solution",
    "C03_none_iff_empty",
    "C03_nothing_strictly_better",
    "C03_nan_only_if_negative"
   ],
   "note": ""
  },
  {
   "property": "C04",
   "status": "proved",
   "theorems": [
    "C04_constructor"
   ],
   "note": ""
  },
  {
   "property": "C05",
   "status": "partial",
   "theorems": [
    "C05_population_three_refuted",
    "C05_population_three_always_rejected",
    "C05_population_four_usable_partial"
   ],
   "note": "The documented claim is false of the code: population_size = 3 is always rejected (refuted); a population of at least 4 is accepted."
  },
  {
   "property": "C06",
   "status": "proved",
   "theorems": [
    "C06_accepted_iff_all_rows_ok",
    "C06_custom_points"
   ],
   "note": ""
  },
  {
   "property": "C07",
   "status": "proved",
   "theorems": [
    "C07_bounds",
    "C07_nan_bounds_not_rejected"
   ],
   "note": ""
  },
  {
   "property": "C08",
   "status": "proved",
   "theorems": [
    "C08_in_bounds"
   ],
   "note": "env_ok states that uniform sampling stays in the closed range; bounds finite with finite width and sum; custom points in the box."
  },
  {
   "property": "C09",
   "status": "partial",
   "theorems": [
    "C09_midpoint_refuted",
    "C09_midpoint_partial"
   ],
   "note": "Refuted: the sum of two accepted bounds may overflow, and the returned reference set then contains infinity. Proved when the sums are finite."
  },
  {
   "property": "C10",
   "status": "proved",
   "theorems": [
    "C10_trials_in_box",
    "C10_trial_pairs"
   ],
   "note": "k is the integer square root for fewer than 2^52 members (f64 square root, proved through Flocq)."
  },
  {
   "property": "C11",
   "status": "proved",
   "theorems": [
    "C11_feasible"
   ],
   "note": "All constraints, seeds, custom points, samples and trials."
  },
  {
   "property": "C12",
   "status": "proved",
   "theorems": [
    "C12_size",
    "C12_errors"
   ],
   "note": "The size theorem counts the feasible seeds and custom points; the error theorem needs population_size >= 1 (0 panics)."
  },
  {
   "property": "C13",
   "status": "partial",
   "theorems": [
    "C13_population_refuted",
    "C13_population_partial"
   ],
   "note": "Refuted: five members for population_size 3 and two custom points. Proved: between population_size and the larger of it and the number of feasible seeds and custom points."
  },
  {
   "property": "C14",
   "status": "proved",
   "theorems": [
    "C14_values"
   ],
   "note": "For any sort and selection that permute their input."
  },
  {
   "property": "C15",
   "status": "proved",
   "theorems": [
    "C15_update"
   ],
   "note": "Stated for update_reference_set on any consistent state. The threshold is a sum in some order, divided by k, times 0.1."
  },
  {
   "property": "C16",
   "status": "proved",
   "theorems": [
    "C16_best"
   ],
   "note": "least in f64 total order, for every schedule."
  },
  {
   "property": "C17",
   "status": "partial",
   "theorems": [
    "C17_sequential_refuted",
    "C17_greedy_partial"
   ],
   "note": "Refuted in sequential mode (early return of 0 for distances below 1e-7). Proved in parallel mode exactly, and in sequential mode up to candidates that close."
  },
  {
   "property": "C18",
   "status": "proved",
   "theorems": [
    "C18_effort"
   ],
   "note": "Attempt count, dimension, sample bound, and the exact condition for NoFeasibleCandidates."
  },
  {
   "property": "C19",
   "status": "proved",
   "theorems": [
    "C19_schedule"
   ],
   "note": "All reduction trees."
  },
  {
   "property": "C20",
   "status": "partial",
   "theorems": [
    "C20_agree_refuted",
    "C20_agree_partial",
    "C20_gap_partial"
   ],
   "note": "Refuted by a point 1e-8 away. Proved for points at least 1e-7 from the set, and the size of the gap otherwise."
  },
  {
   "property": "C21",
   "status": "partial",
   "theorems": [
    "C21_schedule_refuted",
    "C21_initial_partial",
    "C21_small_partial",
    "C21_sequential_partial"
   ],
   "note": "Refuted: a nine-member set whose threshold depends on the summation order. Proved for the initial set, for up to eight members, and in sequential mode."
  },
  {
   "property": "C22",
   "status": "proved",
   "theorems": [
    "C22_run",
    "C22_history"
   ],
   "note": ""
  },
  {
   "property": "C23",
   "status": "proved",
   "theorems": [
    "C23_run",
    "C23_history"
   ],
   "note": ""
  },
  {
   "property": "C24",
   "status": "partial",
   "theorems": [
    "C24_zero_factor_refuted",
    "C24_positive_factor_partial"
   ],
   "note": "Refuted for distance_factor = 0 (the duplicate test compares with < 0); proved for every factor whose square is positive, for finite points."
  },
  {
   "property": "C25",
   "status": "proved",
   "theorems": [
    "C25_history",
    "C25_not_much_better",
    "C25_run"
   ],
   "note": ""
  },
  {
   "property": "C26",
   "status": "partial",
   "theorems": [
    "C26_nan_first_refuted",
    "C26_later_nan_partial"
   ],
   "note": "Refuted: a NaN stored first is never replaced. Proved: NaN results that come later change neither the set nor the threshold."
  },
  {
   "property": "C27",
   "status": "proved",
   "theorems": [
    "C27_run",
    "C27_history"
   ],
   "note": ""
  },
  {
   "property": "C28",
   "status": "proved",
   "theorems": [
    "C28_run"
   ],
   "note": ""
  },
  {
   "property": "C29",
   "status": "proved",
   "theorems": [
    "C29_decision",
    "C29_search",
    "C29_rejected"
   ],
   "note": ""
  },
  {
   "property": "C30",
   "status": "partial",
   "theorems": [
    "C30_own_objective_refuted",
    "C30_position_partial",
    "C30_resumed_partial"
   ],
   "note": "Refuted for fresh runs: the cached objective values are not shuffled together with the reference set. Proved for resumed runs."
  },
  {
   "property": "C31",
   "status": "proved",
   "theorems": [
    "C31_bound",
    "C31_candidates"
   ],
   "note": ""
  },
  {
   "property": "C32",
   "status": "partial",
   "theorems": [
    "C32_resumed_refuted",
    "C32_stops_partial"
   ],
   "note": "Refuted for a run that resumes with the target already reached: it works on one batch first. Proved: once a set reaching the target is stored no more work is done and it is the result."
  },
  {
   "property": "C33",
   "status": "proved",
   "theorems": [
    "C33_limit",
    "C33_one_batch",
    "C33_no_limit"
   ],
   "note": ""
  },
  {
   "property": "C34",
   "status": "proved",
   "theorems": [
    "C34_counter",
    "C34_relaxed"
   ],
   "note": ""
  },
  {
   "property": "C35",
   "status": "proved",
   "theorems": [
    "C35_relaxation"
   ],
   "note": ""
  },
  {
   "property": "C36",
   "status": "partial",
   "theorems": [
    "C36_counter_partial",
    "C36_no_reset_refuted"
   ],
   "note": "Refuted: the unchanged-cycles counter is not reset by an improvement. Proved in sequential mode: at every decision the counter is the number of rejected candidates modulo the wait cycle, and every callback shows the counter with which its iteration began. Missing: the reset."
  },
  {
   "property": "C37",
   "status": "partial",
   "theorems": [
    "C37_batches_refuted",
    "C37_runs_refuted",
    "C37_one_candidate_partial"
   ],
   "note": "Refuted for batches of two or more and for whole runs; proved for batches of one candidate."
  },
  {
   "property": "C38",
   "status": "proved",
   "theorems": [
    "C38_observer_is_passive"
   ],
   "note": ""
  },
  {
   "property": "C39",
   "status": "proved",
   "theorems": [
    "C39_stage1_counters",
    "C39_stage2_counters",
    "C39_best",
    "C39_decreasing"
   ],
   "note": ""
  },
  {
   "property": "C40",
   "status": "partial",
   "theorems": [
    "C40_sequential",
    "C40_sequential_end",
    "C40_parallel_refuted",
    "C40_batches_partial"
   ],
   "note": "Sequential mode proved. Refuted for parallel batches: the only accepted candidate of a batch invokes the callback whatever its index (oqnlp.rs process_batch_parallel, single local search branch). Proved in every mode: the iterations that are due call back once each and in order, and any other callback is that of the only accepted candidate of its batch."
  },
  {
   "property": "C41",
   "status": "proved",
   "theorems": [
    "C41_exposed"
   ],
   "note": ""
  },
  {
   "property": "C42",
   "status": "partial",
   "theorems": [
    "C42_improved_refuted",
    "C42_calls_partial"
   ],
   "note": "Refuted: process_local_solution returns false when it finds a new best, so such a call is not counted as improved. Proved: every processed Stage 2 result is counted as a call, and the improved calls are exactly those that stored an earlier solution beside the new one, plus the one that stored the first solution if Stage 2 began without a set."
  },
  {
   "property": "C43",
   "status": "partial",
   "theorems": [
    "C43_evaluations_refuted",
    "C43_search_partial",
    "C43_run_partial"
   ],
   "note": "Refuted: trial point evaluations are not added to the Stage 1 function_evaluations. Proved: the counter grows by exactly the number of initial points plus what the Stage 1 local search reports, the trial counter by exactly 3k(k-1), and Stage 2 changes neither."
  },
  {
   "property": "C44",
   "status": "proved",
   "theorems": [
    "C44_lossless"
   ],
   "note": ""
  },
  {
   "property": "C45",
   "status": "proved",
   "theorems": [
    "C45_round_trip"
   ],
   "note": ""
  },
  {
   "property": "C46",
   "status": "proved",
   "theorems": [
    "C46_single_file",
    "C46_keep_all"
   ],
   "note": "with keep_all the directory at the start must not already stand for an iteration at or above the saved one"
  },
  {
   "property": "C47",
   "status": "partial",
   "theorems": [
    "C47_iteration_zero_refuted",
    "C47_later_iterations_partial"
   ],
   "note": "false for iteration 0 (C47_iteration_zero_refuted); proved for iterations >= 1"
  },
  {
   "property": "C48",
   "status": "proved",
   "theorems": [
    "C48_names",
    "C48_entries"
   ],
   "note": ""
  },
  {
   "property": "C49",
   "status": "partial",
   "theorems": [
    "C49_mixed_modes_refuted",
    "C49_same_mode_partial"
   ],
   "note": "false when one name keeps a single file and the other keeps all (C49_mixed_modes_refuted); proved for names in the same mode"
  },
  {
   "property": "C50",
   "status": "proved",
   "theorems": [
    "C50_cleanup",
    "C50_load",
    "C50_off"
   ],
   "note": ""
  },
  {
   "property": "C51",
   "status": "partial",
   "theorems": [
    "C51_single_file_refuted",
    "C51_keep_all_refuted",
    "C51_detected_partial",
    "C51_before_open_partial",
    "C51_other_files_partial"
   ],
   "note": "false in both modes: files are written in place (two refutations). Proved: a torn file is an error, never other data; a crash before the file is opened changes nothing; other files stay loadable by path"
  },
  {
   "property": "C52",
   "status": "partial",
   "theorems": [
    "C52_periodic",
    "C52_final",
    "C52_after_iteration",
    "C52_counter_refuted",
    "C52_state_partial"
   ],
   "note": "when saves happen, and all of the carried state except the wait counter, is proved; the counter is the one from before the iteration (C52_counter_refuted)"
  },
  {
   "property": "C53",
   "status": "partial",
   "theorems": [
    "C53_resume_refuted",
    "C53_no_worse_partial"
   ],
   "note": "false: the reference set is saved in its order before the shuffle and the saved iteration is repeated (C53_resume_refuted); proved: never worse than the checkpoint"
  },
  {
   "property": "C54",
   "status": "partial",
   "theorems": [
    "C54_parallel_refuted",
    "C54_sequential_partial",
    "C54_batches_partial"
   ],
   "note": "false in parallel mode (C54_parallel_refuted); proved in sequential mode; proved in both modes for candidates a whole batch or more behind the saved iteration (C54_batches_partial). Optimizers whose iteration counter is 0 at the start"
  },
  {
   "property": "C55",
   "status": "partial",
   "theorems": [
    "C55_auto_resume_refuted",
    "C55_solver_refuted",
    "C55_manual_resume_partial"
   ],
   "note": "false with auto_resume, and for the solver and distance factor in any case (two refutations); proved for the parameters without auto_resume"
  },
  {
   "property": "C56",
   "status": "proved",
   "theorems": [
    "C56_expand"
   ],
   "note": "The checkpoint is the one that load_latest returns; new points are in bounds and feasible."
  },
  {
   "property": "C57",
   "status": "proved",
   "theorems": [
    "C57_mismatch_iff",
    "C57_result_comes_from_configured_run",
    "C57_matching_config_is_run",
    "C57_cobyla_config_is_run"
   ],
   "note": ""
  },
  {
   "property": "C58",
   "status": "partial",
   "theorems": [
    "C58_newton_cg_settings_refuted",
    "C58_newton_cg_errors_refuted",
    "C58_more_thuente_partial"
   ],
   "note": "Refuted for the Hager-Zhang line search (settings dropped) and for the error variant; proved for the More-Thuente line search."
  },
  {
   "property": "C59",
   "status": "partial",
   "theorems": [
    "C59_lb_builder_last_write_wins",
    "C59_nm_builder_last_write_wins",
    "C59_sd_builder_last_write_wins",
    "C59_tr_builder_last_write_wins",
    "C59_ncg_builder_last_write_wins",
    "C59_mt_builder_last_write_wins",
    "C59_hz_builder_last_write_wins",
    "C59_cb_builder_last_write_wins",
    "C59_defaults_as_documented",
    "C59_hager_zhang_default_refuted"
   ],
   "note": "Last write wins is proved for all eight builders and all setter sequences; the documented defaults hold for all but the Hager-Zhang step bounds (refuted)."
  },
  {
   "property": "C60",
   "status": "proved",
   "theorems": [
    "C60_solver_names",
    "C60_everything_else_rejected"
   ],
   "note": ""
  },
  {
   "property": "C61",
   "status": "partial",
   "theorems": [
    "C61_interleaved_refuted",
    "C61_threads_refuted",
    "C61_refuted",
    "C61_failures_refuted",
    "C61_own_constraint_partial",
    "C61_one_pointer_each_partial"
   ],
   "note": "False of the code (C61_interleaved_refuted, C61_threads_refuted, C61_failures_refuted): function pointers look the problem up in thread-local state. Proved: on the fetching thread, undisturbed by another problem's fetch and with no failed constraint, the i-th pointer evaluates the i-th constraint."
  },
  {
   "property": "C62",
   "status": "proved",
   "theorems": [
    "C62_symmetric",
    "C62_not_negative",
    "C62_diagonal"
   ],
   "note": ""
  },
  {
   "property": "C63",
   "status": "partial",
   "theorems": [
    "C63_line_search_refuted",
    "C63_run_partial",
    "C63_session_partial"
   ],
   "note": "False for a line search bounds array with fewer than two entries (C63_line_search_refuted). Proved for every run from a sane state and for every run reachable in a session with sane arguments, given two line search bounds and local solvers that keep the dimension."
  },
  {
   "property": "C64",
   "status": "partial",
   "theorems": [
    "C64_infinite_first_refuted",
    "C64_zero_relative_tolerance_partial"
   ],
   "note": "Refuted for the default tolerances (inf - inf is NaN); proved for relative tolerance zero."
  },
  {
   "property": "C65",
   "status": "proved",
   "theorems": [
    "C65_unique_lines"
   ],
   "note": ""
  },
  {
   "property": "C66",
   "status": "partial",
   "theorems": [
    "C66_tolerance_refuted",
    "C66_factor_refuted",
    "C66_session_partial",
    "C66_returned_partial"
   ],
   "note": "False when tolerances are tightened, or the distance factor is raised on resumption, after a set was stored (two refutations). Proved for all other sessions, including crashes and restarts."
  },
  {
   "property": "C67",
   "status": "proved",
   "theorems": [
    "C67_all_candidates"
   ],
   "note": ""
  },
  {
   "property": "C68",
   "status": "proved",
   "theorems": [
    "C68_settings",
    "C68_errors",
    "C68_no_panic",
    "C68_result",
    "C68_failure_keeps_observer"
   ],
   "note": "Argument conversion by pyo3 is outside the model; verbose only prints."
  },
  {
   "property": "C69",
   "status": "partial",
   "theorems": [
    "C69_ragged_refuted",
    "C69_rectangular_partial"
   ],
   "note": "False for ragged rows whose total length fits (C69_ragged_refuted); proved for rectangular input."
  },
  {
   "property": "C70",
   "status": "partial",
   "theorems": [
    "C70_cobyla_refuted",
    "C70_other_solvers_partial",
    "C70_hager_zhang_partial",
    "C70_call"
   ],
   "note": "False for COBYLA (step 1.0 against 0.5); proved for the other five solvers and for the Hager-Zhang object."
  },
  {
   "property": "C71",
   "status": "proved",
   "theorems": [
    "C71_best",
    "C71_iteration"
   ],
   "note": ""
  },
  {
   "property": "C72",
   "status": "partial",
   "theorems": [
    "C72_callback_refuted",
    "C72_all_but_callback_partial",
    "C72_same_observer_partial"
   ],
   "note": "False when a built-in callback is installed after a Python one; proved otherwise."
  },
  {
   "property": "C73",
   "status": "proved",
   "theorems": [
    "C73_starting_points",
    "C73_run"
   ],
   "note": "Proved for the construction of the reference set followed by the search, and for the starting point used by a whole run."
  },
  {
   "property": "C74",
   "status": "partial",
   "theorems": [
    "C74_report",
    "C74_plain_report",
    "C74_report_for_problem",
    "C74_marks_refuted",
    "C74_marks_partial"
   ],
   "note": "Contents proved for every set, problem and list of descriptions. The claim about marks fails for a constraint whose value is NaN (a cross, and '(satisfied)'); proved for values that are numbers."
  },
  {
   "property": "C75",
   "status": "partial",
   "theorems": [
    "C75_ragged_bounds_refuted",
    "C75_panic_refuted",
    "C75_bounds_partial",
    "C75_functions",
    "C75_ragged_hessian_refuted",
    "C75_hessian_partial",
    "C75_sizes_refuted"
   ],
   "note": "Refuted: ragged bounds and Hessians whose lengths add up are cut anew, malformed bounds panic, sizes of gradients and Hessians are not checked. Proved: values and errors of all functions; bounds and Hessians with rows of equal length; exactly which bounds panic."
  },
  {
   "property": "C76",
   "status": "partial",
   "theorems": [
    "C76_nested_objective_refuted",
    "C76_nested_constraint_refuted",
    "C76_no_deadlock_partial",
    "C76_every_schedule_ends_partial"
   ],
   "note": "Refuted for objectives and constraints that call optimize. Proved for all other programs: no reachable state is stuck and every schedule ends."
  },
  {
   "property": "C77",
   "status": "partial",
   "theorems": [
    "C77_gradients_refuted",
    "C77_one_at_a_time_partial"
   ],
   "note": "Proved for objectives and constraints of all programs; refuted for gradients (and the other functions, which hold only the GIL)."
  },
  {
   "property": "C78",
   "status": "proved",
   "theorems": [
    "C78_all_features",
    "C78_without_rayon",
    "C78_without_both",
    "C78_own_files"
   ],
   "note": "Proved for every execution, with checkpoint managers, file failures and resumed runs. The first theorem shows that the build-dependent transcription with all features is the one of the other properties."
  },
  {
   "property": "C79",
   "status": "partial",
   "theorems": [
    "C79_reuse_refuted",
    "C79_seed_refuted",
    "C79_first_run_partial"
   ],
   "note": "Refuted twice: the leftover current_iteration changes the shuffle of a later run, and seed + iteration panics with overflow checks for seeds near 2^64. Proved for first runs otherwise."
  },
  {
   "property": "C80",
   "status": "partial",
   "theorems": [
    "C80_same_build",
    "C80_accepted_refuted",
    "C80_refused_partial",
    "C80_run_reports"
   ],
   "note": "Refuted: a file with a batch size and zero (or tiny) tolerances is accepted with other (tiny) tolerances and an empty timestamp. Proved: round trip and torn files per build; refusal of every other foreign file with an ordinary timestamp; a refused file makes the run return an error."
  },
  {
   "property": "C81",
   "status": "partial",
   "theorems": [
    "C81_lost_refuted",
    "C81_counted_partial",
    "C81_never_more"
   ],
   "note": "Refuted: when one result of a parallel batch reaches the target, the evaluations of the batch's remaining finished searches are not counted. Proved: exact in sequential mode and without a target; never more than were made in every run."
  },
  {
   "property": "C82",
   "status": "partial",
   "theorems": [
    "C82_same_run",
    "C82_keeps_growing_refuted",
    "C82_stage1_partial",
    "C82_stage2_partial",
    "C82_elapsed"
   ],
   "note": "Refuted: end() leaves the stage's start in place, so total_time() goes on growing after the stage is over. Proved for every run: total_time() is the time since the stage (for Stage 1: the run) was started, elapsed_time() is the time since the last run was started if timing is on, and the timed run is the run without timers. Missing: the time stops at the stage's end."
  },
  {
   "property": "C83",
   "status": "partial",
   "theorems": [
    "C83_resume_refuted",
    "C83_readings_partial",
    "C83_run_partial"
   ],
   "note": "Refuted: a process that resumes counts from zero. Proved: within a process each checkpoint stores the value of a clock reading made after those of all earlier checkpoints, so the times never decrease if the clock does not go back."
  },
  {
   "property": "C84",
   "status": "partial",
   "theorems": [
    "C84_same_run",
    "C84_terminal_refuted",
    "C84_panics_partial"
   ],
   "note": "Refuted: each call of the bar library is followed by expect, so a terminal that cannot be written makes run() panic. Proved: if all calls succeed the run is the one without bars; in general it is that run or a panic after a failed call."
  },
  {
   "property": "C85",
   "status": "partial",
   "theorems": [
    "C85_stage1_refuted",
    "C85_stage2_refuted",
    "C85_fresh_partial",
    "C85_resumed_partial"
   ],
   "note": "Refuted: the Stage 1 bar has a total of 3 and is advanced 5 times; the Stage 2 bar is never advanced by the loop. Proved: exactly these positions for every fresh and every resumed run that returns."
  },
  {
   "property": "C86",
   "status": "partial",
   "theorems": [
    "C86_names",
    "C86_same_build",
    "C86_tolerances_refuted",
    "C86_to_full_partial",
    "C86_from_full_partial"
   ],
   "note": "Refuted: a file of the build without argmin that sets absolute parameter tolerances can be read by the full build as another checkpoint (its COBYLA configuration as L-BFGS). Proved: names, own files, and that the files of default configurations of either build are refused by the other."
  },
  {
   "property": "C87",
   "status": "partial",
   "theorems": [
    "C87_accepts",
    "C87_arguments",
    "C87_omitted",
    "C87_class_defaults",
    "C87_usable",
    "C87_methods",
    "C87_agree",
    "C87_documented_refuted",
    "C87_documented_partial",
    "C87_same_refuted",
    "C87_same_partial",
    "C87_set",
    "C87_set_accepts",
    "C87_names",
    "C87_search_names"
   ],
   "note": "Refuted: the documented calls without arguments raise TypeError for every solver but COBYLA; the class refuses a bare line search object and orders the L-BFGS arguments differently. Proved: exactly which calls are accepted, what the object shows, that function and class never disagree on a call both accept, and that they accept the same fully named calls."
  },
  {
   "property": "C88",
   "status": "partial",
   "theorems": [
    "C88_same_run",
    "C88_quiet",
    "C88_stdout_refuted",
    "C88_panics_partial",
    "C88_warning_refuted"
   ],
   "note": "Refuted: println! panics when the stream cannot be written, and the warning about a smaller population is written without verbose too. Proved: if all writes succeed everything is the same; in general it is the same run or a panic after a failed write; a run without verbose writes nothing."
  },
  {
   "property": "C89",
   "status": "partial",
   "theorems": [
    "C89_solutions",
    "C89_files",
    "C89_true",
    "C89_threshold_refuted",
    "C89_threshold_partial",
    "C89_sizes_refuted",
    "C89_resume_partial"
   ],
   "note": "Refuted: the new threshold printed is x + 0.1|x| while the one set is x + threshold_factor (1 + |x|); the sizes printed when resuming are populations, not set sizes. Proved: solutions, files, the old threshold and every other line, for all runs, and the exact lines of both resume functions."
  },
  {
   "property": "C90",
   "status": "partial",
   "theorems": [
    "C90_callbacks_partial",
    "C90_threshold_sequential_partial",
    "C90_threshold_batches_partial",
    "C90_final_partial",
    "C90_threshold_refuted",
    "C90_added_refuted",
    "C90_reused_refuted",
    "C90_target_refuted"
   ],
   "note": "Refuted: without batches the threshold shown is the one from the start of the iteration; the run's first solution is not shown as last added; an observer used before may show an earlier optimization's best; a target reached in Stage 1 leaves the Stage 2 state untouched. Proved for all runs: iteration, set size, best solution, later added solutions at every callback and at the end, and which threshold is shown."
  },
  {
   "property": "C91",
   "status": "partial",
   "theorems": [
    "C91_stage1_attributes",
    "C91_stage2_attributes",
    "C91_properties",
    "C91_readers",
    "C91_settings",
    "C91_methods_refuted",
    "C91_methods_partial",
    "C91_chain_refuted",
    "C91_chain",
    "C91_no_chain",
    "C91_callback",
    "C91_source_callback",
    "C91_source_callback_refuted",
    "C91_class_callback",
    "C91_class_callback_refuted",
    "C91_logging",
    "C91_logging_refuted",
    "C91_statistics_partial",
    "C91_statistics_refuted"
   ],
   "note": "Refuted: flush_messages does not exist; the documented chain raises AttributeError at its second call; two of the three documented callbacks raise TypeError at every call and print nothing in any run; the default callback without tracking logs nothing in any run; the final statistics raise AttributeError when Stage 1 reaches the target. Proved for all runs: all attributes, properties, readers and settings, what the stub file's callback prints, and the statistics without a target."
  },
  {
   "property": "C92",
   "status": "partial",
   "theorems": [
    "C92_stale",
    "C92_live_refuted",
    "C92_locked",
    "C92_after",
    "C92_result",
    "C92_reused",
    "C92_reused_refuted"
   ],
   "note": "Refuted: at every callback the observer object still shows the state from before the run, and an observer that served one successful run never shows Stage 1 progress to the callbacks of later runs. Proved: it cannot be reconfigured during a run, what it shows after success or failure, and that callbacks, whatever they do or raise, change neither the result nor the object."
  },
  {
   "property": "C93",
   "status": "partial",
   "theorems": [
    "C93_cobyla_refuted",
    "C93_returned_partial",
    "C93_stored_partial",
    "C93_argmin_partial"
   ],
   "note": "Refuted for COBYLA only: it is handed +infinity where the objective returns an error, so a returned solution may stand for a point at which the objective fails. Proved over whole sessions: each solution has the true value or, with COBYLA, +infinity at a point where the objective fails; without COBYLA always the true value."
  },
  {
   "property": "C94",
   "status": "partial",
   "theorems": [
    "C94_trial_refuted",
    "C94_directory_refuted",
    "C94_success_partial",
    "C94_errors"
   ],
   "note": "Refuted: an objective error at a Stage 1 trial point is dropped with the point; with keep_all a directory that cannot be listed counts as having no checkpoint, so auto-resume silently starts over. Proved: nothing else is swallowed (Stage 2 evaluations, local searches, all other disk operations), and every error a run returns is explained by a failure of that run. COBYLA's own objective errors are the subject of C93."
  },
  {
   "property": "C95",
   "status": "proved",
   "theorems": [
    "C95_returned",
    "C95_stored",
    "C95_others"
   ],
   "note": "Proved over whole sessions for an arbitrary guarantee of COBYLA; that cobyla itself gives feasible points is a hypothesis."
  },
  {
   "property": "C96",
   "status": "partial",
   "theorems": [
    "C96_threads_refuted",
    "C96_schedule_refuted",
    "C96_error_refuted",
    "C96_sequential_partial",
    "C96_parallel_partial"
   ],
   "note": "Refuted three ways: the default batch size depends on the thread count (two minima found or one), the schedule changes a rounded sum in Stage 1 (global minimum found or missed), and either of two failures may be reported. Proved: sequential runs depend on nothing of the machine, with checkpointing and resume included; successful parallel runs with a set batch size (or equal thread count) do not either, when resumed or with at most 8 members and 5 custom points."
  },
  {
   "property": "C97",
   "status": "partial",
   "theorems": [
    "C97_overflow_refuted",
    "C97_nan_refuted",
    "C97_points_partial",
    "C97_search"
   ],
   "note": "Refuted for finite bounds whose sum overflows (Stage 1 evaluates at infinity) and for custom points with a NaN coordinate, which with_points accepts. Proved (C97_points_partial) for bounds whose sum and width are finite and NaN-free custom points, and for the scatter search alone (C97_search). Evaluations that a local solver makes on its own are outside the model."
  },
  {
   "property": "C98",
   "status": "proved",
   "theorems": [
    "C98_fresh",
    "C98_search",
    "C98_resumed"
   ],
   "note": "Evaluations that a local solver makes on its own are outside the model. n is below 2^52, so that the floating-point square root is exact."
  },
  {
   "property": "C99",
   "status": "partial",
   "theorems": [
    "C99_same_result_refuted",
    "C99_no_worse_partial",
    "C99_stage1_partial"
   ],
   "note": "Full statement refuted: the second run keeps the first run's set and shuffles with seed + the iteration at which the first ended."
  },
  {
   "property": "C100",
   "status": "partial",
   "theorems": [
    "C100_same_result_refuted",
    "C100_saved",
    "C100_rest_partial",
    "C100_once_partial",
    "C100_lost_refuted",
    "C100_kept_cost_partial",
    "C100_kept_partial"
   ],
   "note": "False as stated: the last candidate is judged again and the set may differ (C100_same_result_refuted). With one file per save and candidates in batches the next program can return a strictly worse set than the finished run did, because the file with the greatest number is not the newest (C100_lost_refuted). Proved: what a successful run leaves on disk; with one file, that only the last candidate is judged again and the set is not worse; with one file per save, the same cost bound in every mode, and that the set is not worse after a sequential run."
  },
  {
   "property": "C101",
   "status": "partial",
   "theorems": [
    "C101_requested_refuted",
    "C101_mixed_refuted",
    "C101_session_partial"
   ],
   "note": "Refuted: resume_with_modified_params replaces the parameters but not the stored local solver, so the requested solver is not used by sequential searches (C101_requested_refuted) and in parallel mode one run mixes both (C101_mixed_refuted). C101_session_partial: missing are sessions in which parameters passed when resuming, or those of another optimizer on the directory, name another solver or configuration."
  },
  {
   "property": "C102",
   "status": "proved",
   "theorems": [
    "C102_run",
    "C102_session"
   ],
   "note": "Proved under the hypothesis asks_only: argmin calls only the functions in the trait bounds of the solver it was asked for (trusted, argmin is not modelled)."
  },
  {
   "property": "C103",
   "status": "partial",
   "theorems": [
    "C103_torn_refuted",
    "C103_resume_partial",
    "C103_cost_partial",
    "C103_parallel_refuted",
    "C103_batches_partial",
    "C103_batches_cost_partial",
    "C103_first_file_refuted",
    "C103_keep_all_partial",
    "C103_keep_all_cost_partial"
   ],
   "note": "False as stated: the file is written in place, so a process that dies during a save leaves a file that the next one refuses (C103_torn_refuted); in parallel mode the candidates of a batch are begun out of order (C103_parallel_refuted); with one file per save the file of iteration 0 is not found (C103_first_file_refuted). Proved for deaths outside of a write: with one checkpoint file in sequential mode as stated, in every mode with twice the other candidates of a batch added, and so with one file per save once the iteration is further from 0 than that bound."
  },
  {
   "property": "C104",
   "status": "partial",
   "theorems": [
    "C104_callbacks_refuted",
    "C104_size_refuted",
    "C104_nan_refuted",
    "C104_least_partial"
   ],
   "note": "False as stated: inside the scatter search best_objective is NaN although the reference set has been evaluated (C104_callbacks_refuted), the size announced is a fixed 3 there (C104_size_refuted), and an objective that is NaN at one point can hide the best trial point for good (C104_nan_refuted). Proved from the end of the scatter search on, for runs whose Stage 1 evaluates to no NaN."
  },
  {
   "property": "C105",
   "status": "partial",
   "theorems": [
    "C105_solver_refuted",
    "C105_exclusion_refuted",
    "C105_nan_refuted",
    "C105_fresh_partial",
    "C105_saved_partial",
    "C105_resumed_partial"
   ],
   "note": "False in general: the result is only what local solvers return, so a solver that goes uphill (C105_solver_refuted), exclude_out_of_bounds (C105_exclusion_refuted) or a NaN met in Stage 1 (C105_nan_refuted) loses the best point seen. Proved, for the first solution of the set, for solvers that do not end above their start, no NaN and no solution excluded, and for runs resumed from checkpoints of such runs."
  },
  {
   "property": "C106",
   "status": "partial",
   "theorems": [
    "C106_batch_size_refuted",
    "C106_first_steps_partial",
    "C106_no_worse_partial",
    "C106_failures_partial"
   ],
   "note": "False in general: unless the batch size is set, it is computed from the number of iterations, and judging candidates together instead of one after the other can miss a minimum (C106_batch_size_refuted: three iterations find a minimum that six miss). Proved for sequential mode and for every batch size that is set: the result is not worse. The same steps in the same order: for sequential mode and a batch size that divides the smaller count. Failures: for sequential mode and whole batches, the run with more iterations fails as the other does, unless that one found no solution or could not write a checkpoint."
  },
  {
   "property": "C107",
   "status": "proved",
   "theorems": [
    "C107_first_moves",
    "C107_only_when_met",
    "C107_no_worse"
   ],
   "note": "All three parts proved. The record is compared without checkpoint files, which hold the target. The part about the best value is for runs that start anew, with numeric objectives and tolerances that are not negative."
  },
  {
   "property": "C108",
   "status": "proved",
   "theorems": [
    "C108_first_deeds",
    "C108_only_when_exceeded",
    "C108_no_worse"
   ],
   "note": "All three parts proved. The record is compared without clock readings and checkpoint files. Against a run without any limit, which of several failures of one parallel batch is reported must not depend on the number of clock readings (the model numbers that choice by them). The part about the best value is for runs that start anew, with numeric objectives and tolerances that are not negative."
  },
  {
   "property": "C109",
   "status": "proved",
   "theorems": [
    "C109_same"
   ],
   "note": "Proved. In parallel mode, which of several failures of one batch is reported must not depend on the number of clock readings (the model numbers that choice by them). A save frequency of zero ends the run by a panic and counts as a failure to write."
  },
  {
   "property": "C110",
   "status": "proved",
   "theorems": [
    "C110_same",
    "C110_until_outside"
   ],
   "note": "Proved. A program that starts with solutions (it has run before) must start with solutions that are inside; a fresh one has none."
  },
  {
   "property": "C111",
   "status": "proved",
   "theorems": [
    "C111_until_relaxed",
    "C111_same"
   ],
   "note": "Proved. A resumed program takes the factor from the checkpoint."
  },
  {
   "property": "C112",
   "status": "proved",
   "theorems": [
    "C112_until_relaxed",
    "C112_same"
   ],
   "note": "Proved. A resumed program takes the wait cycle from the checkpoint."
  },
  {
   "property": "C113",
   "status": "proved",
   "theorems": [
    "C113_same"
   ],
   "note": "Proved. A resumed program takes the batch size from the checkpoint."
  }
 ]
}