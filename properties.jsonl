{"id": "C01", "title": "Merit filter accepts exactly the values not above the last threshold", "statement": "After any sequence of update_threshold calls on a new MeritFilter, check(v) returns true exactly when v <= t in IEEE-754 comparison, where t is the last threshold set (positive infinity if none); so a fresh filter accepts every value except NaN, a NaN value is never accepted, and a NaN threshold rejects everything.", "quantifier": "all finite histories of threshold updates and all f64 values, including infinities, signed zeros and NaNs", "why_tests_cant": "the domain is 2^64 values times unbounded histories", "anchors": ["src/filters.rs: MeritFilter::new, MeritFilter::update_threshold, MeritFilter::check"]}
{"id": "C02", "title": "Distance filter accepts exactly the points far from every recorded solution", "statement": "After any sequence of add_solution calls, DistanceFilter::check(p) is true exactly when the squared Euclidean distance from p to every added solution is strictly greater than distance_factor squared; the answer does not depend on the order of additions and adding a solution never turns a rejected point into an accepted one. DistanceFilter::new fails exactly for a factor below zero.", "quantifier": "all distance factors, all histories of additions, all query points", "why_tests_cant": "histories and point sets are unbounded", "anchors": ["src/filters.rs: DistanceFilter::new, DistanceFilter::add_solution, DistanceFilter::check, euclidean_distance_squared"]}
{"id": "C03", "title": "SolutionSet::best_solution is a true minimum", "statement": "best_solution returns None exactly on an empty set; otherwise it returns the earliest member whose objective is least in f64 total order, and no member with a non-NaN objective is strictly better than it unless it is a negative NaN.", "quantifier": "all solution sets of any size and any objective values including NaN, infinities and signed zeros", "why_tests_cant": "sets are unbounded and the order has NaN corner cases that sampled tests miss", "anchors": ["src/types.rs: SolutionSet::best_solution, SolutionSet::len, SolutionSet::is_empty, Index<usize> for SolutionSet"]}
{"id": "C04", "title": "Constructor accepts exactly the documented parameter region", "statement": "OQNLP::new succeeds exactly when population_size >= 4, iterations <= population_size, threshold_factor is not <= 0 and distance_factor is not < 0, and otherwise reports the first violated rule in that order, carrying the offending values; a successful construction starts with an empty solution set, an infinite merit threshold and the documented defaults.", "quantifier": "all parameter records including NaN and infinite factors", "why_tests_cant": "the rule must hold for every combination of four numeric parameters", "anchors": ["src/oqnlp.rs: OQNLP::new, OQNLPError::InvalidPopulationSize, InvalidIterations, InvalidThresholdFactor, DistanceFilterError"]}
{"id": "C05", "title": "Documented minimum population of 3 is usable", "statement": "The error text and rustdoc of OQNLP say population size should be at least 3: every parameter record with population_size = 3 (and other fields valid) is accepted.", "quantifier": "all parameter records with population_size = 3", "why_tests_cant": "documentation/code agreement over all remaining parameters", "anchors": ["src/oqnlp.rs: OQNLP::new, OQNLPError::InvalidPopulationSize"]}
{"id": "C06", "title": "Custom points are validated completely and reported precisely", "statement": "with_points succeeds exactly when every row has as many coordinates as the problem has variables and no coordinate compares below its lower or above its upper bound; on success the stored points are exactly the rows in order; on failure the error names the first offending row, a dimension fault being reported before a bound fault of the same row.", "quantifier": "all point matrices and all bounds", "why_tests_cant": "unbounded number of rows, coordinates and values", "anchors": ["src/oqnlp.rs: OQNLP::with_points, InvalidCustomPointsDimension, CustomPointOutOfBounds"]}
{"id": "C07", "title": "Scatter search rejects exactly the empty or inverted bounds", "statement": "ScatterSearch::new fails exactly when some variable has lower >= upper, and the error names the first such variable with its two bounds; NaN bounds are not rejected.", "quantifier": "all bound matrices of any dimension", "why_tests_cant": "any dimension, any f64 pair", "anchors": ["src/scatter_search.rs: ScatterSearch::new, ScatterSearchError::InvalidBounds"]}
{"id": "C08", "title": "Every Stage 1 reference point lies inside the variable bounds", "statement": "For finite bounds whose sums and differences do not overflow, and validated custom points, every point of the reference set returned by ScatterSearch::run has the problem's dimension and every coordinate between its lower and upper bound.", "quantifier": "all problems, seeds, random generators, custom points, schedules", "why_tests_cant": "random points, unbounded populations and dimensions, floating-point rounding", "anchors": ["src/scatter_search.rs: ScatterSearch::run, initialize_reference_set, generate_stratified_samples, combine_points, apply_bounds, update_reference_set"]}
{"id": "C09", "title": "The midpoint seed is inside the bounds for every accepted bound pair", "statement": "For every pair of finite bounds accepted by ScatterSearch::new, the midpoint seed placed in the reference set lies between them.", "quantifier": "all finite lower < upper", "why_tests_cant": "overflow of lower+upper happens only for extreme magnitudes", "anchors": ["src/scatter_search.rs: ScatterSearch::initialize_reference_set"]}
{"id": "C10", "title": "Trial points never leave the box", "statement": "Every coordinate of every trial point produced by combine_points is either NaN or inside its bounds, whatever the parents and the random perturbations; exactly 6 trial points are produced for each unordered pair of the k best members, with k = min(n, max(2, floor(sqrt n))).", "quantifier": "all parent points (finite or not), all seeds and generators, all reference set sizes", "why_tests_cant": "arbitrary floats and random draws", "anchors": ["src/scatter_search.rs: combine_points, apply_bounds, generate_trial_points"]}
{"id": "C11", "title": "Stage 1 with constraints returns only feasible points", "statement": "If the problem has constraints, no point of the reference set returned by Stage 1 has a constraint that evaluates below zero, including seed points, custom points, random samples and trial points.", "quantifier": "all problems, constraint functions, seeds, custom points and schedules", "why_tests_cant": "arbitrary constraint functions and random samples", "anchors": ["src/scatter_search.rs: is_feasible, initialize_reference_set, diversify_reference_set, update_reference_set"]}
{"id": "C12", "title": "Reference set has exactly population_size members", "statement": "When Stage 1 succeeds and the seeds plus custom points do not outnumber population_size, the returned reference set has exactly population_size members; Stage 1 never fails for lack of candidates (NoCandidates) and, without constraints, fails only because of an objective evaluation error or invalid bounds.", "quantifier": "all problems, populations, seeds and schedules", "why_tests_cant": "loop termination and size accounting over unbounded populations", "anchors": ["src/scatter_search.rs: run, diversify_reference_set, update_reference_set, best_solution"]}
{"id": "C13", "title": "Custom points that outnumber the population are bounded", "statement": "The reference set returned by Stage 1 never has more than population_size members, even with many custom points.", "quantifier": "all custom point lists", "why_tests_cant": "depends on whether any trial point is accepted", "anchors": ["src/scatter_search.rs: initialize_reference_set, update_reference_set (comment: ensures reference set always has exactly population_size points)"]}
{"id": "C14", "title": "Reference set objectives belong to their points", "statement": "Each pair (point, value) in the reference set returned by ScatterSearch::run satisfies value = objective(point), through sorting, partial selection, merging and truncation.", "quantifier": "all objectives, populations, seeds, sort and selection outcomes", "why_tests_cant": "unstable sort and selection may permute arbitrarily", "anchors": ["src/scatter_search.rs: run, initialize_reference_set, update_reference_set"]}
{"id": "C15", "title": "Intensification never loses the best points", "statement": "Updating the reference set keeps the population_size smallest (in f64 total order) of the old members and accepted trial points: no discarded one is smaller than a kept one, and the best value never gets worse; a trial enters only if feasible, farther than 10 percent of the sampled mean squared distance from the first five members, successfully evaluated and strictly better than the last stored value.", "quantifier": "all reference sets, trial lists and sort/selection outcomes", "why_tests_cant": "selection is by an unstable partial order statistic on arbitrary data", "anchors": ["src/scatter_search.rs: update_reference_set"]}
{"id": "C16", "title": "The Stage 1 candidate is the best reference point", "statement": "The point that Stage 1 hands to the first local search is a member of the returned reference set whose objective value is least in f64 total order.", "quantifier": "all reference sets", "why_tests_cant": "unbounded sets, ties and NaN", "anchors": ["src/scatter_search.rs: best_solution, run; src/oqnlp.rs: OQNLP::run"]}
{"id": "C17", "title": "Diversification is greedy farthest-point selection", "statement": "Each point that diversification adds maximizes, among the candidates still available, the minimum squared distance to the points already in the set (with cached distances equal to freshly computed ones); points are never lost or invented: set plus remaining candidates is always a permutation of the initial set plus generated candidates.", "quantifier": "all candidate lists, initial sets and distances", "why_tests_cant": "incremental cache with swap_remove over unbounded lists", "anchors": ["src/scatter_search.rs: diversify_reference_set, min_distance"]}
{"id": "C18", "title": "Feasible sampling effort is bounded and failures are reported", "statement": "With constraints, diversification draws at most population_size + 20*population_size samples; it fails with NoFeasibleCandidates exactly when, after the retry loop, no feasible sample exists or set plus samples cannot reach population_size; the reported attempt count is at most 10 and the dimension is the problem's.", "quantifier": "all constraint functions and random generators", "why_tests_cant": "retry loop over arbitrary random outcomes", "anchors": ["src/scatter_search.rs: diversify_reference_set, ScatterSearchError::NoFeasibleCandidates"]}
{"id": "C19", "title": "Parallel minimum distance does not depend on the schedule", "statement": "The parallel min_distance returns the same value for every way rayon may split and combine the reference set, and that value is the IEEE minimum of the distances (infinity for an empty set), skipping NaN.", "quantifier": "all reference sets, points and all reduction trees", "why_tests_cant": "schedules are chosen by the runtime", "anchors": ["src/scatter_search.rs: ScatterSearch::min_distance"]}
{"id": "C20", "title": "Parallel and sequential minimum distance agree", "statement": "min_distance returns the same value with parallel processing enabled and disabled.", "quantifier": "all points and reference sets", "why_tests_cant": "they differ only on nearly coincident points", "anchors": ["src/scatter_search.rs: ScatterSearch::min_distance"]}
{"id": "C21", "title": "Stage 1 is reproducible: same seed, same result in parallel mode", "statement": "For a fixed problem, parameters and seed, the reference set produced with parallel processing enabled is the same for every thread schedule.", "quantifier": "all thread schedules", "why_tests_cant": "schedules are not controllable from a test", "anchors": ["src/scatter_search.rs: update_reference_set (parallel sum), min_distance, generate_stratified_samples"]}
{"id": "C22", "title": "Returned solutions are all within tolerance of the first", "statement": "After any history of local solutions, every member of the solution set other than the first has |objective - first objective| <= max(abs_tol, rel_tol*max(|objective|,|first objective|)).", "quantifier": "all histories of processed local solutions, all tolerances", "why_tests_cant": "histories are unbounded and the set is rebuilt and extended incrementally", "anchors": ["src/oqnlp.rs: OQNLP::process_local_solution"]}
{"id": "C23", "title": "Returned solutions are pairwise separated", "statement": "After any history of local solutions, any two distinct members of the solution set are at squared distance not less than distance_factor squared.", "quantifier": "all histories, all distance factors", "why_tests_cant": "pairwise claim over unbounded histories", "anchors": ["src/oqnlp.rs: process_local_solution, is_duplicate_in_set"]}
{"id": "C24", "title": "No repeated solutions with distance_factor zero", "statement": "With distance_factor = 0 the solution set never contains the same point twice.", "quantifier": "all histories with distance_factor = 0", "why_tests_cant": "boundary of a strict comparison", "anchors": ["src/oqnlp.rs: is_duplicate_in_set"]}
{"id": "C25", "title": "The leading objective never gets worse and no much better solution is lost", "statement": "Over any history of local solutions with non-NaN objectives and non-negative tolerances, the objective of the first member of the solution set never increases, and every processed (and not excluded) local solution is not better than the leading objective at that time by more than the tolerance; with zero tolerances the final leading objective is <= every processed objective.", "quantifier": "all histories of local solutions with non-NaN objectives", "why_tests_cant": "monotonicity over unbounded histories with floating-point rounding", "anchors": ["src/oqnlp.rs: process_local_solution"]}
{"id": "C26", "title": "A NaN local solution does not block later improvement", "statement": "If the first local solution has a NaN objective, a later local solution with a finite objective still replaces it.", "quantifier": "all histories whose first objective is NaN", "why_tests_cant": "needs a failing evaluation at one particular moment", "anchors": ["src/oqnlp.rs: process_local_solution"]}
{"id": "C27", "title": "exclude_out_of_bounds keeps every returned solution inside the bounds", "statement": "With exclude_out_of_bounds enabled from the start, every solution ever stored in or returned from the solution set has no coordinate below its lower or above its upper bound, whatever the local solver returns, in sequential and in parallel processing.", "quantifier": "all problems, local solver outcomes, schedules and histories", "why_tests_cant": "local solvers can return anything", "anchors": ["src/oqnlp.rs: process_local_solution, is_within_bounds, run"]}
{"id": "C28", "title": "Every returned solution is a local solver result", "statement": "Each solution in the set returned by run is a result the local solver returned for a start point of the current reference set (or for the best Stage 1 point), unmodified, or was restored from a checkpoint.", "quantifier": "all runs", "why_tests_cant": "must hold for every history", "anchors": ["src/oqnlp.rs: run, process_batch_sequential, process_batch_parallel, process_local_solution"]}
{"id": "C29", "title": "Local searches start only from candidates passing both filters", "statement": "In Stage 2 a local search is started from a candidate only if the objective value attributed to it is <= the current merit threshold and its squared distance to every earlier local solution exceeds distance_factor squared; rejected candidates start none.", "quantifier": "all runs, thresholds and filter histories", "why_tests_cant": "state dependent decision over unbounded histories", "anchors": ["src/oqnlp.rs: should_start_local, process_batch_sequential, process_batch_parallel"]}
{"id": "C30", "title": "The merit filter judges a candidate by its own objective value", "statement": "The objective value that Stage 2 attributes to a candidate is the objective function evaluated at that candidate.", "quantifier": "all runs and all shuffles", "why_tests_cant": "depends on the random shuffle of the reference set", "anchors": ["src/oqnlp.rs: run (shuffle), process_batch_sequential (ref_objectives), process_batch_parallel"]}
{"id": "C31", "title": "Stage 2 work is bounded by iterations and population", "statement": "One call of run processes each of at most min(iterations, reference set size) candidates at most once and makes at most that many Stage 2 local searches plus one Stage 1 local search; run always terminates.", "quantifier": "all problems, parameters, batch sizes, schedules", "why_tests_cant": "termination and counting claims", "anchors": ["src/oqnlp.rs: run, process_batch_sequential, process_batch_parallel"]}
{"id": "C32", "title": "Target objective stops the search", "statement": "If a target objective is set, then as soon as the best stored objective is <= the target (and in bounds when exclusion is on) no further candidate is processed and no further local search result enters the set; when run ends early for this reason the returned best objective is <= the target.", "quantifier": "all runs, targets and batch sizes", "why_tests_cant": "depends on the point of the run at which the target is met", "anchors": ["src/oqnlp.rs: target_objective_reached, run, process_batch_sequential, process_batch_parallel"]}
{"id": "C33", "title": "Time limit stops Stage 2 at the next batch boundary", "statement": "If a maximum time is set, no batch is started after a clock reading above the limit, so at most one batch of candidates is processed after the limit passes; without a limit the clock has no influence on the result.", "quantifier": "all clock behaviours and batch sizes", "why_tests_cant": "timing cannot be controlled in tests", "anchors": ["src/oqnlp.rs: run (start_timer, max_time)"]}
{"id": "C34", "title": "Wait-cycle threshold relaxation", "statement": "The unchanged-cycle counter stays below max(1, wait_cycle), increases by one for each rejected candidate, and the threshold is relaxed exactly when wait_cycle rejections have accumulated, to threshold + threshold_factor*(1+|threshold|).", "quantifier": "all sequences of accepted and rejected candidates", "why_tests_cant": "unbounded sequences", "anchors": ["src/oqnlp.rs: process_batch_sequential, process_batch_parallel, adjust_threshold"]}
{"id": "C35", "title": "Threshold relaxation never tightens the filter", "statement": "adjust_threshold never lowers a non-NaN threshold when threshold_factor is positive, and a finite threshold never becomes NaN.", "quantifier": "all non-NaN thresholds and positive factors", "why_tests_cant": "rounding and overflow over all f64", "anchors": ["src/oqnlp.rs: adjust_threshold"]}
{"id": "C36", "title": "unchanged_cycles counts consecutive iterations without improvement", "statement": "The unchanged-cycles counter is reset whenever the solution set improves (as the Stage 2 state documentation says).", "quantifier": "all iteration histories", "why_tests_cant": "needs particular accept/reject interleavings", "anchors": ["src/oqnlp.rs: process_batch_sequential; src/observers/stage2.rs: unchanged_cycles"]}
{"id": "C37", "title": "Parallel batches give the sequential result", "statement": "Processing a batch of candidates with process_batch_parallel leaves the same solution set as processing the same candidates sequentially.", "quantifier": "all batches and states", "why_tests_cant": "filters are consulted once per batch instead of once per candidate", "anchors": ["src/oqnlp.rs: process_batch_parallel, process_batch_sequential"]}
{"id": "C38", "title": "Attaching an observer does not change the optimization result", "statement": "For every observer configuration with non-zero callback frequency, run with the observer returns the same result and leaves the same optimizer state and files as run without it.", "quantifier": "all observers, callbacks, problems and parameters", "why_tests_cant": "noninterference over all runs", "anchors": ["src/oqnlp.rs: run, process_batch_sequential, process_batch_parallel; src/observers/mod.rs"]}
{"id": "C39", "title": "Observer counters and best values are monotone and consistent", "statement": "Over any sequence of update calls, evaluation, local-solver and trial-point counters never decrease, improved_local_calls <= local_solver_calls, and the recorded best objective, once not NaN, never increases and is the least of the values reported so far.", "quantifier": "all sequences of state updates", "why_tests_cant": "unbounded sequences", "anchors": ["src/observers/stage1.rs: Stage1State; src/observers/stage2.rs: Stage2State"]}
{"id": "C40", "title": "Callbacks fire at the configured frequency", "statement": "In sequential Stage 2 the callback is invoked after an iteration exactly when the iteration index is a multiple of the callback frequency (unless the target was just reached); in parallel batches the same frequency is respected.", "quantifier": "all frequencies, iteration ranges, batch sizes", "why_tests_cant": "unbounded iterations, several code paths", "anchors": ["src/observers/mod.rs: should_invoke_callback, invoke_callback; src/oqnlp.rs: process_batch_sequential, process_batch_parallel"]}
{"id": "C41", "title": "Observer exposes only enabled and active stages", "statement": "stage1() returns a state exactly when Stage 1 tracking is on and Stage 1 is not complete, stage1_final() whenever tracking is on, stage2() exactly when Stage 2 tracking is on and Stage 2 has started, for every builder and event history.", "quantifier": "all observer builder sequences and event histories", "why_tests_cant": "unbounded histories", "anchors": ["src/observers/mod.rs: stage1, stage1_final, stage2, mark_stage1_complete, mark_stage2_started, should_observe_stage1, should_observe_stage2"]}
{"id": "C42", "title": "improved_local_calls counts the local searches that improved the solution set", "statement": "Each Stage 2 local search that changes the solution set, in particular one that finds a new best solution, increments improved_local_calls.", "quantifier": "all Stage 2 iterations", "why_tests_cant": "needs the replacement branch", "anchors": ["src/oqnlp.rs: process_local_solution, process_batch_sequential; src/observers/stage2.rs: add_local_solver_call"]}
{"id": "C43", "title": "Stage 1 function_evaluations counts all Stage 1 objective evaluations", "statement": "The Stage 1 counter covers initial points, diversification points, trial points and local optimization evaluations, as documented.", "quantifier": "all Stage 1 runs", "why_tests_cant": "needs counting of calls on every path", "anchors": ["src/observers/stage1.rs: function_evaluations; src/scatter_search.rs: run"]}
{"id": "C44", "title": "Checkpoint then restore is lossless", "statement": "Restoring a checkpoint created from an optimizer gives an optimizer with the same parameters, iteration, threshold, solution set, reference set, distance-filter solutions, unchanged cycles, seed, target, exclusion flag, batch size, parallel flag and tolerances.", "quantifier": "all optimizer states", "why_tests_cant": "many fields, arbitrary values", "anchors": ["src/oqnlp.rs: create_checkpoint, restore_from_checkpoint; src/types.rs: OQNLPCheckpoint"]}
{"id": "C45", "title": "Checkpoint bytes decode to the checkpoint that was encoded", "statement": "For every checkpoint value, decoding the bytes written by save_checkpoint yields the same checkpoint (bit-exact floats, NaN class preserved), and no strict prefix of those bytes (a torn write) decodes successfully.", "quantifier": "all checkpoint values and all truncation points", "why_tests_cant": "unbounded nested data and every crash point within the write", "anchors": ["src/checkpoint.rs: save_checkpoint, load_checkpoint_from_path, read_checkpoint_file; src/types.rs: serialize_vec_array1, deserialize_vec_array1, OQNLPCheckpoint"]}
{"id": "C46", "title": "Loading returns what was saved last", "statement": "With keep_all=false load_latest_checkpoint returns the checkpoint of the most recent save; with keep_all=true it returns the one saved with the greatest iteration number, for iteration numbers >= 1 and a directory containing any other files whose names do not parse as checkpoints of this name.", "quantifier": "all save histories, directory contents and listing orders", "why_tests_cant": "unbounded histories and listing orders", "anchors": ["src/checkpoint.rs: save_checkpoint, load_latest_checkpoint, find_latest_checkpoint, checkpoint_exists"]}
{"id": "C47", "title": "A checkpoint saved at iteration 0 can be resumed", "statement": "With keep_all=true, after saving a checkpoint for iteration 0 checkpoint_exists returns true.", "quantifier": "all directory states", "why_tests_cant": "boundary of a strict comparison", "anchors": ["src/checkpoint.rs: find_latest_checkpoint"]}
{"id": "C48", "title": "Checkpoint file names are unambiguous", "statement": "In keep_all mode different iterations give different file names, and the iteration parsed from a generated name is the iteration it was generated from, for every usize iteration including those of more than six digits.", "quantifier": "all iterations and checkpoint names", "why_tests_cant": "unbounded iteration numbers", "anchors": ["src/checkpoint.rs: save_checkpoint, find_latest_checkpoint, cleanup_old_checkpoints"]}
{"id": "C49", "title": "Checkpoints of different names do not interfere", "statement": "Saving under one checkpoint name never changes what another checkpoint name loads from the same directory.", "quantifier": "all pairs of distinct checkpoint names and modes", "why_tests_cant": "string prefix coincidences", "anchors": ["src/checkpoint.rs: find_latest_checkpoint, save_checkpoint"]}
{"id": "C50", "title": "Cleanup keeps exactly the newest checkpoints", "statement": "cleanup_old_checkpoints(n) with n >= 1 in keep_all mode removes exactly those checkpoint files of this name that are not among the n greatest iterations, touches no other file, and does not change what load_latest_checkpoint returns; otherwise it removes nothing.", "quantifier": "all directory contents, listing orders and n", "why_tests_cant": "unbounded directories", "anchors": ["src/checkpoint.rs: cleanup_old_checkpoints"]}
{"id": "C51", "title": "A crash while saving never loses the previous checkpoint", "statement": "If the process stops at any point during save_checkpoint, a loadable checkpoint that existed before is still returned by load_latest_checkpoint (or the new one is).", "quantifier": "all crash points inside a save", "why_tests_cant": "crash points are not reachable by unit tests", "anchors": ["src/checkpoint.rs: save_checkpoint (fs::write), load_latest_checkpoint"]}
{"id": "C52", "title": "Periodic saves happen exactly at multiples of save_frequency and at the end", "statement": "In sequential processing a checkpoint is written after iteration i exactly when i is a multiple of save_frequency (and the target was not just reached), each carrying the state after iteration i, plus one final checkpoint when Stage 2 ends.", "quantifier": "all frequencies, iteration counts", "why_tests_cant": "unbounded runs", "anchors": ["src/oqnlp.rs: maybe_save_checkpoint, maybe_save_final_checkpoint, process_batch_sequential"]}
{"id": "C53", "title": "Resuming after a crash gives the result of the uninterrupted run", "statement": "Stopping after a checkpoint and running again with auto_resume yields the same solution set as the run without interruption.", "quantifier": "all problems and crash points between iterations", "why_tests_cant": "all crash points", "anchors": ["src/oqnlp.rs: run, try_resume_from_checkpoint, restore_from_checkpoint, create_checkpoint"]}
{"id": "C54", "title": "Resuming never skips an unprocessed candidate", "statement": "For every crash point, every candidate index below the iteration a resumed run starts from was fully processed before the crash.", "quantifier": "all crash points in sequential and parallel processing", "why_tests_cant": "crash points and batch interleavings", "anchors": ["src/oqnlp.rs: process_batch_parallel, process_batch_sequential, maybe_save_checkpoint, run"]}
{"id": "C55", "title": "resume_with_modified_params takes effect in the next run", "statement": "After resume_with_modified_params(new) returns true, the following run uses the new parameters.", "quantifier": "all checkpoints and new parameters", "why_tests_cant": "interaction of three features", "anchors": ["src/oqnlp.rs: resume_with_modified_params, run, try_resume_from_checkpoint"]}
{"id": "C56", "title": "Expanding the population keeps the checkpointed points", "statement": "resume_with_modified_params with a larger population keeps every checkpointed reference point, in order, as a prefix of the new reference set and fills it to the new size with in-bounds, feasible points; with an equal or smaller population the reference set is unchanged.", "quantifier": "all checkpoints, populations and generators", "why_tests_cant": "random points, unbounded sizes", "anchors": ["src/oqnlp.rs: resume_with_modified_params, expand_reference_set; src/scatter_search.rs: diversify_reference_set"]}
{"id": "C57", "title": "Local solver type and configuration must match", "statement": "solve fails with the configuration error of the chosen solver, without evaluating the objective, exactly when the configuration variant does not belong to the solver type; when they match, the solver is run with exactly the configured parameters.", "quantifier": "all solver types and configurations", "why_tests_cant": "product of types and configurations, all parameter values", "anchors": ["src/local_solver/runner.rs: LocalSolver::solve, solve_with_tracking, solve_lbfgs, solve_nelder_mead, solve_steepestdescent, solve_trust_region, solve_newton_cg, solve_cobyla"]}
{"id": "C58", "title": "Every Newton-CG setting reaches the solver", "statement": "A Newton-CG configuration passes its curvature threshold and tolerance to the solver for both line search methods, and its line search errors are reported as Newton-CG errors.", "quantifier": "all Newton-CG configurations", "why_tests_cant": "needs both line-search branches for all values", "anchors": ["src/local_solver/runner.rs: solve_newton_cg"]}
{"id": "C59", "title": "Builders: last write wins, other fields untouched", "statement": "For every sequence of setter calls on a solver builder, build() yields a configuration in which each field equals the last value set for it, or the documented default if never set.", "quantifier": "all setter sequences", "why_tests_cant": "unbounded call sequences", "anchors": ["src/local_solver/builders.rs: LBFGSBuilder, NelderMeadBuilder, SteepestDescentBuilder, TrustRegionBuilder, NewtonCGBuilder, COBYLABuilder, MoreThuenteBuilder, HagerZhangBuilder"]}
{"id": "C60", "title": "Solver names parse case-insensitively to exactly the six solvers", "statement": "LocalSolverType::from_string accepts exactly the documented spellings in any letter case, maps each to its solver and rejects every other string.", "quantifier": "all strings", "why_tests_cant": "unbounded strings", "anchors": ["src/types.rs: LocalSolverType::from_string"]}
{"id": "C61", "title": "Python constraints are evaluated for the right problem", "statement": "A constraint function obtained from a PyProblem evaluates that problem's own constraint of the same index.", "quantifier": "all interleavings of constraints() calls on several problems and threads", "why_tests_cant": "depends on thread-local state and interleaving", "anchors": ["python/src/lib.rs: constraint_fn_N, PyProblem::constraints, set_current_problem_id, evaluate_constraints_for_id"]}
{"id": "C62", "title": "Squared distance is symmetric, non-negative and zero on the diagonal", "statement": "For all points of equal dimension the squared distance used by the filters is the same in both argument orders, is never below zero, and is zero from a finite point to itself.", "quantifier": "all points of all dimensions", "why_tests_cant": "floating-point identities over all values", "anchors": ["src/filters.rs: euclidean_distance_squared; src/scatter_search.rs: euclidean_distance_squared; src/oqnlp.rs: is_duplicate_in_set"]}
{"id": "C63", "title": "No panic for sane configurations", "statement": "If save_frequency, callback frequency and batch size are non-zero, bounds are finite with finite width and seed + iterations does not overflow, run never panics: it returns a solution set or an error.", "quantifier": "all problems, objective errors, local solver errors, schedules", "why_tests_cant": "absence of panics over all executions", "anchors": ["src/oqnlp.rs: run, process_batch_sequential, process_batch_parallel, maybe_save_checkpoint; src/scatter_search.rs"]}
{"id": "C64", "title": "An infinite first objective does not block later improvement", "statement": "If the first stored local solution has objective +infinity (what the COBYLA adapter reports when the objective function fails), a later local solution with a finite objective replaces it as the leader.", "quantifier": "all parameter records, tolerances and pairs of local solutions", "why_tests_cant": "Depends on inf - inf arithmetic for every tolerance; a test with ordinary values never reaches it.", "anchors": ["src/oqnlp.rs: process_local_solution", "src/local_solver/runner.rs: solve_cobyla"]}
{"id": "C65", "title": "unique_updates prints only changed Stage 2 states", "statement": "With unique_updates on, the default callback prints a Stage 2 line exactly when one of best objective, solution set size, threshold, local solver calls, improved calls or function evaluations differs from the state seen by the previous Stage 2 callback (the first one always prints).", "quantifier": "all sequences of Stage 2 states seen by successive callbacks", "why_tests_cant": "the filter depends on the whole history of states; a test fixes one sequence", "anchors": ["src/observers/mod.rs: Observer::unique_updates, PreviousState::has_changed, default_callback"]}
{"id": "C66", "title": "Stored solution sets stay close and separated over whole sessions", "statement": "After any sequence of API calls on optimizers sharing a checkpoint directory (configuration calls, runs that may fail or be cut off, resumptions with other parameters, cleanups, crashes during a save, new processes), the stored solution set and the set in every readable checkpoint is non-empty, within the tolerances in force of its first member, and pairwise separated by the distance factor.", "quantifier": "all sessions: all finite sequences of calls, environments, disk failures and restarts", "why_tests_cant": "the state travels through files and restarts; sequences of calls are unbounded", "anchors": ["src/oqnlp.rs: run, with_tolerance, restore_from_checkpoint, resume_with_modified_params, resume_from_checkpoint_with_params", "src/checkpoint.rs: CheckpointManager"]}
{"id": "C67", "title": "A run that nothing stops judges every candidate exactly once", "statement": "When run returns Ok, the target was not reached and no clock reading exceeded max_time, every candidate index from the first (0, or the iteration of the checkpoint resumed from) up to min(iterations, reference set size) was judged by the filters, and none twice.", "quantifier": "all problems, parameters, batch sizes, sequential and parallel runs, resumed or not", "why_tests_cant": "must hold for every batch size, thread count and stopping history", "anchors": ["src/oqnlp.rs: OQNLP::run, process_batch_sequential, process_batch_parallel"]}
{"id": "C68", "title": "A Python optimize call runs with exactly the settings it was given", "statement": "optimize(problem, params, ...) runs the optimizer with the given parameters, seed (0 if none), solver (COBYLA if none named), solver settings, stop conditions, tolerances, flags and observer, and with the documented default configuration when none is passed. It raises ValueError exactly for an unknown solver name, a configuration object of another solver, out-of-range parameters, and custom points that do not fit; the solutions it returns are those of the run, and the observer object afterwards holds what the run's observer held. When it raises, the observer object is unchanged.", "quantifier": "all argument combinations, problems and run outcomes", "why_tests_cant": "the argument space is a product of twelve optional arguments and six configuration types", "anchors": ["python/src/lib.rs: optimize", "python/src/builders.rs: to_builder", "python/src/observers.rs: PyObserver::clone_inner"]}
{"id": "C69", "title": "Python custom points are used row by row", "statement": "The rows passed as with_points to a Python optimize call that does not fail are the custom start points of the run, each one checked against the bounds.", "quantifier": "all lists of rows of floats and all problems", "why_tests_cant": "ragged inputs of every shape have to be rejected; a test tries a few", "anchors": ["python/src/lib.rs: optimize (with_points)"]}
{"id": "C70", "title": "A default Python configuration object means the default configuration", "statement": "Passing a solver configuration object constructed without arguments gives the solver the same settings as passing no configuration for that solver.", "quantifier": "all six local solvers and both line searches", "why_tests_cant": "two sets of defaults are written in two crates; tests of one do not see the other", "anchors": ["python/src/builders.rs: default arguments", "src/local_solver/builders.rs: Default implementations", "python/src/lib.rs: optimize"]}
{"id": "C71", "title": "The Python result object presents the solution set faithfully", "statement": "best_solution returns the earliest solution with the least objective in total order and None exactly for an empty set; iterating gives the solutions in order, each once, and then stops.", "quantifier": "all solution sets, including NaN and infinite objectives", "why_tests_cant": "ranges over all lists of solutions and numbers of iterator steps", "anchors": ["python/src/lib.rs: PySolutionSet, PySolutionSetIterator"]}
{"id": "C72", "title": "A Python observer behaves as the Rust observer configured by the same calls", "statement": "After any sequence of with_... calls on a Python observer, the observer handed to the optimizer equals the Rust observer on which the same methods were called, so the callback installed last is the one used.", "quantifier": "all sequences of configuration calls", "why_tests_cant": "depends on the order of arbitrarily many calls", "anchors": ["python/src/observers.rs: PyObserver, clone_inner", "src/observers/mod.rs: with_callback, with_callback_frequency"]}
{"id": "C73", "title": "User-supplied starting points are used", "statement": "Every feasible point given as a starting point, and every feasible corner or centre of the bounds, is a member of the final reference set or has been displaced by as many no-worse points as the population size; and the local search that follows the global stage starts from a point no worse than any of them.", "quantifier": "all problems, parameters, sets of starting points and random streams", "why_tests_cant": "ranges over all objective functions and all iterations that could lose a point", "anchors": ["src/oqnlp.rs: with_points, run", "src/scatter_search.rs: initialize_reference_set, update_reference_set"]}
{"id": "C74", "title": "A printed report says what the solution set contains", "statement": "The printed report gives the number of solutions and the least objective value, lists every solution once in order with its objective and point, and for every constraint in order its description, its value at that solution and whether and by how much it is violated; a check mark is printed exactly when the constraint is called satisfied. The Python report lists the same solutions.", "quantifier": "all solution sets, problems, constraint lists and lists of descriptions, including NaN values", "why_tests_cant": "ranges over all sets and constraint functions; tests print a few sets without reading the text back", "anchors": ["src/types.rs: SolutionSet::display_with_constraints, display_with_problem, Display for SolutionSet", "python/src/lib.rs: PySolutionSet.__str__"]}
{"id": "C75", "title": "The optimizer sees the Python problem as written", "statement": "The value a Python objective or gradient returns is the value the optimizer uses, an exception is an evaluation error, and a function that was not given is reported as not implemented; the bounds of variable i are the two numbers of row i; an accepted Hessian is the matrix returned; badly shaped bounds, gradients or Hessians are rejected with an error.", "quantifier": "all Python problems, all returned lists of numbers including ragged ones, all points", "why_tests_cant": "ranges over all shapes of nested lists; tests use well-formed ones", "anchors": ["python/src/lib.rs: impl Problem for PyProblem", "src/scatter_search.rs: ScatterSearch::new"]}
{"id": "C76", "title": "Python calls never deadlock", "statement": "Whatever Python threads call optimize, sequentially or in parallel, and however the threads are scheduled, as long as the user's functions return some thread can always proceed until all calls have returned.", "quantifier": "all programs, numbers of threads and tasks, and schedules, including callbacks that call optimize", "why_tests_cant": "a deadlock depends on the schedule; tests run a few of them", "anchors": ["python/src/lib.rs: PYTHON_CALL_MUTEX, CONSTRAINT_REGISTRY, objective, constraints, evaluate_constraints_for_id, optimize", "python/src/observers.rs: clone_inner"]}
{"id": "C77", "title": "A Python function is not called while it is running", "statement": "However many threads and optimize calls there are, no function of a kind (objective, constraint, gradient, ...) is entered while another call of that kind has not returned, even when the interpreter switches threads inside it.", "quantifier": "all programs, numbers of threads and tasks, and schedules", "why_tests_cant": "overlapping calls depend on the schedule", "anchors": ["python/src/lib.rs: PYTHON_CALL_MUTEX, CONSTRAINT_REGISTRY, objective, gradient, evaluate_constraints_for_id"]}
{"id": "C78", "title": "Compiling without rayon is switching parallel processing off", "statement": "A build without the rayon feature performs the same optimization as a build with it whose optimizer has parallel(false): the same calls of the user's functions, decisions, local searches, solutions, errors, callbacks, messages and checkpoint saves, in the same order, and files that each build reads as the same state.", "quantifier": "all problems, settings, checkpoint managers, files present, failures of the file system and solvers, with and without the checkpointing feature", "why_tests_cant": "tests of one build say nothing about another, and each covers a few problems", "anchors": ["Cargo.toml: features", "src/oqnlp.rs: run, process_batch_sequential, get_stage2_batch_size, restore_from_checkpoint", "src/scatter_search.rs: cfg(feature = \"rayon\") paths", "src/types.rs: OQNLPCheckpoint"]}
{"id": "C79", "title": "The checkpointing feature alone changes nothing", "statement": "An optimizer to which no checkpoint manager was given behaves the same in a build with the checkpointing feature and in a build without it.", "quantifier": "all problems, settings, seeds, numbers of runs on one optimizer, with and without rayon and overflow checks", "why_tests_cant": "the two builds are separate programs and seeds and histories are unbounded", "anchors": ["src/oqnlp.rs: run, current_iteration, current_seed", "Cargo.toml: features"]}
{"id": "C80", "title": "Checkpoint files and builds", "statement": "Every build reads back what it wrote and refuses a torn file; a build that finds a file of a build with other features refuses it with an error or reads the same values from it.", "quantifier": "all checkpoints and cut points, both builds with checkpointing", "why_tests_cant": "the format carries no mark of the build, so whether foreign bytes are taken for a checkpoint depends on their values", "anchors": ["src/types.rs: OQNLPCheckpoint", "src/checkpoint.rs: save_checkpoint, load_checkpoint_from_path", "src/oqnlp.rs: try_resume_from_checkpoint"]}
{"id": "C81", "title": "The Stage 2 evaluation count is the number of evaluations made in Stage 2", "statement": "After a successful run with an observer that tracks Stage 2, Stage2State::function_evaluations has grown by exactly one for each candidate whose objective was evaluated in Stage 2 (the candidates of a resumed run, whose values are not cached) plus, for every local search started in Stage 2, the number of evaluations that the solver reports.", "quantifier": "every problem, solver and optimizer state, fresh or resumed, sequential or parallel with any batch size, with or without a target, with any callback that leaves the observer's Stage 2 state alone", "why_tests_cant": "The count is the sum over every search of every batch, updated on four different code paths, and is lost on an early stop inside a batch that a test only meets with a target, a batch and a particular order of results.", "anchors": ["src/oqnlp.rs: process_batch_sequential, process_batch_parallel, run", "src/observers/stage2.rs: Stage2State::function_evaluations, add_function_evaluations", "src/local_solver/runner.rs: solve_with_tracking"]}
{"id": "C82", "title": "A stage's total time is the time the stage took", "statement": "With an observer that tracks a stage, total_time() of that stage is, while the stage is running, the time since the stage began and, once the stage has completed, the time the stage took: it no longer changes. The observer's elapsed_time() is the time since the run began if timing was switched on. Keeping the times does not change what the run does.", "quantifier": "every problem, optimizer, observer and clock that does not go back, every run, fresh or resumed, successful or failed, and every instant at which the times are asked for", "why_tests_cant": "A unit test asks once, immediately after a short run; whether the time stands still afterwards, and on every path that ends a stage, is a statement about all later instants and all runs.", "anchors": ["src/observers/stage1.rs: start, end, total_time", "src/observers/stage2.rs: start, end, total_time", "src/observers/mod.rs: start_timer, elapsed_time, with_timing", "src/oqnlp.rs: run"]}
{"id": "C83", "title": "The elapsed time stored in checkpoints never decreases", "statement": "The elapsed_time of successive checkpoints of an optimization never decreases, also when a later process resumes from a checkpoint: each checkpoint stores at least the elapsed time of the one it continues.", "quantifier": "every problem, optimizer, checkpoint configuration, clock that does not go back, sequence of saves, and every process that resumes from the files of another", "why_tests_cant": "It compares the checkpoints of all iterations of a run and of different processes; a test that saves and loads one checkpoint cannot see the order of the readings nor the restart of the count.", "anchors": ["src/oqnlp.rs: create_checkpoint, restore_from_checkpoint, run", "src/types.rs: OQNLPCheckpoint::elapsed_time"]}
{"id": "C84", "title": "Progress bars do not change the optimization", "statement": "With the feature progress_bar, run() does the same as without it: it returns the same solutions or error and leaves the optimizer, its observer and the checkpoint files the same, whether or not the bars can be drawn.", "quantifier": "every problem, optimizer, run, fresh or resumed, and every outcome of each call that draws a bar", "why_tests_cant": "The test of the feature runs once with a terminal that accepts everything; that no outcome of any of the calls has an effect on the run is a statement about all runs and all failures.", "anchors": ["src/scatter_search.rs: run, initialize_reference_set", "src/oqnlp.rs: run", "Cargo.toml: progress_bar"]}
{"id": "C85", "title": "The progress bars show the progress made", "statement": "When run() has returned, the bar of Stage 1 is at its total, and the bar of Stage 2, whose total is the number of iterations set, is at the number of iterations begun, counting for a resumed run those before the checkpoint.", "quantifier": "every problem, optimizer, run that returns solutions, fresh or resumed", "why_tests_cant": "The bars are drawn on the terminal and have no return value; their position depends on the path the run takes, on early stops and on the checkpoint resumed from.", "anchors": ["src/scatter_search.rs: run, initialize_reference_set", "src/oqnlp.rs: run (stage2_bar)"]}
{"id": "C86", "title": "The build without argmin and checkpoint files", "statement": "A build without the feature argmin knows the names of COBYLA and no others, reads back every checkpoint it wrote and refuses a torn one. A checkpoint file of a build with argmin read by one without, or the other way round, is refused with an error or gives the checkpoint that was written.", "quantifier": "all names; all checkpoints and cut points; both builds as writer and reader", "why_tests_cant": "The number that marks COBYLA in the file differs between the builds and the format carries no mark of the build, so whether foreign bytes are taken for a checkpoint depends on all the values in it.", "anchors": ["src/types.rs: LocalSolverType, from_string, OQNLPCheckpoint", "src/local_solver/builders.rs: LocalSolverConfig", "src/checkpoint.rs: save_checkpoint, load_checkpoint_from_path"]}
{"id": "C87", "title": "Python configuration functions and classes build what was written", "statement": "A call of a configuration function or class in the Python module builders is accepted exactly when its arguments match the documented parameters; the object it returns shows every argument as written and the class default for every omitted one, and can be passed to optimize with its solver. The function and the class of a solver accept the same calls and mean the same by them, and the documented calls without arguments work. Assigning to an attribute changes that attribute only.", "quantifier": "all functions and classes; all calls, with any positional and keyword arguments of any type; all attribute assignments", "why_tests_cant": "Arguments can be given by position or name, in any order and number and with values of any type; tests try a few full calls.", "anchors": ["python/src/builders.rs: lbfgs, neldermead, steepestdescent, newtoncg, trustregion, cobyla, hagerzhang, morethuente, PyLineSearchParams, init_module", "python/src/builders.rs: PyLBFGS, PyNelderMead, PySteepestDescent, PyNewtonCG, PyTrustRegion, PyCOBYLA"]}
{"id": "C88", "title": "Verbose output does not change the optimization", "statement": "Switching on verbose() changes nothing but the output: run() and the functions that resume return the same and leave the optimizer, its observer and the checkpoint files the same, whether or not the lines can be written; without verbose nothing is written.", "quantifier": "every problem, optimizer, run, fresh or resumed, changed parameters, and every outcome of each write to the output streams", "why_tests_cant": "Tests run with an output that accepts everything and look at one run; that no line on any path and no failed write has an effect is a statement about all runs and all failures.", "anchors": ["src/oqnlp.rs: verbose, run, process_local_solution, process_batch_sequential, process_batch_parallel, maybe_save_checkpoint, resume_with_modified_params, resume_from_checkpoint_with_params"]}
{"id": "C89", "title": "The verbose output tells what happened", "statement": "With verbose() the lines printed describe the run: every solution that enters the set is announced in order with its objective and point, as added or as replacing the others, and with the size of the set; every threshold change is announced with its old and its new value; every checkpoint file that was saved is named; and the messages on targets, time limits, rejected solutions, restored checkpoints and resized reference sets are true when they are printed.", "quantifier": "every problem, optimizer, run, fresh or resumed, sequential or in batches, with any result", "why_tests_cant": "The lines depend on the path of the run and have no return value; each must agree with the state at the moment it is printed on every path.", "anchors": ["src/oqnlp.rs: run, process_local_solution, adjust_threshold, process_batch_sequential, process_batch_parallel, maybe_save_checkpoint, save_final_checkpoint, restore_from_checkpoint, resume_with_modified_params, resume_from_checkpoint_with_params"]}
{"id": "C90", "title": "The observer shows the state Stage 2 is in", "statement": "Whenever a callback runs for a Stage 2 iteration, and when a run has ended, the observer's Stage 2 state agrees with the optimizer: current_iteration() is the iteration, solution_set_size() the size of the current solution set, best_objective() and best_point() the best solution found, last_added_point() the solution that entered the set last, and threshold_value() the merit threshold in force.", "quantifier": "every problem, optimizer, observer that tracks Stage 2 (new or used before), run, fresh or resumed, sequential or in batches, with any result, and every callback of the run", "why_tests_cant": "The state is assembled from reports sent at different moments of each path; a test looks at the paths and moments it happens to exercise.", "anchors": ["src/oqnlp.rs: run, process_local_solution, process_batch_sequential, process_batch_parallel", "src/observers/stage2.rs: Stage2State", "src/observers/mod.rs: invoke_callback, should_invoke_callback"]}
{"id": "C91", "title": "The documented uses of Python observers work", "statement": "In Python every documented attribute of the stage states and every documented property and method of an observer exists and gives or sets what it says; a chain of configuration methods configures one observer; the documented callbacks, whatever the run, print the progress at each moment they are called; a documented default-logging observer logs; and after a successful run the documented final statistics are the sum of the evaluations of both stages.", "quantifier": "every problem, arguments of optimize(), Python observer in any state, table of Python functions, run and outcome, clock readings", "why_tests_cant": "A Python exception inside a callback is dropped, so a test sees no failure; which documented expression works depends on the outcome of the run, and must hold for all of them.", "anchors": ["python/src/observers.rs: PyStage1State, PyStage2State, PyObserver, clone_inner", "python/src/lib.rs: optimize", "python/pyglobalsearch.pyi: PyObserver, PyStage1State, PyStage2State"]}
{"id": "C92", "title": "A Python observer during and after a run", "statement": "While optimize() runs, the observer passed to it can be read from a callback and shows the current state of the run; it cannot be reconfigured. After a successful optimize() it shows the end of that run and keeps its callback, after a failed one it is unchanged, and what callbacks do or raise changes neither the result nor the observer. It can be used again for another run and then shows that run.", "quantifier": "every problem, arguments of optimize(), Python observer in any state, table of Python functions with any effects on the objects, every callback of the run, every outcome, every later run", "why_tests_cant": "The claims are about every moment of a callback and about arbitrary user functions, including those that raise or try to change the observer.", "anchors": ["python/src/lib.rs: optimize", "python/src/observers.rs: PyObserver, clone_inner", "src/observers/mod.rs: stage1, stage2, mark_stage1_complete"]}
{"id": "C93", "title": "Every solution carries the objective's value at its point", "statement": "Provided the argmin and cobyla solvers report the value of the function they are handed at the point they return, the objective of every solution that a run returns, that the optimizer stores or that a checkpoint file holds is the problem's objective at the solution's point.", "quantifier": "every problem, parameter set, session of runs, resumptions, configuration calls and crashes, solver behaviour that reports values honestly, and every solution returned, stored or saved", "why_tests_cant": "The value travels from the solver through the set, the disk and later processes; it must survive every history, and must be right for problems whose objective fails at some points.", "anchors": ["src/local_solver/runner.rs: solve_cobyla_with_tracking, solve_with_tracking", "src/oqnlp.rs: run, process_local_solution, restore_from_checkpoint", "src/types.rs: LocalSolution"]}
{"id": "C94", "title": "A run reports failures", "statement": "If run() returns a solution set, every evaluation of the objective, every local search and every disk operation that it made succeeded. If it returns an error, the run met the failure that the error reports: a local search that failed with that error, an evaluation that failed, constraints without enough feasible candidates, an inverted bound at the reported dimension, no local search result that may enter the set, a failed disk operation or an unreadable checkpoint.", "quantifier": "every problem, optimizer state, solver and disk behaviour, schedule, fresh and resumed runs, sequential and in batches, every outcome", "why_tests_cant": "Failures may strike at any call of any run; a test injects a few and cannot show that no path drops one or reports a wrong cause.", "anchors": ["src/oqnlp.rs: run, process_batch_sequential, process_batch_parallel, try_resume_from_checkpoint", "src/scatter_search.rs: update_reference_set, initialize_reference_set", "src/checkpoint.rs: checkpoint_exists"]}
{"id": "C95", "title": "Constraints reach COBYLA and no other solver", "statement": "When COBYLA is the local solver, whatever COBYLA guarantees of the points it returns, for the bounds and constraints it is given, holds for the problem's bounds and constraints of every solution that is returned, stored or saved in a checkpoint. With any other local solver the constraints have no influence on a local search.", "quantifier": "every problem with any constraints, guarantee of COBYLA, parameter set, session of calls and crashes, every solution returned, stored or saved; for the second claim every solver type, configuration and start point", "why_tests_cant": "A test sees a few constraints and one run; solutions also come back from checkpoint files of earlier runs.", "anchors": ["src/problem.rs: constraints", "src/local_solver/runner.rs: solve_cobyla_with_tracking", "README.md: COBYLA example"]}
{"id": "C96", "title": "A seed reproduces a run", "statement": "Without a time limit, two runs of the same optimizer on the same problem return the same result, whatever the number of threads, the schedule of parallel work, the clock and the time stamps are.", "quantifier": "every problem, optimizer state, solver, disk and stored checkpoint, and every pair of machines: thread counts, schedules of every reduction, choices among parallel errors, clocks", "why_tests_cant": "A test runs on one machine with the schedules that happen; the claim compares every pair of schedules and thread counts.", "anchors": ["src/oqnlp.rs: run, process_batch_parallel, batch size", "src/scatter_search.rs: generate_trial_points", "src/types.rs: seed"]}
{"id": "C97", "title": "The objective is only evaluated at feasible points inside the bounds", "statement": "Whatever calls a user makes on an optimizer for one problem - setting custom points, runs, repeated runs, resumption from checkpoints, changed parameters, in sequential or parallel mode - every point at which the optimizer itself calls the objective, and every point from which it starts the local solver, lies inside the variable bounds and violates no constraint. The same holds for the points that a stand-alone scatter search evaluates, whether it succeeds or fails.", "quantifier": "all problems with objective, constraints and bounds, all sequences of API calls with any arguments, all schedules, clocks, disk faults, local solvers and checkpoint histories, every event of the resulting history", "why_tests_cant": "a test can record the points of a few runs; the claim is about every point of every sequence of calls, including points restored from checkpoints and points produced by rounding near the bounds", "anchors": ["src/scatter_search.rs: run, initialize_reference_set, update_reference_set, generate_trial_points, evaluate_trial", "src/oqnlp.rs: with_points, run, process_local_solution, resume_with_modified_params", "src/filters.rs: MeritFilter::check"]}
{"id": "C98", "title": "The work of a run is bounded by the population size", "statement": "A run that does not resume, whether it succeeds or fails, calls the objective itself at most 5*max(n,2) times, where n is the population size or the number of feasible seeds and custom points if that is larger: at most n + 3k(k-1) times in Stage 1, with k about the square root of n, and at most min(iterations, n) times in Stage 2. It starts at most 1 + min(iterations, n) local searches. A resuming run calls the objective and starts local searches at most once for each candidate from the stored iteration on. A stand-alone scatter search evaluates at most 4*max(n,2) points.", "quantifier": "all problems, parameters, custom points, modes, schedules, clocks, disk states and outcomes; n below 2^52", "why_tests_cant": "tests count the calls of a few runs; the bound must hold for every population size, every set of custom points, every acceptance pattern of trial points and every failure", "anchors": ["src/scatter_search.rs: run, initialize_reference_set, generate_trial_points, update_reference_set", "src/oqnlp.rs: run, process_stage2_batch_parallel, try_resume_from_checkpoint"]}
{"id": "C99", "title": "Running the same optimizer again", "statement": "Calling run twice on one optimizer gives the same solution set twice. What holds of the code, without auto_resume: the best objective of the second run is not worse than that of the first (numeric objectives, non-negative tolerances); and in sequential mode the second run repeats Stage 1 exactly - the same evaluations in the same order, the same local search, the same reference set - whatever solutions were kept and whatever the observer holds.", "quantifier": "all problems, solvers, generators, parameters, settings, observers and earlier histories of the optimizer; both runs successful or not for the Stage 1 part", "why_tests_cant": "A test runs one problem twice and finds equal sets; whether the state left by the first run (solutions, distance filter, iteration counter, observer, clock) can influence the second needs an argument over every state a run can leave.", "anchors": ["src/oqnlp.rs: OQNLP::run", "src/scatter_search.rs: ScatterSearch::new, ScatterSearch::run", "src/oqnlp.rs: process_local_solution"]}
{"id": "C100", "title": "Starting a finished program again", "statement": "With auto_resume, a program that is started again after its run has finished returns the set it returned before. What holds of the code: a successful run that saves leaves, as its last action, a checkpoint of its final state with the returned set; with a single checkpoint file the program started next (whatever its other settings) does not repeat Stage 1, judges only candidates from the iteration the first ended in and returns no worse set; if the first run was sequential and not stopped by a target or time limit, it judges at most one candidate.", "quantifier": "all problems, solvers, parameters, settings, earlier histories and directory contents of the first run; all settings and environments of the second program", "why_tests_cant": "It relates the complete final state of one process to the complete behaviour of another through bytes on disk, for every run and every second configuration.", "anchors": ["src/oqnlp.rs: OQNLP::run, maybe_save_final_checkpoint, try_resume_from_checkpoint", "src/checkpoint.rs: CheckpointManager::save_checkpoint, load_latest_checkpoint"]}
{"id": "C101", "title": "The local solver of the parameters does the local searches", "statement": "All local searches of a run are done by the local solver, with the settings, that the parameters of the run name: every solution that is processed is that solver's result for the start of a search, an error is that solver's error, and no search of a successful run lacks a result. It is false of the code after a resume with other solver parameters: the requested solver is reported but not used, and with parallel batches one run can use both. It holds in every session whose optimizers and resume parameters name one solver and configuration.", "quantifier": "all problems, external solvers, parameters, histories of API calls on one directory, both modes and all schedules", "why_tests_cant": "The solver is stored in two places of the optimizer, which differ only after particular histories of resuming; the claim concerns every search of every run after every such history.", "anchors": ["src/oqnlp.rs: OQNLP::new, OQNLP::run, resume_with_modified_params, restore_from_checkpoint", "src/local_solver/runner.rs: LocalSolver::solve"]}
{"id": "C102", "title": "Derivatives are needed only by the solvers that use them", "statement": "A run, and any history of calls, has the same result, files and record whatever the problem's gradient and Hessian functions are, as long as no parameters used in it name a local solver that uses them: gradients for L-BFGS, steepest descent, trust region and Newton-CG, Hessians for trust region and Newton-CG. In particular Nelder-Mead and COBYLA work on problems that leave the default functions, which fail.", "quantifier": "all problems, alternative derivative functions, parameters, histories of calls, modes and schedules, and all argmin behaviours that respect the declared needs of its solvers", "why_tests_cant": "It compares the behaviour under all possible derivative functions, over all histories; a test sees one function at a time.", "anchors": ["src/problem.rs: Problem::gradient, Problem::hessian", "src/local_solver/runner.rs: LocalSolver::solve_with_tracking", "src/oqnlp.rs: OQNLP::run, resume_with_modified_params"]}
{"id": "C103", "title": "A crash costs at most save_frequency iterations", "statement": "When a run that checkpoints, to one file or to one file per save, stops during iteration j > 0, for whatever reason, a program started next with that checkpoint name and auto_resume resumes from an iteration at most save_frequency before j: it does not repeat Stage 1, and it evaluates and searches at most save_frequency candidates more than the first run still had to do.", "quantifier": "all problems, parameters, save frequencies, crash points, earlier checkpoint files, and all settings of the next program", "why_tests_cant": "It must hold for a crash at every point of every run; a test kills one run at one point.", "anchors": ["src/oqnlp.rs: OQNLP::run, maybe_save_checkpoint, maybe_save_final_checkpoint, try_resume_from_checkpoint", "src/checkpoint.rs: CheckpointManager::save_checkpoint, load_latest_checkpoint"]}
{"id": "C104", "title": "The observer shows what Stage 1 found", "statement": "Whenever the callback runs in Stage 1, and when the run has ended, the observer's best_objective and best_point of Stage 1 are the least objective value that Stage 1 has evaluated so far, or that its local search has found, and a point that has this value; and reference_set_size is the number of members of the reference set.", "quantifier": "all problems, parameters, external solvers, callbacks that leave the Stage 1 state alone, observers that track Stage 1, and all callbacks of all runs", "why_tests_cant": "It must hold at every callback of every run and for every objective, including those that return NaN or infinities; a test inspects one run.", "anchors": ["src/observers/stage1.rs: Stage1State::set_best_solution, set_best_objective, set_reference_set_size", "src/scatter_search.rs: ScatterSearch::run, initialize_reference_set, diversify_reference_set", "src/oqnlp.rs: OQNLP::run"]}
{"id": "C105", "title": "A result is as good as all that the search saw", "statement": "When run returns a solution set, one of its solutions has an objective value that is not greater than the value of any point at which the optimizer itself evaluated the objective, in Stage 1 or in Stage 2, in this run or, for a resumed run, since the checkpoint.", "quantifier": "all problems, parameters, external solvers, merit filters, checkpoint settings, sequential and batched modes, and all runs, new or resumed, that return a set", "why_tests_cant": "The points are drawn from the seed and combined by the scatter search; a test sees which points one seed evaluates, and one that is better than the result can appear with the next seed.", "anchors": ["src/scatter_search.rs: ScatterSearch::best, update_reference_set, initialize_reference_set, diversify_reference_set", "src/oqnlp.rs: OQNLP::run, process_local_solution, evaluate_candidate"]}
{"id": "C106", "title": "Asking for more iterations does not make the result worse", "statement": "If two runs differ only in the number of iterations, both start anew and both return a solution set, the best objective value of the run with more iterations is not greater than the other's; if candidates are worked on one at a time, or in whole batches of a size that is set, it first does all that the other does, in the same order.", "quantifier": "all problems, parameters, external solvers, merit filters, time limits, observers, batch settings and checkpoint settings without auto_resume, and all pairs of iteration counts", "why_tests_cant": "A test compares two counts for one seed. Whether a larger count changes the order in which candidates are judged, and so loses a solution, depends on the count, the batch size and the values at every candidate.", "anchors": ["src/oqnlp.rs: OQNLP::run, batch_iterations, process_batch_sequential, process_batch_parallel", "src/types.rs: OQNLPParams"]}
{"id": "C107", "title": "A target only cuts a run short", "statement": "If two runs differ only in the target objective, and the second has a lower one or none, then the second first does everything that the first does, in the same order (evaluations, decisions, local searches, results, solution sets, messages). If the first returns no solution at its target, both do the same and return the same. If both start anew and succeed, the best value of the second is not greater than that of the first.", "quantifier": "all problems, parameters, external solvers, time limits, observers, batch settings, checkpoint settings, disks and pairs of targets, in sequential and parallel mode, for new and resumed runs", "why_tests_cant": "A test compares two targets for one seed. That a target has no influence on the search before it is met is about every decision of every run up to that point.", "anchors": ["src/oqnlp.rs: OQNLP::run, target_objective, target_objective_reached, process_batch_sequential, process_batch_parallel"]}
{"id": "C108", "title": "A time limit only cuts a run short", "statement": "If two runs differ only in the time limit and read the same clock, and the second has a longer limit or none, then the second first does everything that the first does, in the same order (evaluations, decisions, local searches, results, solution sets, messages). If the clock never showed the first more than its limit, both do the same and end in the same way. If both start anew and succeed, the best value of the second is not greater than that of the first.", "quantifier": "all problems, parameters, external solvers, clocks, targets, observers, batch settings, checkpoint settings, disks and pairs of limits, in sequential and parallel mode, for new and resumed runs", "why_tests_cant": "A test cannot set the clock, and compares two limits for one seed. That a limit has no influence on the search before it is exceeded is about every clock reading and every decision up to that point.", "anchors": ["src/oqnlp.rs: OQNLP::run, max_time, process_batch_sequential, process_batch_parallel"]}
{"id": "C109", "title": "Writing checkpoints does not change the search", "statement": "A program that writes checkpoints and resumes from none (it does not look for one, or looks and finds none), without a time limit, does the same as the program without checkpoints, in the same order (evaluations, decisions, local searches, results, solution sets, callbacks, messages), and ends in the same way, unless a checkpoint cannot be written. If one cannot, the program without checkpoints first does everything that was done up to there.", "quantifier": "all problems, parameters, external solvers, targets, observers, batch settings, save frequencies, disks and failures of the disk, in sequential and parallel mode", "why_tests_cant": "A test compares one seed and one save frequency on a disk that works. Saves happen at many points of a run, between any two of which the search could be disturbed, and each of them can fail.", "anchors": ["src/oqnlp.rs: OQNLP::run, with_checkpointing, maybe_save_checkpoint, maybe_save_final_checkpoint, create_checkpoint", "src/checkpoint.rs: CheckpointManager::save_checkpoint"]}
{"id": "C110", "title": "Excluding out-of-bounds solutions changes nothing for solvers that stay inside", "statement": "If every local search of a program ends inside the variable bounds, then the same program with exclude_out_of_bounds does the same, in the same order (evaluations, decisions, local searches, results, solution sets, callbacks, messages, clock readings), and ends in the same way. If a local search does end outside, the two programs do the same up to there.", "quantifier": "all problems, parameters, external solvers, targets, time limits, observers, checkpoint and batch settings, disks, in sequential and parallel mode, with and without resuming", "why_tests_cant": "A test compares one seed on one problem. The option is consulted at every local result and at every target check; each of these could treat a solution that is inside, or exactly on a bound, differently.", "anchors": ["src/oqnlp.rs: OQNLP::run, exclude_out_of_bounds, set_exclude_out_of_bounds, process_local_solution, target_objective_reached, is_within_bounds"]}
{"id": "C111", "title": "The threshold factor matters only from the first relaxation on", "statement": "Two programs that differ in threshold_factor only do the same in the same order (evaluations, decisions, local searches, results, solution sets, thresholds, callbacks, messages, clock readings) up to the first relaxation of the threshold, which both make at the same point. If the threshold is never relaxed they end in the same way.", "quantifier": "all problems, parameters, pairs of threshold factors, external solvers, targets, time limits, observers, checkpoint and batch settings, disks, in sequential and parallel mode, with and without resuming", "why_tests_cant": "A test compares two factors for one seed. The parameters are handed to both stages, to the distance filter and to the checkpoints, and any of these could use the factor on some input.", "anchors": ["src/oqnlp.rs: OQNLP::new, OQNLP::run, adjust_threshold, process_batch_sequential, process_batch_parallel", "src/types.rs: OQNLPParams::threshold_factor, FilterParams", "src/scatter_search.rs: ScatterSearch::run"]}
{"id": "C112", "title": "A longer wait cycle only defers the first relaxation", "statement": "A program with a longer wait_cycle, otherwise the same, does the same as the program with the shorter one, in the same order (evaluations, decisions, local searches, results, solution sets, thresholds, callbacks, messages, clock readings), up to the first relaxation of the threshold by the latter. If the latter never relaxes the threshold, both end in the same way.", "quantifier": "all problems, parameters, pairs of wait cycles, external solvers, targets, time limits, observers, checkpoint and batch settings, disks, in sequential and parallel mode, with and without resuming", "why_tests_cant": "A test compares two wait cycles for one seed. The count of unchanged cycles is carried through both modes, batches and checkpoints, and a wait cycle one too short or too long shows only for particular sequences of rejections.", "anchors": ["src/oqnlp.rs: OQNLP::new, OQNLP::run, process_batch_sequential, process_batch_parallel, adjust_threshold", "src/types.rs: OQNLPParams::wait_cycle, FilterParams", "src/scatter_search.rs: ScatterSearch::run"]}
{"id": "C113", "title": "Without parallel processing the batch size is of no effect", "statement": "With parallel processing switched off, a program does the same, in the same order (evaluations, decisions, local searches, results, solution sets, thresholds, callbacks, messages, clock readings), and ends in the same way, whatever batch_iterations was set to, and if it was not set.", "quantifier": "all problems, parameters, batch sizes (0 too), external solvers, targets, time limits, observers, checkpoint settings, disks, with parallel processing switched off, with and without resuming", "why_tests_cant": "A test compares two batch sizes for one seed. The batch size decides how candidates are cut into batches, between which the time limit and the target are checked, so a difference shows only for particular combinations.", "anchors": ["src/oqnlp.rs: OQNLP::run, batch_iterations, parallel, process_batch_sequential"]}
