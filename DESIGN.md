# Formal model of globalsearch-rs in Rocq: design

Source: `/repo` (Rust, pinned commit), read as text. Model and proofs:
`/verif/rocq/theories/*.v`, logical name `Verif`, Coq 8.16.1.
Properties: `properties.jsonl` (C01...). Status per property: `MANIFEST.json`.

## 1. What is modelled

Configuration modelled: features `argmin`, `rayon`, `checkpointing` on; `progress_bar` off. Other
builds: `Features.v` (C78–C80), `Bars.v` (C84, C85), `NoArgmin.v` (C86).
Verbose output: `Verbose.v` (C88, C89).

* **Floats** (`F64.v`): own type `f64` with signed zero, signed infinities, signed NaN
  and canonical finite values; arithmetic is `SpecFloat` of the standard library with
  prec 53, emax 1024 (round to nearest even). `<`, `<=`, `total_cmp`, `min`, `max`, `clamp`,
  `abs`, literals. NaN payloads are dropped, NaN sign is kept (it matters for `total_cmp`).
* **Points** are `list f64`; `a - b` and `dot` follow ndarray (8-way unrolled dot product).
* **Code**: `filters.rs`, `types.rs` (solution set, parameter records, solver names),
  `scatter_search.rs`, `oqnlp.rs`, `checkpoint.rs` + the serde/bincode byte format,
  `observers/*`, `local_solver/builders.rs`, the dispatch part of `local_solver/runner.rs`,
  the Python bindings: the constraint registry and `optimize` of `python/src/lib.rs`, the
  configuration objects of `python/src/builders.rs`, `python/src/observers.rs`.
* **External code** is a record of functions (an *oracle* record, ordinary function
  arguments of the model, never axioms): objective, constraints, local solvers, random
  generator, unstable sort and selection, clock, thread count, rayon's split trees,
  file system faults. What is assumed of them is a `Prop` record that theorems take
  as an explicit hypothesis, with a concrete instance proved to satisfy it.

## 2. What is not modelled

argmin and cobyla internals (a local search is an oracle from start point to result),
`StdRng`'s bit stream, what is drawn on the terminal, pyo3's
conversions and the GIL, memory exhaustion, panics inside user callbacks.

## 3. Per property: what is modelled and how it is proved

| id | model | proof |
|----|-------|-------|
| C01 C02 | `Filters.v` | induction on histories of operations |
| C03 | `Types.v` `best_solution` (fold of `min_by`) | induction on the list, total order lemmas |
| C04 C05 | `Oqnlp.v` `oqnlp_new` | case analysis; C05 is refuted by a witness |
| C06 | `with_points` loops | induction on rows and coordinates |
| C07 | `ss_new` | induction on bounds |
| C08 C09 C10 | `ScatterSearch.v` | invariants on the reference set; midpoint through Flocq; C09 refuted at overflow |
| C11 C12 C13 C14 C18 | `ScatterSearch.v` | loop invariants over the oracles; C13 refuted by a witness |
| C15 C16 | `update_reference_set`, `best_solution` | permutation and order-statistic reasoning |
| C17 | `diversify_reference_set` | invariant: cache = recomputed minimum |
| C19 C20 C21 | reduction trees | tree induction; C20, C21 refuted by witnesses, positive restricted forms |
| C22-C28 | `process_local_solution`, `run` | invariants over histories and whole runs |
| C29-C37 | `run`, batches | trace invariants; C30, C36, C37 refuted by witnesses with positive restricted forms |
| C38-C43 | `Observer.v` | simulation (noninterference) and history induction; C42, C43 refuted; what the counters do count is proved by walking the code with the counters as an invariant |
| C44-C51 | `Checkpoint.v`, `Codec.v` | codec inversion, map reasoning over a file system; C47, C49, C51 refuted |
| C52-C56 | `run` with files and crash points | trace invariants; C53, C54(parallel), C55 refuted; C54 in both modes up to a batch (BatchSaveP.v) |
| C57-C60 | `Runner.v`, `Builders.v`, `Types.v` | case analysis, induction on setter sequences; C58 refuted |
| C61 | `PyRegistry.v` | refuted by an interleaving; positive form for one problem per thread |
| C62 | `Base.v` `dist2`, `Filters.v` | float algebra (`F64Alg.v`), bridge to Flocq (`DistP.v`) |
| C64 | `process_local_solution` | refuted by a witness; restricted form |
| C65 | `default_callback` | induction on the states seen |
| C67 | `run`, batches | trace invariant: judged indices are an initial segment |
| C68 C69 C70 C71 | `PyBind.v` | case analysis, induction on rows and iterator steps; C69, C70 refuted |
| C72 | `PyBind.v` observer methods | induction on call sequences; refuted by two calls |
| C73 | `ScatterSearch.v`, `run` | the reference set keeps the best points seen: invariant over initialisation and updates, carried to the actions of a run |
| C74 | `Report.v` (lines with their values); read back by `SpecReport.v` | induction on solutions and constraints; the claim about marks refuted for NaN |
| C75 | `PyProblem.v` | case analysis, lemmas on cutting lists into rows; refuted for ragged and wrongly sized answers |
| C76 | `PyLocks.v`: threads as trees, three locks, schedules as lists of paths | typing of the code of each thread by what it holds; the holder of the innermost lock can move; every step makes the program smaller; refuted for objectives and constraints that call optimize |
| C77 | `PyLocks.v` | the same typing: a running function is covered by its lock; refuted for gradients |
| C78 | `Features.v`: the build-dependent code as functions of the compiled features | the run of all features equals `run`; a relation between the states of two builds is kept by every action; files related by what each build reads or writes |
| C79 | `Features.v` | the same relation, with the extra fields of the checkpointing build unconstrained; refuted for a second run on one optimizer and for seeds near 2^64 with overflow checks |
| C80 | `Features.v`: the byte format of both builds | round trips as for C45; foreign bytes shift the length of the timestamp, which then exceeds the file; refuted for a batch size without tolerances |
| C81 | `run`, observer | walk of Stage 2 with the invariant: recorded evaluations = counted + pending; refuted for a target reached inside a batch |
| C82 | `run` with the observer's timers (`Timing.v`) | the timed run erases to `run`; a relation on the timers that every step keeps; refuted: `end()` does not stop the timer |
| C83 | `run`, `create_checkpoint`, `restore_from_checkpoint` | walk of `run`: each save reads the clock later than the saves before; refuted over a restart |
| C84 | `run` with the progress bars (`Bars.v`), each call of the bar library may fail | the run with bars tracks `run` up to panics; refuted: a failed call panics |
| C85 | as C84 | inversion of a run that returned; refuted: Stage 1 makes five steps of three, Stage 2 none |
| C86 | `from_string`, solver dispatch and byte format without `argmin` (`NoArgmin.v`) | round trip and prefix argument as for the full build; symbolic decoding of the other build's bytes; refuted by a file that both builds accept |
| C87 | `PyFactory.v`: argument binding, conversions, bodies, attributes and the module of `python/src/builders.rs` | one lemma per conversion against a relation of kinds; binding characterised parameter by parameter; case analysis over the callables; refuted by the documented calls |
| C88 | `Verbose.v`: `run` and the resume functions with every line they print; each write may fail | the run with output tracks `run` up to panics; refuted: a failed write panics |
| C89 | as C88; what the lines should say: `SpecVerbose.v` | Hoare triples over console and trace: the lines so far describe the events so far, each line true in its state; refuted for the new threshold and the set sizes |
| C90 | `Oqnlp.v`, `Observer.v`; what is to be shown, from the events: `SpecShown.v` | invariant over Stage 1 and Stage 2 relating the shown state to the record, checked at each callback; refuted for the threshold without batches, the first solution, a reused observer and a target reached in Stage 1 |
| C91 | `PyObserver.v`: objects, attributes and methods of Python observers, a small expression language for user code, the calls of Python callbacks; what the documentation says: `SpecPyObserver.v` | evaluation of each documented expression in an arbitrary state; the callback of the run and the silence of an untracked observer by one invariant over all updates of an observer (`ObsInvP.v`); refuted by the documented programs |
| C92 | as C91; the state of the objects at the k-th callback | induction over expressions: code cannot change an object that a call has borrowed; refuted on a run for the live state and for a reused observer |
| C93 | `Runner.v`, `Oqnlp.v`, `Checkpoint.v`; what honest solvers report: `SpecValues.v` | a property of all local search results holds of all set members over sessions (`MembersP.v`); case analysis of the solvers; refuted for COBYLA where the objective fails |
| C94 | `Oqnlp.v`, `ScatterSearch.v`, `Checkpoint.v`; the failure behind each error: `SpecErrors.v` | one predicate over all driver functions (what Ok excludes, what each error implies), composed along the run; refuted on runs for Stage 1 trial points and the directory listing |
| C95 | as C93 | the same with the guarantee of COBYLA as the property; for the other solvers the dispatch does not depend on the constraints |
| C63 | everything; sessions (`SpecSession.v`) | the error monad distinguishes `Panic`; invariant over runs, then over sessions; refuted for short line search bounds |
| C66 | sessions (`SpecSession.v`) | invariant over elementary actions, files and calls; refuted for changed tolerances and distance factors |
| C96 | `Oqnlp.v`, `ScatterSearch.v`; the other machine: `SpecRepro.v` | two runs side by side (`ReproP.v`), every driver function agreeing; refuted on three pairs of concrete runs: thread count, schedule, first error |
| C97 | session events of Oqnlp.v and the log of ScatterSearch.v | invariant over the calls of a session (reference set, custom points, files and pending candidate hold only allowed points), Stage 1 by the run_to rules; two refutations |
| C98 | the events of Oqnlp.v and the log of ScatterSearch.v | run_to rules for the search, emits for the rest of Stage 1, C31 and the candidate relation for Stage 2 |
| C99 | two consecutive runs from any state | simulation between two scatter searches that differ in observer and time; Stage 1 event decomposition; leader invariant of C25 across the two runs |
| C100 | a run, its directory, a second process | decomposition of the end of a run, codec inversion, `C98_resumed`, leader invariant; refuted by the demonstration; one file per save: an invariant for the content and name of every file (shared with C103), order of iterations in sequential mode |
| C101 | sessions of API calls, both solver copies of the optimizer | invariant that both copies name one solver; runs do not read the record; every search event paired with a solver call; refuted by two sessions that resume with Nelder-Mead after COBYLA |
| C102 | two environments that differ in derivatives | step-by-step equality of the two runs on states whose two solver copies are within the class (invariant of C101), convertibility for the parts that only project the objective, bounds and constraints |
| C103 | driver and file system; a crash is a failing disk operation | invariant: the file holds the last recorded save, at every exit; the saves recorded before an iteration are the due ones (C52); arithmetic of multiples; for batches, an invariant that bounds the distance of every begun candidate from the newest save; with one file per save, an invariant for the content and name of every file |
| C104 | observer, scatter search, driver with the event record | invariant relating the reference set, the values evaluated and the Stage 1 state; Stage 2 leaves the state alone |
| C105 | scatter search, driver, checkpoints with the event record | the reference set covers every value evaluated (C104's invariant), the first local search starts at the least of them, and the set's first value never rises (C25's invariant); checkpoints carry both on |
| C106 | driver in every mode with the event record, two runs side by side | the shorter run's candidates are the first of the longer's, and over whole batches the two go through the same states up to the number of iterations kept in the parameters; in a batch that grows, both take in the same results of local searches first; then C25's invariant carries the best value on |
| C107 | driver in every mode with the event record, two runs side by side | the two go through the same states up to the target kept in the optimizer, until the first one's check for its target succeeds and the second one's does not; from there on the first does nothing more than end its stage and write its last checkpoint, and the second's record grows |
| C108 | driver in every mode with the event record, two runs side by side, the clock as a function of the number of readings | the two go through the same states up to the limit kept in the optimizer (and, without a limit, the number of clock readings), until a reading exceeds the first limit and not the second; from there on the first only writes its last checkpoint, and the second's record grows |
| C109 | driver in every mode with the event record and the disk's failures, two runs side by side | the two go through the same states up to the checkpoint settings, the disk and the number of clock readings; a save changes nothing else and either succeeds or ends the first run |
| C110 | driver in every mode with the event record, two runs side by side | the two go through the same states up to the option, as long as every stored solution is inside; a result outside stays in the record of the run without the option |
| C111 | driver in every mode and the scatter search with the event record, two runs side by side | the two go through the same states up to the factor in the parameters and in the distance filter; the first relaxation stays in both records |
| C112 | driver in every mode and the scatter search with the event record, two runs side by side | the two go through the same states up to the wait cycle in the parameters and in the distance filter; where the shorter is not reached the longer is not either |
| C113 | driver in sequential mode with the event record, two runs side by side | the two go through the same states up to the batch size; the size computed for the loop is 1 in both |

All properties above can be expressed in the model. Properties that the code violates are
stated in full, refuted by a theorem named `..._refuted`, and accompanied by the strongest
positive theorem proved (suffix `_partial`).

## 4. Trusted base

A reader who accepts the theorems trusts the following and nothing else.

1. **Coq 8.16.1's kernel** (with `vm_compute`, which the kernel implements) and the
   compiler that built it. No plugin, no `native_compute`, no switched-off check.
2. **The axioms `Print Assumptions` lists.** The command follows every theorem in the
   `Properties_*.v` files. Most theorems are `Closed under the global context`. The theorems
   that reason about rounding through real numbers (Flocq over the standard library's
   `Reals`) depend on exactly these four standard library axioms:
   `ClassicalDedekindReals.sig_not_dec`, `ClassicalDedekindReals.sig_forall_dec`,
   `FunctionalExtensionality.functional_extensionality_dep`, `Classical_Prop.classic`.
   These are: C08_in_bounds, C09_midpoint_partial, C10_trial_pairs, C10_trials_in_box,
   C15_update, C21_sequential_partial, C21_small_partial, C25_history, C25_not_much_better,
   C25_run, C35_relaxation, C43_run_partial, C43_search_partial, C53_no_worse_partial,
   C63_run_partial, C63_session_partial, C96_parallel_partial, C96_sequential_partial,
   C97_points_partial, C97_search, C98_fresh, C98_search, C99_no_worse_partial,
   C100_kept_partial, C100_once_partial, C100_rest_partial, C105_fresh_partial,
   C105_resumed_partial, C105_saved_partial, C106_no_worse_partial, C107_no_worse,
   C108_no_worse.
   No axiom is our own. No definition of the model uses real numbers.
3. **The specification files**: `Spec.v`, `SpecStage1.v`, `SpecStage2.v`, `SpecObserver.v`,
   `SpecCheckpoint.v`, `SpecSave.v`, `SpecPy.v`, `SpecPyBind.v`, `SpecPanic.v`,
   `SpecSession.v`, `SpecReport.v`, `SpecLocks.v`, `SpecFeatures.v`, `SpecTiming.v`, `SpecVerbose.v`, `SpecShown.v`, `SpecPyObserver.v`, `SpecValues.v`, `SpecErrors.v`, `SpecRepro.v`, `SpecWhere.v`, `SpecCost.v`, `SpecSolved.v`, `SpecDeriv.v`, `SpecLoss.v`, `SpecShown1.v`, `SpecBest.v`, `SpecMore.v`, `SpecAim.v`, `SpecLimit.v`, `SpecUnsaved.v`, `SpecExcluding.v`, `SpecFactor.v`, `SpecWait.v`, `SpecBatchless.v`, and the definitions printed above a theorem in `Properties_*.v`. They
   say what the English words mean.
4. **The reading of the source**: the files in the table below say in Gallina what the
   Rust says. Every definition cites its lines. Nothing checks this but the reader.
5. **The assumptions on external code**, which are hypotheses of the theorems that need
   them (records in `EnvSpec.v` and `SpecPanic.v`), each with an instance proved to meet it.

### Modelled code, per source file

| source | model | modelled | not modelled |
|--------|-------|----------|--------------|
| `src/filters.rs` | `Filters.v` | everything | |
| `src/types.rs` | `Types.v`, `Codec.v`, `NoArgmin.v`, `Report.v` | parameters and defaults, solutions, solution set, `best_solution`, `from_string`, the serde byte format of every stored type, the reports of a solution set (kind and values of every line) | `Display` of `OQNLPCheckpoint`, number formats |
| `src/problem.rs` | `Types.v` `problem` | the trait as a record of functions | the default bodies (`NotImplemented`) other than as values the functions may return |
| `src/scatter_search.rs` | `ScatterSearch.v`, `Features.v`, `Bars.v` | everything, sequential and parallel paths, with and without `rayon` and `progress_bar` | descriptions of the progress bar, kdam |
| `src/oqnlp.rs` | `Oqnlp.v`, `Features.v`, `Bars.v`, `Verbose.v` | everything, with and without `rayon`, `checkpointing` and `progress_bar` (the latter with the two others on), the `verbose` output line by line | number formats; the standard error warnings of `new` and `batch_iterations` |
| `src/checkpoint.rs` | `Checkpoint.v`, `Codec.v` | manager, file names, latest, cleanup, byte format | text of error messages; directories other than the configured one; bincode's own size limits |
| `src/observers/*.rs` | `Observer.v`, `Timing.v` | states, modes, tracking, callbacks (what is printed as an abstract message), unique updates, timers (exact durations; callbacks do not replace the timers) | sub-stage times (never readable), number formatting in messages |
| `src/local_solver/builders.rs` | `Builders.v` | all builders, setters, defaults | `Debug` |
| `src/local_solver/runner.rs` | `Runner.v` | the dispatch, how the problem is handed over, how results and errors come back, counting of evaluations | the argmin and cobyla algorithms (an oracle that sees the problem's functions and answers) |
| `python/src/lib.rs` | `PyRegistry.v`, `PyBind.v`, `PyProblem.v`, `PyLocks.v`, `Report.v` | constraint registry, `optimize` and its defaults, the `Problem` implementation, GIL and mutexes, result objects and their iterators, `__str__` of the solution set | Python number conversions, `__repr__` of result objects, poisoning of the objective mutex, the unused `evaluate_constraints` |
| `python/src/builders.rs` | `PyBind.v`, `PyFactory.v` | everything: configuration classes and functions, argument binding, attributes, translation to Rust, module contents | doc strings, Python sequences other than lists of floats |
| `python/src/observers.rs` | `PyBind.v`, `PyObserver.v` | every observer method, getter and property, the states, the calls of Python callbacks, PyO3 borrows | `__str__`/`__repr__` |

Floats: NaN payloads are dropped (the sign is kept); `sqrt`, `+`, `-`, `*`, `/` are IEEE 754
binary64 round-to-nearest-even; besides these the modelled code only compares, negates, and
takes `abs`, `min`, `max` and `clamp`.
Running time, memory exhaustion, stack overflow, panics inside user code and non-terminating user
code are outside the model. Integer arithmetic is on `nat`/`N` with explicit overflow
checks where the source can overflow (a panic, as in a debug build).
