# Formal model of planning-evaluation-framework

## 1. Approach

* Every modelled Python function is a total, computable Gallina function that follows the Python branch by
  branch (`rocq/theories/Model*.v`, no proofs there). Each definition cites the file and lines it models.
* Python exceptions are values: `Err kind` of the type `result A` in `Prelude.v`.
* Counts, ids, indices are `nat`/`Z`. Spends, prices, epsilons and other floats are `Q` (exact rationals). The code
  that only *compares* floats (publisher logs, bucket ranges) is exact on finite floats, since these are a subset of Q
  with the same order. For arithmetic the model computes exactly, except in `ModelDouble.v` (C58), which repeats the
  arithmetic on budgets, prices and spends with IEEE rounding. NaN and infinities are **not** modelled.
* Randomness, sketches, estimators, solvers, special functions (gamma, expi, poisson pmf) and the operating system are
  *oracles*: explicit function arguments, universally quantified in theorems, with the few assumptions on
  them written as hypotheses of the theorem that uses them.
* Object state and histories (tracker, read cache, lazy fits, results files) are modelled by explicit state passing or
  by small-step transition systems; theorems are about all histories/crash points.
* `Spec*.v` hold small independent specifications written without the model's helpers, `Props*.v` state the property
  theorems (`Cnn_...`), each with an `Example` showing that a concrete case meets the hypotheses, and
  `Print Assumptions`. Where the code does not satisfy the property, a `..._refuted` theorem exhibits the witness
  and a further theorem (`_partial` when it does not cover the whole property) proves what does hold.

## 2. Plan per property

| id | modelled | proof idea |
|----|----------|------------|
| C01, C02, C03 | `ReachPoint` in full | induction on the list; counting lemmas |
| C04, C05, C06, C07, C10, C11 | `PublisherData`, `DataSet` constructors and reach functions | dictionaries as association lists with a lookup spec; k+ = cardinality of a filtered set of ids |
| C08, C09 | `spend_by_impressions`, `impressions_by_spend` (Python's `bisect_right` loop), stable sort | sortedness, bisect invariant; refuted for unsorted logs |
| C12 | text codec of ids; `float`/`repr` as an oracle pair | decimal round trip by induction; first-bad-line induction |
| C13, C14 | directory as finite map, lru cache as state | invariants over operation histories; refutations for cache and universe size |
| C15, C16, C17 | generators with draws/permutations as oracle arguments | permutation and counting lemmas |
| C18, C19 | `PrivacyTracker` | largest starting point below x dominates x |
| C20, C21, C22 | `simulated_reach_by_spend` with estimator and noise as oracles, tracker threaded | list induction, field arithmetic on Q |
| C23 | strategies as sequences of requests with failure anywhere | trace induction, Q arithmetic |
| C24, C25 | powerset/bitmask region construction and aggregation | partition of the id set by reach signature |
| C26 | `_by_quantile` with fuel proved sufficient | loop invariants |
| C27, C28 | Goerg model over Q | field/nra |
| C29, C30, C31, C32 | surface formulas and coordinate descent | sums over lists of Q, quadratic minimisation |
| C33, C34, C35 | exponential-Poisson formulas, k-inflated distribution, lazy fit as state | field arithmetic; sums |
| C36, C37, C38, C39 | file system state machine, descriptors, driver | crash-point transition system; permutation lemmas |
| C40, C41, C42 | test point generators, aggregator, ground truth model | products, sums |
| C43 | the quadratic program of the pairwise surface | quadratic forms as sums; optimality of the solver is a hypothesis |
| C47 | synthetic data sets: loop over publishers and the overlap classes | induction over the publishers; bounds on repeated rounding |
| C48 | the row of a trial: evaluate from the data set to the row, both outcomes | case analysis on the first failing step; column names by injectivity of the printed numbers |
| C49 | the Gamma-Poisson model: constructor, prediction, distance, fit | expectation over the number of impressions as a finite sum of tails; invariants of the hill climb and of the search over starts |
| C50 | the Dirac mixture model: grid of components, solvers, halving loop, prediction, histories | the grid as blocks of evenly spaced numbers, by induction on the distribution; the loop by induction on its fuel; queries keep a settled state |
| C51 | names of data sets, Latin hypercube, cartesian and M3 configurations, the loop that fills a design, the shipped designs | names read from the left, ids from the right; counting in equal parts of the unit interval; induction on the configuration with the disk as it should be after each prefix |
| C52 | the four shipped experimental designs: their levels, products and samples, with the trials, rows and test points they lead to | induction over the product with different levels; trial names told apart by C37; rows followed through a run with one generator for each choice |
| C53 | `ExperimentDriver.execute` from the directories to the output file, on one core, with workers, with Beam; runs stopped at any step | an invariant of all histories of stopped runs (each results file absent, partial or complete; data design untouched), by induction on the history; programs compared step by step, without function extensionality |
| C54 | the two samplers of starts of the restricted surface and the fit that draws from numpy's process-wide generator | the drawn fit is shown to be a C31 fit from sampled starts (induction over rounds and starts); the first step from a tolerated start restores the region for at most three publishers; a complete fit with four publishers exhibits a negative coefficient |
| C55 | the lab of C47-C49 with the named strategies and models in it, instead of parameters | each clause is put together from the theorems about its parts: C24/C25 (charges), C45 (training data), C28 (Goerg), C34, C49 and C61 (k-inflated and Gamma-Poisson), C10 (true reach), C29 (surface), C48 (row), C54 (generator) |
| C56 | the cloud file system: addresses, objects, data sets and designs on it, `evaluate` as a program of single requests | simulation between disk and bucket that is kept by every request (C13, C14 for the disk side); invariant over all interleavings of the requests with one phase per process; induction over stopped runs |
| C57 | `execute` on the cloud file system with one core, several, and Beam (any attempts, any interleaving of requests) | what one attempt does (C56) as an invariant over all schedules; a relation between the bucket at the start and later ones that every stopped run keeps, under which preparing gives the same trials and every trial the same answer; induction over the runs |
| C58 | the tracker, the requests, the two strategies, prices and test points with a rounding after every operation | rounding is the nearest double (characterised and unique); relative error per operation; sums by induction over the events; what a strategy appends as an invariant over its run |
| C59 | the requests of ModelHalo and the fits of ModelStrategy, with the generator as part of the state | run the request symbolically: the draws in order, the seeds handed to the noise, the events appended; for fits a calculus of calls that draw n seeds; a calculus of calls that never look at the tracker |
| C60 | the planner (ModelPlanner.v) over any strategy; a session is any list of calls | induction over the session; queries leave planner and world alone; the budget bounds come from C23 for the two strategies |
| C61 | the fit of ModelGamma.v, step by step: histogram, distance, objective, one run of the minimiser, inflation | the distance is a sum over the histogram; allowed parameters are decidable; a run that starts allowed and below the penalty stays allowed (induction over the inflation loop); the run with smaller kmax is a prefix of the one with larger kmax |
| C62 | the programs of C36 on a disk with open files: names lead to numbered files, a process writes to the file it has opened at its own offset, gaps are zero bytes (ModelTogether.v); a schedule says whose turn it is | each program is put into phases (looking, refused, marking, saving, ended); an invariant over all steps relates phases, offsets and file contents, with ghost tags saying under which name a file was made; a process alone is related to the disk of C36 by a simulation; for runs over lists of trials (ModelTogether2.v) each turn of a run is a turn of one of a growing list of single processes, so that the invariant carries over |
| C63 | argparse for the parser that main builds, from single characters up: what an argument looks like, values, extras, required options, help; then main: the arguments for Beam, the choice of the file system, the calls of ModelExecute.v and ModelCloudRun.v (ModelMain.v) | a line is specified as a list of items written one after the other, with a meaning of its own (SpecMain.v); the parser reads every such line as meant, by induction over the items, and every line it accepts is taken apart into items; what main then does follows from C53 and C57 |
| C64 | nothing new: the data design generator of ModelDesigns.v, the trials of ModelExperiments.v and the driver of ModelExecute.v one after the other | the table is specified from the parameters of the data sets and the settings only (SpecPipeline.v: row_about, table_for); the disk after the generation is shown to be what the driver needs (the directories for results stay empty, the names read back are the names made, each data set has as many publishers as asked for); the first run is followed for every way of running, without the assumption of C53 that rows do not depend on what was computed before (which C52_two_data_sets_refuted shows false); the counts of the shipped designs follow from C51 and C52 |
| C65 | absl's reading of string, integer and boolean flags (absl-py 0.12.0), main, constructor and loading of the data design generator with what it prints, and app.run around the driver's main (ModelShell.v) | the reader of flags is proved equivalent to a grammar of lines (SpecShell.v: flag_line, sets, remains, asks_for) by induction over the line; the generator is related to generate_design of C51 and the driver to C63, and both together to C64; lines of the documentation that do not work are theorems `_refuted` |
| C66 | the two drivers of C53 and C57 and the strategies and models of C55; nothing new is modelled | a data set read from cloud storage is the one read from the disk with other publisher names (SpecSame.v: moved, copied); each step of a trial is shown not to depend on these names, models that keep the data set (true reach curves) are carried along by a function on models that preserves every answer; then C53_any_way and C57_any_way give the two tables (SameLemmas.v, SameLemmas2.v, PropsSame.v) |
| C44, C45, C46 | simulator and strategies with a sketch library that counts exactly | multiplicity of users in the merged sketch; inversion of the request sequence |

## 3. Trusted base

- Coq 8.16.1's kernel. No axiom is declared and no kernel check is switched off. Every property theorem is followed
  by `Print Assumptions`; each prints "Closed under the global context".
- The library files that are loaded contain axioms that no theorem here depends on: the seven of
  `Coq.ssr.ssrunder` (`Under_rel` and companions), which come with the standard library's ring/field tactics.
- The hand translation from Python to Gallina: each definition in `Model*.v` cites the file and lines it models.
- The models of Python's own constructs in `Prelude.v` (exceptions as values, list indexing, slices, `range`,
  dictionaries as association lists, `Counter`), stable sort, `bisect`, `str.split`, `int()`, pathlib paths,
  `lru_cache`.
- Numbers: ids, counts and impressions are exact integers; floats are exact rationals. NaN, infinities and overflow are
  not modelled. Rounding is modelled only in `ModelDouble.v`, for the arithmetic on budgets, prices and spends that C58
  lists; C58_same_code shows that these definitions without rounding are the ones used elsewhere. All other theorems
  speak about the formulas, not about the last bits of their results.
- External libraries are function parameters with the hypotheses stated in each theorem: cardinality and frequency
  sketches and their estimators, noise generators, random draws and shuffles, `cvxopt`, `scipy`, float printing.

## 4. What is modelled

| file in /repo/src | modelled in | not modelled |
|---|---|---|
| models/reach_point.py | ModelReachPoint.v | |
| data_generators/publisher_data.py, data_set.py | ModelData.v, ModelFiles.v | encodings other than ASCII, float literals (parameter) |
| models/ground_truth_reach_curve_model.py | ModelData.v | |
| data_generators/data_design.py, filesystem_wrappers (pathlib) | ModelFiles.v | symbolic links, "..", permissions |
| filesystem_wrappers/filesystem_cloudpath_wrapper.py; data_set.py, data_design.py and experimental_trial.py:evaluate when given it | ModelCloud.v | cloudpathlib and the bucket are modelled: objects under names, a directory exists while an object is below it, a file is uploaded in one step when it is closed; only gs:// addresses in normal form; credentials, network errors and the checks of cloudpathlib on its local copies are left out |
| filesystem_wrappers/filesystem_pathlib_wrapper.py and experimental_trial.py:evaluate with several processes on the same files | ModelTogether.v | POSIX open-file semantics are modelled: open with "w" empties the file, writes go to the opened file at the writer's offset, unlink removes the name only; one character is written at a time, without buffering; a file is read in one step; no links, no removal of directories |
| driver/experimental_design.py:ExperimentalDesign.load with one core, in several processes | ModelTogether2.v | each process evaluates its list of trials; the output file that a run writes after that is not included |
| data_generators/{homogeneous,heterogeneous,heavy_tailed}_impression_generator.py, fixed_price_generator.py, publisher_data.py:generate_publisher_data | ModelGenerators.v | numpy's generators (parameters with documented ranges) |
| data_generators/overlap_data_set.py and its two subclasses, synthetic_data_design_generator.py, data_set_parameters.py | ModelGenerators.v | set generators of the sketch library (parameters) |
| data_generators/data_set_parameters.py, synthetic_data_design_generator.py:__call__, {simple_data_design_example,analysis_example_data_design,single_publisher_design,lhs_data_design_example,m3_data_design}.py | ModelDesigns.v | loading the configuration module (parameter), pyDOE's sampling (parameter), limits on file name lengths and memory, the way enumerations are printed from Python 3.12 on |
| simulator/privacy_tracker.py | ModelPrivacy.v | |
| simulator/halo_simulator.py, publisher.py, system_parameters.py | ModelHalo.v | sketch internals, logging |
| simulator/m3_strategy.py, single_publisher_strategy.py | ModelStrategy.v | |
| simulator/planner_simulator.py, modeling_strategy.py | ModelPlanner.v | |
| models/reach_curve.py, goerg_model.py | ModelCurves.v | numerical optimisation inside fits |
| models/reach_surface.py, pairwise_union_reach_surface.py, restricted_pairwise_union_reach_surface.py, generalized_mixture_reach_surface.py | ModelSurface.v | termination of `cvxopt`; random starts are parameters there and drawn from a generator in ModelRestricted.v |
| models/restricted_pairwise_union_reach_surface.py: samplers, `_fit` with its generator | ModelRestricted.v | numpy's generator is a parameter (any state type, `seed`, `rand`, `permutation`); rejection sampling runs with fuel; `np.sqrt` is a parameter |
| driver/modeling_strategy_descriptor.py: the classes behind the names; the model that `evaluate` asks | ModelStack.v | names, keyword arguments and constructors of the four curves and two surfaces; keyword values that are not numbers raise TypeError; cvxopt, scipy and numpy's generator are parameters |
| models/kinflated_gamma_poisson_model.py | ModelGamma.v | scipy (negative binomial, chi-squared, Nelder-Mead: parameters), NaN, debug printing |
| models/gamma_poisson_model.py | ModelGammaPoisson.v | scipy (negative binomial, chi-squared quantile, minimiser: parameters), NaN, logging |
| models/dirac_mixture_single_publisher_model.py | ModelDirac.v, ModelEntropy.v (relative_entropy) | scipy's Poisson distribution, cvxpy and its solvers, int32 conversion (parameters), logging, cross_entropy of unequal shapes, stretching of arrays of length 1 |
| driver/{grid,uniformly_random,latin_hypercube_random}_test_point_generator.py, test_point_generator.py, experiment_parameters.py:generate_test_points | ModelTestPoints.v | numpy and pyDOE generators (parameters) |
| driver/test_point_aggregator.py | ModelAggregator.v | floating-point rounding; NaN and infinities are one value |
| driver/{m3_first_round_experimental_design,analysis_example_experimental_design,single_publisher_design,sample_experimental_design}.py | ModelExperiments.v | loading the configuration module, pyDOE's sampling (parameter), floating-point error in np.arange(1, 10) * 0.1 |
| driver/experimental_trial.py, experimental_design.py, experiment.py, trial_descriptor.py, modeling_strategy_descriptor.py, experiment_parameters.py, simulator/system_parameters.py | ModelDriver.v | pandas (print and parse are parameters), md5 (a parameter), the models themselves (fit and reach are parameters of the record `lab`), Apache Beam (any tree of merges); the limit on the number of workers running at a time; logging |
| driver/experiment_driver.py, experimental_design.py:load with Beam | ModelExecute.v | the command line (ModelMain.v), importing the module of the experimental design (parameter), running against cloud storage (ModelCloudRun.v); data sets are read from the disk as it is when the run starts (C53_meanwhile: reading later gives the same) |
| driver/experiment_driver.py and experimental_design.py when given the cloud file system, as by `main` with the Dataflow runner | ModelCloudRun.v | the command line (ModelMain.v); Dataflow is a list of attempts, a schedule of their requests and a choice of one ended attempt per trial; attempts still running when the tables are put together are taken to be stopped; data sets are read as they are when the run starts (C57_meanwhile: nothing in the data design changes) |
| driver/experiment_driver.py:main, argparse as far as this parser uses it | ModelMain.v | the argument `--` and the value `--` (their meaning differs between versions of Python); argparse of Python 3.8 to 3.11; texts of messages and of help; Beam's parser (parameter; assumed to take the last --temp_location); importing the module of the experimental design (parameter); one name for Beam's refusal (exit code 2) |
| synthetic_data_design_generator.py:main, __init__, _fetch_data_design_config; experiment_driver.py: app.run; absl-py 0.12.0 as far as they use it | ModelShell.v | what the flags of absl itself do (--help, --v, --flagfile, --undefok; their names are a parameter, lines that use them are recognised); texts of messages; letters outside ASCII in truth values and numbers; importing the file of parameters (parameter) |
| privacy_tracker.py, halo_simulator.py, m3_strategy.py, single_publisher_strategy.py, publisher.py, fixed_price_generator.py and the test point generators once more, with rounding | ModelDouble.v | overflow, infinities, NaN; the Venn diagram request; every other formula with floats |
