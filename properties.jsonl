{"id": "C01", "title": "ReachPoint k+ reaches and exact frequencies determine each other", "statement": "For every ReachPoint, frequency(k) equals reach(k) - reach(k+1) for 1<=k<max_frequency; rebuilding k+ reaches from frequencies_with_kplus_bucket gives back exactly the k+ list the point was built from; reach(k) succeeds iff 1<=k<=max_frequency and frequency(k) iff 1<=k<max_frequency, and otherwise they raise. The universe size of a point is the one it was given, or ValueError without one.", "quantifier": "all k+ lists of any length, all integers k, with or without universe size and spends", "why_tests_cant": "Needs every list length and every k, including off-by-one ends; a unit test checks a handful of literals.", "anchors": ["src/models/reach_point.py:ReachPoint.__init__/reach/frequency/frequencies_with_kplus_bucket/frequencies_to_kplus_reaches"]}
{"id": "C02", "title": "Zero-included histogram accounts for the whole universe", "statement": "When a universe size is known, the entries of zero_included_histogram sum to the universe size, and all entries are non-negative iff the k+ reaches are non-increasing, non-negative at the end and do not exceed the universe; without a universe size the call raises.", "quantifier": "all k+ lists and universe sizes", "why_tests_cant": "Conservation over arbitrary-length lists.", "anchors": ["src/models/reach_point.py:ReachPoint.zero_included_histogram"]}
{"id": "C03", "title": "k+ reaches computed from user counts count users", "statement": "user_counts_to_kplus_reaches(counts, m)[k-1] is the number of users whose count is at least k, for every list of positive counts and every m>=1. A user with count 0 must not be counted as reached.", "quantifier": "all lists of per-user counts, all max frequencies, all k", "why_tests_cant": "Universally quantified over populations; the wrap-around of Python's negative indices only shows on zero counts, which no test supplies.", "anchors": ["src/models/reach_point.py:ReachPoint.user_counts_to_frequencies/user_counts_to_kplus_reaches"]}
{"id": "C04", "title": "Ground-truth reach by spend counts distinct users at k+ impressions", "statement": "DataSet.reach_by_spend(spends, m).reach(k) is exactly the number of distinct user ids whose total number of impressions, over all publishers i and impressions priced at most spends[i], is at least k.", "quantifier": "all impression logs, any number of publishers, all spend vectors of the right length, all m>=1, 1<=k<=m", "why_tests_cant": "The count ranges over arbitrary logs with overlapping users; tests fix three or four impressions.", "anchors": ["src/data_generators/data_set.py:DataSet.reach_by_spend/_counts_to_histogram", "src/data_generators/publisher_data.py:PublisherData.user_counts_by_spend"]}
{"id": "C05", "title": "Ground-truth reach by impressions counts users among the cheapest impressions", "statement": "DataSet.reach_by_impressions(n, m).reach(k) is the number of distinct users seen at least k times among the n[i] cheapest impressions (ties kept in log order) of every publisher i; n[i] larger than the log means the whole log.", "quantifier": "all logs, all non-negative impression vectors, all m>=1 and k", "why_tests_cant": "As C04, plus sorting with ties.", "anchors": ["src/data_generators/data_set.py:DataSet.reach_by_impressions", "src/data_generators/publisher_data.py:PublisherData.user_counts_by_impressions"]}
{"id": "C06", "title": "Reach is monotone", "statement": "Ground-truth k+ reach never decreases when any publisher's spend (or impression count) increases, and never increases with k.", "quantifier": "all logs, all pairs of ordered spend/impression vectors, all k", "why_tests_cant": "Relational property over pairs of inputs.", "anchors": ["src/data_generators/data_set.py:DataSet.reach_by_spend/reach_by_impressions"]}
{"id": "C07", "title": "Union reach bounds", "statement": "Ground-truth reach of a combined buy is at least the reach of each single-publisher buy in it, at most the sum of them, at most the number of impressions delivered and at most maximum_reach; it equals maximum_reach when every spend is at least the publisher's max_spend.", "quantifier": "all logs and spend vectors", "why_tests_cant": "Inclusion/exclusion bounds over arbitrary overlaps.", "anchors": ["src/data_generators/data_set.py:DataSet.reach_by_spend/maximum_reach", "src/data_generators/publisher_data.py:PublisherData.max_spend"]}
{"id": "C08", "title": "Spend and impressions convert consistently", "statement": "spend_by_impressions(n) is the least spend that buys n impressions, for logs in any order. For logs kept in price order, impressions_by_spend(s) is the number of logged impressions priced at most s and agrees with the total of user_counts_by_spend, so for 1<=n<=max_impressions, spend_by_impressions(n)<=s iff n<=impressions_by_spend(s). (For logs out of price order impressions_by_spend is wrong, which is exhibited.)", "quantifier": "all impression logs in any order, all spends, all n", "why_tests_cant": "Must hold for every ordering of the input log; the tests only use logs already sorted by spend.", "anchors": ["src/data_generators/publisher_data.py:PublisherData.__init__/impressions_by_spend/spend_by_impressions"]}
{"id": "C09", "title": "Buying by impressions and by the matching spend agree", "statement": "When publisher prices are pairwise distinct, reach_by_spend(spend_by_impressions(n)) has the same k+ reaches and impressions as reach_by_impressions(n); with ties, reach by spend is at least reach by impressions.", "quantifier": "all logs, impression vectors 0<=n with positive prices", "why_tests_cant": "Relational, over all logs.", "anchors": ["src/data_generators/data_set.py:DataSet.reach_by_spend/reach_by_impressions/spend_by_impressions"]}
{"id": "C10", "title": "Malformed vectors are rejected and well-formed ones accepted", "statement": "reach_by_spend and reach_by_impressions raise exactly when the vector length differs from publisher_count (given m>=1); a returned ReachPoint has max_frequency m, carries the spends/impressions vectors with one entry per publisher and the data set's universe size, and its zero-included histogram is non-negative whenever the universe is at least maximum_reach (always, for the default universe). A publisher or data set keeps a non-empty name; a publisher without one gets the random name, a data set without one raises NameError. Converting spends for a data set converts each publisher's own entry.", "quantifier": "all logs, all vectors, all m", "why_tests_cant": "Totality over all inputs.", "anchors": ["src/data_generators/data_set.py:DataSet.__init__/reach_by_spend/reach_by_impressions"]}
{"id": "C11", "title": "Ground truth does not depend on log order, publisher order or user naming", "statement": "Permuting the rows of a publisher's log, permuting publishers together with their spends, or renaming users injectively leaves all k+ reaches by spend unchanged.", "quantifier": "all logs, permutations, injective renamings", "why_tests_cant": "Relational over all permutations.", "anchors": ["src/data_generators/data_set.py:DataSet.reach_by_spend"]}
{"id": "C12", "title": "Publisher data files round-trip and bad lines are pinpointed", "statement": "Reading what write_publisher_data wrote gives a publisher with the same sorted impression log, hence the same counts, spends and reach. A file is accepted exactly if every line is an integer literal, one comma and a float literal, and then the rows are exactly what the lines say (none dropped, added or altered); otherwise reading raises RuntimeError naming the number (from 1) and text of the first malformed line.", "quantifier": "all logs, all files (lists of lines)", "why_tests_cant": "Arbitrary file contents.", "anchors": ["src/data_generators/publisher_data.py:PublisherData.write_publisher_data/read_publisher_data"]}
{"id": "C13", "title": "Data sets survive a write/read round trip", "statement": "Reading a directory newly written by write_data_set yields a data set with the same publishers' logs in file-name order, hence the same ground truth reach for every budget given per publisher name; nothing else on disk changes. A directory read gives one publisher per file and fails if one file is malformed. A cached read returns a fresh read of now or of the moment of an earlier read of that directory, so it is current if the directory did not change after its first read. Violations exhibited: a read after a later write may be stale, the universe size is lost (it becomes twice the reach), publishers with equal names overwrite each other, and a data set that was read cannot be written elsewhere.", "quantifier": "all data sets, all sequences of writes and reads", "why_tests_cant": "History-dependent (read cache), over all data sets.", "anchors": ["src/data_generators/data_set.py:DataSet.write_data_set/read_data_set"]}
{"id": "C14", "title": "Data designs never overwrite and list what was added", "statement": "Adding a data set whose name is in the design fails and changes nothing; otherwise afterwards names = previous names plus the new one, count grows by one, by_name (if that name was not looked up before) returns the stored data set, and everything outside the new directory is untouched; over any history of adds each name shows what was there before or the first data set added with it; reopening shows the same names. If the program stops inside add, the other data sets are intact. Violations exhibited: the interrupted data set is listed and read as a smaller one without error; looking a name up before adding it makes later lookups return an empty data set.", "quantifier": "all histories of add operations, all disk states, all crash points inside add", "why_tests_cant": "Invariant over histories.", "anchors": ["src/data_generators/data_design.py:DataDesign"]}
{"id": "C15", "title": "Impression generators reach exactly the requested audience", "statement": "For every random outcome, the generated impression list contains exactly the user ids 0..n-1; a user is shown one more time than the Poisson draw made for them (homogeneous, heterogeneous) or as often as the zeta draw (heavy tailed); so the publisher's max_reach is n. The heavy-tailed generator refuses a parameter that is not above 1, and n below 1 gives ValueError.", "quantifier": "all n, all random outcomes (draws and shuffles), all three generators", "why_tests_cant": "All random outcomes.", "anchors": ["src/data_generators/homogeneous_impression_generator.py", "src/data_generators/heterogeneous_impression_generator.py", "src/data_generators/heavy_tailed_impression_generator.py"]}
{"id": "C16", "title": "Fixed price data costs exactly cost-per-impression times impressions", "statement": "Under FixedPriceGenerator with positive cpi, spend_by_impressions(n)=n*cpi for n<=max, impressions_by_spend(s)=min(floor(s/cpi),max) for s>=0, max_spend=max_impressions*cpi.", "quantifier": "all id lists, all cpi>0, all s, n", "why_tests_cant": "All inputs.", "anchors": ["src/data_generators/fixed_price_generator.py", "src/data_generators/publisher_data.py"]}
{"id": "C17", "title": "Overlap data sets keep every publisher's own statistics", "statement": "Relabelling ids with an overlap generator preserves, for every publisher, its name, spend curve, maximum spend and frequency histogram at each spend and impression count, provided each publisher is given as many distinct labels as it has users; its users become exactly the labels, so any set of publishers bought completely reaches exactly the union of their label sets. A label set of the wrong size is refused. Violations exhibited: when fewer label sets than publishers come back the rest of the publishers is dropped silently; a generator argument (allowed by the documented type) gives an empty data set; repeated labels pass the size check and lose users.", "quantifier": "all publisher logs, all label assignments", "why_tests_cant": "All random label assignments.", "anchors": ["src/data_generators/overlap_data_set.py:OverlapDataSet._label_ids", "src/data_generators/independent_overlap_data_set.py", "src/data_generators/sequentially_correlated_overlap_data_set.py"]}
{"id": "C18", "title": "Reported privacy consumption is the worst bucket's", "statement": "PrivacyTracker.privacy_consumption reports, for epsilon and for delta, the maximum over all points x of [0,1) of the sum of budgets of the events whose sampling bucket range contains x.", "quantifier": "all sequences of noising events with non-negative budgets and arbitrary (wrapping) bucket ranges", "why_tests_cant": "Maximum over a continuum of buckets for any event list.", "anchors": ["src/simulator/privacy_tracker.py:PrivacyTracker.privacy_consumption/SamplingBucketIndices.contains"]}
{"id": "C19", "title": "Privacy accounting is additive, monotone and order-independent", "statement": "Appending events never lowers reported consumption, consumption of two event lists together is at most the sum of each, equals the sum when all use the full bucket range, and does not depend on the order of events. Mechanisms are listed in the order in which the events were recorded.", "quantifier": "all event lists", "why_tests_cant": "Relational over lists.", "anchors": ["src/simulator/privacy_tracker.py:PrivacyTracker.append/privacy_consumption"]}
{"id": "C20", "title": "Simulated reach is well-formed for every noise outcome", "statement": "HaloSimulator.simulated_reach_by_spend returns max_frequency non-negative integer k+ reaches, non-increasing in k, with the impressions of the spend, whatever the sketch estimator and the noise return.", "quantifier": "all estimator outputs and noise draws, all spends, max_frequency>=1", "why_tests_cant": "All noise outcomes.", "anchors": ["src/simulator/halo_simulator.py:HaloSimulator.simulated_reach_by_spend"]}
{"id": "C21", "title": "Simulated reach stays below impressions", "statement": "When a spend buys at least two impressions, the simulated 1+ reach is strictly less than the number of impressions, so that downstream models can be fitted. (With no or one impression the code returns reach 1, so the bound is then violated; both violations are exhibited.)", "quantifier": "all estimator outputs and spends", "why_tests_cant": "All noise outcomes; fails at 0 and 1 impressions.", "anchors": ["src/simulator/halo_simulator.py:HaloSimulator.simulated_reach_by_spend"]}
{"id": "C22", "title": "Each simulator request charges exactly its privacy budget", "statement": "A successful simulated_reach_by_spend or simulated_venn_diagram_reach_by_spend with a non-zero spend increases the tracker by exactly the requested epsilon and delta (for every split in [0,1]); a Venn request with only zero spends charges nothing; a request never charges more than its budget even when it raises.", "quantifier": "all budgets, splits, spends, data sets, oracle outcomes", "why_tests_cant": "All inputs and failure points.", "anchors": ["src/simulator/halo_simulator.py:HaloSimulator.simulated_reach_by_spend/simulated_venn_diagram_reach_by_spend"]}
{"id": "C23", "title": "Modeling strategies stay within the privacy budget", "statement": "Fitting the M3 strategy or the single-publisher strategy consumes at most the given budget at every point of the execution, including when some request or model fit raises; on success M3 with p>2 publishers and the single-publisher strategy consume exactly the budget, and M3 with p<=2 consumes (p+1)/(2p+1) of it.", "quantifier": "all publisher counts, budgets, failure points", "why_tests_cant": "All publisher counts and crash points.", "anchors": ["src/simulator/m3_strategy.py:M3Strategy.fit", "src/simulator/single_publisher_strategy.py:SinglePublisherStrategy.fit"]}
{"id": "C24", "title": "Venn regions partition the reached users", "statement": "For every non-empty set of active publishers, the primitive region count is the number of users reached by exactly those publishers; the counts add up to the union reach; more than 20 active publishers is refused.", "quantifier": "all data sets and spend vectors", "why_tests_cant": "Exponentially many regions over arbitrary logs.", "anchors": ["src/simulator/halo_simulator.py:HaloSimulator._form_venn_diagram_regions"]}
{"id": "C25", "title": "Aggregated Venn reach points are consistent set-union reaches", "statement": "The reach point for a publisher subset is the sum of the primitive regions meeting the subset; over non-negative regions it is non-negative, monotone and subadditive in the subset; the points of one request obey these laws whenever the noised estimate of the union cardinality is not negative (a negative estimate gives negative reaches, which is exhibited); it is exact (the true union reach) when sampling is full and there is no noise. If all spends are zero there are no points and nothing is charged or drawn. If no register of the sketch holds exactly one person the request raises a RuntimeError and nothing is charged; that is also what happens if the spends are not zero but too small to buy a single impression, where reaches of 0 would be expected (exhibited).", "quantifier": "all region tables, all subsets, logs, spends and sketches", "why_tests_cant": "All subsets and tables.", "anchors": ["src/simulator/halo_simulator.py:HaloSimulator._aggregate_reach_in_primitive_venn_diagram_regions/_generate_reach_points_from_venn_diagram/_scale_up_reach_in_primitive_regions"]}
{"id": "C26", "title": "Reach quantile search inverts the curve", "statement": "impressions_at_reach_quantile(q) and spend_at_reach_quantile(q) return x with reach(x) <= q*max_reach < reach(x+1) for any monotone curve starting at or below the target; they raise iff q is outside (0,1) (ValueError) or the target is not exceeded at 2^60 (OverflowError); the search always terminates. For a Goerg curve trained with a positive spend the spend quantile brackets its target in the same way.", "quantifier": "all monotone integer-argument curves, all q", "why_tests_cant": "All curves; termination.", "anchors": ["src/models/reach_curve.py:ReachCurve._by_quantile"]}
{"id": "C27", "title": "Goerg model interpolates its training point and is a reach curve", "statement": "For a valid training point (impressions > reach > 0, impressions>=0.001) the fitted curve passes exactly through the training point, is strictly increasing in impressions, strictly below max_reach and approaching it, k+ reaches are non-increasing in k, zero at zero, 1+ reach is concave; exactly the invalid points are rejected, with ValueError. A training reach of zero is accepted, but then the query at zero impressions raises ZeroDivisionError instead of answering zero (exhibited).", "quantifier": "all training points, impressions and k", "why_tests_cant": "All reals.", "anchors": ["src/models/goerg_model.py:GoergModel"]}
{"id": "C28", "title": "Goerg spend and impression queries agree", "statement": "by_spend(s) equals by_impressions(impressions_for_spend(s)), a curve trained with spend S at I impressions returns the training reach at spend S, and models trained without (or with zero) spend reject spend queries.", "quantifier": "all training points and spends", "why_tests_cant": "All reals.", "anchors": ["src/models/goerg_model.py:GoergModel.by_spend/impressions_for_spend"]}
{"id": "C29", "title": "Pairwise union surface obeys union bounds", "statement": "If the overlap coefficients satisfy the fitted constraints (non-negative, zero diagonal, symmetric, row sums at most one), the modelled reach is at least every single-publisher reach, at most their sum, and monotone in each publisher's reach. Training points for different numbers of publishers are refused by every surface and by the Goerg curve.", "quantifier": "all publisher counts, coefficients, reach vectors", "why_tests_cant": "All dimensions.", "anchors": ["src/models/pairwise_union_reach_surface.py:PairwiseUnionReachSurface.by_impressions"]}
{"id": "C30", "title": "Generalized mixture surface obeys union bounds", "statement": "If each publisher's mixture weights are non-negative and sum to one and no single reach exceeds the universe size N used by the model (N is twice the largest maximum reach), the modelled reach is at least every single reach, at most their sum, at most (number of components) x N, and monotone in the single reaches; with one active publisher it equals that publisher's curve. It is NOT bounded by N itself: three publishers in three components reach 1.5 N (exhibited). Fitted weights satisfy the constraints whenever the solver respects its constraints.", "quantifier": "all p, component counts, weights, reach vectors", "why_tests_cant": "All dimensions.", "anchors": ["src/models/generalized_mixture_reach_surface.py:GeneralizedMixtureReachSurface.by_impressions"]}
{"id": "C31", "title": "Restricted pairwise coordinate descent is sound", "statement": "Each coordinate update from a feasible point stays feasible, minimises the squared loss over all feasible values of that coordinate and never increases the loss; so a whole fit, for any permutations and number of rounds, never ends worse than its start, reports the loss of what it returns, and the fitted coefficients satisfy the constraints of the pairwise surface; the surface predicts exactly the overlap that was fitted. Exhibited violations: a start accepted by the tolerant feasibility check can be updated to a negative coordinate; the documented 'if and only if' of the bound fails when all other coordinates vanish; the convergence flag can be True after a round that improved the loss by 0.9. The squared error of a whole fit from feasible starts is not above that of any start that was made, before or after its descent.", "quantifier": "all training data, feasible starts, iteration counts", "why_tests_cant": "Unbounded iteration.", "anchors": ["src/models/restricted_pairwise_union_reach_surface.py:_step/_round/_get_feasible_bound/_fit_one_init_lbd"]}
{"id": "C32", "title": "Multi-start fitting keeps the best fit", "statement": "The fit chosen among several random starts has the smallest loss of all starts tried (the first such), the number of starts lies between min(minimum, maximum) and the maximum, the loop ends before the maximum exactly when the k-th smallest loss is within the wall distance of the smallest, and the recorded losses are the k smallest, padded with infinity. Exhibited: the mixture surface always makes exactly 10 starts, the first success flag belongs to the last start and not to the chosen fit, and the mixture's comparison value is not the squared error it minimises. One start of the generalized mixture's fit goes through a sequence of rounds: each round asks the solver for the weights with the smallest squared error of the linear models around the weights of the round before, the rounds end when the loss no longer falls by more than the least improvement or the allowed number is used up, and the start answers with the loss and weights of its last round. If every start can be fitted, the generalized mixture's fit succeeds, with the weights of the first best of its ten starts, and it never answers with anything else. The fit of the restricted surface makes between 30 and 1000 starts, each with at most 1000 rounds that have to lower the loss by more than 0.001; it ends before 1000 starts only if the ten smallest losses are within one percent, and as soon as they are; it answers with the first of the best, and it answers whenever every start can be fitted.", "quantifier": "all sequences of per-start outcomes", "why_tests_cant": "All random outcomes.", "anchors": ["src/models/restricted_pairwise_union_reach_surface.py:_fit_multi_init_lbds", "src/models/generalized_mixture_reach_surface.py:_fit_multi_init_a"]}
{"id": "C33", "title": "Exponential-Poisson fits reproduce the training reach", "statement": "The exponential-Poisson reach formula is the sum of the documented series. The universe size and beta chosen for a point with positive reach make the predicted reach at the fitted impressions (the training impressions, or the number asked for if larger) equal the training reach, whenever impressions exceed reach by at least 0.001 (and exceed 1 for points with three or more k+ reaches); the universe is at least the reach and its inventory has room for the impressions. The enlarging loop ends for every input, never shrinks the universe and leaves room for the impressions. The answer of the fitted model, which cuts the distribution at 999 impressions per user, misses the reach by at most N*z^999 below and J*z^999 above. Violations exhibited: no match when impressions equal reach, when nobody was reached or when more impressions are asked for than trained on; the returned model can lack the room asked for; a one-impression point raises ZeroDivisionError; the scale factor multiplies the mean, not beta.", "quantifier": "all impressions, reaches, betas, scale factors, requested inventories, loop lengths", "why_tests_cant": "All reals; loop termination.", "anchors": ["src/models/kinflated_gamma_poisson_model.py:_exponential_poisson_reach/_exponential_poisson_beta/_exponential_poisson_N*/_fit_exponential_poisson_model"]}
{"id": "C34", "title": "k-inflated distribution is a probability distribution", "statement": "For every inflation vector the truncated mass function sums to one; it is a probability distribution for every non-negative inflation vector (also one summing to more than one), with the documented entries. k+ reach probabilities are the probabilities of being shown at least k of the user's impressions, each independently with the sampled share; they lie in [0,1], decrease in k and increase in the share. Answers of a fitted model are N times these; they increase with impressions, never exceed N, equal N once the inventory is used up, decrease in frequency, and up to the inventory account for exactly the impressions bought. The inflation loop ends with at most kmax inflation values. Non-consecutive frequencies are refused. Violation exhibited: negative inflation values are accepted and give negative probabilities. A query by spend with any other number of spends than one is refused.", "quantifier": "all inflation vectors, base mass functions, frequencies, shares, impressions, minimiser outcomes", "why_tests_cant": "All parameters.", "anchors": ["src/models/kinflated_gamma_poisson_model.py:KInflatedGammaPoissonDistribution"]}
{"id": "C35", "title": "Reach curve answers do not depend on query history", "statement": "After the first query that fits the k-inflated model, every answer is determined by that fit, whatever else is asked in between; a query that fails to fit leaves no trace; for a point with a 1+ reach only, a query below the training impressions gets the same answer after any history of such queries. Violation exhibited: the answer to a large query depends on whether a smaller one came first (about 500 versus 2000/3 for a point with reach 500).", "quantifier": "all query histories", "why_tests_cant": "History-dependent lazy fitting.", "anchors": ["src/models/kinflated_gamma_poisson_model.py:by_impressions/_fit"]}
{"id": "C36", "title": "Trial evaluation is idempotent and crash-safe", "statement": "Evaluating a trial whose results file is readable returns its table and changes nothing on disk. Otherwise the row is computed, returned, and stored completely with the pending marker removed; evaluating again, with any seed, returns the same table. An unreadable results file is recomputed. If the computation fails there is no results file and the marker stays. If the reader refuses incomplete files, then after any number of crashes at any points, a final run returns the row of an uninterrupted run and leaves the complete results file. Only the results file, the marker and their directories are touched. Violations exhibited: a results file cut after its header line is read as an empty table for ever; a crash between writing the results and removing the marker leaves the marker for ever. The marker tells the time of the start, the data set and the trial. If a directory is in the place of the marker the evaluation raises before anything is computed, and if one is in the place of the results file it raises and the marker stays. A marker that somebody else has removed in the meantime is no error.", "quantifier": "all disks, crash points and histories of re-runs", "why_tests_cant": "The crash can happen after every single effect on the disk, and any number of times in a row.", "anchors": ["src/driver/experimental_trial.py:ExperimentalTrial.evaluate", "src/driver/experimental_trial.py:ExperimentalTrial._compute_trial_results_path"]}
{"id": "C37", "title": "Different trials never share a results file", "statement": "Two trials of an experiment have the same results file if and only if they have the same data set and the same strategy, model names, keyword arguments, spend fractions, sketch parameters, privacy budget, replica id, maximum frequency and test points (for plain names without separators). Violations exhibited: settings that are not printed (sketch seed, generator, the analysis type, the seed of the design) do not lead to different files, so that a trial can be answered with the row of another one; names with separators or strings that look like numbers can print alike.", "quantifier": "all pairs of trials", "why_tests_cant": "Pairs of all descriptors.", "anchors": ["src/driver/experimental_trial.py:ExperimentalTrial._compute_trial_results_path", "src/driver/trial_descriptor.py", "src/simulator/system_parameters.py:__str__"]}
{"id": "C38", "title": "Designs make each distinct trial once, and parallel evaluation gives every trial its own answer", "statement": "The trials of a design are, for every data set and every descriptor in this order, the descriptor adapted to the data set; of those with the same data set and settings the first is kept and none is missing. For every schedule of parallel workers that ends, every trial has the answer it would have on its own, in its own place, and the results are on disk with nothing else changed but directories; no schedule can get stuck; an exception in a worker is raised. However a runner splits and merges the results, the output holds exactly the rows of all of them.", "quantifier": "all designs, all schedules of parallel workers, all ways to merge", "why_tests_cant": "All schedules of single effects on the disk.", "anchors": ["src/driver/experimental_design.py:ExperimentalDesign", "src/driver/experimental_design.py:CombineDataFrameFn", "src/driver/experiment.py:Experiment.generate_trials", "src/driver/trial_descriptor.py:update_from_dataset"]}
{"id": "C39", "title": "The table of an experiment does not depend on how it was run", "statement": "If no trial's row depends on what was computed before it (in particular if trials have generators of their own, or models draw nothing from them), then the table is the concatenation of the trials' own rows; it is the same after any number of stopped runs, when loaded again, and for every parallel schedule; the order of the trials only changes the order of the rows. Violation exhibited: trials that share a generator object, as the trials of one descriptor on several data sets do, get other rows in a resumed run, in a parallel run and in another order than in an uninterrupted sequential run.", "quantifier": "all lists of trials, stopping points, schedules and orders", "why_tests_cant": "All schedules and histories.", "anchors": ["src/driver/experimental_design.py", "src/driver/experiment_parameters.py:update_from_dataset", "src/simulator/system_parameters.py:update_from_dataset"]}
{"id": "C40", "title": "Test points lie inside the spend box and the grid is complete", "statement": "Every generated test point has one coordinate per publisher between 0 and that publisher's max_spend (strictly inside for the grid and positive max_spend). The grid generator yields exactly grid_size^p points, one for every choice of grid levels, pairwise different when every max_spend is non-zero. The uniform generator yields max(npoints, npublishers*points_per_publisher) points; the Latin hypercube generator yields that number raised to at least 100 and cut off at 2000, and its points form a Latin hypercube of the spend box: each coordinate falls into each of the equal slices exactly once. An experiment substitutes the number of publishers of the data set for npublishers. Unknown strategies are refused. Grid and uniform points depend only on the data set, arguments and the trial's generator. Violations exhibited: the uniform generator does not enforce the documented minimum of 100 points; Latin hypercube points depend on the process-wide random state; a zero max_spend makes grid points coincide.", "quantifier": "all data sets, sizes, keyword arguments and random draws", "why_tests_cant": "All dimensions and draws.", "anchors": ["src/driver/grid_test_point_generator.py", "src/driver/uniformly_random_test_point_generator.py", "src/driver/latin_hypercube_random_test_point_generator.py"]}
{"id": "C41", "title": "Error metrics are sound", "statement": "For lists of the same non-zero length, the error columns are what their names say: mean, mean absolute, mean squared error and variance (mse = variance + bias squared), relative errors per frequency (missing if a point lacks the frequency or a true reach is zero), quantiles that are ordered, within the range of the relative errors and with the right number of errors on each side. They are all zero when the model is perfect and true reaches are positive, and do not depend on the order of the points. Shuffle distance is symmetric, between 0 and 1 for non-negative frequencies, is half the L1 distance of the shares at frequencies 1..5, and is zero exactly when the shares agree. The failure row has the same columns as a success row with all statistics missing. Lists of different lengths above one are refused. Violations exhibited: shuffle distance of a point to itself is 1 if it has at most five frequencies and 1/2 if nobody is in frequencies 1..5; a one-element list is silently compared with each element of the other list. Without test points IndexError is raised; if a true reach is zero the relative metrics are missing and the absolute ones are numbers.", "quantifier": "all lists of reach points", "why_tests_cant": "All lists.", "anchors": ["src/driver/test_point_aggregator.py"]}
{"id": "C42", "title": "Ground-truth curve model equals ground truth of one publisher", "statement": "Queries of the ground truth curve of a publisher equal the data set's ground truth with all other publishers at zero. By impressions they count the users of that publisher alone. By spend they do so too if no other publisher shows impressions for free; free impressions of another publisher are counted (exhibited). The impressions that a spend buys on the curve are those of its publisher, for logs in order of price.", "quantifier": "all data sets, publishers and queries", "why_tests_cant": "All inputs.", "anchors": ["src/models/ground_truth_reach_curve_model.py"]}
{"id": "C43", "title": "Pairwise fit is the constrained least squares fit", "statement": "If the quadratic solver returns an optimum of the program it is given, then the fitted pairwise union surface satisfies the documented constraints and has the smallest squared error on the training points among all surfaces satisfying them; in particular training data generated by an admissible surface are reproduced exactly.", "quantifier": "all publisher counts, curves, training points and solvers that return an optimum", "why_tests_cant": "Optimality is over all admissible coefficients and all data.", "anchors": ["src/models/pairwise_union_reach_surface.py:_fit", "src/models/pairwise_union_reach_surface.py:_solve_a_given_z_and_alpha", "src/models/pairwise_union_reach_surface.py:_get_inequality_constraints"]}
{"id": "C44", "title": "Simulated reach measures the campaign", "statement": "If the sketch library counts without error, simulated_reach_by_spend reports exactly the number of users that all publishers together show at least k impressions when each publisher spends the smaller of the requested spend and its campaign spend (fraction x largest price); if that would reach the number of impressions, it reports impressions-1 (at least 1) and zeros. Within the campaign spends and below the cap it equals the true reach.", "quantifier": "all logs, fractions, spend vectors, budgets, frequencies and exact sketch libraries", "why_tests_cant": "Ranges over all logs and spends and every library that counts exactly.", "anchors": ["src/simulator/publisher.py:Publisher.liquid_legions_sketch", "src/simulator/publisher.py:Publisher.__init__", "src/simulator/halo_simulator.py:HaloSimulator.simulated_reach_by_spend"]}
{"id": "C45", "title": "The strategies train on the intended measurements", "statement": "A successful M3 fit has measured the whole campaign, each publisher's campaign alone (frequencies 1..10) and, with more than two publishers, the campaign without each publisher in turn; the curves are fitted to the single measurements (or are the ground truth curves) and the surface to the curves and all the other measurements. The single publisher strategy fits its curve to the campaign measured up to frequency 20.", "quantifier": "all publisher counts, logs, fractions, budgets, model classes and exact sketch libraries", "why_tests_cant": "All publisher counts and data sets.", "anchors": ["src/simulator/m3_strategy.py:M3Strategy.fit", "src/simulator/single_publisher_strategy.py:SinglePublisherStrategy.fit"]}
{"id": "C46", "title": "Publisher true reach agrees with the data set", "statement": "Publisher.true_reach_by_spend counts the users that the publisher shows at least k impressions priced at most the spend (not limited by the campaign spend), with that many impressions; when every impression costs something it equals the simulator's true reach with zero spend at all other publishers (with free impressions it need not, which is exhibited). The maximal spend reported for a publisher is its highest price.", "quantifier": "all logs, publishers, spends and frequencies", "why_tests_cant": "All logs and spends.", "anchors": ["src/simulator/publisher.py:Publisher.true_reach_by_spend", "src/simulator/halo_simulator.py:HaloSimulator.true_reach_by_spend"]}
{"id": "C47", "title": "Synthetic data sets have the planned publishers", "statement": "A synthetic data set has the requested number of publishers, named 1, 2, ..., in this order; publisher k reaches exactly size_k people, where size_0 is the requested largest size, sizes never grow and stay within k people of largest*rate^k; with full overlap publisher k's users are 0..size_k-1, so the data set reaches exactly the largest size; with an overlap generator each publisher's users are exactly its label set. If a size falls to 0 no data set is produced. Violation exhibited: the smallest publisher can be smaller than the rounded share of the largest.", "quantifier": "all parameter sets, all random outcomes, all set generators that return as many distinct labels as asked", "why_tests_cant": "All sizes, rates and random outcomes.", "anchors": ["src/data_generators/synthetic_data_design_generator.py:SyntheticDataDesignGenerator._generate_data_set", "src/data_generators/data_set_parameters.py:DataSetParameters"]}
{"id": "C48", "title": "The row of a trial says what was run and how it went", "statement": "A trial has a row exactly if its data set is found and has publishers, each with a spend fraction, and its strategy's names and arguments are known; nothing raised while fitting or asking the model escapes. The columns, all different, depend only on the analysis and the maximum frequency. Either the row says success and its metric columns are the aggregate of the data set's true reach and the model's answers at the generated test points, or it says failure, gives the traceback, and all other metric and single publisher columns are missing. The settings columns are the trial's settings and the data set's sizes; the privacy columns are the given budget, the consumption and the sorted distinct mechanisms recorded by the fit. With the single publisher analysis the columns are the relative errors at 10%,...,300% of the campaign's spend (missing if nobody is reached) for each frequency below the maximum, and the last frequencies with non-zero reach. Violation exhibited: the analysis alone can turn a successful trial into a failed one, when the training point has no reach. The simulator is made with the trial's data set, decay rate, sketch size and sketch seed, and uses only the trial's own generator.", "quantifier": "all trials, data sets, models (also failing ones), seeds and generator states", "why_tests_cant": "All models and failures at every step of the evaluation.", "anchors": ["src/driver/experimental_trial.py:ExperimentalTrial.evaluate", "src/driver/experimental_trial.py:ExperimentalTrial._make_independent_vars_dataframe", "src/driver/experimental_trial.py:ExperimentalTrial._make_privacy_tracking_vars_dataframe", "src/driver/experimental_trial.py:ExperimentalTrial._compute_single_publisher_fractions_dataframe", "src/driver/experimental_trial.py:ExperimentalTrial._single_publisher_fractions_dataframe_on_exception"]}
{"id": "C49", "title": "Gamma-Poisson model: what it accepts, predicts and minimises", "statement": "A Gamma-Poisson model accepts exactly one training point with exactly one number of impressions, at least 0.001 and at least its reach. With universe N, inventory Imax and parameters alpha, beta fitted, its k+ reach at I impressions is N times the chance that a user with at most 1000 impressions (one more than negative binomial) is shown at least k of them when each is shown with chance min(I, Imax-1)/Imax: zero at zero impressions, never decreasing in the impressions, never increasing in k, below N, constant from Imax-1 on; a spend is converted at the training point's price, and without training spend refused. The fit minimises the chi-squared distance to the training histogram plus the squared error of its reach plus the penalty for an inventory below the extrapolation limit, which is zero exactly if the predicted histogram is the training one and the inventory is large enough; the parameters are the best of at most ten starts (the first below the 98% quantile ends the search), within their bounds, and Imax = N(1 + alpha*beta). Violations exhibited: at distance zero the model can still miss the training point's reaches, by the users beyond the table; the penalty is not applied to inventories below the impressions served; fitting again after a fit without a given universe changes the parameters.", "quantifier": "all training points, parameters, impressions, spends, frequencies, minimisers that respect bounds, negative binomial tables", "why_tests_cant": "All parameters and impressions; the optimiser and the distribution are arbitrary.", "anchors": ["src/models/gamma_poisson_model.py:GammaPoissonModel", "src/models/gamma_poisson_model.py:GammaPoissonModel._fit_histogram_chi2_distance", "src/models/gamma_poisson_model.py:GammaPoissonModel.by_impressions"]}
{"id": "C50", "title": "The Dirac mixture model answers with the Poisson mixture that fits best on its grid", "statement": "A DiracMixtureSinglePublisherModel is made from exactly one reach point whose universe is known and whose first number of impressions is at least 0.001 and at least the 1+ reach; everything else is refused with a ValueError. The components are drawn per frequency f in proportion to the training distribution: round(n * share of f) of them, evenly spaced from f up to below f + 1, until n have been drawn, the rest after the last frequency; they increase strictly, there are at least n, and too many by at most half a component per frequency (so that, against the documentation, components beyond the maximum frequency do occur; exhibited). The weights are those with the smallest negative log-likelihood of the training distribution, found by ECOS or, if that raises SolverError, by SCS; if both fail the grid is halved, and so on. Each k+ reach is the universe size times the probability that a user of the mixture, with all means scaled by impressions / training impressions, sees at least k impressions, rounded to the nearest integer; it lies between 0 and the universe, does not decrease with the impressions, does not increase with k, does not depend on how many frequencies were asked for, and is 0 at 0 impressions. If the mixture reproduces the training distribution the training point is answered, rounded; in general it is not (exhibited: with one component and more than half of the universe not reached, every answer is 0). Queries by spend are queries by the impressions the spend buys. Answers never depend on earlier queries. A training point with more reached users than the universe is accepted, but then every query raises a ValueError (exhibited). The model has no maximum reach: asking for it raises, and so does asking for a quantile of it (with ValueError if the quantile is not between 0 and 1). The relative entropy of a fitted distribution to an observed one is infinite exactly if something was observed that the fit excludes; otherwise it is never negative, 0 if both are the same, and, where nothing is 0, minus the sum of observed times log(fitted / observed), as documented; for tables it is that of all their entries; arrays of different shapes are refused with a ValueError.", "quantifier": "all training points, numbers of components, queries, histories of queries, and all behaviours of the solvers (solution, no solution, SolverError, other exceptions)", "why_tests_cant": "The unit tests mock or run one solver on a few histograms; the property ranges over every histogram, grid size, solver outcome and history of queries.", "anchors": ["src/models/dirac_mixture_single_publisher_model.py: UnivariateMixedPoissonOptimizer, DiracMixtureSinglePublisherModel", "src/models/reach_point.py: ReachPoint.zero_included_histogram"]}
{"id": "C51", "title": "A generated data design contains exactly the data sets it was asked for, under names that identify their settings", "statement": "Data sets without a name of their own get the same name exactly if their settings are the same, and the name can be a directory name; a given name is used as it is. A Latin hypercube design stands for the levels in whose part of the unit interval each point of the sample falls, with different names for every sample, and if the sample is Latin each level is used by n/k of the n data sets (exactly if k divides n, otherwise up to two); a cartesian design contains every combination of its levels, once if the levels are different. The universes of the M3 design are the largest publisher's size divided by the given ratio, rounded down. Generating a design with settings that can be carried out and names that are free writes a data set for each, with the asked number of publishers, their names 1, 2, ... and their geometrically decreasing sizes, and changes nothing else on disk; if the configuration, a data set or a taken name raises an exception the design stops with it, with exactly the data sets before it complete; starting a finished design again raises ValueError and changes nothing. The shipped simple, analysis, single publisher and Latin hypercube example designs make 27, 72, 80 and 10 data sets for every outcome of the random draws. The M3 design succeeds if no point of its sample asks for another order of publishers of different sizes, and otherwise stops with an AssertionError as soon as the set generator changes the order of the sizes (so it does not always succeed; exhibited). The generators that a set's parameters name are constructed from exactly the arguments passed, missing optional arguments having the constructor's defaults; a missing needed argument, or an unknown one, is a TypeError. A data set with publishers is generated with exactly these generators. A sample shorter than the list of settings leaves the remaining settings at their defaults (one publisher, 10000 users, ratio 0.9, price 0.1, 3 impressions per user on average, full overlap), except that in the M3 design a sample without an overlap, or an independent overlap without universe ratio or generator, is a KeyError.", "quantifier": "all settings, levels, samples, directories, file systems, random generators, set generators and float formats that meet the documented assumptions, and all positions at which a design stops", "why_tests_cant": "Tests of the shipped designs check the number of configurations for one seed; they do not generate the data sets (which takes long), so they cannot see name clashes, samples whose settings fail, what is on disk when a design stops in the middle, or the balance of the levels over all samples.", "anchors": ["src/data_generators/data_set_parameters.py:DataSetParameters.__str__", "src/data_generators/synthetic_data_design_generator.py:SyntheticDataDesignGenerator.__call__", "src/data_generators/lhs_data_design_example.py:generate_data_design_config", "src/data_generators/m3_data_design.py:generate_data_design_config", "src/data_generators/simple_data_design_example.py:generate_data_design_config", "src/data_generators/analysis_example_data_design.py:generate_data_design_config", "src/data_generators/single_publisher_design.py:generate_data_design_config"]}
{"id": "C52", "title": "The shipped experimental designs run one trial for every combination they promise on every data set", "statement": "A design that is a product of levels contains every combination of its levels and nothing else, and if the levels are different on a data set so are the combinations. For choices of settings that are different on every data set, generate_trials returns one trial for each data set and each choice, in different results files, with the spend fractions and the number of publishers filled in from the data set; if two choices ask for the same on a data set, a trial is lost. The M3 design, the example of an analysis and the design for single publishers thus run 288, 96 and 225 trials on every data set (a comment in the M3 design says 192; refuted). The sample design takes for each point of its sample the levels in which the point lies, and from a Latin sample each level gets an even share; but a Latin sample of 100 points can give fewer than 100 trials (exhibited). A trial of the M3 design or of the analysis has a row exactly if its data set has a publisher, one of the design for single publishers exactly if there is one publisher, one of the sample design exactly if there are one or two; the first run of the M3 design returns one row for each trial, the one of the design for single publishers returns a table exactly if all data sets have one publisher. Replicas are no replicas: each descriptor has a generator with the same seed, so in a run in which nothing was computed before the rows of replicas are the same up to the columns that name the trial. With one data set a row does not depend on what was computed before; with two it can (exhibited). The numbers of test points are 100 for each publisher (at most 2000 for a Latin hypercube) in the M3 design, and the corresponding numbers for the other designs.", "quantifier": "all data designs (any number of data sets and publishers), levels, samples, float formats, laboratories (models, noise, printing), seeds, disks without results, and positions of rows", "why_tests_cant": "The tests of the shipped designs only count the trial descriptors or not even that; whether two of them collapse into one results file, whether a trial can run on a data set and whether replicas vary depends on data sets, the order of computation and all 288 combinations, each of which takes long to run.", "anchors": ["src/driver/m3_first_round_experimental_design.py:generate_experimental_design_config", "src/driver/analysis_example_experimental_design.py:generate_experimental_design_config", "src/driver/single_publisher_design.py:generate_experimental_design_config", "src/driver/sample_experimental_design.py:generate_experimental_design_config", "src/driver/experimental_design.py:ExperimentalDesign.generate_trials", "src/driver/experimental_design.py:ExperimentalDesign.load"]}
{"id": "C53", "title": "Running the experiment driver gives the tables of all trials in the output file, in whatever way and after whatever interruptions it is run", "statement": "ExperimentDriver.execute runs one trial for each subdirectory of the data design and each trial descriptor, in this order, the first of each name. If the trials can be run, it returns the tables of the trials one after the other, those that were on the disk and those that it computes, writes the same table to the output file and leaves a results file for each trial; nothing else on the disk changes except directories above the results. This does not depend on the number of cores nor on the schedule of the workers; with Beam the rows may come in another order and the temporary file is written as well. Every run can be brought to its end. After any history of runs of any kind that were stopped anywhere, the next run that ends gives the same table; at every point of such a history the data design is as it was, and the output file is as before or has the beginning of such a table. Results that are on the disk are used whatever the seed, the kind of analysis or the data. A trial that cannot be computed, such as one for a subdirectory without files, makes every run fail. An experimental design that cannot be loaded or a data set that cannot be read stops the run before anything has changed. A data design that does not exist is created and gives ValueError; a missing directory of the output file is noticed only at the end, when all trials have been run, with the results kept. If the directory of the results is inside the data design it becomes a data set, and the second run of an experiment can fail where the first did not (exhibited).", "quantifier": "all drivers (directories, designs, seeds), disks, numbers of cores, schedules, times, ways in which the runner of Beam combines tables, histories of stopped runs, laboratories (models, noise, printing)", "why_tests_cant": "The tests run one small design once, in a fresh directory, on one core or two. The claim is about every schedule of the workers, every step at which a run may be stopped, every sequence of such runs and every content of the disk.", "anchors": ["src/driver/experiment_driver.py:ExperimentDriver.execute", "src/driver/experimental_design.py:ExperimentalDesign.load", "src/driver/experimental_design.py:ExperimentalDesign._evaluate_all_trials_in_parallel", "src/driver/experimental_design.py:ExperimentalDesign._evaluate_all_trials_using_apache_beam", "src/driver/experimental_trial.py:ExperimentalTrial.evaluate", "src/data_generators/data_design.py:DataDesign"]}
{"id": "C54", "title": "The random starts of the restricted pairwise surface lie where the fit needs them, and the fit forgets the random state it found", "statement": "The uniform sampler of RestrictedPairwiseUnionReachSurface returns the first of its draws that passes the feasibility check, with coordinates between 0 and 1, and returns at all exactly if some draw passes. The simplex sampler always returns a point of the feasible region. A fit that draws its starts and its orders of coordinates from numpy's generator is a fit from starts of the sampler, so what C31 says applies to it: with the simplex sampler the fitted coefficients are admissible for every number of publishers, and with the default uniform sampler they are for up to three publishers. With four publishers they need not be: the tolerance of the check lets in starts outside the region, and a complete fit can end with a negative overlap and predict a union reach above the sum of the reaches (exhibited). The fit seeds the process-wide generator with 0, so neither its result nor the random state it leaves depends on the state before. With the simplex sampler the fit's squared error is not above that of any of the 30 to 1000 starts it drew.", "quantifier": "all generators (states, draws between 0 and 1, permutations), numbers of publishers, curves, training points, square root functions that round up, numbers of rejected draws", "why_tests_cant": "The tests draw from one seeded generator and look at a few points. The claims are about every sequence of draws; the starts that break the region have a probability of about a millionth.", "anchors": ["src/models/restricted_pairwise_union_reach_surface.py:RestrictedPairwiseUnionReachSurface._truncated_uniform_initial_lbd", "src/models/restricted_pairwise_union_reach_surface.py:RestrictedPairwiseUnionReachSurface._scaled_from_simplex_initial_lbd", "src/models/restricted_pairwise_union_reach_surface.py:RestrictedPairwiseUnionReachSurface._fit_multi_init_lbds", "src/models/restricted_pairwise_union_reach_surface.py:RestrictedPairwiseUnionReachSurface._fit"]}
{"id": "C55", "title": "A trial with the strategies and models that a descriptor can name: its privacy, its failures, and its errors when the estimates are exact", "statement": "For a trial that is put together from the names in its descriptor (strategy, single publisher model, multi publisher model, keyword arguments): (privacy) the row never reports more than the trial's budget, and if the model succeeded it reports exactly the strategy's share, which is the whole budget except for the M3 strategy with one or two publishers, where it is (p+1)/(2p+1). (failures) The single publisher strategy on several publishers gives a failure row with nothing spent; no multi publisher model, or keyword arguments for one, give a failure row whenever there are several publishers; keyword arguments for a Goerg model give a failure row; true reach curves for one publisher give a failure row under the single publisher analysis. (true curves) With true reach curves, a row for one publisher has all errors 0, and a surface over several publishers lies between the largest single reach and the sum of the reaches at every spend, is off by at most what the other publishers reach, and is exact where only one publisher reaches anybody. (Goerg curves) If the sketches count exactly, a Goerg model goes through what is reported for the campaign and answers with the documented formula elsewhere, at every frequency asked for, so that the error at the campaign spend is 0 unless every impression reached a new user (then it is 1/n); a surface over such curves lies between the largest curve and their sum, does not fall when spends rise, and follows the curve of a publisher that spends alone. (frequencies) A surface answers with the reach at frequency one only, so in every successful row of several publishers the errors at frequencies from 2 on are missing and the shuffle distances are 1, whatever the models and the frequency asked for. (random state) Fitting a restricted surface leaves numpy's process-wide generator in a state that does not depend on the trial's seed; fitting anything else leaves it alone. A k-inflated or Gamma-Poisson curve that a descriptor names is fitted with the arguments passed or their defaults (kmax 10, extrapolation multiplier 1, an estimated audience), and any other argument is refused. With exact sketches, the curve of a single publisher is fitted to the true k+ reaches of its campaign, up to frequency 10 or 20; its k-inflated curve answers with the fitted distribution at the impressions a spend buys at the campaign's price, and, given a minimiser that never worsens its start, these answers grow with the spend and stay below an audience between 1 and 100 times the campaign's reach. Likewise its Gamma-Poisson curve: the parameters lie within their bounds, the audience is the one passed or lies between 1 and 100 times the campaign's reach, which is at least 1, and for an audience of at least 1 the answers are those of the fitted distribution at the impressions a spend buys, grow with the spend and stay below the audience. A ground truth curve in a surface answers at every whole number of impressions, however written, with the users whom so many impressions reach, and raises TypeError at every other number. A name that is none of the three fitted curves raises KeyError, and an argument that the named curve does not have raises TypeError.", "quantifier": "all data sets and impression logs, budgets, descriptors, seeds, spend vectors, maximal frequencies, sketch libraries that report what they use (privacy) or count exactly (Goerg curves), solvers that respect their constraints, generators", "why_tests_cant": "Tests run a handful of trials on small fixed data sets and mock the models. The claims are about every data set, every spend vector and every combination of names, and about the composition of simulator, strategy, curve, surface and evaluation.", "anchors": ["src/driver/experimental_trial.py:ExperimentalTrial.evaluate", "src/driver/modeling_strategy_descriptor.py:ModelingStrategyDescriptor.instantiate_strategy", "src/simulator/m3_strategy.py:M3Strategy.fit", "src/simulator/single_publisher_strategy.py:SinglePublisherStrategy.fit", "src/models/goerg_model.py:GoergModel", "src/models/ground_truth_reach_curve_model.py:GroundTruthReachCurveModel", "src/models/pairwise_union_reach_surface.py:PairwiseUnionReachSurface", "src/models/restricted_pairwise_union_reach_surface.py:RestrictedPairwiseUnionReachSurface"]}
{"id": "C56", "title": "Data designs and trials on cloud storage behave as on a local disk, and results there are complete", "statement": "(addresses) Joining a directory address and a file name gives the address of the file in that directory, whose name and parent are the two; a first argument without \"://\" raises IndexError and what follows a second \"://\" is dropped. (objects) Buckets are directories; any other address is a file if an object has it, a directory if there is none but objects are below, and nothing otherwise. Writing replaces or adds one object and changes no other, and fails only where a directory is. (designs) A data design on cloud storage lists exactly the names below which there is an object. Two programs that open a design, one on a disk and one on a bucket with the same files, and make the same requests (reopen, list, add a data set with publishers, look up a name), get the same answers for ever: names, data sets but for the places of the logs, and errors. Every bucket with no object at or above the design's directory is like some disk. An add that is interrupted leaves the complete logs of the publishers uploaded so far, and the data set cannot be added again once there is one. Two differences are exhibited: a data set without publishers is accepted on cloud storage but not stored, and a publisher whose name contains \"/\" is accepted and then missing without an error, while a disk refuses it. (trials) Evaluating a trial returns a readable result that is there and changes nothing; otherwise it computes the row, stores it, removes its marker and changes nothing else; if computing raises, the marker stays and there is no result. Whatever requests earlier runs were stopped after, a complete run gives and stores the row of an uninterrupted one. Any number of processes evaluating trials, also the same trial, in any order of their requests, all give the right results and store only complete ones, provided no unreadable result is there at the start; each ends after at most eight requests, and when all have ended the markers of new results are gone. With an unreadable result at the start one of two processes can fail with FileNotFoundError, which is exhibited.", "quantifier": "all buckets, disks, directories, histories of requests, data sets, numbers of uploads before an interruption, sets of trials, schedules of any number of processes, points at which runs are stopped", "why_tests_cant": "Tests replace the bucket by a local directory or mock the client and run one process. The claims are about all histories on both file systems, all interleavings and all places at which a run may be stopped.", "anchors": ["src/filesystem_wrappers/filesystem_cloudpath_wrapper.py:FilesystemCloudpathWrapper", "src/data_generators/data_design.py:DataDesign", "src/data_generators/data_set.py:DataSet.write_data_set", "src/data_generators/data_set.py:DataSet.read_data_set", "src/driver/experimental_trial.py:ExperimentalTrial.evaluate"]}
{"id": "C57", "title": "The experiment driver on cloud storage gives the whole table, however it is run, retried or interrupted", "statement": "(any way) With data design, intermediates and output on cloud storage, execute returns a table with the rows of exactly the trials, in order unless Beam is used and in some order with Beam, and stores that table as the output; every trial then has a result object; nothing else changes but the markers and, with Beam, the temporary object. This holds for one core, for several, and for Beam with any number of attempts at a trial, also at the same time, in any order of their requests and whichever attempt is used. (interrupted) It still holds after any number of earlier runs of any of these kinds, each stopped after any request. (meanwhile) At every such point the objects of the data design are as they were, results and output are absent, as before, or complete. (ends) A run has ended once the attempt used for each trial has been given eight requests. (temporary) main puts the temporary object into the intermediates directory, where it collides with nothing unless a data set is called temp_result.csv; a data set of this name makes every Beam run that main starts fail after all trials have been computed, which is exhibited, and so does a pipeline without temp_location. (failures) A trial that cannot be computed makes every run fail. A design that cannot be loaded, a data set that cannot be read, spend fractions that cannot be made up and the lack of data sets raise before anything is written; a missing data design directory is not created, unlike on a disk. (output) Without Beam, an output that is not an address of the cloud file system, or is a directory there, makes the run fail after all trials have been evaluated; their results are stored. (trials) The trials are those of the directories of the data design in the order of their names, with the descriptors in their order, the first of those with the same name.", "quantifier": "all drivers, buckets, sets of trials and tables, ways of calling execute, attempts, schedules of requests, combinations by Beam, histories of stopped runs", "why_tests_cant": "Tests run the driver on a local directory with the direct runner. Which attempts Dataflow makes, how their requests interleave and where a run is stopped cannot be enumerated.", "anchors": ["src/driver/experiment_driver.py:ExperimentDriver.execute", "src/driver/experiment_driver.py:main", "src/driver/experimental_design.py:ExperimentalDesign.load", "src/driver/experimental_design.py:EvaluateTrialDoFn", "src/driver/experimental_design.py:CombineDataFrameFn", "src/filesystem_wrappers/filesystem_cloudpath_wrapper.py:FilesystemCloudpathWrapper"]}
{"id": "C58", "title": "Budgets, prices and spends in double precision are the exact ones up to a counted number of rounding errors", "statement": "(rounding) With Python's floats, the nearest doubles with ties to even, instead of exact numbers: (tracker) The privacy consumption that the tracker reports for n events is the exact one up to n-1 relative errors of 2^-53, and never goes down when events are appended, whatever their ranges; unlike with exact numbers it depends on the order of the events, which is exhibited. (single publisher) On a new tracker the single publisher strategy reports exactly the budget when it returns and no more when it raises. (M3) On a new tracker the M3 strategy with p publishers reports at most the budget when p is 1 or 2, otherwise the budget up to 4p+2 such errors when it returns and no more than its upper end when it raises. The sum can come out above the budget: with four publishers and epsilon 1.0 every fit that returns reports 1 + 2^-52, which is exhibited, so that the exact claim (never above the budget) fails by the last bit. (prices) With a fixed price and up to 2^52 impressions the prices of k impressions are the doubles next to k times the price, all different, and spending one buys k impressions again; the maximal spend is that of all impressions. (spends) Campaign spends for fractions in [0, 1] and random test points lie between 0 and the maximal spend; the points of a grid with up to 2^51 - 1 points a side lie strictly between and are different.", "quantifier": "all histories of events with double amounts and ranges that end at a double, simulators, modelers, random draws, budgets that do not underflow when shared, prices of at least 2^-1022, impressions, maximal spends, grid sizes", "why_tests_cant": "Rounding errors depend on every amount and on the order of additions. Tests compare with a tolerance on a few budgets and would not see, or would wrongly blame, an error in the last bit.", "anchors": ["src/simulator/privacy_tracker.py:PrivacyTracker.privacy_consumption", "src/simulator/privacy_tracker.py:SamplingBucketIndices.contains", "src/simulator/halo_simulator.py:HaloSimulator.simulated_reach_by_spend", "src/simulator/m3_strategy.py:M3Strategy.fit", "src/simulator/single_publisher_strategy.py:SinglePublisherStrategy.fit", "src/data_generators/fixed_price_generator.py:FixedPriceGenerator", "src/simulator/publisher.py:Publisher", "src/driver/grid_test_point_generator.py:GridTestPointGenerator", "src/driver/uniformly_random_test_point_generator.py:UniformlyRandomTestPointGenerator"]}
{"id": "C59", "title": "Every request adds the noise it records, from fresh draws of the generator", "statement": "(reach) A reach request that returns has drawn exactly two seeds. The estimator gets these two seeds and the two shares of the budget, the events recorded are the ones this estimator declares, and unless the reach had to be cut to the number of impressions the k+ reach is the least of the first k estimates, rounded to the nearest integer (ties to even) and not below zero. (Venn) A Venn diagram request with some non-zero spend draws the register counts, the sample, two seeds and the sketch error, in this order; region i gets the i-th noise of the first seed with the first share of epsilon, the total gets noise of the second seed with the other share, exactly these two shares are recorded, and the points are made of the noisy sample scaled to the noisy total. (fits) An M3 fit draws two seeds per request, so no two requests share their randomness, and the single publisher strategy two. (tracker) What a request or a fit answers, and what it draws, does not depend on the privacy spent before: the tracker records and does not enforce.", "quantifier": "all simulators, spends, budgets, splits, frequencies, states of the generator and of the tracker, sketch libraries, noise sources, modelers", "why_tests_cant": "Noise that is reused, drawn with another epsilon than recorded, or seeded with a constant gives plausible numbers in every single run.", "anchors": ["src/simulator/halo_simulator.py:HaloSimulator.simulated_reach_by_spend", "src/simulator/halo_simulator.py:HaloSimulator.simulated_venn_diagram_reach_by_spend", "src/simulator/halo_simulator.py:HaloSimulator._add_dp_noise_to_primitive_regions", "src/simulator/halo_simulator.py:HaloSimulator._scale_up_reach_in_primitive_regions", "src/simulator/m3_strategy.py:M3Strategy.fit", "src/simulator/single_publisher_strategy.py:SinglePublisherStrategy.fit", "src/simulator/privacy_tracker.py:PrivacyTracker.append"]}
{"id": "C60", "title": "In a planner session the truth is constant, the latest model answers, and budgets add up", "statement": "For any sequence of calls of a PlannerSimulator's methods: true_reach_by_spend gives the true reach of the data set whatever was fitted or asked before; modeled_reach_by_spend raises AttributeError before the first fit and otherwise asks the model of the latest fit that returned, also when a later fit raised; queries neither record privacy nor draw; and the privacy consumption at the end is at most what it was plus the budgets of all fits added up if each fit stays within its budget, exactly that if each fit uses up its budget and none raises. With the M3 strategy the first holds always, the second with more than two publishers; with the single publisher strategy both hold.", "quantifier": "all sequences of calls, strategies, simulators, spends, frequencies, budgets, states of tracker and generator", "why_tests_cant": "A test makes one fit and a query or two; the claim is about every order and number of calls, with failures in between.", "anchors": ["src/simulator/planner_simulator.py:PlannerSimulator.fit_model", "src/simulator/planner_simulator.py:PlannerSimulator.true_reach_by_spend", "src/simulator/planner_simulator.py:PlannerSimulator.modeled_reach_by_spend", "src/simulator/m3_strategy.py:M3Strategy.fit", "src/simulator/single_publisher_strategy.py:SinglePublisherStrategy.fit"]}
{"id": "C61", "title": "The k-inflated fit to a histogram stays within its bounds, never ends worse than it starts, and more inflation never hurts", "statement": "(histogram) The histogram fitted to has entry i equal to the people reached exactly i+1 times and as last entry those reached that often or more; it adds up to the reach. (cost) The function minimised is the chi-squared distance between the histogram and the one the parameters predict when each of their impressions is shown with the same chance, plus the square of the impressions missing to Imin; parameters outside the bounds cost a constant. (fit) If the minimiser never returns a worse point than its start, the point has at least two k+ reaches, people are reached between 1.01 and 6000 times on average at the impressions fitted to, and the exponential-Poisson start costs less than the constant, then the fitted universe is between the reach and 100 times the reach, the fitted distribution is a distribution of positive frequencies with at most kmax inflated values and costs no more than the start. (handover) Going from k to k+1 inflated values starts from the same distribution. (stop) Inflation goes on until the distance is no longer significant at 95% or kmax values are inflated, and does not start if the first distance is not significant. (more) A larger kmax never gives a costlier fit. The fit is not certain to hold Imin impressions although the docstring says so, and a start outside the bounds can leave the fit there; both are exhibited.", "quantifier": "all points, target inventories, kmax, minimisers that are never worse than their start, negative binomial mass functions, chi-squared distribution functions", "why_tests_cant": "Tests fit a few histograms with one version of the optimiser; bounds and comparisons with the start and with other kmax must hold for all histograms and for whatever the optimiser does.", "anchors": ["src/models/kinflated_gamma_poisson_model.py:KInflatedGammaPoissonModel._fit_point", "src/models/kinflated_gamma_poisson_model.py:KInflatedGammaPoissonModel._fit_histogram_fixed_length_a", "src/models/kinflated_gamma_poisson_model.py:KInflatedGammaPoissonModel._chi2_distance", "src/models/kinflated_gamma_poisson_model.py:KInflatedGammaPoissonModel._exponential_poisson_N", "src/models/kinflated_gamma_poisson_model.py:KInflatedGammaPoissonDistribution"]}
{"id": "C62", "title": "Processes that evaluate the same trials at the same time, on one disk, leave complete results", "statement": "Several processes evaluate trials at the same time on a local disk, several of them possibly the same trial, and write to files they have opened while others empty, replace or remove them. (any moment) At every moment of every schedule, the results file of a trial is as before, absent, or a part of the row printed, in which characters not written yet may be zero bytes; nothing else on the disk changes but markers and new directories; a process that has ended has answered with the table that was there, with the row, with what the reader makes of such a part, or with FileNotFoundError. (readable) A results file that can be read at first is answered by all who want it, and it and the marker are left alone. (end) If the reader takes back what is printed and refuses such parts, then after all have ended the results file of each trial evaluated is complete, there is no marker, at least one process has answered with the row, and the others with the row or FileNotFoundError. (two) FileNotFoundError comes only if two or more processes evaluate the trial, and three or more if there is no results file at first; otherwise all answer with the row. Both bounds are exact: that two processes with an unreadable results file, and three without one, can fail is exhibited. (crash) The results file is complete, and a single process answers with the row, also after any number of earlier sets of such processes, each stopped anywhere. (ends) No process waits for another: each ends after a fixed number of its own steps. (alone) A process on its own acts as on the disk of C36. A reader that takes incomplete files makes a process answer with an incomplete table, which is exhibited. (runs) The same holds of processes that each evaluate a list of trials one after the other, in their own order, as runs of the driver on the same directories do: at every moment the files are as said; a run that has ended has the right table for each of its trials, in its order, or has failed with FileNotFoundError because of a trial without readable results that another run has, too (two others if it had no results file); if every such trial is in one run only, or in two and without a results file, then all runs answer with the right tables and leave complete results without markers; every run ends; and after any number of sets of runs, each stopped anywhere, one more run answers with the right tables and completes the results.", "quantifier": "all labs, trials, rows, numbers of processes, lists of trials of each, schedules of their steps, points at which sets of processes are stopped, disks", "why_tests_cant": "Unit tests evaluate one trial in one process. Interleavings of several writers, readers and removers of one file are too many to enumerate, and races show up rarely.", "anchors": ["src/driver/experimental_trial.py:ExperimentalTrial.evaluate", "src/filesystem_wrappers/filesystem_pathlib_wrapper.py:FilesystemPathlibWrapper", "src/driver/experimental_design.py:ExperimentalDesign.load"]}
{"id": "C63", "title": "The command line of the experiment driver is understood as written, and runs what it says", "statement": "(line) The arguments are accepted exactly if they can be read, from left to right, as options with their values (--name value, if the value cannot be taken for an option, or --name=value for any value), the flag --use_apache_beam, and other arguments, with integer literals for --seed and --cores and with the data design, the experimental design, the output file and the intermediates directory all given. An option given several times has its last value; seed and cores are 1 and the analysis type is empty if not given. All other arguments go to Beam in their order, and so do misspelt or shortened options: these are not refused, which is exhibited, but change nothing else. (one meaning) No line can be read in two ways. (help) Help is answered, with exit code 0, exactly if the line can be read up to a --help, -h, -hh, ...; every other line ends with exit code 2. (nothing) In both cases nothing is done, on disk or on cloud storage; likewise if Beam refuses its arguments. (order) The order of the options does not matter if none is given twice. (joined) --name value and --name=value mean the same if the value can stand alone; a value that looks like an option is refused if it stands alone, which is exhibited. (runs) A line that is understood runs the trials of the given experimental design over the given data design with the given seed, on disk, or, exactly if the runner that Beam names is Dataflow, on cloud storage; the table written to the given output file has the rows of all trials, in order unless Beam is used; results go to the intermediates directory, also the temporary file of Beam whatever --temp_location was given; the other storage is not changed.", "quantifier": "all lists of arguments without --, labs, modules of experimental designs, parsers of Beam, schedules, disks and objects on cloud storage", "why_tests_cant": "Unit tests call execute directly, not main; which lines are accepted and what they mean ranges over all lists of strings.", "anchors": ["src/driver/experiment_driver.py:main", "src/driver/experiment_driver.py:create_arg_parser"]}
{"id": "C64", "title": "A whole evaluation, from the parameters of the data sets to the table of results", "statement": "Start from a disk on which the directories of the data design, of the results and of the markers are empty or missing, lie apart, and are not blocked by files. (pipeline) From any non-empty list of parameters that can be carried out, with different names without ':', the data design is made. If the driver is then run over it with settings that give a row on every data set with as many publishers as these have, in any way (one process, several workers with any schedule, Beam), and comes to its end, it answers a table with exactly one row for each pair of a data set and a choice of settings. The row names the data set, the number of its publishers as it was in the parameters, the replica, the models, the strategy, the maximum frequency, the sketch and the privacy budget. Without Beam the rows are in the order of the names of the data sets and, for each of them, in the order of the experimental design. The table is in the output file and each row in the results file of its trial. (M3) The M3 settings give 288 rows for each data set with at least one publisher. (analysis) The shipped analysis data design and settings give 72 times 96 = 6912 rows. (single publishers) The shipped designs for single publishers give 80 times 225 = 18000 rows. (M3 design) The shipped M3 data design gives 288 rows for each point of the sample, provided that no point asks for another order of publishers of different sizes.", "quantifier": "all lists of parameters of data sets, experimental designs, random generators and set generators with the documented behaviour, labs (fitting, printing, hashing), schedules of the workers, ways Beam combines tables, disks at the start, seeds", "why_tests_cant": "No test goes from a data design through trials to the table; that no row is lost, doubled or attributed to another data set must hold for every design and every schedule.", "anchors": ["src/driver/experiment_driver.py:ExperimentDriver.execute", "src/data_generators/synthetic_data_design_generator.py", "src/data_generators/data_design.py:DataDesign", "src/driver/experimental_design.py:ExperimentalDesign", "src/driver/experimental_trial.py:ExperimentalTrial.evaluate", "src/driver/m3_first_round_experimental_design.py", "src/data_generators/analysis_example_data_design.py"]}
{"id": "C65", "title": "The two programs as they are started from a shell", "statement": "The generator of data designs and the experiment driver are started through absl, which reads the line first. (one request) A line of the generator asks for at most one thing: a directory, a file of parameters, a seed (1 if none is given) and whether to print; flags may be written with one dash or two, with '=' or as two arguments, '--verbose', '--noverbose' and '--verbose=<truth value>', integers as Python's int reads them, also octal and hexadecimal; the last value counts; the flags end at '--' or at the first word that is no flag, and what follows is not read. (nothing done) A line that asks for nothing, for instance one with an unknown flag, ends with exit code 1; no file is touched and nothing is printed, as long as no flag of absl itself is used. (bad seed, no directory) Seeds that numpy does not take, and a line without a directory, raise and change nothing. (no parameters) If the file of parameters cannot be used, the directory is made and empty, and its exception is raised. (run) Otherwise the generator does what generating the design with a random generator from this seed does, ends with its exception if there is one, and prints the names of the data sets that it began, in order, or nothing if asked to be quiet; the disk does not depend on that. (design) In particular, if the parameters can be carried out, the design is complete. (driver) What comes after '--' is the line of the driver, and is read as C63 says. A flag before it, an option of the driver included, ends the driver with exit code 1 and nothing is done. (evaluation) If the generator and then the driver are started over the same directory, the table of C64 is in the output file. (documented, refuted) The examples in the documentation of the generator use a flag that does not exist, and end with 1. (stray word, refuted) '--verbose false' is not quiet, and hides the flags after it. (without dashes, refuted) The options of the driver without '--' before them are refused.", "quantifier": "all command lines of both programs, sets of flags that absl has itself, files of parameters, seeds, disks, random generators and set generators with the documented behaviour, labs, ways Beam reads its flags, schedules and cloud contents", "why_tests_cant": "The tests construct the classes in Python; no test goes through app.run, and the lines one can type are unbounded.", "anchors": ["src/data_generators/synthetic_data_design_generator.py:main", "src/data_generators/synthetic_data_design_generator.py:SyntheticDataDesignGenerator.__init__", "src/data_generators/synthetic_data_design_generator.py:SyntheticDataDesignGenerator.__call__", "src/driver/experiment_driver.py:main", "README.md"]}
{"id": "C66", "title": "A run on cloud storage answers what a run on a disk answers", "statement": "Copy the files of a data design from a directory to the same path on cloud storage and start the experiment driver on the copy, with the same experimental design, seed and kind of analysis. (trials) The same trials are run in the same order, on the same data sets, and each has exactly the same row, from any state of the random generators. (table) If both runs find no earlier results and end, the two tables have the same rows; if neither run uses Beam also in the same order, and then the two output files are equal. (strategies) What is needed of the experimental design is that it does not look at the names of the publishers' files, which on cloud storage are full addresses: this holds of all strategies, curves and surfaces of the library, also with the true reach curves, which keep the data set, as long as the campaign spends are given or computed without these names. (designs) It holds of the four experimental designs of the library.", "quantifier": "all disks and bucket contents that agree below the directory of the design, data designs in which every data set has a file, experimental designs that do not look at the names of publishers, seeds, kinds of analysis, numbers of cores, with and without Beam, schedules, and random generators", "why_tests_cant": "The tests of the cloud file system use fakes on single operations; no test compares two runs, and the order in which the two storages list files differs.", "anchors": ["src/driver/experiment_driver.py:ExperimentDriver.execute", "src/data_generators/data_design.py:DataDesign", "src/data_generators/data_set.py:DataSet.read_data_set", "src/models/ground_truth_reach_curve_model.py:GroundTruthReachCurveModel", "src/driver/experimental_trial.py:ExperimentalTrial.evaluate", "src/filesystem_wrappers/filesystem_cloudpath_wrapper.py"]}
