{"id": "C01", "title": "bin_to_precision returns the nearest grid value", "statement": "For every finite magnitude x and every bin width delta >= 1e-12, bin_to_precision(x, delta) is an integer multiple of delta, differs from x by at most half a bin (plus the 1e-12-bin epsilon on the upper side), rounds exact half-bin ties up, and returns the very multiple x when x already lies on the grid.", "quantifier": "all finite numbers x (scalars and every entry of arrays of any length), all bin widths delta >= 1e-12", "why_tests_cant": "the claim ranges over a continuum of magnitudes and bin widths; the tests tabulate a few dozen values", "anchors": ["seismostats/utils/binning.py:bin_to_precision", "seismostats/utils/binning.py:normal_round", "seismostats/utils/binning.py:_normal_round_to_int"]}
{"id": "C02", "title": "binning is idempotent, monotone and commutes with grid shifts", "statement": "Binning an already binned array changes nothing; x <= y implies bin(x) <= bin(y); shifting the input by any integer number of bins shifts the output by the same number of bins.", "quantifier": "all finite x, y, all integers k, all delta >= 1e-12", "why_tests_cant": "relational statements over pairs of real inputs and all grid shifts", "anchors": ["seismostats/utils/binning.py:bin_to_precision", "seismostats/utils/binning.py:normal_round"]}
{"id": "C03", "title": "bin_to_precision rejects exactly missing input and too small delta; it works element by element", "statement": "bin_to_precision raises ValueError exactly when x is None or delta < 1e-12, and otherwise returns an array of the same length whose i-th entry depends on the i-th input only (so order, NaN positions and duplicates are preserved).", "quantifier": "all inputs, all array lengths", "why_tests_cant": "exactness of the error condition and per-element independence concern every array of every length", "anchors": ["seismostats/utils/binning.py:bin_to_precision"]}
{"id": "C04", "title": "binning_test characterises binned samples", "statement": "With check_larger_binning=False, binning_test(x, delta, tol) is True exactly when every non-NaN element of x differs from the minimum by a multiple of delta up to the tolerance (or delta < tol); with check_larger_binning=True and the first test passed it is False exactly when all elements are also multiples of the next power of ten above delta. It raises ValueError on an empty array or one with only NaN.", "quantifier": "all arrays of finite/NaN numbers, all delta >= 0 (decimal literals), all tolerances", "why_tests_cant": "characterisation by an iff over all samples", "anchors": ["seismostats/utils/binning.py:binning_test"]}
{"id": "C05", "title": "binning_test is independent of order, duplicates, NaN and common shift", "statement": "binning_test gives the same answer for any reordering of the sample, after adding or removing NaN entries, after duplicating entries, and after adding a constant to all magnitudes.", "quantifier": "all samples, all permutations, all constants", "why_tests_cant": "invariance under an infinite group of transformations", "anchors": ["seismostats/utils/binning.py:binning_test"]}
{"id": "C06", "title": "get_fmd is a lossless histogram", "statement": "For non-empty finite magnitudes and fmd_bin >= 1e-12, get_fmd returns bins that are the consecutive multiples of fmd_bin from the smallest to the largest binned magnitude (shifted down by half a bin for bin_position='left'); the i-th count is the number (or the sum of the weights) of the magnitudes whose binned value is the i-th bin; the counts add up to the number of magnitudes (sum of the weights).", "quantifier": "all non-empty lists of finite magnitudes, all weights, all bin widths, both bin positions", "why_tests_cant": "conservation over all sample sizes, ranges and bin widths", "anchors": ["seismostats/utils/binning.py:get_fmd"]}
{"id": "C07", "title": "get_fmd / get_cum_fmd input validation", "statement": "get_fmd raises ValueError for an empty sample, AssertionError for an unknown bin_position and ValueError for fmd_bin <= 0; it never returns a histogram in these cases. get_cum_fmd likewise, with fmd_bin = 0 selecting the unbinned mode.", "quantifier": "all inputs", "why_tests_cant": "exactness of error conditions over all inputs", "anchors": ["seismostats/utils/binning.py:get_fmd", "seismostats/utils/binning.py:get_cum_fmd"]}
{"id": "C08", "title": "get_cum_fmd counts the events at or above each bin", "statement": "The cumulative count at bin i is the number (weight) of magnitudes whose binned value is at or above bin i; the first count is the total, the sequence is non-increasing (for non-negative weights) and the last count equals the last bin's own count. With fmd_bin=0 the bins are the distinct magnitudes in increasing order and the same characterisation holds.", "quantifier": "all non-empty finite samples, all non-negative weights, all bin widths including 0", "why_tests_cant": "statement about every position of every histogram", "anchors": ["seismostats/utils/binning.py:get_cum_fmd"]}
{"id": "C09", "title": "b-value estimators use exactly the events at or above the completeness magnitude", "statement": "After calculate(m, mc, delta_m), ClassicBValueEstimator / UtsuBValueEstimator hold exactly the magnitudes with m >= mc - delta_m/2 in the original order (NaN never counts), est.idx are the increasing positions of those magnitudes in the input, est.magnitudes[k] == m[est.idx[k]] and weights are carried along with their own magnitude.", "quantifier": "all magnitude arrays (any length, with NaN/inf), all mc, delta_m, all weights; holds for any number arithmetic, in particular IEEE doubles", "why_tests_cant": "must hold for every array and every position", "anchors": ["seismostats/analysis/bvalue/base.py:BValueEstimator.calculate", "seismostats/analysis/bvalue/base.py:BValueEstimator._filter_magnitudes"]}
{"id": "C10", "title": "the classic estimator is the maximum likelihood estimator", "statement": "For a non-empty filtered sample with mean above mc, beta returned by ClassicBValueEstimator maximises the Gutenberg-Richter likelihood of the sample: the exponential likelihood for delta_m = 0 and the discretised (geometric) likelihood on the grid mc + k*delta_m for delta_m > 0, and it is the unique maximiser.", "quantifier": "all samples of all sizes, all positive weights, all competing beta > 0", "why_tests_cant": "optimality against a continuum of competitors for all samples", "anchors": ["seismostats/analysis/bvalue/classic.py:ClassicBValueEstimator._estimate"]}
{"id": "C11", "title": "classic and Utsu estimates are ordered and agree in the limit", "statement": "For the same input with delta_m > 0 the classic b-value is strictly larger than the Utsu b-value, their reciprocals in beta differ by at most delta_m^2 / (12*(mean-mc)), and both coincide for delta_m = 0.", "quantifier": "all samples, all delta_m >= 0", "why_tests_cant": "an inequality over all samples", "anchors": ["seismostats/analysis/bvalue/classic.py:ClassicBValueEstimator._estimate", "seismostats/analysis/bvalue/utsu.py:UtsuBValueEstimator._estimate"]}
{"id": "C12", "title": "weights act as multiplicities", "statement": "For classic and Utsu: weights all equal to one constant c > 0 give the unweighted estimate; multiplying all weights by a positive constant changes nothing; an event of weight zero can be dropped; integer weights are equivalent to repeating each event that many times.", "quantifier": "all samples, all weight vectors", "why_tests_cant": "relational properties over pairs of arbitrary inputs", "anchors": ["seismostats/analysis/bvalue/base.py:BValueEstimator", "seismostats/analysis/bvalue/classic.py", "seismostats/analysis/bvalue/utsu.py"]}
{"id": "C13", "title": "b-value does not depend on the order of the events", "statement": "Reordering magnitudes (with their weights) leaves the b-value, the standard deviation and n of the classic and Utsu estimators unchanged.", "quantifier": "all samples and all permutations", "why_tests_cant": "n! permutations for every n", "anchors": ["seismostats/analysis/bvalue/classic.py", "seismostats/analysis/bvalue/utsu.py", "seismostats/analysis/bvalue/base.py:BValueEstimator.std"]}
{"id": "C14", "title": "unit and origin of the magnitude scale", "statement": "Adding a constant to all magnitudes and to mc leaves the b-value unchanged; multiplying magnitudes, mc and delta_m by s > 0 divides the b-value (and its uncertainty) by s. Appending events below mc - delta_m/2 or NaN events changes nothing.", "quantifier": "all samples, all shifts, all scales, all insertions of events below completeness", "why_tests_cant": "equivariance over continuous groups", "anchors": ["seismostats/analysis/bvalue/classic.py", "seismostats/analysis/bvalue/utsu.py", "seismostats/analysis/bvalue/base.py"]}
{"id": "C15", "title": "an unusable sample gives NaN, never an exception or a stale number", "statement": "If the arguments are valid and no magnitude is at or above mc - delta_m/2, calculate returns NaN (with or without weights), n is 0 and b_value is NaN, without weights std is NaN too; no exception is raised and nothing is left over from an earlier call.", "quantifier": "all samples with no complete event, all estimator histories", "why_tests_cant": "must hold for every previous state of the estimator", "anchors": ["seismostats/analysis/bvalue/base.py:BValueEstimator.calculate", "seismostats/analysis/bvalue/base.py:BValueEstimator.std"]}
{"id": "C16", "title": "a reused estimator is history independent", "statement": "Whatever sequence of calculate calls was made on a b-value estimator before, a successful calculate gives exactly the result (b_value, std, n, idx, magnitudes, weights) that a fresh estimator gives on the same arguments.", "quantifier": "all finite histories of calls, all inputs, any arithmetic", "why_tests_cant": "quantifies over all call histories", "anchors": ["seismostats/analysis/bvalue/base.py:BValueEstimator.calculate", "seismostats/analysis/bvalue/positive.py", "seismostats/analysis/bvalue/more_positive.py"]}
{"id": "C17", "title": "a failed calculate does not change the shown result", "statement": "If calculate raises, reading b_value afterwards gives what it gave before the call (the value of the last successful call); an estimator none of whose calls succeeded raises AttributeError for b_value, beta, n, std and std_beta.", "quantifier": "all histories containing an exception (crash points)", "why_tests_cant": "crash points in arbitrary histories", "anchors": ["seismostats/analysis/bvalue/base.py:BValueEstimator.calculate", "seismostats/analysis/bvalue/base.py:BValueEstimator.b_value"]}
{"id": "C18", "title": "b-positive uses exactly the sufficiently positive consecutive differences", "statement": "BPositiveBValueEstimator sorts the complete events by time and uses exactly those differences of time-consecutive complete events that are >= dmc - delta_m/2 (dmc defaulting to delta_m); magnitudes holds these differences, idx the input position of the later event of each pair and weights the weight of that later event.", "quantifier": "all catalogues, all dmc >= 0, all weights", "why_tests_cant": "characterisation of every kept/dropped pair", "anchors": ["seismostats/analysis/bvalue/positive.py:BPositiveBValueEstimator._filter_magnitudes"]}
{"id": "C19", "title": "b-more-positive pairs each event with the next larger one", "statement": "For every event (in time order) find_next_larger / BMorePositiveBValueEstimator uses the first later event that is larger by at least dmc - delta_m/2, events with no such partner are not used, and idx points to the larger event in the input.", "quantifier": "all catalogues, all dmc >= 0", "why_tests_cant": "'first later' over all lists", "anchors": ["seismostats/analysis/bvalue/utils.py:find_next_larger", "seismostats/analysis/bvalue/more_positive.py:BMorePositiveBValueEstimator._filter_magnitudes"]}
{"id": "C20", "title": "positive estimators depend on the order in time only", "statement": "For distinct event times, giving the events of a catalogue in another order (magnitudes, times, weights permuted together) gives the same b-value for BPositive and BMorePositive; replacing times by any strictly increasing function of them gives the same result.", "quantifier": "all catalogues, all permutations, all strictly increasing re-timings", "why_tests_cant": "n! permutations, all monotone maps", "anchors": ["seismostats/analysis/bvalue/positive.py", "seismostats/analysis/bvalue/more_positive.py"]}
{"id": "C21", "title": "BPositive on catalogues without positive differences", "statement": "If no difference qualifies, BPositive without weights returns NaN without raising, with n = 0.", "quantifier": "all catalogues in which no consecutive difference qualifies", "why_tests_cant": "all such catalogues", "anchors": ["seismostats/analysis/bvalue/positive.py", "seismostats/analysis/bvalue/base.py:BValueEstimator.calculate", "seismostats/analysis/bvalue/classic.py"]}
{"id": "C22", "title": "BMorePositive accepts continuous magnitudes", "statement": "BMorePositiveBValueEstimator.calculate with delta_m = 0 and a valid dmc > 0 returns an estimate just as BPositive does.", "quantifier": "all catalogues with delta_m = 0", "why_tests_cant": "the branch is not exercised by the tests", "anchors": ["seismostats/analysis/bvalue/more_positive.py", "seismostats/analysis/bvalue/positive.py"]}
{"id": "C23", "title": "input validation of the b-value estimators", "statement": "Weights of the wrong length make calculate raise IndexError, a negative weight ValueError, a negative dmc ValueError; and reading b_value, beta, n or std before the first calculate raises AttributeError.", "quantifier": "all inputs violating the precondition", "why_tests_cant": "exactness of the error condition", "anchors": ["seismostats/analysis/bvalue/base.py:BValueEstimator._sanity_checks", "seismostats/analysis/bvalue/positive.py", "seismostats/analysis/bvalue/more_positive.py"]}
{"id": "C24", "title": "Shi-Bolt uncertainty", "statement": "std is non-negative, invariant under reordering and common shift of the magnitudes, and equals ln(10)*b^2*sqrt(sum (m-mean)^2/(n(n-1))), weighted accordingly; std_beta = ln(10)*std_b; it is zero exactly when all magnitudes agree (n >= 2, b != 0); unit weights change nothing and integer weights act like repeating the magnitudes.", "quantifier": "all samples with n >= 2, all b", "why_tests_cant": "universal statements over samples", "anchors": ["seismostats/analysis/bvalue/utils.py:shi_bolt_confidence", "seismostats/analysis/bvalue/base.py:BValueEstimator.std"]}
{"id": "C25", "title": "b and beta conversions are inverse of each other", "statement": "b_value_to_beta and beta_to_b_value are mutually inverse, and est.beta = ln(10) * est.b_value after every calculate.", "quantifier": "all b-values", "why_tests_cant": "all numbers", "anchors": ["seismostats/analysis/bvalue/utils.py:b_value_to_beta", "seismostats/analysis/bvalue/utils.py:beta_to_b_value", "seismostats/analysis/bvalue/base.py:BValueEstimator.beta"]}
{"id": "C26", "title": "make_more_incomplete removes exactly the events hidden by a larger predecessor", "statement": "An event is kept exactly when no earlier event within less than delta_t is strictly larger; the result is a subsequence in time order with magnitudes and times still paired, the first event is always kept, and applying it again changes nothing.", "quantifier": "all catalogues, all delta_t", "why_tests_cant": "idempotence and exactness for all catalogues", "anchors": ["seismostats/analysis/bvalue/utils.py:make_more_incomplete"]}
{"id": "C27", "title": "bootstrap_std ignores unusable replicates", "statement": "bootstrap_std is the standard deviation of exactly the finite values among the estimates on the n resamples; it raises ValueError exactly when every estimate is NaN or infinite.", "quantifier": "all samples, all estimators (as functions), all random index draws", "why_tests_cant": "all random draws", "anchors": ["seismostats/analysis/bvalue/utils.py:bootstrap_std"]}
{"id": "C28", "title": "p_lilliefors is defined for samples on a grid at or above mc", "statement": "After a successful estimate with a positive b-value, the Lilliefors p-value is computed without exception for every sample on a grid of step delta_m that is not binned to the next power of ten and has no magnitude below mc.", "quantifier": "all such samples, all random numbers", "why_tests_cant": "universal robustness claim", "anchors": ["seismostats/analysis/bvalue/base.py:BValueEstimator.p_lilliefors", "seismostats/utils/simulate_distributions.py:dither_magnitudes"]}
{"id": "C29", "title": "estimate_b returns the requested outputs", "statement": "estimate_b returns b (or beta); with return_std also std (or std_beta), with return_std and return_n also n, as the estimator itself reports them; an unknown b_parameter raises ValueError, and an exception of calculate is passed on.", "quantifier": "all inputs, the flag combinations other than return_n alone (see C79)", "why_tests_cant": "all combinations with all inputs", "anchors": ["seismostats/analysis/bvalue/__init__.py:estimate_b"]}
{"id": "C30", "title": "classic a-value counts the complete events", "statement": "ClassicAValueEstimator.calculate gives a = log10(N) with N the number of magnitudes >= mc - delta_m/2, minus log10(scaling_factor) if one is given, minus b*(m_ref - mc) if a reference magnitude is given; a reference magnitude without b-value raises ValueError; N=0 gives NaN. Hence 10^(a - b*(m-mc)) is the Gutenberg-Richter count at m.", "quantifier": "all samples, all parameters", "why_tests_cant": "universal formula", "anchors": ["seismostats/analysis/avalue/base.py:AValueEstimator", "seismostats/analysis/avalue/classic.py:ClassicAValueEstimator"]}
{"id": "C31", "title": "a-value estimators: kept events, idx and n stay consistent", "statement": "After calculate, est.idx are positions in the input, est.magnitudes are the input magnitudes at these positions, and n equals their number, for classic, positive and more-positive estimators: exactly the complete events, resp. the second event of each qualifying difference in time order (the case without any qualifying difference is C34).", "quantifier": "all catalogues", "why_tests_cant": "every array, every position", "anchors": ["seismostats/analysis/avalue/base.py", "seismostats/analysis/avalue/positive.py", "seismostats/analysis/avalue/more_positive.py"]}
{"id": "C32", "title": "positive a-values are invariant under shift and rescaling of time", "statement": "APositive and AMorePositive depend on times only through ratios of time differences: t -> c*t + d with c > 0 leaves the a-value unchanged.", "quantifier": "all catalogues, all c > 0, all d", "why_tests_cant": "invariance over continuous group", "anchors": ["seismostats/analysis/avalue/positive.py", "seismostats/analysis/avalue/more_positive.py"]}
{"id": "C33", "title": "a-positive never underestimates the number of used differences", "statement": "For strictly increasing event times, 10^a (before scaling to a reference) from APositive is at least the number of qualifying differences, because the accumulated time of these differences is at most the total time.", "quantifier": "all catalogues", "why_tests_cant": "inequality over all catalogues", "anchors": ["seismostats/analysis/avalue/positive.py:APositiveAValueEstimator"]}
{"id": "C34", "title": "APositive on a catalogue with no qualifying difference", "statement": "If no difference qualifies, APositive returns NaN and the stored magnitudes and idx are empty, n = 0.", "quantifier": "all catalogues without positive differences", "why_tests_cant": "all such catalogues", "anchors": ["seismostats/analysis/avalue/positive.py:APositiveAValueEstimator._filter_magnitudes"]}
{"id": "C35", "title": "cut_constant_idx cuts into consecutive pieces of constant length", "statement": "The returned pieces concatenate to the input, every piece but the first (length offset, absent for offset 0) and last has exactly n elements, the last is shorter or equal, and the boundary indices are the cumulative lengths; offset >= n raises ValueError.", "quantifier": "all lists, all n >= 1, all offsets", "why_tests_cant": "all lengths and offsets", "anchors": ["seismostats/analysis/b_significant.py:cut_constant_idx"]}
{"id": "C36", "title": "b_significant_1D visits every window of n_m consecutive events exactly once", "statement": "Over all offsets, the sub-samples used by b_significant_1D all have exactly n_m events and each window of n_m consecutive (in x_variable) events occurs exactly once.", "quantifier": "all catalogue lengths and n_m", "why_tests_cant": "counting statement for all sizes", "anchors": ["seismostats/analysis/b_significant.py:b_significant_1D", "seismostats/analysis/b_significant.py:cut_constant_idx"]}
{"id": "C37", "title": "b_significant_1D pairs every event with its own completeness magnitude", "statement": "When mc is given per event, every sub-sample uses for its events the completeness magnitudes of these events, whatever the order of the input.", "quantifier": "all catalogues, all orders, all per-event mc", "why_tests_cant": "all permutations", "anchors": ["seismostats/analysis/b_significant.py:b_significant_1D"]}
{"id": "C38", "title": "transform_n maps estimates between sample sizes consistently", "statement": "transform_n(b, b_true, n1, n2) is the identity for n1 = n2, fixes b_true, composes (n1->n2->n3 equals n1->n3), is strictly increasing in b, shrinks the deviation of 1/b by sqrt(n1/n2) and raises ValueError for n1 > n2.", "quantifier": "all b, b_true > 0, all n1 <= n2 <= n3", "why_tests_cant": "laws over all reals/sizes", "anchors": ["seismostats/analysis/b_significant.py:transform_n"]}
{"id": "C39", "title": "est_morans_i is an affine invariant of the values, ignoring NaN", "statement": "For every series and every neighbour relation, given as upper triangular, lower triangular or symmetric 0/1 matrix (the result is the same), Moran's I is (n-1)/n_pairs * sum of products of neighbouring deviations / sum of squared deviations over the values that are not NaN; it is unchanged by x -> c*x + d (c != 0); a NaN value has the same effect as deleting that element with its row and column; fewer than two values, matrices that are not square, not triangular or symmetric or not 0/1 off the diagonal raise ValueError, matrices of another size raise.", "quantifier": "all value vectors, all weight matrices", "why_tests_cant": "invariance for all sizes", "anchors": ["seismostats/analysis/b_significant.py:est_morans_i"]}
{"id": "C40", "title": "values_from_partitioning evaluates each part on its own events", "statement": "The result has one value, std and n per part, each equal to the result of a call with that part alone (so it depends on nothing else, although one estimator object is reused); an empty part gives (NaN, NaN, 0); a part gives what the estimator gives for its magnitudes sorted by time; a scalar mc means the same mc for every part; lists of different lengths raise IndexError.", "quantifier": "all partitions, all estimators", "why_tests_cant": "all partitions and all histories of the shared estimator object", "anchors": ["seismostats/analysis/b_significant.py:values_from_partitioning"]}
{"id": "C41", "title": "maximum curvature picks the first fullest bin", "statement": "estimate_mc_maxc returns correction_factor plus the smallest bin centre whose count is maximal among all bins; NaN magnitudes do not matter; reordering does not matter.", "quantifier": "all samples", "why_tests_cant": "optimality over all bins of all samples", "anchors": ["seismostats/analysis/estimate_mc.py:estimate_mc_maxc"]}
{"id": "C42", "title": "estimate_mc_ks returns the smallest tested magnitude that passes", "statement": "best_mc is the first tested mc whose p-value is at least p_value_pass and None exactly when none passes, best_b is the b-value at that mc; with stop_when_passed the test stops there and reports only the tested prefix; the selection does not depend on stop_when_passed.", "quantifier": "all samples, all p-value oracles", "why_tests_cant": "all sequences of test outcomes", "anchors": ["seismostats/analysis/estimate_mc.py:estimate_mc_ks"]}
{"id": "C43", "title": "results do not depend on the warnings option", "statement": "Switching the global 'warnings' option never changes the p-value, distance, mc, b-value or exception of ks_test_gr for samples that do not consist of exactly one distinct value, of estimate_mc_ks when no tested sample does and some magnitude is tested, nor of estimate_mc_b_stability when the magnitudes to test are given or the stability range is not a single bin.", "quantifier": "all inputs, both option values", "why_tests_cant": "two-run (non-interference) property", "anchors": ["seismostats/analysis/estimate_mc.py:ks_test_gr", "seismostats/analysis/estimate_mc.py:estimate_mc_ks", "seismostats/analysis/estimate_mc.py:estimate_mc_b_stability", "seismostats/utils/_config.py"]}
{"id": "C44", "title": "the KS p-value is a p-value", "statement": "ks_test_gr returns a p-value in [0,1] for every sample for which it returns, it is a multiple of 1/n_samples, and is non-increasing in the observed KS distance for the same simulated distances.", "quantifier": "all samples, all random draws", "why_tests_cant": "all random draws", "anchors": ["seismostats/analysis/estimate_mc.py:ks_test_gr"]}
{"id": "C45", "title": "estimate_mc_b_stability returns a stable mc", "statement": "estimate_mc_b_stability tests the magnitudes in order (the given ones, or by default the grid from the smallest event) as far as their stability range does not exceed the largest event. With stop_when_passed it returns the first tested mc at which the b-value differs from the mean of the b-values over the stability range by no more than its uncertainty, with the b-value there, and without it the one with the smallest such difference; None exactly if no tested mc satisfies this (provided the first difference is defined and the best mc is not 0).", "quantifier": "all samples, all parameters", "why_tests_cant": "all samples", "anchors": ["seismostats/analysis/estimate_mc.py:estimate_mc_b_stability"]}
{"id": "C46", "title": "cdf_discrete_exp is the distribution function of binned exponential magnitudes", "statement": "For sorted distinct magnitudes >= mc on the grid, beta > 0 and delta_m > 0, cdf_discrete_exp is increasing, in (0,1), tends to 1, and its step at a grid point equals the probability that an exponential magnitude starting at mc - delta_m/2 falls into that bin.", "quantifier": "all magnitudes, all beta, delta_m", "why_tests_cant": "continuum", "anchors": ["seismostats/analysis/estimate_mc.py:cdf_discrete_exp"]}
{"id": "C47", "title": "Gardner-Knopoff: mainshocks and clusters", "statement": "For a catalogue with the default index: processing events by decreasing magnitude (ties by time, then row), an event is flagged mainshock exactly when no mainshock processed earlier has it in its space-time window; every event gets exactly one cluster, each cluster contains exactly one mainshock, which comes first in the processing order, and all members lie in its window; the largest event is always a mainshock.", "quantifier": "all catalogues, all window functions, all fs_time_prop", "why_tests_cant": "greedy algorithm correctness for all catalogues", "anchors": ["seismostats/analysis/declustering/dec_gardner_knopoff.py:GardnerKnopoffType1._decluster"]}
{"id": "C48", "title": "declustering does not depend on the DataFrame index", "statement": "The result belongs to the rows: a catalogue with another (unique) index gives the same flags row by row.", "quantifier": "all catalogues, all index label assignments", "why_tests_cant": "all labelings", "anchors": ["seismostats/analysis/declustering/dec_gardner_knopoff.py"]}
{"id": "C49", "title": "space-time windows grow with magnitude", "statement": "For each of the window classes the distance windows are positive and strictly increasing in the magnitude; so are the time windows of Gruenthal and Uhrhammer, and those of Gardner and Knopoff below and above magnitude 6.5 (Gruenthal for non-negative magnitudes). A positive time cutoff replaces the time window by the smaller of the two.", "quantifier": "all magnitudes and cutoffs", "why_tests_cant": "monotonicity over the reals", "anchors": ["seismostats/analysis/declustering/distance_time_windows.py"]}
{"id": "C50", "title": "haversine distance is a bounded symmetric distance", "statement": "haversine is defined for all coordinates and is the great-circle distance: earth radius times the angle between the two points on the sphere. It is symmetric, zero exactly for coordinates of the same point, at most half the earth's circumference, and satisfies the triangle inequality.", "quantifier": "all coordinates", "why_tests_cant": "continuum", "anchors": ["seismostats/analysis/declustering/utils.py:haversine"]}
{"id": "C51", "title": "batched download returns the same catalogue as a single request", "statement": "For a server that honours limit/offset on a fixed ordered list of N events, FDSNWSEventClient.get_events with batch_size returns the same events in the same order as without batching, each exactly once.", "quantifier": "all N, all batch sizes >= 1", "why_tests_cant": "all sizes of result set", "anchors": ["seismostats/catalogs/client.py:FDSNWSEventClient.get_events", "seismostats/catalogs/client.py:FDSNWSEventClient._get_batch_params"]}
{"id": "C52", "title": "batch count search terminates with the exact number of batches", "statement": "The exponential + binary search for the number of batches terminates for every batch_size >= 1 with max(1, ceil(N / batch_size)), using O(log) requests.", "quantifier": "all N, all batch sizes", "why_tests_cant": "termination for all inputs", "anchors": ["seismostats/catalogs/client.py:FDSNWSEventClient"]}
{"id": "C53", "title": "QuakeML parsing does not depend on how the XML reader chunks text", "statement": "If no text of an event has white space between visible characters, the parsed records do not depend on how the XML reader splits character data into characters() callbacks: they are the same as when every text is delivered in one piece.", "quantifier": "all documents, all chunkings", "why_tests_cant": "the chunking is chosen by the parser buffer", "anchors": ["seismostats/io/parser.py:QuakeMLHandler"]}
{"id": "C54", "title": "QuakeML handler flattens every event independently", "statement": "For a stream of events the handler yields exactly one dictionary per event, in document order, and nothing from one event leaks into another, whatever elements occur.", "quantifier": "all documents (sequences of well nested elements)", "why_tests_cant": "state-machine property over all documents", "anchors": ["seismostats/io/parser.py:QuakeMLHandler"]}
{"id": "C55", "title": "magnitude selection prefers the preferred magnitude, then the newest", "statement": "The parsed event takes 'magnitude' from the preferred magnitude; with include_all_magnitudes one value (with its uncertainties and the id of the magnitude) per type is reported, the preferred one for its own type and otherwise the one with the largest (version, creation time), first on ties; the set of reported types is exactly the set of types in the event.", "quantifier": "all events with at most one value of the type per magnitude, type names without underscore other than 'type', 'uncertainty', ...; all iteration orders of sets", "why_tests_cant": "all lists", "anchors": ["seismostats/io/parser.py:_select_magnitude_by_id", "seismostats/io/parser.py:_select_secondary_magnitudes", "seismostats/io/parser.py:_extract_secondary_magnitudes"]}
{"id": "C56", "title": "magnitudes without optional fields do not break parsing", "statement": "A QuakeML event whose magnitude lacks the optional type element is parsed without exception.", "quantifier": "all events", "why_tests_cant": "all events", "anchors": ["seismostats/io/parser.py"]}
{"id": "C57", "title": "Catalog operations return the type fitting the columns", "statement": "A pandas operation on a Catalog or ForecastCatalog returns a ForecastCatalog if its result has the columns magnitude and catalog_id, a Catalog if it has magnitude only, and a plain DataFrame otherwise; along any sequence of operations the object is a catalogue as long as no result lacked magnitude and plain from then on; changes in place keep the class.", "quantifier": "all column sets, all sequences of operations, merges, concatenations and in-place changes", "why_tests_cant": "all sequences", "anchors": ["seismostats/catalogs/catalog.py:_catalog_constructor_with_fallback", "seismostats/catalogs/catalog.py:Catalog"]}
{"id": "C58", "title": "bin_magnitudes changes magnitudes only, and the original only in place", "statement": "bin_magnitudes(delta_m) returns a copy with binned magnitudes and delta_m set, leaving the catalogue untouched; inplace=True changes the catalogue itself and returns None; all other columns stay; magnitudes equal bin_to_precision of the old ones.", "quantifier": "all catalogues", "why_tests_cant": "all catalogues and histories", "anchors": ["seismostats/catalogs/catalog.py:Catalog.bin_magnitudes"]}
{"id": "C59", "title": "explicit arguments take precedence over catalogue attributes", "statement": "Catalog.estimate_b uses the explicit mc and delta_m if given (also 0), else the attributes, else raises ValueError: with explicit values the result does not depend on the attributes, and omitting a value is the same as passing the attribute. Success changes the attribute b_value to the estimate and nothing else, failure changes nothing.", "quantifier": "all catalogues, arguments, estimators, and outcomes", "why_tests_cant": "all values and histories", "anchors": ["seismostats/catalogs/catalog.py:Catalog.estimate_b"]}
{"id": "C60", "title": "secondary magnitudes survive the QuakeML export", "statement": "Every magnitude_<type> column with a non-null value appears in the exported event for every preferred magnitude type.", "quantifier": "all sets of magnitude types", "why_tests_cant": "all type names", "anchors": ["seismostats/catalogs/catalog.py:Catalog.to_quakeml", "seismostats/catalogs/catalog.py:_create_ev_dict"]}
{"id": "C61", "title": "rate grid cell ids identify cells", "statement": "Two rows get the same cell_id exactly when all cell bounds agree.", "quantifier": "all rate grids", "why_tests_cant": "all grids", "anchors": ["seismostats/catalogs/rategrid.py:ForecastGRRateGrid"]}
{"id": "C62", "title": "options behave like a map with a fixed key set", "statement": "get_option returns the value of the last set_option on this key (or the default), other keys are unaffected, unknown keys raise KeyError and change nothing.", "quantifier": "all sequences of calls", "why_tests_cant": "all histories", "anchors": ["seismostats/utils/_config.py"]}
{"id": "C63", "title": "local coordinate transformation is invertible", "statement": "from_local_coords(to_local_coords(p)) = p for every point, given mutually inverse projections, and polygons are transformed vertex by vertex exactly like points.", "quantifier": "all points, all reference points", "why_tests_cant": "continuum", "anchors": ["seismostats/utils/coordinates.py:CoordinateTransformer"]}
{"id": "C64", "title": "bounding boxes are the smallest rectangles", "statement": "polygon_to_bounding_box returns (minx, miny, maxx, maxy) of the smallest rectangle containing the polygon; for the polygon made by bounding_box_to_polygon from limits these are the limits.", "quantifier": "all polygons", "why_tests_cant": "all polygons", "anchors": ["seismostats/utils/coordinates.py:polygon_to_bounding_box", "seismostats/utils/coordinates.py:bounding_box_to_polygon"]}
{"id": "C65", "title": "simulated magnitudes follow the inverse distribution function", "statement": "For each uniform draw u in [0,1) the simulated magnitude is >= mc and (with mag_max) <= mag_max, increasing in u and the truncated exponential distribution function at the simulated magnitude equals u; without mag_max the exponential distribution function at the simulated magnitude equals that of the standard exponential draw.", "quantifier": "all draws u, all beta > 0, mc < mag_max, mag_max != 0 (see C81)", "why_tests_cant": "continuum", "anchors": ["seismostats/utils/simulate_distributions.py:simulate_magnitudes"]}
{"id": "C66", "title": "dithering and binned simulation respect the bins", "statement": "dither_magnitudes keeps the number of magnitudes and moves each within its own bin (in some order of the sample); simulate_magnitudes_binned returns multiples of delta_m at or above mc.", "quantifier": "all samples without a bin edge at 0 (see C82), all draws", "why_tests_cant": "all draws", "anchors": ["seismostats/utils/simulate_distributions.py:dither_magnitudes", "seismostats/utils/simulate_distributions.py:simulate_magnitudes_binned"]}
{"id": "C67", "title": "apply_edwards converts ML to Mw monotonically and once", "statement": "apply_edwards maps local-magnitude types through the Edwards quadratic, leaves moment magnitudes unchanged, is idempotent on its own output type and increasing for magnitudes above -4.", "quantifier": "all magnitudes, all type strings", "why_tests_cant": "all strings/reals", "anchors": ["seismostats/analysis/magnitudes.py:apply_edwards"]}
{"id": "C68", "title": "Kijko-Smit estimate pools the sub-catalogues", "statement": "b_value_kijko_smit assigns every event to at most one completeness period and its beta is n divided by the sum of excess magnitudes over all used events.", "quantifier": "all catalogues and completeness tables", "why_tests_cant": "all tables", "anchors": ["seismostats/analysis/bvalue/kijko_smit.py"]}
{"id": "C69", "title": "b_parameter='beta' works", "statement": "b_value_weichert / b_value_kijko_smit return beta when b_parameter='beta'.", "quantifier": "all inputs", "why_tests_cant": "branch untested", "anchors": ["seismostats/analysis/bvalue/kijko_smit.py", "seismostats/analysis/bvalue/weichert.py"]}
{"id": "C70", "title": "dot sizes lie in the requested range", "statement": "dot_size maps magnitudes into [smallest, largest], increasing, smallest and largest magnitude map to the ends, and reverse_dot_size inverts it.", "quantifier": "all samples", "why_tests_cant": "continuum", "anchors": ["seismostats/plots/basics.py:dot_size", "seismostats/plots/basics.py:reverse_dot_size"]}
{"id": "C71", "title": "filter_polygon keeps exactly the inside rows", "statement": "cat_intersect_polygon of a non-empty catalogue returns exactly the rows whose point (latitude, longitude) intersects the polygon, in the original order, with all columns and labels; missing coordinates columns give KeyError.", "quantifier": "all catalogues and polygons", "why_tests_cant": "all catalogues", "anchors": ["seismostats/utils/filtering.py:cat_intersect_polygon"]}
{"id": "C72", "title": "datetime strings are parsed robustly", "statement": "The fallback date parser reads every existing date and time written year-month-dayThour:minute:second, with years of one to four digits and other fields of one or two, whatever follows a decimal point or a Z, as that date and time in whole seconds.", "quantifier": "all dates, all suffixes", "why_tests_cant": "all strings", "anchors": ["seismostats/utils/__init__.py:_robust_parse_datetime", "seismostats/utils/__init__.py:_pad_year"]}
{"id": "C73", "title": "binning_test with delta_x = 0", "statement": "binning_test(x, 0) with an explicit tolerance tests whether the sample is binned to some power of ten above the tolerance (and below its range) and not to the next one: it is False exactly then.", "quantifier": "all samples with at least two distinct values, all tolerances large against the rounding error", "why_tests_cant": "the mode has no test; the claim ranges over all samples", "anchors": ["seismostats/utils/binning.py:binning_test"]}
{"id": "C74", "title": "a-value estimators have no memory of earlier calls", "statement": "The result of calculate, its exception and all attributes it sets depend only on its arguments, not on earlier calls on the same estimator object nor on the warnings option.", "quantifier": "all call histories, all arguments", "why_tests_cant": "arbitrary histories", "anchors": ["seismostats/analysis/avalue/base.py:AValueEstimator.calculate", "seismostats/analysis/avalue/positive.py", "seismostats/analysis/avalue/more_positive.py"]}
{"id": "C75", "title": "a failing a-value calculate keeps the stored a-value", "statement": "If calculate raises although a b-value was given whenever m_ref was, the a_value read afterwards is that of before the call.", "quantifier": "all arguments with b_value given if m_ref is, all object states", "why_tests_cant": "crash points in arbitrary states", "anchors": ["seismostats/analysis/avalue/base.py:AValueEstimator.calculate"]}
{"id": "C76", "title": "a failed b-value calculate leaves value and data consistent", "statement": "If calculate raises, the b_value read afterwards either raises or belongs to the magnitudes now stored in the estimator.", "quantifier": "all histories containing an exception", "why_tests_cant": "crash points in arbitrary histories", "anchors": ["seismostats/analysis/bvalue/base.py:BValueEstimator.calculate", "seismostats/analysis/bvalue/base.py:BValueEstimator.b_value"]}
{"id": "C77", "title": "BPositive with weights and no qualifying difference", "statement": "If no difference qualifies, BPositive with weights returns NaN without raising, as it does without weights.", "quantifier": "all catalogues without qualifying difference, all weights", "why_tests_cant": "all such catalogues", "anchors": ["seismostats/analysis/bvalue/positive.py", "seismostats/analysis/bvalue/classic.py"]}
{"id": "C78", "title": "equal weights do not change the Shi-Bolt uncertainty", "statement": "Giving all magnitudes the same weight c > 0 yields the same std as giving no weights.", "quantifier": "all samples, all c > 0", "why_tests_cant": "universal statement over samples", "anchors": ["seismostats/analysis/bvalue/utils.py:shi_bolt_confidence"]}
{"id": "C79", "title": "estimate_b with return_n alone", "statement": "estimate_b(..., return_n=True) without return_std returns (b, n).", "quantifier": "all inputs", "why_tests_cant": "the combination is not tested", "anchors": ["seismostats/analysis/bvalue/__init__.py:estimate_b"]}
{"id": "C80", "title": "APositive without qualifying difference empties the times", "statement": "If no difference qualifies, the stored times are empty like the stored magnitudes and idx.", "quantifier": "all catalogues without qualifying difference", "why_tests_cant": "all such catalogues", "anchors": ["seismostats/analysis/avalue/positive.py:APositiveAValueEstimator"]}
{"id": "C81", "title": "mag_max = 0 is respected", "statement": "simulate_magnitudes with mag_max = 0 (mc < 0) returns magnitudes of at most 0.", "quantifier": "all draws, all beta > 0, mc < 0", "why_tests_cant": "all draws", "anchors": ["seismostats/utils/simulate_distributions.py:simulate_magnitudes"]}
{"id": "C82", "title": "dithering respects the bin that ends at 0", "statement": "dither_magnitudes moves each magnitude within its own bin also when the upper edge of this bin is 0.", "quantifier": "all samples, all draws", "why_tests_cant": "all draws", "anchors": ["seismostats/utils/simulate_distributions.py:dither_magnitudes", "seismostats/utils/simulate_distributions.py:simulate_magnitudes"]}
{"id": "C83", "title": "a failing a-value calculate never changes the stored a-value", "statement": "Whatever the reason of the exception, the a_value read after a failed calculate is that of before the call.", "quantifier": "all arguments and states", "why_tests_cant": "crash points", "anchors": ["seismostats/analysis/avalue/base.py:AValueEstimator.calculate", "seismostats/analysis/avalue/base.py:AValueEstimator._reference_scaling"]}
{"id": "C84", "title": "the 1D autocorrelation lies between -1 and 1", "statement": "For every series without NaN that is not constant, est_morans_i without a weight matrix returns the lag-one autocorrelation (sum of products of successive deviations over the sum of squared deviations), a number in [-1, 1], with n the length and n_p the length minus one.", "quantifier": "all series of real numbers", "why_tests_cant": "inequality over all series", "anchors": ["seismostats/analysis/b_significant.py:est_morans_i"]}
{"id": "C85", "title": "b_significant_1D with x_variable does not depend on the order of the events", "statement": "With one completeness magnitude for all events and distinct x_variable, b_significant_1D gives the result it gives for the events sorted along x_variable, hence the same for every order of the input.", "quantifier": "all catalogues, all permutations, all estimators", "why_tests_cant": "all permutations", "anchors": ["seismostats/analysis/b_significant.py:b_significant_1D"]}
{"id": "C86", "title": "a sample with one value: KS test and the warnings option", "statement": "For a sample with exactly one distinct value the p-value of ks_test_gr and the mc of estimate_mc_ks do not depend on the warnings option.", "quantifier": "all one-valued samples", "why_tests_cant": "two-run property", "anchors": ["seismostats/analysis/estimate_mc.py:ks_test_gr"]}
{"id": "C87", "title": "estimate_mc_ks with nothing to test and the warnings option", "statement": "With a given b-value and an empty list of magnitudes to test, estimate_mc_ks behaves the same whatever the warnings option is.", "quantifier": "all samples", "why_tests_cant": "two-run property", "anchors": ["seismostats/analysis/estimate_mc.py:estimate_mc_ks"]}
{"id": "C88", "title": "estimate_mc_b_stability with a stability range of one bin", "statement": "With the default magnitudes, a stability range of one bin is usable: some magnitude is tested, and the outcome does not depend on the warnings option.", "quantifier": "all samples", "why_tests_cant": "all samples; two-run property", "anchors": ["seismostats/analysis/estimate_mc.py:estimate_mc_b_stability"]}
{"id": "C89", "title": "estimate_mc_b_stability can return 0.0", "statement": "If the most stable magnitude is 0.0, estimate_mc_b_stability returns 0.0.", "quantifier": "all samples", "why_tests_cant": "all samples", "anchors": ["seismostats/analysis/estimate_mc.py:estimate_mc_b_stability"]}
{"id": "C90", "title": "estimate_mc_b_stability skips magnitudes with undefined difference", "statement": "If the difference at the first tested magnitude is NaN (too few events) and a later one is stable, a stable magnitude is returned.", "quantifier": "all samples, all lists of magnitudes", "why_tests_cant": "all samples", "anchors": ["seismostats/analysis/estimate_mc.py:estimate_mc_b_stability"]}
{"id": "C91", "title": "estimate_mc_b_stability averages over the range in doubles", "statement": "In double arithmetic, too, the average over the stability range divides by the number of b-values that were summed.", "quantifier": "all samples, all delta_m and ranges", "why_tests_cant": "rounding for all inputs", "anchors": ["seismostats/analysis/estimate_mc.py:estimate_mc_b_stability"]}
{"id": "C92", "title": "Gardner-Knopoff time windows grow with magnitude", "statement": "GardnerKnopoffWindow never gives a larger event a shorter time window.", "quantifier": "all pairs of magnitudes", "why_tests_cant": "monotonicity over the reals", "anchors": ["seismostats/analysis/declustering/distance_time_windows.py:GardnerKnopoffWindow"]}
{"id": "C93", "title": "a time cutoff of zero is respected", "statement": "With time_cutoff = 0 no time window larger than 0 is returned.", "quantifier": "all magnitudes, all window classes", "why_tests_cant": "all magnitudes", "anchors": ["seismostats/analysis/declustering/distance_time_windows.py:BaseDistanceTimeWindow.__call__"]}
{"id": "C94", "title": "Gruenthal windows are defined for all magnitudes", "statement": "GruenthalWindow returns a positive distance and a positive time window for every finite magnitude.", "quantifier": "all magnitudes", "why_tests_cant": "continuum", "anchors": ["seismostats/analysis/declustering/distance_time_windows.py:GruenthalWindow"]}
{"id": "C95", "title": "declustering does not depend on the order of the rows", "statement": "If no two events share magnitude and time, shuffling the rows of a catalogue (with default index) shuffles the mainshock flags in the same way.", "quantifier": "all catalogues, all permutations of the rows", "why_tests_cant": "two-run property over all permutations", "anchors": ["seismostats/analysis/declustering/dec_gardner_knopoff.py"]}
{"id": "C96", "title": "batched download with batch_size = 0 terminates", "statement": "get_events(batch_size=0) terminates (with a result or an exception) whatever events the server has.", "quantifier": "all servers with at least one event", "why_tests_cant": "non-termination cannot be observed by a test", "anchors": ["seismostats/catalogs/client.py:FDSNWSEventClient.get_events", "seismostats/catalogs/client.py:FDSNWSEventClient._get_batch_params"]}
{"id": "C97", "title": "limit is honoured together with batch_size", "statement": "get_events(..., limit=L, batch_size=B) returns at most L events.", "quantifier": "all servers, all limits and batch sizes", "why_tests_cant": "all sizes of result set", "anchors": ["seismostats/catalogs/client.py:FDSNWSEventClient.get_events"]}
{"id": "C98", "title": "requests carry exactly the given parameters", "statement": "Every request of get_events carries exactly the given filters (under the FDSN names, times in ISO format) and further keyword arguments win over them; all requests of a batched download differ only in limit and offset.", "quantifier": "all arguments, all numbers of batches", "why_tests_cant": "all argument combinations", "anchors": ["seismostats/catalogs/client.py:FDSNWSEventClient.get_events"]}
{"id": "C99", "title": "texts with inner white space do not depend on chunking", "statement": "The parsed record of an event whose texts contain white space between visible characters does not depend on how the XML reader splits character data into characters() callbacks.", "quantifier": "all documents, all chunkings", "why_tests_cant": "the chunking is chosen by the parser buffer", "anchors": ["seismostats/io/parser.py:QuakeMLHandler.characters"]}
{"id": "C100", "title": "origin and event columns of a parsed record", "statement": "A parsed record takes time, place, depth (with uncertainties), evaluation mode and, if requested, the quality columns from the first origin with the preferred origin id, and eventID and event_type from the event; without such an origin these origin columns are None or missing, and without include_quality there are no quality columns.", "quantifier": "all events", "why_tests_cant": "all event trees", "anchors": ["seismostats/io/parser.py:_parse_to_dict", "seismostats/io/parser.py:_extract_origin"]}
{"id": "C101", "title": "Weichert estimate is the maximum likelihood estimate", "statement": "If the minimiser finds the global minimum, estimate_b_weichert returns the unique beta (over all reals, divided by ln 10) that maximises the probability of the observed magnitude bins, where a bin with observation time T has weight T*exp(-beta*centre) among the occupied bins.", "quantifier": "all catalogues with complete events in at least two bins, all completeness tables, all last years", "why_tests_cant": "an optimum over the reals for every catalogue", "anchors": ["seismostats/analysis/bvalue/weichert.py:estimate_b_weichert"]}
{"id": "C102", "title": "the Weichert objective has a single local minimum", "statement": "The function estimate_b_weichert minimises falls strictly up to the estimate, is 0 there and rises strictly afterwards, so that a descent method cannot be caught elsewhere.", "quantifier": "all catalogues with complete events in at least two bins", "why_tests_cant": "continuum of beta values", "anchors": ["seismostats/analysis/bvalue/weichert.py:_weichert_objective_function"]}
{"id": "C103", "title": "standard errors are inverse observed information", "statement": "The returned standard error of the b-value (Kijko-Smit and Weichert) is (-l''(beta))^(-1/2)/ln 10 with l the logarithm of the likelihood.", "quantifier": "all catalogues", "why_tests_cant": "derivatives over the reals", "anchors": ["seismostats/analysis/bvalue/kijko_smit.py:estimate_b_kijko_smit", "seismostats/analysis/bvalue/weichert.py:estimate_b_weichert"]}
{"id": "C104", "title": "Weichert counts every complete event once", "statement": "The events that enter the estimate are exactly those whose year is not before the year of completeness of the last table row below their magnitude; each is counted in exactly one (bin, year of completeness) cell.", "quantifier": "all catalogues, all tables", "why_tests_cant": "all catalogues", "anchors": ["seismostats/analysis/bvalue/weichert.py:estimate_b_weichert"]}
{"id": "C105", "title": "mag_max and empty bins enter the Weichert likelihood", "statement": "estimate_b_weichert maximises the likelihood of the magnitudes over all bins up to mag_max.", "quantifier": "all catalogues", "why_tests_cant": "optimum over the reals", "anchors": ["seismostats/analysis/bvalue/weichert.py:estimate_b_weichert"]}
{"id": "C106", "title": "magnitudes up to mag_max are accepted by Weichert", "statement": "estimate_b_weichert accepts every complete event with magnitude up to mag_max.", "quantifier": "all catalogues", "why_tests_cant": "all bin alignments", "anchors": ["seismostats/analysis/bvalue/weichert.py:estimate_b_weichert"]}
{"id": "C107", "title": "periods without complete events do not spoil the Kijko-Smit estimate", "statement": "A row of the completeness table in whose period no complete event occurred contributes nothing; the estimate stays finite.", "quantifier": "all catalogues and tables with such a row", "why_tests_cant": "all catalogues", "anchors": ["seismostats/analysis/bvalue/kijko_smit.py:estimate_b_kijko_smit"]}
{"id": "C108", "title": "Kijko-Smit rate is the maximum likelihood rate", "statement": "rate_at_lmc maximises the Poisson likelihood of the numbers of complete events of the periods, given the b-value.", "quantifier": "all catalogues, all tables with at least two rows", "why_tests_cant": "optimum over the reals", "anchors": ["seismostats/analysis/bvalue/kijko_smit.py:estimate_b_kijko_smit"]}
{"id": "C109", "title": "Kijko-Smit a-value is the logarithm of the rate at magnitude 0", "statement": "a_val = log10 of rate_at_lmc extrapolated from the lowest completeness magnitude to magnitude 0 with the b-value.", "quantifier": "all catalogues", "why_tests_cant": "real arithmetic for all inputs", "anchors": ["seismostats/analysis/bvalue/kijko_smit.py:estimate_b_kijko_smit"]}
{"id": "C110", "title": "Weichert a-value is the logarithm of the rate at magnitude 0", "statement": "10^a_val is the returned rate extrapolated with the returned b-value from the left edge of the lowest occupied bin to magnitude 0.", "quantifier": "all catalogues", "why_tests_cant": "real arithmetic for all inputs", "anchors": ["seismostats/analysis/bvalue/weichert.py:estimate_b_weichert"]}
{"id": "C111", "title": "catalogues not aligned with the bins are rejected", "statement": "estimate_b_kijko_smit raises AssertionError if the magnitudes are not aligned with the completeness edges.", "quantifier": "all catalogues", "why_tests_cant": "all catalogues", "anchors": ["seismostats/analysis/bvalue/kijko_smit.py:estimate_b_kijko_smit"]}
{"id": "C112", "title": "Weichert rate is the maximum likelihood rate", "statement": "The returned rate is the total rate that maximises the Poisson likelihood of the counts of the occupied cells given beta; its standard error is rate/sqrt(n).", "quantifier": "all catalogues with complete events in at least two bins", "why_tests_cant": "optimum over the reals", "anchors": ["seismostats/analysis/bvalue/weichert.py:estimate_b_weichert"]}
{"id": "C113", "title": "methods run exactly if their required columns are present", "statement": "After any history of calls, a method decorated with require_cols runs exactly if each required and not excluded column is present, with its own effect and result; otherwise AttributeError is raised and the object is unchanged.", "quantifier": "all column sets, all histories of calls", "why_tests_cant": "the decorator keeps state between calls", "anchors": ["seismostats/utils/__init__.py:require_cols"]}
{"id": "C114", "title": "fractions of seconds survive the fallback date parser", "statement": "A date text with microseconds is parsed to the date with these microseconds.", "quantifier": "all dates", "why_tests_cant": "all strings", "anchors": ["seismostats/utils/__init__.py:_robust_parse_datetime"]}
{"id": "C115", "title": "parsed dates exist", "statement": "Whatever text the fallback date parser accepts, the result is a date of the Gregorian calendar with a time of day; missing values stay missing and dates are kept.", "quantifier": "all strings", "why_tests_cant": "all strings", "anchors": ["seismostats/utils/__init__.py:_robust_parse_datetime"]}
{"id": "C116", "title": "time zones are ignored by the fallback date parser", "statement": "A date text with a UTC offset is parsed to the date without the offset.", "quantifier": "all dates and offsets", "why_tests_cant": "all strings", "anchors": ["seismostats/utils/__init__.py:_robust_parse_datetime"]}
{"id": "C117", "title": "the reference point is the origin of local coordinates", "statement": "The reference point has local coordinates (0, 0, 0), also if given in the external system with ref_proj; moving the reference shifts all local coordinates by that amount.", "quantifier": "all points, projections and reference points", "why_tests_cant": "continuum", "anchors": ["seismostats/utils/coordinates.py:CoordinateTransformer"]}
{"id": "C118", "title": "the bounding box functions compose", "statement": "bounding_box_to_polygon(*polygon_to_bounding_box(p)) is the bounding rectangle of p.", "quantifier": "all polygons", "why_tests_cant": "all polygons", "anchors": ["seismostats/utils/coordinates.py:polygon_to_bounding_box", "seismostats/utils/coordinates.py:bounding_box_to_polygon"]}
{"id": "C119", "title": "filtering an empty catalogue gives an empty catalogue", "statement": "cat_intersect_polygon of a catalogue without events returns it.", "quantifier": "all polygons", "why_tests_cant": "all polygons", "anchors": ["seismostats/utils/filtering.py:cat_intersect_polygon"]}
{"id": "C120", "title": "dot sizes of equal magnitudes are numbers", "statement": "dot_size of magnitudes that are all equal gives finite sizes.", "quantifier": "all lists of equal magnitudes and all size ranges", "why_tests_cant": "all inputs", "anchors": ["seismostats/plots/basics.py:dot_size"]}
{"id": "C121", "title": "the FMD plots show the number (or total weight) of magnitudes in each bin or from each bin on", "statement": "For every magnitude list, bin width and bin position, the points of plot_fmd are the bins with the number (weight) of the magnitudes in them, those of plot_cum_fmd the bins with the number (weight) of magnitudes in that bin and above; NaN magnitudes are ignored if there are no weights.", "quantifier": "all magnitude lists, weights, bin widths and bin positions", "why_tests_cant": "all inputs", "anchors": ["seismostats/plots/basics.py:plot_fmd", "seismostats/plots/basics.py:plot_cum_fmd"]}
{"id": "C122", "title": "the Gutenberg-Richter line starts at the first complete bin and falls by b decades per magnitude", "statement": "If a b-value is given, plot_cum_fmd draws a line over the bins from the completeness magnitude on, whose value at the first of them is the number of complete magnitudes and which decreases by the factor 10^(-b) per magnitude unit; without mc the smallest magnitude is taken.", "quantifier": "all magnitude lists, b-values, completeness magnitudes and bin widths", "why_tests_cant": "all inputs", "anchors": ["seismostats/plots/basics.py:plot_cum_fmd", "seismostats/plots/basics.py:gutenberg_richter"]}
{"id": "C123", "title": "NaN magnitudes are ignored in weighted FMD plots", "statement": "plot_fmd and plot_cum_fmd with weights ignore magnitudes that are NaN together with their weights.", "quantifier": "all weighted magnitude lists with NaN", "why_tests_cant": "all inputs", "anchors": ["seismostats/plots/basics.py:plot_fmd", "seismostats/plots/basics.py:plot_cum_fmd"]}
{"id": "C124", "title": "the Gutenberg-Richter line fits the weighted points", "statement": "In a weighted plot_cum_fmd the line starts at the total weight of the complete magnitudes, i.e. at the first plotted point.", "quantifier": "all weighted magnitude lists", "why_tests_cant": "all inputs", "anchors": ["seismostats/plots/basics.py:plot_cum_fmd"]}
{"id": "C125", "title": "plot_cum_count shows, at every time, how many complete events have happened", "statement": "For each completeness magnitude the curve is the step function of time whose value is the number (weight) of events with magnitude >= mc - delta_m/2 up to that time, divided by the total if normalised; it begins at the first and ends at the last event of the catalogue; nothing is drawn for a completeness magnitude without events; wrong lengths raise.", "quantifier": "all catalogues, lists of completeness magnitudes, weights, and all orders of equal times", "why_tests_cant": "all inputs", "anchors": ["seismostats/plots/basics.py:plot_cum_count"]}
{"id": "C126", "title": "plot_mags_in_time shows every event and the completeness magnitude in force at every time", "statement": "All events are shown with their dot sizes; with change times (years or dates) the line is the step function that has the completeness magnitude in force, continued to the last event.", "quantifier": "all catalogues and histories of completeness changes", "why_tests_cant": "all inputs", "anchors": ["seismostats/plots/basics.py:plot_mags_in_time"]}
{"id": "C127", "title": "plot_mags_in_time leaves its arguments alone", "statement": "The lists given as mc_change_times and mcs are the same after the call, so that the same call can be repeated.", "quantifier": "all argument lists", "why_tests_cant": "the state after every call", "anchors": ["seismostats/plots/basics.py:plot_mags_in_time"]}
{"id": "C128", "title": "every point of plot_mc_vs_b is an independent estimate", "statement": "The value and band at each completeness magnitude are those estimate_b gives for it, independently of the other completeness magnitudes in the list; if it raises for one of them, so does the plot.", "quantifier": "all magnitude lists, lists of completeness magnitudes, estimators and confidence levels", "why_tests_cant": "all inputs and histories of the reused estimator", "anchors": ["seismostats/plots/statistical.py:plot_mc_vs_b"]}
{"id": "C129", "title": "plot_b_series_constant_nm shows the b-value of each window of n_m complete events at the chosen place", "statement": "The complete events, sorted along x_variable, are divided into all windows of n_m consecutive ones; the value plotted at the first, middle or last event of a window (as chosen) is the fresh estimate for its events in time order with their largest completeness magnitude, NaN if it uses fewer than min_num magnitudes; events without a window have NaN; an exception comes from a window's estimate or from inconsistent arguments.", "quantifier": "all catalogues, window lengths, estimators and placements", "why_tests_cant": "all inputs and histories of the reused estimator", "anchors": ["seismostats/plots/statistical.py:plot_b_series_constant_nm"]}
{"id": "C130", "title": "plot_b_significant_1D shows the results of b_significant_1D", "statement": "Each point is the result of b_significant_1D for the same arguments and that n_m, or NaN if there are fewer than 15 n_m complete magnitudes; with x_variable the events are sorted along it.", "quantifier": "all catalogues, lists of n_m and estimators", "why_tests_cant": "all inputs", "anchors": ["seismostats/plots/statistical.py:plot_b_significant_1D"]}
{"id": "C131", "title": "the map shows all events", "statement": "plot_in_space sets the map extent to the bounding box of the events widened by 5% on each side, so that every event is inside; the extent of given axes is enlarged to the smallest box containing both.", "quantifier": "all catalogues and previous extents", "why_tests_cant": "all inputs", "anchors": ["seismostats/plots/seismicity.py:plot_in_space"]}
{"id": "C132", "title": "adjusted colours are valid colours, lighter for factors below one and darker above", "statement": "Each channel stays in [0, 1]; with factor < 1 its distance to white is multiplied by the factor, with factor >= 1 the channel is divided by it.", "quantifier": "all colours and non-negative factors", "why_tests_cant": "continuum", "anchors": ["seismostats/plots/statistical.py:_adjust_color_brightness"]}
{"id": "C133", "title": "the metadata of a catalogue survive every operation", "statement": "Along any sequence of operations whose results keep the column magnitude, name, mc, a_value, delta_m, b_value, start and end time, polygon and depth limits keep the value last assigned; n_catalogs does as long as every result also has catalog_id, and is lost for good otherwise.", "quantifier": "all catalogues and sequences of operations and assignments", "why_tests_cant": "all sequences", "anchors": ["seismostats/catalogs/catalog.py:Catalog.__finalize__", "seismostats/catalogs/catalog.py:Catalog._metadata", "seismostats/catalogs/catalog.py:ForecastCatalog"]}
{"id": "C134", "title": "merge keeps the metadata of the left catalogue, concat of the first", "statement": "The result of merge has the attributes of the left object, that of concat of the first object, whatever the others have.", "quantifier": "all catalogues and column sets", "why_tests_cant": "all combinations", "anchors": ["seismostats/catalogs/catalog.py:Catalog.__finalize__"]}
{"id": "C135", "title": "strip keeps the required columns only", "statement": "strip returns a copy (or changes the catalogue in place) with exactly longitude, latitude, depth, time, magnitude and magnitude_type, and catalog_id for an object made by ForecastCatalog(...), in their order, with the attributes; without these columns it raises AttributeError.", "quantifier": "all catalogues", "why_tests_cant": "all column sets", "anchors": ["seismostats/catalogs/catalog.py:Catalog.strip"]}
{"id": "C136", "title": "drop_uncertainties, drop_ids and from_dict drop exactly the columns with the documented endings", "statement": "The result has the remaining columns in their order, the class that fits them, and the same attributes; from_dict drops uncertainties and ids exactly if they are not wanted.", "quantifier": "all catalogues and column names", "why_tests_cant": "all names", "anchors": ["seismostats/catalogs/catalog.py:Catalog.drop_uncertainties", "seismostats/catalogs/catalog.py:Catalog.drop_ids", "seismostats/catalogs/catalog.py:Catalog.from_dict"]}
{"id": "C137", "title": "strip keeps catalog_id of every ForecastCatalog", "statement": "Stripping a ForecastCatalog gives a ForecastCatalog.", "quantifier": "all forecast catalogues and histories", "why_tests_cant": "all histories", "anchors": ["seismostats/catalogs/catalog.py:Catalog.strip", "seismostats/catalogs/catalog.py:Catalog.__finalize__"]}
{"id": "C138", "title": "Catalog.estimate_a: explicit arguments take precedence, only a_value changes", "statement": "mc and delta_m are the explicit ones if given, else the attributes, else ValueError; the stored b_value is never used; success sets a_value to the estimate and nothing else, failure changes nothing.", "quantifier": "all catalogues, arguments, estimators and outcomes", "why_tests_cant": "all values and histories", "anchors": ["seismostats/catalogs/catalog.py:Catalog.estimate_a"]}
{"id": "C139", "title": "estimating mc through a catalogue sets mc to the result and nothing else", "statement": "estimate_mc_maxc, estimate_mc_b_stability and estimate_mc_ks give the result of the function for the magnitudes, the explicit or else stored delta_m, and (ks) the explicit or else stored b_value; they set mc to it, to None if none was found, so that estimate_b without mc then uses it or raises ValueError; failure changes nothing.", "quantifier": "all catalogues and arguments", "why_tests_cant": "all values and histories", "anchors": ["seismostats/catalogs/catalog.py:Catalog.estimate_mc_maxc", "seismostats/catalogs/catalog.py:Catalog.estimate_mc_b_stability", "seismostats/catalogs/catalog.py:Catalog.estimate_mc_ks"]}
{"id": "C140", "title": "estimates through a catalogue use its columns", "statement": "The estimator gets the column magnitude, the explicit weights or else the column weight, and for the positive methods the explicit times or else the column times or else the column time; without any of these the positive a-value methods raise TypeError; the other methods use neither and raise TypeError if given times or dmc; a column dmc without explicit dmc makes the positive methods raise ValueError.", "quantifier": "all catalogues, arguments and estimators", "why_tests_cant": "all combinations of columns and arguments", "anchors": ["seismostats/catalogs/catalog.py:_check_catalog_cols", "seismostats/catalogs/catalog.py:Catalog.estimate_b", "seismostats/catalogs/catalog.py:Catalog.estimate_a"]}
{"id": "C141", "title": "plots of a catalogue use its attributes for omitted arguments and leave it unchanged", "statement": "plot_cum_fmd takes mc, b_value and the bin width, plot_cum_count the binning, from the explicit arguments or else the attributes; the catalogue is unchanged; missing columns raise AttributeError.", "quantifier": "all catalogues and arguments", "why_tests_cant": "all values", "anchors": ["seismostats/catalogs/catalog.py:Catalog.plot_cum_fmd", "seismostats/catalogs/catalog.py:Catalog.plot_cum_count", "seismostats/catalogs/catalog.py:Catalog.plot_fmd"]}
{"id": "C142", "title": "texts standing for missing values become None", "statement": "In magnitude_type and event_type exactly the empty text and the listed spellings of nan, none, na and null become None; every other text stays.", "quantifier": "all texts", "why_tests_cant": "all texts", "anchors": ["seismostats/catalogs/catalog.py:Catalog.__init__"]}
{"id": "C143", "title": "equal cells with unknown bounds get the same cell_id", "statement": "Two rows whose known bounds agree and whose other bounds are both unknown (such as the depths of a grid without depths) get the same cell_id.", "quantifier": "all rate grids with missing bounds", "why_tests_cant": "all grids", "anchors": ["seismostats/catalogs/rategrid.py:GRRateGrid._reindex_cell_id"]}
{"id": "C144", "title": "time index and concatenation of rate grids", "statement": "add_time_index keeps rows, columns and attributes and adds the levels starttime (and endtime) with the grid's times and cell_id; concat puts the rows one after the other, each with the times of its grid, numbers the cells of all grids together by their bounds, and sets starttime to the least start and endtime to the greatest end (greatest start if an end is missing); missing times, an empty list or different numbers of levels raise the documented errors.", "quantifier": "all lists of rate grids", "why_tests_cant": "all grids and times", "anchors": ["seismostats/catalogs/rategrid.py:GRRateGrid.concat", "seismostats/catalogs/rategrid.py:GRRateGrid.add_time_index"]}
{"id": "C145", "title": "the cell_id of a row does not change when rows are selected", "statement": "Selecting rows of a rate grid with a time index keeps the cell_id of the remaining rows.", "quantifier": "all rate grids and selections", "why_tests_cant": "all selections", "anchors": ["seismostats/catalogs/rategrid.py:GRRateGrid.__init__", "seismostats/catalogs/rategrid.py:GRRateGrid._reindex_cell_id"]}
{"id": "C146", "title": "statistics of a forecast grid aggregate each cell over its realizations", "statement": "calculate_statistics gives one row for each cell (or combination of index levels) without unknown parts, in increasing order, with the aggregate of every known column over exactly the rows of that cell and the extra statistics <column>_<suffix> for number_events, a, b, mc and alpha where no such column exists; grid_id is left out.", "quantifier": "all forecast grids, aggregation functions and extra statistics", "why_tests_cant": "all grids and functions", "anchors": ["seismostats/catalogs/rategrid.py:ForecastGRRateGrid.calculate_statistics"]}
{"id": "C147", "title": "the statistics show the bounds of each cell", "statement": "In every row of calculate_statistics the bound columns hold the bounds of the cell, for every aggregation function.", "quantifier": "all forecast grids and aggregation functions", "why_tests_cant": "all functions", "anchors": ["seismostats/catalogs/rategrid.py:ForecastGRRateGrid.calculate_statistics"]}
{"id": "C148", "title": "statistics work for grids without depths", "statement": "A forecast grid whose depth bounds are unknown can be summarised by cell.", "quantifier": "all forecast grids", "why_tests_cant": "all grids", "anchors": ["seismostats/catalogs/rategrid.py:ForecastGRRateGrid.calculate_statistics"]}
{"id": "C149", "title": "the class and attributes of what an operation on a rate grid gives", "statement": "The result is a rate grid exactly if the nine required columns are there, a forecast grid exactly if grid_id is too; rate grids keep name, start and end time of the original, forecast grids of a forecast grid also n_grids.", "quantifier": "all rate grids and results", "why_tests_cant": "all column sets", "anchors": ["seismostats/catalogs/rategrid.py:_rategrid_constructor_with_fallback", "seismostats/catalogs/rategrid.py:GRRateGrid.__finalize__"]}
{"id": "C150", "title": "exporting a catalogue to QuakeML and reading it back", "statement": "Reading the document made by to_quakeml gives one record per row with known latitude, longitude and time, in order; each has the time, coordinates, depth, magnitude with their uncertainties, magnitude type, event and origin and magnitude ids (new ones where the column is missing), counts as integers, distances and gaps of its row; unknown numbers are left out; and exactly those secondary magnitudes (values, uncertainties and the ids given in their columns) whose column name does not contain the preferred type.", "quantifier": "all catalogues whose texts need no escaping, all secondary columns with ordinary type names, all readers' set orders", "why_tests_cant": "all tables", "anchors": ["seismostats/catalogs/catalog.py:Catalog.to_quakeml", "seismostats/catalogs/catalog_templates/quakeml.j2", "seismostats/io/parser.py:parse_quakeml"]}
{"id": "C151", "title": "which events are exported to QuakeML", "statement": "to_quakeml raises AttributeError unless the six required columns are there; otherwise exactly the rows with known latitude, longitude and time become events, in order, under their event id.", "quantifier": "all catalogues", "why_tests_cant": "all tables", "anchors": ["seismostats/catalogs/catalog.py:Catalog.to_quakeml", "seismostats/catalogs/catalog.py:Catalog._create_ids"]}
{"id": "C152", "title": "new ids of secondary magnitudes appear in the exported document", "statement": "Missing ids of secondary magnitudes are created and written.", "quantifier": "all catalogues", "why_tests_cant": "all tables", "anchors": ["seismostats/catalogs/catalog.py:Catalog._create_ids", "seismostats/catalogs/catalog.py:Catalog.to_quakeml"]}
{"id": "C153", "title": "missing texts are missing after an export and import", "statement": "A row without evaluation mode or magnitude type is read back without, and no columns appear that the catalogue did not have.", "quantifier": "all catalogues", "why_tests_cant": "all tables", "anchors": ["seismostats/catalogs/catalog.py:Catalog.to_quakeml", "seismostats/catalogs/catalog_templates/quakeml.j2"]}
{"id": "C154", "title": "lower and upper uncertainties, confidence levels and the uncertainty of the time survive the export", "statement": "They are read back with the values they had.", "quantifier": "all catalogues", "why_tests_cant": "all tables", "anchors": ["seismostats/catalogs/catalog_templates/quakeml.j2"]}
{"id": "C155", "title": "missing ids are created in every row", "statement": "A row without event, origin or magnitude id gets a new one on export.", "quantifier": "all catalogues, with and without id columns", "why_tests_cant": "all tables", "anchors": ["seismostats/catalogs/catalog.py:Catalog._create_ids"]}
{"id": "C156", "title": "a forecast catalogue is exported as one document per realization", "statement": "ForecastCatalog.to_quakeml returns, in increasing order of catalog_id, one document per id that occurs, each the export of exactly the rows with that id in their order.", "quantifier": "all forecast catalogues", "why_tests_cant": "all tables", "anchors": ["seismostats/catalogs/catalog.py:ForecastCatalog.to_quakeml"]}
{"id": "C157", "title": "secondary magnitudes with unrelated type names survive the export", "statement": "A known cell of a column magnitude_<type> is read back if the preferred type of the row is known and does not occur in the column name.", "quantifier": "all catalogues", "why_tests_cant": "all tables", "anchors": ["seismostats/catalogs/catalog.py:Catalog.to_quakeml"]}
{"id": "C158", "title": "times survive the conversion to OpenQuake and back", "statement": "to_openquake writes valid dates and seconds with a fraction that give the time of the event to less than a nanosecond (whole microseconds; nanoseconds are cut), and from_openquake of these gives back exactly the same microseconds, although seconds and microseconds are added in floating point.", "quantifier": "all event times pandas can represent", "why_tests_cant": "the set of times is unbounded and rounding differs from value to value", "anchors": ["seismostats/catalogs/catalog.py:Catalog.to_openquake", "seismostats/catalogs/catalog.py:Catalog.from_openquake"]}
{"id": "C159", "title": "times read from OpenQuake are right to half a microsecond", "statement": "For every catalogue with existing dates in the range of pandas, the times differ from the given ones by at most half a microsecond (and rounding error below 1e-9), also if the fraction rounds up to the next second.", "quantifier": "all OpenQuake catalogues in range, all fractions of seconds", "why_tests_cant": "all real seconds", "anchors": ["seismostats/catalogs/catalog.py:Catalog.from_openquake"]}
{"id": "C160", "title": "times in range keep their microseconds whatever the other events are", "statement": "The time of a recent event read from OpenQuake does not depend on whether the catalogue also has historic events.", "quantifier": "all OpenQuake catalogues", "why_tests_cant": "all combinations of events", "anchors": ["seismostats/catalogs/catalog.py:Catalog.from_openquake"]}
{"id": "C161", "title": "historic events can be read from OpenQuake catalogues with any columns", "statement": "A catalogue with an event outside the range of nanosecond timestamps is read with a resolution of seconds, also if all its columns hold numbers.", "quantifier": "all OpenQuake catalogues", "why_tests_cant": "all combinations of events", "anchors": ["seismostats/catalogs/catalog.py:Catalog.from_openquake"]}
{"id": "C162", "title": "columns of the conversion to and from OpenQuake", "statement": "to_openquake raises AttributeError without the five required columns and otherwise keeps every column, adds eventID if missing and the units of time (an empty catalogue gives an empty one); from_openquake leaves out columns without values, replaces the units of time by time (or keeps them on request), raises ValueError for columns of different lengths and KeyError if a unit of time is missing; there and back the columns are the same and eventID.", "quantifier": "all column sets and lengths", "why_tests_cant": "all tables", "anchors": ["seismostats/catalogs/catalog.py:Catalog.to_openquake", "seismostats/catalogs/catalog.py:Catalog.from_openquake"]}
{"id": "C163", "title": "dates that do not exist are not read from OpenQuake", "statement": "from_openquake raises an exception if any event has a day that the month does not have.", "quantifier": "all OpenQuake catalogues with years from 1000 to 9999", "why_tests_cant": "all combinations of events", "anchors": ["seismostats/catalogs/catalog.py:Catalog.from_openquake"]}
{"id": "C164", "title": "times of day that do not exist are not read from OpenQuake", "statement": "from_openquake raises an exception if any event has an hour above 23 or a minute above 59.", "quantifier": "all OpenQuake catalogues", "why_tests_cant": "all combinations of events", "anchors": ["seismostats/catalogs/catalog.py:Catalog.from_openquake"]}
{"id": "C165", "title": "the uncertainty of an unusable weighted sample is NaN", "statement": "If no magnitude is complete, std is NaN after a weighted estimate.", "quantifier": "all weighted samples without complete magnitude", "why_tests_cant": "all samples", "anchors": ["seismostats/analysis/bvalue/base.py:BValueEstimator.std", "seismostats/analysis/bvalue/utils.py:shi_bolt_confidence"]}
{"id": "C166", "title": "a sample of unknown magnitudes gives NaN", "statement": "calculate returns NaN if every magnitude is NaN.", "quantifier": "all such samples", "why_tests_cant": "all sizes", "anchors": ["seismostats/analysis/bvalue/base.py:BValueEstimator._sanity_checks", "seismostats/utils/binning.py:binning_test"]}
{"id": "C167", "title": "p_lilliefors is defined for samples that are binned more coarsely than delta_m", "statement": "An estimate that succeeded with a delta_m finer than the binning of the sample has a Lilliefors p-value.", "quantifier": "all such samples", "why_tests_cant": "all samples", "anchors": ["seismostats/analysis/bvalue/base.py:BValueEstimator.p_lilliefors", "seismostats/utils/simulate_distributions.py:dither_magnitudes"]}
{"id": "C168", "title": "p_lilliefors is defined whenever the estimate is", "statement": "A magnitude between mc - delta_m/2 and mc, which is used for the estimate, does not make the Lilliefors p-value fail.", "quantifier": "all samples, all random numbers", "why_tests_cant": "all draws", "anchors": ["seismostats/analysis/bvalue/base.py:BValueEstimator.p_lilliefors", "seismostats/utils/simulate_distributions.py:dither_magnitudes"]}
{"id": "C169", "title": "binning_test with delta_x = 0 and the default tolerance", "statement": "As documented, binning_test(x, 0) returns a truth value for every sample with at least two distinct finite values.", "quantifier": "all samples", "why_tests_cant": "the mode has no test; the claim ranges over all samples", "anchors": ["seismostats/utils/binning.py:binning_test"]}
{"id": "C170", "title": "in double precision, bin_to_precision returns the double of the nearest multiple of the bin width", "statement": "With IEEE rounding in every step, each result is exactly the double that Python reads from the decimal numeral of a multiple K*delta_x, the distance of the input to it is at most half a bin up to 1e-7 bins, and a decimal input on the lower edge of the bin (x.x5 for 0.1) goes up.", "quantifier": "all finite doubles up to 1000 in size, all bin widths from 0.0001 to 10 with at most ten decimals (for the edges: at most 1000 bins from 0), all mathematical libraries", "why_tests_cant": "rounding differs from value to value", "anchors": ["seismostats/utils/binning.py:bin_to_precision", "seismostats/utils/binning.py:normal_round"]}
{"id": "C171", "title": "in double precision, binning is idempotent and equal bins give equal doubles", "statement": "Binning binned values again returns them bit by bit; two values within 0.4 bins of the same multiple, however they were computed, become the same double (so that == and np.unique are safe on binned magnitudes).", "quantifier": "all doubles up to 900 (1000) in size, all usual bin widths", "why_tests_cant": "rounding differs from value to value", "anchors": ["seismostats/utils/binning.py:bin_to_precision"]}
{"id": "C172", "title": "in double precision, binning_test accepts exactly the binned samples below magnitude 8", "statement": "The check made by every estimator (tolerance 1e-15 absolute, no check for larger bins) is True for every sample of doubles whose decimals lie on a grid with spacing delta_x, with any offset and NaNs, if all are below 8 in size; if it is True (sizes up to 100), all differences are multiples of delta_x to 1e-11.", "quantifier": "all samples of any length, all usual bin widths", "why_tests_cant": "rounding differs from value to value", "anchors": ["seismostats/utils/binning.py:binning_test", "seismostats/analysis/bvalue/base.py:BValueEstimator._sanity_checks"]}
{"id": "C173", "title": "correctly binned catalogues with magnitudes of 8 and more are accepted", "statement": "binning_test as called by the estimators is True for every binned sample with magnitudes below 10, and the estimators return an estimate for it.", "quantifier": "all binned samples", "why_tests_cant": "rounding differs from value to value", "anchors": ["seismostats/utils/binning.py:binning_test", "seismostats/analysis/bvalue/base.py:BValueEstimator._sanity_checks"]}
{"id": "C174", "title": "in double precision, the estimators select exactly the complete events and the large enough differences", "statement": "For magnitudes, mc and dmc given as decimals on the grid, the classic and Utsu estimators do not raise and use exactly the events whose index is at least that of mc; b-positive and b-more-positive use exactly the pairs of (time-ordered) complete events whose index difference is at least that of dmc, and store exactly the doubles of these differences: no event is lost to rounding at mc - delta_m/2.", "quantifier": "all catalogues of binned magnitudes below 8, all mc, dmc, times, usual bin widths", "why_tests_cant": "rounding differs from value to value", "anchors": ["seismostats/analysis/bvalue/base.py:BValueEstimator._filter_mc", "seismostats/analysis/bvalue/positive.py", "seismostats/analysis/bvalue/more_positive.py"]}
{"id": "C175", "title": "in double precision, get_fmd counts every event in its bin", "statement": "The bin centres are the doubles of the consecutive multiples of delta from the smallest to the largest binned magnitude, without gap, repetition or excess bin, and the counts are exactly the numbers of events binned to each; they add up to the number of events.", "quantifier": "all samples of doubles up to 80 in size with at most 2^53 events, all usual bin widths, every order of summation", "why_tests_cant": "np.arange with a float step and histogram edges are subject to rounding", "anchors": ["seismostats/utils/binning.py:get_fmd"]}
{"id": "C176", "title": "the b-value is not spoilt by rounding errors", "statement": "Computed in IEEE double precision from the doubles of decimal magnitudes, the b-value of the classic, Utsu, b-positive and b-more-positive estimators differs from the estimate of exact arithmetic on the decimal numbers by a relative error of at most (n + 620/delta_m + 20) 2^-52 for n magnitudes used; for up to a million events and bins of at least 0.01 it has nine correct digits. Except for the classic estimate of magnitudes that all equal mc (exactly infinite).", "quantifier": "all catalogues on a decimal grid below magnitude 8, all completeness magnitudes and differences on the grid, all usual bin widths, every order of summation and every logarithm with a relative error below 2^-51", "why_tests_cant": "the accumulated rounding error depends on all magnitudes and on the order of summation", "anchors": ["seismostats/analysis/bvalue/base.py:BValueEstimator.calculate", "seismostats/analysis/bvalue/classic.py:_mle_estimator", "seismostats/analysis/bvalue/utsu.py:UtsuBValueEstimator._estimate", "seismostats/analysis/bvalue/positive.py:BPositiveBValueEstimator._estimate"]}
{"id": "C177", "title": "the times of a new catalogue are the times stated by the texts", "statement": "For ISO texts (T or blank, up to nine digits of a second, with or without Z) in the range of pandas timestamps the column time holds exactly the stated instants; with T every column is read, exactly or, if some time is out of range, every text to its whole second; missing entries stay missing, time objects are kept, and no row is lost.", "quantifier": "all columns of missing entries, time objects and ISO texts of any calendar time of the years 1 to 9999", "why_tests_cant": "the conversion of one row depends on all rows", "anchors": ["seismostats/catalogs/catalog.py:Catalog.__init__", "seismostats/utils/__init__.py:_robust_parse_datetime"]}
{"id": "C178", "title": "the time of an event does not depend on the other events of a new catalogue", "statement": "A time in the range of pandas timestamps keeps its fraction of a second whatever the other times of the column are.", "quantifier": "all times and other times", "why_tests_cant": "the conversion of one row depends on all rows", "anchors": ["seismostats/catalogs/catalog.py:Catalog.__init__", "seismostats/utils/__init__.py:_robust_parse_datetime"]}
{"id": "C179", "title": "times written with a blank are read for historic events too", "statement": "A catalogue with times of the form 1600-01-01 05:05:13 (as in the examples of the documentation) can be created also if a time is out of the range of pandas timestamps.", "quantifier": "all columns with such times", "why_tests_cant": "ranges over all times", "anchors": ["seismostats/catalogs/catalog.py:Catalog.__init__", "seismostats/utils/__init__.py:_robust_parse_datetime"]}
{"id": "C180", "title": "in double precision, maximum curvature finds the fullest bin and its result selects the right events", "statement": "estimate_mc_maxc returns the double sum of the smallest of the most frequent binned magnitudes and the correction, ignoring NaN; given to the classic or Utsu estimator (with a correction on the grid), it makes them use exactly the events from the corrected bin on. More generally they use exactly the events from a grid value on for every mc within 0.4 bins of it.", "quantifier": "all samples of doubles up to 80 in size (below magnitude 8 for the estimators), all usual bin widths, every order of summation", "why_tests_cant": "rounding differs from value to value", "anchors": ["seismostats/analysis/estimate_mc.py:estimate_mc_maxc", "seismostats/analysis/bvalue/base.py:BValueEstimator._filter_mc"]}
{"id": "C181", "title": "the completeness magnitude by maximum curvature is the double of its decimal", "statement": "The mc returned for binned magnitudes, bins of 0.1 and the default correction is the double that stands for a multiple of 0.1, so that magnitudes >= mc selects the complete events.", "quantifier": "all binned samples", "why_tests_cant": "rounding differs from value to value", "anchors": ["seismostats/analysis/estimate_mc.py:estimate_mc_maxc"]}
{"id": "C182", "title": "in double precision, get_cum_fmd counts exactly the events at or above each bin", "statement": "With a bin width, the cumulative count of every bin from the smallest to the largest binned magnitude is exactly the number of events binned to it or above (left edges differ from the exact ones by at most 1e-12); without bins, the distinct magnitudes appear in increasing order, each with exactly the number of magnitudes that are not smaller.", "quantifier": "all samples of doubles up to 80 in size (any size without bins) with at most 2^53 events, all usual bin widths, every order of summation", "why_tests_cant": "rounding differs from value to value; counts are sums of doubles", "anchors": ["seismostats/utils/binning.py:get_cum_fmd", "seismostats/utils/binning.py:get_fmd"]}
{"id": "C183", "title": "reading QuakeML text gives the records of the document it contains", "statement": "For every document tree, written as XML text with or without declaration and surrounding white space, parse_quakeml_file, parse_quakeml_response and parse_quakeml return exactly the records of the tree with whole texts, whatever the pieces in which the XML reader passes on a text, as long as texts with inner white space arrive in one piece.", "quantifier": "all document trees whose names, attributes and texts need no escaping, all ways the reader cuts texts", "why_tests_cant": "ranges over all documents and all buffer boundaries", "anchors": ["seismostats/io/parser.py:parse_quakeml", "seismostats/io/parser.py:parse_quakeml_file", "seismostats/io/parser.py:parse_quakeml_response"]}
{"id": "C184", "title": "a file that is cut off never yields a wrong record", "statement": "If a text can be read, then for every initial part of it parse_quakeml_file gives a SAXParseException or an initial part of the records of the whole text; events that are complete in the initial part are all among them. parse_quakeml raises SAXParseException for every initial part that is neither empty nor complete (complete: only white space, comments or processing instructions are missing).", "quantifier": "all texts, all points of interruption", "why_tests_cant": "every crash point of a download or a write", "anchors": ["seismostats/io/parser.py:parse_quakeml_file", "seismostats/io/parser.py:parse_quakeml", "seismostats/io/parser.py:parse_quakeml_response"]}
{"id": "C185", "title": "an interrupted file is reported", "statement": "parse_quakeml_file and parse_quakeml_response raise an exception for a document that ends too soon.", "quantifier": "all documents, all points of interruption", "why_tests_cant": "every crash point of a download or a write", "anchors": ["seismostats/io/parser.py:parse_quakeml_file", "seismostats/io/parser.py:parse_quakeml_response"]}
{"id": "C186", "title": "the string returned by to_quakeml is read back as the table", "statement": "If nothing in the table needs escaping, the exact text made by the template, read by parse_quakeml_file or parse_quakeml, gives the rows with time and location, in order, with the cells of C150.", "quantifier": "all tables with such cells, all columns, all new ids, all ways the reader cuts texts", "why_tests_cant": "ranges over all tables", "anchors": ["seismostats/catalogs/catalog.py:Catalog.to_quakeml", "seismostats/catalogs/catalog_templates/quakeml.j2", "seismostats/io/parser.py:parse_quakeml"]}
{"id": "C187", "title": "every string returned by to_quakeml can be read back", "statement": "Also with characters in an event id that have a meaning in XML.", "quantifier": "all tables with an event id that contains < or an & that begins no reference", "why_tests_cant": "ranges over all tables and ids", "anchors": ["seismostats/catalogs/catalog.py:Catalog.to_quakeml", "seismostats/catalogs/catalog_templates/quakeml.j2", "seismostats/utils/__init__.py:_render_template"]}
{"id": "C188", "title": "what is escaped in a QuakeML document is decoded in the records", "statement": "For every document tree, whatever characters its texts and attributes consist of, the text in which &, <, > and quotes are written as references is read by parse_quakeml_file and parse_quakeml as exactly the records of the tree.", "quantifier": "all document trees without control characters, all ways the reader cuts texts", "why_tests_cant": "ranges over all documents and texts", "anchors": ["seismostats/io/parser.py:parse_quakeml", "seismostats/io/parser.py:parse_quakeml_file"]}
{"id": "C189", "title": "Kijko and Smit's warning", "statement": "A warning is issued exactly if warnings are on and some magnitude is below every magnitude of the completeness table; such events are never used.", "quantifier": "all catalogues, all completeness tables, both option values", "why_tests_cant": "ranges over all catalogues and tables", "anchors": ["seismostats/analysis/bvalue/kijko_smit.py:estimate_b_kijko_smit"]}
{"id": "C190", "title": "estimate_a, the estimator objects and Catalog.estimate_a agree", "statement": "estimate_a returns what calculate of any object of the class returns for the same arguments (or raises the same exception), whatever the object was used for before and whether or not warnings are on, and this is the a_value of the object afterwards; Catalog.estimate_a returns an object with the same a_value for the magnitudes and times of its columns.", "quantifier": "all samples, all three methods, all histories of the object", "why_tests_cant": "all histories of an object, all arguments", "anchors": ["seismostats/analysis/avalue/__init__.py:estimate_a", "seismostats/analysis/avalue/base.py:AValueEstimator.calculate", "seismostats/catalogs/catalog.py:Catalog.estimate_a"]}
{"id": "C191", "title": "the mask of a country covers the map", "statement": "With a country, the rectangle that is drawn white outside the country is exactly the extent of the map: it contains the bounding box of the country with a margin of 5 % of its extension on every side, and nothing else.", "quantifier": "all countries with a bounding box of positive extension", "why_tests_cant": "every point of the plane, all bounding boxes", "anchors": ["seismostats/plots/seismicity.py:plot_in_space", "seismostats/plots/seismicity.py:_rect_from_bound"]}
{"id": "C192", "title": "indentation of a QuakeML document does not matter", "statement": "White space (of Python's str.strip) added before or after any text, and texts of white space only added anywhere, change neither the parsed records nor the exception.", "quantifier": "all sequences of callbacks, all ways of adding white space", "why_tests_cant": "ranges over all documents and layouts", "anchors": ["seismostats/io/parser.py:QuakeMLHandler.characters", "seismostats/io/parser.py:parse_quakeml"]}
{"id": "C193", "title": "a download gives the records of the selected events, whole or interrupted", "statement": "For a web service that answers each request with a QuakeML text (in any layout) of the requested page, get_events gives exactly the records of all selected events, with every batch size as without batches (or the exception that the first unreadable event raises). If any bodies of the service end too soon, at any character, the download ends with SAXParseException or with some of these records, unchanged, in order, none twice.", "quantifier": "all services, selections, batch sizes, layouts; all points of interruption of all responses; all ways the reader cuts texts", "why_tests_cant": "every crash point of every response, all sizes", "anchors": ["seismostats/catalogs/client.py:FDSNWSEventClient.get_events", "seismostats/catalogs/client.py:FDSNWSEventClient._get_events_batched", "seismostats/catalogs/client.py:FDSNWSEventClient._get_batch_count", "seismostats/io/parser.py:parse_quakeml_response"]}
{"id": "C194", "title": "a failed or interrupted request raises an exception", "statement": "get_events raises an exception if the service answers with an error status or if the body ends too soon.", "quantifier": "all services, all error pages, all points of interruption", "why_tests_cant": "every crash point of every response", "anchors": ["seismostats/catalogs/client.py:FDSNWSEventClient.get_events", "seismostats/io/parser.py:parse_quakeml_response"]}
{"id": "C195", "title": "a batched download ends for a service that answers an empty selection with an empty document", "statement": "get_events with a batch size ends.", "quantifier": "all services whose answers always have status 200 and a body", "why_tests_cant": "liveness", "anchors": ["seismostats/catalogs/client.py:FDSNWSEventClient._get_batch_count", "seismostats/catalogs/client.py:FDSNWSEventClient._exists_with_offset"]}
{"id": "C196", "title": "the estimators warn exactly when they should", "statement": "A call of calculate that returns a value issues, with warnings on, the warning about an empty lowest bin exactly if there are magnitudes and all lie more than half a bin above mc, the warning about no magnitudes exactly if none is at least mc - delta_m/2, the warning about dmc exactly for the positive methods with a dmc below delta_m, and (a-values) the warning about too few events exactly if there are complete magnitudes but none is left for the estimate; each at most once and no others. With warnings off it issues none.", "quantifier": "all samples, all b- and a-value estimators, all arguments, all histories of the object", "why_tests_cant": "ranges over all samples and histories", "anchors": ["seismostats/analysis/bvalue/base.py:BValueEstimator._sanity_checks", "seismostats/analysis/bvalue/base.py:BValueEstimator._filter_magnitudes", "seismostats/analysis/avalue/base.py:AValueEstimator._sanity_checks", "seismostats/analysis/avalue/positive.py:APositiveAValueEstimator._estimate", "seismostats/analysis/avalue/more_positive.py:AMorePositiveAValueEstimator._estimate"]}
{"id": "C197", "title": "the p-value of b_significant_1D", "statement": "The returned p-value is one minus the normal distribution function, with the returned expectation and standard deviation, at the returned mean autocorrelation (so a probability), unless there are too few events, when all four are NaN. Expectation and deviation are -1/mean(n) and (m-2)/(m sqrt m), m the mean number of pairs over the offsets that give one, or NaN if m <= 2. conservative=False changes only the deviation, by the factor 0.81; for an autocorrelation above its expectation the conservative p-value is never smaller.", "quantifier": "all series, all methods, every monotone distribution function", "why_tests_cant": "ranges over all series and all offsets", "anchors": ["seismostats/analysis/b_significant.py:b_significant_1D"]}
{"id": "C198", "title": "numbers that arrive as texts become the nearest double", "statement": "A text in a numeric column (white space, sign, digits, point, exponent) with at most 17 digits, a mantissa up to 2^53 and a decimal exponent between -22 and 22 becomes the double nearest to the number it denotes (ties to even), or, in a column of integers, exactly that integer. So a double written with at most 15 digits comes back unchanged.", "quantifier": "all columns, all numerals in all spellings", "why_tests_cant": "ranges over all texts", "anchors": ["seismostats/catalogs/catalog.py:Catalog.__init__"]}
{"id": "C199", "title": "texts that are no numbers become NaN", "statement": "A text in a numeric column that is neither a numeral nor a spelling of infinity becomes NaN and the column one of floats; no exception is raised, no row is lost; spellings of infinity become +-infinity; a numeral beyond 10^308 becomes NaN as well; floats, integers and gaps in the same column keep their values.", "quantifier": "all columns, all texts", "why_tests_cant": "ranges over all texts, including arbitrary garbage", "anchors": ["seismostats/catalogs/catalog.py:Catalog.__init__"]}
{"id": "C200", "title": "columns of integer texts become exact integers", "statement": "If all entries of a numeric column are texts of integers (up to 200 digits, with leading zeros, signs and white space), the column becomes exactly these integers, also beyond 2^53, if all fit in 64 bits with a sign or all in 64 bits without one; otherwise it becomes one of floats.", "quantifier": "all columns, all integers of 64 bits, all spellings", "why_tests_cant": "ranges over all integers and spellings", "anchors": ["seismostats/catalogs/catalog.py:Catalog.__init__"]}
{"id": "C201", "title": "a number survives being written with str and read again", "statement": "Every numeral with a moderate exponent is read as the nearest double, so that every double written by str comes back; if not, at least with a relative error below 10^-13.", "quantifier": "all numerals", "why_tests_cant": "exceptional digits; found by arithmetic, not by sampling", "anchors": ["seismostats/catalogs/catalog.py:Catalog.__init__"]}
{"id": "C202", "title": "accuracy of numbers that arrive as texts", "statement": "Every numeral whose decimal exponent is moderate (result between about 10^-200 and 10^200) is read with a relative error below 10^-15, plus, if it has more than 17 digits (leading zeros count), an absolute error below one unit of the 17th digit; one below 10^-616 becomes 0.", "quantifier": "all columns, all numerals", "why_tests_cant": "ranges over all texts, accumulated rounding errors", "anchors": ["seismostats/catalogs/catalog.py:Catalog.__init__"]}
{"id": "C203", "title": "weights can be given to the search for the completeness magnitude", "statement": "estimate_mc_ks and estimate_mc_b_stability accept **kwargs for the b-value estimator; with one weight per event they give the completeness magnitude of the weighted catalogue.", "quantifier": "all catalogues, all weights, all estimators, all magnitudes to test", "why_tests_cant": "ranges over all catalogues", "anchors": ["seismostats/analysis/estimate_mc.py:estimate_mc_ks", "seismostats/analysis/estimate_mc.py:estimate_mc_b_stability", "seismostats/analysis/bvalue/base.py:BValueEstimator._sanity_checks"]}
{"id": "C204", "title": "times given to the search for the completeness magnitude stay with their events", "statement": "With a positive method and times among the **kwargs of estimate_mc_ks or estimate_mc_b_stability, the b-value of a tested magnitude is the one of the complete events with their own times.", "quantifier": "all catalogues, all times, all estimators", "why_tests_cant": "ranges over all catalogues and orders", "anchors": ["seismostats/analysis/estimate_mc.py:estimate_mc_ks", "seismostats/analysis/estimate_mc.py:estimate_mc_b_stability", "seismostats/analysis/bvalue/positive.py:BPositiveBValueEstimator._filter_magnitudes"]}
{"id": "C205", "title": "times in increasing order change nothing", "statement": "If the times are strictly increasing (one per event), estimate_mc_ks and estimate_mc_b_stability return the same with and without them, and every tested b-value is the one of the complete events with their own times.", "quantifier": "all catalogues in time order, all estimators and arguments, all sorting algorithms, every arithmetic", "why_tests_cant": "ranges over all catalogues", "anchors": ["seismostats/analysis/estimate_mc.py:estimate_mc_ks", "seismostats/analysis/estimate_mc.py:estimate_mc_b_stability", "seismostats/analysis/bvalue/positive.py:BPositiveBValueEstimator._estimate", "seismostats/analysis/bvalue/more_positive.py:BMorePositiveBValueEstimator._estimate"]}
{"id": "C206", "title": "weights can be given to b_significant_1D", "statement": "b_significant_1D accepts **kwargs for the estimator; with one weight per event it tests the series of weighted b-values.", "quantifier": "all series, all weights, all b-value estimators", "why_tests_cant": "ranges over all series", "anchors": ["seismostats/analysis/b_significant.py:b_significant_1D", "seismostats/analysis/b_significant.py:values_from_partitioning"]}
{"id": "C207", "title": "one row per record, the columns that the records mention", "statement": "Catalog.from_dict makes one row per dictionary, in their order; the columns are the keys of the dictionaries in the order of their first occurrence, except the uncertainties or the ids if these are not wanted; all columns have the same length. An empty list gives an empty catalogue with the default columns. If some record has a magnitude and the times are ISO texts, the call succeeds and returns a catalogue; its class fits its columns.", "quantifier": "all lists of records, all combinations of the options", "why_tests_cant": "ranges over all lists of records", "anchors": ["seismostats/catalogs/catalog.py:Catalog.from_dict", "seismostats/catalogs/catalog.py:Catalog.drop_uncertainties", "seismostats/catalogs/catalog.py:Catalog.drop_ids"]}
{"id": "C208", "title": "the entries of the table are what the records say", "statement": "In the result of Catalog.from_dict, row i holds what record i says: in a numeric column the nearest double (or the exact integer), NaN if the record has no such key, None, or a text that is no number; in time the instant (to the second if some time in the column is outside pandas' range), in magnitude_type and event_type the text, or nothing if it is a spelling of a missing value; in every other column the text itself.", "quantifier": "all lists of records, all columns, all rows, all options", "why_tests_cant": "ranges over all records and texts", "anchors": ["seismostats/catalogs/catalog.py:Catalog.from_dict", "seismostats/catalogs/catalog.py:Catalog.__init__"]}
{"id": "C209", "title": "repeating the conversions changes nothing", "statement": "The conversions of columns in Catalog.__init__ run again whenever pandas makes a new frame. On a catalogue they have no effect: converting a converted table gives the same table, and dropping columns keeps every other entry.", "quantifier": "all tables, all sets of dropped columns", "why_tests_cant": "ranges over all tables and histories of operations", "anchors": ["seismostats/catalogs/catalog.py:Catalog.__init__", "seismostats/catalogs/catalog.py:_catalog_constructor_with_fallback"]}
{"id": "C210", "title": "records without magnitudes can be loaded", "statement": "Catalog.from_dict with include_uncertainties=False and include_ids=False accepts records of events none of which has a magnitude (as FDSNWSEventClient.get_events calls it by default).", "quantifier": "all lists of records without magnitudes", "why_tests_cant": "a class of inputs", "anchors": ["seismostats/catalogs/catalog.py:Catalog.from_dict", "seismostats/catalogs/catalog.py:Catalog.drop_uncertainties", "seismostats/catalogs/client.py:FDSNWSEventClient.get_events"]}
{"id": "C211", "title": "from_quakeml: a path and the text of the file mean the same", "statement": "Catalog.from_quakeml gives the same catalogue for the path of a file with a complete QuakeML document and for the document itself; for a non-empty path that does not exist (without '<') it raises SAXParseException.", "quantifier": "all documents in all layouts, all paths, all options", "why_tests_cant": "ranges over all documents", "anchors": ["seismostats/catalogs/catalog.py:Catalog.from_quakeml", "seismostats/io/parser.py:parse_quakeml", "seismostats/io/parser.py:parse_quakeml_file"]}
{"id": "C212", "title": "from_quakeml reports an empty path", "statement": "Catalog.from_quakeml('') raises an exception, as for every other path of a file that does not exist.", "quantifier": "the empty path, all options", "why_tests_cant": "a boundary case of C211", "anchors": ["seismostats/catalogs/catalog.py:Catalog.from_quakeml", "seismostats/io/parser.py:parse_quakeml"]}
{"id": "C213", "title": "export and import give back the table", "statement": "The text that Catalog.to_quakeml makes of a table (cells without markup characters), read by Catalog.from_quakeml from a file or as a string, gives a catalogue with one row for every exported row, in their order: longitude, latitude, depth and magnitude are the doubles nearest to the exported texts (so identical to the exported doubles if these have up to 15 digits), NaN where they were NaN; the times are the exported instants (to the second if some time is outside pandas' range), magnitude types and event types are the same texts.", "quantifier": "all tables, all rows, all numerals of moderate size, all valid times, all options", "why_tests_cant": "ranges over all tables", "anchors": ["seismostats/catalogs/catalog.py:Catalog.to_quakeml", "seismostats/catalogs/catalog.py:Catalog.from_quakeml", "seismostats/catalogs/catalog.py:Catalog.__init__", "seismostats/catalogs/catalog_templates/quakeml.j2"]}
{"id": "C214", "title": "numbers in a document become numbers in the table", "statement": "All quantities that QuakeML defines as numbers (uncertainties, secondary magnitudes, depth phase counts) are numbers in the catalogue made by from_quakeml or get_events.", "quantifier": "all documents", "why_tests_cant": "ranges over all records", "anchors": ["seismostats/catalogs/catalog.py:Catalog.__init__", "seismostats/catalogs/catalog.py:Catalog.from_dict"]}
{"id": "C215", "title": "a download has one row per event", "statement": "FDSNWSEventClient.get_events returns, with batches of any size or in one request, the same catalogue: the table of the records of all events of the selection, one row per event in their order (with its id if ids are wanted), and start_time and end_time as attributes.", "quantifier": "all services that answer pages of QuakeML texts, all selections, all batch sizes, all options", "why_tests_cant": "ranges over all services and paginations", "anchors": ["seismostats/catalogs/client.py:FDSNWSEventClient.get_events", "seismostats/catalogs/catalog.py:Catalog.from_dict"]}
{"id": "C216", "title": "however a QuakeML document is written, it is read as the same records", "statement": "parse_quakeml_file, parse_quakeml_response and parse_quakeml return exactly the records of the document tree whichever way it is written: with named, decimal or hexadecimal references, CDATA sections, comments, processing instructions, single or double quotes, white space in tags, empty-element tags, a declaration, and comments, instructions and white space before and after the root element. Two spellings of one document give the same records.", "quantifier": "all document trees, all spellings, all ways the reader cuts texts (processing instructions inside texts with inner white space excepted)", "why_tests_cant": "ranges over all documents and spellings", "anchors": ["seismostats/io/parser.py:parse_quakeml", "seismostats/io/parser.py:parse_quakeml_file", "seismostats/io/parser.py:parse_quakeml_response", "seismostats/io/parser.py:QuakeMLHandler"]}
{"id": "C217", "title": "line breaks of other systems change nothing in QuakeML", "statement": "For every text, well-formed or not, parse_quakeml_file and parse_quakeml give the same answer if its line breaks are CR LF or CR instead of LF.", "quantifier": "all texts, all mixtures of line breaks", "why_tests_cant": "ranges over all texts", "anchors": ["seismostats/io/parser.py:parse_quakeml", "seismostats/io/parser.py:parse_quakeml_file"]}
{"id": "C218", "title": "weights in the Kolmogorov-Smirnov test", "statement": "In ks_test_gr, weights act as shares: multiplying all weights by a positive number or leaving out equal weights changes nothing, an event with the whole weight k counts as k events, the distances lie between 0 and 1 for non-negative weights, and weights of another length are an error unless the sample has only one value.", "quantifier": "all samples, weights, bins, parameters and random numbers", "why_tests_cant": "ranges over all samples and weights", "anchors": ["seismostats/analysis/estimate_mc.py:ks_test_gr"]}
{"id": "C219", "title": "only dates are accepted by the fallback date parser", "statement": "Whatever text _robust_parse_datetime accepts is an existing date and time written year-month-dayThour:minute:second, with at most four digits of the year and one or two of the other fields, and whatever follows a point or a Z; the result is the date and time the text says. Conversely every such text is accepted (the day may be a blank and a digit; T may be t if the year has four digits).", "quantifier": "all texts", "why_tests_cant": "ranges over all texts", "anchors": ["seismostats/utils/__init__.py:_robust_parse_datetime", "seismostats/utils/__init__.py:_pad_year"]}
{"id": "C220", "title": "a processing instruction inside a text changes nothing", "statement": "Two spellings of one QuakeML document that differ by a processing instruction inside a text give the same records.", "quantifier": "all documents and spellings", "why_tests_cant": "ranges over all spellings", "anchors": ["seismostats/io/parser.py:QuakeMLHandler"]}
{"id": "C221", "title": "every well-formed document is answered", "statement": "For every well-formed XML document, QuakeML or not, parse_quakeml_file and parse_quakeml return a list of records.", "quantifier": "all well-formed documents", "why_tests_cant": "ranges over all documents", "anchors": ["seismostats/io/parser.py:QuakeMLHandler", "seismostats/io/parser.py:parse_quakeml", "seismostats/io/parser.py:parse_quakeml_file"]}
{"id": "C222", "title": "the classic a-value in double precision is accurate", "statement": "For magnitudes below 8 on a grid of bins (any usual width), at most 2^40 of them complete, computed in IEEE double precision with an accurate logarithm: ClassicAValueEstimator selects exactly the events at or above mc, and its a-value, with reference magnitude, b-value up to 10 and scaling factor between 10^-30 and 10^30, differs by at most 2*10^-12 from exact arithmetic on the decimal magnitudes (without these two arguments only by the error of one logarithm).", "quantifier": "all samples on all grids, all references, b-values and scalings in these ranges, all accurate logarithms", "why_tests_cant": "ranges over all doubles; rounding errors", "anchors": ["seismostats/analysis/avalue/classic.py:ClassicAValueEstimator._estimate", "seismostats/analysis/avalue/base.py:AValueEstimator._reference_scaling", "seismostats/analysis/avalue/base.py:AValueEstimator._filter_magnitudes"]}
{"id": "C223", "title": "the b-value of a catalogue made from a document is the b-value of the events in it", "statement": "A QuakeML document (a file in any spelling, a download in any batches, or a catalogue exported with to_quakeml and read again) whose events state magnitudes on a grid, some without a preferred magnitude: the catalogue made of it by from_quakeml or get_events gives with estimate_b (Classic or Utsu, in IEEE double precision) the estimate of the stated decimal magnitudes at or above mc, up to an explicit rounding error; if mc comes from estimate_mc_maxc, estimate_b uses exactly the events at or above the fullest bin plus the correction, and mc and b-value are stored. Missing magnitudes make no difference.", "quantifier": "all documents, spellings, services, cell contents and grids of magnitudes below 8; all accurate logarithms", "why_tests_cant": "ranges over all documents and doubles; composes parser, table and estimator", "anchors": ["seismostats/catalogs/catalog.py:Catalog.from_quakeml", "seismostats/catalogs/client.py:FDSNWSEventClient.get_events", "seismostats/catalogs/catalog.py:Catalog.__init__", "seismostats/catalogs/catalog.py:Catalog.estimate_b", "seismostats/catalogs/catalog.py:Catalog.estimate_mc_maxc", "seismostats/catalogs/catalog.py:Catalog.to_quakeml"]}
{"id": "C224", "title": "the b-value above a completeness magnitude by maximum curvature is accurate", "statement": "In IEEE double precision, for magnitudes below 8 on a grid of bins (any usual width, some magnitudes missing): the completeness magnitude of estimate_mc_maxc need not be the double of a decimal, but it lies within 10^-14 of the fullest bin plus the correction, and estimate_b (Classic or Utsu) called after it, without arguments mc, stores the estimate of the exact decimal magnitudes at or above that bin with the exact bin as mc, up to an explicit relative error (about 2^-52 times 220 n / delta_m for Classic and n for Utsu); also for the catalogue made from a document. The same holds for any mc within 10^-14 of the grid.", "quantifier": "all catalogues of magnitudes on all grids, all corrections up to 10, all mc within 10^-14 of the grid, all accurate logarithms and orders of summation", "why_tests_cant": "ranges over all doubles; rounding errors; composes maximum curvature and estimator", "anchors": ["seismostats/catalogs/catalog.py:Catalog.estimate_mc_maxc", "seismostats/catalogs/catalog.py:Catalog.estimate_b", "seismostats/analysis/estimate_mc.py:estimate_mc_maxc", "seismostats/analysis/bvalue/classic.py:ClassicBValueEstimator._estimate", "seismostats/analysis/bvalue/utsu.py:UtsuBValueEstimator._estimate", "seismostats/catalogs/catalog.py:Catalog.from_quakeml"]}
{"id": "C225", "title": "the weighted b-value in double precision is accurate", "statement": "For magnitudes below 8 on a grid of bins (any usual width) with weights that are zero or between 10^-6 and 10^6 for the events at or above mc (not negative below it, not all zero), at most 2^40 of them, computed in IEEE double precision: the Classic and Utsu b-values differ from the estimate made of the exactly computed weighted mean of the decimal magnitudes by at most the explicit relative error (2n + 620/delta_m + 20) 2^-52 (Classic: if the weighted mean excess is at least delta_m / 2^40); also through Catalog.estimate_b with a weight column.", "quantifier": "all samples and weights in these ranges, all mc on the grid, all accurate logarithms and orders of summation", "why_tests_cant": "ranges over all doubles; rounding errors", "anchors": ["seismostats/analysis/bvalue/classic.py:ClassicBValueEstimator._estimate", "seismostats/analysis/bvalue/utsu.py:UtsuBValueEstimator._estimate", "seismostats/analysis/bvalue/base.py:BValueEstimator.calculate", "seismostats/catalogs/catalog.py:Catalog.estimate_b"]}
{"id": "C226", "title": "plot_b_significant_1D without n_ms uses at most ten sizes between 15 and a fifteenth of the events", "statement": "If n_ms is not given, plot_b_significant_1D raises ValueError when there are at most 15 min_num complete events, and otherwise gives the picture it gives for some increasing numbers n_ms, at most ten, all between 15 and a fifteenth of the number of complete events (rounded down), both included; this also holds in IEEE double precision. With 225 complete events or more (and more than 15 min_num), min_num at most 15, none of them is below min_num and every point is the result of b_significant_1D.", "quantifier": "all catalogues, estimators and min_num; all numbers of events up to 2^40 in double precision", "why_tests_cant": "ranges over all numbers of events; rounding in np.linspace before the conversion to integers", "anchors": ["seismostats/plots/statistical.py:plot_b_significant_1D"]}
{"id": "C227", "title": "the default n_ms is usable whenever there are enough events", "statement": "Whenever there are more than 15 min_num complete events, plot_b_significant_1D without n_ms draws a result for each size it chooses.", "quantifier": "all catalogues with fewer than 225 complete events; all min_num above 15", "why_tests_cant": "all inputs", "anchors": ["seismostats/plots/statistical.py:plot_b_significant_1D"]}
{"id": "C228", "title": "n_ms may be a list", "statement": "plot_b_significant_1D gives the same picture for a list n_ms as for an array.", "quantifier": "all lists n_ms, catalogues, thresholds", "why_tests_cant": "all inputs", "anchors": ["seismostats/plots/statistical.py:plot_b_significant_1D"]}
{"id": "C229", "title": "red markers and band of the significance plot", "statement": "The points and the middle of the band are the MAC and its expectation given by b_significant_1D; the band is mu +- z s with z the normal quantile of 1 - p_threshold/2; a point is marked red exactly if MAC > mu + z' s with z' the quantile of 1 - p_threshold. Hence a point above the band is red and a point below the band never is (p_threshold at most 1/2).", "quantifier": "all catalogues, sizes, estimators, thresholds in (0, 1); all strictly increasing distribution functions", "why_tests_cant": "continuum", "anchors": ["seismostats/plots/statistical.py:plot_b_significant_1D", "seismostats/analysis/b_significant.py:b_significant_1D"]}
{"id": "C230", "title": "which catalogues are declustered", "statement": "A catalogue in which an event has no magnitude is never declustered: ValueError, whatever the window class, the cutoff, the index and the other events; the same holds for GruenthalWindow and a magnitude below -0.62/17.32. With the default index and an absent or positive cutoff these are the only refusals: otherwise the flags and clusters of Gardner and Knopoff are returned.", "quantifier": "all catalogues with and without missing magnitudes, window classes, cutoffs, fs_time_prop >= 0", "why_tests_cant": "all catalogues; one bad event anywhere", "anchors": ["seismostats/analysis/declustering/dec_gardner_knopoff.py", "seismostats/analysis/declustering/distance_time_windows.py:BaseDistanceTimeWindow.__call__"]}
{"id": "C231", "title": "markup that is no markup is refused", "statement": "If after the opening tags and any complete events a document has a < followed by a character that starts no name and is none of / ! ? (such as a comparison in a comment text), or a <! that opens neither a comment nor a CDATA section (such as a document type declaration inside the document), then parse_quakeml_file and parse_quakeml give SAXParseException (or the exception that an event before it causes), never records, whatever follows.", "quantifier": "all openings, complete events and texts before it, all continuations, all ways the reader cuts texts", "why_tests_cant": "ranges over all documents", "anchors": ["seismostats/io/parser.py:parse_quakeml_file", "seismostats/io/parser.py:parse_quakeml"]}
{"id": "C232", "title": "declustering the mainshocks again changes nothing", "statement": "If the mainshocks that GardnerKnopoffType1 finds are kept, get a new default index and are declustered again with the same windows, cutoff and fs_time_prop, all of them are mainshocks again, and each is a cluster of its own.", "quantifier": "all catalogues (with default index and usable magnitudes), window classes, positive or absent cutoffs, fs_time_prop >= 0", "why_tests_cant": "two-run property over all catalogues", "anchors": ["seismostats/analysis/declustering/dec_gardner_knopoff.py"]}
{"id": "C233", "title": "declustering does not depend on the time origin", "statement": "If every event time of a catalogue is shifted by the same whole number of seconds, GardnerKnopoffType1 returns the same mainshock flags, and puts two events into one cluster after the shift exactly if it did before.", "quantifier": "all catalogues (with default index and usable magnitudes), whole shifts, window classes, positive or absent cutoffs, fs_time_prop >= 0", "why_tests_cant": "two-run property over all catalogues", "anchors": ["seismostats/analysis/declustering/dec_gardner_knopoff.py"]}
{"id": "C234", "title": "declustering depends on the epicentres only through their distances", "statement": "If the epicentres of a catalogue are moved so that the great-circle angle between every two events stays the same (for example, every longitude is turned by the same angle, also across the date line), GardnerKnopoffType1 returns the same mainshock flags and puts the same events together into clusters.", "quantifier": "all catalogues (with default index and usable magnitudes), motions of the sphere, window classes, positive or absent cutoffs, fs_time_prop >= 0", "why_tests_cant": "two-run property over all catalogues", "anchors": ["seismostats/analysis/declustering/dec_gardner_knopoff.py", "seismostats/analysis/declustering/utils.py"]}
