#!/usr/bin/env python3
"""Source of /verif/properties.jsonl (run it to regenerate the file)."""
import json, os
P = []
def p(id, title, statement, quantifier, why, anchors):
    P.append(dict(id=id, title=title, statement=statement, quantifier=quantifier,
                  why_tests_cant=why, anchors=anchors))
B = "seismostats/utils/binning.py"
p("C01", "bin_to_precision returns the nearest grid value",
  "For every finite magnitude x and every bin width delta >= 1e-12, bin_to_precision(x, delta) is an integer multiple of delta, differs from x by at most half a bin (plus the 1e-12-bin epsilon on the upper side), rounds exact half-bin ties up, and returns the very multiple x when x already lies on the grid.",
  "all finite numbers x (scalars and every entry of arrays of any length), all bin widths delta >= 1e-12",
  "the claim ranges over a continuum of magnitudes and bin widths; the tests tabulate a few dozen values",
  [B+":bin_to_precision", B+":normal_round", B+":_normal_round_to_int"])
p("C02", "binning is idempotent, monotone and commutes with grid shifts",
  "Binning an already binned array changes nothing; x <= y implies bin(x) <= bin(y); shifting the input by any integer number of bins shifts the output by the same number of bins.",
  "all finite x, y, all integers k, all delta >= 1e-12",
  "relational statements over pairs of real inputs and all grid shifts",
  [B+":bin_to_precision", B+":normal_round"])
p("C03", "bin_to_precision rejects exactly missing input and too small delta; it works element by element",
  "bin_to_precision raises ValueError exactly when x is None or delta < 1e-12, and otherwise returns an array of the same length whose i-th entry depends on the i-th input only (so order, NaN positions and duplicates are preserved).",
  "all inputs, all array lengths",
  "exactness of the error condition and per-element independence concern every array of every length",
  [B+":bin_to_precision"])
p("C04", "binning_test characterises binned samples",
  "With check_larger_binning=False, binning_test(x, delta, tol) is True exactly when every non-NaN element of x differs from the minimum by a multiple of delta up to the tolerance (or delta < tol); with check_larger_binning=True and the first test passed it is False exactly when all elements are also multiples of the next power of ten above delta. It raises ValueError on an empty array or one with only NaN.",
  "all arrays of finite/NaN numbers, all delta >= 0 (decimal literals), all tolerances",
  "characterisation by an iff over all samples",
  [B+":binning_test"])
p("C05", "binning_test is independent of order, duplicates, NaN and common shift",
  "binning_test gives the same answer for any reordering of the sample, after adding or removing NaN entries, after duplicating entries, and after adding a constant to all magnitudes.",
  "all samples, all permutations, all constants",
  "invariance under an infinite group of transformations",
  [B+":binning_test"])
p("C06", "get_fmd is a lossless histogram",
  "For non-empty finite magnitudes and fmd_bin >= 1e-12, get_fmd returns bins that are the consecutive multiples of fmd_bin from the smallest to the largest binned magnitude (shifted down by half a bin for bin_position='left'); the i-th count is the number (or the sum of the weights) of the magnitudes whose binned value is the i-th bin; the counts add up to the number of magnitudes (sum of the weights).",
  "all non-empty lists of finite magnitudes, all weights, all bin widths, both bin positions",
  "conservation over all sample sizes, ranges and bin widths",
  [B+":get_fmd"])
p("C07", "get_fmd / get_cum_fmd input validation",
  "get_fmd raises ValueError for an empty sample, AssertionError for an unknown bin_position and ValueError for fmd_bin <= 0; it never returns a histogram in these cases. get_cum_fmd likewise, with fmd_bin = 0 selecting the unbinned mode.",
  "all inputs", "exactness of error conditions over all inputs", [B+":get_fmd", B+":get_cum_fmd"])
p("C08", "get_cum_fmd counts the events at or above each bin",
  "The cumulative count at bin i is the number (weight) of magnitudes whose binned value is at or above bin i; the first count is the total, the sequence is non-increasing (for non-negative weights) and the last count equals the last bin's own count. With fmd_bin=0 the bins are the distinct magnitudes in increasing order and the same characterisation holds.",
  "all non-empty finite samples, all non-negative weights, all bin widths including 0",
  "statement about every position of every histogram", [B+":get_cum_fmd"])
BV = "seismostats/analysis/bvalue/"
p("C09", "b-value estimators use exactly the events at or above the completeness magnitude",
  "After calculate(m, mc, delta_m), ClassicBValueEstimator / UtsuBValueEstimator hold exactly the magnitudes with m >= mc - delta_m/2 in the original order (NaN never counts), est.idx are the increasing positions of those magnitudes in the input, est.magnitudes[k] == m[est.idx[k]] and weights are carried along with their own magnitude.",
  "all magnitude arrays (any length, with NaN/inf), all mc, delta_m, all weights; holds for any number arithmetic, in particular IEEE doubles",
  "must hold for every array and every position",
  [BV+"base.py:BValueEstimator.calculate", BV+"base.py:BValueEstimator._filter_magnitudes"])
p("C10", "the classic estimator is the maximum likelihood estimator",
  "For a non-empty filtered sample with mean above mc, beta returned by ClassicBValueEstimator maximises the Gutenberg-Richter likelihood of the sample: the exponential likelihood for delta_m = 0 and the discretised (geometric) likelihood on the grid mc + k*delta_m for delta_m > 0, and it is the unique maximiser.",
  "all samples of all sizes, all positive weights, all competing beta > 0",
  "optimality against a continuum of competitors for all samples",
  [BV+"classic.py:ClassicBValueEstimator._estimate"])
p("C11", "classic and Utsu estimates are ordered and agree in the limit",
  "For the same input with delta_m > 0 the classic b-value is strictly larger than the Utsu b-value, their reciprocals in beta differ by at most delta_m^2 / (12*(mean-mc)), and both coincide for delta_m = 0.",
  "all samples, all delta_m >= 0", "an inequality over all samples", [BV+"classic.py:ClassicBValueEstimator._estimate", BV+"utsu.py:UtsuBValueEstimator._estimate"])
p("C12", "weights act as multiplicities",
  "For classic and Utsu: weights all equal to one constant c > 0 give the unweighted estimate; multiplying all weights by a positive constant changes nothing; an event of weight zero can be dropped; integer weights are equivalent to repeating each event that many times.",
  "all samples, all weight vectors", "relational properties over pairs of arbitrary inputs", [BV+"base.py:BValueEstimator", BV+"classic.py", BV+"utsu.py"])
p("C13", "b-value does not depend on the order of the events",
  "Reordering magnitudes (with their weights) leaves the b-value, the standard deviation and n of the classic and Utsu estimators unchanged.",
  "all samples and all permutations", "n! permutations for every n", [BV+"classic.py", BV+"utsu.py", BV+"base.py:BValueEstimator.std"])
p("C14", "unit and origin of the magnitude scale",
  "Adding a constant to all magnitudes and to mc leaves the b-value unchanged; multiplying magnitudes, mc and delta_m by s > 0 divides the b-value (and its uncertainty) by s. Appending events below mc - delta_m/2 or NaN events changes nothing.",
  "all samples, all shifts, all scales, all insertions of events below completeness", "equivariance over continuous groups", [BV+"classic.py", BV+"utsu.py", BV+"base.py"])
p("C15", "an unusable sample gives NaN, never an exception or a stale number",
  "If the arguments are valid and no magnitude is at or above mc - delta_m/2, calculate returns NaN (with or without weights), n is 0 and b_value is NaN, without weights std is NaN too; no exception is raised and nothing is left over from an earlier call.",
  "all samples with no complete event, all estimator histories", "must hold for every previous state of the estimator", [BV+"base.py:BValueEstimator.calculate", BV+"base.py:BValueEstimator.std"])
p("C16", "a reused estimator is history independent",
  "Whatever sequence of calculate calls was made on a b-value estimator before, a successful calculate gives exactly the result (b_value, std, n, idx, magnitudes, weights) that a fresh estimator gives on the same arguments.",
  "all finite histories of calls, all inputs, any arithmetic", "quantifies over all call histories", [BV+"base.py:BValueEstimator.calculate", BV+"positive.py", BV+"more_positive.py"])
p("C17", "a failed calculate does not change the shown result",
  "If calculate raises, reading b_value afterwards gives what it gave before the call (the value of the last successful call); an estimator none of whose calls succeeded raises AttributeError for b_value, beta, n, std and std_beta.",
  "all histories containing an exception (crash points)", "crash points in arbitrary histories", [BV+"base.py:BValueEstimator.calculate", BV+"base.py:BValueEstimator.b_value"])
p("C18", "b-positive uses exactly the sufficiently positive consecutive differences",
  "BPositiveBValueEstimator sorts the complete events by time and uses exactly those differences of time-consecutive complete events that are >= dmc - delta_m/2 (dmc defaulting to delta_m); magnitudes holds these differences, idx the input position of the later event of each pair and weights the weight of that later event.",
  "all catalogues, all dmc >= 0, all weights", "characterisation of every kept/dropped pair", [BV+"positive.py:BPositiveBValueEstimator._filter_magnitudes"])
p("C19", "b-more-positive pairs each event with the next larger one",
  "For every event (in time order) find_next_larger / BMorePositiveBValueEstimator uses the first later event that is larger by at least dmc - delta_m/2, events with no such partner are not used, and idx points to the larger event in the input.",
  "all catalogues, all dmc >= 0", "'first later' over all lists", [BV+"utils.py:find_next_larger", BV+"more_positive.py:BMorePositiveBValueEstimator._filter_magnitudes"])
p("C20", "positive estimators depend on the order in time only",
  "For distinct event times, giving the events of a catalogue in another order (magnitudes, times, weights permuted together) gives the same b-value for BPositive and BMorePositive; replacing times by any strictly increasing function of them gives the same result.",
  "all catalogues, all permutations, all strictly increasing re-timings", "n! permutations, all monotone maps", [BV+"positive.py", BV+"more_positive.py"])
p("C21", "BPositive on catalogues without positive differences",
  "If no difference qualifies, BPositive without weights returns NaN without raising, with n = 0.",
  "all catalogues in which no consecutive difference qualifies", "all such catalogues", [BV+"positive.py", BV+"base.py:BValueEstimator.calculate", BV+"classic.py"])
p("C22", "BMorePositive accepts continuous magnitudes",
  "BMorePositiveBValueEstimator.calculate with delta_m = 0 and a valid dmc > 0 returns an estimate just as BPositive does.",
  "all catalogues with delta_m = 0", "the branch is not exercised by the tests", [BV+"more_positive.py", BV+"positive.py"])
p("C23", "input validation of the b-value estimators",
  "Weights of the wrong length make calculate raise IndexError, a negative weight ValueError, a negative dmc ValueError; and reading b_value, beta, n or std before the first calculate raises AttributeError.",
  "all inputs violating the precondition", "exactness of the error condition", [BV+"base.py:BValueEstimator._sanity_checks", BV+"positive.py", BV+"more_positive.py"])
p("C24", "Shi-Bolt uncertainty",
  "std is non-negative, invariant under reordering and common shift of the magnitudes, and equals ln(10)*b^2*sqrt(sum (m-mean)^2/(n(n-1))), weighted accordingly; std_beta = ln(10)*std_b; it is zero exactly when all magnitudes agree (n >= 2, b != 0); unit weights change nothing and integer weights act like repeating the magnitudes.",
  "all samples with n >= 2, all b", "universal statements over samples", [BV+"utils.py:shi_bolt_confidence", BV+"base.py:BValueEstimator.std"])
p("C25", "b and beta conversions are inverse of each other",
  "b_value_to_beta and beta_to_b_value are mutually inverse, and est.beta = ln(10) * est.b_value after every calculate.",
  "all b-values", "all numbers", [BV+"utils.py:b_value_to_beta", BV+"utils.py:beta_to_b_value", BV+"base.py:BValueEstimator.beta"])
p("C26", "make_more_incomplete removes exactly the events hidden by a larger predecessor",
  "An event is kept exactly when no earlier event within less than delta_t is strictly larger; the result is a subsequence in time order with magnitudes and times still paired, the first event is always kept, and applying it again changes nothing.",
  "all catalogues, all delta_t", "idempotence and exactness for all catalogues", [BV+"utils.py:make_more_incomplete"])
p("C27", "bootstrap_std ignores unusable replicates",
  "bootstrap_std is the standard deviation of exactly the finite values among the estimates on the n resamples; it raises ValueError exactly when every estimate is NaN or infinite.",
  "all samples, all estimators (as functions), all random index draws", "all random draws", [BV+"utils.py:bootstrap_std"])
p("C28", "p_lilliefors is defined for samples on a grid at or above mc",
  "After a successful estimate with a positive b-value, the Lilliefors p-value is computed without exception for every sample on a grid of step delta_m that is not binned to the next power of ten and has no magnitude below mc.",
  "all such samples, all random numbers", "universal robustness claim", [BV+"base.py:BValueEstimator.p_lilliefors", "seismostats/utils/simulate_distributions.py:dither_magnitudes"])
p("C29", "estimate_b returns the requested outputs",
  "estimate_b returns b (or beta); with return_std also std (or std_beta), with return_std and return_n also n, as the estimator itself reports them; an unknown b_parameter raises ValueError, and an exception of calculate is passed on.",
  "all inputs, the flag combinations other than return_n alone (see C79)", "all combinations with all inputs", [BV+"__init__.py:estimate_b"])
AV = "seismostats/analysis/avalue/"
p("C30", "classic a-value counts the complete events",
  "ClassicAValueEstimator.calculate gives a = log10(N) with N the number of magnitudes >= mc - delta_m/2, minus log10(scaling_factor) if one is given, minus b*(m_ref - mc) if a reference magnitude is given; a reference magnitude without b-value raises ValueError; N=0 gives NaN. Hence 10^(a - b*(m-mc)) is the Gutenberg-Richter count at m.",
  "all samples, all parameters", "universal formula", [AV+"base.py:AValueEstimator", AV+"classic.py:ClassicAValueEstimator"])
p("C31", "a-value estimators: kept events, idx and n stay consistent",
  "After calculate, est.idx are positions in the input, est.magnitudes are the input magnitudes at these positions, and n equals their number, for classic, positive and more-positive estimators: exactly the complete events, resp. the second event of each qualifying difference in time order (the case without any qualifying difference is C34).",
  "all catalogues", "every array, every position", [AV+"base.py", AV+"positive.py", AV+"more_positive.py"])
p("C32", "positive a-values are invariant under shift and rescaling of time",
  "APositive and AMorePositive depend on times only through ratios of time differences: t -> c*t + d with c > 0 leaves the a-value unchanged.",
  "all catalogues, all c > 0, all d", "invariance over continuous group", [AV+"positive.py", AV+"more_positive.py"])
p("C33", "a-positive never underestimates the number of used differences",
  "For strictly increasing event times, 10^a (before scaling to a reference) from APositive is at least the number of qualifying differences, because the accumulated time of these differences is at most the total time.",
  "all catalogues", "inequality over all catalogues", [AV+"positive.py:APositiveAValueEstimator"])
p("C34", "APositive on a catalogue with no qualifying difference",
  "If no difference qualifies, APositive returns NaN and the stored magnitudes and idx are empty, n = 0.",
  "all catalogues without positive differences", "all such catalogues", [AV+"positive.py:APositiveAValueEstimator._filter_magnitudes"])
BS = "seismostats/analysis/b_significant.py"
p("C35", "cut_constant_idx cuts into consecutive pieces of constant length",
  "The returned pieces concatenate to the input, every piece but the first (length offset, absent for offset 0) and last has exactly n elements, the last is shorter or equal, and the boundary indices are the cumulative lengths; offset >= n raises ValueError.",
  "all lists, all n >= 1, all offsets", "all lengths and offsets", [BS+":cut_constant_idx"])
p("C36", "b_significant_1D visits every window of n_m consecutive events exactly once",
  "Over all offsets, the sub-samples used by b_significant_1D all have exactly n_m events and each window of n_m consecutive (in x_variable) events occurs exactly once.",
  "all catalogue lengths and n_m", "counting statement for all sizes", [BS+":b_significant_1D", BS+":cut_constant_idx"])
p("C37", "b_significant_1D pairs every event with its own completeness magnitude",
  "When mc is given per event, every sub-sample uses for its events the completeness magnitudes of these events, whatever the order of the input.",
  "all catalogues, all orders, all per-event mc", "all permutations", [BS+":b_significant_1D"])
p("C38", "transform_n maps estimates between sample sizes consistently",
  "transform_n(b, b_true, n1, n2) is the identity for n1 = n2, fixes b_true, composes (n1->n2->n3 equals n1->n3), is strictly increasing in b, shrinks the deviation of 1/b by sqrt(n1/n2) and raises ValueError for n1 > n2.",
  "all b, b_true > 0, all n1 <= n2 <= n3", "laws over all reals/sizes", [BS+":transform_n"])
p("C39", "est_morans_i is an affine invariant of the values, ignoring NaN",
  "For every series and every neighbour relation, given as upper triangular, lower triangular or symmetric 0/1 matrix (the result is the same), Moran's I is (n-1)/n_pairs * sum of products of neighbouring deviations / sum of squared deviations over the values that are not NaN; it is unchanged by x -> c*x + d (c != 0); a NaN value has the same effect as deleting that element with its row and column; fewer than two values, matrices that are not square, not triangular or symmetric or not 0/1 off the diagonal raise ValueError, matrices of another size raise.",
  "all value vectors, all weight matrices", "invariance for all sizes", [BS+":est_morans_i"])
p("C40", "values_from_partitioning evaluates each part on its own events",
  "The result has one value, std and n per part, each equal to the result of a call with that part alone (so it depends on nothing else, although one estimator object is reused); an empty part gives (NaN, NaN, 0); a part gives what the estimator gives for its magnitudes sorted by time; a scalar mc means the same mc for every part; lists of different lengths raise IndexError.",
  "all partitions, all estimators", "all partitions and all histories of the shared estimator object", [BS+":values_from_partitioning"])
MC = "seismostats/analysis/estimate_mc.py"
p("C41", "maximum curvature picks the first fullest bin",
  "estimate_mc_maxc returns correction_factor plus the smallest bin centre whose count is maximal among all bins; NaN magnitudes do not matter; reordering does not matter.",
  "all samples", "optimality over all bins of all samples", [MC+":estimate_mc_maxc"])
p("C42", "estimate_mc_ks returns the smallest tested magnitude that passes",
  "best_mc is the first tested mc whose p-value is at least p_value_pass and None exactly when none passes, best_b is the b-value at that mc; with stop_when_passed the test stops there and reports only the tested prefix; the selection does not depend on stop_when_passed.",
  "all samples, all p-value oracles", "all sequences of test outcomes", [MC+":estimate_mc_ks"])
p("C43", "results do not depend on the warnings option",
  "Switching the global 'warnings' option never changes the p-value, distance, mc, b-value or exception of ks_test_gr for samples that do not consist of exactly one distinct value, of estimate_mc_ks when no tested sample does and some magnitude is tested, nor of estimate_mc_b_stability when the magnitudes to test are given or the stability range is not a single bin.",
  "all inputs, both option values", "two-run (non-interference) property", [MC+":ks_test_gr", MC+":estimate_mc_ks", MC+":estimate_mc_b_stability", "seismostats/utils/_config.py"])
p("C44", "the KS p-value is a p-value",
  "ks_test_gr returns a p-value in [0,1] for every sample for which it returns, it is a multiple of 1/n_samples, and is non-increasing in the observed KS distance for the same simulated distances.",
  "all samples, all random draws", "all random draws", [MC+":ks_test_gr"])
p("C45", "estimate_mc_b_stability returns a stable mc",
  "estimate_mc_b_stability tests the magnitudes in order (the given ones, or by default the grid from the smallest event) as far as their stability range does not exceed the largest event. With stop_when_passed it returns the first tested mc at which the b-value differs from the mean of the b-values over the stability range by no more than its uncertainty, with the b-value there, and without it the one with the smallest such difference; None exactly if no tested mc satisfies this (provided the first difference is defined and the best mc is not 0).",
  "all samples, all parameters", "all samples", [MC+":estimate_mc_b_stability"])
p("C46", "cdf_discrete_exp is the distribution function of binned exponential magnitudes",
  "For sorted distinct magnitudes >= mc on the grid, beta > 0 and delta_m > 0, cdf_discrete_exp is increasing, in (0,1), tends to 1, and its step at a grid point equals the probability that an exponential magnitude starting at mc - delta_m/2 falls into that bin.",
  "all magnitudes, all beta, delta_m", "continuum", [MC+":cdf_discrete_exp"])
DC = "seismostats/analysis/declustering/"
p("C47", "Gardner-Knopoff: mainshocks and clusters",
  "For a catalogue with the default index: processing events by decreasing magnitude (ties by time, then row), an event is flagged mainshock exactly when no mainshock processed earlier has it in its space-time window; every event gets exactly one cluster, each cluster contains exactly one mainshock, which comes first in the processing order, and all members lie in its window; the largest event is always a mainshock.",
  "all catalogues, all window functions, all fs_time_prop", "greedy algorithm correctness for all catalogues", [DC+"dec_gardner_knopoff.py:GardnerKnopoffType1._decluster"])
p("C48", "declustering does not depend on the DataFrame index",
  "The result belongs to the rows: a catalogue with another (unique) index gives the same flags row by row.",
  "all catalogues, all index label assignments", "all labelings", [DC+"dec_gardner_knopoff.py"])
p("C49", "space-time windows grow with magnitude",
  "For each of the window classes the distance windows are positive and strictly increasing in the magnitude; so are the time windows of Gruenthal and Uhrhammer, and those of Gardner and Knopoff below and above magnitude 6.5 (Gruenthal for non-negative magnitudes). A positive time cutoff replaces the time window by the smaller of the two.",
  "all magnitudes and cutoffs", "monotonicity over the reals", [DC+"distance_time_windows.py"])
p("C50", "haversine distance is a bounded symmetric distance",
  "haversine is defined for all coordinates and is the great-circle distance: earth radius times the angle between the two points on the sphere. It is symmetric, zero exactly for coordinates of the same point, at most half the earth's circumference, and satisfies the triangle inequality.",
  "all coordinates", "continuum", [DC+"utils.py:haversine"])
CL = "seismostats/catalogs/client.py"
p("C51", "batched download returns the same catalogue as a single request",
  "For a server that honours limit/offset on a fixed ordered list of N events, FDSNWSEventClient.get_events with batch_size returns the same events in the same order as without batching, each exactly once.",
  "all N, all batch sizes >= 1", "all sizes of result set", [CL+":FDSNWSEventClient.get_events", CL+":FDSNWSEventClient._get_batch_params"])
p("C52", "batch count search terminates with the exact number of batches",
  "The exponential + binary search for the number of batches terminates for every batch_size >= 1 with max(1, ceil(N / batch_size)), using O(log) requests.",
  "all N, all batch sizes", "termination for all inputs", [CL+":FDSNWSEventClient"])
PA = "seismostats/io/parser.py"
p("C53", "QuakeML parsing does not depend on how the XML reader chunks text",
  "If no text of an event has white space between visible characters, the parsed records do not depend on how the XML reader splits character data into characters() callbacks: they are the same as when every text is delivered in one piece.",
  "all documents, all chunkings", "the chunking is chosen by the parser buffer", [PA+":QuakeMLHandler"])
p("C54", "QuakeML handler flattens every event independently",
  "For a stream of events the handler yields exactly one dictionary per event, in document order, and nothing from one event leaks into another, whatever elements occur.",
  "all documents (sequences of well nested elements)", "state-machine property over all documents", [PA+":QuakeMLHandler"])
p("C55", "magnitude selection prefers the preferred magnitude, then the newest",
  "The parsed event takes 'magnitude' from the preferred magnitude; with include_all_magnitudes one value (with its uncertainties and the id of the magnitude) per type is reported, the preferred one for its own type and otherwise the one with the largest (version, creation time), first on ties; the set of reported types is exactly the set of types in the event.",
  "all events with at most one value of the type per magnitude, type names without underscore other than 'type', 'uncertainty', ...; all iteration orders of sets", "all lists", [PA+":_select_magnitude_by_id", PA+":_select_secondary_magnitudes", PA+":_extract_secondary_magnitudes"])
p("C56", "magnitudes without optional fields do not break parsing",
  "A QuakeML event whose magnitude lacks the optional type element is parsed without exception.",
  "all events", "all events", [PA])
CA = "seismostats/catalogs/catalog.py"
p("C57", "Catalog operations return the type fitting the columns",
  "A pandas operation on a Catalog or ForecastCatalog returns a ForecastCatalog if its result has the columns magnitude and catalog_id, a Catalog if it has magnitude only, and a plain DataFrame otherwise; along any sequence of operations the object is a catalogue as long as no result lacked magnitude and plain from then on; changes in place keep the class.",
  "all column sets, all sequences of operations, merges, concatenations and in-place changes", "all sequences", [CA+":_catalog_constructor_with_fallback", CA+":Catalog"])
p("C58", "bin_magnitudes changes magnitudes only, and the original only in place",
  "bin_magnitudes(delta_m) returns a copy with binned magnitudes and delta_m set, leaving the catalogue untouched; inplace=True changes the catalogue itself and returns None; all other columns stay; magnitudes equal bin_to_precision of the old ones.",
  "all catalogues", "all catalogues and histories", [CA+":Catalog.bin_magnitudes"])
p("C59", "explicit arguments take precedence over catalogue attributes",
  "Catalog.estimate_b uses the explicit mc and delta_m if given (also 0), else the attributes, else raises ValueError: with explicit values the result does not depend on the attributes, and omitting a value is the same as passing the attribute. Success changes the attribute b_value to the estimate and nothing else, failure changes nothing.",
  "all catalogues, arguments, estimators, and outcomes", "all values and histories", [CA+":Catalog.estimate_b"])
p("C60", "secondary magnitudes survive the QuakeML export",
  "Every magnitude_<type> column with a non-null value appears in the exported event for every preferred magnitude type.",
  "all sets of magnitude types", "all type names", [CA+":Catalog.to_quakeml", CA+":_create_ev_dict"])
RG = "seismostats/catalogs/rategrid.py"
p("C61", "rate grid cell ids identify cells",
  "Two rows get the same cell_id exactly when all cell bounds agree.",
  "all rate grids", "all grids", [RG+":ForecastGRRateGrid"])
CF = "seismostats/utils/_config.py"
p("C62", "options behave like a map with a fixed key set",
  "get_option returns the value of the last set_option on this key (or the default), other keys are unaffected, unknown keys raise KeyError and change nothing.",
  "all sequences of calls", "all histories", [CF])
CO = "seismostats/utils/coordinates.py"
p("C63", "local coordinate transformation is invertible",
  "from_local_coords(to_local_coords(p)) = p for every point, given mutually inverse projections, and polygons are transformed vertex by vertex exactly like points.",
  "all points, all reference points", "continuum", [CO+":CoordinateTransformer"])
p("C64", "bounding boxes are the smallest rectangles",
  "polygon_to_bounding_box returns (minx, miny, maxx, maxy) of the smallest rectangle containing the polygon; for the polygon made by bounding_box_to_polygon from limits these are the limits.",
  "all polygons", "all polygons", [CO+":polygon_to_bounding_box", CO+":bounding_box_to_polygon"])
SI = "seismostats/utils/simulate_distributions.py"
p("C65", "simulated magnitudes follow the inverse distribution function",
  "For each uniform draw u in [0,1) the simulated magnitude is >= mc and (with mag_max) <= mag_max, increasing in u and the truncated exponential distribution function at the simulated magnitude equals u; without mag_max the exponential distribution function at the simulated magnitude equals that of the standard exponential draw.",
  "all draws u, all beta > 0, mc < mag_max, mag_max != 0 (see C81)", "continuum", [SI+":simulate_magnitudes"])
p("C66", "dithering and binned simulation respect the bins",
  "dither_magnitudes keeps the number of magnitudes and moves each within its own bin (in some order of the sample); simulate_magnitudes_binned returns multiples of delta_m at or above mc.",
  "all samples without a bin edge at 0 (see C82), all draws", "all draws", [SI+":dither_magnitudes", SI+":simulate_magnitudes_binned"])
p("C67", "apply_edwards converts ML to Mw monotonically and once",
  "apply_edwards maps local-magnitude types through the Edwards quadratic, leaves moment magnitudes unchanged, is idempotent on its own output type and increasing for magnitudes above -4.",
  "all magnitudes, all type strings", "all strings/reals", ["seismostats/analysis/magnitudes.py:apply_edwards"])
p("C68", "Kijko-Smit estimate pools the sub-catalogues",
  "b_value_kijko_smit assigns every event to at most one completeness period and its beta is n divided by the sum of excess magnitudes over all used events.",
  "all catalogues and completeness tables", "all tables", [BV+"kijko_smit.py"])
p("C69", "b_parameter='beta' works",
  "b_value_weichert / b_value_kijko_smit return beta when b_parameter='beta'.",
  "all inputs", "branch untested", [BV+"kijko_smit.py", BV+"weichert.py"])
p("C70", "dot sizes lie in the requested range",
  "dot_size maps magnitudes into [smallest, largest], increasing, smallest and largest magnitude map to the ends, and reverse_dot_size inverts it.",
  "all samples", "continuum", ["seismostats/plots/basics.py:dot_size", "seismostats/plots/basics.py:reverse_dot_size"])
p("C71", "filter_polygon keeps exactly the inside rows",
  "cat_intersect_polygon of a non-empty catalogue returns exactly the rows whose point (latitude, longitude) intersects the polygon, in the original order, with all columns and labels; missing coordinates columns give KeyError.",
  "all catalogues and polygons", "all catalogues", ["seismostats/utils/filtering.py:cat_intersect_polygon"])
p("C72", "datetime strings are parsed robustly",
  "The fallback date parser reads every existing date and time written year-month-dayThour:minute:second, with years of one to four digits and other fields of one or two, whatever follows a decimal point or a Z, as that date and time in whole seconds.",
  "all dates, all suffixes", "all strings", ["seismostats/utils/__init__.py:_robust_parse_datetime", "seismostats/utils/__init__.py:_pad_year"])
exec(open(os.path.join(os.path.dirname(__file__), "more_properties.py")).read()) if os.path.exists(os.path.join(os.path.dirname(__file__), "more_properties.py")) else None
with open(os.path.join(os.path.dirname(__file__), "..", "properties.jsonl"), "w") as f:
    for x in P: f.write(json.dumps(x) + "\n")
print(len(P))
