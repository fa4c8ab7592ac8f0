{
 "C04": {
  "note": "The iff is stated for tolerances below half a bin (tol_small); soundness (True implies binned) holds without this."
 },
 "C22": {
  "note": "False of the code: BMorePositive with delta_m=0 raises ValueError for every catalogue with at least one complete event (unweighted); refutation proved for all inputs."
 },
 "C76": {
  "note": "False of the code: refutation with a two-call history; the true part is C17."
 },
 "C77": {
  "note": "False of the code: raises ZeroDivisionError for all such catalogues; the true part is C21."
 },
 "C78": {
  "note": "False of the code: weights (2,2) on magnitudes (1,2) give a smaller std. Unit and integer weights: C24."
 },
 "C79": {
  "note": "False of the code: TypeError for every input (proved)."
 },
 "C80": {
  "note": "False of the code: times keep all complete events (proved for all such catalogues)."
 },
 "C81": {
  "note": "False of the code (proved): mag_max=0 is falsy and is ignored."
 },
 "C82": {
  "note": "False of the code (proved): consequence of C81 in dithering."
 },
 "C83": {
  "note": "False of the code (proved): m_ref without b_value raises after _estimate has overwritten the a-value; the true part is C75."
 },
 "C37": {
  "note": "False of the code: mc is not reordered with the events when x_variable is given. Theorems: for every input, the i-th event along x gets the completeness magnitude of the i-th event of the input; a witness where the result changes; events given in the order of x_variable are paired rightly. Without x_variable the pairing is right: C36_subsamples."
 },
 "C86": {
  "note": "False of the code: for every one-valued sample, with warnings on (0, 1, []) is returned without a test, with warnings off the test is done; a witness where mc changes."
 },
 "C87": {
  "note": "False of the code: ValueError with warnings on, (None, ...) with warnings off, for every sample (proved)."
 },
 "C88": {
  "note": "False of the code: mcs_test[:-steps+1] is empty for one step: nothing is tested, ValueError with warnings on, None with warnings off (proved for all grid samples). True part: C43, C45."
 },
 "C89": {
  "note": "False of the code: `if best_mc` treats 0.0 as None (proved in general and on a catalogue)."
 },
 "C90": {
  "note": "False of the code, for all samples and in every arithmetic: min(diff_bs) stays NaN if the first difference is NaN, and nothing is returned. True part: C45."
 },
 "C91": {
  "note": "False of the code: np.arange(0.6, 1.1, 0.1) has 6 elements, the sum of 6 b-values is divided by 5 (witness in the model's doubles). True part in exact arithmetic: C45_value."
 },
 "C45": {
  "note": "In exact arithmetic; the rounding of np.arange (C91), mc = 0 (C89), a NaN first difference (C90) and a one-bin range (C88) are separate, refuted properties."
 },
 "C48": {
  "note": "False of the code: numpy arrays are indexed with index labels. Proved: IndexError for every non-empty catalogue whose labels are all >= its length; with swapped labels the flags of two co-located events are swapped. True part (labels = positions): C47."
 },
 "C92": {
  "note": "False of the code (and of the published formula): the time window drops at magnitude 6.5. True part: C49."
 },
 "C93": {
  "note": "False of the code: `if self.time_cutoff` treats 0 as no cutoff (proved for all magnitudes). True part: C49_cutoff."
 },
 "C94": {
  "note": "False of the code: the time window is NaN for every magnitude below -0.62/17.32 (about -0.036), the distance window below -0.037/1.02. True part (same theorem): positive windows for all larger magnitudes."
 },
 "C47": {
  "note": "For every window function with non-negative windows (C47_gardner_knopoff) and for the package's windows and distance (C47_package_windows), over exact real numbers; the rounding of time windows to nanoseconds is not modelled."
 },
 "C50": {
  "note": "Over exact real numbers, default earth radius, one pair of points at a time."
 },
 "C51": {
  "note": "For servers that honour limit/offset on a fixed list; kwargs must not contain limit or offset. Splitting of years etc. is not part of the code."
 },
 "C52": {
  "note": "Number of batches and termination for every batch size >= 1."
 },
 "C53": {
  "note": "Texts without inner white space; with it the claim is false, see C99."
 },
 "C55": {
  "note": "float() and strptime are parameters; any set iteration order; type names that clash with other columns (underscore) are excluded."
 },
 "C56": {
  "note": "False of the code: KeyError ('magnitudetype') for every event with such a magnitude."
 },
 "C96": {
  "note": "False of the code: with a server that has an event every number of steps is exceeded (proved)."
 },
 "C97": {
  "note": "False of the code: the limit parameter is overwritten by the batch size."
 },
 "C99": {
  "note": "False of the code: each piece is stripped before it is joined. Theorem for every pair of words (the blank between them is lost if the reader cuts there), and a witness."
 },
 "C69": {
  "note": "False of the code (proved for every instance of the arithmetic): whenever 'b_value' gives a result, 'beta' raises UnboundLocalError, in both functions."
 },
 "C101": {
  "note": "The minimiser is a parameter, assumed to find a global minimum when there is one (Nelder-Mead itself is not modelled; see C102). Labels of the bins (rounding inside pd.cut) are an arbitrary function. The non-vacuity example of the minimiser uses constructive_indefinite_description."
 },
 "C105": {
  "note": "False of the code: only occupied bins enter; any larger mag_max gives the same result (all inputs), and a catalogue with an empty bin whose estimate is not the maximiser over all bins."
 },
 "C106": {
  "note": "False of the code: AttributeError for every catalogue with a complete event in the last bin; for bins wider than 0.02 this happens at magnitude = mag_max in the centre of a bin."
 },
 "C107": {
  "note": "False of the code: all four outputs are NaN for every such catalogue."
 },
 "C108": {
  "note": "False of the code: durations overlap; the rate is strictly too low for every table with at least two rows."
 },
 "C109": {
  "note": "False of the code: 10^a is larger by 10^(b*delta_m/2) for all inputs. Weichert's a-value: C110."
 },
 "C111": {
  "note": "False of the code: the assertion tests a non-empty list, which is always true."
 },
 "C114": {
  "note": "False of the code: everything after the decimal point is cut, so all instants of a second are parsed to the same whole second (proved for all dates)."
 },
 "C116": {
  "note": "False of the code: for every date an offset directly after the seconds raises ValueError (after a fraction it is ignored, C72)."
 },
 "C118": {
  "note": "False of the code: polygon_to_bounding_box returns (minx, miny, maxx, maxy) but bounding_box_to_polygon takes (x_min, x_max, y_min, y_max); C64 proves both functions right on their own."
 },
 "C119": {
  "note": "False of the code: DataFrame.apply on an empty frame returns a frame, and assigning it to one column raises ValueError."
 },
 "C120": {
  "note": "False of the code: 0/0 makes every size NaN (with a warning only). Theorem: for every list of equal magnitudes all sizes are NaN."
 },
 "C123": {
  "note": "False of the code: the magnitudes lose their NaN entries, the weights do not, so that the histogram raises ValueError. Theorem: for every such input ValueError is raised."
 },
 "C124": {
  "note": "False of the code: the line starts at the unweighted number of complete magnitudes. Theorem: a weighted example where the line starts away from the point."
 },
 "C127": {
  "note": "False of the code: both lists of the caller grow by one element with each call (the years are replaced by a new list first), and with years the repeated call fails. Theorems: for every successful call."
 },
 "C137": {
  "note": "False of the code: __finalize__ copies the instance's list of required columns, so a ForecastCatalog derived from a Catalog by adding catalog_id loses catalog_id in strip. Theorem: such an example; C135 proves the claim for objects made by ForecastCatalog(...)."
 },
 "C61": {
  "note": "For bounds that are all known (C61_same_cell); rows with unknown bounds are covered by numbers_cells in C61_cell_ids and refuted as a separate claim in C143. The sort inside numpy.unique is abstract: any function satisfying sorts_rows."
 },
 "C143": {
  "note": "False of the code: numpy.unique with axis=0 ignores equal_nan, so each row with an unknown bound is a cell of its own. Theorem: for every such grid all numbers are different."
 },
 "C145": {
  "note": "False of the code: every pandas operation renumbers the rows that are left. Theorems: a selection of one cell gets number 0; an example where the number changes."
 },
 "C147": {
  "note": "False of the code: the bounds are aggregated like every column. Theorems: what the bound columns hold for every function; they are kept by every function that returns a constant's value; a counterexample for sum."
 },
 "C148": {
  "note": "False of the code: dropna removes the depth columns, then groupby raises KeyError. Theorem: for every grid with a wholly unknown bound. C148_exact_condition: every grid without an index is summarised if and only if each bound is known in some row."
 },
 "C60": {
  "note": "False of the code: `event['magnitude_type'] not in mag` is a substring test. Theorems: for every catalogue, a secondary column whose name contains the preferred type (ML in magnitude_MLhc, m in every name) is lost, and so are all of a row without type. What survives: C150, C157."
 },
 "C152": {
  "note": "False of the code, for every catalogue: the id columns are created in the copy, but the list of secondary columns comes from the original; the document has publicID=\"\" for a secondary magnitude whose id column is missing."
 },
 "C153": {
  "note": "False of the code: a missing evaluation mode is read back as the text nan (or None), and a missing type gives a new column magnitude_nan or magnitude_None."
 },
 "C154": {
  "note": "False of the code: the template writes value and uncertainty only (no uncertainty for the time). Theorem: for every catalogue these columns are absent after the round trip."
 },
 "C155": {
  "note": "False of the code: ids are created only if the whole column is missing; a missing cell is written as nan. Theorem for every catalogue."
 },
 "C150": {
  "note": "XML escaping is not modelled: the template escapes nothing (autoescape is off for .j2 files), so texts with & or < give a malformed document. Numbers are their texts (repr round trip trusted)."
 },
 "C158": {
  "note": "Floating point is IEEE double, round to nearest even, through Flocq (its definitions only; axioms are those of Coq's real numbers)."
 },
 "C159": {
  "note": "Years 1000 to 9999: pandas parses the text of year*10000+month*100+day, which is ambiguous for shorter years (not modelled)."
 },
 "C160": {
  "note": "False of the code: one event before 1677 or after 2262 makes every event of the catalogue lose its fraction of a second. Theorem for every such catalogue, and a witness."
 },
 "C161": {
  "note": "False of the code: with numeric columns only, apply(axis=1) gives floats and datetime raises TypeError. Theorem for every such catalogue."
 },
 "C164": {
  "note": "False of the code: hours and minutes are added as durations, hour 24 becomes the next day. Theorem: accepted for every in-range row with an impossible time of day."
 },
 "C165": {
  "note": "False of the code: ZeroDivisionError for every such sample."
 },
 "C166": {
  "note": "False of the code: ValueError for every such sample."
 },
 "C167": {
  "note": "False of the code: ValueError for every such sample."
 },
 "C168": {
  "note": "False of the code: for some draws ValueError, as soon as one used magnitude lies below mc."
 },
 "C169": {
  "note": "False of the code: ValueError for every sample whose range exceeds 1e-14, because the loop starts with bin width 1e-14, which bin_to_precision rejects."
 },
 "C73": {
  "note": "For tolerances t with 10^p <= t < 10^(p+1), 10^(p+1) >= 1e-12, and a range small against the relative rounding allowance."
 },
 "C173": {
  "note": "False of the code: the magnitudes 7.4 and 8.2 with delta_m = 0.1 are rejected (the absolute tolerance 1e-15 is below the spacing of doubles from 8 on) and calculate raises ValueError. Proved in the model of double precision, for every mathematical library."
 },
 "C170": {
  "note": "Doubles up to 1000, bin widths 0.0001 to 10 with at most ten decimals. The statement on edges reaches 1000 bins from 0."
 },
 "C172": {
  "note": "Completeness below magnitude 8 (C173 shows the bound is needed), soundness up to 100 with error 1e-11."
 },
 "C175": {
  "note": "bin_position center, no weights; magnitudes up to 80 in size."
 },
 "C176": {
  "note": "In IEEE double precision (F64.v); np.log with a relative error of 2^-51 and np.sum in any order are hypotheses (met by Example C176_example). Without weights."
 },
 "C177": {
  "note": "Entries: missing, naive time objects, ISO texts all with or all without Z; other offsets are not modelled."
 },
 "C178": {
  "note": "False of the code, for every such pair of times: one time out of range sends all rows to the fallback parser, which drops fractions."
 },
 "C179": {
  "note": "False of the code, for every such column: the fallback parser needs T, ValueError."
 },
 "C180": {
  "note": "np.sum in any order is a hypothesis (met by the example)."
 },
 "C181": {
  "note": "False of the code: whenever the fullest bin is 2.1 the result is 2.3000000000000003, above every magnitude 2.3."
 },
 "C182": {
  "note": "Without weights; fmd_bin = 0 as the literal 0."
 },
 "C183": {
  "note": "The plainest spelling; every other one is C216. Not modelled: document type declarations and references to characters from number 256 on (the model answers Beyond)."
 },
 "C185": {
  "note": "False of the code: parse_quakeml_file and parse_quakeml_response ignore the error 'no element found', so that a file or response cut off after any event is read as a shorter catalogue without an error."
 },
 "C187": {
  "note": "False of the code: the template is named quakeml.j2, for which select_autoescape() does not escape; one event id with an & (the ids of the USGS have one) makes the whole file unreadable."
 },
 "C194": {
  "note": "False of the code: get_events does not look at the status, and parse_quakeml_response ignores 'no element found'. Theorems: every answer with a well-formed body without events (an XHTML error page) gives an empty catalogue, and every body that ends after complete events gives these events, without an exception. True part: C193_interrupted."
 },
 "C195": {
  "note": "False of the code: _exists_with_offset takes every answer with status 200 and a body for an event; with such a service the first loop never ends (proved for every number of steps)."
 },
 "C201": {
  "note": "False of the code: pd.to_numeric uses at most 17 digits, and leading zeros count. Theorems: '0.30000000000000004' (str of 0.1 + 0.2) is read as 0.3; '0.00012345678901234567' is read with a relative error above 10^-13. True parts: C198, C202."
 },
 "C203": {
  "note": "False of the code: the weights are handed on unchanged with the events above the tested magnitude. Theorems: whenever the search returns, all events were complete at every tested magnitude; if one event lies below the smallest magnitude to test, it raises (every estimator, every arithmetic)."
 },
 "C204": {
  "note": "False of the code: the first n times are used for the n complete events. Theorems: this holds for every call; and a catalogue of three events for which the own times give NaN and the code gives ln 2/ln 10, for every argsort. True part: C205."
 },
 "C206": {
  "note": "False of the code: all weights are handed to the estimator with the events of each sub-sample. Theorem: with one weight per event and enough events for sub-samples the call always raises."
 },
 "C210": {
  "note": "False of the code: drop_uncertainties returns a plain DataFrame if there is no column magnitude, and the following drop_ids raises AttributeError. Theorem: for every such list of records with readable times."
 },
 "C212": {
  "note": "False of the code: the string parser returns no records for an empty text, so that the result is an empty catalogue with the default columns. Theorem: for all options."
 },
 "C214": {
  "note": "False of the code: __init__ converts a fixed list of columns. Theorem: in all columns of uncertainties, secondary magnitudes and depthphasecount every entry is the text of the document."
 },
 "C216": {
  "note": "A processing instruction inside a text is passed to the handler as an interruption, so inside a text with inner white space it would lose that space (C99): excluded by the hypothesis on PI. Document type declarations are not modelled."
 },
 "C218": {
  "note": "Weights as real numbers (exact arithmetic). The equality of a whole weight with repetition is for given synthetic distances: without them the number of simulated events is the length of the sample."
 },
 "C219": {
  "note": "Characters below number 256, as everywhere in the date model (Python's \\d also accepts digits of other scripts)."
 },
 "C220": {
  "note": "False of the code: the text is passed to the handler in two pieces, and each is stripped. Theorem: two spellings of one document, one with an instruction, give \"quarry blast\" and \"quarryblast\"."
 },
 "C221": {
  "note": "False of the code: a text after an origin outside any event raises IndexError. Theorem: for all parameters there is such a well-formed document."
 },
 "C222": {
  "note": "Grids with usual_width (0.0001 to 10). The logarithm of the platform is assumed accurate to 2^-51 (or 10^-30), met by a correctly rounded one (Example). The positive a-values are not covered."
 },
 "C223": {
  "note": "The composition of C184/C211/C216, C207-C208, C215, C213 with C176 and C180: from the text of a document to the number. Premise: the table could be made (C207_succeeds says when). With mc from maximum curvature the selection of events is stated here and the error of the b-value in C224. Grids with usual_width; sums in any order and an accurate logarithm of the platform are assumed (met by a concrete library, Example)."
 },
 "C224": {
  "note": "Stated for any mc within 10^-14 of the grid (C224_near_mc), for a catalogue whose column magnitude holds grid decimals and missing values (C224_maxc_then_b), for records and for documents. The error bound for Classic assumes at most 10^9 * delta_m magnitudes; the bound grows with n / delta_m because one ulp of mc shifts every difference the same way. Without weights."
 },
 "C225": {
  "note": "C176 with weights: np.average as sum(w*x)/sum(w), the sums in any order. mc exactly on the grid, no missing magnitudes. The exactness of the selection is part of the statement (used = indices at or above kc)."
 },
 "C226": {
  "note": "The sizes are the np.linspace values truncated; n_m = 0 in an array (numpy division) is not modelled."
 },
 "C227": {
  "note": "False of the code: with fewer than 225 complete events the size 15 is chosen and its point is NaN (as are all sizes above a fifteenth of the events); with min_num above 15 the size 15 makes b_significant_1D raise ValueError. C226 states when the default works."
 },
 "C228": {
  "note": "False of the code: n_ms[p < p_threshold] raises TypeError for a list as soon as one point is significant (the docstring asks for a list). Without a significant point the pictures agree (C228_same_without_marker)."
 },
 "C229": {
  "note": "Distribution function and quantile are any strictly increasing Phi and its inverse, as scipy's norm in exact arithmetic. A point below the band (significantly small MAC) is not marked although it is outside the shaded interval."
 },
 "C230": {
  "note": "C230_no_window holds for every window function; C230_declustered for the windows of the package over exact real numbers. pd.Timedelta(days=t) is modelled as ValueError for NaN (pandas converts the nanoseconds with int()); its overflow for windows of 292 years and more is not modelled."
 },
 "C231": {
  "note": "About the model of expat (well-formedness rules for Latin-1 characters), as C183-C185; names may use the letters of Latin-1."
 },
 "C232": {
  "note": "With the windows and the distance of the package, over exact real numbers. Without a new index the second run fails or mixes rows up: C48."
 }
}