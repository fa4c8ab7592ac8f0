p("C73", "binning_test with delta_x = 0",
  "binning_test(x, 0) with an explicit tolerance tests whether the sample is binned to some power of ten above the tolerance (and below its range) and not to the next one: it is False exactly then.",
  "all samples with at least two distinct values, all tolerances large against the rounding error", "the mode has no test; the claim ranges over all samples", [B+":binning_test"])

p("C74", "a-value estimators have no memory of earlier calls",
  "The result of calculate, its exception and all attributes it sets depend only on its arguments, not on earlier calls on the same estimator object nor on the warnings option.",
  "all call histories, all arguments", "arbitrary histories", [AV+"base.py:AValueEstimator.calculate", AV+"positive.py", AV+"more_positive.py"])
p("C75", "a failing a-value calculate keeps the stored a-value",
  "If calculate raises although a b-value was given whenever m_ref was, the a_value read afterwards is that of before the call.",
  "all arguments with b_value given if m_ref is, all object states", "crash points in arbitrary states", [AV+"base.py:AValueEstimator.calculate"])
p("C76", "a failed b-value calculate leaves value and data consistent",
  "If calculate raises, the b_value read afterwards either raises or belongs to the magnitudes now stored in the estimator.",
  "all histories containing an exception", "crash points in arbitrary histories", [BV+"base.py:BValueEstimator.calculate", BV+"base.py:BValueEstimator.b_value"])
p("C77", "BPositive with weights and no qualifying difference",
  "If no difference qualifies, BPositive with weights returns NaN without raising, as it does without weights.",
  "all catalogues without qualifying difference, all weights", "all such catalogues", [BV+"positive.py", BV+"classic.py"])
p("C78", "equal weights do not change the Shi-Bolt uncertainty",
  "Giving all magnitudes the same weight c > 0 yields the same std as giving no weights.",
  "all samples, all c > 0", "universal statement over samples", [BV+"utils.py:shi_bolt_confidence"])
p("C79", "estimate_b with return_n alone",
  "estimate_b(..., return_n=True) without return_std returns (b, n).",
  "all inputs", "the combination is not tested", [BV+"__init__.py:estimate_b"])
p("C80", "APositive without qualifying difference empties the times",
  "If no difference qualifies, the stored times are empty like the stored magnitudes and idx.",
  "all catalogues without qualifying difference", "all such catalogues", [AV+"positive.py:APositiveAValueEstimator"])
p("C81", "mag_max = 0 is respected",
  "simulate_magnitudes with mag_max = 0 (mc < 0) returns magnitudes of at most 0.",
  "all draws, all beta > 0, mc < 0", "all draws", [SI+":simulate_magnitudes"])
p("C82", "dithering respects the bin that ends at 0",
  "dither_magnitudes moves each magnitude within its own bin also when the upper edge of this bin is 0.",
  "all samples, all draws", "all draws", [SI+":dither_magnitudes", SI+":simulate_magnitudes"])
p("C83", "a failing a-value calculate never changes the stored a-value",
  "Whatever the reason of the exception, the a_value read after a failed calculate is that of before the call.",
  "all arguments and states", "crash points", [AV+"base.py:AValueEstimator.calculate", AV+"base.py:AValueEstimator._reference_scaling"])

p("C84", "the 1D autocorrelation lies between -1 and 1",
  "For every series without NaN that is not constant, est_morans_i without a weight matrix returns the lag-one autocorrelation (sum of products of successive deviations over the sum of squared deviations), a number in [-1, 1], with n the length and n_p the length minus one.",
  "all series of real numbers", "inequality over all series", ["seismostats/analysis/b_significant.py:est_morans_i"])
p("C85", "b_significant_1D with x_variable does not depend on the order of the events",
  "With one completeness magnitude for all events and distinct x_variable, b_significant_1D gives the result it gives for the events sorted along x_variable, hence the same for every order of the input.",
  "all catalogues, all permutations, all estimators", "all permutations", ["seismostats/analysis/b_significant.py:b_significant_1D"])

MCF="seismostats/analysis/estimate_mc.py"
p("C86", "a sample with one value: KS test and the warnings option",
  "For a sample with exactly one distinct value the p-value of ks_test_gr and the mc of estimate_mc_ks do not depend on the warnings option.",
  "all one-valued samples", "two-run property", [MCF+":ks_test_gr"])
p("C87", "estimate_mc_ks with nothing to test and the warnings option",
  "With a given b-value and an empty list of magnitudes to test, estimate_mc_ks behaves the same whatever the warnings option is.",
  "all samples", "two-run property", [MCF+":estimate_mc_ks"])
p("C88", "estimate_mc_b_stability with a stability range of one bin",
  "With the default magnitudes, a stability range of one bin is usable: some magnitude is tested, and the outcome does not depend on the warnings option.",
  "all samples", "all samples; two-run property", [MCF+":estimate_mc_b_stability"])
p("C89", "estimate_mc_b_stability can return 0.0",
  "If the most stable magnitude is 0.0, estimate_mc_b_stability returns 0.0.",
  "all samples", "all samples", [MCF+":estimate_mc_b_stability"])
p("C90", "estimate_mc_b_stability skips magnitudes with undefined difference",
  "If the difference at the first tested magnitude is NaN (too few events) and a later one is stable, a stable magnitude is returned.",
  "all samples, all lists of magnitudes", "all samples", [MCF+":estimate_mc_b_stability"])
p("C91", "estimate_mc_b_stability averages over the range in doubles",
  "In double arithmetic, too, the average over the stability range divides by the number of b-values that were summed.",
  "all samples, all delta_m and ranges", "rounding for all inputs", [MCF+":estimate_mc_b_stability"])

p("C92", "Gardner-Knopoff time windows grow with magnitude",
  "GardnerKnopoffWindow never gives a larger event a shorter time window.",
  "all pairs of magnitudes", "monotonicity over the reals", [DC+"distance_time_windows.py:GardnerKnopoffWindow"])
p("C93", "a time cutoff of zero is respected",
  "With time_cutoff = 0 no time window larger than 0 is returned.",
  "all magnitudes, all window classes", "all magnitudes", [DC+"distance_time_windows.py:BaseDistanceTimeWindow.__call__"])
p("C94", "Gruenthal windows are defined for all magnitudes",
  "GruenthalWindow returns a positive distance and a positive time window for every finite magnitude.",
  "all magnitudes", "continuum", [DC+"distance_time_windows.py:GruenthalWindow"])
p("C95", "declustering does not depend on the order of the rows",
  "If no two events share magnitude and time, shuffling the rows of a catalogue (with default index) shuffles the mainshock flags in the same way.",
  "all catalogues, all permutations of the rows", "two-run property over all permutations", [DC+"dec_gardner_knopoff.py"])

p("C96", "batched download with batch_size = 0 terminates",
  "get_events(batch_size=0) terminates (with a result or an exception) whatever events the server has.",
  "all servers with at least one event", "non-termination cannot be observed by a test", [CL+":FDSNWSEventClient.get_events", CL+":FDSNWSEventClient._get_batch_params"])
p("C97", "limit is honoured together with batch_size",
  "get_events(..., limit=L, batch_size=B) returns at most L events.",
  "all servers, all limits and batch sizes", "all sizes of result set", [CL+":FDSNWSEventClient.get_events"])
p("C98", "requests carry exactly the given parameters",
  "Every request of get_events carries exactly the given filters (under the FDSN names, times in ISO format) and further keyword arguments win over them; all requests of a batched download differ only in limit and offset.",
  "all arguments, all numbers of batches", "all argument combinations", [CL+":FDSNWSEventClient.get_events"])
p("C99", "texts with inner white space do not depend on chunking",
  "The parsed record of an event whose texts contain white space between visible characters does not depend on how the XML reader splits character data into characters() callbacks.",
  "all documents, all chunkings", "the chunking is chosen by the parser buffer", [PA+":QuakeMLHandler.characters"])
p("C100", "origin and event columns of a parsed record",
  "A parsed record takes time, place, depth (with uncertainties), evaluation mode and, if requested, the quality columns from the first origin with the preferred origin id, and eventID and event_type from the event; without such an origin these origin columns are None or missing, and without include_quality there are no quality columns.",
  "all events", "all event trees", [PA+":_parse_to_dict", PA+":_extract_origin"])

KS="seismostats/analysis/bvalue/kijko_smit.py:estimate_b_kijko_smit"
WE="seismostats/analysis/bvalue/weichert.py:estimate_b_weichert"
p("C101", "Weichert estimate is the maximum likelihood estimate",
  "If the minimiser finds the global minimum, estimate_b_weichert returns the unique beta (over all reals, divided by ln 10) that maximises the probability of the observed magnitude bins, where a bin with observation time T has weight T*exp(-beta*centre) among the occupied bins.",
  "all catalogues with complete events in at least two bins, all completeness tables, all last years", "an optimum over the reals for every catalogue", [WE])
p("C102", "the Weichert objective has a single local minimum",
  "The function estimate_b_weichert minimises falls strictly up to the estimate, is 0 there and rises strictly afterwards, so that a descent method cannot be caught elsewhere.",
  "all catalogues with complete events in at least two bins", "continuum of beta values", ["seismostats/analysis/bvalue/weichert.py:_weichert_objective_function"])
p("C103", "standard errors are inverse observed information",
  "The returned standard error of the b-value (Kijko-Smit and Weichert) is (-l''(beta))^(-1/2)/ln 10 with l the logarithm of the likelihood.",
  "all catalogues", "derivatives over the reals", [KS, WE])
p("C104", "Weichert counts every complete event once",
  "The events that enter the estimate are exactly those whose year is not before the year of completeness of the last table row below their magnitude; each is counted in exactly one (bin, year of completeness) cell.",
  "all catalogues, all tables", "all catalogues", [WE])
p("C105", "mag_max and empty bins enter the Weichert likelihood",
  "estimate_b_weichert maximises the likelihood of the magnitudes over all bins up to mag_max.",
  "all catalogues", "optimum over the reals", [WE])
p("C106", "magnitudes up to mag_max are accepted by Weichert",
  "estimate_b_weichert accepts every complete event with magnitude up to mag_max.",
  "all catalogues", "all bin alignments", [WE])
p("C107", "periods without complete events do not spoil the Kijko-Smit estimate",
  "A row of the completeness table in whose period no complete event occurred contributes nothing; the estimate stays finite.",
  "all catalogues and tables with such a row", "all catalogues", [KS])
p("C108", "Kijko-Smit rate is the maximum likelihood rate",
  "rate_at_lmc maximises the Poisson likelihood of the numbers of complete events of the periods, given the b-value.",
  "all catalogues, all tables with at least two rows", "optimum over the reals", [KS])
p("C109", "Kijko-Smit a-value is the logarithm of the rate at magnitude 0",
  "a_val = log10 of rate_at_lmc extrapolated from the lowest completeness magnitude to magnitude 0 with the b-value.",
  "all catalogues", "real arithmetic for all inputs", [KS])
p("C110", "Weichert a-value is the logarithm of the rate at magnitude 0",
  "10^a_val is the returned rate extrapolated with the returned b-value from the left edge of the lowest occupied bin to magnitude 0.",
  "all catalogues", "real arithmetic for all inputs", [WE])
p("C111", "catalogues not aligned with the bins are rejected",
  "estimate_b_kijko_smit raises AssertionError if the magnitudes are not aligned with the completeness edges.",
  "all catalogues", "all catalogues", [KS])
p("C112", "Weichert rate is the maximum likelihood rate",
  "The returned rate is the total rate that maximises the Poisson likelihood of the counts of the occupied cells given beta; its standard error is rate/sqrt(n).",
  "all catalogues with complete events in at least two bins", "optimum over the reals", [WE])

UT = "seismostats/utils/__init__.py"
p("C113", "methods run exactly if their required columns are present",
  "After any history of calls, a method decorated with require_cols runs exactly if each required and not excluded column is present, with its own effect and result; otherwise AttributeError is raised and the object is unchanged.",
  "all column sets, all histories of calls", "the decorator keeps state between calls", [UT+":require_cols"])
p("C114", "fractions of seconds survive the fallback date parser",
  "A date text with microseconds is parsed to the date with these microseconds.",
  "all dates", "all strings", [UT+":_robust_parse_datetime"])
p("C115", "parsed dates exist",
  "Whatever text the fallback date parser accepts, the result is a date of the Gregorian calendar with a time of day; missing values stay missing and dates are kept.",
  "all strings", "all strings", [UT+":_robust_parse_datetime"])
p("C116", "time zones are ignored by the fallback date parser",
  "A date text with a UTC offset is parsed to the date without the offset.",
  "all dates and offsets", "all strings", [UT+":_robust_parse_datetime"])
p("C117", "the reference point is the origin of local coordinates",
  "The reference point has local coordinates (0, 0, 0), also if given in the external system with ref_proj; moving the reference shifts all local coordinates by that amount.",
  "all points, projections and reference points", "continuum", [CO+":CoordinateTransformer"])
p("C118", "the bounding box functions compose",
  "bounding_box_to_polygon(*polygon_to_bounding_box(p)) is the bounding rectangle of p.",
  "all polygons", "all polygons", [CO+":polygon_to_bounding_box", CO+":bounding_box_to_polygon"])
p("C119", "filtering an empty catalogue gives an empty catalogue",
  "cat_intersect_polygon of a catalogue without events returns it.",
  "all polygons", "all polygons", ["seismostats/utils/filtering.py:cat_intersect_polygon"])
PB = "seismostats/plots/basics.py"
PS = "seismostats/plots/statistical.py"
PM = "seismostats/plots/seismicity.py"
p("C120", "dot sizes of equal magnitudes are numbers",
  "dot_size of magnitudes that are all equal gives finite sizes.",
  "all lists of equal magnitudes and all size ranges", "all inputs", [PB+":dot_size"])
p("C121", "the FMD plots show the number (or total weight) of magnitudes in each bin or from each bin on",
  "For every magnitude list, bin width and bin position, the points of plot_fmd are the bins with the number (weight) of the magnitudes in them, those of plot_cum_fmd the bins with the number (weight) of magnitudes in that bin and above; NaN magnitudes are ignored if there are no weights.",
  "all magnitude lists, weights, bin widths and bin positions", "all inputs", [PB+":plot_fmd", PB+":plot_cum_fmd"])
p("C122", "the Gutenberg-Richter line starts at the first complete bin and falls by b decades per magnitude",
  "If a b-value is given, plot_cum_fmd draws a line over the bins from the completeness magnitude on, whose value at the first of them is the number of complete magnitudes and which decreases by the factor 10^(-b) per magnitude unit; without mc the smallest magnitude is taken.",
  "all magnitude lists, b-values, completeness magnitudes and bin widths", "all inputs", [PB+":plot_cum_fmd", PB+":gutenberg_richter"])
p("C123", "NaN magnitudes are ignored in weighted FMD plots",
  "plot_fmd and plot_cum_fmd with weights ignore magnitudes that are NaN together with their weights.",
  "all weighted magnitude lists with NaN", "all inputs", [PB+":plot_fmd", PB+":plot_cum_fmd"])
p("C124", "the Gutenberg-Richter line fits the weighted points",
  "In a weighted plot_cum_fmd the line starts at the total weight of the complete magnitudes, i.e. at the first plotted point.",
  "all weighted magnitude lists", "all inputs", [PB+":plot_cum_fmd"])
p("C125", "plot_cum_count shows, at every time, how many complete events have happened",
  "For each completeness magnitude the curve is the step function of time whose value is the number (weight) of events with magnitude >= mc - delta_m/2 up to that time, divided by the total if normalised; it begins at the first and ends at the last event of the catalogue; nothing is drawn for a completeness magnitude without events; wrong lengths raise.",
  "all catalogues, lists of completeness magnitudes, weights, and all orders of equal times", "all inputs", [PB+":plot_cum_count"])
p("C126", "plot_mags_in_time shows every event and the completeness magnitude in force at every time",
  "All events are shown with their dot sizes; with change times (years or dates) the line is the step function that has the completeness magnitude in force, continued to the last event.",
  "all catalogues and histories of completeness changes", "all inputs", [PB+":plot_mags_in_time"])
p("C127", "plot_mags_in_time leaves its arguments alone",
  "The lists given as mc_change_times and mcs are the same after the call, so that the same call can be repeated.",
  "all argument lists", "the state after every call", [PB+":plot_mags_in_time"])
p("C128", "every point of plot_mc_vs_b is an independent estimate",
  "The value and band at each completeness magnitude are those estimate_b gives for it, independently of the other completeness magnitudes in the list; if it raises for one of them, so does the plot.",
  "all magnitude lists, lists of completeness magnitudes, estimators and confidence levels", "all inputs and histories of the reused estimator", [PS+":plot_mc_vs_b"])
p("C129", "plot_b_series_constant_nm shows the b-value of each window of n_m complete events at the chosen place",
  "The complete events, sorted along x_variable, are divided into all windows of n_m consecutive ones; the value plotted at the first, middle or last event of a window (as chosen) is the fresh estimate for its events in time order with their largest completeness magnitude, NaN if it uses fewer than min_num magnitudes; events without a window have NaN; an exception comes from a window's estimate or from inconsistent arguments.",
  "all catalogues, window lengths, estimators and placements", "all inputs and histories of the reused estimator", [PS+":plot_b_series_constant_nm"])
p("C130", "plot_b_significant_1D shows the results of b_significant_1D",
  "Each point is the result of b_significant_1D for the same arguments and that n_m, or NaN if there are fewer than 15 n_m complete magnitudes; with x_variable the events are sorted along it.",
  "all catalogues, lists of n_m and estimators", "all inputs", [PS+":plot_b_significant_1D"])
p("C131", "the map shows all events",
  "plot_in_space sets the map extent to the bounding box of the events widened by 5% on each side, so that every event is inside; the extent of given axes is enlarged to the smallest box containing both.",
  "all catalogues and previous extents", "all inputs", [PM+":plot_in_space"])
p("C132", "adjusted colours are valid colours, lighter for factors below one and darker above",
  "Each channel stays in [0, 1]; with factor < 1 its distance to white is multiplied by the factor, with factor >= 1 the channel is divided by it.",
  "all colours and non-negative factors", "continuum", [PS+":_adjust_color_brightness"])

# ---- catalogues
p("C133", "the metadata of a catalogue survive every operation",
  "Along any sequence of operations whose results keep the column magnitude, name, mc, a_value, delta_m, b_value, start and end time, polygon and depth limits keep the value last assigned; n_catalogs does as long as every result also has catalog_id, and is lost for good otherwise.",
  "all catalogues and sequences of operations and assignments", "all sequences", [CA+":Catalog.__finalize__", CA+":Catalog._metadata", CA+":ForecastCatalog"])
p("C134", "merge keeps the metadata of the left catalogue, concat of the first",
  "The result of merge has the attributes of the left object, that of concat of the first object, whatever the others have.",
  "all catalogues and column sets", "all combinations", [CA+":Catalog.__finalize__"])
p("C135", "strip keeps the required columns only",
  "strip returns a copy (or changes the catalogue in place) with exactly longitude, latitude, depth, time, magnitude and magnitude_type, and catalog_id for an object made by ForecastCatalog(...), in their order, with the attributes; without these columns it raises AttributeError.",
  "all catalogues", "all column sets", [CA+":Catalog.strip"])
p("C136", "drop_uncertainties, drop_ids and from_dict drop exactly the columns with the documented endings",
  "The result has the remaining columns in their order, the class that fits them, and the same attributes; from_dict drops uncertainties and ids exactly if they are not wanted.",
  "all catalogues and column names", "all names", [CA+":Catalog.drop_uncertainties", CA+":Catalog.drop_ids", CA+":Catalog.from_dict"])
p("C137", "strip keeps catalog_id of every ForecastCatalog",
  "Stripping a ForecastCatalog gives a ForecastCatalog.",
  "all forecast catalogues and histories", "all histories", [CA+":Catalog.strip", CA+":Catalog.__finalize__"])
p("C138", "Catalog.estimate_a: explicit arguments take precedence, only a_value changes",
  "mc and delta_m are the explicit ones if given, else the attributes, else ValueError; the stored b_value is never used; success sets a_value to the estimate and nothing else, failure changes nothing.",
  "all catalogues, arguments, estimators and outcomes", "all values and histories", [CA+":Catalog.estimate_a"])
p("C139", "estimating mc through a catalogue sets mc to the result and nothing else",
  "estimate_mc_maxc, estimate_mc_b_stability and estimate_mc_ks give the result of the function for the magnitudes, the explicit or else stored delta_m, and (ks) the explicit or else stored b_value; they set mc to it, to None if none was found, so that estimate_b without mc then uses it or raises ValueError; failure changes nothing.",
  "all catalogues and arguments", "all values and histories", [CA+":Catalog.estimate_mc_maxc", CA+":Catalog.estimate_mc_b_stability", CA+":Catalog.estimate_mc_ks"])
p("C140", "estimates through a catalogue use its columns",
  "The estimator gets the column magnitude, the explicit weights or else the column weight, and for the positive methods the explicit times or else the column times or else the column time; without any of these the positive a-value methods raise TypeError; the other methods use neither and raise TypeError if given times or dmc; a column dmc without explicit dmc makes the positive methods raise ValueError.",
  "all catalogues, arguments and estimators", "all combinations of columns and arguments", [CA+":_check_catalog_cols", CA+":Catalog.estimate_b", CA+":Catalog.estimate_a"])
p("C141", "plots of a catalogue use its attributes for omitted arguments and leave it unchanged",
  "plot_cum_fmd takes mc, b_value and the bin width, plot_cum_count the binning, from the explicit arguments or else the attributes; the catalogue is unchanged; missing columns raise AttributeError.",
  "all catalogues and arguments", "all values", [CA+":Catalog.plot_cum_fmd", CA+":Catalog.plot_cum_count", CA+":Catalog.plot_fmd"])
p("C142", "texts standing for missing values become None",
  "In magnitude_type and event_type exactly the empty text and the listed spellings of nan, none, na and null become None; every other text stays.",
  "all texts", "all texts", [CA+":Catalog.__init__"])
p("C143", "equal cells with unknown bounds get the same cell_id",
  "Two rows whose known bounds agree and whose other bounds are both unknown (such as the depths of a grid without depths) get the same cell_id.",
  "all rate grids with missing bounds", "all grids", [RG+":GRRateGrid._reindex_cell_id"])
p("C144", "time index and concatenation of rate grids",
  "add_time_index keeps rows, columns and attributes and adds the levels starttime (and endtime) with the grid's times and cell_id; concat puts the rows one after the other, each with the times of its grid, numbers the cells of all grids together by their bounds, and sets starttime to the least start and endtime to the greatest end (greatest start if an end is missing); missing times, an empty list or different numbers of levels raise the documented errors.",
  "all lists of rate grids", "all grids and times", [RG+":GRRateGrid.concat", RG+":GRRateGrid.add_time_index"])
p("C145", "the cell_id of a row does not change when rows are selected",
  "Selecting rows of a rate grid with a time index keeps the cell_id of the remaining rows.",
  "all rate grids and selections", "all selections", [RG+":GRRateGrid.__init__", RG+":GRRateGrid._reindex_cell_id"])
p("C146", "statistics of a forecast grid aggregate each cell over its realizations",
  "calculate_statistics gives one row for each cell (or combination of index levels) without unknown parts, in increasing order, with the aggregate of every known column over exactly the rows of that cell and the extra statistics <column>_<suffix> for number_events, a, b, mc and alpha where no such column exists; grid_id is left out.",
  "all forecast grids, aggregation functions and extra statistics", "all grids and functions", [RG+":ForecastGRRateGrid.calculate_statistics"])
p("C147", "the statistics show the bounds of each cell",
  "In every row of calculate_statistics the bound columns hold the bounds of the cell, for every aggregation function.",
  "all forecast grids and aggregation functions", "all functions", [RG+":ForecastGRRateGrid.calculate_statistics"])
p("C148", "statistics work for grids without depths",
  "A forecast grid whose depth bounds are unknown can be summarised by cell.",
  "all forecast grids", "all grids", [RG+":ForecastGRRateGrid.calculate_statistics"])
p("C149", "the class and attributes of what an operation on a rate grid gives",
  "The result is a rate grid exactly if the nine required columns are there, a forecast grid exactly if grid_id is too; rate grids keep name, start and end time of the original, forecast grids of a forecast grid also n_grids.",
  "all rate grids and results", "all column sets", [RG+":_rategrid_constructor_with_fallback", RG+":GRRateGrid.__finalize__"])
J2 = "seismostats/catalogs/catalog_templates/quakeml.j2"
p("C150", "exporting a catalogue to QuakeML and reading it back",
  "Reading the document made by to_quakeml gives one record per row with known latitude, longitude and time, in order; each has the time, coordinates, depth, magnitude with their uncertainties, magnitude type, event and origin and magnitude ids (new ones where the column is missing), counts as integers, distances and gaps of its row; unknown numbers are left out; and exactly those secondary magnitudes (values, uncertainties and the ids given in their columns) whose column name does not contain the preferred type.",
  "all catalogues whose texts need no escaping, all secondary columns with ordinary type names, all readers' set orders", "all tables", [CA+":Catalog.to_quakeml", J2, PA+":parse_quakeml"])
p("C151", "which events are exported to QuakeML",
  "to_quakeml raises AttributeError unless the six required columns are there; otherwise exactly the rows with known latitude, longitude and time become events, in order, under their event id.",
  "all catalogues", "all tables", [CA+":Catalog.to_quakeml", CA+":Catalog._create_ids"])
p("C152", "new ids of secondary magnitudes appear in the exported document",
  "Missing ids of secondary magnitudes are created and written.",
  "all catalogues", "all tables", [CA+":Catalog._create_ids", CA+":Catalog.to_quakeml"])
p("C153", "missing texts are missing after an export and import",
  "A row without evaluation mode or magnitude type is read back without, and no columns appear that the catalogue did not have.",
  "all catalogues", "all tables", [CA+":Catalog.to_quakeml", J2])
p("C154", "lower and upper uncertainties, confidence levels and the uncertainty of the time survive the export",
  "They are read back with the values they had.",
  "all catalogues", "all tables", [J2])
p("C155", "missing ids are created in every row",
  "A row without event, origin or magnitude id gets a new one on export.",
  "all catalogues, with and without id columns", "all tables", [CA+":Catalog._create_ids"])
p("C156", "a forecast catalogue is exported as one document per realization",
  "ForecastCatalog.to_quakeml returns, in increasing order of catalog_id, one document per id that occurs, each the export of exactly the rows with that id in their order.",
  "all forecast catalogues", "all tables", [CA+":ForecastCatalog.to_quakeml"])
p("C157", "secondary magnitudes with unrelated type names survive the export",
  "A known cell of a column magnitude_<type> is read back if the preferred type of the row is known and does not occur in the column name.",
  "all catalogues", "all tables", [CA+":Catalog.to_quakeml"])
p("C158", "times survive the conversion to OpenQuake and back",
  "to_openquake writes valid dates and seconds with a fraction that give the time of the event to less than a nanosecond (whole microseconds; nanoseconds are cut), and from_openquake of these gives back exactly the same microseconds, although seconds and microseconds are added in floating point.",
  "all event times pandas can represent", "the set of times is unbounded and rounding differs from value to value", [CA+":Catalog.to_openquake", CA+":Catalog.from_openquake"])
p("C159", "times read from OpenQuake are right to half a microsecond",
  "For every catalogue with existing dates in the range of pandas, the times differ from the given ones by at most half a microsecond (and rounding error below 1e-9), also if the fraction rounds up to the next second.",
  "all OpenQuake catalogues in range, all fractions of seconds", "all real seconds", [CA+":Catalog.from_openquake"])
p("C160", "times in range keep their microseconds whatever the other events are",
  "The time of a recent event read from OpenQuake does not depend on whether the catalogue also has historic events.",
  "all OpenQuake catalogues", "all combinations of events", [CA+":Catalog.from_openquake"])
p("C161", "historic events can be read from OpenQuake catalogues with any columns",
  "A catalogue with an event outside the range of nanosecond timestamps is read with a resolution of seconds, also if all its columns hold numbers.",
  "all OpenQuake catalogues", "all combinations of events", [CA+":Catalog.from_openquake"])
p("C162", "columns of the conversion to and from OpenQuake",
  "to_openquake raises AttributeError without the five required columns and otherwise keeps every column, adds eventID if missing and the units of time (an empty catalogue gives an empty one); from_openquake leaves out columns without values, replaces the units of time by time (or keeps them on request), raises ValueError for columns of different lengths and KeyError if a unit of time is missing; there and back the columns are the same and eventID.",
  "all column sets and lengths", "all tables", [CA+":Catalog.to_openquake", CA+":Catalog.from_openquake"])
p("C163", "dates that do not exist are not read from OpenQuake",
  "from_openquake raises an exception if any event has a day that the month does not have.",
  "all OpenQuake catalogues with years from 1000 to 9999", "all combinations of events", [CA+":Catalog.from_openquake"])
p("C164", "times of day that do not exist are not read from OpenQuake",
  "from_openquake raises an exception if any event has an hour above 23 or a minute above 59.",
  "all OpenQuake catalogues", "all combinations of events", [CA+":Catalog.from_openquake"])
p("C165", "the uncertainty of an unusable weighted sample is NaN",
  "If no magnitude is complete, std is NaN after a weighted estimate.",
  "all weighted samples without complete magnitude", "all samples", [BV+"base.py:BValueEstimator.std", BV+"utils.py:shi_bolt_confidence"])
p("C166", "a sample of unknown magnitudes gives NaN",
  "calculate returns NaN if every magnitude is NaN.",
  "all such samples", "all sizes", [BV+"base.py:BValueEstimator._sanity_checks", B+":binning_test"])
p("C167", "p_lilliefors is defined for samples that are binned more coarsely than delta_m",
  "An estimate that succeeded with a delta_m finer than the binning of the sample has a Lilliefors p-value.",
  "all such samples", "all samples", [BV+"base.py:BValueEstimator.p_lilliefors", SI+":dither_magnitudes"])
p("C168", "p_lilliefors is defined whenever the estimate is",
  "A magnitude between mc - delta_m/2 and mc, which is used for the estimate, does not make the Lilliefors p-value fail.",
  "all samples, all random numbers", "all draws", [BV+"base.py:BValueEstimator.p_lilliefors", SI+":dither_magnitudes"])
p("C169", "binning_test with delta_x = 0 and the default tolerance",
  "As documented, binning_test(x, 0) returns a truth value for every sample with at least two distinct finite values.",
  "all samples", "the mode has no test; the claim ranges over all samples", [B+":binning_test"])
p("C170", "in double precision, bin_to_precision returns the double of the nearest multiple of the bin width",
  "With IEEE rounding in every step, each result is exactly the double that Python reads from the decimal numeral of a multiple K*delta_x, the distance of the input to it is at most half a bin up to 1e-7 bins, and a decimal input on the lower edge of the bin (x.x5 for 0.1) goes up.",
  "all finite doubles up to 1000 in size, all bin widths from 0.0001 to 10 with at most ten decimals (for the edges: at most 1000 bins from 0), all mathematical libraries", "rounding differs from value to value", [B+":bin_to_precision", B+":normal_round"])
p("C171", "in double precision, binning is idempotent and equal bins give equal doubles",
  "Binning binned values again returns them bit by bit; two values within 0.4 bins of the same multiple, however they were computed, become the same double (so that == and np.unique are safe on binned magnitudes).",
  "all doubles up to 900 (1000) in size, all usual bin widths", "rounding differs from value to value", [B+":bin_to_precision"])
p("C172", "in double precision, binning_test accepts exactly the binned samples below magnitude 8",
  "The check made by every estimator (tolerance 1e-15 absolute, no check for larger bins) is True for every sample of doubles whose decimals lie on a grid with spacing delta_x, with any offset and NaNs, if all are below 8 in size; if it is True (sizes up to 100), all differences are multiples of delta_x to 1e-11.",
  "all samples of any length, all usual bin widths", "rounding differs from value to value", [B+":binning_test", BV+"base.py:BValueEstimator._sanity_checks"])
p("C173", "correctly binned catalogues with magnitudes of 8 and more are accepted",
  "binning_test as called by the estimators is True for every binned sample with magnitudes below 10, and the estimators return an estimate for it.",
  "all binned samples", "rounding differs from value to value", [B+":binning_test", BV+"base.py:BValueEstimator._sanity_checks"])
p("C174", "in double precision, the estimators select exactly the complete events and the large enough differences",
  "For magnitudes, mc and dmc given as decimals on the grid, the classic and Utsu estimators do not raise and use exactly the events whose index is at least that of mc; b-positive and b-more-positive use exactly the pairs of (time-ordered) complete events whose index difference is at least that of dmc, and store exactly the doubles of these differences: no event is lost to rounding at mc - delta_m/2.",
  "all catalogues of binned magnitudes below 8, all mc, dmc, times, usual bin widths", "rounding differs from value to value", [BV+"base.py:BValueEstimator._filter_mc", BV+"positive.py", BV+"more_positive.py"])
p("C175", "in double precision, get_fmd counts every event in its bin",
  "The bin centres are the doubles of the consecutive multiples of delta from the smallest to the largest binned magnitude, without gap, repetition or excess bin, and the counts are exactly the numbers of events binned to each; they add up to the number of events.",
  "all samples of doubles up to 80 in size with at most 2^53 events, all usual bin widths, every order of summation", "np.arange with a float step and histogram edges are subject to rounding", [B+":get_fmd"])

p("C176", "the b-value is not spoilt by rounding errors",
  "Computed in IEEE double precision from the doubles of decimal magnitudes, the b-value of the classic, Utsu, b-positive and b-more-positive estimators differs from the estimate of exact arithmetic on the decimal numbers by a relative error of at most (n + 620/delta_m + 20) 2^-52 for n magnitudes used; for up to a million events and bins of at least 0.01 it has nine correct digits. Except for the classic estimate of magnitudes that all equal mc (exactly infinite).",
  "all catalogues on a decimal grid below magnitude 8, all completeness magnitudes and differences on the grid, all usual bin widths, every order of summation and every logarithm with a relative error below 2^-51",
  "the accumulated rounding error depends on all magnitudes and on the order of summation", [BV+"base.py:BValueEstimator.calculate", BV+"classic.py:_mle_estimator", BV+"utsu.py:UtsuBValueEstimator._estimate", BV+"positive.py:BPositiveBValueEstimator._estimate"])
p("C177", "the times of a new catalogue are the times stated by the texts",
  "For ISO texts (T or blank, up to nine digits of a second, with or without Z) in the range of pandas timestamps the column time holds exactly the stated instants; with T every column is read, exactly or, if some time is out of range, every text to its whole second; missing entries stay missing, time objects are kept, and no row is lost.",
  "all columns of missing entries, time objects and ISO texts of any calendar time of the years 1 to 9999", "the conversion of one row depends on all rows", [CA+":Catalog.__init__", "seismostats/utils/__init__.py:_robust_parse_datetime"])
p("C178", "the time of an event does not depend on the other events of a new catalogue",
  "A time in the range of pandas timestamps keeps its fraction of a second whatever the other times of the column are.",
  "all times and other times", "the conversion of one row depends on all rows", [CA+":Catalog.__init__", "seismostats/utils/__init__.py:_robust_parse_datetime"])
p("C179", "times written with a blank are read for historic events too",
  "A catalogue with times of the form 1600-01-01 05:05:13 (as in the examples of the documentation) can be created also if a time is out of the range of pandas timestamps.",
  "all columns with such times", "ranges over all times", [CA+":Catalog.__init__", "seismostats/utils/__init__.py:_robust_parse_datetime"])
p("C180", "in double precision, maximum curvature finds the fullest bin and its result selects the right events",
  "estimate_mc_maxc returns the double sum of the smallest of the most frequent binned magnitudes and the correction, ignoring NaN; given to the classic or Utsu estimator (with a correction on the grid), it makes them use exactly the events from the corrected bin on. More generally they use exactly the events from a grid value on for every mc within 0.4 bins of it.",
  "all samples of doubles up to 80 in size (below magnitude 8 for the estimators), all usual bin widths, every order of summation", "rounding differs from value to value", ["seismostats/analysis/estimate_mc.py:estimate_mc_maxc", BV+"base.py:BValueEstimator._filter_mc"])
p("C181", "the completeness magnitude by maximum curvature is the double of its decimal",
  "The mc returned for binned magnitudes, bins of 0.1 and the default correction is the double that stands for a multiple of 0.1, so that magnitudes >= mc selects the complete events.",
  "all binned samples", "rounding differs from value to value", ["seismostats/analysis/estimate_mc.py:estimate_mc_maxc"])
p("C182", "in double precision, get_cum_fmd counts exactly the events at or above each bin",
  "With a bin width, the cumulative count of every bin from the smallest to the largest binned magnitude is exactly the number of events binned to it or above (left edges differ from the exact ones by at most 1e-12); without bins, the distinct magnitudes appear in increasing order, each with exactly the number of magnitudes that are not smaller.",
  "all samples of doubles up to 80 in size (any size without bins) with at most 2^53 events, all usual bin widths, every order of summation", "rounding differs from value to value; counts are sums of doubles", [B+":get_cum_fmd", B+":get_fmd"])

p("C183", "reading QuakeML text gives the records of the document it contains",
  "For every document tree, written as XML text with or without declaration and surrounding white space, parse_quakeml_file, parse_quakeml_response and parse_quakeml return exactly the records of the tree with whole texts, whatever the pieces in which the XML reader passes on a text, as long as texts with inner white space arrive in one piece.",
  "all document trees whose names, attributes and texts need no escaping, all ways the reader cuts texts", "ranges over all documents and all buffer boundaries", [PA+":parse_quakeml", PA+":parse_quakeml_file", PA+":parse_quakeml_response"])
p("C184", "a file that is cut off never yields a wrong record",
  "If a text can be read, then for every initial part of it parse_quakeml_file gives a SAXParseException or an initial part of the records of the whole text; events that are complete in the initial part are all among them. parse_quakeml raises SAXParseException for every initial part that is neither empty nor complete (complete: only white space, comments or processing instructions are missing).",
  "all texts, all points of interruption", "every crash point of a download or a write", [PA+":parse_quakeml_file", PA+":parse_quakeml", PA+":parse_quakeml_response"])
p("C185", "an interrupted file is reported",
  "parse_quakeml_file and parse_quakeml_response raise an exception for a document that ends too soon.",
  "all documents, all points of interruption", "every crash point of a download or a write", [PA+":parse_quakeml_file", PA+":parse_quakeml_response"])
p("C186", "the string returned by to_quakeml is read back as the table",
  "If nothing in the table needs escaping, the exact text made by the template, read by parse_quakeml_file or parse_quakeml, gives the rows with time and location, in order, with the cells of C150.",
  "all tables with such cells, all columns, all new ids, all ways the reader cuts texts", "ranges over all tables", [CA+":Catalog.to_quakeml", J2, PA+":parse_quakeml"])
p("C187", "every string returned by to_quakeml can be read back",
  "Also with characters in an event id that have a meaning in XML.",
  "all tables with an event id that contains < or an & that begins no reference", "ranges over all tables and ids", [CA+":Catalog.to_quakeml", J2, "seismostats/utils/__init__.py:_render_template"])

p("C188", "what is escaped in a QuakeML document is decoded in the records",
  "For every document tree, whatever characters its texts and attributes consist of, the text in which &, <, > and quotes are written as references is read by parse_quakeml_file and parse_quakeml as exactly the records of the tree.",
  "all document trees without control characters, all ways the reader cuts texts", "ranges over all documents and texts", [PA+":parse_quakeml", PA+":parse_quakeml_file"])

p("C189", "Kijko and Smit's warning",
  "A warning is issued exactly if warnings are on and some magnitude is below every magnitude of the completeness table; such events are never used.",
  "all catalogues, all completeness tables, both option values", "ranges over all catalogues and tables", [BV+"kijko_smit.py:estimate_b_kijko_smit"])
p("C190", "estimate_a, the estimator objects and Catalog.estimate_a agree",
  "estimate_a returns what calculate of any object of the class returns for the same arguments (or raises the same exception), whatever the object was used for before and whether or not warnings are on, and this is the a_value of the object afterwards; Catalog.estimate_a returns an object with the same a_value for the magnitudes and times of its columns.",
  "all samples, all three methods, all histories of the object", "all histories of an object, all arguments", ["seismostats/analysis/avalue/__init__.py:estimate_a", AV+"base.py:AValueEstimator.calculate", CA+":Catalog.estimate_a"])
p("C191", "the mask of a country covers the map",
  "With a country, the rectangle that is drawn white outside the country is exactly the extent of the map: it contains the bounding box of the country with a margin of 5 % of its extension on every side, and nothing else.",
  "all countries with a bounding box of positive extension", "every point of the plane, all bounding boxes", ["seismostats/plots/seismicity.py:plot_in_space", "seismostats/plots/seismicity.py:_rect_from_bound"])
p("C192", "indentation of a QuakeML document does not matter",
  "White space (of Python's str.strip) added before or after any text, and texts of white space only added anywhere, change neither the parsed records nor the exception.",
  "all sequences of callbacks, all ways of adding white space", "ranges over all documents and layouts", [PA+":QuakeMLHandler.characters", PA+":parse_quakeml"])

CLI = "seismostats/catalogs/client.py"
p("C193", "a download gives the records of the selected events, whole or interrupted",
  "For a web service that answers each request with a QuakeML text (in any layout) of the requested page, get_events gives exactly the records of all selected events, with every batch size as without batches (or the exception that the first unreadable event raises). If any bodies of the service end too soon, at any character, the download ends with SAXParseException or with some of these records, unchanged, in order, none twice.",
  "all services, selections, batch sizes, layouts; all points of interruption of all responses; all ways the reader cuts texts", "every crash point of every response, all sizes", [CLI+":FDSNWSEventClient.get_events", CLI+":FDSNWSEventClient._get_events_batched", CLI+":FDSNWSEventClient._get_batch_count", PA+":parse_quakeml_response"])
p("C194", "a failed or interrupted request raises an exception",
  "get_events raises an exception if the service answers with an error status or if the body ends too soon.",
  "all services, all error pages, all points of interruption", "every crash point of every response", [CLI+":FDSNWSEventClient.get_events", PA+":parse_quakeml_response"])
p("C195", "a batched download ends for a service that answers an empty selection with an empty document",
  "get_events with a batch size ends.",
  "all services whose answers always have status 200 and a body", "liveness", [CLI+":FDSNWSEventClient._get_batch_count", CLI+":FDSNWSEventClient._exists_with_offset"])
p("C196", "the estimators warn exactly when they should",
  "A call of calculate that returns a value issues, with warnings on, the warning about an empty lowest bin exactly if there are magnitudes and all lie more than half a bin above mc, the warning about no magnitudes exactly if none is at least mc - delta_m/2, the warning about dmc exactly for the positive methods with a dmc below delta_m, and (a-values) the warning about too few events exactly if there are complete magnitudes but none is left for the estimate; each at most once and no others. With warnings off it issues none.",
  "all samples, all b- and a-value estimators, all arguments, all histories of the object", "ranges over all samples and histories", [BV+"base.py:BValueEstimator._sanity_checks", BV+"base.py:BValueEstimator._filter_magnitudes", AV+"base.py:AValueEstimator._sanity_checks", AV+"positive.py:APositiveAValueEstimator._estimate", AV+"more_positive.py:AMorePositiveAValueEstimator._estimate"])
p("C197", "the p-value of b_significant_1D",
  "The returned p-value is one minus the normal distribution function, with the returned expectation and standard deviation, at the returned mean autocorrelation (so a probability), unless there are too few events, when all four are NaN. Expectation and deviation are -1/mean(n) and (m-2)/(m sqrt m), m the mean number of pairs over the offsets that give one, or NaN if m <= 2. conservative=False changes only the deviation, by the factor 0.81; for an autocorrelation above its expectation the conservative p-value is never smaller.",
  "all series, all methods, every monotone distribution function", "ranges over all series and all offsets", ["seismostats/analysis/b_significant.py:b_significant_1D"])

NUMA = [CA+":Catalog.__init__"]
p("C198", "numbers that arrive as texts become the nearest double",
  "A text in a numeric column (white space, sign, digits, point, exponent) with at most 17 digits, a mantissa up to 2^53 and a decimal exponent between -22 and 22 becomes the double nearest to the number it denotes (ties to even), or, in a column of integers, exactly that integer. So a double written with at most 15 digits comes back unchanged.",
  "all columns, all numerals in all spellings", "ranges over all texts", NUMA)
p("C199", "texts that are no numbers become NaN",
  "A text in a numeric column that is neither a numeral nor a spelling of infinity becomes NaN and the column one of floats; no exception is raised, no row is lost; spellings of infinity become +-infinity; a numeral beyond 10^308 becomes NaN as well; floats, integers and gaps in the same column keep their values.",
  "all columns, all texts", "ranges over all texts, including arbitrary garbage", NUMA)
p("C200", "columns of integer texts become exact integers",
  "If all entries of a numeric column are texts of integers (up to 200 digits, with leading zeros, signs and white space), the column becomes exactly these integers, also beyond 2^53, if all fit in 64 bits with a sign or all in 64 bits without one; otherwise it becomes one of floats.",
  "all columns, all integers of 64 bits, all spellings", "ranges over all integers and spellings", NUMA)
p("C201", "a number survives being written with str and read again",
  "Every numeral with a moderate exponent is read as the nearest double, so that every double written by str comes back; if not, at least with a relative error below 10^-13.",
  "all numerals", "exceptional digits; found by arithmetic, not by sampling", NUMA)
p("C202", "accuracy of numbers that arrive as texts",
  "Every numeral whose decimal exponent is moderate (result between about 10^-200 and 10^200) is read with a relative error below 10^-15, plus, if it has more than 17 digits (leading zeros count), an absolute error below one unit of the 17th digit; one below 10^-616 becomes 0.",
  "all columns, all numerals", "ranges over all texts, accumulated rounding errors", NUMA)

MCF = "seismostats/analysis/estimate_mc.py"
p("C203", "weights can be given to the search for the completeness magnitude",
  "estimate_mc_ks and estimate_mc_b_stability accept **kwargs for the b-value estimator; with one weight per event they give the completeness magnitude of the weighted catalogue.",
  "all catalogues, all weights, all estimators, all magnitudes to test", "ranges over all catalogues", [MCF+":estimate_mc_ks", MCF+":estimate_mc_b_stability", BV+"base.py:BValueEstimator._sanity_checks"])
p("C204", "times given to the search for the completeness magnitude stay with their events",
  "With a positive method and times among the **kwargs of estimate_mc_ks or estimate_mc_b_stability, the b-value of a tested magnitude is the one of the complete events with their own times.",
  "all catalogues, all times, all estimators", "ranges over all catalogues and orders", [MCF+":estimate_mc_ks", MCF+":estimate_mc_b_stability", BV+"positive.py:BPositiveBValueEstimator._filter_magnitudes"])
p("C205", "times in increasing order change nothing",
  "If the times are strictly increasing (one per event), estimate_mc_ks and estimate_mc_b_stability return the same with and without them, and every tested b-value is the one of the complete events with their own times.",
  "all catalogues in time order, all estimators and arguments, all sorting algorithms, every arithmetic", "ranges over all catalogues", [MCF+":estimate_mc_ks", MCF+":estimate_mc_b_stability", BV+"positive.py:BPositiveBValueEstimator._estimate", BV+"more_positive.py:BMorePositiveBValueEstimator._estimate"])
p("C206", "weights can be given to b_significant_1D",
  "b_significant_1D accepts **kwargs for the estimator; with one weight per event it tests the series of weighted b-values.",
  "all series, all weights, all b-value estimators", "ranges over all series", ["seismostats/analysis/b_significant.py:b_significant_1D", "seismostats/analysis/b_significant.py:values_from_partitioning"])

FD = CA+":Catalog.from_dict"
FQ = CA+":Catalog.from_quakeml"
p("C207", "one row per record, the columns that the records mention",
  "Catalog.from_dict makes one row per dictionary, in their order; the columns are the keys of the dictionaries in the order of their first occurrence, except the uncertainties or the ids if these are not wanted; all columns have the same length. An empty list gives an empty catalogue with the default columns. If some record has a magnitude and the times are ISO texts, the call succeeds and returns a catalogue; its class fits its columns.",
  "all lists of records, all combinations of the options", "ranges over all lists of records", [FD, CA+":Catalog.drop_uncertainties", CA+":Catalog.drop_ids"])
p("C208", "the entries of the table are what the records say",
  "In the result of Catalog.from_dict, row i holds what record i says: in a numeric column the nearest double (or the exact integer), NaN if the record has no such key, None, or a text that is no number; in time the instant (to the second if some time in the column is outside pandas' range), in magnitude_type and event_type the text, or nothing if it is a spelling of a missing value; in every other column the text itself.",
  "all lists of records, all columns, all rows, all options", "ranges over all records and texts", [FD, CA+":Catalog.__init__"])
p("C209", "repeating the conversions changes nothing",
  "The conversions of columns in Catalog.__init__ run again whenever pandas makes a new frame. On a catalogue they have no effect: converting a converted table gives the same table, and dropping columns keeps every other entry.",
  "all tables, all sets of dropped columns", "ranges over all tables and histories of operations", [CA+":Catalog.__init__", CA+":_catalog_constructor_with_fallback"])
p("C210", "records without magnitudes can be loaded",
  "Catalog.from_dict with include_uncertainties=False and include_ids=False accepts records of events none of which has a magnitude (as FDSNWSEventClient.get_events calls it by default).",
  "all lists of records without magnitudes", "a class of inputs", [FD, CA+":Catalog.drop_uncertainties", CLI+":FDSNWSEventClient.get_events"])
p("C211", "from_quakeml: a path and the text of the file mean the same",
  "Catalog.from_quakeml gives the same catalogue for the path of a file with a complete QuakeML document and for the document itself; for a non-empty path that does not exist (without '<') it raises SAXParseException.",
  "all documents in all layouts, all paths, all options", "ranges over all documents", [FQ, PA+":parse_quakeml", PA+":parse_quakeml_file"])
p("C212", "from_quakeml reports an empty path",
  "Catalog.from_quakeml('') raises an exception, as for every other path of a file that does not exist.",
  "the empty path, all options", "a boundary case of C211", [FQ, PA+":parse_quakeml"])
p("C213", "export and import give back the table",
  "The text that Catalog.to_quakeml makes of a table (cells without markup characters), read by Catalog.from_quakeml from a file or as a string, gives a catalogue with one row for every exported row, in their order: longitude, latitude, depth and magnitude are the doubles nearest to the exported texts (so identical to the exported doubles if these have up to 15 digits), NaN where they were NaN; the times are the exported instants (to the second if some time is outside pandas' range), magnitude types and event types are the same texts.",
  "all tables, all rows, all numerals of moderate size, all valid times, all options", "ranges over all tables", [CA+":Catalog.to_quakeml", FQ, CA+":Catalog.__init__", J2])
p("C214", "numbers in a document become numbers in the table",
  "All quantities that QuakeML defines as numbers (uncertainties, secondary magnitudes, depth phase counts) are numbers in the catalogue made by from_quakeml or get_events.",
  "all documents", "ranges over all records", [CA+":Catalog.__init__", FD])
p("C215", "a download has one row per event",
  "FDSNWSEventClient.get_events returns, with batches of any size or in one request, the same catalogue: the table of the records of all events of the selection, one row per event in their order (with its id if ids are wanted), and start_time and end_time as attributes.",
  "all services that answer pages of QuakeML texts, all selections, all batch sizes, all options", "ranges over all services and paginations", [CLI+":FDSNWSEventClient.get_events", FD])

p("C216", "however a QuakeML document is written, it is read as the same records",
  "parse_quakeml_file, parse_quakeml_response and parse_quakeml return exactly the records of the document tree whichever way it is written: with named, decimal or hexadecimal references, CDATA sections, comments, processing instructions, single or double quotes, white space in tags, empty-element tags, a declaration, and comments, instructions and white space before and after the root element. Two spellings of one document give the same records.",
  "all document trees, all spellings, all ways the reader cuts texts (processing instructions inside texts with inner white space excepted)", "ranges over all documents and spellings", [PA+":parse_quakeml", PA+":parse_quakeml_file", PA+":parse_quakeml_response", PA+":QuakeMLHandler"])
p("C217", "line breaks of other systems change nothing in QuakeML",
  "For every text, well-formed or not, parse_quakeml_file and parse_quakeml give the same answer if its line breaks are CR LF or CR instead of LF.",
  "all texts, all mixtures of line breaks", "ranges over all texts", [PA+":parse_quakeml", PA+":parse_quakeml_file"])
p("C218", "weights in the Kolmogorov-Smirnov test",
  "In ks_test_gr, weights act as shares: multiplying all weights by a positive number or leaving out equal weights changes nothing, an event with the whole weight k counts as k events, the distances lie between 0 and 1 for non-negative weights, and weights of another length are an error unless the sample has only one value.",
  "all samples, weights, bins, parameters and random numbers", "ranges over all samples and weights", [MCF+":ks_test_gr"])
p("C219", "only dates are accepted by the fallback date parser",
  "Whatever text _robust_parse_datetime accepts is an existing date and time written year-month-dayThour:minute:second, with at most four digits of the year and one or two of the other fields, and whatever follows a point or a Z; the result is the date and time the text says. Conversely every such text is accepted (the day may be a blank and a digit; T may be t if the year has four digits).",
  "all texts", "ranges over all texts", ["seismostats/utils/__init__.py:_robust_parse_datetime", "seismostats/utils/__init__.py:_pad_year"])
p("C220", "a processing instruction inside a text changes nothing",
  "Two spellings of one QuakeML document that differ by a processing instruction inside a text give the same records.",
  "all documents and spellings", "ranges over all spellings", [PA+":QuakeMLHandler"])
p("C221", "every well-formed document is answered",
  "For every well-formed XML document, QuakeML or not, parse_quakeml_file and parse_quakeml return a list of records.",
  "all well-formed documents", "ranges over all documents", [PA+":QuakeMLHandler", PA+":parse_quakeml", PA+":parse_quakeml_file"])
p("C222", "the classic a-value in double precision is accurate",
  "For magnitudes below 8 on a grid of bins (any usual width), at most 2^40 of them complete, computed in IEEE double precision with an accurate logarithm: ClassicAValueEstimator selects exactly the events at or above mc, and its a-value, with reference magnitude, b-value up to 10 and scaling factor between 10^-30 and 10^30, differs by at most 2*10^-12 from exact arithmetic on the decimal magnitudes (without these two arguments only by the error of one logarithm).",
  "all samples on all grids, all references, b-values and scalings in these ranges, all accurate logarithms", "ranges over all doubles; rounding errors", [AV+"classic.py:ClassicAValueEstimator._estimate", AV+"base.py:AValueEstimator._reference_scaling", AV+"base.py:AValueEstimator._filter_magnitudes"])
p("C223", "the b-value of a catalogue made from a document is the b-value of the events in it",
  "A QuakeML document (a file in any spelling, a download in any batches, or a catalogue exported with to_quakeml and read again) whose events state magnitudes on a grid, some without a preferred magnitude: the catalogue made of it by from_quakeml or get_events gives with estimate_b (Classic or Utsu, in IEEE double precision) the estimate of the stated decimal magnitudes at or above mc, up to an explicit rounding error; if mc comes from estimate_mc_maxc, estimate_b uses exactly the events at or above the fullest bin plus the correction, and mc and b-value are stored. Missing magnitudes make no difference.",
  "all documents, spellings, services, cell contents and grids of magnitudes below 8; all accurate logarithms", "ranges over all documents and doubles; composes parser, table and estimator",
  [FQ, CLI+":FDSNWSEventClient.get_events", CA+":Catalog.__init__", CA+":Catalog.estimate_b", CA+":Catalog.estimate_mc_maxc", CA+":Catalog.to_quakeml"])
p("C224", "the b-value above a completeness magnitude by maximum curvature is accurate",
  "In IEEE double precision, for magnitudes below 8 on a grid of bins (any usual width, some magnitudes missing): the completeness magnitude of estimate_mc_maxc need not be the double of a decimal, but it lies within 10^-14 of the fullest bin plus the correction, and estimate_b (Classic or Utsu) called after it, without arguments mc, stores the estimate of the exact decimal magnitudes at or above that bin with the exact bin as mc, up to an explicit relative error (about 2^-52 times 220 n / delta_m for Classic and n for Utsu); also for the catalogue made from a document. The same holds for any mc within 10^-14 of the grid.",
  "all catalogues of magnitudes on all grids, all corrections up to 10, all mc within 10^-14 of the grid, all accurate logarithms and orders of summation", "ranges over all doubles; rounding errors; composes maximum curvature and estimator",
  [CA+":Catalog.estimate_mc_maxc", CA+":Catalog.estimate_b", MCF+":estimate_mc_maxc", BV+"classic.py:ClassicBValueEstimator._estimate", BV+"utsu.py:UtsuBValueEstimator._estimate", FQ])
p("C225", "the weighted b-value in double precision is accurate",
  "For magnitudes below 8 on a grid of bins (any usual width) with weights that are zero or between 10^-6 and 10^6 for the events at or above mc (not negative below it, not all zero), at most 2^40 of them, computed in IEEE double precision: the Classic and Utsu b-values differ from the estimate made of the exactly computed weighted mean of the decimal magnitudes by at most the explicit relative error (2n + 620/delta_m + 20) 2^-52 (Classic: if the weighted mean excess is at least delta_m / 2^40); also through Catalog.estimate_b with a weight column.",
  "all samples and weights in these ranges, all mc on the grid, all accurate logarithms and orders of summation", "ranges over all doubles; rounding errors",
  [BV+"classic.py:ClassicBValueEstimator._estimate", BV+"utsu.py:UtsuBValueEstimator._estimate", BV+"base.py:BValueEstimator.calculate", CA+":Catalog.estimate_b"])
p("C226", "plot_b_significant_1D without n_ms uses at most ten sizes between 15 and a fifteenth of the events",
  "If n_ms is not given, plot_b_significant_1D raises ValueError when there are at most 15 min_num complete events, and otherwise gives the picture it gives for some increasing numbers n_ms, at most ten, all between 15 and a fifteenth of the number of complete events (rounded down), both included; this also holds in IEEE double precision. With 225 complete events or more (and more than 15 min_num), min_num at most 15, none of them is below min_num and every point is the result of b_significant_1D.",
  "all catalogues, estimators and min_num; all numbers of events up to 2^40 in double precision", "ranges over all numbers of events; rounding in np.linspace before the conversion to integers", [PS+":plot_b_significant_1D"])
p("C227", "the default n_ms is usable whenever there are enough events",
  "Whenever there are more than 15 min_num complete events, plot_b_significant_1D without n_ms draws a result for each size it chooses.",
  "all catalogues with fewer than 225 complete events; all min_num above 15", "all inputs", [PS+":plot_b_significant_1D"])
p("C228", "n_ms may be a list",
  "plot_b_significant_1D gives the same picture for a list n_ms as for an array.",
  "all lists n_ms, catalogues, thresholds", "all inputs", [PS+":plot_b_significant_1D"])
p("C229", "red markers and band of the significance plot",
  "The points and the middle of the band are the MAC and its expectation given by b_significant_1D; the band is mu +- z s with z the normal quantile of 1 - p_threshold/2; a point is marked red exactly if MAC > mu + z' s with z' the quantile of 1 - p_threshold. Hence a point above the band is red and a point below the band never is (p_threshold at most 1/2).",
  "all catalogues, sizes, estimators, thresholds in (0, 1); all strictly increasing distribution functions", "continuum", [PS+":plot_b_significant_1D", "seismostats/analysis/b_significant.py:b_significant_1D"])
p("C230", "which catalogues are declustered",
  "A catalogue in which an event has no magnitude is never declustered: ValueError, whatever the window class, the cutoff, the index and the other events; the same holds for GruenthalWindow and a magnitude below -0.62/17.32. With the default index and an absent or positive cutoff these are the only refusals: otherwise the flags and clusters of Gardner and Knopoff are returned.",
  "all catalogues with and without missing magnitudes, window classes, cutoffs, fs_time_prop >= 0", "all catalogues; one bad event anywhere", [DC+"dec_gardner_knopoff.py", DC+"distance_time_windows.py:BaseDistanceTimeWindow.__call__"])
p("C231", "markup that is no markup is refused",
  "If after the opening tags and any complete events a document has a < followed by a character that starts no name and is none of / ! ? (such as a comparison in a comment text), or a <! that opens neither a comment nor a CDATA section (such as a document type declaration inside the document), then parse_quakeml_file and parse_quakeml give SAXParseException (or the exception that an event before it causes), never records, whatever follows.",
  "all openings, complete events and texts before it, all continuations, all ways the reader cuts texts", "ranges over all documents", ["seismostats/io/parser.py:parse_quakeml_file", "seismostats/io/parser.py:parse_quakeml"])
p("C232", "declustering the mainshocks again changes nothing",
  "If the mainshocks that GardnerKnopoffType1 finds are kept, get a new default index and are declustered again with the same windows, cutoff and fs_time_prop, all of them are mainshocks again, and each is a cluster of its own.",
  "all catalogues (with default index and usable magnitudes), window classes, positive or absent cutoffs, fs_time_prop >= 0", "two-run property over all catalogues", [DC+"dec_gardner_knopoff.py"])
p("C233", "declustering does not depend on the time origin",
  "If every event time of a catalogue is shifted by the same whole number of seconds, GardnerKnopoffType1 returns the same mainshock flags, and puts two events into one cluster after the shift exactly if it did before.",
  "all catalogues (with default index and usable magnitudes), whole shifts, window classes, positive or absent cutoffs, fs_time_prop >= 0", "two-run property over all catalogues", [DC+"dec_gardner_knopoff.py"])
p("C234", "declustering depends on the epicentres only through their distances",
  "If the epicentres of a catalogue are moved so that the great-circle angle between every two events stays the same (for example, every longitude is turned by the same angle, also across the date line), GardnerKnopoffType1 returns the same mainshock flags and puts the same events together into clusters.",
  "all catalogues (with default index and usable magnitudes), motions of the sphere, window classes, positive or absent cutoffs, fs_time_prop >= 0", "two-run property over all catalogues", [DC+"dec_gardner_knopoff.py", DC+"utils.py"])
