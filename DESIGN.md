# Formal model of SeismoStats in Rocq (Coq 8.16.1)

## 1. Approach

Every modelled Python function is a total Gallina function that follows the code branch by
branch, with exceptions as values (`res A := Ok a | Err exn`).  Mutable objects (estimators,
catalogues, option table, SAX handler) are records threaded through a state-error monad in
which attribute writes survive an exception, as they do in Python.  Sources of
non-determinism and foreign routines (random draws, `argsort` tie breaking, the map
projection, the web server, `scipy.optimize.minimize`, the normal quantile, the splitting of
text by the XML reader) are *parameters* of the model, and theorems quantify over them,
with the contract they need as an explicit hypothesis.

*Numbers.*  All code is written once, against a record of number operations (`Num`, file
`Num.v`, no laws assumed).
* Structural theorems (which events are kept, positions, history independence, error
  conditions, columns) hold for **every** `Num`, so in particular for IEEE doubles with NaN.
* Mathematical theorems (optimality, inequalities, equivariance, counting) are stated for the
  instance `XR` (`XR.v`): exact reals plus `+inf`, `-inf` and `NaN` with IEEE rules for the
  special values.  Idealised: rounding, overflow to infinity, the sign of zero.
* Where rounding matters for the claim it is modelled: the OpenQuake conversion (C158-C164)
  and the double-precision properties (C170 ff.) use Flocq's *definition* of rounding to
  binary64 on real numbers (`round radix2 (FLT_exp (-1074) 53) ZnearestE`).  The instance `F64 L`
  (`F64.v`) gives the *same model code* IEEE semantics: +, -, *, /, sqrt, conversions and comparisons
  rounded to nearest-even with overflow to infinity; exp, log, pow, sin, ... and the order
  of summation are the parameter `L`, over which the theorems quantify.  Not represented: the sign of zero.
* The instance on Coq's primitive floats (`FloatInst.v`) runs the model on the docstring and
  unit-test vectors of the repository (`Tests_*.v`: tests of the model, not proofs) and gives the
  witnesses of a few refutations that only happen in doubles (C89-C91).

*Statements.*  For each area a small file `Spec_*.v` states the property in its own
vocabulary (nearest grid point, likelihood, windows of consecutive events, minimal distance on
the sphere, calendar days, ...) without using the model; `Props_*.v` holds the theorems
`Cnn_...` with the model on one side and the specification on the other, each with at
least one `Example` showing that a concrete non-trivial case meets the hypotheses;
`*_proofs.v` hold the lemmas.

*Claims that turned out false of the code* are kept as properties of their own: the theorem
`Cnn_..._refuted` proves the negation, wherever possible for all inputs of the offending class
rather than for one witness, and the true part is proved under the neighbouring id.  They
have the status `partial` in MANIFEST.json with a note beginning "False of the code".

## 2. Trusted base

* Coq 8.16.1's kernel, including `vm_compute` (used for examples, tests and large integer
  comparisons) and, for the theorems listed last in AXIOMS.md and the files `Tests_*.v`, the
  kernel's primitive 63-bit integers and primitive floats.
* The axioms that `Print Assumptions` lists, theorem by theorem in **AXIOMS.md** (regenerated by
  `tools/gen_axioms.py`): about half of the theorems are closed under the global context; the
  others use only axioms of the standard library: those of the real numbers
  (`ClassicalDedekindReals.sig_forall_dec`, `ClassicalDedekindReals.sig_not_dec`), `Classical_Prop.classic` and
  `FunctionalExtensionality.functional_extensionality_dep`; theorems with a witness in doubles list
  the primitives of `PrimFloat`/`PrimInt63`.  The Example `good_minimizer_exists` (the
  contract of the minimiser is satisfiable) also uses
  `ClassicalEpsilon.constructive_indefinite_description`; no theorem does.
* No axioms of our own, no `Admitted`, no functors or module types, no kernel check switched off.
  Coquelicot and Flocq are used as libraries of definitions and lemmas (derivatives; rounding);
  they add no axioms.
* The faithfulness of the model to the code: by inspection (every definition of a `*_model.v`
  file cites the lines it models), by the `Tests_*.v` files, and by mutation testing (section 6).
* The behaviour of numpy, pandas, jinja2, xml.sax and datetime operations the code calls
  is modelled from their documentation (and for `np.unique`, `np.arange`, `np.histogram`, `pd.cut`,
  `strptime`, `DataFrame.apply` on their source): these are assumptions about libraries.

## 3. What is modelled

| Code (seismostats/...) | Model | Remarks |
|---|---|---|
| utils/binning.py (all functions) | Binning_model.v | `delta_x` as decimal literal (what `Decimal(str(x))` sees); histogram edges and float `arange` as in numpy |
| analysis/bvalue/{base,classic,utsu,positive,more_positive,utils,__init__}.py | BValue_model.v | estimator object with all attributes, weights, warnings, `idx`; bootstrap draws are parameters |
| analysis/avalue/*.py | AValue_model.v | as above |
| utils/simulate_distributions.py, analysis/lilliefors.py, base.py `p_lilliefors` | Simulate_model.v | random numbers are parameters; statsmodels' Lilliefors routine is a parameter |
| analysis/b_significant.py (all functions) | BSig_model.v | matrices as functions; `norm.cdf` is a parameter |
| analysis/estimate_mc.py (all functions) | Mc_model.v | simulated samples are parameters |
| analysis/declustering/*.py | Decluster_model.v | rows with index labels; Uhrhammer, Grünthal, Gardner-Knopoff windows; time windows that are NaN are refused (pd.Timedelta), those of 292 years or more are not modelled |
| analysis/bvalue/kijko_smit.py, weichert.py | Periods_model.v | `minimize` is a parameter with the contract "returns a minimiser" |
| analysis/magnitudes.py, plots/basics.py, plots/statistical.py, plots/seismicity.py | Plots_model.v | what is drawn: points, lines, sizes, extents, colours |
| catalogs/client.py | Client_model.v, ClientText_model.v | the server is a function from requests to responses (events; status and text) |
| io/parser.py | QuakeML_model.v | SAX events in, records out; characters of code below 256 |
| io/parser.py: parse_quakeml_file, parse_quakeml, parse_quakeml_response on texts | Xml_model.v | the XML reader (expat) as an automaton on characters; the pieces in which it passes on texts are a parameter |
| catalogs/catalog.py: constructors, metadata, columns, estimate_*, plot_*, bin_magnitudes, strip, drop_*, from_dict | Catalog_model.v | a frame is its class, columns, attributes; the numeric methods work on columns of numbers |
| catalogs/catalog.py: the column time in `__init__` | Times_model.v | pandas' ISO8601 parser for dates with a time of day, UTC or without zone; fallback parser |
| catalogs/catalog.py: the numeric columns in `__init__` | Numeric_model.v | pandas' to_numeric(errors='coerce'), from its C source: precise_xstrtod, floatify; entries are texts, numbers, gaps; the exponent is an unbounded integer |
| catalogs/catalog.py: from_dict, from_quakeml, `__init__` with the entries of all columns | Table_model.v | the table made of records; the conversions run again in every operation |
| catalogs/catalog.py: plot_in_space, plot_mags_in_time, plot_mc_vs_b | CatalogPlots_model.v | what the functions in plots get |
| catalogs/client.py: get_events with the resulting table | Download_model.v | composition of ClientText_model.v and Table_model.v |
| catalogs/catalog.py: the numeric columns of a table as arrays of the estimation methods | Workflow_model.v | composition of Table_model.v and Catalog_model.v |
| catalogs/catalog.py: to_quakeml, _create_ids, quakeml.j2 | Export_model.v, ExportText_model.v | document trees; the exact text with the white space of the template |
| catalogs/catalog.py: to_openquake, from_openquake | Openquake_model.v | times with binary64 rounding of seconds |
| catalogs/rategrid.py (all methods) | Rategrid_model.v | `np.unique(axis=0)` on records, groupby |
| IEEE arithmetic of binning, selection, FMD, b-values, maximum curvature | F64.v | instance of `Num` for the models above, C170-C176, C180-C182, C198-C202, C222-C225 |
| utils/__init__.py, _config.py, coordinates.py, filtering.py | Utils_model.v | pyproj and shapely predicates are parameters |

## 4. What is not modelled

* `Catalog.__init__`: conversion of column types by pandas, except the cleaning of texts
  (C142), times (C177-C179) and numbers (C198-C202); booleans and complex numbers in numeric
  columns.
* Reading files and HTTP: a file is its text (a parameter of `from_quakeml`), `requests` itself.
* XML: document types and references to characters from number 256 on (the model answers
  `Beyond` for texts with them); encodings; the contents of the declaration.
* matplotlib, cartopy and shapely drawing; labels, legends and axes (the data given to them is modelled).
* utils/docs.py (documentation examples), `__init__.py` re-exports, the logger.
* `plot_b_significant_1D` with zero in an array `n_ms` (numpy division) and `from_openquake` for
  years before 1000 (pandas' `%Y%m%d` is ambiguous there).
* Printed output (`verbose`) and the texts of warnings and errors; the *type* of the
  exception and the fact that a warning is issued are modelled.

## 5. The properties

Status `refuted` means: false of the code, negation proved (`partial` in the manifest).

| Id | Property | Status | Theorems in | What is modelled, how it is proved |
|---|---|---|---|---|
| C01 | bin_to_precision returns the nearest grid value | proved | Props_Binning | normal_round/bin_to_precision on XR; floor arithmetic, nearest grid point with ties up |
| C02 | binning is idempotent, monotone and commutes with grid shifts | proved | Props_Binning | normal_round/bin_to_precision on XR; floor arithmetic, nearest grid point with ties up |
| C03 | bin_to_precision rejects exactly missing input and too small delta; it works element by element | proved | Props_Binning | normal_round/bin_to_precision on XR; floor arithmetic, nearest grid point with ties up |
| C04 | binning_test characterises binned samples | proved | Props_Binning | binning_test on lists, delta as decimal literal; permutation and minimum lemmas |
| C05 | binning_test is independent of order, duplicates, NaN and common shift | proved | Props_Binning | binning_test on lists, delta as decimal literal; permutation and minimum lemmas |
| C06 | get_fmd is a lossless histogram | proved | Props_Binning, Props_Binning2 | get_fmd/get_cum_fmd with numpy arange and histogram; counting lemmas over bins |
| C07 | get_fmd / get_cum_fmd input validation | proved | Props_Binning | get_fmd/get_cum_fmd with numpy arange and histogram; counting lemmas over bins |
| C08 | get_cum_fmd counts the events at or above each bin | proved | Props_Binning, Props_Binning2 | get_fmd/get_cum_fmd with numpy arange and histogram; counting lemmas over bins |
| C09 | b-value estimators use exactly the events at or above the completeness magnitude | proved | Props_BValue | estimator object as state machine, any Num |
| C10 | the classic estimator is the maximum likelihood estimator | proved | Props_BValue | estimators on XR; concavity of the likelihood (ln x <= x-1), sums over lists |
| C11 | classic and Utsu estimates are ordered and agree in the limit | proved | Props_BValue | estimators on XR; concavity of the likelihood (ln x <= x-1), sums over lists |
| C12 | weights act as multiplicities | proved | Props_BValue | estimators on XR; concavity of the likelihood (ln x <= x-1), sums over lists |
| C13 | b-value does not depend on the order of the events | proved | Props_BValue | estimators on XR; concavity of the likelihood (ln x <= x-1), sums over lists |
| C14 | unit and origin of the magnitude scale | proved | Props_BValue | estimators on XR; concavity of the likelihood (ln x <= x-1), sums over lists |
| C15 | an unusable sample gives NaN, never an exception or a stale number | proved | Props_BValue | estimator object as state machine; induction over call histories, any Num |
| C16 | a reused estimator is history independent | proved | Props_BValue2 | estimator object as state machine; induction over call histories, any Num |
| C17 | a failed calculate does not change the shown result | proved | Props_BValue2 | estimator object as state machine; induction over call histories, any Num |
| C18 | b-positive uses exactly the sufficiently positive consecutive differences | proved | Props_Positive | positive estimators; list lemmas on consecutive differences and next larger events |
| C19 | b-more-positive pairs each event with the next larger one | proved | Props_Positive | positive estimators; list lemmas on consecutive differences and next larger events |
| C20 | positive estimators depend on the order in time only | proved | Props_Positive | positive estimators; list lemmas on consecutive differences and next larger events |
| C21 | BPositive on catalogues without positive differences | proved | Props_Positive | positive estimators; list lemmas on consecutive differences and next larger events |
| C22 | BMorePositive accepts continuous magnitudes | refuted | Props_Positive | case analysis over the whole calculation: the binning test with delta 0 inside find_next_larger's estimator always rejects |
| C23 | input validation of the b-value estimators | proved | Props_BValue2 | helpers and output selection; case analysis, list induction |
| C24 | Shi-Bolt uncertainty | proved | Props_BValue2 | helpers and output selection; case analysis, list induction |
| C25 | b and beta conversions are inverse of each other | proved | Props_BValue2 | helpers and output selection; case analysis, list induction |
| C26 | make_more_incomplete removes exactly the events hidden by a larger predecessor | proved | Props_MoreIncomplete | helpers and output selection; case analysis, list induction |
| C27 | bootstrap_std ignores unusable replicates | proved | Props_BValue2 | helpers and output selection; case analysis, list induction |
| C28 | p_lilliefors is defined for samples on a grid at or above mc | proved | Props_Simulate | helpers and output selection; case analysis, list induction |
| C29 | estimate_b returns the requested outputs | proved | Props_BValue2 | helpers and output selection; case analysis, list induction |
| C30 | classic a-value counts the complete events | proved | Props_AValue | a-value estimators; logarithm laws, list lemmas |
| C31 | a-value estimators: kept events, idx and n stay consistent | proved | Props_AValue | a-value estimators; logarithm laws, list lemmas |
| C32 | positive a-values are invariant under shift and rescaling of time | proved | Props_AValue2 | a-value estimators; logarithm laws, list lemmas |
| C33 | a-positive never underestimates the number of used differences | proved | Props_AValue2 | a-value estimators; logarithm laws, list lemmas |
| C34 | APositive on a catalogue with no qualifying difference | proved | Props_AValue | a-value estimators; logarithm laws, list lemmas |
| C35 | cut_constant_idx cuts into consecutive pieces of constant length | proved | Props_BSig | b_significant; arithmetic of cut points, quadratic forms, partitions |
| C36 | b_significant_1D visits every window of n_m consecutive events exactly once | proved | Props_BSig, Props_BSig4 | b_significant; arithmetic of cut points, quadratic forms, partitions |
| C37 | b_significant_1D pairs every event with its own completeness magnitude | refuted | Props_BSig3, Props_BSig5 | witness on three events; the pairing without x_variable is C36 |
| C38 | transform_n maps estimates between sample sizes consistently | proved | Props_BSig2 | b_significant; arithmetic of cut points, quadratic forms, partitions |
| C39 | est_morans_i is an affine invariant of the values, ignoring NaN | proved | Props_BSig2 | b_significant; arithmetic of cut points, quadratic forms, partitions |
| C40 | values_from_partitioning evaluates each part on its own events | proved | Props_BSig3, Props_BSig4 | b_significant; arithmetic of cut points, quadratic forms, partitions |
| C41 | maximum curvature picks the first fullest bin | proved | Props_Mc | estimate_mc; loop invariants over the tested magnitudes, empirical distribution functions |
| C42 | estimate_mc_ks returns the smallest tested magnitude that passes | proved | Props_Mc2 | estimate_mc; loop invariants over the tested magnitudes, empirical distribution functions |
| C43 | results do not depend on the warnings option | proved | Props_Mc2 | estimate_mc; loop invariants over the tested magnitudes, empirical distribution functions |
| C44 | the KS p-value is a p-value | proved | Props_Mc | estimate_mc; loop invariants over the tested magnitudes, empirical distribution functions |
| C45 | estimate_mc_b_stability returns a stable mc | proved | Props_Mc3, Props_Mc4 | estimate_mc; loop invariants over the tested magnitudes, empirical distribution functions |
| C46 | cdf_discrete_exp is the distribution function of binned exponential magnitudes | proved | Props_Mc | estimate_mc; loop invariants over the tested magnitudes, empirical distribution functions |
| C47 | Gardner-Knopoff: mainshocks and clusters | proved | Props_Decluster, Props_Decluster2, Props_Decluster5 | greedy algorithm invariant: first mainshock whose windows contain the event |
| C48 | declustering does not depend on the DataFrame index | refuted | Props_Decluster2 | the loop indexes arrays by labels; general IndexError theorem and a two-event witness |
| C49 | space-time windows grow with magnitude | proved | Props_Windows | monotonicity of exp/log formulas, interval bounds at the break points |
| C50 | haversine distance is a bounded symmetric distance | proved | Props_Sphere | haversine as the great-circle angle; spherical triangle inequality from Gram determinants |
| C51 | batched download returns the same catalogue as a single request | proved | Props_Client | request loop with fuel; doubling and bisection invariants |
| C52 | batch count search terminates with the exact number of batches | proved | Props_Client | request loop with fuel; doubling and bisection invariants |
| C53 | QuakeML parsing does not depend on how the XML reader chunks text | proved | Props_QuakeML | SAX handler as state machine; refinement to flattening of the document tree |
| C54 | QuakeML handler flattens every event independently | proved | Props_QuakeML | SAX handler as state machine; refinement to flattening of the document tree |
| C55 | magnitude selection prefers the preferred magnitude, then the newest | proved | Props_QuakeML2 | selection as maximum by version and time, stable sorting |
| C56 | magnitudes without optional fields do not break parsing | refuted | Props_QuakeML | the selection of magnitudes raises for every event with such a magnitude |
| C57 | Catalog operations return the type fitting the columns | proved | Props_Catalog | catalogue frame and numeric methods; case analysis over operations, induction over histories |
| C58 | bin_magnitudes changes magnitudes only, and the original only in place | proved | Props_Catalog2 | catalogue frame and numeric methods; case analysis over operations, induction over histories |
| C59 | explicit arguments take precedence over catalogue attributes | proved | Props_Catalog2 | catalogue frame and numeric methods; case analysis over operations, induction over histories |
| C60 | secondary magnitudes survive the QuakeML export | refuted | Props_Export2 | substring test of the type name in the column name; general theorem on the exported tree |
| C61 | rate grid cell ids identify cells | proved | Props_Rategrid | np.unique on records; equality of cells iff equality of numbers |
| C62 | options behave like a map with a fixed key set | proved | Props_Utils | option table as finite map, induction over histories |
| C63 | local coordinate transformation is invertible | proved | Props_Coordinates, Props_Mask | coordinate transformer over an invertible projection; minimum/maximum lemmas |
| C64 | bounding boxes are the smallest rectangles | proved | Props_Coordinates | coordinate transformer over an invertible projection; minimum/maximum lemmas |
| C65 | simulated magnitudes follow the inverse distribution function | proved | Props_Simulate | inverse distribution functions; monotonicity and bounds |
| C66 | dithering and binned simulation respect the bins | proved | Props_Simulate | inverse distribution functions; monotonicity and bounds |
| C67 | apply_edwards converts ML to Mw monotonically and once | proved | Props_Plots | string tests and a quadratic |
| C68 | Kijko-Smit estimate pools the sub-catalogues | proved | Props_KijkoSmit | pooled estimator; sums over sub-catalogues |
| C69 | b_parameter='beta' works | refuted | Props_KijkoSmit, Props_Weichert2 | evaluation of both functions for an arbitrary Num |
| C70 | dot sizes lie in the requested range | proved | Props_Plots | power interpolation |
| C71 | filter_polygon keeps exactly the inside rows | proved | Props_Coordinates | filter over rows with the predicate as parameter |
| C72 | datetime strings are parsed robustly | proved | Props_Utils | strptime model, all calendar dates |
| C73 | binning_test with delta_x = 0 | proved | Props_Binning | delta_x = 0: loop over powers of ten, reduction to the largest bin width |
| C74 | a-value estimators have no memory of earlier calls | proved | Props_AValue | as C16, for the a-value objects |
| C75 | a failing a-value calculate keeps the stored a-value | proved | Props_AValue | as C17, for the a-value objects |
| C76 | a failed b-value calculate leaves value and data consistent | refuted | Props_BValue2, Props_General | two-call history as witness |
| C77 | BPositive with weights and no qualifying difference | refuted | Props_Positive | weights sum to zero over the empty selection: ZeroDivisionError |
| C78 | equal weights do not change the Shi-Bolt uncertainty | refuted | Props_BValue2, Props_General | witness with exact reals |
| C79 | estimate_b with return_n alone | refuted | Props_BValue2 | evaluation of the output selection for every input |
| C80 | APositive without qualifying difference empties the times | refuted | Props_AValue | evaluation of the branch without differences, any input |
| C81 | mag_max = 0 is respected | refuted | Props_Simulate | falsy 0 in `if mag_max`, all inputs |
| C82 | dithering respects the bin that ends at 0 | refuted | Props_Simulate | consequence of C81 in dithering |
| C83 | a failing a-value calculate never changes the stored a-value | refuted | Props_AValue | state after the exception in _reference_scaling |
| C84 | the 1D autocorrelation lies between -1 and 1 | proved | Props_BSig2 | Cauchy-Schwarz on consecutive deviations |
| C85 | b_significant_1D with x_variable does not depend on the order of the events | proved | Props_BSig3 | sorting permutation lemmas, any order of the input |
| C86 | a sample with one value: KS test and the warnings option | refuted | Props_Mc2, Props_Mc5 | refutation by evaluating the code path; general where stated |
| C87 | estimate_mc_ks with nothing to test and the warnings option | refuted | Props_Mc2 | refutation by evaluating the code path; general where stated |
| C88 | estimate_mc_b_stability with a stability range of one bin | refuted | Props_Mc4 | refutation by evaluating the code path; general where stated |
| C89 | estimate_mc_b_stability can return 0.0 | refuted | Props_Mc4 | refutation by evaluating the code path; general where stated |
| C90 | estimate_mc_b_stability skips magnitudes with undefined difference | refuted | Props_Mc4 | refutation by evaluating the code path; general where stated |
| C91 | estimate_mc_b_stability averages over the range in doubles | refuted | Props_Mc4 | refutation by evaluating the code path; general where stated |
| C92 | Gardner-Knopoff time windows grow with magnitude | refuted | Props_General, Props_Windows | refutation by interval bounds |
| C93 | a time cutoff of zero is respected | refuted | Props_Windows | refutation by interval bounds |
| C94 | Gruenthal windows are defined for all magnitudes | refuted | Props_Windows | refutation by interval bounds |
| C95 | declustering does not depend on the order of the rows | proved | Props_Decluster2, Props_Decluster6 | uniqueness of the greedy clustering up to ties; permutation of rows |
| C96 | batched download with batch_size = 0 terminates | refuted | Props_Client | the first loop of the count never ends for batch_size 0: fuel exceeded for every fuel |
| C97 | limit is honoured together with batch_size | refuted | Props_Client | evaluation of the request parameters |
| C98 | requests carry exactly the given parameters | proved | Props_Client | evaluation of the request parameters for all combinations of options |
| C99 | texts with inner white space do not depend on chunking | refuted | Props_QuakeML, Props_QuakeML4 | text split into two pieces: strip before append |
| C100 | origin and event columns of a parsed record | proved | Props_QuakeML3 | mapping tables, lookups in dictionaries |
| C101 | Weichert estimate is the maximum likelihood estimate | proved | Props_Weichert2 | Weichert/Kijko-Smit: log-sum-exp convexity, derivative of the likelihood, counting of bins |
| C102 | the Weichert objective has a single local minimum | proved | Props_Weichert2 | Weichert/Kijko-Smit: log-sum-exp convexity, derivative of the likelihood, counting of bins |
| C103 | standard errors are inverse observed information | proved | Props_KijkoSmit, Props_Weichert2 | Weichert/Kijko-Smit: log-sum-exp convexity, derivative of the likelihood, counting of bins |
| C104 | Weichert counts every complete event once | proved | Props_Weichert | Weichert/Kijko-Smit: log-sum-exp convexity, derivative of the likelihood, counting of bins |
| C105 | mag_max and empty bins enter the Weichert likelihood | refuted | Props_Weichert2, Props_Weichert3 | Weichert/Kijko-Smit: log-sum-exp convexity, derivative of the likelihood, counting of bins |
| C106 | magnitudes up to mag_max are accepted by Weichert | refuted | Props_Weichert2 | Weichert/Kijko-Smit: log-sum-exp convexity, derivative of the likelihood, counting of bins |
| C107 | periods without complete events do not spoil the Kijko-Smit estimate | refuted | Props_KijkoSmit | Weichert/Kijko-Smit: log-sum-exp convexity, derivative of the likelihood, counting of bins |
| C108 | Kijko-Smit rate is the maximum likelihood rate | refuted | Props_KijkoSmit | Weichert/Kijko-Smit: log-sum-exp convexity, derivative of the likelihood, counting of bins |
| C109 | Kijko-Smit a-value is the logarithm of the rate at magnitude 0 | refuted | Props_KijkoSmit | Weichert/Kijko-Smit: log-sum-exp convexity, derivative of the likelihood, counting of bins |
| C110 | Weichert a-value is the logarithm of the rate at magnitude 0 | proved | Props_Weichert3 | Weichert/Kijko-Smit: log-sum-exp convexity, derivative of the likelihood, counting of bins |
| C111 | catalogues not aligned with the bins are rejected | refuted | Props_KijkoSmit | Weichert/Kijko-Smit: log-sum-exp convexity, derivative of the likelihood, counting of bins |
| C112 | Weichert rate is the maximum likelihood rate | proved | Props_Weichert3 | Weichert/Kijko-Smit: log-sum-exp convexity, derivative of the likelihood, counting of bins |
| C113 | methods run exactly if their required columns are present | proved | Props_Utils | state transformer with the shared variable of the decorator; induction over the calls |
| C114 | fractions of seconds survive the fallback date parser | refuted | Props_Utils | parser cut at the decimal point, all dates |
| C115 | parsed dates exist | proved | Props_Utils | soundness of the strptime model: field ranges and days in month |
| C116 | time zones are ignored by the fallback date parser | refuted | Props_Utils | an offset after the seconds leaves trailing text |
| C117 | the reference point is the origin of local coordinates | proved | Props_Coordinates | projection as parameter with the inverse law |
| C118 | the bounding box functions compose | refuted | Props_Coordinates, Props_General | one rectangle as witness |
| C119 | filtering an empty catalogue gives an empty catalogue | refuted | Props_Coordinates | DataFrame.apply on an empty frame returns a frame |
| C120 | dot sizes of equal magnitudes are numbers | refuted | Props_Plots | 0/0 in the normalisation, all lists of equal magnitudes |
| C121 | the FMD plots show the number (or total weight) of magnitudes in each bin or from each bin on | proved | Props_FmdPlot | data handed to the plots; counting lemmas |
| C122 | the Gutenberg-Richter line starts at the first complete bin and falls by b decades per magnitude | proved | Props_FmdPlot | data handed to the plots; counting lemmas |
| C123 | NaN magnitudes are ignored in weighted FMD plots | refuted | Props_FmdPlot | data handed to the plots; counting lemmas |
| C124 | the Gutenberg-Richter line fits the weighted points | refuted | Props_FmdPlot, Props_General | data handed to the plots; counting lemmas |
| C125 | plot_cum_count shows, at every time, how many complete events have happened | proved | Props_TimePlots | cumulative steps, completeness line, aliasing of the caller's lists as state |
| C126 | plot_mags_in_time shows every event and the completeness magnitude in force at every time | proved | Props_TimePlots2 | cumulative steps, completeness line, aliasing of the caller's lists as state |
| C127 | plot_mags_in_time leaves its arguments alone | refuted | Props_TimePlots2 | cumulative steps, completeness line, aliasing of the caller's lists as state |
| C128 | every point of plot_mc_vs_b is an independent estimate | proved | Props_BPlots | loops over windows with one estimator object, using C16 |
| C129 | plot_b_series_constant_nm shows the b-value of each window of n_m complete events at the chosen place | proved | Props_BPlots | loops over windows with one estimator object, using C16 |
| C130 | plot_b_significant_1D shows the results of b_significant_1D | proved | Props_BPlots | loops over windows with one estimator object, using C16 |
| C131 | the map shows all events | proved | Props_TimePlots2 | minimum/maximum lemmas |
| C132 | adjusted colours are valid colours, lighter for factors below one and darker above | proved | Props_TimePlots2 | linear interpolation of colours in [0,1] |
| C133 | the metadata of a catalogue survive every operation | proved | Props_Catalog | metadata propagation as a state machine; induction over operations |
| C134 | merge keeps the metadata of the left catalogue, concat of the first | proved | Props_Catalog | metadata propagation as a state machine; induction over operations |
| C135 | strip keeps the required columns only | proved | Props_Catalog | metadata propagation as a state machine; induction over operations |
| C136 | drop_uncertainties, drop_ids and from_dict drop exactly the columns with the documented endings | proved | Props_Catalog | metadata propagation as a state machine; induction over operations |
| C137 | strip keeps catalog_id of every ForecastCatalog | refuted | Props_Catalog | metadata propagation as a state machine; induction over operations |
| C138 | Catalog.estimate_a: explicit arguments take precedence, only a_value changes | proved | Props_Catalog2 | catalogue methods as state transformers; equality with the direct call |
| C139 | estimating mc through a catalogue sets mc to the result and nothing else | proved | Props_Catalog2 | catalogue methods as state transformers; equality with the direct call |
| C140 | estimates through a catalogue use its columns | proved | Props_Catalog2 | catalogue methods as state transformers; equality with the direct call |
| C141 | plots of a catalogue use its attributes for omitted arguments and leave it unchanged | proved | Props_Catalog2, Props_Catalog3 | catalogue methods as state transformers; equality with the direct call |
| C142 | texts standing for missing values become None | proved | Props_Catalog2 | exact set of texts that stand for missing values |
| C143 | equal cells with unknown bounds get the same cell_id | refuted | Props_Rategrid | rate grid; np.unique, groupby, MultiIndex |
| C144 | time index and concatenation of rate grids | proved | Props_Rategrid2 | rate grid; np.unique, groupby, MultiIndex |
| C145 | the cell_id of a row does not change when rows are selected | refuted | Props_Rategrid2, Props_Rategrid4 | rate grid; np.unique, groupby, MultiIndex |
| C146 | statistics of a forecast grid aggregate each cell over its realizations | proved | Props_Rategrid3 | rate grid; np.unique, groupby, MultiIndex |
| C147 | the statistics show the bounds of each cell | refuted | Props_Rategrid3, Props_Rategrid4 | rate grid; np.unique, groupby, MultiIndex |
| C148 | statistics work for grids without depths | refuted | Props_Rategrid3 | rate grid; np.unique, groupby, MultiIndex |
| C149 | the class and attributes of what an operation on a rate grid gives | proved | Props_Rategrid4 | rate grid; np.unique, groupby, MultiIndex |
| C150 | exporting a catalogue to QuakeML and reading it back | proved | Props_Export2 | template as tree builder composed with the parser model (round trip) |
| C151 | which events are exported to QuakeML | proved | Props_Export2 | template as tree builder composed with the parser model (round trip) |
| C152 | new ids of secondary magnitudes appear in the exported document | refuted | Props_Export2 | template as tree builder composed with the parser model (round trip) |
| C153 | missing texts are missing after an export and import | refuted | Props_Export2 | template as tree builder composed with the parser model (round trip) |
| C154 | lower and upper uncertainties, confidence levels and the uncertainty of the time survive the export | refuted | Props_Export2 | template as tree builder composed with the parser model (round trip) |
| C155 | missing ids are created in every row | refuted | Props_Export2 | template as tree builder composed with the parser model (round trip) |
| C156 | a forecast catalogue is exported as one document per realization | proved | Props_Export2 | template as tree builder composed with the parser model (round trip) |
| C157 | secondary magnitudes with unrelated type names survive the export | proved | Props_Export2 | template as tree builder composed with the parser model (round trip) |
| C158 | times survive the conversion to OpenQuake and back | proved | Props_Openquake | calendar arithmetic; rounding error of seconds in binary64 (Flocq round) |
| C159 | times read from OpenQuake are right to half a microsecond | proved | Props_Openquake | calendar arithmetic; rounding error of seconds in binary64 (Flocq round) |
| C160 | times in range keep their microseconds whatever the other events are | refuted | Props_Openquake | calendar arithmetic; rounding error of seconds in binary64 (Flocq round) |
| C161 | historic events can be read from OpenQuake catalogues with any columns | refuted | Props_Openquake | calendar arithmetic; rounding error of seconds in binary64 (Flocq round) |
| C162 | columns of the conversion to and from OpenQuake | proved | Props_Openquake2 | calendar arithmetic; rounding error of seconds in binary64 (Flocq round) |
| C163 | dates that do not exist are not read from OpenQuake | proved | Props_Openquake | calendar arithmetic; rounding error of seconds in binary64 (Flocq round) |
| C164 | times of day that do not exist are not read from OpenQuake | refuted | Props_Openquake | calendar arithmetic; rounding error of seconds in binary64 (Flocq round) |
| C165 | the uncertainty of an unusable weighted sample is NaN | refuted | Props_BValue | np.average with weights summing to zero |
| C166 | a sample of unknown magnitudes gives NaN | refuted | Props_BValue | binning test rejects an all-NaN sample |
| C167 | p_lilliefors is defined for samples that are binned more coarsely than delta_m | refuted | Props_Simulate | grid at other width fails the test inside dithering |
| C168 | p_lilliefors is defined whenever the estimate is | refuted | Props_Simulate | the sample below mc fails in dithering for some draws |
| C169 | binning_test with delta_x = 0 and the default tolerance | refuted | Props_Binning | the loop starts at 1e-14, which bin_to_precision rejects |
| C170 | in double precision, bin_to_precision returns the double of the nearest multiple of the bin width | proved | Props_F64 | binary64 arithmetic by Flocq rounding; error bounds, lattice arguments |
| C171 | in double precision, binning is idempotent and equal bins give equal doubles | proved | Props_F64 | binary64 arithmetic by Flocq rounding; error bounds, lattice arguments |
| C172 | in double precision, binning_test accepts exactly the binned samples below magnitude 8 | proved | Props_F64 | binary64 arithmetic by Flocq rounding; error bounds, lattice arguments |
| C173 | correctly binned catalogues with magnitudes of 8 and more are accepted | refuted | Props_F64 | binary64 arithmetic by Flocq rounding; error bounds, lattice arguments |
| C174 | in double precision, the estimators select exactly the complete events and the large enough differences | proved | Props_F64b | binary64 arithmetic by Flocq rounding; error bounds, lattice arguments |
| C175 | in double precision, get_fmd counts every event in its bin | proved | Props_F64b | binary64 arithmetic by Flocq rounding; error bounds, lattice arguments |
| C176 | the b-value is not spoilt by rounding errors | proved | Props_F64c | binary64 arithmetic by Flocq rounding; error bounds, lattice arguments |
| C177 | the times of a new catalogue are the times stated by the texts | proved | Props_Times | parser of ISO texts on all numerals; case analysis of the fallback; induction over the column |
| C178 | the time of an event does not depend on the other events of a new catalogue | refuted | Props_Times | parser of ISO texts on all numerals; case analysis of the fallback; induction over the column |
| C179 | times written with a blank are read for historic events too | refuted | Props_Times | parser of ISO texts on all numerals; case analysis of the fallback; induction over the column |
| C180 | in double precision, maximum curvature finds the fullest bin and its result selects the right events | proved | Props_F64d | binary64 arithmetic by Flocq rounding; error bounds, lattice arguments |
| C181 | the completeness magnitude by maximum curvature is the double of its decimal | refuted | Props_F64d | binary64 arithmetic by Flocq rounding; error bounds, lattice arguments |
| C182 | in double precision, get_cum_fmd counts exactly the events at or above each bin | proved | Props_F64e | binary64 arithmetic by Flocq rounding; error bounds, lattice arguments |
| C183 | reading QuakeML text gives the records of the document it contains | proved | Props_Xml | automaton of the XML reader, character by character; induction over document trees and over prefixes; composition with the template as text |
| C184 | a file that is cut off never yields a wrong record | proved | Props_Xml2 | automaton of the XML reader, character by character; induction over document trees and over prefixes; composition with the template as text |
| C185 | an interrupted file is reported | refuted | Props_Xml2 | automaton of the XML reader, character by character; induction over document trees and over prefixes; composition with the template as text |
| C186 | the string returned by to_quakeml is read back as the table | proved | Props_ExportText | automaton of the XML reader, character by character; induction over document trees and over prefixes; composition with the template as text |
| C187 | every string returned by to_quakeml can be read back | refuted | Props_ExportText2 | automaton of the XML reader, character by character; induction over document trees and over prefixes; composition with the template as text |
| C188 | what is escaped in a QuakeML document is decoded in the records | proved | Props_Escape | automaton of the XML reader, character by character; induction over document trees and over prefixes; composition with the template as text |
| C189 | Kijko and Smit's warning | proved | Props_KijkoSmit2 | case analysis; minimum of the table over the reals |
| C190 | estimate_a, the estimator objects and Catalog.estimate_a agree | proved | Props_AValue3 | case analysis over the runs of the estimators (StateM) |
| C191 | the mask of a country covers the map | proved | Props_Mask | half-planes of the edges; shoelace formula over the reals |
| C192 | indentation of a QuakeML document does not matter | proved | Props_Blanks | induction over the callbacks |
| C193 | a download gives the records of the selected events, whole or interrupted | proved | Props_Download | composition of the client loops with the XML automaton and the handler; prefixes of every response |
| C194 | a failed or interrupted request raises an exception | refuted | Props_Download | composition of the client loops with the XML automaton and the handler; prefixes of every response |
| C195 | a batched download ends for a service that answers an empty selection with an empty document | refuted | Props_Download | composition of the client loops with the XML automaton and the handler; prefixes of every response |
| C196 | the estimators warn exactly when they should | proved | Props_Warnings | inversion of the state-transformer runs; quiet steps |
| C197 | the p-value of b_significant_1D | proved | Props_PValue | case analysis; real arithmetic |
| C198 | numbers that arrive as texts become the nearest double | proved | Props_Numeric | reader of numerals as automaton, inverted for all texts; binary64 rounding of each step (Flocq) |
| C199 | texts that are no numbers become NaN | proved | Props_Numeric | reader of numerals as automaton, inverted for all texts; binary64 rounding of each step (Flocq) |
| C200 | columns of integer texts become exact integers | proved | Props_Numeric | reader of numerals as automaton, inverted for all texts; binary64 rounding of each step (Flocq) |
| C201 | a number survives being written with str and read again | refuted | Props_Numeric | reader of numerals as automaton, inverted for all texts; binary64 rounding of each step (Flocq) |
| C202 | accuracy of numbers that arrive as texts | proved | Props_Numeric | reader of numerals as automaton, inverted for all texts; binary64 rounding of each step (Flocq) |
| C203 | weights can be given to the search for the completeness magnitude | refuted | Props_Kwargs | inversion of the loops and of the estimator; lengths; sortedness arguments |
| C204 | times given to the search for the completeness magnitude stay with their events | refuted | Props_Kwargs | inversion of the loops and of the estimator; lengths; sortedness arguments |
| C205 | times in increasing order change nothing | proved | Props_Kwargs | inversion of the loops and of the estimator; lengths; sortedness arguments |
| C206 | weights can be given to b_significant_1D | refuted | Props_Kwargs | inversion of the loops and of the estimator; lengths; sortedness arguments |
| C207 | one row per record, the columns that the records mention | proved | Props_Table | composition of the models of the reader, the parser, the conversions and pandas' frames; induction over records and columns |
| C208 | the entries of the table are what the records say | proved | Props_Table | composition of the models of the reader, the parser, the conversions and pandas' frames; induction over records and columns |
| C209 | repeating the conversions changes nothing | proved | Props_Table | composition of the models of the reader, the parser, the conversions and pandas' frames; induction over records and columns |
| C210 | records without magnitudes can be loaded | refuted | Props_Table | composition of the models of the reader, the parser, the conversions and pandas' frames; induction over records and columns |
| C211 | from_quakeml: a path and the text of the file mean the same | proved | Props_Table2 | composition of the models of the reader, the parser, the conversions and pandas' frames; induction over records and columns |
| C212 | from_quakeml reports an empty path | refuted | Props_Table2 | composition of the models of the reader, the parser, the conversions and pandas' frames; induction over records and columns |
| C213 | export and import give back the table | proved | Props_Table2 | composition of the models of the reader, the parser, the conversions and pandas' frames; induction over records and columns |
| C214 | numbers in a document become numbers in the table | refuted | Props_Table2 | composition of the models of the reader, the parser, the conversions and pandas' frames; induction over records and columns |
| C215 | a download has one row per event | proved | Props_Table2 | composition of the models of the reader, the parser, the conversions and pandas' frames; induction over records and columns |
| C216 | however a QuakeML document is written, it is read as the same records | proved | Props_Spelling | relation between trees and their spellings; induction over spellings and trees along the automaton of the XML reader |
| C217 | line breaks of other systems change nothing in QuakeML | proved | Props_Spelling | relation between trees and their spellings; induction over spellings and trees along the automaton of the XML reader |
| C218 | weights in the Kolmogorov-Smirnov test | proved | Props_KsWeights | rewriting of the histogram as sums of weights; scaling lemmas over prefix sums |
| C219 | only dates are accepted by the fallback date parser | proved | Props_Dates, Props_Dates2 | inversion of the parser; injectivity of splitting at separators, digits and numbers by induction |
| C220 | a processing instruction inside a text changes nothing | refuted | Props_Spelling2 | refutation: a document, its spelling and the run of the reader and the handler, for all parameters |
| C221 | every well-formed document is answered | refuted | Props_Spelling2 | refutation: a document, its spelling and the run of the reader and the handler, for all parameters |
| C222 | the classic a-value in double precision is accurate | proved | Props_F64f | binary64 arithmetic by Flocq rounding; error bounds, lattice arguments |
| C223 | the b-value of a catalogue made from a document is the b-value of the events in it | proved | Props_Workflow, Props_Workflow2 | composition of the theorems on the parser, the table, the download and double precision; induction over the events |
| C224 | the b-value above a completeness magnitude by maximum curvature is accurate | proved | Props_Workflow3 | absolute error of the sum tree by induction; binary64 error bounds; composition with maximum curvature and the parser |
| C225 | the weighted b-value in double precision is accurate | proved | Props_F64g | relative errors of products, sums and quotients in binary64; induction over summation trees |
| C226 | plot_b_significant_1D without n_ms uses at most ten sizes between 15 and a fifteenth of the events | proved | Props_BPlots2 | linspace bounds in exact and binary64 arithmetic, sorted deduplication; inverse of a strictly increasing distribution function |
| C227 | the default n_ms is usable whenever there are enough events | refuted | Props_BPlots2 | linspace bounds in exact and binary64 arithmetic, sorted deduplication; inverse of a strictly increasing distribution function |
| C228 | n_ms may be a list | refuted | Props_BPlots2 | linspace bounds in exact and binary64 arithmetic, sorted deduplication; inverse of a strictly increasing distribution function |
| C229 | red markers and band of the significance plot | proved | Props_BPlots2 | linspace bounds in exact and binary64 arithmetic, sorted deduplication; inverse of a strictly increasing distribution function |
| C230 | which catalogues are declustered | proved | Props_Decluster3 | propagation of NaN through windows and cutoff; reduction to C47 |
| C231 | markup that is no markup is refused | proved | Props_Xml3 | invariant of the reader after complete events; case analysis over the 256 characters by computation |
| C232 | declustering the mainshocks again changes nothing | proved | Props_Decluster4 | uniqueness of the flags (C47_flags_unique) on the catalogue of mainshocks |
| C233 | declustering does not depend on the time origin | proved | Props_Decluster5 | uniqueness of the flags and of the partition (C47_flags_unique, C47_clusters_unique) under a translated clock |
| C234 | declustering depends on the epicentres only through their distances | proved | Props_Decluster6 | uniqueness of the flags and of the partition, with distances that are determined by the angle on the sphere |

## 6. Tests of the theorems against wrong programs

`tools/mutate.py` applies one edit to a scratch copy of the model, rebuilds, and records which
theorems fail; `seeded/LOG.jsonl` has one line per attempt.  Edits are of the kinds in the task:
wrong boundaries (`>=` for `>`), dropped updates, swapped arguments, missed cases, wrong
constants.  Survivors led to tightened statements (field `theorems_tightened`) or are
marked as equivalent programs (the edited program has the same observable behaviour).

## 7. Layout

* `rocq/theories/Base.v, Num.v, XR.v, FloatInst.v, RList.v, SortLib.v, StateM.v, Dict.v`: foundations
* `rocq/theories/*_model.v`: the model; `Spec_*.v`: the specifications; `Props_*.v`: the theorems;
  `*_proofs.v`, `*_real.v`, `Likelihood.v`: lemmas; `Tests_*.v`: runs of the model
* `tools/gen_properties.py`, `tools/more_properties.py` -> `properties.jsonl`;
  `tools/gen_manifest.py` (+ `tools/notes.json`) -> `MANIFEST.json`; `tools/gen_axioms.py` -> `AXIOMS.md`;
  `tools/gen_design.py` -> this file
