{
 "single": {
  "C22": "case analysis over the whole calculation: the binning test with delta 0 inside find_next_larger's estimator always rejects",
  "C37": "witness on three events; the pairing without x_variable is C36",
  "C48": "the loop indexes arrays by labels; general IndexError theorem and a two-event witness",
  "C56": "the selection of magnitudes raises for every event with such a magnitude",
  "C60": "substring test of the type name in the column name; general theorem on the exported tree",
  "C69": "evaluation of both functions for an arbitrary Num",
  "C73": "delta_x = 0: loop over powers of ten, reduction to the largest bin width",
  "C74": "as C16, for the a-value objects",
  "C75": "as C17, for the a-value objects",
  "C76": "two-call history as witness",
  "C77": "weights sum to zero over the empty selection: ZeroDivisionError",
  "C78": "witness with exact reals",
  "C79": "evaluation of the output selection for every input",
  "C80": "evaluation of the branch without differences, any input",
  "C81": "falsy 0 in `if mag_max`, all inputs",
  "C82": "consequence of C81 in dithering",
  "C83": "state after the exception in _reference_scaling",
  "C84": "Cauchy-Schwarz on consecutive deviations",
  "C85": "sorting permutation lemmas, any order of the input",
  "C95": "uniqueness of the greedy clustering up to ties; permutation of rows",
  "C96": "the first loop of the count never ends for batch_size 0: fuel exceeded for every fuel",
  "C97": "evaluation of the request parameters",
  "C98": "evaluation of the request parameters for all combinations of options",
  "C99": "text split into two pieces: strip before append",
  "C100": "mapping tables, lookups in dictionaries",
  "C113": "state transformer with the shared variable of the decorator; induction over the calls",
  "C114": "parser cut at the decimal point, all dates",
  "C115": "soundness of the strptime model: field ranges and days in month",
  "C116": "an offset after the seconds leaves trailing text",
  "C117": "projection as parameter with the inverse law",
  "C118": "one rectangle as witness",
  "C119": "DataFrame.apply on an empty frame returns a frame",
  "C120": "0/0 in the normalisation, all lists of equal magnitudes",
  "C132": "linear interpolation of colours in [0,1]",
  "C142": "exact set of texts that stand for missing values",
  "C165": "np.average with weights summing to zero",
  "C166": "binning test rejects an all-NaN sample",
  "C167": "grid at other width fails the test inside dithering",
  "C168": "the sample below mc fails in dithering for some draws",
  "C169": "the loop starts at 1e-14, which bin_to_precision rejects"
 },
 "ranges": [
  [
   1,
   3,
   "normal_round/bin_to_precision on XR; floor arithmetic, nearest grid point with ties up"
  ],
  [
   4,
   5,
   "binning_test on lists, delta as decimal literal; permutation and minimum lemmas"
  ],
  [
   6,
   8,
   "get_fmd/get_cum_fmd with numpy arange and histogram; counting lemmas over bins"
  ],
  [
   9,
   9,
   "estimator object as state machine, any Num"
  ],
  [
   10,
   14,
   "estimators on XR; concavity of the likelihood (ln x <= x-1), sums over lists"
  ],
  [
   15,
   17,
   "estimator object as state machine; induction over call histories, any Num"
  ],
  [
   18,
   21,
   "positive estimators; list lemmas on consecutive differences and next larger events"
  ],
  [
   23,
   29,
   "helpers and output selection; case analysis, list induction"
  ],
  [
   30,
   34,
   "a-value estimators; logarithm laws, list lemmas"
  ],
  [
   35,
   40,
   "b_significant; arithmetic of cut points, quadratic forms, partitions"
  ],
  [
   41,
   46,
   "estimate_mc; loop invariants over the tested magnitudes, empirical distribution functions"
  ],
  [
   47,
   47,
   "greedy algorithm invariant: first mainshock whose windows contain the event"
  ],
  [
   49,
   49,
   "monotonicity of exp/log formulas, interval bounds at the break points"
  ],
  [
   50,
   50,
   "haversine as the great-circle angle; spherical triangle inequality from Gram determinants"
  ],
  [
   51,
   52,
   "request loop with fuel; doubling and bisection invariants"
  ],
  [
   53,
   54,
   "SAX handler as state machine; refinement to flattening of the document tree"
  ],
  [
   55,
   55,
   "selection as maximum by version and time, stable sorting"
  ],
  [
   57,
   59,
   "catalogue frame and numeric methods; case analysis over operations, induction over histories"
  ],
  [
   61,
   61,
   "np.unique on records; equality of cells iff equality of numbers"
  ],
  [
   62,
   62,
   "option table as finite map, induction over histories"
  ],
  [
   63,
   64,
   "coordinate transformer over an invertible projection; minimum/maximum lemmas"
  ],
  [
   65,
   66,
   "inverse distribution functions; monotonicity and bounds"
  ],
  [
   67,
   67,
   "string tests and a quadratic"
  ],
  [
   68,
   68,
   "pooled estimator; sums over sub-catalogues"
  ],
  [
   70,
   70,
   "power interpolation"
  ],
  [
   71,
   71,
   "filter over rows with the predicate as parameter"
  ],
  [
   72,
   72,
   "strptime model, all calendar dates"
  ],
  [
   86,
   91,
   "refutation by evaluating the code path; general where stated"
  ],
  [
   92,
   94,
   "refutation by interval bounds"
  ],
  [
   101,
   112,
   "Weichert/Kijko-Smit: log-sum-exp convexity, derivative of the likelihood, counting of bins"
  ],
  [
   121,
   124,
   "data handed to the plots; counting lemmas"
  ],
  [
   125,
   127,
   "cumulative steps, completeness line, aliasing of the caller's lists as state"
  ],
  [
   128,
   130,
   "loops over windows with one estimator object, using C16"
  ],
  [
   131,
   131,
   "minimum/maximum lemmas"
  ],
  [
   133,
   137,
   "metadata propagation as a state machine; induction over operations"
  ],
  [
   138,
   141,
   "catalogue methods as state transformers; equality with the direct call"
  ],
  [
   143,
   149,
   "rate grid; np.unique, groupby, MultiIndex"
  ],
  [
   150,
   157,
   "template as tree builder composed with the parser model (round trip)"
  ],
  [
   158,
   164,
   "calendar arithmetic; rounding error of seconds in binary64 (Flocq round)"
  ],
  [
   177,
   179,
   "parser of ISO texts on all numerals; case analysis of the fallback; induction over the column"
  ],
  [
   183,
   188,
   "automaton of the XML reader, character by character; induction over document trees and over prefixes; composition with the template as text"
  ],
  [
   189,
   189,
   "case analysis; minimum of the table over the reals"
  ],
  [
   190,
   190,
   "case analysis over the runs of the estimators (StateM)"
  ],
  [
   191,
   191,
   "half-planes of the edges; shoelace formula over the reals"
  ],
  [
   192,
   192,
   "induction over the callbacks"
  ],
  [
   193,
   195,
   "composition of the client loops with the XML automaton and the handler; prefixes of every response"
  ],
  [
   196,
   196,
   "inversion of the state-transformer runs; quiet steps"
  ],
  [
   197,
   197,
   "case analysis; real arithmetic"
  ],
  [
   198,
   202,
   "reader of numerals as automaton, inverted for all texts; binary64 rounding of each step (Flocq)"
  ],
  [
   203,
   206,
   "inversion of the loops and of the estimator; lengths; sortedness arguments"
  ],
  [
   207,
   215,
   "composition of the models of the reader, the parser, the conversions and pandas' frames; induction over records and columns"
  ],
  [
   216,
   217,
   "relation between trees and their spellings; induction over spellings and trees along the automaton of the XML reader"
  ],
  [
   218,
   218,
   "rewriting of the histogram as sums of weights; scaling lemmas over prefix sums"
  ],
  [
   219,
   219,
   "inversion of the parser; injectivity of splitting at separators, digits and numbers by induction"
  ],
  [
   220,
   221,
   "refutation: a document, its spelling and the run of the reader and the handler, for all parameters"
  ],
  [
   223,
   223,
   "composition of the theorems on the parser, the table, the download and double precision; induction over the events"
  ],
  [
   224,
   224,
   "absolute error of the sum tree by induction; binary64 error bounds; composition with maximum curvature and the parser"
  ],
  [
   225,
   225,
   "relative errors of products, sums and quotients in binary64; induction over summation trees"
  ],
  [
   226,
   229,
   "linspace bounds in exact and binary64 arithmetic, sorted deduplication; inverse of a strictly increasing distribution function"
  ],
  [
   230,
   230,
   "propagation of NaN through windows and cutoff; reduction to C47"
  ],
  [
   231,
   231,
   "invariant of the reader after complete events; case analysis over the 256 characters by computation"
  ],
  [
   232,
   232,
   "uniqueness of the flags (C47_flags_unique) on the catalogue of mainshocks"
  ],
  [
   233,
   233,
   "uniqueness of the flags and of the partition (C47_flags_unique, C47_clusters_unique) under a translated clock"
  ],
  [
   234,
   234,
   "uniqueness of the flags and of the partition, with distances that are determined by the angle on the sphere"
  ],
  [
   170,
   999,
   "binary64 arithmetic by Flocq rounding; error bounds, lattice arguments"
  ]
 ]
}