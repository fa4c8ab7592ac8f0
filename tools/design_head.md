# Formal model of SeismoStats in Rocq (Coq 8.16.1)

## 1. Approach

Every modelled Python function is a total Gallina function that follows the code branch by
branch, with exceptions as values (`res A := Ok a | Err exn`).  Mutable objects (estimators,
catalogues, option table, SAX handler) are records threaded through a state-error monad in
which attribute writes survive an exception, as they do in Python.  Sources of
non-determinism and foreign routines (random draws, `argsort` tie breaking, the map
projection, the web server, `scipy.optimize.minimize`, the normal quantile, the splitting of
text by the XML reader) are *parameters* of the model, and theorems quantify over them,
with the contract they need as an explicit hypothesis.

*Numbers.*  All code is written once, against a record of number operations (`Num`, file
`Num.v`, no laws assumed).
* Structural theorems (which events are kept, positions, history independence, error
  conditions, columns) hold for **every** `Num`, so in particular for IEEE doubles with NaN.
* Mathematical theorems (optimality, inequalities, equivariance, counting) are stated for the
  instance `XR` (`XR.v`): exact reals plus `+inf`, `-inf` and `NaN` with IEEE rules for the
  special values.  Idealised: rounding, overflow to infinity, the sign of zero.
* Where rounding matters for the claim it is modelled: the OpenQuake conversion (C158-C164)
  and the double-precision properties (C170 ff.) use Flocq's *definition* of rounding to
  binary64 on real numbers (`round radix2 (FLT_exp (-1074) 53) ZnearestE`).  The instance `F64 L`
  (`F64.v`) gives the *same model code* IEEE semantics: +, -, *, /, sqrt, conversions and comparisons
  rounded to nearest-even with overflow to infinity; exp, log, pow, sin, ... and the order
  of summation are the parameter `L`, over which the theorems quantify.  Not represented: the sign of zero.
* The instance on Coq's primitive floats (`FloatInst.v`) runs the model on the docstring and
  unit-test vectors of the repository (`Tests_*.v`: tests of the model, not proofs) and gives the
  witnesses of a few refutations that only happen in doubles (C89-C91).

*Statements.*  For each area a small file `Spec_*.v` states the property in its own
vocabulary (nearest grid point, likelihood, windows of consecutive events, minimal distance on
the sphere, calendar days, ...) without using the model; `Props_*.v` holds the theorems
`Cnn_...` with the model on one side and the specification on the other, each with at
least one `Example` showing that a concrete non-trivial case meets the hypotheses;
`*_proofs.v` hold the lemmas.

*Claims that turned out false of the code* are kept as properties of their own: the theorem
`Cnn_..._refuted` proves the negation, wherever possible for all inputs of the offending class
rather than for one witness, and the true part is proved under the neighbouring id.  They
have the status `partial` in MANIFEST.json with a note beginning "False of the code".

## 2. Trusted base

* Coq 8.16.1's kernel, including `vm_compute` (used for examples, tests and large integer
  comparisons) and, for the theorems listed last in AXIOMS.md and the files `Tests_*.v`, the
  kernel's primitive 63-bit integers and primitive floats.
* The axioms that `Print Assumptions` lists, theorem by theorem in **AXIOMS.md** (regenerated by
  `tools/gen_axioms.py`): about half of the theorems are closed under the global context; the
  others use only axioms of the standard library: those of the real numbers
  (`ClassicalDedekindReals.sig_forall_dec`, `ClassicalDedekindReals.sig_not_dec`), `Classical_Prop.classic` and
  `FunctionalExtensionality.functional_extensionality_dep`; theorems with a witness in doubles list
  the primitives of `PrimFloat`/`PrimInt63`.  The Example `good_minimizer_exists` (the
  contract of the minimiser is satisfiable) also uses
  `ClassicalEpsilon.constructive_indefinite_description`; no theorem does.
* No axioms of our own, no `Admitted`, no functors or module types, no kernel check switched off.
  Coquelicot and Flocq are used as libraries of definitions and lemmas (derivatives; rounding);
  they add no axioms.
* The faithfulness of the model to the code: by inspection (every definition of a `*_model.v`
  file cites the lines it models), by the `Tests_*.v` files, and by mutation testing (section 6).
* The behaviour of numpy, pandas, jinja2, xml.sax and datetime operations the code calls
  is modelled from their documentation (and for `np.unique`, `np.arange`, `np.histogram`, `pd.cut`,
  `strptime`, `DataFrame.apply` on their source): these are assumptions about libraries.

## 3. What is modelled

| Code (seismostats/...) | Model | Remarks |
|---|---|---|
| utils/binning.py (all functions) | Binning_model.v | `delta_x` as decimal literal (what `Decimal(str(x))` sees); histogram edges and float `arange` as in numpy |
| analysis/bvalue/{base,classic,utsu,positive,more_positive,utils,__init__}.py | BValue_model.v | estimator object with all attributes, weights, warnings, `idx`; bootstrap draws are parameters |
| analysis/avalue/*.py | AValue_model.v | as above |
| utils/simulate_distributions.py, analysis/lilliefors.py, base.py `p_lilliefors` | Simulate_model.v | random numbers are parameters; statsmodels' Lilliefors routine is a parameter |
| analysis/b_significant.py (all functions) | BSig_model.v | matrices as functions; `norm.cdf` is a parameter |
| analysis/estimate_mc.py (all functions) | Mc_model.v | simulated samples are parameters |
| analysis/declustering/*.py | Decluster_model.v | rows with index labels; Uhrhammer, Grünthal, Gardner-Knopoff windows; time windows that are NaN are refused (pd.Timedelta), those of 292 years or more are not modelled |
| analysis/bvalue/kijko_smit.py, weichert.py | Periods_model.v | `minimize` is a parameter with the contract "returns a minimiser" |
| analysis/magnitudes.py, plots/basics.py, plots/statistical.py, plots/seismicity.py | Plots_model.v | what is drawn: points, lines, sizes, extents, colours |
| catalogs/client.py | Client_model.v, ClientText_model.v | the server is a function from requests to responses (events; status and text) |
| io/parser.py | QuakeML_model.v | SAX events in, records out; characters of code below 256 |
| io/parser.py: parse_quakeml_file, parse_quakeml, parse_quakeml_response on texts | Xml_model.v | the XML reader (expat) as an automaton on characters; the pieces in which it passes on texts are a parameter |
| catalogs/catalog.py: constructors, metadata, columns, estimate_*, plot_*, bin_magnitudes, strip, drop_*, from_dict | Catalog_model.v | a frame is its class, columns, attributes; the numeric methods work on columns of numbers |
| catalogs/catalog.py: the column time in `__init__` | Times_model.v | pandas' ISO8601 parser for dates with a time of day, UTC or without zone; fallback parser |
| catalogs/catalog.py: the numeric columns in `__init__` | Numeric_model.v | pandas' to_numeric(errors='coerce'), from its C source: precise_xstrtod, floatify; entries are texts, numbers, gaps; the exponent is an unbounded integer |
| catalogs/catalog.py: from_dict, from_quakeml, `__init__` with the entries of all columns | Table_model.v | the table made of records; the conversions run again in every operation |
| catalogs/catalog.py: plot_in_space, plot_mags_in_time, plot_mc_vs_b | CatalogPlots_model.v | what the functions in plots get |
| catalogs/client.py: get_events with the resulting table | Download_model.v | composition of ClientText_model.v and Table_model.v |
| catalogs/catalog.py: the numeric columns of a table as arrays of the estimation methods | Workflow_model.v | composition of Table_model.v and Catalog_model.v |
| catalogs/catalog.py: to_quakeml, _create_ids, quakeml.j2 | Export_model.v, ExportText_model.v | document trees; the exact text with the white space of the template |
| catalogs/catalog.py: to_openquake, from_openquake | Openquake_model.v | times with binary64 rounding of seconds |
| catalogs/rategrid.py (all methods) | Rategrid_model.v | `np.unique(axis=0)` on records, groupby |
| IEEE arithmetic of binning, selection, FMD, b-values, maximum curvature | F64.v | instance of `Num` for the models above, C170-C176, C180-C182, C198-C202, C222-C225 |
| utils/__init__.py, _config.py, coordinates.py, filtering.py | Utils_model.v | pyproj and shapely predicates are parameters |

## 4. What is not modelled

* `Catalog.__init__`: conversion of column types by pandas, except the cleaning of texts
  (C142), times (C177-C179) and numbers (C198-C202); booleans and complex numbers in numeric
  columns.
* Reading files and HTTP: a file is its text (a parameter of `from_quakeml`), `requests` itself.
* XML: document types and references to characters from number 256 on (the model answers
  `Beyond` for texts with them); encodings; the contents of the declaration.
* matplotlib, cartopy and shapely drawing; labels, legends and axes (the data given to them is modelled).
* utils/docs.py (documentation examples), `__init__.py` re-exports, the logger.
* `plot_b_significant_1D` with zero in an array `n_ms` (numpy division) and `from_openquake` for
  years before 1000 (pandas' `%Y%m%d` is ambiguous there).
* Printed output (`verbose`) and the texts of warnings and errors; the *type* of the
  exception and the fact that a warning is issued are modelled.

## 5. The properties

Status `refuted` means: false of the code, negation proved (`partial` in the manifest).

