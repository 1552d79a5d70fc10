{"id": "C01", "title": "1-D construction decision", "statement": "DataStructure(t, values) with one list of values raises EmptyDataStructureException exactly when t or values is empty, raises BadDataInputException exactly when both are non-empty and len(values) is not a multiple of len(t), and otherwise succeeds without reading outside its vectors. On success timeseries() is t and data() is one row holding the first len(t) values: if len(values) is a larger multiple of len(t), the further values are silently ignored, not rejected.", "quantifier": "every pair of lists of doubles (any lengths, any NaN/inf/finite contents)", "why_tests_cant": "the decision depends on every pair of lengths; the test suite tries a few lengths and none where len(values) is a proper multiple of len(t)", "anchors": ["sacf/datastructure/DataStructure.cpp: DataStructure::setUp", "sacf/datastructure/DataStructure.cpp: DataStructure::DataStructure(vector*, vector*)", "sacf/datastructure/DataStructure.cpp: DataStructure::data_2d"]}
{"id": "C02", "title": "2-D round trip", "statement": "For a non-empty t and a non-empty list of rows all of length len(t), DataStructure(t, rows[, errors]) succeeds; data() returns exactly the rows, timeseries() exactly t, N_datasets and M_datapoints the row count and len(t), errors() [] if no errors were given, and exactly the error rows if they have the shape of the data.", "quantifier": "every time list and every rectangular value/error matrix of doubles", "why_tests_cant": "flattening and re-splitting by index arithmetic must be inverse for every shape", "anchors": ["sacf/datastructure/DataStructure.cpp: DataStructure::DataStructure(vector*, vector<vector>*)", "sacf/datastructure/DataStructure.cpp: getVectorIndex", "sacf/datastructure/DataStructure.cpp: data_2d, err_2d"]}
{"id": "C03", "title": "Ragged 2-D input: exact outcome", "statement": "DataStructure(t, rows) with arbitrary rows: raises Empty iff t is empty or all rows are empty; raises BadDataInput iff the total number of values is not a multiple of len(t); otherwise succeeds iff the total is at least len(rows)*len(t), and then data() is the concatenation of the rows re-cut into pieces of len(t) (values may move between rows); otherwise the constructor reads past the end of its value vector. So unequal row lengths are not always rejected and can even cause an out-of-bounds read.", "quantifier": "every time list and every list of rows, rectangular or not", "why_tests_cant": "the failing shapes are specific combinations of lengths that no example test covers", "anchors": ["sacf/datastructure/DataStructure.cpp: setUp, setDataMean, calcNormData", "sacf/datastructure/DataStructure.cpp: data_2d"]}
{"id": "C04", "title": "errors(): exact outcome", "statement": "The length of the error input is never validated: construction succeeds or fails independently of it. errors() returns [] when no errors are stored, the re-cut error rows when at least N_datasets*M_datapoints error values are stored, and otherwise reads out of bounds.", "quantifier": "every accepted dataset and every list of error values", "why_tests_cant": "depends on the relation of two unchecked lengths; tests only pass equal lengths", "anchors": ["sacf/datastructure/DataStructure.cpp: setUp", "sacf/datastructure/DataStructure.cpp: err_2d"]}
{"id": "C05", "title": "Mean ignores missing values", "statement": "mean_data[j] is the left-to-right double sum of the non-NaN values of dataset j divided by their number; inserting NaNs at any positions of a dataset (with matching extra time points) does not change it; it is NaN when every value is missing. In exact arithmetic it is the arithmetic mean of the valid values.", "quantifier": "every dataset, every placement of NaNs", "why_tests_cant": "all positions and counts of NaN values", "anchors": ["sacf/datastructure/DataStructure.cpp: setDataMean", "sacf/datastructure/DataStructure.cpp: mean_data"]}
{"id": "C06", "title": "Normalised time series", "statement": "For finite time stamps in non-decreasing order normalised_timeseries() has the same length, starts with 0, is non-decreasing and has no negative or NaN entry; each entry is the rounded difference of the time stamp and the first time stamp.", "quantifier": "every non-empty finite non-decreasing list of doubles, under IEEE-754 rounding", "why_tests_cant": "rounding behaviour over all doubles cannot be enumerated", "anchors": ["sacf/datastructure/DataStructure.cpp: calcNormt"]}
{"id": "C07", "title": "Median time", "statement": "For non-decreasing time stamps median_time is a median of normalised_timeseries(): the middle entry for an odd number of points, the half-sum of the two middle entries for an even number; at least half of the entries are <= it and at least half are >= it.", "quantifier": "every non-empty finite non-decreasing time list (the order statement for even length if the sum of the two middle entries is finite)", "why_tests_cant": "all lengths and all parities and value patterns", "anchors": ["sacf/datastructure/DataStructure.cpp: settMedian"]}
{"id": "C08", "title": "max_time and the default lag range", "statement": "max_time is the last time stamp, and for non-decreasing stamps it is the maximum of timeseries(); a new Correlator has max_lag equal to the last (largest) normalised time and min_lag = -max_lag.", "quantifier": "every accepted data structure with ordered time stamps", "why_tests_cant": "every time list", "anchors": ["sacf/datastructure/DataStructure.cpp: settMax", "sacf/correlator/Correlator.cpp: Correlator::Correlator"]}
{"id": "C09", "title": "Normalised data", "statement": "normalised_data() has the shape of data(); each entry is value minus the dataset mean; NaN entries stay NaN; in exact arithmetic the valid entries of each dataset sum to zero.", "quantifier": "every accepted data structure", "why_tests_cant": "every shape, every NaN placement", "anchors": ["sacf/datastructure/DataStructure.cpp: calcNormData, normalised_data_2d"]}
{"id": "C10", "title": "Default lag resolution", "statement": "A new Correlator's lag_resolution is the smallest difference of adjacent normalised times: it is attained by some adjacent pair and is <= every adjacent difference; it is positive exactly when the normalised times strictly increase. (Fewer than two points: the largest finite double.)", "quantifier": "every data structure with finite ordered time stamps", "why_tests_cant": "minimum over lists of every length", "anchors": ["sacf/correlator/Correlator.cpp: findMinDiff", "sacf/correlator/Correlator.cpp: Correlator::Correlator"]}
{"id": "C11", "title": "Shape of the lag grid", "statement": "The lags returned by autocorrelation are min_lag, min_lag+r, (min_lag+r)+r, ... (r = lag_resolution, each sum rounded once), exactly as long as they are <= max_lag, with a single 0 inserted immediately before the first positive lag if no earlier lag compares equal to 0.", "quantifier": "every choice of min_lag, max_lag, lag_resolution for which the call returns, both computation paths, IEEE-754 arithmetic", "why_tests_cant": "the floating point accumulation visits different values for every parameter triple", "anchors": ["sacf/correlator/Correlator.cpp: calculateStandardCorrelation", "sacf/sacf.py: find_correlation.lag_generator"]}
{"id": "C12", "title": "Lag grid is strictly increasing", "statement": "Whenever a call returns, the returned lags are strictly increasing (so no duplicate), none exceeds max_lag and none lies below min_lag, except the inserted 0 when min_lag > 0.", "quantifier": "every call that returns, every parameter triple", "why_tests_cant": "needs an argument about all accumulated values", "anchors": ["sacf/correlator/Correlator.cpp: calculateStandardCorrelation"]}
{"id": "C13", "title": "Presence of lag zero", "statement": "With the default lag settings lag 0 occurs exactly once in the result. In general 0 occurs iff some visited lag equals 0 or some visited lag is positive: it is missing when the grid steps from below 0 to beyond max_lag, and it is present although 0 < min_lag when min_lag is positive.", "quantifier": "every data structure; every parameter triple", "why_tests_cant": "depends on accumulated floating point values", "anchors": ["sacf/correlator/Correlator.cpp: calculateStandardCorrelation", "sacf/sacf.py: lag_generator"]}
{"id": "C14", "title": "Default run stays inside the result buffers", "statement": "For every data set for which a Correlator can be constructed, calculating with the default lag settings never accesses memory outside the result buffers, and with the default selection and any known weight function it returns (in a build without checked element access; where abs is the integer one, if twice the length of the time series fits an int): in exact arithmetic for every size, and in IEEE-754 double arithmetic for result buffers of up to 10^8 lags. Some bound is needed in double arithmetic: with the time stamps 0, 1 + 2^-25 - 2^-52 and 2^29 (and any three values) the default call writes past the end of the result buffers of 2^30 - 29 lags.", "quantifier": "every data structure with ordered finite time stamps", "why_tests_cant": "buffer size is computed by one division, the number of writes by an accumulating loop: agreement must hold for all inputs", "anchors": ["sacf/correlator/Correlator.cpp: Correlator::Correlator (num_lag_steps)", "sacf/correlator/Correlator.cpp: calculateStandardCorrelation", "sacf/correlator/Correlator.cpp: addCorrelationData"]}
{"id": "C15", "title": "User supplied lag settings: exact safety condition", "statement": "The result buffers are sized from the default lag settings and never resized. autocorrelation with user-supplied min_lag/max_lag/lag_resolution stays in bounds if and only if the number of lags it visits is at most the number allotted by default; otherwise it writes out of bounds. In particular a lag_resolution below the default can corrupt memory.", "quantifier": "every data structure and every parameter triple", "why_tests_cant": "heap corruption is not observable reliably by tests; condition quantifies over all parameters", "anchors": ["sacf/correlator/Correlator.cpp: setMaxLag, setMinLag, setLagResolution", "sacf/correlator/Correlator.cpp: addCorrelationData", "sacf/sacf.py: set_up_correlation"]}
{"id": "C16", "title": "The lag loop terminates", "statement": "Every calculation either returns, raises, or writes out of bounds after at most (allotted lags + 1) steps: there is no silent endless loop. With min_lag <= max_lag and a zero, negative or too small lag_resolution (one that does not advance the lag) it always ends in the out-of-bounds write.", "quantifier": "every correlator reached by any history of setter, calculation, add, clean and clear calls, every parameter triple including NaN and infinities", "why_tests_cant": "non-termination cannot be tested", "anchors": ["sacf/correlator/Correlator.cpp: calculateStandardCorrelation", "sacf/sacf.py: find_correlation"]}
{"id": "C17", "title": "Natural selection: count and range", "statement": "For ordered time stamps and any lag, naturalSelectionFunctionIdx never raises and selects exactly one index for every leading time point whose shifted time does not exceed the last time; every index is a valid position of the time series.", "quantifier": "every ordered time series, every lag (including NaN and infinite lags), both meanings of abs", "why_tests_cant": "index safety over all inputs", "anchors": ["sacf/correlator/Correlator.cpp: naturalSelectionFunctionIdx"]}
{"id": "C18", "title": "Natural selection picks the nearest time point", "statement": "When abs is the floating-point absolute value, the selected point minimises the rounded distance |shifted time - t_j| over all j (so it is a nearest point in exact arithmetic). When the unqualified abs resolves to the C integer abs (GCC/libstdc++), this is false.", "quantifier": "every ordered time series, every lag, every shifted point", "why_tests_cant": "nearest-neighbour claim over all inputs; the tests use integer time stamps where both abs agree", "anchors": ["sacf/correlator/Correlator.cpp: naturalSelectionFunctionIdx (lines 93-103)"]}
{"id": "C19", "title": "Natural selection preserves time order", "statement": "The selected indices are non-decreasing along the series, for every ordered time series and every lag.", "quantifier": "every ordered time series, every lag, both meanings of abs", "why_tests_cant": "relational property of consecutive results over all inputs", "anchors": ["sacf/correlator/Correlator.cpp: naturalSelectionFunctionIdx"]}
{"id": "C20", "title": "Use of cleared time buffer", "statement": "The step computing the time offsets reads the shifted times after the selection step has cleared them. In a build with checked element access an autocorrelation call can return only if at every visited lag no point is retained; in an unchecked build the read returns exactly the shifted times and no other out-of-range access happens.", "quantifier": "every data structure and lag settings, builds with and without checked element access", "why_tests_cant": "undefined behaviour that happens to work is invisible to tests", "anchors": ["sacf/correlator/Correlator.cpp: naturalSelectionFunctionIdx line 106", "sacf/correlator/Correlator.cpp: deltaT line 166"]}
{"id": "C21", "title": "Weights lie in the unit interval", "statement": "For alpha > 0 and any offset delta >= 0 the fractional, fractional-squared and gaussian weights are in [0,1] and equal 1 at delta = 0 (fractional and squared in IEEE-754 arithmetic, gaussian in exact arithmetic and in IEEE-754 for any exp with exp(x) in [0,1] for x<=0 and exp(0)=1, provided 2*alpha*alpha does not underflow to 0; if it does the weight of offset 0 is exp(NaN)).", "quantifier": "every positive alpha, every non-negative delta", "why_tests_cant": "all doubles, including overflow of delta/alpha", "anchors": ["sacf/correlator/Correlator.cpp: fractionWeightFunction, fractionSquaredWeightFunction, gaussianWeightFunction"]}
{"id": "C22", "title": "Weights decrease with distance", "statement": "For alpha > 0 the weight of a larger offset is never larger than the weight of a smaller one; in exact arithmetic it is strictly smaller.", "quantifier": "every positive alpha and every pair of offsets 0 <= d1 < d2", "why_tests_cant": "monotonicity over all pairs under rounding", "anchors": ["sacf/correlator/Correlator.cpp: fractionWeightFunction, fractionSquaredWeightFunction, gaussianWeightFunction"]}
{"id": "C23", "title": "Autocorrelation at lag zero", "statement": "With strictly increasing time stamps and alpha > 0 the correlation at lag 0 is sum (x-mean)^2 * (1 / sum (float32(x)-mean)^2), in exact arithmetic and with the same operations in IEEE-754 arithmetic. So it is 1 in exact arithmetic, and within 2^-53 below 1 in IEEE-754 arithmetic, whenever all values are single-precision representable and not all equal (and the sum of squares is between 2^-1000 and 2^1000). It is not 1 in general, because the normalisation rounds each value to single precision: the values 16777217, 16777219 give 0.25.", "quantifier": "every complete (NaN free) dataset", "why_tests_cant": "the tests only use small integers, which are single-precision exact", "anchors": ["sacf/correlator/Correlator.cpp: Correlator::Correlator lines 38-47", "sacf/correlator/Correlator.cpp: findCorrelation"]}
{"id": "C24", "title": "Missing values poison the correlation", "statement": "NaN values are skipped in mean and normalisation but not in the correlation sum: a dataset containing a NaN has correlation NaN at every lag at which a NaN point is paired, in particular at lag 0; other datasets of the same call are unaffected.", "quantifier": "every dataset with at least one NaN", "why_tests_cant": "the test suite defines NaN data but never correlates it", "anchors": ["sacf/correlator/Correlator.cpp: findCorrelation", "sacf/datastructure/DataStructure.cpp: setDataMean"]}
{"id": "C25", "title": "Degenerate data give NaN", "statement": "A dataset all of whose deviations from the mean vanish (also after rounding the values to single precision) gives correlation NaN at every returned lag; a constant that is not single-precision representable gives 0 instead in exact arithmetic. A data structure with a single time point gives NaN at lag 0 with the default alpha (which is then 0), the natural selection and the two fractional weights (for the gaussian see C80). That the default calls return is C14.", "quantifier": "every constant dataset; every one-point data structure", "why_tests_cant": "all constants and all lags", "anchors": ["sacf/correlator/Correlator.cpp: findCorrelation line 145", "sacf/correlator/Correlator.cpp: fractionWeightFunction"]}
{"id": "C26", "title": "Evenly sampled data give the classical ACF", "statement": "On an evenly sampled grid with spacing d > 0, at a lag m*d with m >= 0 the correlation equals sum_{i<M-m} x_i x_{i+m} / sum (float32(v)-mean)^2 in exact arithmetic (x = value minus mean), whatever alpha > 0, weight function and meaning of abs.", "quantifier": "every length, spacing, non-negative integer shift m < M, dataset", "why_tests_cant": "equality of two estimators for all inputs", "anchors": ["sacf/correlator/Correlator.cpp: calculateStandardCorrelation", "sacf/correlator/Correlator.cpp: findCorrelation", "sacf/correlator/Correlator.cpp: naturalSelectionFunctionIdx"]}
{"id": "C27", "title": "Negative lags are not the mirror image of positive lags", "statement": "On an evenly sampled grid the correlation at lag -m*d equals the one at +m*d plus x_0 * sum_{i<m} w((m-i)*d) x_i / N: points shifted before the start are paired with the first point instead of being dropped. So the result is even in the lag iff that term vanishes; a concrete counterexample exists.", "quantifier": "every evenly sampled dataset, every m", "why_tests_cant": "the only test data have x_0 = 0, which hides the asymmetry", "anchors": ["sacf/correlator/Correlator.cpp: naturalSelectionFunctionIdx lines 84-103"]}
{"id": "C28", "title": "Bound on the correlation", "statement": "On an evenly sampled grid with single-precision-exact values |correlation| <= 1 at every non-negative grid lag. At negative grid lags and for irregular sampling the bound fails, because one point may be selected many times; correlation^2 <= number of time points holds for every sampling, lag, selection and weight function.", "quantifier": "every evenly sampled dataset and grid lag; every dataset for the general bound", "why_tests_cant": "inequality over all data", "anchors": ["sacf/correlator/Correlator.cpp: findCorrelation"]}
{"id": "C29", "title": "Invariance under affine change of values", "statement": "Replacing every value v of a dataset by a*v+b (a <> 0) leaves lags, outcome and every correlation of that dataset unchanged in exact arithmetic, missing values included, when old and new values are single-precision representable. It fails for other values: adding 2^24 to the values 1, 3 changes the correlation at lag 0 from 1 to 1/4.", "quantifier": "every dataset, every a <> 0 and b, every lag settings", "why_tests_cant": "relational property between two runs over all data", "anchors": ["sacf/datastructure/DataStructure.cpp: setDataMean, calcNormData", "sacf/correlator/Correlator.cpp: findCorrelation"]}
{"id": "C30", "title": "Invariance under shift and rescaling of time", "statement": "Adding a constant to all time stamps changes neither lags nor correlations nor exceptions in exact arithmetic; multiplying all time stamps (two or more, differences below the largest double) and all given lag parameters by c > 0 multiplies the lags by c and leaves correlations and exceptions unchanged when abs is the floating-point one. With the integer abs scaling by 2 changes correlations, and in binary64 a large offset changes the lags.", "quantifier": "every data structure, every shift and every c > 0", "why_tests_cant": "relational property between two runs over all data", "anchors": ["sacf/datastructure/DataStructure.cpp: calcNormt", "sacf/correlator/Correlator.cpp: Correlator::Correlator"]}
{"id": "C31", "title": "Datasets are independent", "statement": "Row j of the correlations of a multi-dataset call is exactly (bit for bit) what a call with dataset j alone returns, with the same lags (and the call raises or is undefined exactly when that one is); adding, removing, reordering or changing other datasets has no influence.", "quantifier": "every data structure, every j, every lag settings, both paths, any arithmetic", "why_tests_cant": "relational property between two runs over all data", "anchors": ["sacf/correlator/Correlator.cpp: findCorrelation, addCorrelationData, cleanCorrelationData, correlations", "sacf/datastructure/DataStructure.cpp: getVectorIndex"]}
{"id": "C32", "title": "Errors never influence the result", "statement": "Two SACF objects with the same times and values but different (or no) errors return identical results, including identical exceptions, for every call.", "quantifier": "every pair of error inputs, every call", "why_tests_cant": "relational, over all inputs", "anchors": ["sacf/datastructure/DataStructure.cpp: constructors", "sacf/correlator/Correlator.cpp"]}
{"id": "C33", "title": "Shape of the result", "statement": "A returning autocorrelation call gives as many correlations per dataset as lags, a flat list for one dataset and one list per dataset otherwise, in the order of the input rows.", "quantifier": "every data structure and settings for which the call returns", "why_tests_cant": "all shapes, incl. the compaction step", "anchors": ["sacf/correlator/Correlator.cpp: cleanCorrelationData, correlations", "sacf/sacf.py: autocorrelation"]}
{"id": "C34", "title": "Compiled and Python paths agree", "statement": "For every correlator, after any history of calls, find_correlation(corr, 'natural', 'fractional') leaves the same correlator and produces the same lags, correlations, exceptions and out-of-bounds accesses as calculateStandardCorrelation, whenever at least one lag is visited.", "quantifier": "every history of correlator operations (including clearCorrelation), every parameter triple, any arithmetic", "why_tests_cant": "program equivalence for all inputs", "anchors": ["sacf/correlator/Correlator.cpp: calculateStandardCorrelation", "sacf/sacf.py: find_correlation"]}
{"id": "C35", "title": "Empty lag range", "statement": "If no lag is visited (min_lag > max_lag, or either is NaN), the default path returns empty lists while every other choice of selection or weight function raises UnboundLocalError and leaves the correlator as it was.", "quantifier": "every data structure, every such parameter choice, every history", "why_tests_cant": "all parameter values", "anchors": ["sacf/sacf.py: find_correlation line 92", "sacf/correlator/Correlator.cpp: cleanCorrelationData"]}
{"id": "C36", "title": "Function names", "statement": "selection_function other than 'natural'/'fast' or weight_function other than 'fractional'/'fractional_squared'/'gaussian' never yields a result: with at least one lag visited the call raises KeyError (an unknown weight with the 'fast' selection may raise IndexError first). In particular weight_function='fast' as documented in the readme raises KeyError.", "quantifier": "every string, every data structure whose lag range is non-empty", "why_tests_cant": "all strings", "anchors": ["sacf/sacf.py: SELECTION_FUNCTIONS, WEIGHT_FUNCTIONS, autocorrelation", "readme.md"]}
{"id": "C37", "title": "Recalculation on the same correlator", "statement": "Calculating again on the correlator returned by return_correlator=True with unchanged settings returns and leaves the correlator as it is; after any history of operations a successful calculation leaves exactly the correlator that a fresh one with the same four settings gives. The converse fails: after a calculation over a narrow lag range the same correlator writes out of bounds for the wide range for which it was made.", "quantifier": "every history of correlator operations", "why_tests_cant": "all operation sequences", "anchors": ["sacf/correlator/Correlator.cpp: cleanCorrelationData", "sacf/correlator/Correlator.cpp: set*", "sacf/sacf.py: return_correlator"]}
{"id": "C38", "title": "clearCorrelation", "statement": "Operation sequences without clearCorrelation keep the result buffers consistent: correlations() never reads out of bounds and gives one row of the length of lag_timeseries() per dataset. After clearCorrelation on a correlator with at least one allotted lag, correlations() reads out of bounds; recalculating a non-empty lag range then never succeeds, and with the natural selection writes out of bounds.", "quantifier": "every history of correlator operations", "why_tests_cant": "all operation sequences", "anchors": ["sacf/include/Correlator.h: clearCorrelation", "sacf/correlator/Correlator.cpp: correlations, addCorrelationData"]}
{"id": "C39", "title": "Fast selection: when it raises", "statement": "For strictly increasing times, fastSelectionFunctionIdx raises IndexError exactly when the first shifted time lies strictly between the last two time points (strictly below the last, above the last but one), or there is only one time point and the lag is negative; otherwise it returns one index per retained point, each a valid position. (With the integer abs the distance of times can be outside int, which is undefined.)", "quantifier": "every strictly increasing time series, every lag", "why_tests_cant": "boundary behaviour over all inputs", "anchors": ["sacf/correlator/Correlator.cpp: fastSelectionFunctionIdx line 127"]}
{"id": "C40", "title": "Fast selection at negative lags", "statement": "At any negative lag that moves the last time (in exact arithmetic: any negative lag) the fast selection pairs every point with itself, so the correlation is weight(|lag|) times the lag-0 sum of squares over all points: it carries no information about the correlation at that lag.", "quantifier": "every strictly increasing time series and every negative lag", "why_tests_cant": "all inputs", "anchors": ["sacf/correlator/Correlator.cpp: fastSelectionFunctionIdx"]}
{"id": "C41", "title": "Fast selection at lag zero", "statement": "At lag 0 the fast selection drops the last point: the correlation is 1 - x_last^2/N instead of 1 (exact arithmetic, single-precision-exact values).", "quantifier": "every dataset with at least two strictly increasing times", "why_tests_cant": "all inputs", "anchors": ["sacf/correlator/Correlator.cpp: fastSelectionFunctionIdx line 115"]}
{"id": "C42", "title": "Data files: skipped lines", "statement": "Reading a data file, lines starting with '#', empty lines, and lines whose first field does not start a number contribute no data point; a file without data points raises EmptyDataStructureException, an unreadable file BadDataFileReadException.", "quantifier": "every file content", "why_tests_cant": "all strings", "anchors": ["sacf/datastructure/DataStructure.cpp: DataStructure(const std::string&)"]}
{"id": "C43", "title": "Data files: round trip", "statement": "A file whose data lines each hold two numeric fields separated by blanks, tabs or a comma gives the same DataStructure as passing the two parsed columns as lists; three fields per line give the same as also passing the third column as errors.", "quantifier": "every list of rows and every separator choice", "why_tests_cant": "all files", "anchors": ["sacf/datastructure/DataStructure.cpp: DataStructure(const std::string&)"]}
{"id": "C44", "title": "Data files: error column is decided by the first data line", "statement": "If the first data line has no third field, errors() is [] whatever later lines contain; if it has one, errors are kept, one entry per further field of every data line, so a line without a (parsable) error field makes errors() shorter than the data and errors() reads out of bounds.", "quantifier": "every file content", "why_tests_cant": "all files; the repository's own test file triggers it without being noticed", "anchors": ["sacf/datastructure/DataStructure.cpp: DataStructure(const std::string&) lines 116-126", "tests/tab_delim_with_titles_with_err.txt"]}
{"id": "C45", "title": "Overload resolution of the constructor", "statement": "From Python, DataStructure(t, values[, errors]) with sequences of numbers (list, tuple, NumPy array; float, int, bool, NumPy scalars, mixed) reaches the 1-D constructor, with sequences of such sequences the 2-D one, unless every row is a one-element array. Exactly: if the times are floats and the values (and errors) are nested sequences of floats, the 2-D constructor; else, if all can be read as sequences of numbers (a one-element array counts as its element), the 1-D constructor; else, if values (and errors) can be read as sequences of sequences, the 2-D constructor. So a column array (shape (N,1)) of float64 reaches the 2-D constructor if the times are floats but the 1-D constructor if the times are ints, and a column of float32 always the 1-D one. TypeError exactly if no overload converts (e.g. 1-D values with 2-D errors). A single str or bytes argument is the name of a file; every other number or kind of arguments raises TypeError.", "quantifier": "every Python value built from None, numbers, str, bytes, lists/tuples, arrays nested to any depth, other objects", "why_tests_cant": "all Python values", "anchors": ["sacf/datastructure/datastructure_bindings.cpp", "sacf/include/pybind11/include/pybind11/stl.h: list_caster", "sacf/include/pybind11/include/pybind11/cast.h: type_caster (arithmetic)", "sacf/include/pybind11/include/pybind11/pybind11.h: cpp_function::dispatcher"]}
{"id": "C46", "title": "Accuracy of the reported lags", "statement": "Under IEEE-754 rounding the n-th accumulated lag differs from min_lag + n*lag_resolution by at most n*max(|min_lag|,|max_lag|)*2^-53.", "quantifier": "every finite parameter triple and every n visited by the loop", "why_tests_cant": "rounding error accumulates over arbitrarily many steps", "anchors": ["sacf/correlator/Correlator.cpp: calculateStandardCorrelation line 270"]}
{"id": "C47", "title": "Value of every returned correlation", "statement": "Whenever a call returns, the correlation of dataset j at lag k is the sum over the selected pairs (i, s_i), in order, of weight(alpha, offset_i) * (v_i - mean) * (v_{s_i} - mean), times 1 / sum (float32(v)-mean)^2 over the non-NaN values, where the pairs and offsets are those of running the chosen selection function at lag k on a fresh iterator and alpha defaults to median_time.", "quantifier": "every data structure, lag settings, selection and weight function for which the call returns, in exact and in IEEE-754 arithmetic", "why_tests_cant": "tests compare a few numbers for one data set and one path; the claim ties every returned number to one formula for both paths", "anchors": ["sacf/correlator/Correlator.cpp: findCorrelation, addCorrelationData, calculateStandardCorrelation", "sacf/sacf.py: find_correlation, autocorrelation"]}
{"id": "C48", "title": "Data files: numbers beyond the expected columns", "statement": "In a file whose first data line has two numbers, every data line is cut into groups of three numbers and the first two of each complete-enough group make one data point (the third is dropped), so a line with five numbers gives two points. Hence 'one data point per data line' is false.", "quantifier": "every file made of data lines with any number of fields, skipped lines and any separators", "why_tests_cant": "shipped test files have two or three columns", "anchors": ["sacf/datastructure/DataStructure.cpp: DataStructure(const std::string&) lines 90-136"]}
{"id": "C49", "title": "Data files: numbers are read to the nearest double", "statement": "In a file of two or three columns, with comments and headers and any separators, every decimal literal (optional sign, digits, fraction, exponent, of any length) is stored at its place as the double nearest to its value, ties to even, with its sign if it is zero; literals that denote doubles are read back as these doubles; in exact arithmetic the values are stored exactly. A line whose time or value overflows contributes nothing.", "quantifier": "every such file whose literals do not overflow, and every file around a line with an overflowing literal", "why_tests_cant": "tests read a handful of short literals", "anchors": ["sacf/datastructure/DataStructure.cpp: DataStructure(const std::string&) lines 90-136"]}
{"id": "C50", "title": "Data files: every content is handled", "statement": "Constructing from a file never reads or writes out of bounds and always terminates whatever bytes the file holds: BadDataFileReadException iff the file cannot be opened, else EmptyDataStructureException or a data structure equal to one built from equally long non-empty lists.", "quantifier": "every byte sequence", "why_tests_cant": "the space of file contents is infinite", "anchors": ["sacf/datastructure/DataStructure.cpp: DataStructure(const std::string&) lines 90-136"]}
{"id": "C51", "title": "Numeric arguments of autocorrelation", "statement": "autocorrelation() called with None, floats, ints, NumPy numbers or one-element arrays for min_lag, max_lag, lag_resolution and alpha behaves as with the corresponding doubles (None: the default), and raises TypeError if one of them is anything else.", "quantifier": "every data structure, every choice of the four arguments, selection and weight function", "why_tests_cant": "argument kinds combine without bound", "anchors": ["sacf/sacf.py: set_up_correlation lines 43-55, autocorrelation lines 94-146", "sacf/correlator/correlator_bindings.cpp lines 42-45"]}
{"id": "C52", "title": "Arguments of SACF()", "statement": "A filename of any type is used exactly if it is true: then the other arguments are ignored, a str or bytes is read as a file and anything else raises TypeError; with a filename that is false (None, '', 0, an empty sequence) the lists are used, errors=None selecting the constructor without errors and an empty errors sequence giving the same data structure; an array of several elements as filename raises ValueError; without any data SACF() raises TypeError.", "quantifier": "all argument values", "why_tests_cant": "tests use one or two combinations", "anchors": ["sacf/sacf.py: SACF.__init__ lines 33-41", "sacf/datastructure/datastructure_bindings.cpp lines 9-13"]}
{"id": "C53", "title": "Precision of the weights", "statement": "In double arithmetic, for an offset d >= 0 and a width alpha > 0, the fractional weight differs from 1/(1+d/alpha) by at most 4*2^-53 and the squared one from 1/(1+(d/alpha)^2) by at most 7*2^-53; for alpha in [2^-150, 2^150] the gaussian weight differs from exp(-d^2/(2 alpha^2)) by at most eps + 16*2^-53, where eps bounds the error of the exp() of the C library on arguments <= 0 (2^-53 for a correctly rounded one).", "quantifier": "every finite offset and width in the range, every exp function of the stated precision", "why_tests_cant": "tests compare a few weights with a tolerance", "anchors": ["sacf/correlator/Correlator.cpp: getFractionWeights, getFractionSquaredWeights, getGaussianWeights lines 150-160"]}
{"id": "C54", "title": "Iterators in any order of calls", "statement": "A Python program that calls the methods of a CorrelationIterator with at least as many places as datasets (selection, deltaT, weights, findCorrelation, assignment to k) in any order, any number of times, with any correlators, catching exceptions, never makes the extension write outside a vector or loop for ever, and the only exception it sees is IndexError; the number of places never changes. But an iterator serves once: naturalSelectionFunctionIdx and deltaT on an iterator already used at the same lag, or at another lag where anything is selected, read outside a vector; deltaT twice makes findCorrelation read outside a vector or raise IndexError; asking for weights twice changes nothing; after an IndexError of the fast selection the natural selection yields extra indices in front of the right ones.", "quantifier": "every sequence of operations of any length, every data set, lag, build", "why_tests_cant": "orders of calls are unbounded and out-of-bounds reads often go unnoticed", "anchors": ["sacf/correlator/correlator_bindings.cpp lines 11-33", "sacf/correlator/Correlator.cpp lines 79-197"]}
{"id": "C55", "title": "Size of an iterator", "statement": "CorrelationIterator(k, size) gives an iterator with size zeros if size is a whole number from 0 to 2^31-1, an empty one if -1 < size <= 0; for every other positive size below 2^31-1 it writes one element past the end of the vector; for sizes <= -1, NaN, infinite or >= 2^64 the conversion is undefined, from 2^60 to 2^64 it raises ValueError (std::length_error), and in between the loop counter overflows.", "quantifier": "every double (and every real number in exact arithmetic)", "why_tests_cant": "tests pass whole numbers", "anchors": ["sacf/correlator/Correlator.cpp: CorrelationIterator::CorrelationIterator lines 25-31", "sacf/correlator/correlator_bindings.cpp lines 11-33"]}
{"id": "C56", "title": "Calculation by hand", "statement": "Each value returned by autocorrelation() equals, bit for bit, what the methods selection, deltaT, weights and findCorrelation leave in a fresh CorrelationIterator at that lag when called with the correlator that autocorrelation() returned; the iterator holds one value per dataset.", "quantifier": "every accepted data set, all arguments for which the call returns, every lag and dataset, both arithmetics", "why_tests_cant": "tests compare the two paths on one data set", "anchors": ["sacf/sacf.py: find_correlation lines 57-92, autocorrelation lines 94-146", "sacf/correlator/Correlator.cpp lines 79-197, 227-260", "sacf/correlator/correlator_bindings.cpp lines 11-33"]}
{"id": "C57", "title": "Fast selection on evenly sampled data", "statement": "On evenly sampled data in exact arithmetic the fast selection at lag m*d keeps the first M-1-m points and multiplies point q by point q+m only while q+m is itself among the kept points, and by the first point, with a weight, otherwise; from half the time span on, every product is with the first point. So it does not agree with the natural selection, though the default call returns the same lags.", "quantifier": "every number of points, spacing, offset, lag m*d, dataset, weight function, alpha > 0", "why_tests_cant": "tests compare with stored output of the same code", "anchors": ["sacf/correlator/Correlator.cpp: Correlator::fastSelectionFunctionIdx lines 109-136", "sacf/sacf.py: autocorrelation lines 94-146"]}
{"id": "C58", "title": "When the fast selection fails", "statement": "A call with the fast selection whose lags fit raises IndexError if some lag moves the first time strictly between the last two times and returns otherwise. For the default call in exact arithmetic: it returns exactly if the last two times are as close as any two and twice the time span is a multiple of the resolution; so for almost all irregular data it raises IndexError.", "quantifier": "every accepted ordered data set, all settings whose lags fit, both arithmetics; exact arithmetic for the default call", "why_tests_cant": "tests use evenly spaced or hand-picked data", "anchors": ["sacf/correlator/Correlator.cpp: Correlator::fastSelectionFunctionIdx lines 109-136", "sacf/sacf.py: autocorrelation lines 94-146, find_correlation lines 57-92"]}
{"id": "C59", "title": "Number of lags", "statement": "In exact arithmetic a call with lag range [a, b] and resolution r > 0 returns floor((b-a)/r)+1 lags, and one more exactly if the grid steps across zero without touching it. So a call with the natural selection returns if that number fits the Correlator's lag buffer and writes outside it otherwise.", "quantifier": "every accepted data set, every a <= b and r > 0 given or defaulted, both function choices", "why_tests_cant": "the number depends on three real parameters; tests use the defaults", "anchors": ["sacf/sacf.py: autocorrelation lines 94-146", "sacf/correlator/Correlator.cpp: Correlator::Correlator lines 33-55, calculateStandardCorrelation lines 254-274, addCorrelationData lines 235-240"]}
{"id": "C60", "title": "Unordered, repeated and non-finite time stamps", "statement": "SACF accepts time stamps in any order. With two equal neighbouring stamps in an ordered series, or a non-finite first or last stamp, the Correlator constructor converts an infinite or NaN quotient to an integer (undefined behaviour). If the stamps are not strictly rising the default call never returns correlations when the last one is not before the first: with the natural selection it writes outside its buffers. If the last stamp is before the first no lag is visited and the result is empty or an UnboundLocalError, depending on the functions chosen.", "quantifier": "every accepted data set, both arithmetics, all selection and weight names, all alpha", "why_tests_cant": "tests only use increasing time stamps", "anchors": ["sacf/datastructure/DataStructure.cpp: setUp lines 33-42, calcNormt, settMax lines 151-155", "sacf/correlator/Correlator.cpp: findMinDiff lines 10-23, Correlator::Correlator lines 33-55", "sacf/sacf.py: autocorrelation lines 94-146"]}
{"id": "C61", "title": "Infinite and very large values", "statement": "One infinite value in a dataset makes every correlation of that dataset NaN. One finite value of magnitude at least 2^128-2^103 (beyond float, which the normalisation uses) makes every correlation of that dataset zero or NaN.", "quantifier": "every accepted data set and dataset, all settings under which the call returns; both arithmetics for infinities, binary64 for large values", "why_tests_cant": "needs a statement over all positions and all other values", "anchors": ["sacf/correlator/Correlator.cpp: Correlator::Correlator lines 38-47, findCorrelation lines 137-148", "sacf/datastructure/DataStructure.cpp: setDataMean, calcNormData lines 140-163"]}
{"id": "C62", "title": "Sign of the values", "statement": "Changing the sign of all values of a dataset leaves the outcome, the lags and every correlation of that dataset unchanged (equal as numbers, or both NaN), also in binary64 arithmetic with all its rounding.", "quantifier": "every pair of accepted data sets with the same times, every dataset, all settings, names and platforms, both arithmetics", "why_tests_cant": "rounding errors would have to be checked for every value", "anchors": ["sacf/correlator/Correlator.cpp: Correlator::Correlator lines 38-47, findCorrelation lines 137-148", "sacf/datastructure/DataStructure.cpp: setDataMean, calcNormData lines 140-163"]}
{"id": "C63", "title": "Accuracy of the correlations", "statement": "In binary64 arithmetic every finite correlation returned for a dataset whose values are at most 2^100 in magnitude, with at most 2^50 time points and a normalisation of at least 2^-750, differs from the same weighted sum over the same pairs, divided by the same normalisation, in real arithmetic by at most 2(m+n+10) 2^-53 T/N + 2^-110, where m is the number of pairs, n the number of values present, T the sum of the magnitudes of the terms and N the normalisation.", "quantifier": "every accepted data set and dataset, every lag, all settings and names under which the call returns, every exponential function", "why_tests_cant": "a bound for all inputs and all lengths cannot be sampled", "anchors": ["sacf/correlator/Correlator.cpp: Correlator::Correlator lines 38-47, findCorrelation lines 137-148", "sacf/datastructure/DataStructure.cpp: setDataMean, calcNormData lines 140-163"]}
{"id": "C64", "title": "Accuracy of the mean", "statement": "In binary64 arithmetic a finite entry of mean_data differs from the mean of the values present by at most ((1+2^-53)^(n+1) - 1) times the mean of their magnitudes, plus 2^-1075, where n is the number of values present. It is finite if the values present are at most 2^100 in magnitude and there is at least one.", "quantifier": "every accepted data set, every dataset with at most 2^53 (2^50) values present", "why_tests_cant": "a bound for all inputs and all lengths cannot be sampled", "anchors": ["sacf/datastructure/DataStructure.cpp: setDataMean lines 140-149"]}
{"id": "C65", "title": "Ordinary data give finite correlations", "statement": "In binary64 arithmetic, if the values of a dataset are finite, none missing and at most 2^100 in magnitude, the normalisation is at least 2^-750, the time stamps relative to the first are finite, and alpha is positive and finite (for the gaussian weight: twice its square is), then every correlation returned for the dataset is a finite number.", "quantifier": "every accepted data set and dataset with at most 2^50 time points, every lag, all settings and names under which the call returns", "why_tests_cant": "needs a statement over all values and lengths", "anchors": ["sacf/correlator/Correlator.cpp: Correlator::Correlator lines 38-47, findCorrelation lines 137-148", "sacf/datastructure/DataStructure.cpp: setDataMean, calcNormData lines 140-163"]}
{"id": "C66", "title": "Time stamps on a binary grid are handled without rounding", "statement": "If all time stamps are multiples k*2^g of one power of two with |k| <= 2^50, in order and at least two, and min_lag, max_lag and lag_resolution, where given, are such multiples with |k| <= 2^51 (lag_resolution not negative), then a call in binary64 has the same outcome as in exact arithmetic: it fails in the same way, or returns exactly the same lags. At any lag on the grid, both selection functions choose the same pairs and deltaT stores exactly the same offsets. The median time is exact as well.", "quantifier": "every accepted data set with such time stamps, -1073 <= g <= 960, all such settings, every selection and weight function, both meanings of abs", "why_tests_cant": "the claim compares floating-point with exact arithmetic on all such inputs", "anchors": ["sacf/correlator/Correlator.cpp: Correlator::Correlator lines 33-55, naturalSelectionFunctionIdx lines 79-107, fastSelectionFunctionIdx lines 109-135, deltaT lines 162-170, calculateStandardCorrelation lines 254-274", "sacf/sacf.py: autocorrelation line 94"]}
{"id": "C67", "title": "Distance of the correlations from the exact ones", "statement": "For time stamps and settings as in C66 and a positive finite alpha (for the gaussian weight: twice its square is so too), a call that returns in binary64 also returns in exact arithmetic, and for every dataset with finite values of magnitude at most B = 2^b (-149 <= b <= 100), at least 2^-700 normalisation N and condition K = n B^2 / N with (n+1) K <= 2^48, every correlation is a finite number that differs from the exact correlation by at most 50 (n+10) 2^-53 (K^2 + K) + 5 w K + 2^-110, where w bounds the error of the weights (7*2^-53, for the gaussian the error of exp plus 16*2^-53).", "quantifier": "every such data set and dataset, every lag, all settings and names under which the call returns", "why_tests_cant": "a bound for all inputs and all lengths cannot be sampled", "anchors": ["sacf/correlator/Correlator.cpp: Correlator::Correlator lines 33-55, naturalSelectionFunctionIdx lines 79-107, fastSelectionFunctionIdx lines 109-135, deltaT lines 162-170, calculateStandardCorrelation lines 254-274", "sacf/sacf.py: autocorrelation line 94", "sacf/correlator/Correlator.cpp: findCorrelation lines 137-148"]}
{"id": "C68", "title": "Evenly sampled data in binary64 give the classical autocorrelation", "statement": "For M >= 2 evenly spaced time stamps on a binary grid with spacing d and all settings at their defaults with natural selection, a call in binary64 returns; the lags are exactly the multiples of d from -(M-1)d to (M-1)d; and for every dataset as in C67 the correlation at lag m*d differs by at most the bound of C67 from the classical estimator, the sum over q < M-m of the products of the deviations of points q and q+m from the mean, divided by N; at -m*d the same holds for the exact value of C27.", "quantifier": "every accepted data set with such time stamps with 2M+1 <= INT_MAX, every dataset as in C67, every m < M, the three weight functions, both meanings of abs", "why_tests_cant": "a statement over all grids, lengths and values", "anchors": ["sacf/correlator/Correlator.cpp: Correlator::Correlator lines 33-55, naturalSelectionFunctionIdx lines 79-107, fastSelectionFunctionIdx lines 109-135, deltaT lines 162-170, calculateStandardCorrelation lines 254-274", "sacf/sacf.py: autocorrelation line 94", "sacf/correlator/Correlator.cpp: findCorrelation lines 137-148"]}
{"id": "C69", "title": "In binary64 the unit of time may change by a power of two", "statement": "If all time stamps (in order, two or more) and all given lag parameters and alpha are multiplied by 2^e, and all of them before and after are zero or between 2^-400 and 2^400 in size, lag_resolution not negative, then with the floating-point abs a call in binary64 has the same outcome: it fails in the same way, or the lags are exactly multiplied by 2^e and the correlations are the same doubles, bit for bit, for each selection and weight function. The normalised times and the median time are multiplied exactly as well. With the integer abs this fails (C30).", "quantifier": "every pair of accepted data sets so related with the same values, every e, all settings and names, every function in place of exp", "why_tests_cant": "relational property between two runs over all data", "anchors": ["sacf/correlator/Correlator.cpp: Correlator::Correlator lines 33-55, naturalSelectionFunctionIdx lines 79-107, fastSelectionFunctionIdx lines 109-135, deltaT lines 162-170, weight functions lines 173-197, calculateStandardCorrelation lines 254-274", "sacf/sacf.py: autocorrelation line 94"]}
{"id": "C70", "title": "Lifetime of data and correlators", "statement": "In every program that creates, names, renames and drops DataStructure, SACF, Correlator and CorrelationIterator objects and calls their methods in any order, no command ever uses an object that was freed: a DataStructure lives as long as any name, SACF or Correlator (through its C++ pointer) leads to it, and every object that nothing leads to is freed, unless the program has assigned to the attribute data of a SACF such that it leads back to itself. Without py::keep_alive on the constructor of Correlator, dropping the DataStructure before the Correlator would make the next calculation use freed memory.", "quantifier": "every program (finite sequence of commands with exceptions caught) and every next command, in any arithmetic, on every platform", "why_tests_cant": "unbounded programs; use of freed memory usually goes unnoticed in a test", "anchors": ["sacf/correlator/correlator_bindings.cpp: lines 12-47, py::keep_alive<1, 2> line 22", "sacf/include/Correlator.h: member ds", "sacf/sacf.py: SACF.__init__ lines 32-41, autocorrelation lines 94-146"]}
{"id": "C71", "title": "Objects do not influence each other", "statement": "In every program: a command leaves what can be seen of an object unchanged unless the command is a call on that very object (under whatever name); the data in a SACF or DataStructure never change (unless the program assigns to the attribute data of that SACF); a call of autocorrelation has the outcome determined by the arguments of SACF() and of the call alone, whatever happened before, between (short of an assignment to the attribute), and to correlators and iterators that share the data; the state of a correlator is the one that the calls on it, in their order, lead to.", "quantifier": "every program, every name, every command", "why_tests_cant": "non-interference over unbounded programs with sharing", "anchors": ["sacf/correlator/correlator_bindings.cpp: lines 12-47, py::keep_alive<1, 2> line 22", "sacf/include/Correlator.h: member ds", "sacf/sacf.py: SACF.__init__ lines 32-41, autocorrelation lines 94-146"]}
{"id": "C72", "title": "Objects in a program", "statement": "In every program, every DataStructure was accepted by its constructor, every Correlator was made by its constructor from accepted data followed by some sequence of its methods, every CorrelationIterator likewise, and no command runs forever. So what is shown for arbitrary histories of calls (C16, C34, C37, C38, C54) holds for objects that are shared, renamed and outlive each other.", "quantifier": "every program, every name, every command", "why_tests_cant": "invariant of unbounded programs", "anchors": ["sacf/correlator/correlator_bindings.cpp: lines 12-47, py::keep_alive<1, 2> line 22", "sacf/include/Correlator.h: member ds", "sacf/sacf.py: SACF.__init__ lines 32-41, autocorrelation lines 94-146"]}
{"id": "C73", "title": "Origin of time in binary64", "statement": "Only the normalised time stamps matter: two SACF objects with the same normalised times and the same values give the same outcome to every call of autocorrelation. In binary64, adding to every time stamp a number s such that no addition rounds (and no time is -0) changes neither the normalised times, nor median_time, nor a single bit of the outcome of any call. No order, grid or size of the times is assumed.", "quantifier": "every pair of accepted data sets whose times differ by an exact shift, every argument of autocorrelation, every platform", "why_tests_cant": "bit-for-bit equality over all doubles", "anchors": ["sacf/datastructure/DataStructure.cpp: normaliseTimeseries, meanData, normaliseData", "sacf/correlator/Correlator.cpp: constructor (normalisation), findCorrelation, weight functions", "sacf/sacf.py: autocorrelation lines 94-146"]}
{"id": "C74", "title": "Unit of the data values in binary64", "statement": "Multiplying the finite data values by a power of two (NaN and infinities stay) changes not a single bit of the lags and of the correlations, and not the kind of outcome, for the weight functions fractional and fractional_squared, if values are 0 or between 2^-70 and 2^70 in size before and after, times and arguments are 0 or between 2^-100 and 2^100, times are ordered and there are at most 2^50 of them. Without the bound on the values this is false, as values are rounded to single precision when the normalisation is computed.", "quantifier": "both meanings of abs, every power of two, every data set and every argument within the stated ranges", "why_tests_cant": "bit-for-bit equality over all doubles; needs exactness of scaling in every intermediate result", "anchors": ["sacf/datastructure/DataStructure.cpp: normaliseTimeseries, meanData, normaliseData", "sacf/correlator/Correlator.cpp: constructor (normalisation), findCorrelation, weight functions", "sacf/sacf.py: autocorrelation lines 94-146"]}
{"id": "C75", "title": "Integer time stamps: the same result with every compiler", "statement": "If all time stamps are integers (up to 2^27 in size, ordered) and the given lag settings are integers (up to 2^28, resolution not negative), the outcome of autocorrelation does not depend on whether the compiler resolves abs(double) to the integer or to the floating version. For other time stamps it does depend on it.", "quantifier": "every accepted data set with such times, any values, every call with such settings, any names of functions, two builds that differ in abs only", "why_tests_cant": "needs two compilers and all inputs", "anchors": ["sacf/correlator/Correlator.cpp: naturalSelectionFunctionIdx, fastSelectionFunctionIdx, deltaT, _addCorrelationData, _cleanCorrelationData, correlations", "sacf/sacf.py: autocorrelation lines 94-146"]}
{"id": "C76", "title": "Other lag settings on the same data", "statement": "The correlation at a lag depends on the data, alpha and the two functions only: two calls with different min_lag, max_lag and lag_resolution give the same number wherever their lags coincide. Lowering max_lag to y (not below min_lag) gives the same result cut off after the last lag not above y.", "quantifier": "every accepted data set, all pairs of settings, every platform; the second part for binary64 and for exact numbers", "why_tests_cant": "relates two calls for all inputs", "anchors": ["sacf/correlator/Correlator.cpp: naturalSelectionFunctionIdx, fastSelectionFunctionIdx, deltaT, _addCorrelationData, _cleanCorrelationData, correlations", "sacf/sacf.py: autocorrelation lines 94-146"]}
{"id": "C77", "title": "Positions in the result buffers are computed in int", "statement": "A call of autocorrelation that gives L lags for N datasets, on a correlator that allotted n lag steps, computes positions up to (N-1)*n + L-1 in type int: the C++ program has the result of the model if this is at most INT_MAX, and overflows (undefined) otherwise. If N*n <= 2^31 no history of calls on a correlator overflows, and every call has the outcome that it would have with unbounded integers.", "quantifier": "every accepted data set and every call; every history of method calls; sizes above and below the limit", "why_tests_cant": "the limit needs result buffers of 2^31 doubles", "anchors": ["sacf/correlator/Correlator.cpp lines 67-77, 235-252", "sacf/correlator/include/Correlator.h: num_lag_steps is int, N_datasets is double", "sacf/sacf.py: find_correlation"]}
{"id": "C78", "title": "Reversed data", "statement": "For evenly sampled data in exact arithmetic, a dataset and the same dataset in reversed order have the same correlation at every non-negative multiple of the sampling step, whatever the lag settings, weight functions, positive alphas and compilers of the two calls. At negative lags this is false.", "quantifier": "all lengths, values, sampling steps and pairs of calls with the natural selection", "why_tests_cant": "relates two calls for all inputs in exact arithmetic", "anchors": ["sacf/correlator/Correlator.cpp: naturalSelectionFunctionIdx, deltaT, findCorrelation", "sacf/sacf.py: autocorrelation"]}
{"id": "C79", "title": "Sum and quadratic form of the correlations", "statement": "For evenly sampled data with M points in exact arithmetic, the correlations v(m) at the lags m*step, m = 0..M-1 satisfy v(0) + 2*(v(1)+...+v(M-1)) = 0, and the matrix v(|i-k|) is positive semidefinite.", "quantifier": "all lengths, values, sampling steps and settings for which these lags are computed; all quadratic forms", "why_tests_cant": "universal over real matrices and vectors", "anchors": ["sacf/correlator/Correlator.cpp: naturalSelectionFunctionIdx, deltaT, findCorrelation", "sacf/sacf.py: autocorrelation"]}
{"id": "C80", "title": "Unusual values of alpha", "statement": "A NaN alpha gives NaN at every lag with at least one pair. A zero alpha gives NaN at every lag with a pair at offset zero. An infinite alpha of either sign makes all weights one: the result is the unweighted sum of products over the selected pairs, exactly. With the fractional weight and alpha equal to the negative of an offset in use, the result is not finite.", "quantifier": "every accepted data set, lag, selection function, compiler and either arithmetic; for the gaussian under stated conditions on exp and on the squares of the offsets", "why_tests_cant": "quantifies over all data and all floating point values", "anchors": ["sacf/correlator/Correlator.cpp lines 137-197: findCorrelation, fractionWeightFunction, fractionSquaredWeightFunction, gaussianWeightFunction", "sacf/sacf.py: autocorrelation, argument alpha"]}
{"id": "C81", "title": "Objects not deleted", "statement": "After any history of calls on a correlator of an accepted data set, no CorrelationIterator made by calculateStandardCorrelation is left undeleted, and exactly one CorrelationData object is lost for each call of clearCorrelation. calculateStandardCorrelation never raises, so its delete is always reached when it ends normally.", "quantifier": "all accepted data sets, histories of method calls, compilers and both arithmetics", "why_tests_cant": "leaks are not visible to the tests; all histories", "anchors": ["sacf/correlator/Correlator.cpp lines 276-287: new and delete of the iterator", "sacf/correlator/Correlator.h line 90: clearCorrelation"]}
{"id": "C82", "title": "Layout of data files", "statement": "The result of reading a data file depends only on its rows of words: the non-blank lines, each as the list of its words between commas, spaces, tabs, form feeds and carriage returns. So separators can be exchanged, repeated, or put at either end of a line, blank lines and the last newline do not matter, and lines can end with LF or CR LF. Lines ending with CR alone are not lines.", "quantifier": "all byte sequences as files, including text that is not numbers; both arithmetics", "why_tests_cant": "all pairs of files with the same words", "anchors": ["sacf/datastructure/DataStructure.cpp lines 90-138: the constructor from a file", "sacf/sacf.py: SACF(filename=...)"]}
{"id": "C83", "title": "Data files one after the other", "statement": "A file made of two readable files joined by a newline has the times, values and errors of the first followed by those of the second, if both or neither have errors; a file without data joined to another before or after changes nothing. If only the second file has errors, its further columns become data points.", "quantifier": "all pairs of byte sequences as files; both arithmetics", "why_tests_cant": "all pairs of files", "anchors": ["sacf/datastructure/DataStructure.cpp lines 90-138: the constructor from a file", "sacf/sacf.py: SACF(filename=...)"]}
{"id": "C84", "title": "Bound by the number of uses of a point", "statement": "If the values are single precision numbers, not all the same, alpha is positive and no point is the second of more than m pairs at a lag, then the square of the correlation at that lag is at most m, for every selection and weight function. With every point used at most once the correlation lies in [-1, 1].", "quantifier": "all data with real time stamps and values, all lag settings, selection and weight functions, exact arithmetic", "why_tests_cant": "all data, all lags, all m", "anchors": ["sacf/correlator/Correlator.cpp lines 79-135 and 162-170: selection functions and deltaT", "sacf/correlator/Correlator.cpp lines 137-160 and 172-197: weight functions and findCorrelation", "sacf/sacf.py: SACF.autocorrelation"]}
{"id": "C85", "title": "Dependence on alpha", "statement": "With every time offset at most D the correlation differs from the one without weights (all weights 1) by at most B*D/alpha for the fractional weights and B*(D/alpha)^2 for the two others, where B is the sum of the absolute products over the sum of squares. With every offset zero or at least delta it differs from the sum over the pairs at the exact lag by at most B*alpha/delta, or 2*B*(alpha/delta)^2.", "quantifier": "all data with real time stamps and values, all positive alpha, all selection and weight functions, exact arithmetic", "why_tests_cant": "a limit for alpha to infinity and to zero over all data", "anchors": ["sacf/correlator/Correlator.cpp lines 79-135 and 162-170: selection functions and deltaT", "sacf/correlator/Correlator.cpp lines 137-160 and 172-197: weight functions and findCorrelation", "sacf/sacf.py: SACF.autocorrelation"]}
{"id": "C86", "title": "Time offsets of the natural selection", "statement": "For ordered times with gaps at most g, a point shifted by the lag to a time not before the first has offset at most g/2; a point shifted before the first time is paired with a point at the first time, at the distance to it. So at lags that are not negative the weights change the correlation by at most B*g/(2 alpha), or B*(g/(2 alpha))^2.", "quantifier": "all ordered real time stamps, all lags, exact arithmetic, builds where abs is the floating point one", "why_tests_cant": "all time stamps and lags", "anchors": ["sacf/correlator/Correlator.cpp lines 79-135 and 162-170: selection functions and deltaT", "sacf/correlator/Correlator.cpp lines 137-160 and 172-197: weight functions and findCorrelation", "sacf/sacf.py: SACF.autocorrelation"]}
{"id": "C87", "title": "Number of pairs", "statement": "With the natural selection and ordered finite times, the number of pairs does not grow with the lag. All points have a partner at lags up to zero and none at lags beyond the last normalised time, where the correlation is zero times the inverse of the sum of squares.", "quantifier": "all ordered finite time stamps, all lags, both arithmetics, all builds", "why_tests_cant": "all time stamps and pairs of lags", "anchors": ["sacf/correlator/Correlator.cpp lines 79-135 and 162-170: selection functions and deltaT", "sacf/correlator/Correlator.cpp lines 137-160 and 172-197: weight functions and findCorrelation", "sacf/sacf.py: SACF.autocorrelation"]}
{"id": "C88", "title": "Counters of type int", "statement": "The loops over data points and datasets count in int, and positions are passed as int. Up to 2^31 - 1 time stamps and datasets this makes no difference to construction, the getters and calls. With 2^31 or more datasets construction is undefined. With 2^31 or more time stamps construction is undefined if the low 32 bits of their number are a negative int; otherwise one dataset is accepted with a mean over only as many values as the low 32 bits say, and reading the data or making a Correlator is undefined.", "quantifier": "all inputs of any size, all settings and builds, both arithmetics", "why_tests_cant": "inputs of 16 GB and more", "anchors": ["sacf/datastructure/DataStructure.cpp lines 44-46, 140-163 and 188-225: int parameters of getVectorIndex, loops", "sacf/correlator/Correlator.cpp lines 10-23, 33-55, 79-197: loops with int counters"]}
{"id": "C89", "title": "Periodic signals", "statement": "For evenly sampled values that repeat after m points and the natural selection, no correlation at a later lag exceeds in absolute value the one at m sampling steps. If the series consists of n whole periods, the correlation at k periods is 1 - k/n. If the values are mirrored at their mean after every h points, n times over, the correlation at k*h steps is 1 - k/n with alternating sign. (Exact arithmetic, values representable in single precision, not all equal.)", "quantifier": "all evenly sampled data of any length and period, all weights, alpha > 0, all lag settings that contain the lag", "why_tests_cant": "any length, any period, any values", "anchors": ["sacf/correlator/Correlator.cpp lines 79-135 and 162-170: selection functions and deltaT", "sacf/correlator/Correlator.cpp lines 137-160 and 172-197: weight functions and findCorrelation", "sacf/sacf.py: SACF.autocorrelation"]}
{"id": "C90", "title": "Straight lines", "statement": "For M >= 2 evenly sampled values on a straight line that is not level, the correlation at m <= M sampling steps under the natural selection is n(n^2 - 1 - 3m^2)/(M(M^2 - 1)) with n = M - m, whatever the slope, offset, step, weights and alpha. (Exact arithmetic, values representable in single precision.)", "quantifier": "all M and m, all slopes, offsets, steps", "why_tests_cant": "any length", "anchors": ["sacf/correlator/Correlator.cpp lines 79-135 and 162-170: selection functions and deltaT", "sacf/correlator/Correlator.cpp lines 137-160 and 172-197: weight functions and findCorrelation", "sacf/sacf.py: SACF.autocorrelation"]}
{"id": "C91", "title": "Single precision in the normalisation", "statement": "The sum of squares that normalises a dataset is taken over values rounded to single precision. If the sum of squares of the values is at most K^2 times the sum of squared deviations and K < 2^24, every correlation equals the one with exact normalisation times a factor between 1/(1 + K*2^-24)^2 and 1/(1 - K*2^-24)^2; at lag zero under the natural selection the correlation is such a factor. (Exact arithmetic otherwise; values zero or at least 2^-126 in size. Without the bound on K see C23: 0.25 at lag zero.)", "quantifier": "all data, times, settings and builds", "why_tests_cant": "all values", "anchors": ["sacf/correlator/Correlator.cpp lines 33-55: float X in the sum of squares N of the constructor", "sacf/correlator/Correlator.cpp lines 137-160 and 172-197: weight functions and findCorrelation", "sacf/sacf.py: SACF.autocorrelation"]}
{"id": "C92", "title": "Positional and keyword arguments", "statement": "A call of SACF() or autocorrelation() with more arguments than parameters, an unknown keyword, or two values for a parameter raises TypeError. Any other call depends only on the value each parameter receives by position, by keyword or by default: the order of keywords, giving the last positional argument by name, and writing out a default make no difference. autocorrelation() returns a third element, the correlator, exactly if return_correlator is true; an array of several elements there raises ValueError after the calculation. Function names that are not one of the documented str values never give a result; for the selection function, if min_lag <= max_lag, the error is KeyError or TypeError (KeyError for None, numbers and strings). For the weight function, if the call succeeds with \"gaussian\", the same holds: KeyError or TypeError (KeyError for None, numbers and strings).", "quantifier": "all argument lists, all values, both arithmetics, all builds", "why_tests_cant": "all splits into positional and keyword arguments, all orders", "anchors": ["sacf/sacf.py lines 4-13, 33-41 and 94-146: dictionaries, signatures, return_correlator"]}
{"id": "C93", "title": "A lone spike", "statement": "M >= 2 evenly sampled values (representable in single precision), all equal but one, natural selection, exact arithmetic: the correlation at m >= 1 points is ((M-m)/M - k)/(M-1), where k is the number of the M-m pairs that contain the one value (0, 1 or 2). It depends neither on the values nor on the weight function.", "quantifier": "all sampling intervals, lengths, positions and heights of the spike, lags and weight functions", "why_tests_cant": "real-valued inputs of any length", "anchors": ["sacf/correlator/Correlator.cpp lines 79-135 and 162-170: selection functions and deltaT", "sacf/correlator/Correlator.cpp lines 137-160 and 172-197: weight functions and findCorrelation"]}
{"id": "C94", "title": "Sum and difference of two signals", "statement": "In exact arithmetic, for four datasets x, y, x+y and x-y of one call, none of them constant: with N the normalisation of a dataset (its sum of squared deviations) and r its correlation at a lag, N(x+y) r(x+y) + N(x-y) r(x-y) = 2 (N(x) r(x) + N(y) r(y)), for every selection function, weight function and lag, evenly sampled or not.", "quantifier": "all values and times, all selection and weight functions, all lags", "why_tests_cant": "real-valued inputs of any length", "anchors": ["sacf/correlator/Correlator.cpp lines 79-135 and 162-170: selection functions and deltaT", "sacf/correlator/Correlator.cpp lines 137-160 and 172-197: weight functions and findCorrelation"]}
{"id": "C95", "title": "Values that differ by little", "statement": "In exact arithmetic, two datasets of one call with M values (representable in single precision) of size at most B, not constant, that differ by at most e at each time: at each lag the correlations differ by at most 8 e B M (1 + |r(y)|) / N(x), N(x) being the sum of squared deviations of the first.", "quantifier": "all values and times, all selection and weight functions, all lags", "why_tests_cant": "real-valued inputs of any length", "anchors": ["sacf/correlator/Correlator.cpp lines 79-135 and 162-170: selection functions and deltaT", "sacf/correlator/Correlator.cpp lines 137-160 and 172-197: weight functions and findCorrelation"]}
{"id": "C96", "title": "Contraction by the compiler", "statement": "A compiler may evaluate the product and the sum in N += (X-mean)*(X-mean), in 1 + (dt/alpha)*(dt/alpha) and in correlation += weight*x*y with one rounding instead of two (fused multiply-add; the default of GCC on aarch64 and others). In whichever of the three places it does: a call returns the same lags and as many values, or the same exception; the accuracy of C63, the finite results of C65 and the accuracy of the squared fractional weight stay as they are; two builds differ at each lag by at most 4 (pairs + values + 17) 2^-53 times the sum of the magnitudes of the products over the normalisation, plus 2^-109. The values can differ in the last bits, for each of the places.", "quantifier": "all inputs, all eight combinations of contracted places and any pair of them; the first part for any way whatever of computing x*y+z", "why_tests_cant": "the project is tested on one build; needs a bound for sums of any length", "anchors": ["sacf/correlator/Correlator.cpp lines 39-47, 137-147, 154-156", "setup.py, sacf/CMakeLists.txt: no -ffp-contract option", "sacf/sacf.py: SACF.autocorrelation"]}
{"id": "C97", "title": "Memory exhausted", "statement": "Any request for memory may fail (std::bad_alloc, MemoryError in Python). A call of autocorrelation() raises MemoryError exactly when one of its requests fails, and otherwise gives what it gives with enough memory; likewise every method that takes an iterator, and every operation on a Correlator, after any history in which requests failed and the exceptions were caught. An operation that ran out of memory leaves settings and data as they were and correlations() with as many numbers; a calculation that ran out of memory can be repeated and then gives what it would have given; whatever failed before, a calculation that ends normally gives what a new Correlator with the same settings gives. Lost for good is at most one CorrelationIterator object per such calculateStandardCorrelation(). Not kept: after a failure lag_timeseries() and the rows of correlations() can have different lengths, and a selection that ran out of memory cannot be repeated on the same iterator (the shifted times of the first attempt are still there).", "quantifier": "all inputs, all histories of operations, any set of failing requests", "why_tests_cant": "a test would have to make each single allocation fail, in every state", "anchors": ["sacf/correlator/Correlator.cpp lines 27, 38, 44, 53-54, 79-135, 162-197, 242-287", "sacf/correlator/Correlator.h line 90", "sacf/sacf.py lines 57-146"]}
{"id": "C98", "title": "Building the extension", "statement": "python setup.py build_ext, whatever the surroundings answer. Without cmake it raises a RuntimeError that names the extensions, and has done nothing else. On Windows a cmake older than 3.1.0 is refused before anything is written, the numbers compared as numbers (3.10 is accepted); elsewhere the version is not looked at. Otherwise exactly two programs are run for each extension, in order: cmake with the source directory, the output directory, the Python executable, the build type (not on Windows), -A x64 only for a 64-bit Python on Windows, and both compilers or neither; the CXXFLAGS of the user come first with the version appended and no other variable is changed; then cmake --build. Nothing is run after a program that failed, and the command then fails; every program runs in build_temp, which was found or made before. The compilers named are those which(1) answers, without the newline. Both extensions of this package lie in one directory, so the same two programs are run twice.", "quantifier": "all replies of the surroundings, all environments, any list of extensions", "why_tests_cant": "the tests never run setup.py under a failing or old cmake, on Windows, or with flags set", "anchors": ["setup.py lines 34-104, 115-118"]}
{"id": "C99", "title": "Python threads", "statement": "Any number of Python threads calling the methods of Correlators, find_correlation and autocorrelation(), under every schedule (a switch may happen between any two uses of the extension). If no Correlator is given to two threads, each thread sees what it sees when running alone (at any time a beginning of it), its Correlators end up the same, every thread ends after a number of its own turns that does not depend on the others, and a Correlator given to no thread is unchanged; calls of autocorrelation() on shared data never influence each other. If Correlators are shared: as long as no call had undefined behaviour, each is in a state a single program could have produced, so correlations() reads nothing out of bounds and its rows are as long as the lags unless somebody clears. Threads repeating the same find_correlation on one Correlator all succeed, its result is there once the first call has returned and stays there. In general sharing is not safe: two threads exist whose programs return normally one after the other in either order, and write out of bounds when interleaved.", "quantifier": "all numbers of threads, programs, schedules, data, builds; both arithmetics", "why_tests_cant": "tests run one thread; the number of schedules grows exponentially with the number of lags", "anchors": ["sacf/sacf.py lines 43-146", "sacf/correlator/correlator_bindings.cpp lines 14-47"]}
{"id": "C100", "title": "Interrupted calculations", "statement": "find_correlation left by KeyboardInterrupt between any two of its steps (the extension itself is never cut): the settings and data are unchanged and as many lags and correlations can be read as before. If the call would have ended normally, the entries of the lags already stored are its results (one lag for every six steps after the first three) and the others are as before. Every calculation made afterwards ends as it would have ended before the interrupted call, and if normally with the same result; in a program with any number of interrupted calls a calculation that ends normally gives what it gives on a new Correlator with these settings, and every state is one that a program without interrupts can reach. What can be read right after an interrupt is in general neither the old nor the new result.", "quantifier": "all data, settings, histories with any number of interrupts at any step, builds; both arithmetics", "why_tests_cant": "tests never interrupt a calculation; the point of interruption is arbitrary", "anchors": ["sacf/sacf.py lines 57-92", "sacf/correlator/Correlator.cpp lines 67-77"]}
{"id": "C101", "title": "Data files read in blocks; read errors and truncated files", "statement": "SACF('file') does not depend on the sizes of the blocks in which the file is fetched; an empty block is the end of the file. When a read fails (or the memory for a line cannot be had) the outcome is that of the file cut after its last complete line: the points are the first points of the file, with errors exactly if the file has errors, or EmptyDataStructureException if there are none; nothing else is reported. A directory gives EmptyDataStructureException. A file that stops after a whole line gives the first points of the longer file; one that stops within a number is accepted with a wrong last value.", "quantifier": "all files, all divisions into blocks, all places of failure; any arithmetic", "why_tests_cant": "needs a failing disk or network file system; block sizes are out of the control of tests", "anchors": ["sacf/datastructure/DataStructure.cpp lines 90-138"]}
{"id": "C102", "title": "Memory exhausted while data are loaded", "statement": "SACF(times, values, errors) with lists: MemoryError, or the same outcome as with enough memory. SACF('file'): MemoryError, BadDataFileReadException (no memory to open the file), EmptyDataStructureException, or an object with as many values as times; it is then read as if the last lines were missing and some lines had lost their last numbers, because std::getline and >> swallow std::bad_alloc. With two or three columns every point is a point of the file, in order. If no request fails the outcome is the ordinary one. A lack of memory is thus not always reported: points can be missing in the middle, or errors, and then errors() reads outside its vector.", "quantifier": "all data and files, every set of failing requests; any arithmetic", "why_tests_cant": "a test cannot make the n-th allocation inside the C++ library fail", "anchors": ["sacf/datastructure/DataStructure.cpp lines 33-168"]}
{"id": "C103", "title": "Least number of lags", "statement": "With default settings n points (strictly increasing times) give at least 2n-1 lags, and exactly 2n-1 only when the times are evenly spaced (n >= 2; exact arithmetic, and binary64 when the times are multiples of a power of two with at most 50 bits, e.g. integers below 2^50). There is no upper bound by the number of points: three points at 0, 1 and N give 2N+1 lags.", "quantifier": "all data sets, settings of alpha, selection and weight functions; every N", "why_tests_cant": "a test has fixed data", "anchors": ["sacf/correlator/Correlator.cpp: Correlator::Correlator, findMinDiff", "sacf/sacf.py: find_correlation, autocorrelation"]}
{"id": "C104", "title": "Digits in data files", "statement": "A two or three column file in which every number is a double written with at least 17 significant digits (to nearest) is read back to exactly these doubles; 16 digits are not enough. Time stamps with at most 15 significant digits that rise in the file are different and rise when read (zero or normal range); with 16 digits two of them can become equal, and then making a Correlator is undefined behaviour.", "quantifier": "all files, all numbers of lines; binary64", "why_tests_cant": "a test reads some numbers", "anchors": ["sacf/datastructure/DataStructure.cpp: DataStructure(filename)", "sacf/correlator/Correlator.cpp: Correlator::Correlator"]}
{"id": "C105", "title": "Replacing the data of a SACF", "statement": "After sacf.data = ds the calls of sacf.autocorrelation are calls on the data of ds, whatever the program does in between (except assigning to the attribute again) and even if the name ds is dropped; correlators made before keep their data and state. After sacf.data = None a call passes a null pointer to C++ (undefined behaviour); after assigning an object of another class, or del sacf.data, a call raises and changes nothing. sacf.data = sacf; del sacf leaves an object that reference counts never free.", "quantifier": "every program, every SACF, every object assigned; any arithmetic", "why_tests_cant": "unbounded programs with sharing; a null pointer read need not crash in a test", "anchors": ["sacf/sacf.py: SACF.__init__ lines 33-41, autocorrelation line 122", "sacf/correlator/correlator_bindings.cpp: lines 21-22", "sacf/correlator/Correlator.cpp: Correlator::Correlator"]}
{"id": "C106", "title": "Time stamps or lags that differ by little", "statement": "With the natural selection, if two lists of time stamps (or two lags) are so close that the distances between times and shifted times agree to within e, and no choice is a close call (every shifted time misses the last time by more than e, and one time is nearer to it than every other by more than 2e), then the same pairs are chosen, and for the same values and the same alpha the two correlations differ by at most e/alpha times the sum of |products of deviations| over the sum of squared deviations, for each of the three weights. Without the second condition this is false: however small e, there are data whose time stamps differ by at most e and whose correlations differ by more than 1/3.", "quantifier": "all data sets, settings and lags in exact arithmetic (abs of double); all e", "why_tests_cant": "tests use one set of time stamps; continuity and its failure need a quantifier over e", "anchors": ["sacf/correlator/Correlator.cpp: naturalSelectionFunctionIdx lines 79-107, deltaT lines 162-170, weight functions lines 150-160, findCorrelation lines 137-147"]}
{"id": "C107", "title": "Any time stamps in binary64 against exact arithmetic", "statement": "With time stamps that are any finite doubles in ascending order (not only multiples of a power of two as in C66-C68), T the time span and E = 2^-53 (5 T + 3 |lag|): the natural selection pairs each time with one whose true distance from the shifted time exceeds the least distance by at most 2 E; the stored offset is within E of the true distance; a time is left out only if its shifted time is past the last time up to E, and kept only if it is not past it by more than E. If no choice is a close call within E (C106) and the lag is not positive or exceeds E, the pairs are those of exact arithmetic and the returned correlation differs from the exact one by at most 50 (n + 10) 2^-53 (K^2 + K) + 5 (om + E / alpha) K + 2^-110, with n, K, om as in C67. Without that condition evenly spaced times written in decimals do not behave as evenly spaced: for the times 0, 0.1, 0.2, 0.3 the default call returns 8 lags instead of 7, with -2^-54 besides 0, and at lag 0.1 keeps two pairs instead of three.", "quantifier": "all data sets with finite ordered time stamps, all settings, lags and weights in binary64 (abs of double); all values of bounded size and all normalisations that are not tiny", "why_tests_cant": "rounding of times, shifted times and differences depends on every bit; tests use one grid", "anchors": ["sacf/correlator/Correlator.cpp: naturalSelectionFunctionIdx lines 79-107, deltaT lines 162-170, weight functions lines 150-160, findCorrelation lines 137-147", "sacf/datastructure/DataStructure.cpp: line 154"]}
{"id": "C108", "title": "Work done by a call", "statement": "Counting the lags worked on, the comparisons of doubles in the selection functions (those of std::lower_bound included), the evaluations of the weight function, the products summed in findCorrelation and the doubles copied by mean_data(): with M time stamps and N datasets every call of autocorrelation, whether it returns, raises or is undefined, makes at most M (log2 M + 3) comparisons per lag with the natural selection and at most M + log2 M + 2 with the fast one, evaluates at most M weights per lag, and sums at most N products per weight; no more lags are begun than there are slots, and one. A call that returns works on each returned lag exactly once, evaluates one weight for each pair of it and sums exactly N products per pair. Constructing the correlator copies exactly 2 N doubles for every value that is not NaN, hence up to 2 N^2 M.", "quantifier": "all data structures that can be built, all settings and names, any outcome, both arithmetics and platforms", "why_tests_cant": "a test measures time for the sizes it tries and cannot count; a change from binary to linear search leaves all results alike", "anchors": ["sacf/correlator/Correlator.cpp: constructor lines 33-55, selection functions lines 79-135, weights lines 172-197, findCorrelation lines 137-147, calculateStandardCorrelation lines 254-287", "sacf/sacf.py: find_correlation lines 57-92, autocorrelation lines 94-146", "sacf/datastructure/DataStructure.cpp: mean_data line 184"]}
{"id": "C109", "title": "Values in every order", "statement": "Call autocorrelation with the same times and settings on every ordering of one dataset's values (exact arithmetic). Every call returns the same lags. At each lag the mean of the correlations over the M! orderings is (sum over the pairs (q, s_q) of w_q times 1/M if s_q = q and -1/(M(M-1)) otherwise) times the ratio of the sum of squared deviations to the one the normalisation computes in single precision. So where no time is paired with itself values without any time order give a mean correlation between -1/(M-1) and 0 (times that ratio), not zero; for evenly spaced times and a lag of m steps, 0 < m < M, it is -(M-m)/(M(M-1)).", "quantifier": "all data structures that can be built with finite times and a dataset of finite values that are not all alike, all settings and both selections with alpha > 0, all lags returned", "why_tests_cant": "a test draws a few shuffles; the mean over all M! orderings cannot be enumerated for any realistic M and sampling leaves an error larger than the bias of order 1/M", "anchors": ["sacf/correlator/Correlator.cpp: constructor lines 38-48, selection functions lines 79-135, findCorrelation lines 137-148", "sacf/sacf.py: autocorrelation lines 94-146"]}
{"id": "C110", "title": "Evenly sampled data with points missing", "statement": "Times on an even grid with any of its points missing, natural selection, a lag of m grid steps of either sign (exact arithmetic): in the correlation every pair of points exactly m steps apart enters once with weight 1, whatever the weight function and alpha; a point that meets none when moved by the lag enters with a nearest point and the weight of that distance, one grid step or more; points moved past the last one are left out. So the correlation differs from the sum over exact pairs divided by the normalisation by at most (number of points that meet none) * (weight at one grid step) * (largest deviation)^2 / normalisation, and that number is at most the number of grid points missing inside the range, plus -m if the lag is negative. In binary64, with time stamps and settings on a binary grid, the same bound holds with the rounding bound of C67 added.", "quantifier": "all grids, steps, sets of missing points and lags; all weight functions, alpha > 0; all datasets of finite values that are not all alike; the floating abs; exact arithmetic, and doubles with the stated bounds on their size", "why_tests_cant": "a test tries one pattern of gaps; that exact pairs are never displaced by a neighbour must hold for every pattern", "anchors": ["sacf/correlator/Correlator.cpp: constructor lines 38-48, naturalSelectionFunctionIdx lines 79-107, findCorrelation lines 137-148, weight functions lines 150-160, deltaT lines 162-170, weights lines 172-197"]}
{"id": "C111", "title": "Which of several nearest points is selected", "statement": "Natural selection, abs of double, ordered times: with i the first position whose time is not below the shifted time, the position selected is i, or the one before it if the computed distance to that one is strictly smaller (binary64 and exact arithmetic). So in exact arithmetic the selected position is determined by the times and the lag alone: it is a nearest one; a tie between an earlier and a later time goes to the later one; of equal times at or after the shifted time the first in the list is taken, of equal times before it the last.", "quantifier": "all accepted data with ordered times (equal times allowed), all lags, all positions retained", "why_tests_cant": "ties are a set of measure zero in random tests and their resolution cannot be seen from nearest-point checks; the claim covers all of them", "anchors": ["sacf/correlator/Correlator.cpp: naturalSelectionFunctionIdx (lines 93-103)"]}
{"id": "C112", "title": "Only distances up to twice the lag matter", "statement": "Natural selection, exact arithmetic, abs of double: if two lists of times agree in every distance up to 2 |lag| (and every other distance exceeds 2 |lag| in both), the same pairs are formed with the same offsets at that lag, and series with the same values and the same alpha have the same correlation there, whatever the other settings. In particular a series may be cut at any gaps wider than 2 |lag| and its parts moved as long as the gaps stay wider. In binary64, with times and lag on a binary grid (C66), the correlations are the same doubles. The bound cannot be lowered: a distance of exactly 2 |lag| matters.", "quantifier": "all accepted data with ordered times, any number of gaps, all lags of either sign, all weight functions, all datasets", "why_tests_cant": "relates two runs on different time stamps, for all series and lags", "anchors": ["sacf/correlator/Correlator.cpp: naturalSelectionFunctionIdx (lines 79-107), deltaT (lines 162-170), findCorrelation (lines 137-148)"]}
{"id": "C113", "title": "Fast selection on any ordered times", "statement": "Exact arithmetic, either meaning of abs. At a lag the fast selection keeps the times that stay strictly below the last one when moved, counts how many times lie below the first one plus the lag (the number of places), and pairs position q with the position that many places further on if that one is kept too, otherwise with the first position, whatever the times in between; the correlation is the sum of weight(offset) * product of deviations over these pairs, divided by the normalisation. The number of positions paired with the first one for want of a partner is the smaller of the number of places and the number kept, so at every positive lag there is at least one if any is kept, and from half the time span on all are.", "quantifier": "all accepted data with ordered times, all lags of either sign, all weight functions, datasets and settings", "why_tests_cant": "closed form of the result on irregular data, for all inputs; the tests use the natural selection", "anchors": ["sacf/correlator/Correlator.cpp: fastSelectionFunctionIdx (lines 109-135)"]}
{"id": "C114", "title": "Values moved round the times", "statement": "Exact arithmetic. Averaged over all rotations of the values (the first r moved to the end, r = 0 .. M-1) at the same times, the correlation at a lag is (1/(M * normalisation)) times the sum over the selected pairs of weight(offset) * circular autocovariance of the values at the distance of the pair, where the circular autocovariance joins the end of the series to its beginning. On evenly spaced times, natural selection, at a lag of m steps this is (M-m)/M * circular autocovariance at m / normalisation. The circular autocovariance is at most the squared deviation in absolute value, and equals it when the values repeat after m places.", "quantifier": "all accepted data, selections, weight functions, lags, datasets and settings (M arbitrary)", "why_tests_cant": "an average over all rotations of any series", "anchors": ["sacf/correlator/Correlator.cpp: calculateStandardCorrelation, _calculateStandardCorrelation, findCorrelation; sacf/datastructure/DataStructure.cpp: normalisation"]}
{"id": "C115", "title": "Fast selection in binary64 with any time stamps", "statement": "With doubles as time stamps, whatever they are, the fast selection pairs the positions as exact arithmetic on the same doubles would (C113), and the offsets differ from the exact ones by at most 2^-53 * (5 * span + 3 * |lag|), provided no comparison is closer than that: every time but the last, when moved, misses the last one by more, the first one when moved misses every other by more, and the lag is not negative or below minus that number. The correlation then differs from the one in exact arithmetic by at most the stated bound in the number of points, the size of the values, the error of the weight function and that number over alpha. Where a comparison is closer the pairs can differ: the times 0, 1 - 2^-53, 1 at lag 2^-54.", "quantifier": "all doubles as times and lags up to 2^1021, all data within the stated bounds, all weight functions, the abs of double", "why_tests_cant": "rounding errors for all time stamps; no test uses the fast selection in this way", "anchors": ["sacf/correlator/Correlator.cpp: fastSelectionFunctionIdx (lines 109-135), deltaT, findCorrelation"]}
{"id": "C116", "title": "One value far from all others", "statement": "If one value of a dataset lies at a height h from a level b and all others lie within e of b, with 32 * (number of points) * e <= |h|, every correlation is within 96 * (number of points) * e / |h| of that of a lone spike (C93), for any times and either selection; that one depends only on the pairs, their weights and the position of the value. So two datasets with such a value at the same place have nearly the same correlations, whatever their other values. On evenly spaced times (natural selection, lag of m > 0 steps, M points) it is ((M - m)/M - number of pairs containing the point) / (M - 1). In binary64, with time stamps on a binary grid and all settings at their defaults, the last statement holds with the rounding bound of C67 added.", "quantifier": "all datasets of single precision values with such a value, of two or more points; all times, lags, selections, weight functions, alpha > 0; exact arithmetic", "why_tests_cant": "a bound for all data and all places of the outlier; the tests have no such data", "anchors": ["sacf/correlator/Correlator.cpp lines 79-135 and 162-170: selection functions and deltaT", "sacf/correlator/Correlator.cpp lines 137-160 and 172-197: weight functions and findCorrelation", "sacf/datastructure/DataStructure.cpp lines 138-163: mean and deviations"]}
{"id": "C117", "title": "Sinusoids", "statement": "M evenly spaced values, each within e of b + A cos(w q + phase) with 128 e <= A and M |sin w| >= 32, natural selection: at a lag of m steps (0 <= m <= M) the correlation is within 6/(M |sin w|) + 96 e/A of (1 - m/M) cos(w m), whatever the phase, the offset b, the weight function and alpha; the number of periods in the data need not be whole. In particular after k half periods it is (-1)^k (1 - m/M) up to that error: the period shows as a maximum. In binary64, with time stamps on a binary grid and all settings at their defaults, the same holds with the rounding bound of C67 added.", "quantifier": "all frequencies, phases, amplitudes and offsets with the stated bounds; all single precision data within e of the sinusoid; all grids, lags of whole steps, weight functions, alpha > 0", "why_tests_cant": "a bound for all frequencies, phases and disturbances; a test tries a few", "anchors": ["sacf/correlator/Correlator.cpp lines 79-135 and 162-170: selection functions and deltaT", "sacf/correlator/Correlator.cpp lines 137-160 and 172-197: weight functions and findCorrelation", "sacf/datastructure/DataStructure.cpp lines 138-163: mean and deviations"]}
{"id": "C118", "title": "Nearly even sampling", "statement": "Time stamps each within h of an even grid t0 + q dd, a lag within g of m dd, 2h + g less than half of dd, natural selection, std::fabs semantics: point q is paired with point q + m for every q up to the end of the data, where only the very last such pair may be missing, and the offsets are at most 2h + g. So the correlation differs from the one of the same values on the even grid by at most (2h + g)/alpha and that one term. A sinusoid b + A cos(om t + phase) sampled at those times, up to errors e, gives (1 - m/M) cos(om lag) up to 6/(M |sin(om dd)|) + 13/M + 96 (e/A + |om| h) + (2h + g)/alpha + |om| g. In binary64 the same pairing and, with the rounding bound of C67 added, the same values hold for doubles near an even grid, for instance multiples of 0.1: the double nearest to t has h = 2^-53 |t|.", "quantifier": "all numbers of points, all displacements up to h, all lags near a whole number of steps, all data, weight functions and alpha > 0", "why_tests_cant": "a bound for all jitter patterns; a test tries a few", "anchors": ["sacf/correlator/Correlator.cpp lines 79-135 and 162-170: selection functions and deltaT", "sacf/correlator/Correlator.cpp lines 137-160 and 172-197: weight functions and findCorrelation", "sacf/datastructure/DataStructure.cpp lines 138-163: mean and deviations"]}
{"id": "C119", "title": "Nearly even doubles with default lags", "statement": "Time stamps that are doubles, each within h of an even grid t0 + q dd, M of them spanning T, default minimum lag, maximum lag and lag resolution, in binary64: with G = 4 M (h + 3 T 2^-53) less than half of dd, the returned lags are -(M-1) dd, ..., (M-2) dd, each within G and in this order, possibly (M-1) dd, and possibly an inserted zero; nothing else. With G less than a quarter of dd, natural selection and std::fabs semantics, the correlation returned for the lag near m dd (0 <= m <= M-2) is the autocorrelation of the values at m steps, up to a rounding bound, 2 G/alpha and the last pair. So a call with decimal time stamps and no options behaves as on an even grid although the lag resolution is a rounded difference that is added up 2 M times. In particular for the doubles nearest to t0 + q dd, of size at most Tm with 128 M Tm 2^-53 <= dd, and no options at all: the correlations are those of the even grid up to the rounding bound, 512 Tm 2^-53/dd and the last pair. For single-precision values within e of a sinusoid b + A cos (w q + ph) the call on such time stamps without options returns, and the correlation at m steps is (1 - m/M) cos (w m) up to 6/(M |sin w|) + 96 e/A + 13/M + 512 Tm 2^-53/dd and the rounding bound.", "quantifier": "all numbers of points M >= 2, all grids and displacements with 4 G < dd, all data rows, weight functions and alpha > 0", "why_tests_cant": "depends on how rounding errors add up over the whole grid of lags; a test sees a few grids", "anchors": ["sacf/correlator/Correlator.cpp lines 10-52: findMinDiff, default lags and lag resolution", "sacf/correlator/Correlator.cpp lines 255-275: the loop over lags with the inserted zero", "sacf/correlator/Correlator.cpp lines 79-135 and 162-170: selection functions and deltaT", "sacf/correlator/Correlator.cpp lines 137-160 and 172-197: weight functions and findCorrelation"]}
{"id": "C120", "title": "The period of a sinusoid is found", "statement": "Evenly sampled single-precision values within e of a sinusoid of period P steps (P any positive real number) and amplitude A, M points, natural selection: among the lags between half and three halves of the period, every lag of m steps with 4 (m - P)^2 > P^2 (n/M + 2 E) + 21 (n - P)^2 has a smaller correlation than the lag of n steps, where n is any number of steps (best the one nearest to P) and E = 6/(M |sin (2 pi/P)|) + 96 e/A. So the largest correlation in this range is at a lag whose distance from the period is at most about P/2 * sqrt(P/M + 2 E). In exact arithmetic for all settings; in binary64 for a call without options on the doubles nearest to t0 + q dd, with 13/M + 512 Tm 2^-53/dd and the rounding bound added to E, and such a call returns.", "quantifier": "all M, periods, amplitudes, phases, offsets, noise within e <= A/128, M |sin (2 pi/P)| >= 32, all m between P/2 and 3P/2 and all n", "why_tests_cant": "a test compares the lags of a few sinusoids; the bound is for all periods, phases and bounded disturbances", "anchors": ["sacf/correlator/Correlator.cpp lines 79-107: naturalSelectionFunctionIdx", "sacf/correlator/Correlator.cpp lines 137-170: findCorrelation, weight functions, deltaT", "sacf/correlator/Correlator.cpp lines 10-52: default lags and normalisation", "sacf/correlator/Correlator.cpp lines 255-275: the loop over lags"]}
{"id": "C121", "title": "Straight lines and repeating values at decimal time stamps", "statement": "For time stamps that are the doubles nearest to t0 + q dd (M of them, of size at most Tm, 128 M Tm 2^-53 <= dd), natural selection and no options, a call in binary64 returns. For single-precision values on a straight line the correlation at m steps (m <= M - 2) is (M-m) ((M-m)^2 - 1 - 3 m^2) / (M (M^2 - 1)) up to 3/M + 512 Tm 2^-53/dd and a rounding bound. For n periods of values that repeat after P >= 2 points it is 1 - l/n at l periods, up to 1/n + 512 Tm 2^-53/dd and the rounding bound. The terms 3/M and 1/n are there because rounding decides whether the last point still has a partner.", "quantifier": "all M >= 2, grids, lines with non-zero slope, all numbers n of periods, period lengths P >= 2 and repeating values, the fractional and fractional_squared weights", "why_tests_cant": "a test has particular decimal steps and values; whether the last pair is used changes from lag to lag with the rounding", "anchors": ["sacf/correlator/Correlator.cpp lines 10-52: default lags and normalisation", "sacf/correlator/Correlator.cpp lines 79-107: naturalSelectionFunctionIdx", "sacf/correlator/Correlator.cpp lines 137-170: findCorrelation, weight functions, deltaT", "sacf/correlator/Correlator.cpp lines 255-275: the loop over lags"]}
