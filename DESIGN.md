# Formal model of joshbriegal/sacf in Rocq (Coq 8.16.1)

`sacf` computes autocorrelation functions of unevenly sampled time series: C++ behind pybind11, and a thin
Python class. The model is a set of executable Gallina functions; the theorems are about them, for all inputs.

## What is modelled

| code | model |
|---|---|
| `sacf/datastructure/DataStructure.cpp`, `include/DataStructure.h` | `theories/DataStructure.v` |
| file constructor `DataStructure.cpp:90-138`, with libstdc++'s number extraction | `theories/FileReader.v` |
| `sacf/correlator/Correlator.cpp`, `include/Correlator.h` | `theories/Correlator.v` |
| `sacf/sacf.py` | `theories/Sacf.v`, constructor arguments in `theories/PyBind.v`, positional and keyword arguments in `theories/PyCall.v` |
| `datastructure_bindings.cpp`, `correlator_bindings.cpp`: overloads, argument conversion, settable attributes, other methods | `theories/PyBind.v`, histories of calls in `theories/Api.v` |
| `int` expressions for positions in the result buffers, with overflow | `theories/IntIndex.v` |
| `int` counters over data points and datasets, `int` parameters of `getVectorIndex` | `theories/IntSize.v` |
| running out of memory: any request may fail, in the constructor, the methods of a correlator and of an iterator, `find_correlation`, `autocorrelation` | `theories/Alloc.v` |
| `setup.py`: the command build_ext (programs run, directories made, errors) | `theories/Build.v` |
| Python threads: a method of the extension is one step (the bindings never release the interpreter lock), `sacf.py` is cut at every use of it | `theories/Threads.v` |
| KeyboardInterrupt in `find_correlation`, between any two of these steps | `theories/Interrupt.v` |
| reading a data file in blocks, read errors, no memory for a line (`std::getline` catches both) | `theories/FileErrors.v` |
| running out of memory in the constructors of DataStructure, with what libstdc++ swallows | `theories/LoadAlloc.v` |
| contraction of x*y+z into a fused operation, by the compiler, in any of the three places where it can | `theories/Contract.v` |
| the work done by a call: the same functions with counters (comparisons, weights, products, copies, lags) | `theories/Cost.v` |
| objects made with `new` in methods, and `delete` | `theories/Leak.v` |
| programs with several names and objects, reference counts, `py::keep_alive`, assignment to `SACF.data`, the pointer `Correlator::ds` | `theories/Session.v` |
| `std::vector` (size, stale storage after `clear`, `operator[]`, `at`, `resize`, iterators ranges) | `theories/Mem.v` |
| `double`, `float` | `theories/Num.v`, instances `theories/B64.v`, `theories/XR.v` |

Every definition of these files has a comment with the lines of the source it stands for.

**Arithmetic.** The functions are generic in a record of operations, `Num`. Two instances are used:

* `B64 exp64`: IEEE-754 binary64, round to nearest even (Flocq's `BinarySingleNaN`); the `float` variable of the
  normalisation is a rounding to binary32 and back. `exp64`, the library's `exp`, is a parameter; a theorem that needs something
  of it says so (`good_exp`, `exp_within`), and the correctly rounded exponential is shown to satisfy both.
* `XR`: real numbers with both infinities and NaN, no rounding except the binary32 rounding of the `float` variable (without
  overflow).

A theorem over `{A : Num} (HA : arith A)` holds for both; over `{A : Num}` for any operations whatever.

**Outcomes** are values: `Ok x`, `Throw e` (C++/Python exceptions), `UB u` (out-of-bounds access, read of a cleared
vector in a checked build, undefined conversion or integer overflow), `Diverge` (loop fuel exhausted, proved unreachable in C16, C50,
C54). After `UB` nothing is claimed about the program.

**The build** is a parameter, `platform`: `p_abs` says what the unqualified `abs(double)` of Correlator.cpp means (`AbsFloat`: the
floating one; `AbsInt`: `::abs(int)`, when only that is declared, so the argument is truncated first), `p_checked` whether
`operator[]` checks bounds. Theorems are for every platform unless they say otherwise.

**Files.** `Num`, `Mem` - infrastructure; `DataStructure`, `Correlator`, `Sacf`, `FileReader`, `PyBind`, `Session`, `IntIndex`, `IntSize`, `Leak`, `PyCall`, `Contract`, `Alloc`, `Build`, `Threads`, `Interrupt`, `FileErrors`, `LoadAlloc`, `Cost` - the model; `Spec`, `SpecR`, `SpecExt`,
`SpecFile`, `SpecText`, `SpecPy`, `SpecCall`, `SpecSess`, `SpecBuild`, `SpecThreads`, `SpecStream`, `SpecTime`, `SpecShuffle`, `SpecGaps`, `SpecDigits`, `SpecNear`, `SpecFast`, `SpecRotate`, `SpecOutlier`, `SpecEven`, `Api` - vocabulary of the statements, separate from the model; `*Facts`, `*Thms`, `*Call`, `GridVals`, `WeightAcc`, `SessRuns`, `SessPlain`, `IntTimes`, `GridSums`, `PairBounds` -
proofs; `Examples`, `FileExamples` - concrete inputs; `Props01` ... - the theorems, each followed by `Print Assumptions` and by an
`Example` with an input that meets its hypotheses.
`RepoTests` transcribes the project's own test suite (tests/sacf_test.py, with its data files as bytes), one `Example` per test evaluated on the model: a check of the model against the authors' expectations, not a proof.

## What is not modelled

* Exhaustion of memory in the conversion of the arguments of SACF() from Python objects, and inside Python's own objects beyond those named in `Alloc.v` and `LoadAlloc.v` (there every push_back is a request; that is the general case, as `fails` may say no). Objects made with `new` in a method are counted in `Leak.v`; the getters' copies belong to Python. Lifetime of the Python objects and
  of the pointer from a Correlator to its DataStructure is modelled in `Session.v`, with reference counts; references held by tracebacks, attributes
  other than `SACF.data`, and containers are not.
* x87 excess precision (FLT_EVAL_METHOD 2), -ffast-math (not set by setup.py or CMakeLists.txt), vectorised reductions (not allowed without it), other rounding modes, NaN payloads and signs, floating-point flags.
* The C++ constructor for cross-correlation (two data sets) is not bound to Python and not modelled, nor are methods
  of `Correlator` that are neither bound nor called.
* Files: the classic "C" locale; libstdc++'s `num_get` (digits with an optional sign, one point, one exponent) followed by a correctly rounded
  `strtod`. Reading is from a byte list, in blocks with a possible error in `FileErrors.v` (C101).
* Python: rebinding of attributes other than `SACF.data` (methods, class attributes, module dictionaries), the cycle collector, subclasses, zero-dimensional arrays, iterables that change while being read, `__float__` methods
  with effects, KeyboardInterrupt outside `find_correlation` (between the lines of `autocorrelation`, whose objects are then lost). Threads under an interpreter without the global lock. NumPy arrays as names of functions (their comparison with a str depends on the version).
* Of `setup.py`: the paths distutils computes, the class PyTest, non-ASCII output of programs. `CMakeLists.txt`, the examples and the plotting code. Linking: `CMakeLists.txt` makes two modules, `datastructure` and `correlator`, from the files of
  one directory each; the second includes `DataStructure.cpp` (correlator_bindings.cpp:3), so both contain its functions. That the two copies behave alike, and that pybind11 lets the second module take an object of the first (sacf.py imports `datastructure` first), is assumed.

Simplifications: sizes and indices are natural numbers (`long`, `double` and `int` in the C++; exact below 2^31; `IntIndex.v` and `IntSize.v` have the `int` expressions, counters and parameters with overflow and truncation, C77 and C88 say when it matters). `std::lower_bound` is
libstdc++'s binary search. `_calculateStandardCorrelation` allocates and frees its iterator; the model creates a fresh value.
The order of evaluation of the two operands of `<` and of `abs` is left to right (they have no effects; only which of two undefined
conversions comes first could differ).

## Trusted base

* Coq 8.16.1's kernel (including `vm_compute`, used for concrete examples and for closed numerical facts).
* The statement of the theorems, the model functions and the comments that tie them to the source: the model was written by hand
  from the source text, not generated from it.
* Flocq (definitions of binary64 operations; its lemmas are checked by the kernel). No axiom is declared in this development, no
  kernel check is switched off, there is no `Admitted`, functor, module type or plugin.

Axiom sets reported by `Print Assumptions` (all from the standard library):

* `-`: closed under the global context
* `A1`: `ClassicalDedekindReals.sig_forall_dec`
* `A2`: `ClassicalDedekindReals.sig_forall_dec`, `FunctionalExtensionality.functional_extensionality_dep`
* `A3`: `ClassicalDedekindReals.sig_forall_dec`, `ClassicalDedekindReals.sig_not_dec`, `Classical_Prop.classic`, `FunctionalExtensionality.functional_extensionality_dep`

They come with `Coq.Reals` (`sig_forall_dec`, `sig_not_dec`, `functional_extensionality_dep`) and with Flocq's use of `Classical_Prop.classic` from the standard library.

## Properties

For each property: the design, then the theorems with the file they are in and the axiom set of each.

### C01 1-D construction decision

Constructor `setUp` in closed form (`DSFacts.setUp_ok`), case analysis on emptiness and divisibility; any arithmetic.

`C01_one_dataset` (Props01, -)

### C02 2-D round trip

Lemmas on re-cutting a list: re-cutting the concatenation of rows of length M gives the rows back.

`C02_two_d_round_trip` (Props01, -)

### C03 Ragged 2-D input: exact outcome

The same closed form for any rows: an equivalence per outcome, with the out-of-bounds read as an explicit `UB`.

`C03_ragged` (Props01, -)

### C04 errors(): exact outcome

`errors()` reads `N*M` entries of the error vector; outcome by comparison of lengths.

`C04_errors_one_dataset` (Props01, -); `C04_errors_rows` (Props01, -)

### C05 Mean ignores missing values

`setDataMean` = `Spec.mean` of each row (filter, left fold, division), any arithmetic; in `XR` a fold of finite reals is the real mean.

`C05_mean` (Props01, -); `C05_mean_ignores_missing` (Props01, -); `C05_mean_all_missing` (Props01, A3); `C05_mean_exact` (Props01, A3)

### C06 Normalised time series

Order laws shared by both arithmetics (`Laws`, proved for binary64 from monotone rounding in `B64Facts`): subtraction of a fixed number is monotone, x - x = 0.

`C06_normalised_times` (Props01, A3)

### C07 Median time

`settMedian` in closed form (middle entry, or half-sum of the two middle ones); counting lemma on ordered lists for "at least half", with monotone rounding of the half-sum.

`C07_median_time` (Props01, A3)

### C08 max_time and the default lag range

Last element of an ordered list is its maximum; `new_Correlator_closed` for the settings.

`C08_max_time` (Props01, -); `C08_default_lag_range` (Props01, -); `C08_max_lag_largest` (Props01, A3)

### C09 Normalised data

Closed form of `calcNormData`; sum of deviations from the mean is zero in the reals.

`C09_normalised_data` (Props01, -); `C09_missing_stays_missing` (Props01, A3); `C09_sum_zero_exact` (Props01, A3)

### C10 Default lag resolution

`findMinDiff` folds a minimum over adjacent differences; gradual underflow makes `x < y -> 0 < y - x` (law `l_sub_pos`).

`C10_lag_resolution` (Props01, A3); `C10_single_point` (Props01, -)

### C11 Shape of the lag grid

The loop of both paths visits exactly the specification list `lag_grid` (`LoopFacts`), by induction on the fuel; the inserted zero is a flag of the loop state.

`C11_returned_lags` (Props02, -)

### C12 Lag grid is strictly increasing

Rounded addition of a positive step is monotone; a step that does not advance makes the loop run out of buffer (C16), so a returning call has strictly rising lags.

`C12_increasing` (Props02, A3)

### C13 Presence of lag zero

Sign analysis along the grid; for the default settings min_lag = -max_lag.

`C13_zero_iff` (Props02, A3); `C13_default` (Props02, A3)

### C14 Default run stays inside the result buffers

Exact: floor arithmetic. binary64: accumulated relative error of n additions (n <= 10^8) against the slack of 3 entries; refuted without bound by a witness (`OverrunFacts`) where every addition rounds down.

`C14_default_exact` (Props02, A3); `C14_default_binary64` (Props02, A3); `C14_in_bounds_exact` (Props02, A3); `C14_in_bounds_binary64` (Props02, A3); `C14_unbounded_refuted` (Props02, A3)

### C15 User supplied lag settings: exact safety condition

Number of lags visited against the room of the buffers: `addCorrelationData` is the only writer; equivalence.

`C15_in_bounds` (Props02, -); `C15_exact_condition` (Props02, A3); `C15_room` (Props02, -)

### C16 The lag loop terminates

Fuel bound = room + 1: every iteration writes one entry; invariants over arbitrary operation histories (`StateFacts`).

`C16_terminates` (Props02, -); `C16_stuck` (Props02, A3); `C16_terminates_always` (Props06, -)

### C17 Natural selection: count and range

`lower_bound` = number of smaller entries (binary search invariant); retained points form a prefix because shifted times are ordered.

`C17_natural_count` (Props03, -); `C17_natural_retained` (Props03, A3)

### C18 Natural selection picks the nearest time point

Neighbours of the insertion position are the only candidates: distance is monotone on either side (order laws); integer `abs` refuted by a witness.

`C18_nearest` (Props03, A3); `C18_integer_abs_refuted` (Props03, A3)

### C19 Natural selection preserves time order

Monotonicity of `lower_bound` and of the choice between neighbours.

`C19_monotone` (Props03, A3)

### C20 Use of cleared time buffer

Vectors carry their storage after `clear` (`vlive`, `vbuf`); `p_checked` decides between reading it and `UB StaleRead`.

`C20_offsets_natural` (Props03, -); `C20_offsets_fast` (Props03, -); `C20_checked_build` (Props03, -); `C20_checked_empty` (Props03, A3)

### C21 Weights lie in the unit interval

Order laws of division and multiplication (`WeightFacts`); for the gaussian what is assumed of `exp` is a hypothesis, met by two exponentials; offsets of a call are absolute values of non-NaN differences.

`C21_fractional` (Props04, A3); `C21_fractional_squared` (Props04, A3); `C21_gaussian` (Props04, A3); `C21_exact_exp` (Props04, A3); `C21_rounded_exp` (Props04, A3); `C21_gaussian_tiny_alpha_refuted` (Props04, A3); `C21_applied` (Props04, -); `C21_weights_in_call` (Props14, A3)

### C22 Weights decrease with distance

The same laws, monotone in the offset; strictness by real analysis.

`C22_decreasing` (Props04, A3); `C22_decreasing_gaussian` (Props04, A3); `C22_strict_exact` (Props04, A3)

### C23 Autocorrelation at lag zero

At lag zero natural selection is the identity (strictly rising times), offsets are zero and weights one; quotient of equal sums in binary64 by Flocq error bounds.

`C23_zero_lag` (Props05, A3); `C23_zero_lag_exact` (Props05, A3); `C23_zero_lag_one` (Props05, A3); `C23_zero_lag_binary64` (Props05, A3); `C23_always_one_refuted` (Props05, A3)

### C24 Missing values poison the correlation

NaN propagates through the fold as soon as one selected pair contains a NaN value.

`C24_poison` (Props05, A3); `C24_poison_nonpositive` (Props05, A3)

### C25 Degenerate data give NaN

Zero deviations: 0 * (1/0).

`C25_constant` (Props05, A3); `C25_constant_exact` (Props05, A3); `C25_one_point` (Props05, A3)

### C26 Evenly sampled data give the classical ACF

Exact arithmetic: on a grid the shifted time of point q at lag m*d is the time of point q+m; weights one; `C26_default_call` for the whole call.

`C26_grid_value` (Props05, A3); `C26_default_call` (Props05, A3)

### C27 Negative lags are not the mirror image of positive lags

Points shifted before the start are paired with index 0; the difference of the two sums in closed form.

`C27_grid_value_negative` (Props05, A3); `C27_symmetric_refuted` (Props05, A3)

### C28 Bound on the correlation

Cauchy-Schwarz; the general bound counts how often an index is selected.

`C28_grid_bound` (Props05, A3); `C28_any_bound` (Props05, A3); `C28_negative_lag_refuted` (Props05, A3); `C28_irregular_refuted` (Props05, A3)

### C29 Invariance under affine change of values

Simulation between two runs in `XR`; means and normalisations transform by a and a^2.

`C29_affine` (Props07, A3); `C29_any_values_refuted` (Props07, A3)

### C30 Invariance under shift and rescaling of time

Simulation: normalised times are unchanged by a shift and scaled by c; all comparisons and `abs` commute with scaling.

`C30_shift` (Props07, A3); `C30_scale` (Props07, A3); `C30_integer_abs_refuted` (Props07, A3); `C30_binary64_shift_refuted` (Props07, A3)

### C31 Datasets are independent

Every row of the result is a function of that row, times and settings (`AffineFacts.acf_core_forms`, `RelFacts`).

`C31_by_rows` (Props06, -); `C31_alone` (Props06, -)

### C32 Errors never influence the result

Constructor and call never read the errors: equality of the visible outcome.

`C32_errors` (Props06, -); `C32_errors_rows` (Props06, -)

### C33 Shape of the result

Lengths of the closed form; `visible` result shapes.

`C33_shape` (Props06, -)

### C34 Compiled and Python paths agree

Both paths are equal to one generic loop for every state reachable by any history.

`C34_paths_agree` (Props06, -)

### C35 Empty lag range

The loop body is not entered; Python's unbound local is modelled as an exception.

`C35_empty_range` (Props06, -); `C35_empty_range_methods` (Props06, -)

### C36 Function names

Dictionary lookup modelled as partial function of the name, evaluated where Python evaluates it (inside the loop, selection first).

`C36_never_a_result` (Props06, -); `C36_selection_KeyError` (Props06, -); `C36_weight_KeyError` (Props06, A3); `C36_readme` (Props06, A3)

### C37 Recalculation on the same correlator

Invariant over histories; calculation is idempotent; the refutation is a history that shrinks the buffers.

`C37_returned_correlator` (Props06, -); `C37_again` (Props06, -); `C37_as_fresh` (Props06, -); `C37_room_lost_refuted` (Props06, A3)

### C38 clearCorrelation

Invariant `consistent` over histories without `clearCorrelation`; explicit state after it.

`C38_consistent` (Props06, -); `C38_after_clear` (Props06, A3)

### C39 Fast selection: when it raises

Order argument on the first shifted point; `at` raises for index M.

`C39_fast_selection` (Props03, A3)

### C40 Fast selection at negative lags

First shifted point precedes all: lower_bound = 0; indices run over themselves.

`C40_fast_negative_selection` (Props03, A3); `C40_fast_negative_value` (Props05, A3)

### C41 Fast selection at lag zero

At lag 0 the loop stops before the last point (>= instead of >).

`C41_fast_zero_selection` (Props03, A3); `C41_fast_zero_value` (Props05, A3)

### C42 Data files: skipped lines

Reader over bytes, line by line; a line is skipped if its first character is `#` or extraction fails at once.

`C42_skipped_lines` (Props08, -); `C42_no_data` (Props08, -)

### C43 Data files: round trip

Round trip: rendering of fields as digits, separators, lines; the lexer consumes exactly one field.

`C43_two_columns` (Props08, -); `C43_three_columns` (Props08, -); `C43_last_newline` (Props08, -)

### C44 Data files: error column is decided by the first data line

State of the reading loop: flag set by the first data line.

`C44_no_error_column` (Props08, -); `C44_error_column` (Props08, -)

### C45 Overload resolution of the constructor

Two-pass overload resolution of pybind11 (no conversion, then conversion) over a datatype of Python values. `PyMore.v` covers the remaining pairs and triples, so that every argument list is decided.

`C45_numbers` (Props09, -); `C45_rows` (Props09, -); `C45_float_rows` (Props09, -); `C45_column_array` (Props09, -); `C45_errors_numbers` (Props09, -); `C45_errors_rows` (Props09, -); `C45_type_error` (Props09, -); `C45_errors_type_error` (Props09, -); `C45_other_calls` (Props09, -); `C45_rows_refuted` (Props09, A3); `C45_file` (Props42, -); `C45_flat` (Props42, -); `C45_nested` (Props42, -); `C45_errors_flat` (Props42, -); `C45_errors_float_rows` (Props42, -); `C45_errors_nested` (Props42, -)

### C46 Accuracy of the reported lags

Error of n rounded additions, each relative to the result, which stays in [min_lag, max_lag].

`C46_accuracy` (Props02, A3)

### C47 Value of every returned correlation

Closed form of a whole call, connected to the results of the API functions on a fresh iterator.

`C47_value` (Props05, A3)

### C48 Data files: numbers beyond the expected columns

Group structure of the reading loop on lines with any number of fields.

`C48_extra_columns` (Props08, -); `C48_one_point_per_line_refuted` (Props08, A3)

### C49 Data files: numbers are read to the nearest double

A file is shown to be stored column by column (`FileVals`): position of each literal by the round trip of C43, value by the decimal conversion, shown correctly rounded in `DecFacts` (integer division with a sticky bit and Flocq's rounding of inexact quotients). Overflow: extraction fails and ends the line.

`C49_exact` (Props08, A3); `C49_nearest_double` (Props08, A3); `C49_doubles_read_back` (Props08, A3); `C49_overflow` (Props08, A3)

### C50 Data files: every content is handled

Totality of the reader: structural recursion on the bytes; result equals the list constructor on equally long lists.

`C50_every_file` (Props08, -)

### C51 Numeric arguments of autocorrelation

Conversion of optional arguments (`load_double`), then the call on the converted ones.

`C51_numbers` (Props09, -); `C51_type_error` (Props09, -)

### C52 Arguments of SACF()

`SACF.__init__` by cases on its arguments; `truth_value` (`SpecCall.v`) is bool() of the file name.

`C52_filename` (Props09, -); `C52_lists` (Props09, -); `C52_no_data` (Props09, -); `C52_empty_errors` (Props09, -); `C52_any_filename` (Props42, -); `C52_array_filename` (Props42, -)

### C53 Precision of the weights

Forward error analysis with Flocq (`rnd r = r(1+e)+h`), overflow of d/alpha included; for the gaussian the error of the argument moves through `exp` by convexity bounds.

`C53_fractional` (Props04, A3); `C53_fractional_squared` (Props04, A3); `C53_gaussian` (Props04, A3); `C53_rounded_exp` (Props04, A3)

### C54 Iterators in any order of calls

Invariant over arbitrary sequences of iterator operations with exceptions caught (`run_it`).

`C54_any_history` (Props10, -); `C54_reuse` (Props10, -); `C54_reuse_other` (Props10, -); `C54_offsets_twice` (Props10, -); `C54_weights_twice` (Props10, -); `C54_after_exception` (Props10, -)

### C55 Size of an iterator

`double` to `size_t` and `int` conversions by ranges.

`C55_whole` (Props10, A3); `C55_fraction` (Props10, A3); `C55_none` (Props10, A3); `C55_undefined` (Props10, A3); `C55_large` (Props10, A3)

### C56 Calculation by hand

Both sides equal the closed form C47.

`C56_by_hand` (Props10, -)

### C57 Fast selection on evenly sampled data

Exact arithmetic on a grid, indices of the fast selection in closed form.

`C57_fast_grid_value` (Props11, A3); `C57_fast_half` (Props11, A3); `C57_fast_default_call` (Props11, A3); `C57_same_as_natural_refuted` (Props11, A3)

### C58 When the fast selection fails

The selection raises iff the first shifted time falls between the last two; for the default call this is a number-theoretic condition on the grid.

`C58_fast_call` (Props11, A3); `C58_fast_default_exact` (Props11, A3)

### C59 Number of lags

Counting with floor; the inserted zero.

`C59_lag_count` (Props12, A3); `C59_settings_fit` (Props12, A3)

### C60 Unordered, repeated and non-finite time stamps

Resolution of an unordered series is <= 0 or the quotient is not finite; consequences for the constructor and the loop.

`C60_construction_exact` (Props12, A3); `C60_duplicate_stamps` (Props12, A3); `C60_nonfinite_stamps` (Props12, A3); `C60_unsorted_never_returns` (Props12, A3); `C60_unsorted_overrun` (Props12, A3); `C60_reversed` (Props12, A3)

### C61 Infinite and very large values

inf - inf and 0 * inf; overflow of the conversion to binary32 makes the normalisation infinite.

`C61_infinite_value` (Props13, A3); `C61_huge_value` (Props13, A3)

### C62 Sign of the values

Rounding is odd (`Laws2.rndE_opp`), so mean, deviations and products are equal up to sign; simulation of two runs up to the sign of zeros.

`C62_negated_values` (Props13, A3)

### C63 Accuracy of the correlations

Forward error analysis for any length: sums by induction with factor (1+2^-53)^n, terms by three roundings and underflow, normalisation by the same lemma; the reciprocal is in the normal range.

`C63_accuracy` (Props14, A3)

### C64 Accuracy of the mean

The same summation lemma and one division.

`C64_mean_accuracy` (Props14, A3); `C64_mean_finite` (Props14, A3)

### C65 Ordinary data give finite correlations

Magnitudes are bounded step by step: deviations 2^104, terms 2^208, sums 2^260, reciprocal 2^751.

`C65_finite` (Props14, A3)

### C66 Time stamps on a binary grid are handled without rounding

Two-run simulation (`SimFacts`): a relation between doubles and reals that is kept by the additions, subtractions and comparisons of the loop and of the selection functions makes all branches agree. Here the relation is: finite, k*2^g with |k| <= 2^n, and the same real (`FixedFacts`); sums need one more bit, at most 53.

`C66_exact_lags` (Props15, A3); `C66_exact_pairs` (Props15, A3); `C66_exact_median` (Props15, A3)

### C67 Distance of the correlations from the exact ones

With equal pairs and offsets (C66) only mean, weights, sum and quotient differ: C64 for the mean, C53 for the weights, C63 for sum and quotient, then a perturbation estimate in the reals (`AccExact.quot_diff`).

`C67_distance_to_exact` (Props15, A3)

### C68 Evenly sampled data in binary64 give the classical autocorrelation

C67 with the exact values of the grid (C26, C27); existence of the binary64 result from C66 and the exact call.

`C68_even_sampling` (Props15, A3)

### C69 In binary64 the unit of time may change by a power of two

Two-run simulation with the relation: finite, same sign, y = 2^e x, both multiples of 2^lo and at most 2^n (`Pow2Facts.sc`). The lower bound keeps sums and differences out of the subnormal range, so rounding commutes with the scaling; weights depend on d/alpha only and are equal.

`C69_scaled_times` (Props16, A3); `C69_scaled_median` (Props16, A3)

### C70 Lifetime of data and correlators

`Session.v`: names, a heap of counted objects whose addresses are not used again, and commands for everything a program can do with the classes. A Correlator refers to its data twice: by the C++ pointer, which is dereferenced, and by the patient that keep_alive<1, 2> adds, which is counted. Invariant (`SessFacts.good`): each count equals the number of references from names and live objects; `SessThms.typed`: patient and pointer agree and lead to data. One lemma (`step_all`) covers all commands. Reachability is defined through the pointer, not through the patient. Correlator(None) and None for an iterator are the outcome NullPointer (pybind11 passes None as a null pointer), never Dangling.

`C70_no_dangling` (Props17, -); `C70_lifetime` (Props17, -); `C70_lifetime_plain` (Props17, -); `C70_needs_keep_alive` (Props17, A3)

### C71 Objects do not influence each other

From `step_all` with its frame clause: a command changes at most the object it is called on, and never data. `history` lists the calls on the object a name stands for, also through other names for it.

`C71_isolated` (Props17, -); `C71_data` (Props17, -); `C71_calls` (Props17, -); `C71_calls_plain` (Props17, -); `C71_own_calls` (Props17, -)

### C72 Objects in a program

`typed` keeps a history (`after`, `it_after`) for every correlator and iterator in the heap, so the theorems on histories (C16, C34, C37, C38, C54 and others) apply to objects of any program; hanging is excluded with C16 and C54.

`C72_histories` (Props17, -); `C72_never_hangs` (Props17, -)

### C73 Origin of time in binary64

`ShiftFacts`: the core of a call (`acf_core`) uses the times only through `rel_times`; the difference of two doubles is a function of the exact difference, signs of zeros included (`minus_eq`). Complements C30_binary64_shift_refuted, where the shift rounds.

`C73_normalised_only` (Props18, -); `C73_exact_shift` (Props18, A3)

### C74 Unit of the data values in binary64

`ValPow2`, `ValPow2Thms`: the relation of C69 on deviations, norm and pair sums, extended by: the same infinity or NaN. Sums of k terms are at most k*2^n (representable, so rounding keeps the bound), the mean is a multiple of 2^-224, weights are multiples of 2^-567 (from the bounds on offsets given by `Pow2Core.sc_core_rel` with e = 0, where also the integer abs is covered), the norm is scaled by 2^2e, and the last product is the same real number in both runs. The gaussian is left out: its weights can be subnormal.

`C74_scaled_values` (Props18, A3); `C74_any_values_refuted` (Props18, A3)

### C75 Integer time stamps: the same result with every compiler

`IntTimes`: all numbers compared by the selection functions are integers below 2^31, where truncation is the identity; two-run simulation (`SimFacts`) with two platforms.

`C75_integer_times` (Props19, A3); `C75_any_times_refuted` (Props19, A3)

### C76 Other lag settings on the same data

Each lag is computed from a new iterator, so the row of results is a map over the lags (`acf_core`); the list of lags for a smaller maximum is a prefix (`CropFacts.lag_list_prefix`).

`C76_same_lag` (Props19, -); `C76_smaller_max` (Props19, A3)

### C77 Positions in the result buffers are computed in int

`IntIndex.v` repeats the methods with int expressions, with overflow as undefined behaviour; `IntIndexFacts` compares them with the model: the largest position of a step is i + nls*(N-1), and each step that succeeds in the model either is in range or overflows. The counterexample allots 2^30 + 3 steps for each of three datasets; it is evaluated without building the buffers, through the closed form of a call.

`C77_exact` (Props19, -); `C77_small` (Props19, -); `C77_histories` (Props19, -); `C77_any_size_refuted` (Props19, A3)

### C78 Reversed data

The closed form C26 and a change of summation index (`GridSums.call_reversed`).

`C78_reversed` (Props20, A3); `C78_negative_lags_refuted` (Props20, A3)

### C79 Sum and quadratic form of the correlations

C26 makes v(m)*norm the sum of products at distance m; the square of the sum of all deviations (which is zero) expands into these (`square_sum`), and the quadratic form is a sum of squares of shifted copies (`lagged_psd`).

`C79_sum` (Props20, A3); `C79_positive` (Props20, A3)

### C80 Unusual values of alpha

The closed form C47 in terms of `pairs_by` (`AlphaFacts.value_pairs`); NaN and non-finite numbers are absorbing for the sum and the last product; 1 + x/inf = 1 exactly.

`C80_nan` (Props20, A3); `C80_zero` (Props20, A3); `C80_infinite` (Props20, A3); `C80_opposite` (Props20, A3)

### C81 Objects not deleted

`Leak.v` repeats the methods with counters of undeleted objects; by induction over histories they agree with the model (`LeakFacts.op_heap`), and the invariant of StateFacts excludes exceptions between new and delete.

`C81_leaks` (Props21, -); `C81_same_histories` (Props21, -); `C81_never_raises` (Props21, -)

### C82 Layout of data files

`SpecText.v` defines rows and words without reference to the reader. Each extraction of a number stops inside its word (`TextFacts.take_float_app`), so what is read and what is left depend on the words only (`extract_line`); a comment reads like a line that starts with no number.

`C82_rows` (Props22, -); `C82_separators` (Props22, -); `C82_crlf` (Props22, -); `C82_last_newline` (Props22, -); `C82_cr_refuted` (Props22, A3)

### C83 Data files one after the other

The lines of the joined file are those of the two files; the first data line decides about errors for both (`TextFacts.concat_files`).

`C83_concatenated` (Props22, -); `C83_no_data` (Props22, -); `C83_mixed_refuted` (Props22, A3)

### C84 Bound by the number of uses of a point

Cauchy-Schwarz on the weighted products; the sum of squares over the second points counts each point as often as it occurs (`PairBounds.sum_mult`).

`C84_multiplicity` (Props23, A3)

### C85 Dependence on alpha

`rweight_wide`, `rweight_narrow`: 1 - w and w are bounded by powers of offset/alpha (1/(1+z) >= 1-z, exp z >= 1+z); then the triangle inequality on the sum.

`C85_wide` (Props23, A3); `C85_narrow` (Props23, A3)

### C86 Time offsets of the natural selection

C17 and C18 in the reals: the shifted time lies between two neighbouring times (`bracket`), and the nearest is at most half their distance away.

`C86_offsets` (Props23, A3); `C86_weights_matter` (Props23, A3)

### C87 Number of pairs

From C17: the retained points are those with shifted time up to the last; monotonicity of the addition.

`C87_fewer` (Props23, A3); `C87_all` (Props23, A3); `C87_none` (Props23, A3); `C87_beyond` (Props23, A3)

### C88 Counters of type int

`IntSize.v` has every method with such a loop once more, with the overflow of the counter and the conversion to int (low 32 bits). Equality by induction over the loops; the numbers of pairs and the selected positions are bounded by the number of points (`sel_ok`).

`C88_construct` (Props24, -); `C88_calls` (Props24, -); `C88_negative` (Props24, -); `C88_truncated` (Props24, -); `C88_many_datasets` (Props24, -); `C88_many_points` (Props24, -); `C88_any_size_refuted` (Props24, A3)

### C89 Periodic signals

C26 and sums over blocks (`SignalFacts.sum_part`); Cauchy-Schwarz for the comparison with later lags (`lagged_peak`).

`C89_repeating` (Props25, A3); `C89_periods` (Props25, A3); `C89_alternating` (Props25, A3)

### C90 Straight lines

C26 and the closed forms of sums of products of i - (M-1)/2 (`SignalFacts.line_lagged`), by induction over the number of terms.

`C90_line` (Props25, A3)

### C91 Single precision in the normalisation

Relative error 2^-24 for each value (Flocq's `relative_error_N_FLT`), then the triangle inequality for the root of the sum of squares (`SignalFacts.minkowski`, `single_ratio`).

`C91_factor` (Props25, A3); `C91_zero_lag` (Props25, A3)

### C92 Positional and keyword arguments

`PyCall.v` fills one slot per parameter as CPython does; `PyCallFacts.bind_spec` relates the slots to `receives` (`SpecCall.v`), which does not mention slots. The parameter lists are written out a second time in `SpecCall.v`. The str case reduces to `autocorrelation` (`find_str`).

`C92_one_value` (Props26, -); `C92_SACF` (Props26, -); `C92_autocorrelation` (Props26, -); `C92_ambiguous` (Props26, -); `C92_bad_call` (Props26, -); `C92_order` (Props26, -); `C92_position_or_name` (Props26, -); `C92_default` (Props26, -); `C92_not_a_name` (Props26, -); `C92_selection_object` (Props26, -); `C92_weight_object` (Props42, -)

### C93 A lone spike

C26 and sums of indicator functions (`SignalFacts2.spike_lagged`, `spike_sq`).

`C93_spike` (Props27, A3)

### C94 Sum and difference of two signals

One set of pairs and weights serves all rows of a call (`SignalFacts2.common_pairs`); the rest is the parallelogram identity for each product of deviations.

`C94_sum_and_difference` (Props27, A3)

### C95 Values that differ by little

As C94; each product of deviations changes by at most 8 e B, weights are between 0 and 1, there are at most M pairs; then the difference of two quotients.

`C95_values_close` (Props27, A3)

### C96 Contraction by the compiler

`Contract.v` repeats the functions with a product in an addition, and their callers, with the operation x*y+z as a parameter; with two operations they are the other model by computation. The closed forms of `ContractFacts` are those of the other model. `ContractAcc.accum` states what both ways of computing x*y+z guarantee (a value of the product with the error of one rounding, added with one rounding), from which the estimates of C63 and C65 are derived once more.

`C96_nothing_contracted` (Props28, -); `C96_same_outcome` (Props28, -); `C96_accuracy` (Props28, A3); `C96_squared_weight` (Props28, A3); `C96_builds` (Props28, A3); `C96_bits_depend_on_build` (Props28, A3)

### C97 Memory exhausted

`Alloc.v` repeats the functions that request memory, with a number for each request and an arbitrary predicate that says which fail. `AllocFacts.agrees`: either NoMemory, or state and outcome of the other model; `AllocThms.local`: NoMemory exactly if a request of the call fails; both compositional over the sequencing of the methods. `AllocState`: the length of the buffer of lags does not matter for a calculation that ends normally (`calc_with_ts`), so the invariant of the other histories can be weakened by it. Two of the expected properties are false and refuted by witness.

`C97_call` (Props29, -); `C97_operation` (Props29, -); `C97_left_behind` (Props29, -); `C97_retry` (Props29, -); `C97_no_trace` (Props29, -); `C97_objects_lost` (Props29, -); `C97_iterator` (Props29, -); `C97_enough_memory` (Props29, -); `C97_lengths_refuted` (Props29, A3); `C97_iterator_refuted` (Props29, A3)

### C98 Building the extension

`Build.v` is setup.py as a program over events (programs run, the file system); what comes back is an arbitrary function of everything that happened before. `BuildFacts.all_fine` is an invariant over the history that every step appends to; `progress` (SpecBuild) says which programs were run. The regular expression and LooseVersion are modelled on ASCII texts; the theorem about versions speaks of decimal numbers and of the order of lists of numbers. On Windows C98_windows gives the complete command lines.

`C98_cmake_missing` (Props30, -); `C98_version_windows` (Props30, -); `C98_version_elsewhere` (Props30, -); `C98_commands` (Props30, -); `C98_stops` (Props30, -); `C98_directory` (Props30, -); `C98_compilers` (Props30, -); `C98_windows` (Props30, -); `C98_same_twice` (Props30, -)

### C99 Python threads

`Threads.v` cuts `find_correlation` and `autocorrelation` at each use of the extension; who takes the next step is arbitrary. `SpecThreads.alone` runs a program with the functions of the other model. Isolation: `ThreadFacts.rest_thread` completes at once what a thread has left; own steps keep it and shorten it (`step_own`), steps of others do not change it (`rest_ext`). Shared objects: every step is an operation of Api.v (`ThreadShared.step_shape`). Same calculation: `ThreadSame.at_place` says which lags are already written at each line; what another thread writes is what is or will be there. The counterexample is evaluated.

`C99_isolated` (Props31, -); `C99_alone_one` (Props31, -); `C99_untouched` (Props31, -); `C99_progress` (Props31, -); `C99_shared_history` (Props31, -); `C99_shared_consistent` (Props31, -); `C99_same_calculation` (Props31, -); `C99_shared_refuted` (Props31, A3)

### C100 Interrupted calculations

`Interrupt.v` runs the steps of Threads.v; a cut call is one that has not reached its end. `InterruptFacts.kept`: a step that is not the last keeps settings and lengths; a calculation depends on the buffers only through their lengths (`calc_kept`). `part_result` adds to the invariant of C99 (`ThreadSame.at_place`) that nothing behind the current lag has changed; the number of steps tells the lag. Histories: each step is at most one addCorrelationData, so the theorems about histories apply.

`C100_uncut` (Props32, -); `C100_left_behind` (Props32, -); `C100_no_loss` (Props32, -); `C100_part_done` (Props32, -); `C100_histories` (Props32, -); `C100_as_fresh` (Props32, -); `C100_mixture_refuted` (Props32, A3)

### C101 Data files read in blocks; read errors and truncated files

`FileErrors.v`: `getline` of libstdc++ over blocks with a final end or error. `FileErrorFacts.getline_spec` states what each outcome says about the bytes; `read_stream_spec` relates the loop to `lines` of a prefix of the bytes, `file_prefix` (from the reading of a file as numbers per line, C83) compares a file with a longer one. The refuted parts are what a user would expect instead: that an error is reported, that a truncated file is noticed.

`C101_blocks` (Props33, -); `C101_empty_block` (Props33, -); `C101_read_error` (Props33, -); `C101_cut_exists` (Props33, -); `C101_first_points` (Props33, -); `C101_directory` (Props33, -); `C101_whole_lines` (Props33, -); `C101_truncated_refuted` (Props33, A3); `C101_reported_refuted` (Props33, A3)

### C102 Memory exhausted while data are loaded

`LoadAlloc.v` repeats the constructors with every request; which failures are swallowed is from libstdc++ (comment at its head). `LoadAllocFacts.ag`: out of memory or the same. For files a line of which k numbers were read equals the line with its first k numbers (`read_line_a_cut`), so the whole is the reading of a shortened file (`load_file`); `load_points` is a fact about shortened files.

`C102_lists` (Props34, -); `C102_enough` (Props34, -); `C102_outcomes` (Props34, -); `C102_file` (Props34, -); `C102_points` (Props34, -); `C102_reported_refuted` (Props34, A3)

### C103 Least number of lags

The lag resolution is the smallest gap of the times (Correlator constructor), so the span is at least n-1 times it, with equality only if all gaps are the same (`LagNumber.lag_number`); the lags are those of `lag_generator` from -span to span. `LagNumber64` transfers the comparison: on multiples of a power of two all the differences are exact. `three_exact`, `three_binary64`: the loop counts up to the span.

`C103_least` (Props35, A3); `C103_least_binary64` (Props35, A3); `C103_three_points` (Props35, A3)

### C104 Digits in data files

From C83 (a file is read as the nearest doubles of its literals). 17 digits: half a unit of the 17th digit is less than half the distance of the neighbours of a double on either side of a power of two (`DigitFacts.written_round`). 15 digits: the distance of two such numbers exceeds the spacing of doubles (`short_lt`). Witnesses for 16 digits by computation.

`C104_seventeen_digits` (Props35, A3); `C104_fifteen_digits` (Props35, A3); `C104_sixteen_refuted` (Props35, A3); `C104_sixteen_times_refuted` (Props35, A3)

### C105 Replacing the data of a SACF

`Session.v` has the commands `SetData` (y.data = z) and `DelData`; the value of the attribute may be None, any object, or missing. `RebindFacts.set_data_step` describes the state after the assignment (reference counts as in C70), `SessRuns.call_later` carries it through any later commands that do not assign to the attribute of that object (`keeps_data`, which also covers assignments under another name). The cycle shows why C70_lifetime has the hypothesis `acyclic`; C70_lifetime_plain gives it to all programs without SetData. Python's cycle collector, which frees such an object at some later time, is not modelled.

`C105_later_calls` (Props36, -); `C105_earlier_correlators` (Props36, -); `C105_assignment` (Props36, -); `C105_none` (Props36, -); `C105_other_type` (Props36, -); `C105_deleted` (Props36, -); `C105_cycle_refuted` (Props36, A3)

### C106 Time stamps or lags that differ by little

`SpecTime.v` states what it means for the times to be close and for a choice not to be a close call, without the model. `TimeCloseFacts.natural_exact` restates the natural selection with real numbers (who is paired, and that the partner is nearest); the three weights are Lipschitz with constant 1/alpha (`rweight_lip`). Exact arithmetic only, and the platform where abs is that of double: with the C function abs the offsets are truncated and jump as well. The refutation uses the times 0, 1 ± delta, 2 at lag 3/2: the partner of the first point changes from the middle to the last point.

`C106_same_pairs` (Props37, A3); `C106_close` (Props37, A3); `C106_unconditional_refuted` (Props37, A3)

### C107 Any time stamps in binary64 against exact arithmetic

Removes the restriction of C66-C68 to times on a binary grid, for the natural selection and the abs of double. `AnyTimes.diff_near`: normalising, shifting and subtracting round three times, which together move a difference by at most E. `AnyTimes.same_as_exact`: if no choice is a close call within E, the binary search and the test against the last time go as in exact arithmetic. `AnyTimesVal.value_core` is the error analysis of C67 with arbitrary weights. The last time, shifted by a positive lag below E, is the one case excluded by hand; for lags that are not positive rounding is monotone and cannot go wrong there. The refutation runs the model on the doubles next to 0, 0.1, 0.2, 0.3. The fast selection is in C115. Not covered: the lags themselves (the exact call is any call having the same lag).

`C107_nearest` (Props38, A3); `C107_value` (Props38, A3); `C107_decimal_refuted` (Props38, A3)

### C108 Work done by a call

`Cost.v` writes every function from the constructor of the correlator to `autocorrelation` again with counters (`charge` adds to them; an exception or undefined behaviour ends the counting), and C108_same_outcome says that this changes no outcome: a counter can be wrong only where a `charge` is missing from a definition that otherwise copies the code. `CostFacts.lower_bound_loop_cheap` is the logarithm; `CostFacts.ran` and `CostMain.std_loop_cost`, `find_loop_cost` add up the lags. Not counted: allocation (C97), comparisons in findMinDiff and in the tests of the loops over the lags, conversions between Python and C++.

`C108_same_outcome` (Props39, -); `C108_bounds` (Props39, A3); `C108_exact` (Props39, A3); `C108_copies` (Props39, A3)

### C109 Values in every order

Props40_Shuffle.v. The spec (SpecShuffle.v) lists all words of M numbers below M and keeps those without repetition; C109_orderings: the lists obtained are exactly the permutations. The proof exchanges two places in every order (ShuffleFacts.v): the sum over all orders of the product of the deviations at two places does not depend on the places, and the deviations of one order sum to zero. C109_mean holds for any pairs the selection returns; C109_grid evaluates it for evenly spaced times. Exact arithmetic; equal values at different places count as different orderings.

`C109_orderings` (Props40, A1); `C109_mean` (Props40, A3); `C109_grid` (Props40, A3)

### C110 Evenly sampled data with points missing

Props41_Gaps.v, vocabulary in SpecGaps.v (grid positions as a rising list of integers). C110_value gives the correlation exactly: the sum over exact pairs plus one weighted term per lonely point; C110_close bounds the second part; C110_lonely counts the lonely points by the missing ones (the shifted positions of lonely points and the positions present are disjoint in one interval). Where two points are equally near the theorem does not say which is taken (C18 does). Only AbsFloat: with the integer abs and a grid of integers C75 gives the same numbers. C110_binary64 (GapFloat.v) adds the rounding bound of C67.

`C110_value` (Props41, A3); `C110_close` (Props41, A3); `C110_lonely` (Props41, -); `C110_binary64` (Props41, A3)

### C111 Which of several nearest points is selected

Props43_Near.v, vocabulary in SpecNear.v. C111_rule holds in both arithmetics; C111_partner and C111_unique turn it into a statement about real distances: `partner` is a property of the times and the lag, and at most one position has it. It sharpens C18, which leaves ties open.

`C111_rule` (Props43, A3); `C111_partner` (Props43, A3); `C111_unique` (Props43, A2)

### C112 Only distances up to twice the lag matter

Props43_Near.v. A time is never farther from its own shifted self than |lag|, so a partner is at most 2 |lag| away from the time itself; within that range the two lists agree and outside it neither list has a candidate, so the partners (unique by C111) coincide; the test against the last time is decided the same way. C112_gap: cutting at a gap and moving the rest is an instance; several gaps by applying it again. C112_less_refuted: 0, 1, 3 against 0, 1, 4 at lag 1. C112_binary64 carries the pairs over by C66 and uses that offsets are absolute values, so that doubles standing for the same number are the same (no negative zero).

`C112_pairs` (Props43, A3); `C112_value` (Props43, A3); `C112_gap` (Props43, A2); `C112_less_refuted` (Props43, A3); `C112_binary64` (Props43, A3)

### C113 Fast selection on any ordered times

Props44_FastAny.v, vocabulary in SpecFast.v. Generalises C57 from even grids to any ordered times: C39 gives the selected positions, `FastAny.below_split` counts them by real numbers, and the value is that of C47 in exact arithmetic. C58 says when the call returns.

`C113_pairs` (Props44, A3); `C113_value` (Props44, A3); `C113_wrapped` (Props44, A2); `C113_half` (Props44, A3)

### C114 Values moved round the times

Props45_Rotate.v, vocabulary in SpecRotate.v. A rotation is one of the orderings of C109, so the call is described by `ShuffleMain.shuffled_call` (same times, hence same pairs and weights, same normalisation); summing a product of two deviations over all rotations is a sum over the positions again (`RotateFacts.sum_rot`). Exact arithmetic.

`C114_mean` (Props45, A3); `C114_grid` (Props45, A3); `C114_circular` (Props45, A2)

### C115 Fast selection in binary64 with any time stamps

Props46_FastTimes.v; the counterpart of C107 for the fast selection (C107 excludes it). `clear_fast` is in SpecFast.v. `AnyTimesFast.fast_64`: C39 gives the pairs from two counts, and each comparison in these counts goes as in exact arithmetic, because rounding moves a difference by at most er (`AnyTimes.diff_near`, `x_near`); at the first time nothing is rounded, and at the last one rounding is monotone. The value by `AnyTimesVal.value_core`.

`C115_pairs` (Props46, A3); `C115_value` (Props46, A3); `C115_close_refuted` (Props46, A3)

### C116 One value far from all others

Props47_Outlier.v, vocabulary in SpecOutlier.v (`outlier`, `mark`). The sums over pairs are compared with those of the spike (`SignalFacts2.pair_sum_close`, the lemma behind C95); `OutlierFacts.mark_pairs` bounds the correlation of the spike by 2, which removes the unknown correlation from the bound of C95. The values are in single precision, so that the normalisation is not rounded (C91 for others). C116_binary64 (OutlierFloat.v) joins C116_grid with C68. The constants 32 and 96 are not sharp.

`C116_any` (Props47, A3); `C116_rest` (Props47, A3); `C116_grid` (Props47, A3); `C116_binary64` (Props47, A3)

### C117 Sinusoids

Props48_Sine.v. `SineFacts.cos_sum` is the closed form of a sum of cosines; the mean, the normalisation and the sum of the products differ from their limits by multiples of 1/|sin w| (`sine_lagged`, `sine_sq`), and the disturbance is added with the lemma behind C95. C117_binary64 (SineFloat.v) joins this with C68. Lags of zero or more only: at negative lags the points before the first one enter as in C27. Values in single precision, so that the normalisation is not rounded (a sinusoid rounded to single precision has e of about A 2^-24). The constants are not sharp.

`C117_sinusoid` (Props48, A3); `C117_half_periods` (Props48, A3); `C117_binary64` (Props48, A3)

### C118 Nearly even sampling

Props49_NearlyEven.v, vocabulary in SpecEven.v. `EvenFacts.even_pairs` takes the nearest partner from the lemma behind C106; the weights are within offset/alpha of 1 and the products sum to at most the normalisation (`lagged_abs`). Whether the last pair exists depends on rounding-size displacements of the last time, so the theorem keeps both cases. C118_sinusoid joins this with the lemma behind C117; cosines move by at most |om| h. C118_pairs_binary64 and C118_binary64 (EvenFloat.v) use C107_nearest instead, so no choice needs to be clear; the example is the one of C107_decimal_refuted, and the theorem says what remains true there. Lags of zero or more, and builds in which abs is the floating-point one (with the integer abs, offsets below 1 tie: C18).

`C118_pairs` (Props49, A3); `C118_value` (Props49, A3); `C118_sinusoid` (Props49, A3); `C118_rounded` (Props49, A3); `C118_pairs_binary64` (Props49, A3); `C118_binary64` (Props49, A3)

### C119 Nearly even doubles with default lags

Props50_Decimal.v on DecimalFacts.v. The default lag resolution is one of the rounded differences of the normalised times (C10_lag_resolution), hence within 2h + 4 T 2^-53 of dd; the n-th lag is within n T 2^-52 of its exact place (`steps_accurate`), so it is within G of (n - (M-1)) dd. That the loop does not stop early uses monotonicity of rounding: the exact next sum is below the maximum lag, which is a double. Whether the last lag (M-1) dd is reached depends on rounding, and a lag near zero may or may not be exactly zero, so the theorem gives the index as M-1+m or M+m. C119_values then applies C118_binary64. That the call returns is C14_default_binary64; for decimal time stamps its hypotheses follow (C119_returns, DecimalReturns.v): the limits imply at most 2 10^7 points, so the allotted number of lags stays below 10^8. Negative lags are in C119_lags only. C119_rounded_lags and C119_rounded_values (DecimalRound.v) are for the doubles nearest to t0 + q dd, where order, finiteness and the bounds on h and T follow from the sizes of the numbers; Julian dates with t0 = 2450000, dd = 0.02 and 50000 points are within their limits. C119_plain (DecimalPlain.v) is the call without options: the default alpha is the middle time, at least (M-1) dd/4 after all roundings, so the effect of the offsets is at most 512 Tm 2^-53/dd. C119_sinusoid (DecimalSine.v) joins C119_returns, C119_plain and C117_binary64: a sinusoid sampled at decimal times, values within e of it, no options; the call returns and its correlations are within the stated distance of the triangle times the cosine. The values must be single-precision numbers (`Forall single`), since the loop at Correlator.cpp line 42 reads them through a float variable.

`C119_lags` (Props50, A3); `C119_values` (Props50, A3); `C119_rounded_lags` (Props50, A3); `C119_rounded_values` (Props50, A3); `C119_plain` (Props50, A3); `C119_returns` (Props50, A3); `C119_sinusoid` (Props50, A3)

### C120 The period of a sinusoid is found

Props51_Period.v on PeriodFacts.v. From C117_sinusoid and C119_sinusoid the correlation at m steps is within E of (1 - m/M) cos (2 pi m/P). On the interval the cosine is at most 1 - 0.16 y^2 for y = 2 pi (m - P)/P (from sin x >= x - x^3/6 and pi <= 3.2, both proved from the standard library's series), and at least 1 - y^2/2 for n. The constants 4 and 21 are not the best possible. The condition on m restricts m - P only; a lag close to P may have a larger correlation than n, since the factor 1 - m/M falls with m. In C120_decimal the position in the list is M-1+m or M+m (C119); the bound G on the distance of the lag from m dd is below dd/4, so it belongs to one m only.

`C120_exact` (Props51, A3); `C120_decimal` (Props51, A3)

### C121 Straight lines and repeating values at decimal time stamps

Props52_DecimalSignals.v on DecimalLine.v: C119_returns and C119_plain with the sums of C90_line and C89_periods; the last pair is bounded by its share of the sum of squares. Gaussian weights are not covered here, since C119_plain is not (its bound needs the accuracy of exp).

`C121_line` (Props52, A3); `C121_repeating` (Props52, A3)

## Defects of the code found on the way

Each is a theorem (mostly a `_refuted` one, with a witness):

* Result buffers are sized from the default settings: a smaller `lag_resolution` or a larger range writes out of bounds (C15, C16, C59);
  so does the default call itself in binary64 for a long series (C14), for repeated or unsorted time stamps (C60), and a
  second call on a correlator that was first used for a narrow range (C37) or cleared (C38).
* The offsets are computed from a vector that has been cleared: works by accident without checks, aborts with them (C20).
* With libstdc++ the unqualified `abs` may truncate to `int`: the nearest point is missed and rescaling the time changes the result
  (C18, C30).
* The fast selection pairs points with themselves at negative lags, drops the last point at lag zero, pairs with the first point from half
  the span on, and raises IndexError for almost all irregular data (C39 - C41, C57, C58).
* Negative lags are not the mirror image of positive ones and the correlation can exceed 1 (C27, C28).
* The normalisation rounds to `float`: the value at lag zero is not 1 in general (C23), adding a constant changes
  the result (C29), values beyond `float` give zeros or NaN (C61).
* A NaN value is skipped in mean and normalisation but poisons the correlation (C24); constant data give NaN (C25).
* Error values are never checked; `errors()` reads out of bounds when they are too few (C04, C44). Ragged rows are re-cut or read out of bounds (C03).
* `CorrelationIterator(k, size)` with a fractional size writes past the end (C55); an iterator used twice reads stale or missing entries (C54).
* Data files: a line with five numbers gives two points (C48), the error column is decided by the first line (C44).
* The readme's `weight_function='fast'` raises KeyError (C36); an empty lag range raises UnboundLocalError (C35).

## Testing the theorems

`seeded/LOG.jsonl` records wrong programs tried in a scratch copy: the definition edited, the edit, the claim it breaks, the theorems that
failed to check, and the theorems tightened because they still passed.
