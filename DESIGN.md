# Formal model of mizar-labs in Rocq (Coq 8.16.1)

## 1. How the development is organised

Every area of the code has four files under `rocq/theories/`:

| suffix | contents |
|---|---|
| `X_Model.v` | executable Gallina mirror of the Python functions, branch by branch, each definition citing file and lines. No proofs. |
| `X_Spec.v` | small declarative vocabulary used to state properties; does not use the helpers of the model |
| `X_Proofs.v` | lemmas |
| `X_Props.v` | only the property theorems (`exact lemma`), `Print Assumptions`, and `Example`s showing that the hypotheses are met by a concrete case |

Shared files: `Prelude.v` (results/exceptions, list slicing), `Num.v` (extended numbers),
`Series.v` (the pandas operations used by the code: shift, diff, rolling, ffill, ...).
`Conformance.v` replays on the model those of the project's own unit tests that have literal data; it contains tests of the
model only, no property.

### Conventions

* **Exceptions are values.** `result A = Ok a | Err exn`, with `exn` naming the Python exception class.
* **Numbers.** Times are integers (nanoseconds or milliseconds since the epoch, like the `datetime64`
  values they stand for), `option` where NaT can occur. Floats are modelled by *extended exact numbers*
  (`ext A = Fin a | PInf | NInf | NaN`) with the IEEE rules for the special values (division by zero,
  `inf - inf`, comparisons with NaN false) but without rounding and without signed zero.
  `A` is `Q` where the code only uses rational operations (every double is a rational, so the set of inputs is
  not restricted) and `R` where it uses `sqrt`, `log`, `exp`.
  Where a property only depends on the order in which operations are applied, the theorem is
  stated for *every* arithmetic and so also covers IEEE doubles.
* **External code** (random generator, scikit-learn estimators, TA-Lib, `scipy.stats.norm.cdf`,
  `numpy.linalg.inv`) is a function argument of the model; what a theorem needs from it is a hypothesis of
  that theorem. There are no axioms about it.
* **Refuted properties.** Where the unchanged code violates a property that its documentation states, the
  theorem `..._refuted` exhibits a witness, and the part that does hold is proved as `..._partial`
  (or as an exact characterisation of when it holds).

## 2. Plan per property

| id | what is modelled | how it is proved |
|---|---|---|
| C01 | `np.array_split` bounds | arithmetic on quotient/remainder, lists of consecutive intervals |
| C02 | `itertools.combinations`, constructor arithmetic | induction on combinations; Pascal recursion vs factorials; 53-bit rounding |
| C03 | `split` | counting lemma on combinations |
| C04 | test/train set computation with numpy set operations | set operations characterised by membership + strict sortedness |
| C05, C06, C07, C08 | `purge`, `embargo` | exact membership theorem for the train set, the others are corollaries; C06 and C08 refuted by witness, partial under the guard that decides whether the embargo is applied |
| C09 | constructor | case analysis |
| C10 | `compute_back_test_paths` | product vs binomial |
| C11 | path assembly with an arbitrary shuffle oracle | loop invariant (multisets); growth of binomials decides when `pop` fails |
| C12 | `LogUniformGen._cdf` over R | real analysis (ln) |
| C13, C14 | `get_ind_matrix` | sorted-unique lists, slice characterisation |
| C15 | `calc_average_uniqueness` | sums over Q |
| C16, C17, C18, C19 | `seq_bootstrap` with an oracle for `choice` | invariant over rounds: incremental vector = full recomputation |
| C20, C21 | sample weights | sums over R / Q |
| C22, C23, C24 | CUSUM filter | invariant over the scan |
| C25 - C30 | triple barrier labelling | first-touch characterisation of the scan, min of times, two-run argument |
| C31 | `get_daily_vol` reference bars | searchsorted characterisation on strictly increasing lists |
| C32 - C35 | trend scanning, with the uninitialised array as an oracle | argmax characterisation, OLS algebra over R |
| C36 - C38 | bet sizing | R with cdf oracle; Q for averaging and rounding |
| C39, C40, C60 | technical features | scan invariants; general causality combinators |
| C41 - C43 | microstructure, z-score | real arithmetic |
| C44 - C47 | structural breaks | fold/sup invariants, OLS over R with inverse oracle |
| C48 - C52 | bagging classifier | list/partition reasoning with random-stream oracle |
| C53 - C56 | strategy pipeline and trader | list/time-grid reasoning, state passing |
| C57, C58 | TA-Lib factory | string functions, round trip |
| C59 | timestamp conversion | integer division |
| C61 | `AverageUniqueness` | from C13-C15 |
| C62, C63 | Dickey-Fuller type tests | OLS over R; two-run argument, refuted for the Chow-type test |
| C64, C65, C69 | window features | tail-locality combinators; closed formulas on the trailing window |
| C66 | rule-based strategies | characterisation of the scan |
| C67, C68 | bagging: spans of the given rows, out-of-bag score | column selection lemma; refutation by witness |
| C70, C71, C74, C75, C76 | strategy pipeline: signals, sizes, predictions | join of two time grids; two-run argument |
| C72, C73 | strategy trader: positions | column by column |
| C77 - C80 | labels handed on to cross-validation, weights, bagging; sampled events handed to the scanner | composition of the above through one invariant of labels (increasing starts, ends not before starts) |
| C81 - C85 | `MizarPipeline`, `MizarFeatureUnion` with the scikit-learn code they rest on, metalabeling helpers | string splitting lemma, commuting updates of nested dictionaries; stacking lemmas; invariant over the folds |
| C86 | `combinatorial_cross_validation_paths` with its data frames and a stateful pipeline | simulation: the dictionary of frames follows the dictionary of row positions of C11 (relation kept by append, shuffle by positions and pop) |
| C87 | the constructor with `lags` a number or a list, `phi` any float; `run` on the model name | case analysis |
| C88 | `transform` with transformers as arbitrary partial functions, followed by the alignment of C53 | induction over the dictionaries |
| C89 | the models of C01, C31, C28, C16, C39-C44 run twice, on prices and on the same prices multiplied by a positive number | each operation commutes with the change of unit; induction over series and windows |
| C90 | the models of C05-C24 and C25-C35 run twice, with times and with the images of the times under an order-preserving function | each comparison, sort and lookup commutes with such a function; induction over lists |
| C91 | the models of C15, C20 and C61 run on two lists of labels that agree around one label | the closed forms of C20 and C61: times inside the label come from overlapping labels only; counts of live labels agree |
| C92 | the models of C21 and C61 run on a list of rows and on a permutation of it | C91 for the values; sums over permuted lists; sorted outputs have equal times |
| C93 | the models of C23, C25-C28, C35, C39, C44, C46 and C62 run on a series and on the mirrored one | CUSUM: the two accumulators change roles, which is sound because they never fire together; labels: the barriers change roles; regressions: columns and response multiplied by signs keep the fit up to signs |
| C94 | the constructors of all classes as functions from arguments to attributes, scikit-learn's get_params, set_params and clone | one lemma each for a constructor that keeps its arguments and for one that loses a name, then a case per class; for the classes that rename (average uniqueness, sample weights, CUSUM filter, triple barrier, moving-average and MACD crossover, bet sizing) the claim is refuted for all arguments |
| C95 | the same model; for the bagging classifier an object with cached matrix, mapping and fitted attributes under histories of set_params and fit | attributes after set_params equal those of a fresh call; invariant over histories: mapping and matrix belong to the parameters; refuted for new label spans or bars (the first fit ignores them, later ones mix old positions with the new matrix) and for classes that check their arguments |
| C96 | the same model, with the indicator library as a function argument | table of attributes read by the methods against the parameters; each constructor stores them so |
| C97 | the same model | comparison of values as rational numbers, case analysis of the checks |
| C98 | Feat_Model, TAFactory_Model and Label_Model; `reads` in Columns_Spec: success with all columns, the exception for the first missing one, independence of everything else | case analysis on the columns looked up; the labelling's use of a stray side column is refuted with an example |
| C99 | Boot_Model, Weights_Model, Bet_Model, Break_Model, TAFactory_Model | case analysis of the checks in the order of the code; for labels an equivalence (accepted exactly if), via C14 |
| C100 | Trend_Model, Label_Model, Feat_Model, Cusum_Model | sign of the regression slope of a monotone series by centring at the middle bar; barrier search via C27/C28; exponential averages by the recursion of the gap to the last price; moving averages by induction on the window; CUSUM by uniqueness of the crossings (C22) |
| C101 | Cusum_Model, Weights_Model, Label_Model, Feat_Model, Trend_Model, Break_Model | CUSUM by an invariant coupling the two runs (event counts, and accumulators when the counts agree); decay from the closed form of C21; barriers from the characterisation of C27; rules from C66; trend scanning and SADF as maxima over nested sets of windows (C32, C46) |
| C102 | Boot_Model | from the closed form of the probabilities in every round (C16): expectation by the inequality between the square of a mean and the mean of squares; bounds on the uniqueness from the rows shared with the draws |
| C103 | Params_Model | a table of documented defaults, written apart from the model; constructors depend only on the bound values, which a default given explicitly or a permutation of the call leaves as they are |
| C104 | Bet_Model | case analysis of the checks in the order the code makes them |
| C105 | Ewm_Model, Roll_Model (the update loops of pandas 1.2 in exact arithmetic) | invariants: the state represents the values of the window; the queue of a maximum holds increasing positions with decreasing values that dominate every value of the window; the running weighted moments times the sum of weights are the weighted sums |
| C106 | `Double_Model.v`: float64 as Flocq's FLT format (53 bits, least exponent -1074) with rounding to nearest even, plugged into the generic labelling and CUSUM models; `Double_Spec.v` says what a double is without Flocq | gap between neighbouring doubles (a quotient of two different doubles never rounds to 1), monotonicity of rounding, simulation between the double and the rational filter on a grid |
| C107 | `Double_Boot_Model.v`: the loop of Boot_Model.v with float32 counts, float64 sums (scipy's in row order, np.sum's in any order), Kahan's check and searchsorted of RandomState.choice; uniform numbers as an argument | relative-error calculus (`rel`), sums in any order, invariant that the incremental averages are a function of the draws alone, monotonicity of every rounded operation |
| C108 | `Rounding_Model.v`: rounding of a rational to a double by integer arithmetic, used by Bag_Model.v for `max_samples * n` and (its significand rounding) by CV_Model.v for `int(a / b)` | proved equal to Flocq's rounding; relative errors of two roundings, neighbours of 1 and n; refutations by computation |
| C109 | `Rounding_Arith_Model.v`: executable float64 arithmetic on rationals, plugged into the generic Cusum_Model.v | simulation of the double run by the exact accumulators with an error of at most k*2^-50*(M+H) after k steps; refutation by computation, transferred to the doubles |
| C110 | Pipe_Model.v (no new model code), specification in Pipe_Spec3.v | totality from conditions on the parts (concatenation, column and width lemmas), then each error by following the first failing step; iff for the data sets |
| C111 | Double_Weights_Model.v (average uniqueness and decay with every rounding; decay_weights of Weights_Model.v over an arithmetic) | (1 - y) + y = 1 in doubles for 0 <= y < 2^53, monotonicity of rounding, relative errors of sums and quotients |
| C112 | Trend_Model.v (unchanged): any step, any minimum length, any memory content | loop invariant for the writes of the scan, membership in arange, exact least squares on one and two bars |
| C113 | Double_Bet_Model.v (bet sizing with every rounding, mirrors Bet_Model.v) | partial sums bounded by integers, exact 1 - p from one half on, no underflow of p (1 - p), error bounds below half a thousandth |
| C114 | Break_Model.v, Break_Scale_Spec.v (change of unit and origin) | t-statistic under an invertible change of regressors that keeps the tested one up to a factor (matrix products), then the supremum of C46; refuted where the regression has no constant |
| C115 | Double_Vpin_Model.v (compensated rolling sums of pandas and VPIN, generic in the numbers), Double_Vpin_Spec.v | on a grid of a power of two both compensations stay 0 and the sums are exact (induction over the rows), the quotient is rounded once; decimal volumes refuted by running the model on rounded rationals, proved equal to the model in doubles |
| C116 | Double_Cross_Model.v (compensated rolling means of pandas and the crossover, generic in the numbers) | sums on a grid are exact (as C115), so each mean is rounded once; two different means are further apart than two rounding errors, equal means round equally; flat decimal market refuted by running the model on rounded rationals |
| C117 | Double_Z_Model.v (compensated Welford variance of pandas and the z-score, generic in the numbers and the square root) | invariant: in a flat series the running mean is the value and the sum of squares 0; the mean on a grid as C116; refutations by running the model on rounded rationals, the square root only through its sign |
| C118 | Double_Ewm_Model.v (ewma and ewmcov of pandas, generic in the numbers; daily volatility and the difference of averages with them) | invariants of the running state under monotone rounding (sums of weights not negative, sum of squared weights at most the sum of weights, mean equal to the flat value); refutation by running the weights on rounded rationals |
| C119 | Double_Micro_Model.v (first and second generation features, generic in the numbers, with the running means and sums of Double_Cross_Model and Double_Vpin_Model; logarithm, exponential and root as arguments) | sign counter of the running mean as invariant; monotone rounding for the range of the spread; series that are missing and then constant are closed under the operations; refutations by running the sums on rounded rationals |
| C120 | Double_Vpin_Model, Double_Cross_Model, Double_Micro_Model; specification Double_Bound_Spec | invariant of the roll loop indexed by the number of updates: distance from the window's sum and size of the two compensations; distances carried to averages, quotients and comparisons; averages of whole ticks that differ are at least tick/(fast*slow) apart |
| C121 | Double_Ewm_Model, Double_Bound_Spec | invariant pairing the exact and the double running state of the exponential recursion; the decay factor contracts the old error, so the sum of new errors is bounded by a geometric series; square root by cases on its size |
| C122 | DailyVol_Model, Double_Ewm_Model | variance as a weighted average over pairs (induction on the observations), Cauchy-Schwarz for the pair sums; rounding of the returns, then C121 |
| C123 | Feat_Model, Stable_Spec | induction on the two columns at once; sums and extrema are 1-Lipschitz, deviations by the pair sums of C122, sides because each comparison keeps its outcome |
| C124 | Cusum_Model, Label_Model, Stable_Spec | the exact characterisations C22, C27 and C28: with the margins every comparison in them has the same outcome for both inputs |
| C125 | Cusum_Model, Cusum_Restart_Spec | from C22: the price of a rise is above every price in the window of the falls, so both windows start again at each event; two runs compared by counting with the earlier window start as invariant |
| C126 | Label_Model, Trend_Model, Label_Cut_Spec | the barrier times of C27 and C28 shifted by the rows left out; the trend scanner by rewriting its slices |
| C127 | Feat_Model, Feat_Spec | weighted sums split at the cut; the share of the early weights is at most the decay to the power of the rows seen (geometric sums) |
| C128 | Cusum_Model, Cusum_Restart_Spec, Cusum_Path_Spec | each event is a move of more than the threshold since the event before (C125), and those stretches do not overlap; triangle inequality |

## 3. What is modelled and what is not

### Modelled

Every function and class of `mizarlabs/` outside `tests/` except those listed below; the definitions of the model cite
their lines.

| source | model |
|---|---|
| `model/model_selection.py` | `CV_Model` (splits, purging, embargo, which rows go to which path), `Paths_Model` (fitting, predictions and the returned frames), `LogUniform_Model` |
| `model/bootstrapping.py` | `Boot_Model` |
| `model/sequentially_bootstrapped_bagging_classifier.py` | `Bag_Model` (one fit, out-of-bag score), `BagState_Model` (a history of fits, caches, set_params) |
| `model/pipeline.py` | `Wrap_Model` (pipeline and feature-union subclasses, prediction features), `Pipe_Model` (signal pipeline, trader), `Strat_Model` and `Flow_Model` (the pieces connected with the sizer, the labels and the cross-validator) |
| `structural_breaks/*.py` | `OLS_Model` (the shared regression), `Break_Model` |
| `transformers/targets/labeling.py` | `Label_Model`, `DailyVol_Model` |
| `transformers/targets/trend_scanning.py` | `Trend_Model` |
| `transformers/sample_weights/__init__.py`, `transformers/sampling/*.py` | `Weights_Model`, `Boot_Model` (average uniqueness), `Cusum_Model` |
| `transformers/trading/bet_sizing.py` | `Bet_Model` |
| `transformers/features/*.py`, `transformers/microstructural_features/*.py`, `transformers/technical/*.py` | `Feat_Model`, `TAFactory_Model` (argument handling of the TA-Lib factory) |
| constructors and scikit-learn's parameter protocol of all of these | `Params_Model` |

### Not modelled

* `setup.py`, `docs/`, `mizarlabs/tests/` (the literal tests are replayed in `Conformance.v`), imports and re-exports.
* `TAFactory.get_function_groups` and `get_functions` (lists of names of TA-Lib); TA-Lib itself is a function argument.
* `ClosingPositionsModel` (an abstract class; a closing model is a function argument), `_cast_nan_to_none` (unused), the
  abstract `_check_output` hooks (empty, or an assertion on the type of the result the method has just built).
* Python typing errors for arguments of a wrong type, unless a check of the code is what rejects them; logging, tqdm,
  warnings, plotting, pickling, memory use and running time.
* Floating-point rounding, signed zeros and overflow, except where noted: the double division of C02/C10/C11, and every
  theorem stated for an arbitrary arithmetic. Numerical stability (for instance of pandas' incremental rolling sums) is
  outside the model: rolling and exponential statistics are their exact values.
* Numba's compilation and its race conditions, except the order of the parallel loop iterations of the barrier search
  (C26) and the uninitialised memory of trend scanning (C33); joblib's scheduling is an arbitrary permutation of the
  jobs (C48).
* The internals of scikit-learn's estimators and of numpy's random generator: both are arbitrary functions.
* pandas beyond the operations used: see `Series.v` and the comments of `Pipe_Model.v` for what each operation is taken to do.

### Simplifications

As stated beside the definitions:

* `BagState_Model.v` (fit): the object after an exception is not described.
* `Bag_Model.v` (numpy's RandomState): `randint(MAX_INT, size=k)` is k successive draws [next_int]; `choice` is described by the function [choices] from the number of the call, the probabilities and the size (see Boot_Model.v).
* `Bag_Model.v`: random_state is a seed (an integer), not None or a RandomState shared with other code.
* `Bag_Model.v` (Lines 365-373): a max_samples that is neither an integer nor a float raises TypeError (a string would be repeated and then fail to convert: ValueError).
* `Bag_Model.v` (The data: the index of X, its rows, its number of columns, the labels, the address of samp): the type assertions (326-333) hold and check_X_y passes the values on unchanged.
* `Bet_Model.v` (Line 242 and the caps of lines 244-246, for one value): exact arithmetic; an infinite value stays infinite under the rounding.
* `Bet_Model.v` (The input: which of the columns exist, and its rows): the index has no repetitions.
* `Boot_Model.v` (Lines 30-78. A sample is (start, end) = (index value, value of the series), [None] for NaT): the series has the name [event_end_time_column_name] (otherwise KeyError); bar times are never NaT. For an empty series numpy raises ValueError (reduction of a zero-size array).
* `Boot_Model.v` (_calc_update_avg_unique, lines 98-136): exact rationals instead of float32.
* `Boot_Model.v` (`random_state.choice(sample_indices, p=prob, size=size)`, lines 185-189: ValueError when t): numpy accepts a small deviation of the sum from one.
* `Boot_Model.v` (`np.ceil(sample_length / update_probs_every)`, line 172): exact instead of through a double, which is the same for lengths below 2^53 (C18_rounds_through_a_double).
* `Boot_Model.v` (Rows of X: (index value, event end time)): the column exists. The numpy warning-free arithmetic gives NaN ([None]) for a sample without rows.
* `Break_Model.v` (Model of the structural-break tests (mizarlabs/structural_breaks/)): the tested series contains finite exact numbers.
* `Break_Model.v` (`np.log(series)` for the martingale models; the assertion of lines 239-241 stops on a nega): so does a zero price (whose logarithm is minus infinity).
* `CV_Model.v` (Python [int(a / b)] for integers a >= 0, b > 0: the true division of two integers is the c): the subnormal range is not distinguished (its values truncate to 0 either way).
* `CV_Model.v` (CombPurgedKFoldCV.__init__ (lines 105-147) including BaseTimeSeriesCrossValidator.__init__): n_test_splits and the embargo already have the right Python types.
* `CV_Model.v` (One predicted sub test set (lines 412-435): the split that produced it and its row positio): the fitted predictions themselves are represented by the number of the split whose model made them; fitting and predicting (lines 405-428) do not influence which rows go where.
* `Cusum_Model.v` (transform, lines 19-47): the threshold is a finite number.
* `DailyVol_Model.v` (The return series of lines 450-461: (index value, return)): the index is strictly increasing and without NaT.
* `DailyVol_Model.v` (pandas `ewm(span=s).std()` (adjust=True, ignore_na=False, bias=False), used on line 462: a): closed form of the weighted variance instead of the incremental update (Ewm_Model has the update, C105 proves them equal); the span is at least 1.
* `Double_Bet_Model.v` (Bet sizing (mizarlabs/transformers/trading/bet_sizing.py) in the arithmetic that numpy, pa): as in Double_Model.v (no overflow, no signed zero) and Bet_Model.v.
* `Double_Boot_Model.v` (The sequential bootstrap in the arithmetic that numpy and scipy use (mizarlabs/model/boots): as in Double_Model.v; counts are below 2^32 (np.uint32 does not wrap).
* `Double_Cross_Model.v` (add_mean): no signed zero, so the sign bit is that of a negative number.
* `Double_Model.v` (Numbers as numpy and pandas hold them: IEEE double (and single) precision, rounding to nea): no overflow (a result beyond the largest double is kept instead of becoming infinite) and no signed zero.
* `Double_Weights_Model.v` (The time-decay sample weights in the arithmetic that numpy and pandas use (mizarlabs/trans): as in Double_Model.v and Weights_Model.v.
* `Ewm_Model.v` (Model of the running updates behind `ewm(span=...).mean()` and `.std()`, which the code ca): exact arithmetic.
* `Feat_Model.v` (`s.rolling(window=w).agg()`: [agg] of the last w values, NaN if fewer than w of them are f): exact arithmetic; aggregates of the window instead of incremental updates (Roll_Model has the updates, C105 proves them equal); windows are positive.
* `Feat_Model.v` (`s.ewm(span=k).mean()` (adjust=True, ignore_na=False): weights (1-alpha)^(i-j), alpha = 2/): closed form instead of the incremental update (Ewm_Model has the update, C105 proves them equal); the span is at least 1.
* `Feat_Model.v` (Lines 47-57): times are exact numbers.
* `Feat_Model.v` (BarArrivalRSIStrategy.predict (rsi.py:44-75): the arrival times have no value in the first): the index is strictly increasing.
* `Label_Model.v` (One iteration of the parallel loop, lines 326-357: reads the inputs, writes position [i] o): millisecond timestamps are exact in a double.
* `Label_Model.v` (transform, lines 48-58 and 130-205. [daily_vol] is get_daily_vol with the configured windo): the index is strictly increasing and without NaT; columns have the length of the index.
* `LogUniform_Model.v` (The public `cdf` that scipy's rv_continuous builds from _cdf for support [a, b]: 1 at and ): loc = 0, scale = 1, real argument.
* `OLS_Model.v` (A two-dimensional array: its shape and its entries): finite exact entries.
* `OLS_Model.v` (get_beta_and_beta_var, lines 54-60. [inv] is np.linalg.inv (it raises on singular input). ): the shapes of `y` and `X @ beta_hat` on line 58 agree (both have the rows of [X] and one column).
* `Params_Model.v` (`a < b`): values that are neither numbers nor strings do not compare.
* `Params_Model.v` (`bool(v)`): every object counts as true.
* `Params_Model.v` (Calling a class with keyword arguments: Python rejects unknown and missing arguments): no positional arguments.
* `Params_Model.v` (BaseEstimator.set_params: the object afterwards, and the exception if there is one. Values): names of the form a__b, for parameters of parameters, are not modelled.
* `Params_Model.v` (`x is y`): equal numbers and strings are the same object.
* `Paths_Model.v` (`y[label_column_name]` (line 396)): no two columns of y have that name.
* `Paths_Model.v` (`pd.merge(tmp_df, y, left_index=True, right_index=True, how="left")` (line 428): each row ): y has no column called predictions or max_proba.
* `Paths_Model.v` (combinatorial_cross_validation_paths (372-451)): all splits are computed before the first fit, whereas the code computes each split right before its fit; this matters only for which of two errors is raised first.
* `Pipe_Model.v` (`pd.concat([...], axis=1)`: side by side if the indices are equal; otherwise on the union ): the union is in increasing order (which pandas does for increasing indices).
* `Pipe_Model.v` (`pd.concat([a, b], axis=1, join="inner")`): the common times are in the order of the first frame.
* `Pipe_Model.v` (A model: its name-blind view of the data are the rows of values. [classes_] and [n_classes): `if self.metalabeling_model:` is true of every model. (A scikit-learn ensemble that is not fitted has no truth value: it raises AttributeError in place of NotFittedError.)
* `Pipe_Model.v` (`a.intersection(b)`): in the order of the first index, without repetitions.
* `Pipe_Model.v` (`max(axis=1)`, which skips NaN, and the class at `np.argmax`. For a row of at least one pr): the probabilities are not NaN.
* `Pipe_Model.v` (`pd.DataFrame({"side": side, "size": size}).dropna()` (line 597): outer join of the two se): the union is in increasing order.
* `Pipe_Model.v` (create_strategy_bars (lines 785-822). It writes to the frame of the caller): what has been written before an exception is not kept.
* `Roll_Model.v` (Model of the running updates behind `rolling(window)` and its sum, mean, std, max, min and): exact arithmetic, so no Kahan summation (Double_Vpin_Model has it for sums).
* `Roll_Model.v` (The loop of roll_sum, roll_mean and roll_var: remove the values that have left the window,): with a fixed window one value enters per row and at most one leaves; the window is positive.
* `Rounding_Arith_Model.v` (The operations of float64 on rational numbers, executable: every sum and product is rounde): no overflow and no signed zero.
* `Rounding_Model.v` (The double nearest to [q]): no overflow (a result beyond the largest double is kept).
* `Strat_Model.v` (The frame that get_side_and_size gives the bet sizer (mizarlabs/model/pipeline.py, lines 5): the sizer has the default names of columns (mizarlabs/transformers/trading/bet_sizing.py, lines 66-78), which are these.
* `Trend_Model.v` (Model of the trend scanner (mizarlabs/transformers/targets/trend_scanning.py)): prices are finite exact numbers.
* `Trend_Model.v` (Lines 238-263 for one window: t-value of the trend coefficient. The division is compiled w): the exception stops the scan (inside a parallel region numba may report it later).
* `Trend_Model.v` (One iteration of lines 186-208: (t-value, end position), nothing when there are too few ba): min_sample_length is at least 1 on line 204.
* `Trend_Model.v` (transform, lines 84-147. The first argument is the attribute `t_events` of the object, whi): the index and the events have no repetitions; the events are given as numpy datetimes (np.datetime64), as in the project's test: whether the sets on lines 68 and 80 identify them with pandas timestamps depends on the version of numpy.
* `Weights_Model.v` (transform, lines 35-62): both columns exist.
* `Weights_Model.v` (Lines 131-138 on the sorted average uniqueness; [iloc[-1]] of an empty series raises Index): numpy's 1/0 is +inf, also for a negative zero. The arithmetic is a parameter: exact rationals below, doubles in Double_Weights_Model.v.
* `Weights_Model.v` (transform, lines 127-140): the column exists.
* `Wrap_Model.v` (A named step; [None] is "passthrough"): the deprecated None is not modelled, nor is the cache.
* `Wrap_Model.v` (A transformer: fitting it gives a function from frames to arrays): `fit_transform` is `fit` and then `transform` (TransformerMixin), and takes no further keyword arguments.
* `Wrap_Model.v` (`df.loc[labels, names] = values`: a label without a row raises KeyError, a wrong shape Val): the labels are distinct, and the names are all columns (as they are in line 292).
* `Wrap_Model.v` (_check_y_metalabel (lines 297-315): the message of the ValueError, by its one variable wor): no missing metalabels.

## 4. Trusted base

* Coq 8.16.1's kernel, and its `vm_compute` conversion for some `Example`s.
* The model: that the definitions in `*_Model.v` do what the cited lines do, with the simplifications above, and that
  numpy, pandas and scikit-learn do what `Prelude.v`, `Num.v`, `Series.v` and the comments say.
* The statements: `*_Props*.v` and the vocabulary in `*_Spec.v`.
* Axioms: only those of Coq's standard library listed below, which come with the classical real numbers and
  `Classical_Prop`. The development declares none, contains no admitted proof, and no theorem rests on more than the
  four axioms named here. The list is the output of `Print Assumptions` for each theorem
  (`tools/assumptions.py`).

**Closed under the global context** (248 theorems)

C01_enough_samples, C01_folds_partition, C02_every_combination_once, C02_reported_number, C03_tested_equally_often, C04_train_test_disjoint, C05_purging, C06_embargo_partial, C06_embargo_refuted, C07_train_exact, C08_longer_embargo_partial, C08_longer_embargo_refuted, C09_accepted_only_if_valid, C09_error_class, C09_valid_accepted, C10_number_of_paths, C11_paths_partial, C11_paths_refuted, C13_indicator_matrix, C14_accepts_exactly, C14_missing_times, C14_single_sample_rejected, C15_average_uniqueness, C15_bounds, C16_incremental_equals_full, C17_probabilities, C18_errors, C18_rounds_through_a_double, C18_size_and_range, C19_overlap_lowers_uniqueness, C21_below_minus_one_refuted, C21_decay_weights, C21_minus_one_refuted, C21_shape_negative, C21_shape_nonnegative, C21_succeeds, C21_too_large_rejected, C22_duplicate_labels, C22_exact_crossings, C22_falls_unique, C22_missing_restarts, C22_rises_unique, C23_accumulators_bounded, C23_first_never_selected, C23_one_side_fires, C24_no_lookahead, C24_sorted, C24_succeeds, C25_barrier_table, C25_first_touch, C25_no_barrier, C26_schedule_independent, C26_transform_schedule_independent, C27_bounds, C27_first_of_three, C27_missing_volatility, C27_succeeds, C28_no_end, C28_return_and_label, C29_same_row, C30_constructor, C30_missing_columns, C30_negative_factors, C30_other_side_name_error, C30_other_side_name_fails, C31_reference_bar, C32_constructor, C44_sides, C48_workers, C49_fewer, C49_warm_start, C50_training, C50_weights_kept, C51_fewer_classes_partial, C51_mean_of_probabilities, C51_missing_class_refuted, C51_score, C51_share_of_votes, C51_two_of_three_refuted, C52_exceptions, C52_out_of_bag_classes_partial, C52_out_of_bag_refuted, C52_proceeds, C52_proceeds_out_of_bag_partial, C52_rejects, C52_unusable_weights, C52_unusual_sizes, C53_accepted, C53_alignment, C53_causal, C53_not_before, C53_once, C54_keeps_all, C54_keeps_all_accepted, C54_meta_accepted, C54_meta_columns, C54_metalabeling, C54_metalabels, C54_primary, C54_primary_content, C54_primary_labels, C54_refused, C55_refuted, C56_refuted, C56_repeat_partial, C56_written, C57_no_arguments_refuted, C57_signature, C57_split, C57_two_optional_parts, C57_undocumented, C58_accepted_partial, C58_empty_keywords_refuted, C58_real1_refuted, C58_rejected, C58_surplus_columns_refuted, C58_unknown_function, C59_injective_on_milliseconds, C59_monotone, C59_negative, C59_rounds_down, C61_average_uniqueness_transformer, C61_succeeds, C67_label_spans, C68_score_without_decision_refuted, C69_constructors, C70_no_lookahead, C71_greatest, C71_side_and_size, C72_bars, C72_duplicates, C72_position, C72_succeeds, C72_valid, C73_refuted, C73_type_error, C76_outdated, C76_predict, C76_predict_proba, C76_same_times, C76_unfitted, C77_complete_rows, C81_delivered, C81_improper_names, C81_same_calls, C81_trailing_underscore_refuted, C82_accepts, C82_failing_part, C82_identity, C82_rejects, C82_rows, C83_labels_dropped_refuted, C83_unsupervised, C84_folds, C84_no_predict_proba, C85_metalabels, C86_each_sample_once, C86_no_label_column, C86_no_prediction_twice, C86_other_parameters_fail, C86_repeated_times, C86_repeated_times_too_many_rows, C86_rows, C88_accepted, C88_aligned, C88_names, C88_no_lead, C88_not_aligned, C88_transformed, C88_wrong_names, C89_events, C90_average_uniqueness, C90_daily_volatility_moved, C90_events, C90_indicator_matrix, C90_labels_moved, C90_paths, C90_splits, C90_time_decay, C91_uniqueness, C92_time_decay, C92_uniqueness, C93_events, C94_clone, C94_not_estimators_refuted, C94_renaming_refuted, C94_reports, C94_set_params, C94_unknown_name, C95_as_new, C95_bagging_history, C95_bagging_no_trace, C95_bagging_refuted, C95_bagging_second_fit_refuted, C95_bagging_spans_ignored_refuted, C95_checks_skipped_refuted, C95_plain, C96_arguments, C96_indicators, C97_binding, C97_fast_slow, C97_incomparable, C97_macd, C97_nan_accepted, C97_side_column, C97_step_size, C97_step_size_incomparable, C97_trend_scanning, C97_volume_type, C98_factory, C98_labels_partial, C98_labels_refuted, C99_decay, C99_labels, C99_undocumented, C100_one_change, C101_cusum, C101_decay, C102_expected_uniqueness, C102_same_rows, C102_untouched_first, C103_any_order, C103_fixed, C103_left_out, C103_required, C108_fraction_refuted, C108_one_row_refuted, C110_alignment, C110_dataset, C110_no_class_one, C110_no_features, C110_position, C110_prediction_missing, C110_predicts, C110_primary_model, C110_signal, C115_never_fails, C124_events, C124_events_margin_needed, C125_agree, C125_exact, C125_late_start, C125_restart, C125_unique, C126_fixed_barriers, C126_row, C128_event_budget, C128_quiet_market

**Axioms: `ClassicalDedekindReals.sig_forall_dec`, `FunctionalExtensionality.functional_extensionality_dep`** (70 theorems)

C27_later, C36_constructor, C37_between, C37_mean_of_active, C37_old_end_refuted, C37_same_millisecond_refuted, C38_defined, C38_nearest_multiple, C38_out_of_range_refuted, C38_values, C39_crossings, C39_exclusive, C39_most_recent, C39_values, C40_crossover, C40_crossover_repeated_timestamps_refuted, C40_exponential, C40_technical, C41_vpin, C45_defined, C45_few_rows, C45_least_squares, C60_one_hot, C64_crossover, C66_bar_arrival, C66_macd, C66_mean_reversion, C66_rsi_confirmation, C69_average, C69_ewma_difference, C69_imbalance, C69_local_max, C82_no_look_ahead, C87_accepted, C87_exponent, C87_lag_list_refuted, C87_rejected, C89_daily_volatility, C89_labels, C89_normalised_depends_on_unit, C89_signals, C93_crossover, C93_labels, C98_probabilities, C98_technical, C99_step, C100_crossover, C100_crossover_turn, C100_ewma_difference, C101_bar_arrival, C101_mean_reversion, C101_rsi_confirmation, C105_cov, C105_ewm_mean, C105_max, C105_mean, C105_min, C105_sum, C115_exact, C116_exact, C118_average_exact, C123_difference, C123_imbalance, C123_side, C123_side_margin_needed, C124_labels_margin_needed, C124_returns, C127_average, C127_difference, C127_warm_up

**Axioms: `ClassicalDedekindReals.sig_forall_dec`, `ClassicalDedekindReals.sig_not_dec`, `FunctionalExtensionality.functional_extensionality_dep`** (82 theorems)

C29_same_row_daily_vol, C31_aligned, C31_no_reference_no_volatility, C31_nonnegative, C31_weighted_deviation, C32_defined, C32_largest_t_value, C32_unknown_events, C33_larger_step_refuted, C33_step_one, C34_first_series_remembered, C34_given_events, C34_no_events_refuted, C35_scale_and_shift, C36_confidence, C36_high_probability, C36_invalid_probability, C36_low_probability_refuted, C36_range, C36_sizes, C37_column_name_refuted, C37_transform, C38_transform, C40_z_scores, C42_attained, C42_factory, C42_invariant, C42_window_one, C42_z_score, C46_statistic_unique, C62_chow_statistic, C62_defined, C63_chow_look_ahead_refuted, C64_z_scores, C65_roll, C69_z_scores, C74_confidence, C74_formula, C74_range, C74_valid, C75_refuted, C77_embargo_without_effect_refuted, C77_labels_proper, C77_no_overlap_partial, C77_split_succeeds, C78_fewer_labels, C78_matrix, C78_time_decay, C78_uniqueness, C79_bagging, C79_bagging_out_of_bag, C80_sampled_trends, C89_chow, C89_price_features, C90_trends, C93_chow, C93_trends, C98_bar_features, C99_bets, C100_trends_down, C100_trends_up, C101_trend, C104_averaging, C104_no_classes, C104_no_probability, C104_no_side, C104_wrong_side, C105_ewm_std, C105_std, C112_best_of_tried, C112_one_bar_refuted, C112_step_zero, C112_tried_or_memory, C112_two_bars_refuted, C114_chow, C114_chow_origin_refuted, C117_exact, C118_exact, C122_size, C122_stable, C123_windows, C126_trend

**Axioms: `ClassicalDedekindReals.sig_forall_dec`, `Classical_Prop.classic`, `FunctionalExtensionality.functional_extensionality_dep`** (1 theorems)

C124_labels

**Axioms: `ClassicalDedekindReals.sig_forall_dec`, `ClassicalDedekindReals.sig_not_dec`, `Classical_Prop.classic`, `FunctionalExtensionality.functional_extensionality_dep`** (123 theorems)

C12_cdf, C12_default, C12_given_bounds, C12_no_jump, C12_scale_free, C20_never_negative, C20_return_weights, C20_succeeds, C40_features, C40_rows, C43_corwin_schultz, C43_not_negative, C44_constant_prefix, C44_rows, C44_supremum, C44_two_sided, C46_defined, C46_short_windows_refuted, C46_supremum, C46_zero_lags_refuted, C47_no_penalty_partial, C47_penalty_refuted, C63_csw_no_look_ahead, C63_sadf_no_look_ahead, C64_window, C65_high_low, C65_lambdas, C78_returns, C87_unknown_model, C89_csw, C89_pure_features, C89_return_weights, C89_sadf, C90_return_weights_moved, C91_return_weights, C92_return_weights_need_order, C93_csw, C93_sadf, C98_microstructure, C99_prices, C100_labels_down, C100_labels_up, C101_labels, C101_sadf, C101_sadf_penalty, C106_cusum_bounded, C106_cusum_exact, C106_cusum_one_side, C106_labels, C106_later, C106_nearest, C106_return, C107_average_uniqueness, C107_bootstrap, C107_update, C108_accepted, C108_default, C108_division, C108_features, C108_fraction_partial, C108_monotone, C108_rounding, C108_sample_count, C109_clear_moves, C109_decimal_refuted, C109_executable, C109_half_tick, C111_rejected, C111_succeeds, C111_weights, C113_averages, C113_decimal_step, C113_discretise, C113_monotone, C113_range, C113_same_errors, C113_sign, C113_sizes, C114_csw, C114_csw_mirror, C114_sadf, C114_sadf_origin_refuted, C115_above_one_refuted, C115_decimals_refuted, C115_executable, C115_history_refuted, C115_sums, C115_ticks, C115_vpin, C116_decimals_refuted, C116_executable, C116_flat, C116_ticks, C117_executable, C117_flat, C117_flat_refuted, C117_flat_ticks, C117_history_refuted, C117_spike_refuted, C118_average_flat, C118_defined, C118_flat, C118_flat_prices, C118_missing_prices_refuted, C118_not_negative, C118_one_return_refuted, C119_exact, C119_flat, C119_not_negative, C119_quiet_refuted, C119_residue_refuted, C119_spread_range, C120_crossover, C120_decimal_crossover, C120_kyle_residue, C120_means, C120_sums, C120_vpin, C121_average, C121_difference, C121_sign, C121_volatility, C122_doubles

## 5. Testing the theorems

`tools/mutate.py` rebuilds a scratch copy of the development with one definition of the model edited and reports which
lemmas and theorems no longer prove; `tools/automut.py` generates such edits at random. Every attempt is a line of
`seeded/LOG.jsonl`, with the theorems that failed and those that were tightened because they did not.
`Conformance.v` checks in the other direction that the model reproduces the project's own literal test cases.

