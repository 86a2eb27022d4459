{"id": "C01", "title": "Test folds partition the samples", "statement": "The group bounds used by CombPurgedKFoldCV cut 0..n_samples-1 into n_groups consecutive, non-empty, disjoint blocks that cover every sample and whose sizes differ by at most one; when there are fewer samples than groups the split fails instead of producing an empty fold.", "quantifier": "every n_samples and every n_groups >= 1", "why_tests_cant": "The cut points come from a division with remainder; a test fixes one (n_samples, n_groups) pair, the claim ranges over all pairs.", "anchors": ["mizarlabs/model/model_selection.py: CombPurgedKFoldCV._test_fold_bounds"]}
{"id": "C02", "title": "Every combination of test groups is used exactly once", "statement": "split() yields exactly C(n_groups, n_test_splits) splits, one for each n_test_splits-subset of the groups and no subset twice, and the first split tests on the last groups. get_n_splits() agrees with that number as long as the binomial coefficient is exactly representable in a double.", "quantifier": "every n_groups and n_test_splits accepted by the constructor", "why_tests_cant": "The number of subsets is combinatorial in two parameters; a test enumerates one small case.", "anchors": ["mizarlabs/model/model_selection.py: CombPurgedKFoldCV.__init__, _test_fold_bounds, split"]}
{"id": "C03", "title": "Each sample is tested equally often", "statement": "Over a full pass of split(), every sample is in the test set of exactly C(n_groups-1, n_test_splits-1) splits.", "quantifier": "every sample, every n_samples >= n_groups, every accepted n_groups and n_test_splits", "why_tests_cant": "It is a counting statement over all splits and all samples at once.", "anchors": ["mizarlabs/model/model_selection.py: CombPurgedKFoldCV.split, _compute_test_set"]}
{"id": "C04", "title": "Train and test sets are disjoint, sorted, duplicate-free and in range", "statement": "In every split the train and test index arrays are strictly increasing, have all indices in 0..n_samples-1 and have no index in common; the test array is exactly the union of the chosen groups.", "quantifier": "every data set with non-decreasing prediction times and evaluation times not before prediction times, every split", "why_tests_cant": "Purging concatenates two index arrays; whether that can duplicate or disorder indices depends on the timestamps, which range over all orderings.", "anchors": ["mizarlabs/model/model_selection.py: CombPurgedKFoldCV._compute_train_set, _compute_test_set, purge, embargo"]}
{"id": "C05", "title": "Purging: no training label reaches into a later test period", "statement": "If a training sample precedes a test sample, the training sample's evaluation time is strictly earlier than that test sample's prediction time.", "quantifier": "every split, every train/test pair, every non-decreasing list of prediction times and every list of evaluation times", "why_tests_cant": "Leakage is a property of all pairs of samples for every overlap pattern of label intervals.", "anchors": ["mizarlabs/model/model_selection.py: purge, CombPurgedKFoldCV._compute_train_set"]}
{"id": "C06", "title": "Embargo: no training sample starts inside an earlier test label plus the embargo", "statement": "If a training sample follows a test sample, its prediction time is strictly later than that test sample's evaluation time plus the embargo. (The documentation promises this for every split; the code drops the embargo of a block when no sample starts after it.)", "quantifier": "every split, every train/test pair, every embargo >= 0", "why_tests_cant": "Same as purging, for every combination of test blocks, label lengths and embargo lengths.", "anchors": ["mizarlabs/model/model_selection.py: embargo, CombPurgedKFoldCV._compute_train_set"]}
{"id": "C07", "title": "Training sets are no smaller than necessary", "statement": "A sample is left out of training only if it is a test sample, or it precedes a test block and its label reaches that block's start, or it follows a test block and starts no later than the latest evaluation time used for that block plus the embargo: the training set is exactly the rest.", "quantifier": "every sample and every split", "why_tests_cant": "Over-purging silently discards data; ruling it out needs the exact membership condition for every sample.", "anchors": ["mizarlabs/model/model_selection.py: purge, embargo, CombPurgedKFoldCV._compute_train_set"]}
{"id": "C08", "title": "A longer embargo never adds training data", "statement": "Increasing the embargo never makes a sample eligible for training that was not eligible before. (False of the code: beyond a certain length the embargo is switched off.)", "quantifier": "every data set, every split, every pair of embargo lengths", "why_tests_cant": "Monotonicity relates two runs over all parameter values.", "anchors": ["mizarlabs/model/model_selection.py: embargo"]}
{"id": "C09", "title": "Cross-validator constructor validation", "statement": "CombPurgedKFoldCV is constructible exactly when 1 <= n_test_splits <= n_groups-1, the embargo is non-negative and prediction and evaluation times are given; every other argument combination raises ValueError (or OverflowError when the number of splits does not fit a double).", "quantifier": "every integer n_groups, n_test_splits and every embargo", "why_tests_cant": "Validation must reject all of infinitely many bad arguments.", "anchors": ["mizarlabs/model/model_selection.py: BaseTimeSeriesCrossValidator.__init__, CombPurgedKFoldCV.__init__"]}
{"id": "C10", "title": "Number of backtest paths", "statement": "compute_back_test_paths(N, k) is C(N-1, k-1), the number of times each of N groups is tested, whenever that number is exactly representable in a double.", "quantifier": "every N and 1 <= k <= N", "why_tests_cant": "An identity between a running product and a binomial coefficient for all N and k.", "anchors": ["mizarlabs/model/model_selection.py: compute_back_test_paths"]}
{"id": "C11", "title": "Combinatorial backtest paths", "statement": "combinatorial_cross_validation_paths returns C(n_groups-1, n_test_splits-1) paths, each containing exactly one out-of-sample prediction for every sample, and no prediction is used in two paths. (The code passes the number of splits where the number of groups is needed: it succeeds only for n_test_splits = 1 or n_groups-1 and raises IndexError for all other accepted parameters.)", "quantifier": "every accepted n_groups and n_test_splits, every shuffle outcome, every data set", "why_tests_cant": "The assignment is random; the claim must hold for every shuffle outcome and every parameter pair.", "anchors": ["mizarlabs/model/model_selection.py: combinatorial_cross_validation_paths, compute_back_test_paths"]}
{"id": "C12", "title": "Log-uniform distribution function", "statement": "The cdf of LogUniformGen on [a,b] is 0 at a, 1 at b, strictly increasing in between, and assigns the same mass to [x, cx] wherever it lies in the range.", "quantifier": "every 0 < a < b and every x in [a,b]", "why_tests_cant": "A statement about a continuum of arguments.", "anchors": ["mizarlabs/model/model_selection.py: LogUniformGen._cdf"]}
{"id": "C13", "title": "Indicator matrix marks exactly the bars inside each label", "statement": "get_ind_matrix has one column per sample and one row per distinct time among sample starts, sample ends and the bars between the first start and the last end, in increasing order; the entry is 1 exactly when start <= row time <= end, and 0 otherwise.", "quantifier": "every list of (start, end) pairs and every list of bar times", "why_tests_cant": "It must hold for all overlap patterns, duplicates and bars outside the sampled period.", "anchors": ["mizarlabs/model/bootstrapping.py: get_ind_matrix"]}
{"id": "C14", "title": "Indicator matrix error cases", "statement": "get_ind_matrix raises ValueError exactly when a start or end is missing; otherwise, for non-empty input, it returns a matrix exactly when at least one entry is 1 and at least one is 0 and raises AssertionError otherwise. In particular a single labelled sample is always rejected.", "quantifier": "every list of samples with possibly missing times", "why_tests_cant": "The rejection depends on the global overlap structure, not on any one sample.", "anchors": ["mizarlabs/model/bootstrapping.py: get_ind_matrix"]}
{"id": "C15", "title": "Average uniqueness is the mean inverse concurrency and lies in (0,1]", "statement": "The average uniqueness of a sample is the mean over the rows it covers of 1/(number of samples covering the row); it is in (0,1], it is at least 1/(number of samples), and equals 1 exactly when no other sample shares a row with it.", "quantifier": "every 0/1 indicator matrix and every non-empty column", "why_tests_cant": "Bounds and the equality case over all overlap patterns.", "anchors": ["mizarlabs/model/bootstrapping.py: calc_average_uniqueness", "mizarlabs/transformers/sampling/average_uniqueness.py: AverageUniqueness.transform"]}
{"id": "C16", "title": "Incremental sequential-bootstrap update equals full recomputation", "statement": "Although only samples touching the last drawn rows are refreshed, the probability vector passed to every draw is the one obtained by recomputing, for every sample, the mean over its rows of 1/(1 + times the row is covered by all draws so far) and normalising.", "quantifier": "every 0/1 matrix, every sample length, every update interval, every outcome of the random draws", "why_tests_cant": "It is an invariant over every history of random draws.", "anchors": ["mizarlabs/model/bootstrapping.py: seq_bootstrap, _calc_update_avg_unique"]}
{"id": "C17", "title": "Draw probabilities form a distribution", "statement": "Every probability vector passed to the random generator has one strictly positive entry per sample and the entries sum to one.", "quantifier": "every non-empty 0/1 matrix, every history of draws", "why_tests_cant": "Invariant over all draw histories.", "anchors": ["mizarlabs/model/bootstrapping.py: seq_bootstrap"]}
{"id": "C18", "title": "Bootstrap sample size and range", "statement": "seq_bootstrap returns exactly sample_length indices (default: the number of samples), each a valid column, drawn in ceil(sample_length / update_probs_every) batches of at most update_probs_every.", "quantifier": "every sample length >= 0, every update interval >= 1, every draw outcome", "why_tests_cant": "The batch arithmetic must work for all pairs of lengths.", "anchors": ["mizarlabs/model/bootstrapping.py: seq_bootstrap"]}
{"id": "C19", "title": "Overlap with drawn samples lowers uniqueness", "statement": "Drawing more samples never increases any sample's uniqueness, and strictly lowers it for every sample that shares a row with the new draw.", "quantifier": "every matrix, every draw history, every additional draw", "why_tests_cant": "Monotonicity over all histories.", "anchors": ["mizarlabs/model/bootstrapping.py: _calc_update_avg_unique, seq_bootstrap"]}
{"id": "C20", "title": "Return-attribution sample weights", "statement": "The weight of a sample is the absolute value of the sum, over bars between its start and end (compared at millisecond resolution), of log return divided by concurrency, missing returns counting as zero; weights are never negative.", "quantifier": "every price series, every list of label end times", "why_tests_cant": "All price paths and overlap patterns.", "anchors": ["mizarlabs/transformers/sample_weights/__init__.py: SampleWeightsByReturns.transform, _calculate_weights"]}
{"id": "C21", "title": "Time-decay weights", "statement": "Weights are non-negative and piecewise linear in cumulative uniqueness, the newest sample has weight 1; for a decay parameter c in [0,1] weights never decrease with time and stay in [c,1] (all 1 for c=1), for c in (-1,0) the oldest share -c of cumulative uniqueness has weight 0. (For c <= -1, which the constructor accepts, these claims fail.)", "quantifier": "every positive uniqueness series, every decay parameter", "why_tests_cant": "Ranges over all uniqueness series and the continuum of decay parameters.", "anchors": ["mizarlabs/transformers/sample_weights/__init__.py: SampleWeightsByTimeDecay"]}
{"id": "C22", "title": "CUSUM filter selects exactly the threshold crossings", "statement": "A time is selected exactly when the price has risen by more than the threshold from its lowest level since the last upward selection (or start), or fallen by more than the threshold from its highest level since the last downward selection (or start).", "quantifier": "every price series without missing values and every threshold >= 0", "why_tests_cant": "The accumulators carry history of unbounded length.", "anchors": ["mizarlabs/transformers/sampling/down_sampling.py: CUSUMFilter.transform"]}
{"id": "C23", "title": "CUSUM accumulators stay within the threshold and never fire together", "statement": "After every step both accumulators are within the threshold of zero with the right sign, at most one side fires per step, and the first observation is never selected.", "quantifier": "every series including missing values, every threshold >= 0", "why_tests_cant": "Invariant over all histories.", "anchors": ["mizarlabs/transformers/sampling/down_sampling.py: CUSUMFilter.transform"]}
{"id": "C24", "title": "CUSUM filter has no look-ahead", "statement": "Selections among the first n observations do not depend on later observations, and selections are a strictly increasing subsequence of the index.", "quantifier": "every series and every extension of it", "why_tests_cant": "Relates runs on all possible continuations.", "anchors": ["mizarlabs/transformers/sampling/down_sampling.py: CUSUMFilter.transform"]}
{"id": "C25", "title": "Horizontal barrier: first touch", "statement": "For every event, the stop-loss (profit-taking) time is the earliest bar time at or after the event start and strictly before the expiration whose side-adjusted return is strictly below (above) the barrier, and 0 if there is none (or the factor is not positive).", "quantifier": "every price series, event, barrier width, side and factor", "why_tests_cant": "First-touch is a statement over all bars of all price paths.", "anchors": ["mizarlabs/transformers/targets/labeling.py: get_horizontal_barriers_hit, triple_barrier_labeling"]}
{"id": "C26", "title": "Parallel barrier scan is schedule independent", "statement": "The barrier arrays are the same whatever order the parallel loop iterations are executed in.", "quantifier": "every permutation of the loop iterations", "why_tests_cant": "Tests observe one schedule.", "anchors": ["mizarlabs/transformers/targets/labeling.py: get_horizontal_barriers_hit"]}
{"id": "C27", "title": "Event end time is the first of the three barriers", "statement": "The event end is the earliest of stop-loss touch, profit-taking touch and vertical barrier; it is missing only if the volatility is missing or there is neither a touch nor a vertical barrier; it is a bar time not before the event and not after the vertical barrier. Well-formed input gives one row per bar, except that meta-labelling fails with ValueError when no event ends.", "quantifier": "every series with increasing whole-millisecond timestamps after the epoch, every parameter choice", "why_tests_cant": "All price paths and parameters.", "anchors": ["mizarlabs/transformers/targets/labeling.py: TripleBarrierMethodLabeling._transform, triple_barrier_labeling"]}
{"id": "C28", "title": "Label semantics", "statement": "The label is the sign of the price return between event start and event end (1, -1 or 0). With meta-labelling the return is multiplied by the side and the label is 1 when it is positive, 0 when it is negative, and missing when it is zero or missing. With expiration_label set the label is 0 whenever no horizontal barrier was touched. Events without an end, or without volatility, get neither return nor label.", "quantifier": "every event, side and price series", "why_tests_cant": "All price paths.", "anchors": ["mizarlabs/transformers/targets/labeling.py: get_labels"]}
{"id": "C29", "title": "Labels do not depend on prices after the vertical barrier", "statement": "Changing or appending prices strictly after an event's vertical barrier does not change its end time, return or label (given the same volatility).", "quantifier": "every event and every pair of series agreeing up to the vertical barrier", "why_tests_cant": "Two-run property over all continuations.", "anchors": ["mizarlabs/transformers/targets/labeling.py: TripleBarrierMethodLabeling._transform"]}
{"id": "C30", "title": "Labelling parameter validation", "statement": "Both factors negative is rejected with ValueError; any side column name other than the default makes every transform fail; a single negative factor is accepted and means no barrier on that side.", "quantifier": "every factor pair and every column name", "why_tests_cant": "All parameter values.", "anchors": ["mizarlabs/transformers/targets/labeling.py: triple_barrier_labeling, TripleBarrierMethodLabeling._transform"]}
{"id": "C31", "title": "Daily volatility uses the last bar more than a day earlier", "statement": "For every bar that has one, the return entering the volatility is taken against the latest bar strictly earlier than one day before; the bars that have none are exactly a prefix and get no volatility; the volatility of a bar is the exponentially weighted, unbiased standard deviation of the returns so far (missing while there are fewer than two of them), and never negative.", "quantifier": "every increasing list of timestamps and every price list", "why_tests_cant": "Irregular spacing makes the reference bar depend on all gaps.", "anchors": ["mizarlabs/transformers/targets/labeling.py: get_daily_vol"]}
{"id": "C32", "title": "Trend scanning picks the window with the largest absolute t-value", "statement": "For step 1 the event end is the last bar of the window, among lengths min_sample_length..look_forward_window-1, whose trend t-value is largest in absolute value (earliest on ties); the label is the sign of that t-value, and events with fewer than look_forward_window remaining bars get no label.", "quantifier": "every price series, event and window configuration", "why_tests_cant": "All price paths and windows.", "anchors": ["mizarlabs/transformers/targets/trend_scanning.py: _trend_scan_each_index, _get_t_val_and_event_end_time_index_at_index"]}
{"id": "C33", "title": "Trend scanning is deterministic", "statement": "The result is a function of the inputs. (False for step > 1: skipped windows are read from uninitialised memory.)", "quantifier": "every memory content at allocation", "why_tests_cant": "A test sees whatever memory content happens to be there.", "anchors": ["mizarlabs/transformers/targets/trend_scanning.py: _get_t_val_and_event_end_time_index_at_index"]}
{"id": "C34", "title": "Trend scanner transforms are history independent", "statement": "Calling transform on one series does not change the result of a later transform on another. (False when t_events is not given: the first series' index is remembered.)", "quantifier": "every history of transform calls", "why_tests_cant": "A property of all call histories.", "anchors": ["mizarlabs/transformers/targets/trend_scanning.py: TrendScannerLabeling.transform"]}
{"id": "C35", "title": "Trend t-value is scale and shift invariant", "statement": "Adding a constant to all prices leaves the t-value unchanged, scaling by a positive constant leaves it unchanged, negating prices negates it.", "quantifier": "every window and every scaling and shift", "why_tests_cant": "Continuum of transformations.", "anchors": ["mizarlabs/transformers/targets/trend_scanning.py: _get_t_val_and_event_end_time_index_at_index", "mizarlabs/structural_breaks/sdfc.py: get_beta_and_beta_var"]}
{"id": "C36", "title": "Bet size lies in [0,1] and grows with confidence", "statement": "For predictions in {-1,0,1} and probabilities in [0,1] the signed bet is in [-1,1], has the sign of the prediction when the probability exceeds 1/num_classes, is zero at 1/num_classes, is increasing in the probability, and the returned size is its absolute value in [0,1].", "quantifier": "every prediction, probability and class count, for every increasing symmetric cdf", "why_tests_cant": "Continuum of probabilities.", "anchors": ["mizarlabs/transformers/trading/bet_sizing.py: BetSizingBase.transform, BetSizingFromProbabilities._transform"]}
{"id": "C37", "title": "Average active signal", "statement": "At every change point the averaged signal is the mean of the signals whose interval [start, end) contains it (an absent end meaning still open), 0 if there is none; it lies between the smallest and largest active signal.", "quantifier": "every list of signals with start and end times", "why_tests_cant": "All overlap patterns.", "anchors": ["mizarlabs/transformers/trading/bet_sizing.py: avg_active_signals, _get_avg_active_signals"]}
{"id": "C38", "title": "Discretised signal", "statement": "The discretised signal is within [-1,1], is monotone in the signal and odd; for a signal in [-1,1] it differs from it by at most half a step plus half the rounding unit 0.001 and is unchanged by repeating the discretisation; for a step of k thousandths it is the nearest multiple of the step, capped to [-1,1].", "quantifier": "every signal and every step in (0,1)", "why_tests_cant": "Continuum of signals and steps; half-way rounding cases.", "anchors": ["mizarlabs/transformers/trading/bet_sizing.py: discretise_signal"]}
{"id": "C39", "title": "Moving-average crossover side", "statement": "The side is always in {-1,0,1}; it is 0 before the first crossing and afterwards equals the direction of the most recent crossing, where an upward (downward) crossing is a move of the fast average from at-or-below (at-or-above) to above (below) the slow one; the two never coincide.", "quantifier": "every price series and pair of windows", "why_tests_cant": "History of unbounded length.", "anchors": ["mizarlabs/transformers/technical/moving_average.py: MovingAverageCrossOver.transform, MovingAverageCrossOverPredictor"]}
{"id": "C40", "title": "Features have no look-ahead", "statement": "The value of every bar-level feature at a row depends only on that row and earlier rows: appending future bars never changes past values.", "quantifier": "every bar history and every continuation, for each feature transformer", "why_tests_cant": "Two-run property over all continuations.", "anchors": ["mizarlabs/transformers/features/rolling_z_score.py", "mizarlabs/transformers/features/custom.py", "mizarlabs/transformers/microstructural_features/first_generation.py", "mizarlabs/transformers/microstructural_features/second_generation.py", "mizarlabs/transformers/microstructural_features/vpin.py", "mizarlabs/transformers/technical/moving_average.py", "mizarlabs/transformers/technical/macd.py", "mizarlabs/transformers/technical/rsi.py", "mizarlabs/transformers/technical/volume.py"]}
{"id": "C41", "title": "VPIN is a ratio in [0,1]", "statement": "When buy and sell volume are non-negative and add up to total volume, VPIN is in [0,1] wherever it is defined; it is undefined only in the first `window` rows and is 0 for later windows without volume.", "quantifier": "every volume history and window", "why_tests_cant": "All volume histories.", "anchors": ["mizarlabs/transformers/microstructural_features/vpin.py: VPIN"]}
{"id": "C42", "title": "Rolling z-score bounds and invariance", "statement": "The z-score of a full window is at most (w-1)/sqrt(w) in absolute value, is unchanged by shifting the series or scaling it by a positive constant, and is undefined for constant windows.", "quantifier": "every window and series", "why_tests_cant": "Continuum of values.", "anchors": ["mizarlabs/transformers/features/rolling_z_score.py"]}
{"id": "C43", "title": "Microstructural estimators are non-negative", "statement": "Roll spread and impact, Parkinson and Beckers-Parkinson volatility, Kyle, Amihud and Hasbrouck lambda are never negative, and the Corwin-Schultz spread is in [0,2).", "quantifier": "every bar history with positive prices and volumes", "why_tests_cant": "Continuum of values.", "anchors": ["mizarlabs/transformers/microstructural_features/first_generation.py", "mizarlabs/transformers/microstructural_features/second_generation.py"]}
{"id": "C44", "title": "Chu-Stinchcombe-White statistic is the supremum over start points", "statement": "Unless all observations so far are equal, each reported statistic is the largest standardised departure over all earlier reference points and the critical value belongs to the first reference point attaining it; the two-sided statistic is the maximum of the one-sided ones; one pair is reported for each observation from the second on. While all observations are equal the pair is (-inf, NaN).", "quantifier": "every log-price series", "why_tests_cant": "Supremum over growing windows.", "anchors": ["mizarlabs/structural_breaks/cusum_chu_stinchcome_white.py"]}
{"id": "C45", "title": "Ordinary least squares", "statement": "The coefficient vector makes the residuals orthogonal to every regressor and has the smallest sum of squared residuals of all coefficient vectors; the variance matrix is the residual variance times the inverse Gram matrix.", "quantifier": "every design matrix with invertible Gram matrix and every response", "why_tests_cant": "All matrices of all sizes.", "anchors": ["mizarlabs/structural_breaks/sdfc.py: get_beta_and_beta_var"]}
{"id": "C46", "title": "SADF is the supremum over window starts", "statement": "With more rows than regressors in every window, the SADF value at each reported time is the largest ADF statistic over all windows ending there with at least the minimum length; one value is produced for each row after the first min_length rows. Parameters that leave no residual degrees of freedom, or no lags in the standard models, produce no usable value although the constructor accepts them.", "quantifier": "every series, model and minimum length", "why_tests_cant": "Supremum over growing windows.", "anchors": ["mizarlabs/structural_breaks/sadf.py: _get_sadf_at_t, _sadf_outer_loop"]}
{"id": "C47", "title": "SADF size penalty follows the documented formula", "statement": "For the sub/super-martingale models each window's statistic is divided by (window length)^phi. (False: the code divides by (window start)^phi.)", "quantifier": "every series and phi", "why_tests_cant": "Must hold for all windows.", "anchors": ["mizarlabs/structural_breaks/sadf.py: _get_sadf_at_t"]}
{"id": "C48", "title": "Bagging result does not depend on the number of workers", "statement": "The fitted ensemble (estimators, features and order) is the same for every n_jobs and every completion order of the workers.", "quantifier": "every n_estimators, every n_jobs, every worker schedule", "why_tests_cant": "Tests observe one schedule and one partition.", "anchors": ["mizarlabs/model/sequentially_bootstrapped_bagging_classifier.py: SequentiallyBootstrappedBaseBagging._fit, _parallel_build_estimators"]}
{"id": "C49", "title": "Warm start extends the same ensemble", "statement": "With an integer random_state, fitting n1 estimators and warm-starting to n2 >= n1 gives the ensemble a single fit of n2 gives; asking for fewer raises ValueError.", "quantifier": "every n1, n2, seed", "why_tests_cant": "All pairs and all random streams.", "anchors": ["mizarlabs/model/sequentially_bootstrapped_bagging_classifier.py: SequentiallyBootstrappedBaseBagging._fit"]}
{"id": "C50", "title": "Sample weights equal draw counts times given weights", "statement": "Each base estimator is trained with weight (given weight) x (number of times the sample was drawn), the counts add up to max_samples, and the caller's weights are not modified.", "quantifier": "every weight vector and every draw", "why_tests_cant": "All draws.", "anchors": ["mizarlabs/model/sequentially_bootstrapped_bagging_classifier.py: _parallel_build_estimators"]}
{"id": "C51", "title": "Out-of-bag estimates only use estimators that did not see the sample", "statement": "The out-of-bag decision for a sample averages exactly the predictions of the estimators in whose bootstrap sample it does not occur.", "quantifier": "every ensemble and sample", "why_tests_cant": "All draws.", "anchors": ["mizarlabs/model/sequentially_bootstrapped_bagging_classifier.py: SequentiallyBootstrappedBaggingClassifier._set_oob_score"]}
{"id": "C52", "title": "Bagging parameter validation", "statement": "fit rejects max_samples outside 1..n_samples, max_features outside 1..n_features, out-of-bag scoring with warm start, and data whose index is not covered by the label index; everything else proceeds.", "quantifier": "every parameter value", "why_tests_cant": "All parameter values.", "anchors": ["mizarlabs/model/sequentially_bootstrapped_bagging_classifier.py: SequentiallyBootstrappedBaseBagging._fit"]}
{"id": "C53", "title": "Feature alignment windows partition the past and have no look-ahead", "statement": "Aligning a feature frame aggregates, for each alignment time, exactly the feature rows after the previous alignment time and up to it (forward-filling when there are none): every feature row up to the last alignment time is used exactly once, never before its own time.", "quantifier": "every feature index, alignment index and aggregation", "why_tests_cant": "All interleavings of two time grids.", "anchors": ["mizarlabs/model/pipeline.py: StrategySignalPipeline._align_on"]}
{"id": "C54", "title": "Datasets are aligned and complete", "statement": "create_dataset_primary and create_dataset_metalabeling return features and targets with the same index and no missing values, meta-labels being 1 exactly where the primary prediction equals the label.", "quantifier": "every feature dictionary and label series", "why_tests_cant": "All missing-value patterns.", "anchors": ["mizarlabs/model/pipeline.py: create_dataset_primary, create_dataset_metalabeling"]}
{"id": "C55", "title": "Position closing model is consulted", "statement": "determine_positions_to_close returns the decision of the configured closing model. (False: a misspelt attribute name makes it always return nothing.)", "quantifier": "every configured model", "why_tests_cant": "All models.", "anchors": ["mizarlabs/model/pipeline.py: StrategySignalPipeline.determine_positions_to_close"]}
{"id": "C56", "title": "Creating a position does not alter the caller's data", "statement": "create_position leaves the input bars unchanged so that repeating it gives the same result. (False: three columns are written into the caller's frame.)", "quantifier": "every history of calls", "why_tests_cant": "A property of call histories.", "anchors": ["mizarlabs/model/pipeline.py: StrategyTrader.create_strategy_bars, create_position"]}
{"id": "C57", "title": "Technical-indicator signature parsing", "statement": "Parsing a TA-Lib doc string of the form NAME(a, b[, k=?, l=?]) returns exactly the positional and the optional argument names, in order.", "quantifier": "every list of argument names", "why_tests_cant": "Round trip over all names.", "anchors": ["mizarlabs/transformers/technical/factory.py: TAFactory.get_args_kwargs"]}
{"id": "C58", "title": "Technical-indicator argument resolution", "statement": "create_transformer accepts exactly the argument lists of the right length and known names (after replacing real and applying the mapping) and exactly the keyword sets contained in the signature.", "quantifier": "every argument list, mapping and keyword set", "why_tests_cant": "All argument lists.", "anchors": ["mizarlabs/transformers/technical/factory.py: TAFactory._check_and_set_args, _check_and_set_kwargs, create_transformer"]}
{"id": "C59", "title": "Timestamp conversion", "statement": "Converting to milliseconds rounds down, preserves order (not strictly), and is injective exactly on times in different milliseconds.", "quantifier": "every timestamp", "why_tests_cant": "All integers.", "anchors": ["mizarlabs/transformers/utils.py: convert_to_timestamp"]}
{"id": "C60", "title": "One-hot class probabilities", "statement": "predict_proba of the rule-based predictors has exactly one 1 per row, in the column of the predicted class, and zeros elsewhere.", "quantifier": "every input series", "why_tests_cant": "All inputs.", "anchors": ["mizarlabs/transformers/technical/moving_average.py", "mizarlabs/transformers/technical/mean_reversion.py", "mizarlabs/transformers/technical/rsi.py"]}
{"id": "C61", "title": "AverageUniqueness transformer", "statement": "AverageUniqueness.transform returns one weight per input row, with the same index, equal to the mean over the distinct label boundary times at which the label is alive of 1/(number of labels alive), in (0,1]; it succeeds whenever the index is unique, labels do not end before they start and some label is not alive at some boundary.", "quantifier": "every frame of labels", "why_tests_cant": "the weight of a label depends on all other labels at once; tests fix a handful of frames", "anchors": ["mizarlabs/transformers/sampling/average_uniqueness.py:AverageUniqueness.transform", "mizarlabs/model/bootstrapping.py:get_ind_matrix", "mizarlabs/model/bootstrapping.py:calc_average_uniqueness"]}
{"id": "C62", "title": "Chow-type Dickey-Fuller statistic", "statement": "Each reported value is the t-value of the slope in the regression of the increments on the previous levels from the tested position on; there is one value per position that leaves the minimum number of samples on both sides, and the run fails only when the levels after a tested position are all zero.", "quantifier": "every series of at least three observations and every minimum sample count", "why_tests_cant": "Closed form over all series and break positions.", "anchors": ["mizarlabs/structural_breaks/sdfc.py: get_dfc_array", "mizarlabs/structural_breaks/sdfc.py: SupremumDickeyFullerChowStatTest.run"]}
{"id": "C63", "title": "Structural-break statistics use no later observation", "statement": "The statistic reported for a time depends only on the observations up to that time. (False for the Chow-type test, which regresses on the whole series.)", "quantifier": "every series, prefix length, model and parameters", "why_tests_cant": "Quantifies over all continuations of a series.", "anchors": ["mizarlabs/structural_breaks/cusum_chu_stinchcome_white.py", "mizarlabs/structural_breaks/sadf.py", "mizarlabs/structural_breaks/sdfc.py"]}
{"id": "C64", "title": "Window features have bounded memory", "statement": "The value of a window feature with window w is the same whether or not bars older than the last w+2 are supplied: computing it on a recent tail of the history gives the same values as on the full history, after the warm-up rows.", "quantifier": "every bar history, every number of dropped old bars and every window", "why_tests_cant": "Two-run property over all histories.", "anchors": ["mizarlabs/transformers/features/rolling_z_score.py", "mizarlabs/transformers/features/custom.py", "mizarlabs/transformers/microstructural_features/first_generation.py", "mizarlabs/transformers/microstructural_features/second_generation.py", "mizarlabs/transformers/microstructural_features/vpin.py", "mizarlabs/transformers/technical/moving_average.py"]}
{"id": "C65", "title": "Microstructural estimators compute their formula on the trailing window", "statement": "For positive prices and volumes every row after the warm-up has a value, given by the estimator's textbook formula on the trailing window, and every warm-up row has none.", "quantifier": "every bar history and window", "why_tests_cant": "Every row of histories of any length.", "anchors": ["mizarlabs/transformers/microstructural_features/first_generation.py", "mizarlabs/transformers/microstructural_features/second_generation.py"]}
{"id": "C66", "title": "Rule-based strategies signal exactly when their rule holds", "statement": "Mean reversion signals exactly when the price is further from its average than the threshold; RSI confirmation exactly when the RSI was below the threshold in each of the last bars and its average has just risen; bar-arrival RSI exactly when RSI and the difference of mean arrival times are within their bounds; the MACD histogram crossover is half the change of the histogram's sign.", "quantifier": "every bar history, every indicator series and all parameters", "why_tests_cant": "Every row of histories of any length.", "anchors": ["mizarlabs/transformers/technical/mean_reversion.py", "mizarlabs/transformers/technical/rsi.py", "mizarlabs/transformers/technical/macd.py"]}
{"id": "C67", "title": "The bootstrap uses the label spans of the rows given to fit", "statement": "When fit is given a subset or reordering of the labelled rows, every estimator's sample is drawn by the sequential bootstrap from an indicator matrix whose column i is the span of the label that starts at the i-th row of X.", "quantifier": "all label sets with distinct starts, all subsets and orders of rows passed to fit, all seeds and schedules", "why_tests_cant": "a wrong column selection still yields valid samples; only their distribution changes", "anchors": ["mizarlabs/model/sequentially_bootstrapped_bagging_classifier.py:SequentiallyBootstrappedBaseBagging._fit", "mizarlabs/model/bootstrapping.py:get_ind_matrix"]}
{"id": "C68", "title": "The out-of-bag score is the accuracy over samples that have an out-of-bag decision", "statement": "oob_score_ is the share of correctly classified samples among those that at least one estimator was not trained on.", "quantifier": "all data, seeds and ensemble sizes", "why_tests_cant": "depends on which samples no estimator left out, which is random", "anchors": ["mizarlabs/model/sequentially_bootstrapped_bagging_classifier.py:SequentiallyBootstrappedBaggingClassifier._set_oob_score"]}
{"id": "C70", "title": "Signals do not look ahead", "statement": "With feature transformers whose output up to a time depends only on their input up to this time, and models and bet sizer that treat rows separately, the rows of get_side_and_size up to a time T are the same for any two inputs that agree up to T: nothing after T changes a signal at or before T.", "quantifier": "all pipelines with such transformers, models and sizers (with and without meta-labeling), all pairs of inputs, all T", "why_tests_cant": "A look-ahead through alignment or forward-filling needs a particular arrangement of time stamps; tests compare one input with one stored output and never two inputs that differ in the future.", "anchors": ["mizarlabs/model/pipeline.py:StrategySignalPipeline._align_on", "mizarlabs/model/pipeline.py:StrategySignalPipeline.get_side_and_size"]}
{"id": "C71", "title": "get_side_and_size: times, sides and sizes", "statement": "get_side_and_size returns one row for exactly the times at which both the primary features (side) and the features of the deciding model (size) are complete: the side is the primary prediction for the row of that time, the size is the greatest class probability of the primary model, or with meta-labeling the probability of class 1 of the meta-labeling model, or what the bet sizer makes of the greatest probability, its class and the side.", "quantifier": "all feature dictionaries, models, bet sizers and configurations", "why_tests_cant": "Rows of the wrong time can be combined only when the two models see different sets of complete times; tests use frames with equal indices.", "anchors": ["mizarlabs/model/pipeline.py:StrategySignalPipeline.get_side_and_size", "mizarlabs/model/pipeline.py:StrategySignalPipeline.predict", "mizarlabs/model/pipeline.py:StrategySignalPipeline.predict_proba"]}
{"id": "C72", "title": "Positions and validity flag of the trader", "statement": "create_position returns for each time the signal beside the strategy bars: stop loss and profit taking are the volatility of the bar (or 1) times the configured factors, with the configured number of expiration bars; strategy_valid is true exactly if all sides are in [-1, 1] and all sizes in [0, 1]; inputs with repeated times are refused.", "quantifier": "all traders, inputs, volatilities and factors", "why_tests_cant": "A swapped factor or a boundary of the flag shows only for particular values; tests look at one input.", "anchors": ["mizarlabs/model/pipeline.py:StrategyTrader.create_position", "mizarlabs/model/pipeline.py:StrategyTrader.create_strategy_bars", "mizarlabs/model/pipeline.py:StrategyTrader._check_signal_has_valid_output"]}
{"id": "C73", "title": "Positions without stop loss or profit taking", "statement": "The factors for stop loss and profit taking are optional (default None): a trader without them creates positions without these levels. (False: creating strategy bars raises TypeError.)", "quantifier": "all traders without one of the two factors, all inputs", "why_tests_cant": "Tests construct the trader with both factors.", "anchors": ["mizarlabs/model/pipeline.py:StrategyTrader.__init__", "mizarlabs/model/pipeline.py:StrategyTrader.create_strategy_bars"]}
{"id": "C74", "title": "Sizes of a strategy sized from probabilities", "statement": "In a strategy whose bet sizer turns probabilities into sizes, the size given for a time is the size for the greatest class probability the deciding model (metalabeling model if there is one, else primary model) gives for the features at that time, and always lies in [0, 1]; so a primary model that predicts -1, 0 or 1 always yields a valid signal, and with probabilities that sum to one the confidence is never negative.", "quantifier": "all pipelines, models, inputs, times; any distribution function for the sizer", "why_tests_cant": "Ranges over all models and all probabilities.", "anchors": ["mizarlabs/model/pipeline.py:StrategySignalPipeline.get_side_and_size", "mizarlabs/model/pipeline.py:StrategyTrader._check_signal_has_valid_output", "mizarlabs/transformers/trading/bet_sizing.py:BetSizingFromProbabilities"]}
{"id": "C75", "title": "Averaging bet sizer in a strategy", "statement": "A bet sizer that averages active bets can be used as the bet sizer of a strategy pipeline. (False: the pipeline never hands over the expiration times, so every call raises.)", "quantifier": "all pipelines with an averaging bet sizer, all inputs", "why_tests_cant": "One passing example would be enough for a test to be silent; that no input works is a statement about all inputs.", "anchors": ["mizarlabs/model/pipeline.py:StrategySignalPipeline.get_side_and_size", "mizarlabs/transformers/trading/bet_sizing.py:BetSizingFromProbabilities"]}
{"id": "C69", "title": "Formulas of the simple features", "statement": "The local-maximum feature is the greatest high of the window over the close; the z-score transformers standardise exactly the series they are named after; the exponential moving-average difference and the buy-sell imbalance are the stated combinations of exponentially weighted averages with decay 1 - 2/(span+1); constructors accept exactly the documented volume types and fast <= slow.", "quantifier": "all frames with the needed columns, all windows and spans", "why_tests_cant": "The formulas must hold for every row of every frame.", "anchors": ["mizarlabs/transformers/features/custom.py:LocalMaxToCloseRatio", "mizarlabs/transformers/features/rolling_z_score.py:RollingZScoreTransformerFactory", "mizarlabs/transformers/technical/moving_average.py:ExponentialWeightedMovingAverageDifference", "mizarlabs/transformers/technical/volume.py:BuySellImbalance"]}
{"id": "C76", "title": "What a strategy pipeline predicts", "statement": "Predictions and probabilities are given for exactly the times at which all features of the primary model are complete, and are what the primary model says for these features; the metalabeling model's are what it says for its own complete features followed by the primary model's prediction and probabilities at the same time. Both calls cover the same times. An unfitted metalabeling model and outdated data are refused.", "quantifier": "all pipelines, models, transformers and data with unique times", "why_tests_cant": "Ranges over all models and all patterns of missing values.", "anchors": ["mizarlabs/model/pipeline.py:StrategySignalPipeline.predict", "mizarlabs/model/pipeline.py:StrategySignalPipeline.predict_proba", "mizarlabs/model/pipeline.py:StrategySignalPipeline._get_features_for_metalabeling"]}
{"id": "C77", "title": "Labels handed to purged cross-validation", "statement": "The complete rows produced by the triple-barrier labelling or the trend scanner, or any selection of them in time order, can be split by the purged cross-validator, and no training label shares a moment with a test label. (Holds for training labels before a test label; for those after one it needs a label that starts after the embargo of all test labels; when the last label is tested the embargo can have no effect at all.)", "quantifier": "every price series, labelling configuration, parallel schedule of the labelling, number of groups and tests, and embargo", "why_tests_cant": "Leakage between folds depends on the interplay of label ends and fold boundaries, for all data.", "anchors": ["mizarlabs/transformers/targets/labeling.py: TripleBarrierMethodLabeling.transform", "mizarlabs/transformers/targets/trend_scanning.py: TrendScannerLabeling.transform", "mizarlabs/model/model_selection.py: CombPurgedKFoldCV", "mizarlabs/tests/conftest.py"]}
{"id": "C78", "title": "Labels handed to uniqueness and sample weights", "statement": "Two or more complete labels are accepted by the indicator matrix, the average uniqueness (one value in (0, 1] per label, in the same order), the time-decay weights for every c <= 1 and the return weights, with any bars; one label is an AssertionError and none a ValueError.", "quantifier": "every labelling run, selection of labels, bars and prices", "why_tests_cant": "All labels that the labelling can produce.", "anchors": ["mizarlabs/model/bootstrapping.py: get_ind_matrix", "mizarlabs/transformers/sample_weights/__init__.py", "mizarlabs/transformers/targets/labeling.py"]}
{"id": "C79", "title": "Labels handed to the bagging classifier", "statement": "Fitting the sequentially bootstrapped classifier on the rows of two or more complete labels proceeds for all acceptable parameters, with any price bars; with out-of-bag scoring if each estimator leaves a sample out.", "quantifier": "every labelling run, parameter value, random stream, number of workers and schedule", "why_tests_cant": "All labels, random draws and schedules.", "anchors": ["mizarlabs/model/sequentially_bootstrapped_bagging_classifier.py: SequentiallyBootstrappedBaseBagging._fit", "mizarlabs/transformers/targets/labeling.py"]}
{"id": "C80", "title": "CUSUM events handed to the trend scanner", "statement": "Scanning the bars that the CUSUM filter selects never fails because of the events: the only failure is the division by zero of a window on a straight line. There is one row per event, in order, with the best window's end, t-value, sign and return.", "quantifier": "every threshold, price series and scanner configuration with step 1 and minimum length of at least 3", "why_tests_cant": "All series and thresholds.", "anchors": ["mizarlabs/transformers/sampling/down_sampling.py: CUSUMFilter", "mizarlabs/transformers/targets/trend_scanning.py"]}
{"id": "C81", "title": "Sample weights reach the last step of a pipeline", "statement": "Fitting a pipeline with sample weights makes the same calls to its steps as fitting without, except that the last step receives the weights as its sample_weight argument, in place of any given by keyword. No other step receives them, whatever the names of the steps.", "quantifier": "every list of steps, step behaviour, data, weights and further keyword arguments", "why_tests_cant": "All names, steps and arguments.", "anchors": ["mizarlabs/model/pipeline.py: MizarPipeline.fit"]}
{"id": "C82", "title": "A feature union keeps the rows of its frame", "statement": "Transforming with a feature union returns a frame with the index of the input, whose rows are the rows of the transformers' matrices side by side in the order of the transformers. Results that do not have one row per input row raise ValueError instead of being misaligned. A union of features without look-ahead has none.", "quantifier": "every list of transformers, weights and frame", "why_tests_cant": "All transformers, shapes and frames.", "anchors": ["mizarlabs/model/pipeline.py: MizarFeatureUnion.transform", "mizarlabs/transformers/utils.py: IdentityTransformer"]}
{"id": "C83", "title": "Fitting and transforming with a feature union at once", "statement": "fit_transform of a feature union with labels gives the same as fit with these labels followed by transform.", "quantifier": "every list of transformers, frame and labels", "why_tests_cant": "All transformers and labels.", "anchors": ["mizarlabs/model/pipeline.py: MizarFeatureUnion.fit_transform"]}
{"id": "C84", "title": "Probabilities of a cross-validated primary model", "statement": "Collecting the primary model's probabilities fold by fold leaves the given frame's rows and columns as they are and adds one column per class, in which each time has the probabilities from the model of its own fold, and NaN if it is in none. A model without probabilities is refused.", "quantifier": "every frame, number of classes, sequence of disjoint folds and models", "why_tests_cant": "All folds and models.", "anchors": ["mizarlabs/model/pipeline.py: StrategySignalPipeline._get_pred_proba_features"]}
{"id": "C85", "title": "Metalabels that cannot be learned", "statement": "Metalabels are refused exactly if there are any and all have the same value; the message says the primary model is always incorrect if that is 0 and always correct otherwise.", "quantifier": "every series of metalabels", "why_tests_cant": "All series.", "anchors": ["mizarlabs/model/pipeline.py: StrategySignalPipeline._check_y_metalabel"]}
{"id": "C86", "title": "Backtest paths hold each sample's out-of-sample prediction with its own labels", "statement": "For every signal pipeline that can be fitted and predicts for every row, every features frame and label frame, and every outcome of the shuffles, combinatorial_cross_validation_paths with one test group or all groups but one returns the promised number of paths, and each row of each path holds, for the sample of that time, the prediction and the largest probability given by the pipeline fitted on the training rows of a split that tests that sample, together with the labels of that time; with distinct times each path holds each sample exactly once and no prediction is used twice. (With repeated times each path has too many rows; other numbers of test groups raise an error.)", "quantifier": "all pipelines (stateful, with any fit and predict functions), feature and label frames, cross-validation parameters, shuffle outcomes", "why_tests_cant": "The shuffles are random, and the claim ranges over every model, every data set and every way of picking predictions.", "anchors": ["mizarlabs/model/model_selection.py:combinatorial_cross_validation_paths", "mizarlabs/model/model_selection.py:CombPurgedKFoldCV"]}
{"id": "C87", "title": "Parameters of the SADF test", "statement": "A SADF test can be constructed exactly with a number of lags below the minimum length (or, as documented, a list of lags) and a penalty exponent between 0 and 1; every other combination is rejected by the constructor, and an unknown model specification is rejected by every run.", "quantifier": "every number or list of lags, minimum length, exponent (NaN and infinities included), model name and series", "why_tests_cant": "the parameter space is infinite and the boundary values (lags = minimum length, exponent 0 and 1) decide whether runs have degrees of freedom at all", "anchors": ["mizarlabs/structural_breaks/sadf.py:SupremumAugmentedDickeyFullerStatTest.__init__", "mizarlabs/structural_breaks/sadf.py:SupremumAugmentedDickeyFullerStatTest.run", "mizarlabs/structural_breaks/sadf.py:_get_X_y"]}
{"id": "C88", "title": "Every feature transformer gets the data of its own name, and the models see exactly what it makes of them", "statement": "The features of a strategy are computed by applying each registered transformer to the input frame of the same name (a missing transformer passes the frame on unchanged), separately for the primary and the metalabeling model, in the order of registration. The input must contain exactly the registered names: a frame too many or too few raises AssertionError, and nothing else fails except a transformer itself. The result is then aligned with the primary features chosen for this, and if that name is not among the primary features a KeyError is raised. A data set built with drop_na=False contains all labels unchanged and one row per time at which any features are there, with missing values for the others.", "quantifier": "every pipeline, every dictionary of transformers and of input frames, every set of labels", "why_tests_cant": "tests use one or two transformers with fitting names; mixing up the transformers of the two models, or of two names with the same columns, only shows for particular dictionaries", "anchors": ["mizarlabs/model/pipeline.py:StrategySignalPipeline.transform", "mizarlabs/model/pipeline.py:StrategySignalPipeline._align_on", "mizarlabs/model/pipeline.py:StrategySignalPipeline.create_dataset_primary"]}
{"id": "C89", "title": "The unit of the prices does not matter", "statement": "Multiplying every price by the same positive number (quoting in cents instead of euros) changes no daily volatility, no triple-barrier label, end, return or label volatility, no return weight, no side of the moving-average crossover and of the mean-reversion strategy, and none of the ratio and log-return features (local maximum to close, high to low, Parkinson, Corwin-Schultz, Beckers-Parkinson, Amihud, Hasbrouck). CUSUM events are unchanged when the threshold is given in the same unit, and also when a constant is added to all prices. Features measured in prices (Roll measure and impact, Kyle lambda, plain moving-average difference) are multiplied by the same number. The normalised moving-average difference is the exception: it depends on the unit. The structural-break tests report the same statistics.", "quantifier": "all bars, columns, missing or infinite values, positive factors, configurations and window lengths, including the runs that end in an error", "why_tests_cant": "a test tries some factors on some series; a comparison with an absolute constant anywhere in the code shows only for particular magnitudes", "anchors": ["mizarlabs/transformers/targets/labeling.py:TripleBarrierMethodLabeling.transform", "mizarlabs/transformers/targets/labeling.py:get_daily_vol", "mizarlabs/transformers/sample_weights/__init__.py", "mizarlabs/transformers/sampling/down_sampling.py", "mizarlabs/transformers/technical/moving_average.py:MovingAverageCrossOver", "mizarlabs/transformers/microstructural_features/first_generation.py", "mizarlabs/transformers/microstructural_features/second_generation.py", "mizarlabs/structural_breaks"]}
{"id": "C90", "title": "Only the order of the times matters", "statement": "Reading all times from another clock that keeps their order (another epoch, another resolution, an irregular clock) changes no indicator matrix, average uniqueness, time-decay weight, CUSUM event or scanned trend, apart from the times it reports; nor any cross-validation split or backtest path, provided the embargo is measured by the same clock. Labels, daily volatilities and return weights, which use calendar days and milliseconds, move along unchanged when everything moves by a whole number of milliseconds.", "quantifier": "all samples, bars, missing times, thresholds, window configurations, row counts, embargoes and all order-preserving clocks (all shifts for the second part), including the runs that end in an error", "why_tests_cant": "a test uses one calendar; a dependence on absolute times shows only for particular dates or resolutions", "anchors": ["mizarlabs/model/bootstrapping.py:get_ind_matrix", "mizarlabs/transformers/sampling/average_uniqueness.py:AverageUniqueness", "mizarlabs/transformers/sample_weights/__init__.py:SampleWeightsByTimeDecay", "mizarlabs/model/model_selection.py:CombPurgedKFoldCV.split", "mizarlabs/transformers/sampling/down_sampling.py:CUSUMFilter.transform", "mizarlabs/transformers/targets/labeling.py:TripleBarrierMethodLabeling.transform", "mizarlabs/transformers/targets/trend_scanning.py:TrendScannerLabeling.transform"]}
{"id": "C91", "title": "Only overlapping labels matter for a label's uniqueness and weight", "statement": "The average uniqueness of a label is determined by the labels that share a moment with it: adding, removing or changing labels that do not overlap with it, and giving the rows in another order, leaves it as it is. Its weight by returns does not depend on rows whose label ended before it starts, as long as the row before it remains, nor on rows that start after it ends.", "quantifier": "all frames of labels, all labels in them, and all changes to the labels elsewhere", "why_tests_cant": "The labels that are changed are arbitrary in number, place and length", "anchors": ["mizarlabs/transformers/sampling/average_uniqueness.py:AverageUniqueness.transform", "mizarlabs/transformers/sample_weights/__init__.py:SampleWeightsByReturns.transform", "mizarlabs/model/bootstrapping.py:get_ind_matrix"]}
{"id": "C92", "title": "The order of the labelled rows does not matter for uniqueness and time decay", "statement": "Rows given in another order are accepted or refused alike, every label gets the same average uniqueness, and the time-decay weights are the same series. (Weights by returns are another matter: returns are taken from one row to the next, so there the rows have to be in the order of time.)", "quantifier": "all frames of labels and all permutations of their rows, all decay parameters above -1", "why_tests_cant": "There are n! orders of n rows", "anchors": ["mizarlabs/transformers/sampling/average_uniqueness.py:AverageUniqueness.transform", "mizarlabs/transformers/sample_weights/__init__.py:SampleWeightsByTimeDecay.transform", "mizarlabs/transformers/sample_weights/__init__.py:SampleWeightsByReturns.transform"]}
{"id": "C93", "title": "Rises and falls are treated alike", "statement": "Turning the world upside down changes nothing but signs. The CUSUM filter picks the same events from a series and from the mirrored series. Bets on the opposite sides, with profit taking and stop loss exchanged, end at the same times with opposite returns, and gain where the others lose. Trends found in mirrored prices have the same ends and opposite t-values and labels. Moving averages of mirrored prices cross in the opposite directions. The one-sided Chu-Stinchcombe-White tests change places, and the two-sided one, the Chow-type test and the SADF test (for models without logarithms) report the same statistics.", "quantifier": "all series, thresholds that are not negative, configurations, sides and prices, infinite and missing values included where the code accepts them", "why_tests_cant": "A symmetry relates two runs on every pair of mirrored inputs; a sign mistake in one branch shows only on inputs that reach it with the right sign", "anchors": ["mizarlabs/transformers/sampling/down_sampling.py:CUSUMFilter", "mizarlabs/transformers/targets/labeling.py:TripleBarrierMethodLabeling", "mizarlabs/transformers/targets/trend_scanning.py", "mizarlabs/transformers/technical/moving_average.py:MovingAverageCrossOver", "mizarlabs/structural_breaks"]}
{"id": "C94", "title": "An estimator reports the parameters it was built with and can be cloned", "statement": "get_params of a newly built estimator returns exactly the arguments of the constructor (given or default); clone succeeds and gives an estimator of the same class with copies of these parameters; set_params changes exactly the named parameters and rejects unknown names with ValueError. Grid search and cross-validation rely on it.", "quantifier": "every estimator class of the library, every call of its constructor that succeeds, every set of changes", "why_tests_cant": "A test builds a few estimators with a few arguments; a constructor may lose or rename one argument of one class.", "anchors": ["mizarlabs/transformers/**/*.py:__init__", "mizarlabs/model/sequentially_bootstrapped_bagging_classifier.py:SequentiallyBootstrappedBaggingClassifier.__init__"]}
{"id": "C95", "title": "Changing parameters is as good as building the estimator anew", "statement": "After set_params an estimator behaves like one newly built with the resulting parameters, whatever calls of fit and set_params came before; settings that the constructor rejects are rejected.", "quantifier": "every class, every history of calls of set_params and fit", "why_tests_cant": "State cached by the constructor or by an earlier fit shows only in particular histories.", "anchors": ["mizarlabs/model/sequentially_bootstrapped_bagging_classifier.py:__init__", "mizarlabs/model/sequentially_bootstrapped_bagging_classifier.py:ind_mat", "mizarlabs/model/sequentially_bootstrapped_bagging_classifier.py:_fit", "mizarlabs/transformers/technical/volume.py:BuySellImbalance.__init__", "mizarlabs/transformers/targets/trend_scanning.py:TrendScannerLabeling.__init__"]}
{"id": "C96", "title": "Every argument of a constructor reaches the computation it names", "statement": "What a transformer or strategy reads when it computes is the value passed for the argument of that name (or its default), and the indicators it builds get their settings from the arguments of the corresponding names.", "quantifier": "every class that stores arguments under other names, all arguments", "why_tests_cant": "A swap of two arguments shows only if a test gives them different values and looks at the right output.", "anchors": ["mizarlabs/transformers/trading/bet_sizing.py:BetSizingFromProbabilities.__init__", "mizarlabs/transformers/technical/macd.py:MACDHistogramCrossOver.__init__", "mizarlabs/transformers/technical/rsi.py:BarArrivalRSIStrategy.__init__", "mizarlabs/transformers/targets/labeling.py:TripleBarrierMethodLabeling.__init__"]}
{"id": "C97", "title": "The constructors reject exactly the settings they cannot work with", "statement": "A fast period above the slow one, an unknown volume type, a minimum sample length not below the look-forward window, metalabeling without a side column and a discretisation step outside (0, 1) are rejected with the documented exception; all other settings are accepted.", "quantifier": "all numbers and names, at and around every boundary", "why_tests_cant": "The boundary cases (equal periods, step 0 or 1) are single points among all numbers.", "anchors": ["mizarlabs/transformers/technical/moving_average.py:__init__", "mizarlabs/transformers/technical/macd.py:__init__", "mizarlabs/transformers/technical/volume.py:__init__", "mizarlabs/transformers/targets/trend_scanning.py:__init__", "mizarlabs/transformers/targets/labeling.py:__init__", "mizarlabs/transformers/trading/bet_sizing.py:__init__"]}
{"id": "C98", "title": "Each component reads exactly the columns it is configured with", "statement": "A feature transformer, a technical rule or a transformer made by the TA-Lib factory succeeds on every frame that has the columns it is configured with, whatever these contain; it raises a definite exception (KeyError, AssertionError or ValueError) when one of them is missing; and no other column, nor the order of the columns, has any influence on its output. The same holds for the triple-barrier labelling: only the times, the closing prices and, when metalabeling is on, the sides matter.", "quantifier": "every window and column name, every frame with any number of further columns and any values including missing ones and infinities, every TA-Lib function", "why_tests_cant": "Tests use one frame whose columns are all named as expected; independence from all other columns ranges over all pairs of frames.", "anchors": ["mizarlabs/transformers/utils.py:check_missing_columns", "mizarlabs/transformers/microstructural_features", "mizarlabs/transformers/technical", "mizarlabs/transformers/trading", "mizarlabs/transformers/targets/labeling.py:TripleBarrierMethodLabeling.transform"]}
{"id": "C99", "title": "Unusable inputs are rejected with a definite exception", "statement": "The average-uniqueness and time-decay weights reject labels without an end or with a repeated start (AssertionError), an empty frame (ValueError), and labels none of which covers or all of which cover every boundary (AssertionError), and accept all others. The bet sizer rejects a frame without probabilities or predictions, with metalabeling one without sides or with a side other than 1, -1 and 0, and when averaging one without end times. A discretisation step outside (0, 1), a negative price for the models of log prices, and an undocumented TA-Lib function are rejected too. None of these yields a result silently.", "quantifier": "every frame, label set, configuration, series of prices and TA-Lib dictionary", "why_tests_cant": "Tests raise each exception for one input; that no unusable input slips through, and that no usable one is rejected, ranges over all inputs.", "anchors": ["mizarlabs/transformers/sampling/average_uniqueness.py", "mizarlabs/transformers/trading/bet_sizing.py", "mizarlabs/structural_breaks/sadf.py", "mizarlabs/transformers/technical/factory.py"]}
{"id": "C100", "title": "A market that moves in one direction is recognised as such", "statement": "If prices do not fall over the bars scanned from an event, trend scanning labels it 1 with a positive t-value and a return that is not negative (mirrored for falling prices). If no later price is below the event's price, the barrier label without metalabeling is 1 or 0, never -1, the return is not negative and the stop loss is not touched. The difference of a fast and a slow exponential average has the sign of the movement. The moving-average crossover never takes the side against the movement; it takes no side at all while prices rise (fall) at every bar from the start, and takes the long side after a flat stretch followed by a rise. The CUSUM filter selects exactly the bar at which a price changes level by more than the threshold.", "quantifier": "all price series that move in one direction (or stay on one side of the event's price), all window lengths, spans, thresholds, barrier factors and events", "why_tests_cant": "tests use a few synthetic series; the claim covers every monotone series, including flat stretches, and every window and barrier width", "anchors": ["mizarlabs/transformers/targets/trend_scanning.py:TrendScannerLabeling", "mizarlabs/transformers/targets/labeling.py:TripleBarrierMethodLabeling", "mizarlabs/transformers/technical/moving_average.py:ExponentialWeightedMovingAverageDifference", "mizarlabs/transformers/technical/moving_average.py:MovingAverageCrossOver", "mizarlabs/transformers/sampling/down_sampling.py:CUSUMFilter"]}
{"id": "C101", "title": "Stricter settings never give more, nor earlier", "statement": "A higher CUSUM threshold never gives more events and its k-th event is never earlier. A lower minimum weight of the time decay never raises a weight, and lowers every positive one but the newest. Wider barriers and a longer horizon never make a sample end earlier. A higher mean-reversion threshold, a lower RSI threshold or longer confirmation period, and narrower RSI or arrival bands only silence signals, never add or change one. Trend scanning over more windows never lowers the size of an event's t-value. A shorter minimum length of the SADF test reports the same times and more, with no value lower, and a larger exponent of the martingale models never raises a value.", "quantifier": "all inputs, all pairs of settings of which one is stricter", "why_tests_cant": "a test compares a handful of parameter values on one series; the claim is about every pair of settings and every input", "anchors": ["mizarlabs/transformers/sampling/down_sampling.py:CUSUMFilter", "mizarlabs/transformers/targets/labeling.py:TripleBarrierMethodLabeling", "mizarlabs/transformers/targets/trend_scanning.py:TrendScannerLabeling", "mizarlabs/transformers/technical/mean_reversion.py:MeanReversionStrategy", "mizarlabs/transformers/technical/rsi.py:BarArrivalRSIStrategy", "mizarlabs/transformers/technical/rsi.py:RSIConfirmation", "mizarlabs/transformers/sample_weights/__init__.py:SampleWeightsByTimeDecay", "mizarlabs/structural_breaks/sadf.py:SupremumAugmentedDickeyFullerStatTest.run"]}
{"id": "C102", "title": "The sequential bootstrap favours unique samples", "statement": "In every round of the sequential bootstrap, samples are ordered by probability as by their uniqueness given the draws so far, and the expected uniqueness of the next draw is at least the one of a draw at random (more, unless all samples are equally unique). A sample that overlaps with none of the draws is a most likely one; samples that overlap with a draw are less likely, and samples already drawn at most half as likely. Samples that cover the same bars are equally likely.", "quantifier": "for all indicator matrices with at least one sample, all sample lengths, all update frequencies, all generators and all rounds", "why_tests_cant": "the claim compares expectations in every round of every history of draws; tests look at averages of a few simulated runs", "anchors": ["mizarlabs/model/bootstrapping.py: seq_bootstrap, _calc_update_avg_unique"]}
{"id": "C103", "title": "An argument left out of a constructor has its documented default", "statement": "For every transformer, labeller, weighting, strategy and classifier of the library, leaving an optional argument out of the constructor's call is the same as giving the documented default value; leaving a required one out is a TypeError; the order of keyword arguments does not matter; samples are always drawn with replacement and the strategies without training count as fitted.", "quantifier": "all classes with a constructor, all calls with keyword arguments, all optional and required parameters", "why_tests_cant": "A test builds a class with a few combinations of arguments; the property ranges over every subset of the arguments and all their values.", "anchors": ["mizarlabs/model/sequentially_bootstrapped_bagging_classifier.py:__init__", "mizarlabs/transformers/targets/labeling.py:TripleBarrierMethodLabeling.__init__", "mizarlabs/transformers/trading/bet_sizing.py:BetSizingFromProbabilities.__init__", "mizarlabs/transformers/microstructural_features", "mizarlabs/transformers/technical/macd.py"]}
{"id": "C104", "title": "Bet sizing reports what is wrong with its input", "statement": "The bet sizer raises AssertionError for a frame without the probability or the prediction column; ZeroDivisionError for zero classes; for metalabelling KeyError without the side column and AssertionError if a side is missing or not -1, 0 or 1; for averaging KeyError without the column of end times or if the size column is not called bet_size. In none of these cases does it return sizes.", "quantifier": "all settings of the transformer, all frames, all distribution functions", "why_tests_cant": "Tests try a few malformed frames; the property covers every frame with the defect, whatever else it contains.", "anchors": ["mizarlabs/transformers/trading/bet_sizing.py:BetSizingFromProbabilities._transform"]}
{"id": "C105", "title": "Moving statistics equal the statistics of their window", "statement": "The rolling sums, means, standard deviations, maxima, minima and covariances, which are updated as one value enters the window and one leaves it, equal at every row the statistic of the last w values, and are missing unless all of these are present; the exponentially weighted mean and standard deviation, which are updated value by value, equal the weighted mean and unbiased weighted deviation of all values so far, missing and infinite values included.", "quantifier": "all series, with missing and infinite values anywhere, all window lengths, all spans of at least 1", "why_tests_cant": "An incremental update can drift from its definition only after particular patterns of values entering and leaving (ties and missing values in the queue of candidates for a maximum, the last value leaving); tests compare a few series.", "anchors": ["mizarlabs/transformers/features/custom.py", "mizarlabs/transformers/features/rolling_z_score.py", "mizarlabs/transformers/microstructural_features/first_generation.py", "mizarlabs/transformers/technical/moving_average.py", "mizarlabs/transformers/targets/labeling.py:get_daily_vol"]}
{"id": "C106", "title": "Rounding to double precision does not change labels or events", "statement": "In IEEE double arithmetic, for any positive prices: the label of an event has exactly the sign of the price move between its start and its end; an event ends strictly after it starts; the computed return never ranks two end prices the wrong way round and is within three roundings of the exact one; the CUSUM accumulators stay within the threshold and at most one side fires; and when prices and threshold are whole numbers of a power-of-two tick (up to 2^51 of them) the CUSUM filter selects exactly the crossings that exact arithmetic selects.", "quantifier": "all frames, prices that are positive doubles, thresholds, factors, volatilities and schedules", "why_tests_cant": "Rounding depends on every bit of every price; a test sees a handful of the 2^64 values.", "anchors": ["mizarlabs/transformers/targets/labeling.py:TripleBarrierMethodLabeling", "mizarlabs/transformers/sampling/down_sampling.py:CUSUMFilter"]}
{"id": "C107", "title": "The sequential bootstrap survives rounding", "statement": "Computed in floating point (counts in single precision, the rest in double precision), the average uniqueness of every sample stays in (0, 1] and close to the exact mean; further draws never raise the uniqueness computed for a sample; the bootstrap never fails because its probabilities do not add up to one, returns as many samples as asked for, and in every round uses probabilities within a fixed relative error of those recomputed exactly from all draws so far, each uniform number selecting the sample in whose stretch of the cumulative distribution it falls.", "quantifier": "every indicator matrix (up to 2^26 bars and 2^22 samples), every requested length up to 2^38, every update frequency up to 2^62, every order in which np.sum adds, every stream of uniform numbers in [0, 1)", "why_tests_cant": "Rounding errors of thousands of incremental updates could accumulate for some overlap pattern and history of draws; numpy raises only if the sum is off by more than 2^-26. No finite set of matrices and seeds covers them.", "anchors": ["mizarlabs/model/bootstrapping.py:calc_average_uniqueness", "mizarlabs/model/bootstrapping.py:_calc_update_avg_unique", "mizarlabs/model/bootstrapping.py:seq_bootstrap"]}
{"id": "C108", "title": "Sizes given as fractions", "statement": "A fraction given as max_samples or max_features stands for that fraction of the rows or features, rounded down; 1.0 stands for all of them, a larger fraction never for fewer, and a fraction of the features is accepted exactly if it is above 0 and at most 1. (Rounding makes the first part fail by one: 0.29 of 100 rows are 28, and 1/49 of 49 rows is rejected.)", "quantifier": "every fraction (every double, and every rational number that is written as the nearest double), every number of rows and features below 2^50, every base estimator, seed and schedule", "why_tests_cant": "Whether the product of a double and an integer rounds across an integer depends on the last bits; the failing pairs are scattered among all fractions and sizes.", "anchors": ["mizarlabs/model/sequentially_bootstrapped_bagging_classifier.py:SequentiallyBootstrappedBaseBagging._fit", "mizarlabs/model/model_selection.py:CombPurgedKFoldCV.__init__"]}
{"id": "C109", "title": "CUSUM events on decimal prices", "statement": "On decimal prices, which doubles hold only approximately, the CUSUM filter selects the events of the exact prices whenever no price move comes closer to the threshold than the accumulated rounding error (length x (largest price + threshold) / 2^50); in particular always when prices are quoted in ticks and the threshold lies half way between two ticks. (Without that margin the events differ: with the prices 1.0, 1.1, 1.2, 1.3, 1.4 and the threshold 0.1 the filter selects the 2nd and 4th price instead of the 3rd and 5th.)", "quantifier": "every list of finite prices and threshold (rational numbers, held by any nearest doubles), every length, every tick", "why_tests_cant": "The rounding error accumulates over the whole history and matters only where a move is within a few units in the last place of the threshold; a unit test sees a handful of prices.", "anchors": ["mizarlabs/transformers/sampling/down_sampling.py:CUSUMFilter"]}
{"id": "C110", "title": "What a strategy needs to produce signals", "statement": "If no input ends before the leading input starts, all features have distinct times and complete rows at some time, and the models answer every complete matrix of their width, then predict, predict_proba, get_side_and_size and (with the factors set and the volatility computable) create_position succeed. Otherwise the error is definite: AttributeError without primary model, the model's own exception, ValueError for predictions of the wrong shape, for no features and for a time at which the metalabeling model wants a prediction that does not exist, KeyError if the metalabeling model does not know class 1 and there is no bet sizer, KeyError for a labelled time without features or an unknown alignment method, IndexError for aligning an empty frame. A data set for the primary model is made exactly if every labelled time is in every frame of features, some time is usable and the features at usable times are finite.", "quantifier": "all pipelines, transformers, models, bet sizers, inputs and labels", "why_tests_cant": "The other properties say what the result is if there is one; that there is one for every input of the right shape, and which error there is for every other, quantifies over all models, frames and gaps.", "anchors": ["mizarlabs/model/pipeline.py:StrategySignalPipeline", "mizarlabs/model/pipeline.py:StrategyTrader"]}
{"id": "C111", "title": "Time-decay weights survive rounding", "statement": "SampleWeightsByTimeDecay.transform, computed in double precision for up to 2^25 labels and any double parameter c with -1 < c <= 1 (1 + c at least 2^-52): weights are sorted by time, lie in [0, 1], never decrease with time, the newest label weighs exactly 1, every weight is positive if c >= 0 and exactly 1 if c = 1. They differ from the exact weights by at most 2^-23 (divided by 1 + c for negative c). The call fails exactly when it would in exact arithmetic, with the same error.", "quantifier": "all tables of up to 2^25 labels, all doubles c", "why_tests_cant": "Rounding could push a weight above 1 or below 0, break the order or move the newest weight off 1 for some table; no set of examples excludes it.", "anchors": ["mizarlabs/transformers/sample_weights/__init__.py:SampleWeightsByTimeDecay", "mizarlabs/transformers/sampling/average_uniqueness.py:AverageUniqueness"]}
{"id": "C112", "title": "Trend scanning with other steps and minimum lengths", "statement": "With any step of at least 1 and a minimum of at least three bars, the row of an event reports the t-value and the end of one of the lengths that are tried (the minimum, then every step-th one), the best of them. Settings that cannot work are reported by an exception or a missing label. What holds: the reported value is that of a tried length or the content of uninitialised memory; with zeros in memory it is the best tried length. A minimum of two bars never yields a label, a minimum of one bar raises LinAlgError and a step of zero raises ValueError as soon as one event is followed by enough bars, although the constructor accepts all three.", "quantifier": "every price series, set of events, window, minimum length and step, and every content of uninitialised memory", "why_tests_cant": "The tests use one setting with step 1; the behaviour depends on memory contents and on every combination of window, minimum and step", "anchors": ["mizarlabs/transformers/targets/trend_scanning.py:TrendScannerLabeling.transform", "mizarlabs/transformers/targets/trend_scanning.py:_get_t_val_and_event_end_time_index_at_index"]}
{"id": "C113", "title": "Bet sizes survive rounding", "statement": "Computed in double precision, BetSizingFromProbabilities never fails its own range checks on valid input: for probabilities in [0, 1], predictions and sides in {-1, 0, 1}, at least two classes and any combination of metalabelling, averaging and discretisation, every returned size is a double in [0, 1]. A probability above 1/n never turns a bet against the prediction; from one half on a larger probability never gets a smaller bet. Averages are within (k + 4)/2^54 of the exact mean of k active bets. Discretised bets are monotone, symmetric and within half a step (plus half a thousandth) of the bet; with a decimal step of j thousandths they are exactly the doubles nearest to multiples of j/1000, and discretising them again changes nothing.", "quantifier": "all doubles in [0, 1] as probabilities, all numbers of classes from 2 to 2^53, all frames of up to 2^53 rows, all steps in (0, 1), all monotone double-valued distribution functions with value 1/2 at 0", "why_tests_cant": "the rounding error of every operation depends on all the bits of the input; tests sample a few probabilities and steps", "anchors": ["mizarlabs/transformers/trading/bet_sizing.py:BetSizingFromProbabilities", "mizarlabs/transformers/trading/bet_sizing.py:avg_active_signals", "mizarlabs/transformers/trading/bet_sizing.py:discretise_signal"]}
{"id": "C114", "title": "Structural-break statistics do not depend on the unit of the observations", "statement": "Multiplying all observations by a positive number and adding a constant leaves the whole output of the Chu-Stinchcombe-White test unchanged; multiplying by a negative number exchanges its two one-sided tests. The Chow-type Dickey-Fuller test ignores the unit. The SADF test ignores the unit for the standard models, the origin too if they have a constant, both for the polynomial model of the price, and the (positive) unit for the models of the logarithm of the price. Violated for the origin where the regression has no constant: the Chow-type test on the logarithms of the same prices in two units gives a finite and an infinite value, and the SADF test without constant can fail on one and succeed on the other.", "quantifier": "all series, units and origins, sides, models, numbers of lags, minimum lengths, penalties and sound inverses", "why_tests_cant": "the statistics are suprema over windows of quotients of least-squares estimates; equality for all scale factors needs an algebraic change of regressors, examples only show particular numbers", "anchors": ["mizarlabs/structural_breaks/cusum_chu_stinchcome_white.py:ChuStinchcombeWhiteStatTest", "mizarlabs/structural_breaks/sdfc.py:SupremumDickeyFullerChowStatTest", "mizarlabs/structural_breaks/sadf.py:SupremumAugmentedDickeyFullerStatTest"]}
{"id": "C115", "title": "VPIN in double precision", "statement": "The VPIN transformer computes its two rolling sums with running, compensated updates in float64. In exact arithmetic these give the VPIN of C41, and whatever the arithmetic the transformer returns a feature without missing values after the first rows. If bought and sold volumes are multiples of one power of two and no window holds 2^53 of them, the feature is the exact VPIN rounded once, and lies in [0, 1]. For decimal volumes this fails: after bars without trades the feature can be infinite, negative or above 1, and it then depends on bars that have left the window.", "quantifier": "All windows, frames, missing bars, volumes on a grid of a power of two; counterexamples for decimal volumes", "why_tests_cant": "The residue of a rolling sum depends on every volume ever added and removed; a test sees a few sequences and usually none where the window runs empty after unlucky decimals.", "anchors": ["mizarlabs/transformers/microstructural_features/vpin.py:VPIN.transform"]}
{"id": "C116", "title": "Moving-average crossover in double precision", "statement": "The crossover compares two moving averages that are computed with running, compensated sums in float64. In exact arithmetic these give the crossover of C39. If prices are multiples of one power of two and the windows are not too long for 52 bits, the sides in doubles are exactly those of exact arithmetic, for every series; in a flat market no side is taken. For decimal prices this fails: in a market whose price never moves the averages differ in their last bits, and the transformer reports buy and sell crossings.", "quantifier": "All windows, frames, missing bars and index labels; prices on a grid of a power of two; a counterexample for a decimal price", "why_tests_cant": "The last bits of a moving average depend on every price ever added and removed; a test compares a few crossings that are clear.", "anchors": ["mizarlabs/transformers/technical/moving_average.py:MovingAverageCrossOver.transform", "mizarlabs/transformers/technical/moving_average.py:MovingAverageCrossOverPredictor.predict"]}
{"id": "C117", "title": "Rolling z-score in double precision", "statement": "The rolling z-score that pandas computes with running, compensated means and variances in double precision is the one of exact arithmetic: it depends on the values in the window only, has no value in a flat window and stays within (w-1)/sqrt(w). In exact arithmetic this holds. In doubles a flat series of any value gives no number, and only missing values if the value is a not too large number of ticks of a power of two; but a flat decimal series gives minus infinity, a flat window after other values gives 0, and a large value that has left the window makes the z-score infinite.", "quantifier": "every window, every series of doubles with missing values; witnesses for the refuted parts", "why_tests_cant": "The rounding errors depend on every value ever in the window; tests compare a few rows with a tolerance and never meet a flat series or a spike.", "anchors": ["mizarlabs/transformers/features/rolling_z_score.py:RollingZScoreTransformer.calc_z_score"]}
{"id": "C118", "title": "Daily volatility and exponential averages in double precision", "statement": "Computed with pandas' running updates in double precision, the daily volatility is never negative or infinite, has a value in every row but the first when no return is missing, and is exactly 0 in a flat market at any price; the difference of exponential averages of a flat series is exactly 0. A bar with fewer than two returns has no volatility: this fails in doubles, where a single return followed by eight missing ones has volatility 0.", "quantifier": "every span of at least 1 (2 for the rows with a value), every series of doubles with missing and infinite values, every price", "why_tests_cant": "Rounding errors accumulate over the whole history, and the missing rows that trigger the false 0 do not occur in test data.", "anchors": ["mizarlabs/transformers/targets/labeling.py:get_daily_vol", "mizarlabs/transformers/technical/moving_average.py:ExponentialWeightedMovingAverageDifference.transform"]}
{"id": "C119", "title": "Microstructural features in double precision", "statement": "Computed in float64 with the running means, sums and covariances of pandas, the Roll measure, the Parkinson and Beckers-Parkinson volatilities and the Kyle, Amihud and Hasbrouck lambdas are never negative, the Corwin-Schultz spread lies between 0 and 2, and in a market that does not move every feature is 0 from the first full window on, whatever happened before.", "quantifier": "every window, every frame of bars, every logarithm, exponential and square root the numerical library may implement", "why_tests_cant": "Whether a residue of past rounding survives in a running sum depends on the whole history of prices; a test on a few series either meets such a history or does not.", "anchors": ["mizarlabs/transformers/microstructural_features/first_generation.py:RollMeasure.transform", "mizarlabs/transformers/microstructural_features/first_generation.py:ParkinsonVolatility.transform", "mizarlabs/transformers/microstructural_features/first_generation.py:CorwinSchultzSpread.transform", "mizarlabs/transformers/microstructural_features/first_generation.py:BeckersParkinsonVolatility.transform", "mizarlabs/transformers/microstructural_features/second_generation.py:KyleLambda.transform", "mizarlabs/transformers/microstructural_features/second_generation.py:AmihudLambda.transform", "mizarlabs/transformers/microstructural_features/second_generation.py:HasbrouckLambda.transform"]}
{"id": "C120", "title": "Rolling sums, averages, crossovers, VPIN and Kyle's lambda stay within a stated distance of the exact values in double precision", "statement": "With values of size at most M held in doubles, row i of a rolling sum over w rows is within (i+1)(w+2)M/2^49 of the sum of those values, and row i of a rolling average within (i+1)M/2^47 of their average; missing rows coincide. Hence the moving-average crossover of decimal prices is exactly that of the decimal numbers whenever the two averages of the decimal prices are never equal and the history is not too long for the tick; VPIN is within (i+1)(w+2)M/2^46 divided by the windowed volume of the exact VPIN where that volume is not negligible; and after the price has stood still for a window Kyle's lambda is at most (i+1)P/v0/2^46 for prices up to P and volumes of at least v0.", "quantifier": "every series of doubles of bounded size with missing values, every window, every row, every history length up to 2^49/(w+2); every tick, fast and slow window", "why_tests_cant": "The errors are those of a compensated sum over an arbitrarily long history; a test sees one history and compares with a tolerance chosen for it.", "anchors": ["mizarlabs/transformers/technical/moving_average.py:MovingAverageCrossOver.transform", "mizarlabs/transformers/microstructural_features/vpin.py:VPIN.transform", "mizarlabs/transformers/microstructural_features/second_generation.py:KyleLambda.transform"]}
{"id": "C121", "title": "The exponential averages and volatilities held in doubles keep a fixed distance from the exact ones, however long the history", "statement": "For doubles of size at most M (missing values allowed) every exponential average of span s, with (s+1)^2 at most 2^48, is within M(s+1)^2/2^48 of the exact average, at every row and for any length of history. Hence the unnormalised fast-minus-slow difference is within M((f+1)^2+(s+1)^2)/2^47 of the exact one and has the exact sign wherever the exact difference is larger than that. The exponentially weighted deviation that the daily volatility takes of its returns, for returns of size at most M without gaps and a span of at least 2 and below 2^14, has a value at every row but the first; its distance d from the exact deviation satisfies d times the exact deviation at most M^2(s+1)^3/2^41 and d^2 at most M^2(s+1)^3/2^40.", "quantifier": "all spans in the stated range, all sizes M, all series of doubles of any length, all rows", "why_tests_cant": "The rounding errors of a recursive average could accumulate with the length of the history; a test runs finitely many lengths, and the bound must not depend on the length.", "anchors": ["mizarlabs/transformers/technical/moving_average.py:ExponentialWeightedMovingAverageDifference.transform", "mizarlabs/transformers/targets/labeling.py:get_daily_vol"]}
{"id": "C122", "title": "The daily volatility is stable in its returns, and in doubles stays near the exact one whatever the length of the price history", "statement": "In exact arithmetic, changing every daily return by at most e changes every daily volatility by at most sqrt(2) times e, and a volatility is never larger than sqrt(2) times the largest return. In doubles, for gapless prices that are doubles between lo and K lo (K at most 2^40) and a span of at least 2 and below 2^14, the daily volatility has the times of the exact one, is missing in the first row only, and its distance d from the exact volatility satisfies d times the exact one at most K^2(span+1)^3/2^39 and d^2 at most K^2(span+1)^3/2^38, at every row.", "quantifier": "all spans in the range, all price histories of any length, all pairs of return histories", "why_tests_cant": "The distance must hold for every history and must not grow with its length; a test compares finitely many histories.", "anchors": ["mizarlabs/transformers/targets/labeling.py:get_daily_vol"]}
{"id": "C123", "title": "A small revision of the data moves the averages and the features built from them by little", "statement": "If the numbers of a column are revised by at most e and its missing rows stay, every moving average, maximum and minimum and every exponential average moves by at most e, every moving standard deviation by at most sqrt(2) e, the fast-minus-slow exponential difference by at most 2e and the buy-sell imbalance (total volumes unchanged and not negative) by at most 4e, at every row. The side of the moving-average crossover does not change at all if the two averages are more than 2e apart wherever both exist; without that distance an arbitrarily small revision can change it.", "quantifier": "all revisions of all columns of any length, with missing values, all windows and spans", "why_tests_cant": "The claim compares every pair of data sets; a test compares a few.", "anchors": ["mizarlabs/transformers/technical/moving_average.py:MovingAverageCrossOver.transform", "mizarlabs/transformers/technical/moving_average.py:ExponentialWeightedMovingAverageDifference.transform", "mizarlabs/transformers/technical/volume.py:BuySellImbalance.transform", "mizarlabs/transformers/features/rolling_z_score.py:RollingZScoreTransformer.calc_z_score"]}
{"id": "C124", "title": "Small price revisions away from the thresholds change no event and no label", "statement": "If every price is revised by at most e and no rise or fall between two bars comes within 2e of the threshold, the CUSUM filter returns exactly the same events. If an event's returns are revised by at most d and its volatility by at most ev, and no later side return comes within d plus factor times ev of a barrier in use, the event ends at the same time in both labellings, and its label is the same when its return is more than d away from zero. Without such distances arbitrarily small revisions add an event or move an end.", "quantifier": "all pairs of price series with the same times, of any length; all thresholds, barrier factors, sides, expirations and volatility estimates", "why_tests_cant": "The claim compares every pair of nearby data sets; a test compares a few.", "anchors": ["mizarlabs/transformers/sampling/down_sampling.py: CUSUMFilter.transform", "mizarlabs/transformers/targets/labeling.py:TripleBarrierMethodLabeling.transform"]}
{"id": "C125", "title": "At every event the CUSUM filter starts afresh, and a run started later keeps up", "statement": "The filter's events are exactly the bars at which the price differs by more than the threshold from some price since the previous event of either direction (or the start). A run with an event at t is the run on the bars before t, then t, then what a new run started at t returns. A run that misses the early history has, over the bars it sees, as many events as the full run or one less, and from the first event the two share they return the same events.", "quantifier": "all price series of any length without missing values, all thresholds, all points at which the history is cut", "why_tests_cant": "It compares runs over all histories and all cuts; tests fix a few.", "anchors": ["mizarlabs/transformers/sampling/down_sampling.py: CUSUMFilter.transform"]}
{"id": "C126", "title": "Labels do not depend on the bars before the event, except through the volatility", "statement": "Leaving out the first bars of the data does not change the end, return or label of a remaining event of the triple-barrier method if its volatility is the same; with barriers that are not adjusted for volatility the remaining rows are unchanged altogether. For the trend scanner bars before the events do not matter at all.", "quantifier": "all frames, all numbers of bars left out, all non-negative expirations, factors, sides and schedules; all trend scanner settings with a minimum length of at least one, all regression routines", "why_tests_cant": "It ranges over all histories before an event; a test compares a few.", "anchors": ["mizarlabs/transformers/targets/labeling.py:TripleBarrierMethodLabeling.transform", "mizarlabs/transformers/targets/trend_scanning.py"]}
{"id": "C127", "title": "Exponential averages forget the early history at a known rate", "statement": "If all values lie between lo and hi, an exponential average computed without the early history differs at the i-th row it sees (from 0) from the one over all rows by at most (1 - 2/(span+1))^(i+1) (hi - lo), and the fast-minus-slow difference by at most the sum of the two rates times hi - lo. So after a number of rows that depends only on span, range and tolerance the two agree to within the tolerance, however long the history left out.", "quantifier": "all columns of numbers of any length, all cuts, all spans of at least one", "why_tests_cant": "It ranges over all histories, of any length, that could precede the data.", "anchors": ["mizarlabs/transformers/technical/moving_average.py:ExponentialWeightedMovingAverageDifference.transform"]}
{"id": "C128", "title": "The number of CUSUM events is limited by the distance the price travels", "statement": "The number of events the CUSUM filter returns, times its threshold, is at most the sum of the absolute moves of the series from bar to bar. So a series that travels less than the threshold in total gives no event.", "quantifier": "all series of numbers with distinct timestamps, of any length, and all thresholds that are not negative (positive for the second claim)", "why_tests_cant": "It is a bound over all price paths of any length; a test covers the paths it lists.", "anchors": ["mizarlabs/transformers/sampling/down_sampling.py:CUSUMFilter.transform"]}
