{
 "C06": {
  "note": "The full claim is false of the code (C06_embargo_refuted gives a split whose training set overlaps an earlier test label). Proved for every split in which some sample starts after the embargo of all test labels."
 },
 "C08": {
  "note": "False of the code (C08_longer_embargo_refuted). Proved under the condition that some sample starts after the longer embargo of all test labels."
 },
 "C11": {
  "note": "Proved for one test group or all groups but one; C11_paths_refuted proves that every other accepted parameter choice raises."
 },
 "C21": {
  "status": "proved",
  "note": "Proved for -1 < c <= 1, c > 1 is rejected; for c <= -1, which the property text excludes, the two _refuted theorems prove how the weights fail."
 },
 "C32": {
  "status": "proved",
  "note": "For minimum lengths of at least 3 (shorter regressions have no t-value)."
 },
 "C33": {
  "note": "Proved for step 1; C33_larger_step_refuted proves that it is false for every larger step."
 },
 "C34": {
  "note": "Proved when events are given; C34_no_events_refuted and C34_first_series_remembered prove how it fails otherwise."
 },
 "C46": {
  "status": "proved",
  "note": "The two _refuted theorems prove how accepted but unusable parameters fail, as the property text says."
 },
 "C47": {
  "note": "False of the code: C47_penalty_refuted. The two agree only for phi = 0."
 },
 "C63": {
  "note": "Proved for the Chu-Stinchcombe-White and SADF tests; false for the Chow-type test (C63_chow_look_ahead_refuted)."
 },
 "C36": {
  "note": "Proved, except that the returned size is the absolute value also for probabilities below 1/num_classes, where it falls with the probability (C36_low_probability_refuted)."
 },
 "C37": {
  "note": "Proved for times in whole milliseconds and ends not before 1970; the _refuted theorems prove how the averaging fails otherwise and for a custom column name."
 },
 "C38": {
  "status": "proved",
  "note": "C38_out_of_range_refuted proves that repetition is not harmless for signals outside [-1, 1], which the property text excludes."
 },
 "C39": {
  "status": "proved",
  "note": "For distinct timestamps; the values are -1, 0 or 1 for every input."
 },
 "C40": {
  "note": "Proved for every feature, relative to TA-Lib functions without look-ahead; for the moving-average crossover only with distinct timestamps (C40_crossover_repeated_timestamps_refuted)."
 },
 "C66": {
  "note": "The TA-Lib indicator is an arbitrary function that returns one value for each row.",
  "status": "proved"
 },
 "C57": {
  "status": "partial",
  "note": "Proved for doc strings with at least one positional argument; C57_no_arguments_refuted: a documented function without arguments makes the parser fail with AttributeError."
 },
 "C58": {
  "status": "partial",
  "note": "Acceptance is characterised exactly, except for three inputs where the code departs from the claim, each refuted by its own theorem: surplus column names are dropped silently, a first column named real1 is overwritten, and an empty kw_args dictionary is refused by functions without keywords."
 },
 "C48": {
  "note": "The schedule is an arbitrary interleaving of estimator-building rounds of the workers over a shared heap. If several workers fail, the model reports the first in job order."
 },
 "C49": {
  "note": "For oob_score=False (out-of-bag scoring with warm start is rejected, C52)."
 },
 "C50": {
  "note": "For a first fit, or any fit without warm start; warm starts reduce to these by C49. Estimators without sample_weight support are trained on the drawn rows."
 },
 "C51": {
  "status": "partial",
  "note": "Proved as claimed when each estimator's probabilities cover all classes (row_wise). Refuted otherwise: an estimator without sample_weight support trained on a single class has one column, which is added to every class, and one that knows some but not all of more than two classes makes fit fail. C51_fewer_classes_partial states what the decision is in general."
 },
 "C52": {
  "status": "partial",
  "note": "Rejection and exception classes are proved in full, for labels with distinct starts. Everything else proceeds without out-of-bag scoring; with it exactly when each estimator leaves a sample out and knows all classes or one (C52_out_of_bag_classes_partial; C52_out_of_bag_refuted and C51_two_of_three_refuted: a ValueError on acceptable parameters otherwise). Weights for an estimator that cannot use them are a ValueError. Fractions are truncated before the check, so 1.05 of 3 samples is accepted."
 },
 "C67": {
  "note": "For labels with distinct start times and a row index as long as the data."
 },
 "C68": {
  "status": "partial",
  "note": "Refuted: samples on which every estimator was trained count as class 0. C51_score says what the score is."
 },
 "C53": {
  "note": "For increasing alignment times after the year 1700 and rectangular frames; the combination is the mean, minimum or maximum. Warnings are not modelled."
 },
 "C54": {
  "note": "The content theorems are for features with distinct times and at least one column. With drop_na=False nothing is aligned or dropped: C54_keeps_all."
 },
 "C55": {
  "note": "False of the code: C55_refuted proves that nothing is returned for every closing model and input."
 },
 "C56": {
  "note": "False of the code: C56_refuted. C56_written proves what is changed; C56_repeat_partial proves that repetition is harmless when no transformer looks at the added columns."
 },
 "C70": {
  "note": "For runs that succeed on both inputs, with increasing alignment times and features with distinct times."
 },
 "C71": {
  "note": "For features with distinct times and at least one column."
 },
 "C72": {
  "note": "The daily volatility is an arbitrary function of the closing prices."
 },
 "C73": {
  "note": "False of the code: C73_refuted proves that no input succeeds, C73_type_error that it is a TypeError for sound inputs."
 },
 "C74": {
  "note": "The formula is for a sizer that neither averages nor discretises; the range holds for every configuration. Column names of the sizer are the defaults."
 },
 "C75": {
  "note": "False of the code: C75_refuted proves that no input succeeds."
 },
 "C77": {
  "note": "Overlap is excluded unconditionally for training labels before a test label; after one, under the stated condition. C77_embargo_without_effect_refuted: otherwise the embargo, however long, changes nothing; C77_case_overlap is a concrete overlap."
 },
 "C79": {
  "note": "The random generator and estimators are arbitrary functions that keep their promises (libraries_fine)."
 },
 "C80": {
  "note": "For step 1 and minimum lengths of at least 3; the matrix inverse is an arbitrary correct one."
 },
 "C81": {
  "note": "Refuted for a last step whose name ends in an underscore: the key then splits at the wrong place and the weights go astray. Proved for all other names."
 },
 "C83": {
  "note": "Proved for transformers that make no use of labels; refuted for supervised ones, since fit_transform drops the labels."
 },
 "C84": {
  "note": "All folds have the same number of classes."
 },
 "C86": {
  "note": "Repeated times and other numbers of test groups are part of the statement: C86_repeated_times_too_many_rows and C86_other_parameters_fail. The column y[label_column_name] is unique; y has no column called predictions or max_proba."
 },
 "C87": {
  "note": "The code compares the minimum length with the list of lags, which Python refuses: the documented lists of lags never work (C87_lag_list_refuted). Everything else is proved."
 },
 "C88": {
  "note": "Transformers are arbitrary functions of the frame; in-place changes of the input by a transformer are not modelled."
 },
 "C94": {
  "note": "Holds for 15 classes. Refuted for AverageUniqueness, SampleWeightsByReturns, SampleWeightsByTimeDecay, CUSUMFilter, TripleBarrierMethodLabeling, MovingAverageCrossOver, MACDHistogramCrossOver and BetSizingFromProbabilities: they store the arguments under other names, so get_params, clone and set_params always raise AttributeError (scikit-learn 0.24)."
 },
 "C95": {
  "note": "Proved for all histories that leave label spans and bars alone and for the classes without checks. Refuted: set_params skips the checks of the constructor; the first fit of the bagging classifier ignores new spans and bars, and two equal calls of fit can then give different ensembles."
 },
 "C96": {
  "note": "Which attribute a method reads is listed in Params_Spec.v with the lines."
 },
 "C97": {
  "note": "Arguments are integers, floats, booleans, strings and None; comparison of other objects is not modelled. Also: arguments that Python cannot compare raise TypeError, and NaN passes the check on the periods."
 },
 "C98": {
  "status": "partial",
  "note": "Proved for every transformer, rule and TA-Lib transformer. False for the labelling without metalabeling: a column named \"side\" in its input is used although no side was asked for (C98_labels_refuted); C98_labels_partial is the strongest true statement: only the times, the closing prices and the column \"side\" matter."
 },
 "C106": {
  "note": "Doubles without overflow and signed zeros. The sums inside the moving statistics are not covered: the volatility is an arbitrary input here."
 },
 "C107": {
  "note": "No overflow; counts below 2^32; at most 2^26 bars, 2^22 samples, 2^38 draws. The order in which np.sum adds and the uniform numbers are arbitrary. numpy's choice is modelled from its source: Kahan check within 2^-26, cumulative sums, searchsorted."
 },
 "C108": {
  "note": "Proved: the number of rows is within one rounding of the exact product, K or K-1 when the fraction stands for K whole rows, all rows for 1.0, monotone, exact acceptance of fractions of features. Refuted: that K is always reached (0.29 of 100 gives 28; 1/49 of 49 raises ValueError). Products beyond the largest double are not modelled."
 },
 "C109": {
  "note": "Proved: the exact events when all moves keep clear of the threshold by length*(M+H)/2^50, hence for prices in ticks and a threshold half way between ticks; a run with rounded rationals equals the run in doubles. Refuted: equality without a margin (1.0, 1.1, ... with threshold 0.1). Missing prices are not covered here (C106 covers them on binary ticks)."
 },
 "C110": {
  "note": "Acceptance of predict, predict_proba, get_side_and_size, create_position and create_dataset_primary from conditions on the parts, and the kind of error in the other cases. The features themselves (that transform and alignment succeed) are covered by C88 and C53. pandas raises InvalidIndexError in place of ValueError for repeated times in some versions; repeated times are excluded here."
 },
 "C111": {
  "note": "Doubles without overflow and signed zeros; at most 2^25 labels; 1 + c at least 2^-52."
 },
 "C112": {
  "status": "partial",
  "note": "Any step and minimum length. The full claim (best of the lengths tried) is proved when fresh memory holds zeros and refuted otherwise (C33); C112_tried_or_memory says what holds whatever the memory. Minimum lengths 1 and 2 are proved never to work, although the constructor accepts them. The result for a minimum of two is that of exact arithmetic: in doubles the residual of two bars may be a tiny non-zero number instead of 0, and the t-value then 0 instead of NaN."
 },
 "C113": {
  "note": "Doubles without overflow and signed zeros; norm.cdf is any function into the doubles of [0, 1] that is monotone with value 1/2 at 0 (scipy's implementation is not modelled); numba's np.mean adds from left to right."
 },
 "C114": {
  "status": "partial",
  "note": "Independence of unit and origin is proved for every test and model for which it holds; where the regression has no constant the origin matters, which is proved by the two _origin_refuted theorems (on log prices the origin is the price unit)."
 },
 "C115": {
  "status": "partial",
  "note": "Proved for volumes on a grid of a power of two (C115_sums, C115_ticks, C115_vpin) and in exact arithmetic (C115_exact); refuted for decimal volumes (C115_decimals_refuted, C115_above_one_refuted, C115_history_refuted), with the generic model run on rounded rationals (C115_executable). Distances in general: C120."
 },
 "C116": {
  "status": "partial",
  "note": "Proved for prices on a grid of a power of two (C116_ticks, C116_flat) and in exact arithmetic (C116_exact); refuted for decimal prices (C116_decimals_refuted): crossings in a flat market. The moving averages can be run on rounded rationals (C116_executable). Distances in general: C120."
 },
 "C117": {
  "status": "partial",
  "note": "Exact arithmetic (C117_exact) and flat series (C117_flat for any double, C117_flat_ticks on a grid) proved; refuted for a flat decimal series (C117_flat_refuted), a flat window after other values (C117_history_refuted) and a large value that has left the window (C117_spike_refuted). The variances can be run on rounded rationals (C117_executable)."
 },
 "C118": {
  "status": "partial",
  "note": "Proved in doubles: sign (C118_not_negative), values in every row but the first without gaps (C118_defined), flat markets (C118_flat, C118_flat_prices, C118_average_flat); exact arithmetic (C118_exact, C118_average_exact). Refuted: a single return followed by missing ones gets volatility 0 (C118_one_return_refuted, C118_missing_prices_refuted). Distances in general: C121."
 },
 "C119": {
  "status": "partial",
  "note": "Proved in doubles for any logarithm: signs (C119_not_negative), range of the spread (C119_spread_range), a price that never moved (C119_flat); exact arithmetic (C119_exact). Refuted when the market was moving before: Kyle's lambda keeps a positive residue (C119_residue_refuted), the Corwin-Schultz spread is missing because a sum of squares is negative (C119_quiet_refuted). Distances for the averages: C120."
 },
 "C120": {
  "note": "Quantitative counterpart of C115, C116 and C119, whose refutations show that the doubles are not exact: here the distance is bounded for every history. The crossover theorem for decimal prices needs the two decimal averages to differ wherever both exist (C116_decimals_refuted shows the tie case fails). pandas' rolling sums and means are modelled after aggregations.pyx (Double_Vpin_Model, Double_Cross_Model); overflow is outside the model of doubles."
 },
 "C121": {
  "note": "Specification in Double_Bound_Spec (held_below, close_to). The comparison is with the exact reading of the same recursion (ewm_mean, ewm_std). The volatility part takes the returns as they are held; the rounding of the returns themselves is not part of it."
 },
 "C122": {
  "note": "The deviation is rewritten as a weighted average over pairs of returns, which gives the constant sqrt 2 by the Cauchy-Schwarz inequality; the double part adds the rounding of the returns to the bound of C121."
 },
 "C123": {
  "note": "Exact arithmetic. Specification in Stable_Spec (revised) and Double_Bound_Spec (close_to). C123_side_margin_needed shows that the distance asked for by C123_side cannot be dropped."
 },
 "C124": {
  "note": "Exact arithmetic. C124_returns gives the bound d from a relative revision of the prices; C122 bounds the change of the volatility. C124_events_margin_needed and C124_labels_margin_needed show that the distances cannot be dropped."
 },
 "C125": {
  "note": "Specification in Cusum_Restart_Spec (moves). Prices are exact rationals without missing values. Examples show that both bounds of C125_late_start are reached and that two runs in a steady climb never share an event."
 },
 "C126": {
  "note": "Specification in Label_Cut_Spec (without_first). C126_negative_bars (an Example) shows that the expiration must not be negative."
 },
 "C127": {
  "note": "Exact arithmetic, columns without missing values; rounding is bounded separately in C121."
 },
 "C128": {
  "note": "Exact arithmetic, series without missing values and with distinct timestamps."
 }
}