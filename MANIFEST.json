{
 "claims": [
  {
   "property": "C01",
   "status": "proved",
   "theorems": [
    "C01_folds_partition",
    "C01_enough_samples"
   ],
   "note": ""
  },
  {
   "property": "C02",
   "status": "proved",
   "theorems": [
    "C02_every_combination_once",
    "C02_reported_number"
   ],
   "note": ""
  },
  {
   "property": "C03",
   "status": "proved",
   "theorems": [
    "C03_tested_equally_often"
   ],
   "note": ""
  },
  {
   "property": "C04",
   "status": "proved",
   "theorems": [
    "C04_train_test_disjoint"
   ],
   "note": ""
  },
  {
   "property": "C05",
   "status": "proved",
   "theorems": [
    "C05_purging"
   ],
   "note": ""
  },
  {
   "property": "C06",
   "status": "partial",
   "theorems": [
    "C06_embargo_refuted",
    "C06_embargo_partial"
   ],
   "note": "The full claim is false of the code (C06_embargo_refuted gives a split whose training set overlaps an earlier test label). Proved for every split in which some sample starts after the embargo of all test labels."
  },
  {
   "property": "C07",
   "status": "proved",
   "theorems": [
    "C07_train_exact"
   ],
   "note": ""
  },
  {
   "property": "C08",
   "status": "partial",
   "theorems": [
    "C08_longer_embargo_refuted",
    "C08_longer_embargo_partial"
   ],
   "note": "False of the code (C08_longer_embargo_refuted). Proved under the condition that some sample starts after the longer embargo of all test labels."
  },
  {
   "property": "C09",
   "status": "proved",
   "theorems": [
    "C09_accepted_only_if_valid",
    "C09_valid_accepted",
    "C09_error_class"
   ],
   "note": ""
  },
  {
   "property": "C10",
   "status": "proved",
   "theorems": [
    "C10_number_of_paths"
   ],
   "note": ""
  },
  {
   "property": "C11",
   "status": "partial",
   "theorems": [
    "C11_paths_partial",
    "C11_paths_refuted"
   ],
   "note": "Proved for one test group or all groups but one; C11_paths_refuted proves that every other accepted parameter choice raises."
  },
  {
   "property": "C12",
   "status": "proved",
   "theorems": [
    "C12_cdf",
    "C12_scale_free",
    "C12_no_jump",
    "C12_default",
    "C12_given_bounds"
   ],
   "note": ""
  },
  {
   "property": "C13",
   "status": "proved",
   "theorems": [
    "C13_indicator_matrix"
   ],
   "note": ""
  },
  {
   "property": "C14",
   "status": "proved",
   "theorems": [
    "C14_missing_times",
    "C14_accepts_exactly",
    "C14_single_sample_rejected"
   ],
   "note": ""
  },
  {
   "property": "C15",
   "status": "proved",
   "theorems": [
    "C15_average_uniqueness",
    "C15_bounds"
   ],
   "note": ""
  },
  {
   "property": "C16",
   "status": "proved",
   "theorems": [
    "C16_incremental_equals_full"
   ],
   "note": ""
  },
  {
   "property": "C17",
   "status": "proved",
   "theorems": [
    "C17_probabilities"
   ],
   "note": ""
  },
  {
   "property": "C18",
   "status": "proved",
   "theorems": [
    "C18_size_and_range",
    "C18_errors",
    "C18_rounds_through_a_double"
   ],
   "note": ""
  },
  {
   "property": "C19",
   "status": "proved",
   "theorems": [
    "C19_overlap_lowers_uniqueness"
   ],
   "note": ""
  },
  {
   "property": "C20",
   "status": "proved",
   "theorems": [
    "C20_return_weights",
    "C20_never_negative",
    "C20_succeeds"
   ],
   "note": ""
  },
  {
   "property": "C21",
   "status": "proved",
   "theorems": [
    "C21_decay_weights",
    "C21_shape_nonnegative",
    "C21_shape_negative",
    "C21_too_large_rejected",
    "C21_succeeds",
    "C21_minus_one_refuted",
    "C21_below_minus_one_refuted"
   ],
   "note": "Proved for -1 < c <= 1, c > 1 is rejected; for c <= -1, which the property text excludes, the two _refuted theorems prove how the weights fail."
  },
  {
   "property": "C22",
   "status": "proved",
   "theorems": [
    "C22_exact_crossings",
    "C22_rises_unique",
    "C22_falls_unique",
    "C22_missing_restarts",
    "C22_duplicate_labels"
   ],
   "note": ""
  },
  {
   "property": "C23",
   "status": "proved",
   "theorems": [
    "C23_accumulators_bounded",
    "C23_one_side_fires",
    "C23_first_never_selected"
   ],
   "note": ""
  },
  {
   "property": "C24",
   "status": "proved",
   "theorems": [
    "C24_no_lookahead",
    "C24_sorted",
    "C24_succeeds"
   ],
   "note": ""
  },
  {
   "property": "C25",
   "status": "proved",
   "theorems": [
    "C25_first_touch",
    "C25_barrier_table",
    "C25_no_barrier"
   ],
   "note": ""
  },
  {
   "property": "C26",
   "status": "proved",
   "theorems": [
    "C26_schedule_independent",
    "C26_transform_schedule_independent"
   ],
   "note": ""
  },
  {
   "property": "C27",
   "status": "proved",
   "theorems": [
    "C27_later",
    "C27_first_of_three",
    "C27_bounds",
    "C27_missing_volatility",
    "C27_succeeds"
   ],
   "note": ""
  },
  {
   "property": "C28",
   "status": "proved",
   "theorems": [
    "C28_return_and_label",
    "C28_no_end"
   ],
   "note": ""
  },
  {
   "property": "C29",
   "status": "proved",
   "theorems": [
    "C29_same_row",
    "C29_same_row_daily_vol"
   ],
   "note": ""
  },
  {
   "property": "C30",
   "status": "proved",
   "theorems": [
    "C30_negative_factors",
    "C30_other_side_name_fails",
    "C30_other_side_name_error",
    "C30_missing_columns",
    "C30_constructor"
   ],
   "note": ""
  },
  {
   "property": "C31",
   "status": "proved",
   "theorems": [
    "C31_reference_bar",
    "C31_no_reference_no_volatility",
    "C31_aligned",
    "C31_nonnegative",
    "C31_weighted_deviation"
   ],
   "note": ""
  },
  {
   "property": "C32",
   "status": "proved",
   "theorems": [
    "C32_largest_t_value",
    "C32_defined",
    "C32_unknown_events",
    "C32_constructor"
   ],
   "note": "For minimum lengths of at least 3 (shorter regressions have no t-value)."
  },
  {
   "property": "C33",
   "status": "partial",
   "theorems": [
    "C33_step_one",
    "C33_larger_step_refuted"
   ],
   "note": "Proved for step 1; C33_larger_step_refuted proves that it is false for every larger step."
  },
  {
   "property": "C34",
   "status": "partial",
   "theorems": [
    "C34_given_events",
    "C34_first_series_remembered",
    "C34_no_events_refuted"
   ],
   "note": "Proved when events are given; C34_no_events_refuted and C34_first_series_remembered prove how it fails otherwise."
  },
  {
   "property": "C35",
   "status": "proved",
   "theorems": [
    "C35_scale_and_shift"
   ],
   "note": ""
  },
  {
   "property": "C36",
   "status": "partial",
   "theorems": [
    "C36_confidence",
    "C36_sizes",
    "C36_range",
    "C36_invalid_probability",
    "C36_constructor",
    "C36_high_probability",
    "C36_low_probability_refuted"
   ],
   "note": "Proved, except that the returned size is the absolute value also for probabilities below 1/num_classes, where it falls with the probability (C36_low_probability_refuted)."
  },
  {
   "property": "C37",
   "status": "partial",
   "theorems": [
    "C37_mean_of_active",
    "C37_between",
    "C37_transform",
    "C37_old_end_refuted",
    "C37_same_millisecond_refuted",
    "C37_column_name_refuted"
   ],
   "note": "Proved for times in whole milliseconds and ends not before 1970; the _refuted theorems prove how the averaging fails otherwise and for a custom column name."
  },
  {
   "property": "C38",
   "status": "proved",
   "theorems": [
    "C38_defined",
    "C38_values",
    "C38_nearest_multiple",
    "C38_transform",
    "C38_out_of_range_refuted"
   ],
   "note": "C38_out_of_range_refuted proves that repetition is not harmless for signals outside [-1, 1], which the property text excludes."
  },
  {
   "property": "C39",
   "status": "proved",
   "theorems": [
    "C39_crossings",
    "C39_most_recent",
    "C39_exclusive",
    "C39_values"
   ],
   "note": "For distinct timestamps; the values are -1, 0 or 1 for every input."
  },
  {
   "property": "C40",
   "status": "partial",
   "theorems": [
    "C40_features",
    "C40_z_scores",
    "C40_exponential",
    "C40_technical",
    "C40_crossover",
    "C40_crossover_repeated_timestamps_refuted",
    "C40_rows"
   ],
   "note": "Proved for every feature, relative to TA-Lib functions without look-ahead; for the moving-average crossover only with distinct timestamps (C40_crossover_repeated_timestamps_refuted)."
  },
  {
   "property": "C41",
   "status": "proved",
   "theorems": [
    "C41_vpin"
   ],
   "note": ""
  },
  {
   "property": "C42",
   "status": "proved",
   "theorems": [
    "C42_z_score",
    "C42_attained",
    "C42_window_one",
    "C42_invariant",
    "C42_factory"
   ],
   "note": ""
  },
  {
   "property": "C43",
   "status": "proved",
   "theorems": [
    "C43_not_negative",
    "C43_corwin_schultz"
   ],
   "note": ""
  },
  {
   "property": "C44",
   "status": "proved",
   "theorems": [
    "C44_rows",
    "C44_supremum",
    "C44_two_sided",
    "C44_constant_prefix",
    "C44_sides"
   ],
   "note": ""
  },
  {
   "property": "C45",
   "status": "proved",
   "theorems": [
    "C45_least_squares",
    "C45_defined",
    "C45_few_rows"
   ],
   "note": ""
  },
  {
   "property": "C46",
   "status": "proved",
   "theorems": [
    "C46_supremum",
    "C46_statistic_unique",
    "C46_defined",
    "C46_short_windows_refuted",
    "C46_zero_lags_refuted"
   ],
   "note": "The two _refuted theorems prove how accepted but unusable parameters fail, as the property text says."
  },
  {
   "property": "C47",
   "status": "partial",
   "theorems": [
    "C47_penalty_refuted",
    "C47_no_penalty_partial"
   ],
   "note": "False of the code: C47_penalty_refuted. The two agree only for phi = 0."
  },
  {
   "property": "C48",
   "status": "proved",
   "theorems": [
    "C48_workers"
   ],
   "note": "The schedule is an arbitrary interleaving of estimator-building rounds of the workers over a shared heap. If several workers fail, the model reports the first in job order."
  },
  {
   "property": "C49",
   "status": "proved",
   "theorems": [
    "C49_warm_start",
    "C49_fewer"
   ],
   "note": "For oob_score=False (out-of-bag scoring with warm start is rejected, C52)."
  },
  {
   "property": "C50",
   "status": "proved",
   "theorems": [
    "C50_training",
    "C50_weights_kept"
   ],
   "note": "For a first fit, or any fit without warm start; warm starts reduce to these by C49. Estimators without sample_weight support are trained on the drawn rows."
  },
  {
   "property": "C51",
   "status": "partial",
   "theorems": [
    "C51_mean_of_probabilities",
    "C51_share_of_votes",
    "C51_score",
    "C51_missing_class_refuted",
    "C51_fewer_classes_partial",
    "C51_two_of_three_refuted"
   ],
   "note": "Proved as claimed when each estimator's probabilities cover all classes (row_wise). Refuted otherwise: an estimator without sample_weight support trained on a single class has one column, which is added to every class, and one that knows some but not all of more than two classes makes fit fail. C51_fewer_classes_partial states what the decision is in general."
  },
  {
   "property": "C52",
   "status": "partial",
   "theorems": [
    "C52_rejects",
    "C52_exceptions",
    "C52_unusual_sizes",
    "C52_proceeds",
    "C52_proceeds_out_of_bag_partial",
    "C52_out_of_bag_refuted",
    "C52_unusable_weights",
    "C52_out_of_bag_classes_partial"
   ],
   "note": "Rejection and exception classes are proved in full, for labels with distinct starts. Everything else proceeds without out-of-bag scoring; with it exactly when each estimator leaves a sample out and knows all classes or one (C52_out_of_bag_classes_partial; C52_out_of_bag_refuted and C51_two_of_three_refuted: a ValueError on acceptable parameters otherwise). Weights for an estimator that cannot use them are a ValueError. Fractions are truncated before the check, so 1.05 of 3 samples is accepted."
  },
  {
   "property": "C53",
   "status": "proved",
   "theorems": [
    "C53_alignment",
    "C53_once",
    "C53_not_before",
    "C53_causal",
    "C53_accepted"
   ],
   "note": "For increasing alignment times after the year 1700 and rectangular frames; the combination is the mean, minimum or maximum. Warnings are not modelled."
  },
  {
   "property": "C54",
   "status": "proved",
   "theorems": [
    "C54_primary",
    "C54_primary_content",
    "C54_primary_labels",
    "C54_refused",
    "C54_metalabeling",
    "C54_metalabels",
    "C54_meta_columns",
    "C54_meta_accepted",
    "C54_keeps_all",
    "C54_keeps_all_accepted"
   ],
   "note": "The content theorems are for features with distinct times and at least one column. With drop_na=False nothing is aligned or dropped: C54_keeps_all."
  },
  {
   "property": "C55",
   "status": "partial",
   "theorems": [
    "C55_refuted"
   ],
   "note": "False of the code: C55_refuted proves that nothing is returned for every closing model and input."
  },
  {
   "property": "C56",
   "status": "partial",
   "theorems": [
    "C56_refuted",
    "C56_written",
    "C56_repeat_partial"
   ],
   "note": "False of the code: C56_refuted. C56_written proves what is changed; C56_repeat_partial proves that repetition is harmless when no transformer looks at the added columns."
  },
  {
   "property": "C57",
   "status": "partial",
   "theorems": [
    "C57_signature",
    "C57_no_arguments_refuted",
    "C57_split",
    "C57_undocumented",
    "C57_two_optional_parts"
   ],
   "note": "Proved for doc strings with at least one positional argument; C57_no_arguments_refuted: a documented function without arguments makes the parser fail with AttributeError."
  },
  {
   "property": "C58",
   "status": "partial",
   "theorems": [
    "C58_accepted_partial",
    "C58_rejected",
    "C58_unknown_function",
    "C58_surplus_columns_refuted",
    "C58_real1_refuted",
    "C58_empty_keywords_refuted"
   ],
   "note": "Acceptance is characterised exactly, except for three inputs where the code departs from the claim, each refuted by its own theorem: surplus column names are dropped silently, a first column named real1 is overwritten, and an empty kw_args dictionary is refused by functions without keywords."
  },
  {
   "property": "C59",
   "status": "proved",
   "theorems": [
    "C59_rounds_down",
    "C59_monotone",
    "C59_injective_on_milliseconds",
    "C59_negative"
   ],
   "note": ""
  },
  {
   "property": "C60",
   "status": "proved",
   "theorems": [
    "C60_one_hot"
   ],
   "note": ""
  },
  {
   "property": "C61",
   "status": "proved",
   "theorems": [
    "C61_average_uniqueness_transformer",
    "C61_succeeds"
   ],
   "note": ""
  },
  {
   "property": "C62",
   "status": "proved",
   "theorems": [
    "C62_chow_statistic",
    "C62_defined"
   ],
   "note": ""
  },
  {
   "property": "C63",
   "status": "partial",
   "theorems": [
    "C63_csw_no_look_ahead",
    "C63_sadf_no_look_ahead",
    "C63_chow_look_ahead_refuted"
   ],
   "note": "Proved for the Chu-Stinchcombe-White and SADF tests; false for the Chow-type test (C63_chow_look_ahead_refuted)."
  },
  {
   "property": "C64",
   "status": "proved",
   "theorems": [
    "C64_window",
    "C64_z_scores",
    "C64_crossover"
   ],
   "note": ""
  },
  {
   "property": "C65",
   "status": "proved",
   "theorems": [
    "C65_lambdas",
    "C65_roll",
    "C65_high_low"
   ],
   "note": ""
  },
  {
   "property": "C66",
   "status": "proved",
   "theorems": [
    "C66_mean_reversion",
    "C66_rsi_confirmation",
    "C66_bar_arrival",
    "C66_macd"
   ],
   "note": "The TA-Lib indicator is an arbitrary function that returns one value for each row."
  },
  {
   "property": "C67",
   "status": "proved",
   "theorems": [
    "C67_label_spans"
   ],
   "note": "For labels with distinct start times and a row index as long as the data."
  },
  {
   "property": "C68",
   "status": "partial",
   "theorems": [
    "C68_score_without_decision_refuted"
   ],
   "note": "Refuted: samples on which every estimator was trained count as class 0. C51_score says what the score is."
  },
  {
   "property": "C70",
   "status": "proved",
   "theorems": [
    "C70_no_lookahead"
   ],
   "note": "For runs that succeed on both inputs, with increasing alignment times and features with distinct times."
  },
  {
   "property": "C71",
   "status": "proved",
   "theorems": [
    "C71_side_and_size",
    "C71_greatest"
   ],
   "note": "For features with distinct times and at least one column."
  },
  {
   "property": "C72",
   "status": "proved",
   "theorems": [
    "C72_position",
    "C72_bars",
    "C72_valid",
    "C72_duplicates",
    "C72_succeeds"
   ],
   "note": "The daily volatility is an arbitrary function of the closing prices."
  },
  {
   "property": "C73",
   "status": "partial",
   "theorems": [
    "C73_refuted",
    "C73_type_error"
   ],
   "note": "False of the code: C73_refuted proves that no input succeeds, C73_type_error that it is a TypeError for sound inputs."
  },
  {
   "property": "C74",
   "status": "proved",
   "theorems": [
    "C74_range",
    "C74_valid",
    "C74_formula",
    "C74_confidence"
   ],
   "note": "The formula is for a sizer that neither averages nor discretises; the range holds for every configuration. Column names of the sizer are the defaults."
  },
  {
   "property": "C75",
   "status": "partial",
   "theorems": [
    "C75_refuted"
   ],
   "note": "False of the code: C75_refuted proves that no input succeeds."
  },
  {
   "property": "C69",
   "status": "proved",
   "theorems": [
    "C69_local_max",
    "C69_ewma_difference",
    "C69_imbalance",
    "C69_average",
    "C69_z_scores",
    "C69_constructors"
   ],
   "note": ""
  },
  {
   "property": "C76",
   "status": "proved",
   "theorems": [
    "C76_predict",
    "C76_predict_proba",
    "C76_same_times",
    "C76_unfitted",
    "C76_outdated"
   ],
   "note": ""
  },
  {
   "property": "C77",
   "status": "partial",
   "theorems": [
    "C77_complete_rows",
    "C77_labels_proper",
    "C77_split_succeeds",
    "C77_no_overlap_partial",
    "C77_embargo_without_effect_refuted"
   ],
   "note": "Overlap is excluded unconditionally for training labels before a test label; after one, under the stated condition. C77_embargo_without_effect_refuted: otherwise the embargo, however long, changes nothing; C77_case_overlap is a concrete overlap."
  },
  {
   "property": "C78",
   "status": "proved",
   "theorems": [
    "C78_matrix",
    "C78_uniqueness",
    "C78_time_decay",
    "C78_returns",
    "C78_fewer_labels"
   ],
   "note": ""
  },
  {
   "property": "C79",
   "status": "proved",
   "theorems": [
    "C79_bagging",
    "C79_bagging_out_of_bag"
   ],
   "note": "The random generator and estimators are arbitrary functions that keep their promises (libraries_fine)."
  },
  {
   "property": "C80",
   "status": "proved",
   "theorems": [
    "C80_sampled_trends"
   ],
   "note": "For step 1 and minimum lengths of at least 3; the matrix inverse is an arbitrary correct one."
  },
  {
   "property": "C81",
   "status": "partial",
   "theorems": [
    "C81_same_calls",
    "C81_delivered",
    "C81_trailing_underscore_refuted",
    "C81_improper_names"
   ],
   "note": "Refuted for a last step whose name ends in an underscore: the key then splits at the wrong place and the weights go astray. Proved for all other names."
  },
  {
   "property": "C82",
   "status": "proved",
   "theorems": [
    "C82_rows",
    "C82_accepts",
    "C82_rejects",
    "C82_failing_part",
    "C82_identity",
    "C82_no_look_ahead"
   ],
   "note": ""
  },
  {
   "property": "C83",
   "status": "partial",
   "theorems": [
    "C83_unsupervised",
    "C83_labels_dropped_refuted"
   ],
   "note": "Proved for transformers that make no use of labels; refuted for supervised ones, since fit_transform drops the labels."
  },
  {
   "property": "C84",
   "status": "proved",
   "theorems": [
    "C84_folds",
    "C84_no_predict_proba"
   ],
   "note": "All folds have the same number of classes."
  },
  {
   "property": "C85",
   "status": "proved",
   "theorems": [
    "C85_metalabels"
   ],
   "note": ""
  },
  {
   "property": "C86",
   "status": "proved",
   "theorems": [
    "C86_rows",
    "C86_no_prediction_twice",
    "C86_each_sample_once",
    "C86_repeated_times",
    "C86_repeated_times_too_many_rows",
    "C86_other_parameters_fail",
    "C86_no_label_column"
   ],
   "note": "Repeated times and other numbers of test groups are part of the statement: C86_repeated_times_too_many_rows and C86_other_parameters_fail. The column y[label_column_name] is unique; y has no column called predictions or max_proba."
  },
  {
   "property": "C87",
   "status": "partial",
   "theorems": [
    "C87_accepted",
    "C87_rejected",
    "C87_exponent",
    "C87_lag_list_refuted",
    "C87_unknown_model"
   ],
   "note": "The code compares the minimum length with the list of lags, which Python refuses: the documented lists of lags never work (C87_lag_list_refuted). Everything else is proved."
  },
  {
   "property": "C88",
   "status": "proved",
   "theorems": [
    "C88_transformed",
    "C88_accepted",
    "C88_wrong_names",
    "C88_names",
    "C88_not_aligned",
    "C88_aligned",
    "C88_no_lead"
   ],
   "note": "Transformers are arbitrary functions of the frame; in-place changes of the input by a transformer are not modelled."
  },
  {
   "property": "C89",
   "status": "proved",
   "theorems": [
    "C89_daily_volatility",
    "C89_labels",
    "C89_return_weights",
    "C89_events",
    "C89_pure_features",
    "C89_price_features",
    "C89_signals",
    "C89_normalised_depends_on_unit",
    "C89_sadf",
    "C89_chow",
    "C89_csw"
   ],
   "note": ""
  },
  {
   "property": "C90",
   "status": "proved",
   "theorems": [
    "C90_indicator_matrix",
    "C90_average_uniqueness",
    "C90_time_decay",
    "C90_events",
    "C90_trends",
    "C90_splits",
    "C90_paths",
    "C90_daily_volatility_moved",
    "C90_labels_moved",
    "C90_return_weights_moved"
   ],
   "note": ""
  },
  {
   "property": "C91",
   "status": "proved",
   "theorems": [
    "C91_uniqueness",
    "C91_return_weights"
   ],
   "note": ""
  },
  {
   "property": "C92",
   "status": "proved",
   "theorems": [
    "C92_uniqueness",
    "C92_time_decay",
    "C92_return_weights_need_order"
   ],
   "note": ""
  },
  {
   "property": "C93",
   "status": "proved",
   "theorems": [
    "C93_events",
    "C93_labels",
    "C93_trends",
    "C93_crossover",
    "C93_csw",
    "C93_sadf",
    "C93_chow"
   ],
   "note": ""
  },
  {
   "property": "C94",
   "status": "partial",
   "theorems": [
    "C94_reports",
    "C94_clone",
    "C94_set_params",
    "C94_unknown_name",
    "C94_renaming_refuted",
    "C94_not_estimators_refuted"
   ],
   "note": "Holds for 15 classes. Refuted for AverageUniqueness, SampleWeightsByReturns, SampleWeightsByTimeDecay, CUSUMFilter, TripleBarrierMethodLabeling, MovingAverageCrossOver, MACDHistogramCrossOver and BetSizingFromProbabilities: they store the arguments under other names, so get_params, clone and set_params always raise AttributeError (scikit-learn 0.24)."
  },
  {
   "property": "C95",
   "status": "partial",
   "theorems": [
    "C95_bagging_history",
    "C95_bagging_no_trace",
    "C95_bagging_spans_ignored_refuted",
    "C95_bagging_refuted",
    "C95_bagging_second_fit_refuted",
    "C95_as_new",
    "C95_plain",
    "C95_checks_skipped_refuted"
   ],
   "note": "Proved for all histories that leave label spans and bars alone and for the classes without checks. Refuted: set_params skips the checks of the constructor; the first fit of the bagging classifier ignores new spans and bars, and two equal calls of fit can then give different ensembles."
  },
  {
   "property": "C96",
   "status": "proved",
   "theorems": [
    "C96_arguments",
    "C96_indicators"
   ],
   "note": "Which attribute a method reads is listed in Params_Spec.v with the lines."
  },
  {
   "property": "C97",
   "status": "proved",
   "theorems": [
    "C97_binding",
    "C97_fast_slow",
    "C97_macd",
    "C97_trend_scanning",
    "C97_volume_type",
    "C97_side_column",
    "C97_step_size",
    "C97_incomparable",
    "C97_step_size_incomparable",
    "C97_nan_accepted"
   ],
   "note": "Arguments are integers, floats, booleans, strings and None; comparison of other objects is not modelled. Also: arguments that Python cannot compare raise TypeError, and NaN passes the check on the periods."
  },
  {
   "property": "C98",
   "status": "partial",
   "theorems": [
    "C98_bar_features",
    "C98_microstructure",
    "C98_technical",
    "C98_probabilities",
    "C98_factory",
    "C98_labels_partial",
    "C98_labels_refuted"
   ],
   "note": "Proved for every transformer, rule and TA-Lib transformer. False for the labelling without metalabeling: a column named \"side\" in its input is used although no side was asked for (C98_labels_refuted); C98_labels_partial is the strongest true statement: only the times, the closing prices and the column \"side\" matter."
  },
  {
   "property": "C99",
   "status": "proved",
   "theorems": [
    "C99_labels",
    "C99_decay",
    "C99_bets",
    "C99_step",
    "C99_prices",
    "C99_undocumented"
   ],
   "note": ""
  },
  {
   "property": "C100",
   "status": "proved",
   "theorems": [
    "C100_trends_up",
    "C100_trends_down",
    "C100_labels_up",
    "C100_labels_down",
    "C100_ewma_difference",
    "C100_crossover",
    "C100_crossover_turn",
    "C100_one_change"
   ],
   "note": ""
  },
  {
   "property": "C101",
   "status": "proved",
   "theorems": [
    "C101_cusum",
    "C101_decay",
    "C101_labels",
    "C101_mean_reversion",
    "C101_rsi_confirmation",
    "C101_bar_arrival",
    "C101_trend",
    "C101_sadf",
    "C101_sadf_penalty"
   ],
   "note": ""
  },
  {
   "property": "C102",
   "status": "proved",
   "theorems": [
    "C102_expected_uniqueness",
    "C102_untouched_first",
    "C102_same_rows"
   ],
   "note": ""
  },
  {
   "property": "C103",
   "status": "proved",
   "theorems": [
    "C103_left_out",
    "C103_required",
    "C103_any_order",
    "C103_fixed"
   ],
   "note": ""
  },
  {
   "property": "C104",
   "status": "proved",
   "theorems": [
    "C104_no_probability",
    "C104_no_classes",
    "C104_no_side",
    "C104_wrong_side",
    "C104_averaging"
   ],
   "note": ""
  },
  {
   "property": "C105",
   "status": "proved",
   "theorems": [
    "C105_sum",
    "C105_mean",
    "C105_std",
    "C105_max",
    "C105_min",
    "C105_cov",
    "C105_ewm_mean",
    "C105_ewm_std"
   ],
   "note": ""
  },
  {
   "property": "C106",
   "status": "proved",
   "theorems": [
    "C106_nearest",
    "C106_labels",
    "C106_later",
    "C106_return",
    "C106_cusum_bounded",
    "C106_cusum_one_side",
    "C106_cusum_exact"
   ],
   "note": "Doubles without overflow and signed zeros. The sums inside the moving statistics are not covered: the volatility is an arbitrary input here."
  },
  {
   "property": "C107",
   "status": "proved",
   "theorems": [
    "C107_average_uniqueness",
    "C107_update",
    "C107_bootstrap"
   ],
   "note": "No overflow; counts below 2^32; at most 2^26 bars, 2^22 samples, 2^38 draws. The order in which np.sum adds and the uniform numbers are arbitrary. numpy's choice is modelled from its source: Kahan check within 2^-26, cumulative sums, searchsorted."
  },
  {
   "property": "C108",
   "status": "partial",
   "theorems": [
    "C108_rounding",
    "C108_division",
    "C108_sample_count",
    "C108_fraction_partial",
    "C108_fraction_refuted",
    "C108_one_row_refuted",
    "C108_accepted",
    "C108_default",
    "C108_monotone",
    "C108_features"
   ],
   "note": "Proved: the number of rows is within one rounding of the exact product, K or K-1 when the fraction stands for K whole rows, all rows for 1.0, monotone, exact acceptance of fractions of features. Refuted: that K is always reached (0.29 of 100 gives 28; 1/49 of 49 raises ValueError). Products beyond the largest double are not modelled."
  },
  {
   "property": "C109",
   "status": "partial",
   "theorems": [
    "C109_clear_moves",
    "C109_half_tick",
    "C109_executable",
    "C109_decimal_refuted"
   ],
   "note": "Proved: the exact events when all moves keep clear of the threshold by length*(M+H)/2^50, hence for prices in ticks and a threshold half way between ticks; a run with rounded rationals equals the run in doubles. Refuted: equality without a margin (1.0, 1.1, ... with threshold 0.1). Missing prices are not covered here (C106 covers them on binary ticks)."
  },
  {
   "property": "C110",
   "status": "proved",
   "theorems": [
    "C110_predicts",
    "C110_signal",
    "C110_position",
    "C110_prediction_missing",
    "C110_no_class_one",
    "C110_primary_model",
    "C110_no_features",
    "C110_dataset",
    "C110_alignment"
   ],
   "note": "Acceptance of predict, predict_proba, get_side_and_size, create_position and create_dataset_primary from conditions on the parts, and the kind of error in the other cases. The features themselves (that transform and alignment succeed) are covered by C88 and C53. pandas raises InvalidIndexError in place of ValueError for repeated times in some versions; repeated times are excluded here."
  },
  {
   "property": "C111",
   "status": "proved",
   "theorems": [
    "C111_weights",
    "C111_succeeds",
    "C111_rejected"
   ],
   "note": "Doubles without overflow and signed zeros; at most 2^25 labels; 1 + c at least 2^-52."
  },
  {
   "property": "C112",
   "status": "partial",
   "theorems": [
    "C112_tried_or_memory",
    "C112_best_of_tried",
    "C112_two_bars_refuted",
    "C112_one_bar_refuted",
    "C112_step_zero"
   ],
   "note": "Any step and minimum length. The full claim (best of the lengths tried) is proved when fresh memory holds zeros and refuted otherwise (C33); C112_tried_or_memory says what holds whatever the memory. Minimum lengths 1 and 2 are proved never to work, although the constructor accepts them. The result for a minimum of two is that of exact arithmetic: in doubles the residual of two bars may be a tiny non-zero number instead of 0, and the t-value then 0 instead of NaN."
  },
  {
   "property": "C113",
   "status": "proved",
   "theorems": [
    "C113_range",
    "C113_sizes",
    "C113_averages",
    "C113_sign",
    "C113_monotone",
    "C113_discretise",
    "C113_decimal_step",
    "C113_same_errors"
   ],
   "note": "Doubles without overflow and signed zeros; norm.cdf is any function into the doubles of [0, 1] that is monotone with value 1/2 at 0 (scipy's implementation is not modelled); numba's np.mean adds from left to right."
  },
  {
   "property": "C114",
   "status": "partial",
   "theorems": [
    "C114_csw",
    "C114_csw_mirror",
    "C114_chow",
    "C114_chow_origin_refuted",
    "C114_sadf",
    "C114_sadf_origin_refuted"
   ],
   "note": "Independence of unit and origin is proved for every test and model for which it holds; where the regression has no constant the origin matters, which is proved by the two _origin_refuted theorems (on log prices the origin is the price unit)."
  },
  {
   "property": "C115",
   "status": "partial",
   "theorems": [
    "C115_exact",
    "C115_never_fails",
    "C115_sums",
    "C115_ticks",
    "C115_vpin",
    "C115_executable",
    "C115_decimals_refuted",
    "C115_above_one_refuted",
    "C115_history_refuted"
   ],
   "note": "Proved for volumes on a grid of a power of two (C115_sums, C115_ticks, C115_vpin) and in exact arithmetic (C115_exact); refuted for decimal volumes (C115_decimals_refuted, C115_above_one_refuted, C115_history_refuted), with the generic model run on rounded rationals (C115_executable). Distances in general: C120."
  },
  {
   "property": "C116",
   "status": "partial",
   "theorems": [
    "C116_exact",
    "C116_ticks",
    "C116_flat",
    "C116_executable",
    "C116_decimals_refuted"
   ],
   "note": "Proved for prices on a grid of a power of two (C116_ticks, C116_flat) and in exact arithmetic (C116_exact); refuted for decimal prices (C116_decimals_refuted): crossings in a flat market. The moving averages can be run on rounded rationals (C116_executable). Distances in general: C120."
  },
  {
   "property": "C117",
   "status": "partial",
   "theorems": [
    "C117_exact",
    "C117_flat",
    "C117_flat_ticks",
    "C117_executable",
    "C117_flat_refuted",
    "C117_history_refuted",
    "C117_spike_refuted"
   ],
   "note": "Exact arithmetic (C117_exact) and flat series (C117_flat for any double, C117_flat_ticks on a grid) proved; refuted for a flat decimal series (C117_flat_refuted), a flat window after other values (C117_history_refuted) and a large value that has left the window (C117_spike_refuted). The variances can be run on rounded rationals (C117_executable)."
  },
  {
   "property": "C118",
   "status": "partial",
   "theorems": [
    "C118_exact",
    "C118_average_exact",
    "C118_not_negative",
    "C118_defined",
    "C118_flat",
    "C118_flat_prices",
    "C118_average_flat",
    "C118_one_return_refuted",
    "C118_missing_prices_refuted"
   ],
   "note": "Proved in doubles: sign (C118_not_negative), values in every row but the first without gaps (C118_defined), flat markets (C118_flat, C118_flat_prices, C118_average_flat); exact arithmetic (C118_exact, C118_average_exact). Refuted: a single return followed by missing ones gets volatility 0 (C118_one_return_refuted, C118_missing_prices_refuted). Distances in general: C121."
  },
  {
   "property": "C119",
   "status": "partial",
   "theorems": [
    "C119_exact",
    "C119_not_negative",
    "C119_spread_range",
    "C119_flat",
    "C119_residue_refuted",
    "C119_quiet_refuted"
   ],
   "note": "Proved in doubles for any logarithm: signs (C119_not_negative), range of the spread (C119_spread_range), a price that never moved (C119_flat); exact arithmetic (C119_exact). Refuted when the market was moving before: Kyle's lambda keeps a positive residue (C119_residue_refuted), the Corwin-Schultz spread is missing because a sum of squares is negative (C119_quiet_refuted). Distances for the averages: C120."
  },
  {
   "property": "C120",
   "status": "proved",
   "theorems": [
    "C120_sums",
    "C120_means",
    "C120_crossover",
    "C120_decimal_crossover",
    "C120_vpin",
    "C120_kyle_residue"
   ],
   "note": "Quantitative counterpart of C115, C116 and C119, whose refutations show that the doubles are not exact: here the distance is bounded for every history. The crossover theorem for decimal prices needs the two decimal averages to differ wherever both exist (C116_decimals_refuted shows the tie case fails). pandas' rolling sums and means are modelled after aggregations.pyx (Double_Vpin_Model, Double_Cross_Model); overflow is outside the model of doubles."
  },
  {
   "property": "C121",
   "status": "proved",
   "theorems": [
    "C121_average",
    "C121_difference",
    "C121_sign",
    "C121_volatility"
   ],
   "note": "Specification in Double_Bound_Spec (held_below, close_to). The comparison is with the exact reading of the same recursion (ewm_mean, ewm_std). The volatility part takes the returns as they are held; the rounding of the returns themselves is not part of it."
  },
  {
   "property": "C122",
   "status": "proved",
   "theorems": [
    "C122_stable",
    "C122_size",
    "C122_doubles"
   ],
   "note": "The deviation is rewritten as a weighted average over pairs of returns, which gives the constant sqrt 2 by the Cauchy-Schwarz inequality; the double part adds the rounding of the returns to the bound of C121."
  },
  {
   "property": "C123",
   "status": "proved",
   "theorems": [
    "C123_windows",
    "C123_difference",
    "C123_imbalance",
    "C123_side",
    "C123_side_margin_needed"
   ],
   "note": "Exact arithmetic. Specification in Stable_Spec (revised) and Double_Bound_Spec (close_to). C123_side_margin_needed shows that the distance asked for by C123_side cannot be dropped."
  },
  {
   "property": "C124",
   "status": "proved",
   "theorems": [
    "C124_events",
    "C124_events_margin_needed",
    "C124_labels",
    "C124_returns",
    "C124_labels_margin_needed"
   ],
   "note": "Exact arithmetic. C124_returns gives the bound d from a relative revision of the prices; C122 bounds the change of the volatility. C124_events_margin_needed and C124_labels_margin_needed show that the distances cannot be dropped."
  },
  {
   "property": "C125",
   "status": "proved",
   "theorems": [
    "C125_exact",
    "C125_unique",
    "C125_restart",
    "C125_late_start",
    "C125_agree"
   ],
   "note": "Specification in Cusum_Restart_Spec (moves). Prices are exact rationals without missing values. Examples show that both bounds of C125_late_start are reached and that two runs in a steady climb never share an event."
  },
  {
   "property": "C126",
   "status": "proved",
   "theorems": [
    "C126_row",
    "C126_fixed_barriers",
    "C126_trend"
   ],
   "note": "Specification in Label_Cut_Spec (without_first). C126_negative_bars (an Example) shows that the expiration must not be negative."
  },
  {
   "property": "C127",
   "status": "proved",
   "theorems": [
    "C127_average",
    "C127_difference",
    "C127_warm_up"
   ],
   "note": "Exact arithmetic, columns without missing values; rounding is bounded separately in C121."
  },
  {
   "property": "C128",
   "status": "proved",
   "theorems": [
    "C128_event_budget",
    "C128_quiet_market"
   ],
   "note": "Exact arithmetic, series without missing values and with distinct timestamps."
  }
 ]
}