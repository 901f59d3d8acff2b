{
 "claims": [
  {
   "property": "C01",
   "status": "proved",
   "theorems": [
    "C01_incr_cum_incr",
    "C01_two_periods_refuted"
   ],
   "note": "Exact for at least two origins and three development periods, or when no cell lies in the future; the remaining shapes are refuted by C01_two_periods_refuted."
  },
  {
   "property": "C02",
   "status": "proved",
   "theorems": [
    "C02_cum_incr_cum",
    "C02_single_period_raises"
   ],
   "note": ""
  },
  {
   "property": "C03",
   "status": "proved",
   "theorems": [
    "C03_increments_sum_to_latest",
    "C03_two_periods_refuted"
   ],
   "note": "Same shape condition as C01; refuted for two development periods."
  },
  {
   "property": "C04",
   "status": "proved",
   "theorems": [
    "C04_incr_to_cum_idempotent",
    "C04_cum_to_incr_idempotent"
   ],
   "note": ""
  },
  {
   "property": "C05",
   "status": "proved",
   "theorems": [
    "C05_cdf_is_product",
    "C05_ldf_cdf_ldf",
    "C05_cdf_ldf_cdf"
   ],
   "note": ""
  },
  {
   "property": "C06",
   "status": "proved",
   "theorems": [
    "C06_to_valuation",
    "C06_round_trip",
    "C06_to_ages",
    "C06_diagonal_to_ages",
    "C06_full_to_valuation",
    "C06_ultimate_to_valuation",
    "C06_ultimate_to_ages",
    "C06_ultimate_round_trip",
    "C06_full_way_back",
    "C06_first_origin_only_refuted",
    "C06_later_valuations_refuted",
    "C06_few_ages_refuted"
   ],
   "note": "Evenly spaced grids whose spacing matches the grains; the three boundaries are C06_first_origin_only_refuted, C06_few_ages_refuted and C06_later_valuations_refuted. A full cumulative triangle without ultimates comes back with extra ages that repeat its last totals."
  },
  {
   "property": "C07",
   "status": "proved",
   "theorems": [
    "C07_coarsen",
    "C07_coarsen_valuations",
    "C07_totals_unchanged",
    "C07_quarters_over_year_end_refuted",
    "C07_partial_first_year_refuted",
    "C07_single_half_year_refuted"
   ],
   "note": "Evenly spaced grids; boundaries C07_quarters_over_year_end_refuted, C07_single_half_year_refuted, C07_partial_first_year_refuted. trailing=True enters as the closing month, an arbitrary parameter."
  },
  {
   "property": "C08",
   "status": "proved",
   "theorems": [
    "C08_development",
    "C08_increments_add_up",
    "C08_commutes_with_accumulation"
   ],
   "note": "For development and valuation triangles; commutation with incr_to_cum on regular triangles."
  },
  {
   "property": "C09",
   "status": "proved",
   "theorems": [
    "C09_not_nested_rejected",
    "C09_unknown_flag_rejected",
    "C09_finer_origin_rejected",
    "C09_legal_development_accepted",
    "C09_quarters_over_year_end_refuted",
    "C09_half_years_refuted"
   ],
   "note": "Rejections hold for every triangle; acceptance on the grids of C07; C09_half_years_refuted and C09_quarters_over_year_end_refuted mark legal requests that fail."
  },
  {
   "property": "C10",
   "status": "proved",
   "theorems": [
    "C10_link_ratio"
   ],
   "note": ""
  },
  {
   "property": "C11",
   "status": "proved",
   "theorems": [
    "C11_latest_diagonal",
    "C11_regular"
   ],
   "note": ""
  },
  {
   "property": "C12",
   "status": "proved",
   "theorems": [
    "C12_add_sub_cells",
    "C12_add_commutes",
    "C12_add_associates",
    "C12_sub_undoes_add",
    "C12_sub_self_empty",
    "C12_sum_of_list"
   ],
   "note": ""
  },
  {
   "property": "C13",
   "status": "proved",
   "theorems": [
    "C13_align_by_label",
    "C13_gaps_refuted"
   ],
   "note": "Gap-free axes; the silent positional addition of axes with gaps is C13_gaps_refuted."
  },
  {
   "property": "C14",
   "status": "proved",
   "theorems": [
    "C14_align_by_column",
    "C14_contained_columns_raise"
   ],
   "note": "The contained-columns case raises (C14_contained_columns_raise)."
  },
  {
   "property": "C15",
   "status": "proved",
   "theorems": [
    "C15_align_by_key",
    "C15_unrelated_labels_raise",
    "C15_single_rows_refuted"
   ],
   "note": "At least two rows on both sides and equal key labels; the one-row broadcast is C15_single_rows_refuted."
  },
  {
   "property": "C16",
   "status": "proved",
   "theorems": [
    "C16_iloc",
    "C16_uneven_origins_rejected",
    "C16_uneven_ages_rejected",
    "C16_outside_rejected",
    "C16_whole_axis_step_refuted",
    "C16_backward_from_first_refuted",
    "C16_repeated_position_refuted"
   ],
   "note": "All integers, slices and lists on all four axes; the three boundaries are C16_whole_axis_step_refuted, C16_backward_from_first_refuted and C16_repeated_position_refuted. The valuation date clause excludes triangles with an ultimate age."
  },
  {
   "property": "C17",
   "status": "proved",
   "theorems": [
    "C17_valuation_filter",
    "C17_upto_spacing",
    "C17_after_spacing",
    "C17_valuation_is_month"
   ],
   "note": ""
  },
  {
   "property": "C18",
   "status": "proved",
   "theorems": [
    "C18_groups",
    "C18_total",
    "C18_row_order"
   ],
   "note": "groupby on the index axis with sum; grouping of columns, origins and ages and the other aggregations are not modelled."
  },
  {
   "property": "C19",
   "status": "proved",
   "theorems": [
    "C19_trims",
    "C19_nonnegative",
    "C19_empty_rejected",
    "C19_cancelling_amounts_refuted"
   ],
   "note": "C19_trims for amounts of any sign; C19_cancelling_amounts_refuted shows the loss of a non-empty origin."
  },
  {
   "property": "C20",
   "status": "proved",
   "theorems": [
    "C20_cells",
    "C20_total",
    "C20_row_order",
    "C20_ages",
    "C20_no_rows",
    "C20_ages_as_dates",
    "C20_grain",
    "C20_fiscal_years_refuted",
    "C20_half_years_refuted"
   ],
   "note": "Tables with dates from 1900 to 2078, yearly, quarterly or monthly periods; C20_row_order holds for every table. C20_fiscal_years_refuted and C20_half_years_refuted mark the boundary. Parsing of dates from text and ultimate rows are not modelled."
  },
  {
   "property": "C21",
   "status": "proved",
   "theorems": [
    "C21_to_sparse_and_back",
    "C21_to_dense_and_back",
    "C21_programs",
    "C21_accumulation",
    "C21_set_cell",
    "C21_set_column",
    "C21_mean_of_zeros_refuted",
    "C21_missing_factor_refuted",
    "C21_stored_missing_refuted",
    "C21_set_cell_of_empty_refuted",
    "C21_set_column_by_one_row_refuted",
    "C21_gaps_refuted"
   ],
   "note": "The coordinate array type of the sparse package is specified, not taken from its source. C21_programs is by induction over programs; six refuted theorems state where the storages differ. Automatic choice of the storage (auto_sparse) and cupy/dask are not modelled."
  },
  {
   "property": "C22",
   "status": "proved",
   "theorems": [
    "C22_amounts",
    "C22_memory",
    "C22_results_are_new",
    "C22_copy",
    "C22_no_virtual_columns",
    "C22_virtual_columns",
    "C22_rename_refuted",
    "C22_virtual_column_of_copy_refuted",
    "C22_assigned_sparse_column_refuted",
    "C22_same_object_refuted"
   ],
   "note": "Heap.v models objects, arrays, dictionaries of virtual columns and names; what derived operations compute is a parameter. Object attributes other than amounts and virtual columns are replaced, never written into, by the modelled code. Fitted estimators and user-held numpy views are outside the model."
  },
  {
   "property": "C23",
   "status": "proved",
   "theorems": [
    "C23_concat_cells",
    "C23_concat_amounts",
    "C23_concat_columns",
    "C23_concat_rejects",
    "C23_column_order_refuted"
   ],
   "note": "Needs the operands to list their columns in one order; otherwise C23_column_order_refuted."
  },
  {
   "property": "C24",
   "status": "proved",
   "theorems": [
    "C24_eq_compares_amounts",
    "C24_eq_equivalence",
    "C24_lt_cells",
    "C24_le_refuted"
   ],
   "note": "<= is irreflexive (C24_le_refuted holds for every triangle)."
  },
  {
   "property": "C25",
   "status": "proved",
   "theorems": [
    "C25_factors_are_averages",
    "C25_residual_variance"
   ],
   "note": "Under `fittable`, which states for which parameters a fit is defined (labels known, lists long enough, drop rules inside their domain); sigma interpolation is separate."
  },
  {
   "property": "C26",
   "status": "proved",
   "theorems": [
    "C26_between_ratios",
    "C26_equal_ratios"
   ],
   "note": ""
  },
  {
   "property": "C27",
   "status": "proved",
   "theorems": [
    "C27_excluded_ratios_irrelevant",
    "C27_only_selected_matter"
   ],
   "note": ""
  },
  {
   "property": "C28",
   "status": "proved",
   "theorems": [
    "C28_factors_scale_free",
    "C28_runoff_scales",
    "C28_ultimates_scale"
   ],
   "note": "Factors, ultimates and IBNR end to end; the run-off for equal factors and scaled ultimates, which the first two parts supply."
  },
  {
   "property": "C29",
   "status": "proved",
   "theorems": [
    "C29_kept_by_rank",
    "C29_number_kept",
    "C29_dropped_are_extreme",
    "C29_more_origins_than_ages_refuted",
    "C29_n_periods_list_refuted"
   ],
   "note": "Under the guard on the number of ratios; outside it C29_more_origins_than_ages_refuted and C29_n_periods_list_refuted."
  },
  {
   "property": "C30",
   "status": "proved",
   "theorems": [
    "C30_kept_within_limits",
    "C30_drop_above_alone_refuted"
   ],
   "note": "The default lower limit becomes active with drop_above alone: C30_drop_above_alone_refuted."
  },
  {
   "property": "C31",
   "status": "proved",
   "theorems": [
    "C31_ultimate_and_ibnr",
    "C31_ibnr_sign",
    "C31_fitted_factors_and_tail",
    "C31_default_factors"
   ],
   "note": ""
  },
  {
   "property": "C32",
   "status": "proved",
   "theorems": [
    "C32_iterations",
    "C32_converges",
    "C32_offsetting_expectation_refuted"
   ],
   "note": "An expectation that offsets the latest amount exactly gives a missing ultimate: C32_offsetting_expectation_refuted."
  },
  {
   "property": "C33",
   "status": "proved",
   "theorems": [
    "C33_weighted_average",
    "C33_between",
    "C33_decay_one",
    "C33_decay_zero",
    "C33_ultimates"
   ],
   "note": "Cumulative triangles without groupby and on-level factors; trend factors are arbitrary. Origins used are those with exposure that does not offset the latest amount."
  },
  {
   "property": "C34",
   "status": "proved",
   "theorems": [
    "C34_full_triangle",
    "C34_ends_at_ultimate",
    "C34_between",
    "C34_chain_ladder",
    "C34_incremental",
    "C34_flat_development_refuted",
    "C34_zero_ultimate_refuted",
    "C34_two_by_two_refuted"
   ],
   "note": "For evenly spaced ages, at least two origins, at least three known ages of the oldest and two of the next origin. Cells, last column, bounds, chain ladder and incremental case; flat remaining development, zero ultimates and two-by-two triangles are refuted."
  },
  {
   "property": "C35",
   "status": "proved",
   "theorems": [
    "C35_cumulative",
    "C35_chain_ladder",
    "C35_incremental",
    "C35_incremental_tail_refuted"
   ],
   "note": "For every pattern of at least two factors whose ages stay before the last representable date and every vector of ultimates: cells, prefix sums and the chain ladder case. The reversed tail increment of incremental models is proved as a refutation."
  },
  {
   "property": "C36",
   "status": "proved",
   "theorems": [
    "C36_tail_product",
    "C36_first_age_refuted"
   ],
   "note": "Attachment after the first age; at the first age it is ignored: C36_first_age_refuted. The first decay factor is arbitrary."
  },
  {
   "property": "C37",
   "status": "proved",
   "theorems": [
    "C37_weighted_average",
    "C37_between",
    "C37_one_member",
    "C37_scaling",
    "C37_order",
    "C37_dropped_member_refuted"
   ],
   "note": "For weights per origin, per column and origin, or per cell; C37_dropped_member_refuted marks the boundary. Members are arbitrary vectors labelled as ultimates of the triangle; C31-C33 prove that the methods return such vectors."
  },
  {
   "property": "C38",
   "status": "proved",
   "theorems": [
    "C38_checked",
    "C38_array",
    "C38_mapping",
    "C38_unknown_origin",
    "C38_function",
    "C38_no_weights",
    "C38_more_origins_than_ages_refuted"
   ],
   "note": "C38_more_origins_than_ages_refuted states the failure of the default. Checks of estimator names and classes are not modelled."
  },
  {
   "property": "C39",
   "status": "proved",
   "theorems": [
    "C39_accepts",
    "C39_no_sigma",
    "C39_parameter_risk",
    "C39_process_risk",
    "C39_std_err",
    "C39_total_parameter",
    "C39_totals",
    "C39_total_parameter_bounds",
    "C39_mack_formula",
    "C39_factor_errors",
    "C39_monotone",
    "C39_certain_factors",
    "C39_unused_limit_refuted",
    "C39_unprojected_tail_refuted",
    "C39_no_growth_refuted",
    "C39_several_lines_refuted"
   ],
   "note": "Over the reals (stdlib real-number axioms). Recursion, closed form, totals with bounds, estimated sigma and standard error, monotonicity; unused drop_above limit, unprojected tail, factors that never exceed 1 and several index rows are refuted."
  },
  {
   "property": "C40",
   "status": "proved",
   "theorems": [
    "C40_age_to_age",
    "C40_cumulative",
    "C40_chain_ladder",
    "C40_missing_age"
   ],
   "note": "Dictionaries and functions of the index row; groupby and callable_axis 0 are not modelled. With zero among the cumulative factors the quotients are undefined, so C40_cumulative asks for non-zero numbers."
  },
  {
   "property": "C41",
   "status": "proved",
   "theorems": [
    "C41_factor",
    "C41_factor_unique",
    "C41_zero",
    "C41_inverse",
    "C41_compound",
    "C41_adjacent",
    "C41_older_more",
    "C41_estimator",
    "C41_estimator_order",
    "C41_errors",
    "C41_ultimate_lag_refuted"
   ],
   "note": "Over the reals (stdlib real-number axioms), for rates above -1; months instead of timestamps. The lag of ultimates is refuted."
  },
  {
   "property": "C42",
   "status": "proved",
   "theorems": [
    "C42_shift",
    "C42_shift_0",
    "C42_other_axes_rejected"
   ],
   "note": "By induction on the number of periods, both directions and both axes."
  },
  {
   "property": "C43",
   "status": "proved",
   "theorems": [
    "C43_sort_axis",
    "C43_sort_index",
    "C43_pattern_ages_refuted"
   ],
   "note": "All four axes; C43_pattern_ages_refuted marks the boundary."
  },
  {
   "property": "C44",
   "status": "proved",
   "theorems": [
    "C44_grid",
    "C44_several_grids",
    "C44_rows",
    "C44_succeeds",
    "C44_any_schedule",
    "C44_unknown_parameter",
    "C44_no_values",
    "C44_scorer_named_as_parameter_refuted"
   ],
   "note": "Generic in the estimator: fitting and scoring are arbitrary functions that may fail. C44_any_schedule covers parallel jobs; C44_scorer_named_as_parameter_refuted states the name clash."
  },
  {
   "property": "C45",
   "status": "proved",
   "theorems": [
    "C45_months",
    "C45_valuation"
   ],
   "note": "Every pair of months less than 1000 years apart, with an arbitrary floating point error of up to a second."
  },
  {
   "property": "C46",
   "status": "proved",
   "theorems": [
    "C46_latest_n_ratios"
   ],
   "note": ""
  },
  {
   "property": "C47",
   "status": "proved",
   "theorems": [
    "C47_drop_valuation",
    "C47_finer_ages_refuted"
   ],
   "note": "Equal origin and development periods; otherwise C47_finer_ages_refuted."
  },
  {
   "property": "C48",
   "status": "proved",
   "theorems": [
    "C48_in_place",
    "C48_cum_to_incr_no_effect",
    "C48_cum_to_incr_refuted",
    "C48_pattern_refuted"
   ],
   "note": "grain, dev_to_val and val_to_dev with inplace=True also return a new object (they are CDerive in Heap.v, so C22_amounts shows the triangle is unchanged)."
  },
  {
   "property": "C49",
   "status": "proved",
   "theorems": [
    "C49_log_linear",
    "C49_on_curve",
    "C49_mack",
    "C49_mack_kept",
    "C49_flat_refuted",
    "C49_second_missing_refuted"
   ],
   "note": "Logarithms, roots and exponentials are exact reals; a sum that is 0 in exact arithmetic may be a tiny number in floating point."
  },
  {
   "property": "C50",
   "status": "proved",
   "theorems": [
    "C50_fitted",
    "C50_decay",
    "C50_tail_product",
    "C50_projection_period",
    "C50_on_curve",
    "C50_raise",
    "C50_one_refuted",
    "C50_flat_refuted",
    "C50_short_refuted",
    "C50_fit_period_refuted"
   ],
   "note": "The deprecated slice form of fit_period is not modelled. Factors given to the fit are rationals, the fitted ones reals."
  },
  {
   "property": "C51",
   "status": "proved",
   "theorems": [
    "C51_tail_deviation",
    "C51_on_curve",
    "C51_kept",
    "C51_no_tail",
    "C51_gap_refuted"
   ],
   "note": "tail_deviation true is sigma_, false is std_err_."
  },
  {
   "property": "C52",
   "status": "proved",
   "theorems": [
    "C52_known_rows",
    "C52_aggregate_factors",
    "C52_fitted_triangle",
    "C52_too_old",
    "C52_benktander",
    "C52_older_valuation_refuted",
    "C52_single_origin_refuted",
    "C52_single_age_refuted",
    "C52_unknown_row_refuted"
   ],
   "note": "Shared rows must come in the same order in the factors and the new data. The fitted triangle has at least two ages (or the same ages as the new data). apriori_sigma and process variance are not modelled. Four boundary cases are refuted."
  },
  {
   "property": "C53",
   "status": "proved",
   "theorems": [
    "C53_frame",
    "C53_cells",
    "C53_determined",
    "C53_order",
    "C53_sum_order",
    "C53_grand_total",
    "C53_number",
    "C53_default_axis",
    "C53_future",
    "C53_groups",
    "C53_product_refuted",
    "C53_zero_maximum_refuted",
    "C53_cumsum_diff_refuted"
   ],
   "note": "std and quantile are not modelled. Dense storage: the sparse backend has no median, var and prod. Three boundary cases are refuted."
  },
  {
   "property": "C54",
   "status": "proved",
   "theorems": [
    "C54_loc",
    "C54_unknown_column",
    "C54_unknown_origin",
    "C54_unknown_age",
    "C54_unknown_key",
    "C54_columns",
    "C54_column",
    "C54_key_values",
    "C54_unknown_name",
    "C54_row_filter",
    "C54_origin_filter",
    "C54_age_filter",
    "C54_cell_filter",
    "C54_shadowed_refuted",
    "C54_filter_date_refuted"
   ],
   "note": "Dense storage, no virtual columns. Origins and ages are selected by their dates, not by the text shown; partial date strings are not modelled. Two boundary cases are refuted."
  },
  {
   "property": "C55",
   "status": "proved",
   "theorems": [
    "C55_assign",
    "C55_read_back",
    "C55_by_label",
    "C55_new_number",
    "C55_old_number",
    "C55_same_shape_refuted",
    "C55_failure_refuted",
    "C55_future_refuted",
    "C55_wide_refuted"
   ],
   "note": "Dense storage, no virtual columns, no functions as values. Four boundary cases are refuted."
  },
  {
   "property": "C56",
   "status": "proved",
   "theorems": [
    "C56_years_by_month",
    "C56_months_by_month",
    "C56_single_change",
    "C56_settled",
    "C56_years_by_day",
    "C56_fit_by_month",
    "C56_fit_by_day",
    "C56_after_leap_year_refuted",
    "C56_years_after_leap",
    "C56_within_a_month",
    "C56_mid_month_refuted",
    "C56_quarters_refuted"
   ],
   "note": "Dates are day numbers of the Gregorian calendar. Start and end on month boundaries. Monthly origins by day are modelled without a theorem. Rate histories by key label are not modelled. Three boundary cases are refuted."
  },
  {
   "property": "C57",
   "status": "proved",
   "theorems": [
    "C57_large_above_median",
    "C57_test",
    "C57_test_link_ratios",
    "C57_mean",
    "C57_variance",
    "C57_probability",
    "C57_level",
    "C57_total_never_rejects",
    "C57_total_refuted"
   ],
   "note": "Counts and probabilities are exact numbers, not floats; the labels put on the results are not modelled. The normal quantile of total=True is any number that is not positive. One boundary case is refuted."
  },
  {
   "property": "C58",
   "status": "proved",
   "theorems": [
    "C58_rank_correlation",
    "C58_bounds",
    "C58_same_order",
    "C58_opposite_order",
    "C58_mean",
    "C58_reject",
    "C58_reject_refuted",
    "C58_ties_refuted",
    "C58_more_origins_refuted",
    "C58_three_ages",
    "C58_more_ages_refuted"
   ],
   "note": "The normal quantile of the confidence interval is any number. Numbers are exact. Four boundary cases are refuted."
  },
  {
   "property": "C59",
   "status": "proved",
   "theorems": [
    "C59_loss_rates",
    "C59_known_increments",
    "C59_future_increments",
    "C59_frame",
    "C59_factors",
    "C59_ultimates",
    "C59_exposure_unit",
    "C59_refused",
    "C59_ultimates_refuted",
    "C59_zero_future_trend_refuted",
    "C59_zero_increment_refuted",
    "C59_two_ages_refuted",
    "C59_finer_ages_refuted"
   ],
   "note": "n_periods, the drop rules, a trend_ or w_ already on the triangle and transform are not modelled. The power is any function with the three laws of power_like; the Example uses whole years. An age whose loss rate is exactly 0 is missing throughout. Five boundary cases are refuted."
  },
  {
   "property": "C60",
   "status": "proved",
   "theorems": [
    "C60_round_trip",
    "C60_same_triangle",
    "C60_two_ages_refuted",
    "C60_empty_row_refuted",
    "C60_quiet_period_refuted",
    "C60_empty_origin_refuted",
    "C60_unset_refuted",
    "C60_third_refuted",
    "C60_quarter_refuted"
   ],
   "note": "Age triangles; valuation triangles, patterns, virtual columns and attached triangles or frames are not covered. Text keys are taken to be read as written. Seven boundary cases are refuted."
  },
  {
   "property": "C61",
   "status": "proved",
   "theorems": [
    "C61_factors",
    "C61_one_label_each",
    "C61_tail_limit",
    "C61_classic",
    "C61_decay",
    "C61_recovers",
    "C61_refuses",
    "C61_attachment_refuted",
    "C61_labels_refuted",
    "C61_last_age_refuted",
    "C61_beyond_refuted"
   ],
   "note": "The exponent is arbitrary (the optimiser is not modelled) except in C61_recovers, which assumes a minimum of the squared distances. Factors that are not positive are not modelled; the statistics of the tail are C51. Four boundary cases are refuted."
  },
  {
   "property": "C62",
   "status": "proved",
   "theorems": [
    "C62_fits",
    "C62_ratios",
    "C62_spread",
    "C62_slopes",
    "C62_known",
    "C62_step",
    "C62_on_average",
    "C62_factors",
    "C62_other_columns",
    "C62_labels",
    "C62_missing",
    "C62_refuses",
    "C62_gap",
    "C62_gap_refuted",
    "C62_settled",
    "C62_known_refuted"
   ],
   "note": "The factors ldf_ and deviations sigma_ of the development are arbitrary (their fit is C25, C39 and C49). fillna=True, transform and predict are not modelled. The deviation at the last age (one origin) is interpolated and only required to be there. Two boundary cases are refuted."
  },
  {
   "property": "C63",
   "status": "proved",
   "theorems": [
    "C63_fits",
    "C63_refuses",
    "C63_labels",
    "C63_others",
    "C63_closed",
    "C63_rates",
    "C63_incurred",
    "C63_no_case",
    "C63_latest",
    "C63_bracket",
    "C63_paid",
    "C63_parameters",
    "C63_between",
    "C63_unchanged",
    "C63_two_ages_refuted",
    "C63_zero_case_refuted",
    "C63_latest_refuted"
   ],
   "note": "The ultimate numbers of claims are those of the estimator (C16) and arbitrary here; powers are any function with the laws of powers. transform and set_params are not modelled. Three boundary cases are refuted."
  },
  {
   "property": "C64",
   "status": "proved",
   "theorems": [
    "C64_growth",
    "C64_growth_value",
    "C64_fits",
    "C64_unknown_growth",
    "C64_labels",
    "C64_factors",
    "C64_pattern",
    "C64_fitted",
    "C64_fitted_total",
    "C64_scale",
    "C64_residuals",
    "C64_likelihood",
    "C64_exposure_likelihood",
    "C64_currency",
    "C64_loss_ratio",
    "C64_tail",
    "C64_tail_whole",
    "C64_truncation",
    "C64_truncation_refuted",
    "C64_cape_cod_refuted",
    "C64_zero_increment_refuted",
    "C64_two_origins_refuted",
    "C64_tail_beyond_refuted"
   ],
   "note": "The optimiser is not modelled: omega_ and theta_ are any positive numbers, and the function it minimises is stated (C64_likelihood). groupby and transform are not modelled. Five boundary cases are refuted."
  },
  {
   "property": "C65",
   "status": "proved",
   "theorems": [
    "C65_fits",
    "C65_case_ratios",
    "C65_paid_ratios",
    "C65_averages",
    "C65_transforms",
    "C65_case_latest",
    "C65_case_step",
    "C65_case_closed",
    "C65_case_gap",
    "C65_paid_known",
    "C65_paid_future",
    "C65_paid_nothing",
    "C65_labels",
    "C65_factors",
    "C65_factor_from_zero",
    "C65_restated_refuted",
    "C65_reopened_refuted",
    "C65_closed_share_refuted",
    "C65_paid_nothing_refuted",
    "C65_two_ages_refuted"
   ],
   "note": "groupby is not modelled. The known cells of all rows and columns must not add up to 0 (an empty cell in the total changes the valuation mask). Five boundary cases are refuted."
  },
  {
   "property": "C66",
   "status": "proved",
   "theorems": [
    "C66_fits",
    "C66_nothing_to_draw",
    "C66_refused",
    "C66_expected",
    "C66_origin_totals",
    "C66_age_totals",
    "C66_effects",
    "C66_likelihood",
    "C66_design",
    "C66_scale",
    "C66_pool",
    "C66_centred",
    "C66_samples",
    "C66_labels",
    "C66_unbiased",
    "C66_two_origins",
    "C66_standstill_refuted",
    "C66_regular_refuted"
   ],
   "note": "The hat matrix, several columns, transform and the process variance are not modelled. The scale and the residuals drawn are stated where no expected increment is 0 (numpy divides by 0 there). Two boundary cases are refuted."
  },
  {
   "property": "C67",
   "status": "proved",
   "theorems": [
    "C67_fill",
    "C67_fill_triangle",
    "C67_fill_again",
    "C67_drop",
    "C67_drop_refused",
    "C67_head",
    "C67_tail",
    "C67_minimum",
    "C67_maximum",
    "C67_cap_and_floor",
    "C67_absolute",
    "C67_number_less",
    "C67_power",
    "C67_one_origin_refuted",
    "C67_later_refuted",
    "C67_more_rows_refuted",
    "C67_axis_name_refuted",
    "C67_tail_zero_refuted",
    "C67_by_position_refuted",
    "C67_floor_refuted",
    "C67_power_zero_refuted"
   ],
   "note": "inplace=True, which assigns the same result to the caller, and sparse storage are not modelled. Eight boundary cases are refuted."
  },
  {
   "property": "C68",
   "status": "proved",
   "theorems": [
    "C68_summary",
    "C68_latest",
    "C68_year",
    "C68_latest_refuted",
    "C68_year_refuted",
    "C68_two_origins_refuted",
    "C68_quarterly_refuted"
   ],
   "note": "Proved for square yearly triangles. groupby, Month Incremental and the run-offs of monthly and semi-annual triangles are not covered by the general theorems; the quarterly case is refuted. Four boundary cases are refuted."
  },
  {
   "property": "C69",
   "status": "proved",
   "theorems": [
    "C69_columns",
    "C69_index",
    "C69_origin",
    "C69_period",
    "C69_development",
    "C69_length",
    "C69_reindex",
    "C69_iat",
    "C69_iat_outside",
    "C69_append",
    "C69_round",
    "C69_unit",
    "C69_index_list_refuted",
    "C69_text_refuted",
    "C69_later_origins_refuted",
    "C69_valuations_refuted",
    "C69_reindex_keeps_refuted",
    "C69_iat_future_refuted"
   ],
   "note": "Origins that close in a month other than December, labels of other types (dates as texts) and sparse storage are not modelled; reindex with a number needs at least two origins and ages. Six boundary cases are refuted."
  },
  {
   "property": "C70",
   "status": "proved",
   "theorems": [
    "C70_estimator",
    "C70_reads_as",
    "C70_some",
    "C70_unknown",
    "C70_refused",
    "C70_pipeline",
    "C70_pipeline_refused",
    "C70_tuple_refuted",
    "C70_tail_curve_refuted",
    "C70_patterns_refuted",
    "C70_voting_refuted",
    "C70_berquist_refuted"
   ],
   "note": "JSON is a tree: the characters of a document, and the exact decimal form of numbers, are not modelled, nor are parameter names of the form a__b. Only parameters are saved, never what was fitted. Five boundary cases are refuted."
  },
  {
   "property": "C71",
   "status": "proved",
   "theorems": [
    "C71_single",
    "C71_two",
    "C71_line",
    "C71_long",
    "C71_zeros_refuted",
    "C71_no_rows_refuted"
   ],
   "note": "The texts shown for origins, valuations and ages of patterns, the argument implicit_axis and virtual columns are not modelled; the long table of a valuation triangle is that of its age view (C60). Two boundary cases are refuted."
  },
  {
   "property": "C72",
   "status": "proved",
   "theorems": [
    "C72_square",
    "C72_quarters_refuted",
    "C72_half_years_refuted",
    "C72_gap_refuted"
   ],
   "note": "The regression itself (scikit-learn, patsy), autoregressive features and other columns as features are not modelled. Codes of dates are exact; in the code they are floats and compared for equality. The triangle is built from the table by the constructor of C20. Three boundary cases are refuted."
  },
  {
   "property": "C73",
   "status": "proved",
   "theorems": [
    "C73_fit",
    "C73_predict",
    "C73_fit_predict",
    "C73_unknown",
    "C73_unknown_step",
    "C73_twice",
    "C73_step_weights_refuted",
    "C73_none_refuted",
    "C73_underscore_refuted"
   ],
   "note": "Estimators are any functions of X, y and sample_weight. That scikit-learn splits the names of arguments at the first two underscores and checks the names of steps is read, not proved; caching (memory) is not modelled. Three boundary cases are refuted."
  },
  {
   "property": "C74",
   "status": "proved",
   "theorems": [
    "C74_value",
    "C74_misspelled_refuted",
    "C74_assigned_refuted"
   ],
   "note": "Attributes of the class and of its instance are modelled as two dictionaries. Changing the list of priorities in place is not modelled. Two boundary cases are refuted."
  },
  {
   "property": "C75",
   "status": "proved",
   "theorems": [
    "C75_same",
    "C75_choice",
    "C75_again",
    "C75_off",
    "C75_stored_refuted"
   ],
   "note": "All axes are one list of cells. Floating point rounding of the size and density is not modelled; the conversions are those of the sparse package as the comments say. cupy and dask triangles, which the code leaves alone, are not modelled. One boundary case is refuted."
  }
 ]
}