{"claims": [
{"property": "C01", "status": "proved", "theorems": ["C01_row_order_irrelevant", "C01_validated_data_ignores_row_order"], "note": "Whole object (data, value, signal, simulation) equal for any permutation of rows with distinct dates; with repeated dates the order matters (refuted in PropsFrame)."},
{"property": "C02", "status": "proved", "theorems": ["C02_data", "C02_signals_and_simulation", "C02_column_order_refuted", "C02_validated_data_ignores_other_columns"], "note": "As worded the statement is false of the code in the cases of the _refuted theorems (DESIGN.md, section 4); everything else in it is proved. Data and values for all indicators; signals and simulations for all but AverageTrueRange and TypicalPrice, whose signal reads the first input column (C02_column_order_refuted)."},
{"property": "C03", "status": "proved", "theorems": ["C03_accepted_iff", "C03_documented_errors", "C03_duplicate_labels_refuted"], "note": "As worded the statement is false of the code in the cases of the _refuted theorems (DESIGN.md, section 4); everything else in it is proved. Exact acceptance condition and error for each documented cause. Duplicate labels give an undocumented KeyError (\u2026_refuted)."},
{"property": "C04", "status": "proved", "theorems": ["C04_constructor", "C04_simulation", "C04_callers_data_untouched", "C04_labels_untouched_refuted"], "note": "As worded the statement is false of the code in the cases of the _refuted theorems (DESIGN.md, section 4); everything else in it is proved. Rows, dtypes and index of the caller are never changed by constructors and simulations; the column labels are lower-cased in place, shown by C04_labels_untouched_refuted."},
{"property": "C05", "status": "proved", "theorems": ["C05_fill", "C05_present_cells_kept", "C05_missing_only_if_column_empty", "C05_filling_again_changes_nothing"], "note": "Filled cell = closest earlier present cell, else closest later one; idempotent."},
{"property": "C06", "status": "proved", "theorems": ["C06_sorted", "C06_rows_stay_together", "C06_columns_kept"], "note": ""},
{"property": "C07", "status": "proved", "theorems": ["C07_input_kept", "C07_flag_ignored", "C07_no_fill_refuted"], "note": "As worded the statement is false of the code in the cases of the _refuted theorems (DESIGN.md, section 4); everything else in it is proved. The retained input is never filled; but ChaikinOscillator, TimeSeriesForecast and MovingAverage(time_series) ignore the flag (C07_flag_ignored, C07_no_fill_refuted)."},
{"property": "C08", "status": "proved", "theorems": ["C08_accepted_iff", "C08_parameters_used", "C08_error", "C08_no_calculation", "C08_fill_flag", "C08_volume_oscillator_name_refuted"], "note": "As worded the statement is false of the code in the cases of the _refuted theorems (DESIGN.md, section 4); everything else in it is proved. Exact domain and first error for all constructors; VolumeOscillator names a parameter that does not exist (refuted). bool counts as int, as in Python."},
{"property": "C09", "status": "proved", "theorems": ["C09_not_enough_iff", "C09_otherwise_completes", "C09_reported_minimum", "C09_atr_minimum_refuted"], "note": "As worded the statement is false of the code in the cases of the _refuted theorems (DESIGN.md, section 4); everything else in it is proved. The reported minimum is right except for AverageTrueRange (refuted)."},
{"property": "C10", "status": "proved", "theorems": ["C10_date", "C10_latest", "C10_repeated_date_refuted"], "note": "As worded the statement is false of the code in the cases of the _refuted theorems (DESIGN.md, section 4); everything else in it is proved. For distinct dates; with a repeated date the column names come back (refuted)."},
{"property": "C11", "status": "proved", "theorems": ["C11_shape", "C11_dpo_drops_days_refuted"], "note": "As worded the statement is false of the code in the cases of the _refuted theorems (DESIGN.md, section 4); everything else in it is proved. DetrendedPriceOscillator drops the last days (refuted for it, exact shape proved)."},
{"property": "C12", "status": "proved", "theorems": ["C12_signal", "C12_signal_during_simulation", "C12_range_indicator_refuted", "C12_median_price_refuted", "C12_median_price_never_simulates"], "note": "As worded the statement is false of the code in the cases of the _refuted theorems (DESIGN.md, section 4); everything else in it is proved. All indicators but RangeIndicator and MedianPrice(1), both refuted."},
{"property": "C13", "status": "proved", "theorems": ["C13_history_not_rewritten", "C13_dpo", "C13_adl", "C13_chaikin_oscillator", "C13_fibonacci_refuted", "C13_dpo_refuted", "C13_adl_refuted", "C13_filling_refuted"], "note": "As worded the statement is false of the code in the cases of the _refuted theorems (DESIGN.md, section 4); everything else in it is proved. All indicators with no missing first day; separate theorems for DPO, ADL, CO; refuted for Fibonacci, DPO, ADL with infinite cells, and filling of a missing first day."},
{"property": "C14", "status": "proved", "theorems": ["C14_unchanged", "C14_unchanged_on_return", "C14_unchanged_on_bad_arguments", "C14_exception_refuted"], "note": "As worded the statement is false of the code in the cases of the _refuted theorems (DESIGN.md, section 4); everything else in it is proved. Refuted for an exception inside the loop."},
{"property": "C15", "status": "proved", "theorems": ["C15_signal_of_the_day", "C15_fibonacci_refuted"], "note": "Refuted for FibonacciRetracement."},
{"property": "C16", "status": "proved", "theorems": ["C16_every_day", "C16_dpo_refuted"], "note": "As worded the statement is false of the code in the cases of the _refuted theorems (DESIGN.md, section 4); everything else in it is proved. Refuted for DetrendedPriceOscillator."},
{"property": "C17", "status": "proved", "theorems": ["C17_exposure_is_sum_of_open_positions", "C17_stock_value_is_close_price"], "note": ""},
{"property": "C18", "status": "proved", "theorems": ["C18_open_until_first_profitable_day", "C18_exposure_released_on_closing", "C18_closed_once"], "note": ""},
{"property": "C19", "status": "proved", "theorems": ["C19_earnings_are_realised_profits", "C19_every_closing_earns", "C19_earnings_never_fall"], "note": ""},
{"property": "C20", "status": "proved", "theorems": ["C20_portfolio_value_and_balance"], "note": ""},
{"property": "C21", "status": "proved", "theorems": ["C21_exposure_never_above_limit", "C21_negative_prices_refuted", "C21_nan_limit_refuted"], "note": "As worded the statement is false of the code in the cases of the _refuted theorems (DESIGN.md, section 4); everything else in it is proved. For non-negative prices and a numeric limit; refuted for negative prices and for a NaN limit."},
{"property": "C22", "status": "proved", "theorems": ["C22_when_positions_are_opened"], "note": ""},
{"property": "C23", "status": "proved", "theorems": ["C23_counts", "C23_last_values", "C23_ignored_signals", "C23_ignored_because_of_limit_refuted"], "note": "As worded the statement is false of the code in the cases of the _refuted theorems (DESIGN.md, section 4); everything else in it is proved. The ignored counters are proved to count the signals that do not fit under the limit plus a signal on the first day; the documented reason (limit only) is refuted by that first day."},
{"property": "C24", "status": "proved", "theorems": ["C24_starts_iff", "C24_nan_refuted"], "note": "As worded the statement is false of the code in the cases of the _refuted theorems (DESIGN.md, section 4); everything else in it is proved. NaN is accepted for both numbers (refuted)."},
{"property": "C25", "status": "proved", "theorems": ["C25_simulation_is_online"], "note": ""},
{"property": "C26", "status": "proved", "theorems": ["C26_exposure_nonnegative", "C26_zero_exposure_iff_nothing_open"], "note": "Exact arithmetic; non-negative prices."},
{"property": "C27", "status": "proved", "theorems": ["C27_rsi_range"], "note": "All inputs, missing and infinite cells included."},
{"property": "C28", "status": "proved", "theorems": ["C28_rmi_range"], "note": "All inputs, missing and infinite cells included."},
{"property": "C29", "status": "proved", "theorems": ["C29_cmo_range"], "note": "All inputs, missing and infinite cells included."},
{"property": "C30", "status": "proved", "theorems": ["C30_imi_range"], "note": "All inputs, missing and infinite cells included."},
{"property": "C31", "status": "proved", "theorems": ["C31_stochastic_range", "C31_filled_refuted"], "note": "As worded the statement is false of the code in the cases of the _refuted theorems (DESIGN.md, section 4); everything else in it is proved. Missing cells allowed as long as none is filled in; refuted when a missing low is filled. Assumes positive window weights from scipy."},
{"property": "C32", "status": "proved", "theorems": ["C32_williams_range", "C32_filled_refuted"], "note": "As worded the statement is false of the code in the cases of the _refuted theorems (DESIGN.md, section 4); everything else in it is proved. Missing cells allowed as long as none is filled in; refuted when a missing low is filled."},
{"property": "C33", "status": "proved", "theorems": ["C33_smi_range", "C33_missing_close_refuted"], "note": "Complete data; refuted for a missing close with fill_missing_values=False."},
{"property": "C34", "status": "proved", "theorems": ["C34_vhf_range"], "note": "All inputs."},
{"property": "C35", "status": "proved", "theorems": ["C35_dmi_range", "C35_missing_close_refuted"], "note": "Complete data; refuted for missing closes with fill_missing_values=False."},
{"property": "C36", "status": "proved", "theorems": ["C36_uo_range"], "note": "Missing cells allowed as long as none is filled in."},
{"property": "C37", "status": "proved", "theorems": ["C37_swing_range"], "note": "All inputs (the code clips)."},
{"property": "C38", "status": "proved", "theorems": ["C38_cmf_range"], "note": "Missing cells allowed as long as none is filled in."},
{"property": "C39", "status": "proved", "theorems": ["C39_range_indicator_range"], "note": "All inputs."},
{"property": "C40", "status": "proved", "theorems": ["C40_rvi_range"], "note": "All inputs; assumes sqrt of a non-negative number is not negative."},
{"property": "C41", "status": "proved", "theorems": ["C41_projection_range", "C41_fine_prices_refuted"], "note": "Refuted for closes with more than four decimals."},
{"property": "C42", "status": "proved", "theorems": ["C42_bollinger_order", "C42_bollinger_symmetric", "C42_bollinger_values"], "note": "Order (assuming sqrt is not negative), exact symmetry and the values themselves, all inputs."},
{"property": "C43", "status": "proved", "theorems": ["C43_envelopes_order", "C43_envelopes_values", "C43_negative_prices_refuted"], "note": "As worded the statement is false of the code in the cases of the _refuted theorems (DESIGN.md, section 4); everything else in it is proved. For closes that are not negative, plus the values for all inputs; refuted for negative prices."},
{"property": "C44", "status": "proved", "theorems": ["C44_moving_average_between", "C44_wilders_smoothing_between", "C44_time_series_refuted"], "note": "Simple, exponential, triangular and variable moving average and Wilder smoothing, for data without infinite closes; the time-series type extrapolates and is refuted."},
{"property": "C45", "status": "proved", "theorems": ["C45_channel_high", "C45_channel_low", "C45_ichimoku_lines", "C45_ichimoku_cloud"], "note": "All inputs, missing cells included."},
{"property": "C46", "status": "proved", "theorems": ["C46_levels_constant", "C46_levels_ordered", "C46_level_values"], "note": "Order and constancy for all inputs; values for closes without infinities."},
{"property": "C47", "status": "proved", "theorems": ["C47_regression_indicator", "C47_regression_slope", "C47_time_series_forecast", "C47_least_squares", "C47_straight_price"], "note": "Closes known up to the day, period at least 2 (1 is accepted for lrs only and gives missing values). Slope and end point are rounded separately in tsf."},
{"property": "C48", "status": "proved", "theorems": ["C48_on_balance_volume", "C48_price_and_volume_trend", "C48_negative_volume_index", "C48_positive_volume_index"], "note": "Data complete up to the day in question; previous closes not zero for pvt, nvi, pvi."},
{"property": "C49", "status": "proved", "theorems": ["C49_published_stop", "C49_published_side", "C49_acceleration_range", "C49_acceleration_steps", "C49_side_of_the_price", "C49_turns_on_crossing", "C49_new_trend", "C49_extreme", "C49_moves_with_the_trend", "C49_stop_below_the_low_refuted", "C49_stop_never_falls_while_rising_refuted"], "note": "As worded the statement is false of the code in the cases of the _refuted theorems (DESIGN.md, section 4); everything else in it is proved. The stop equals a stop-and-reverse defined day by day (SarSpec.v); factor, side, turning and new-trend rules. On a turning day the stop can be inside the price range (outside day), and on the next day it can fall in a rising trend: both refuted with witnesses."},
{"property": "C50", "status": "proved", "theorems": ["C50_chande_momentum", "C50_relative_momentum", "C50_intraday_momentum", "C50_stochastic", "C50_stochastic_signal", "C50_williams_r", "C50_momentum", "C50_price_rate_of_change", "C50_price_oscillator", "C50_vertical_horizontal_filter", "C50_performance", "C50_commodity_channel", "C50_stochastic_momentum", "C50_chaikin_volatility", "C50_mass_index", "C50_chaikin_money_flow", "C50_directional", "C50_relative_strength_refuted"], "note": "As worded the statement is false of the code in the cases of the _refuted theorems (DESIGN.md, section 4); everything else in it is proved. Stated for the known rows of both inputs. The relative strength index rounds gains and losses before dividing and does depend on the unit: refuted with a witness. The list also covers price oscillator, VHF, performance, CCI, SMI, Chaikin volatility and money flow, mass index and the directional lines."},
{"property": "C51", "status": "proved", "theorems": ["C51_median_price", "C51_typical_price", "C51_weighted_close"], "note": "Every day with finite high, low, close."},
{"property": "C52", "status": "proved", "theorems": ["C52_momentum_and_rate", "C52_momentum_values", "C52_rate_values"], "note": "Exact equality, no rounding slack; plus the values of both."},
{"property": "C53", "status": "proved", "theorems": ["C53_moving_averages", "C53_time_series_average", "C53_double_exponential", "C53_triple_exponential", "C53_wilders_smoothing", "C53_regression_line", "C53_forecast", "C53_macd", "C53_price_oscillator", "C53_detrended_price", "C53_standard_deviation", "C53_regression_slope", "C53_variable_average_refuted"], "note": "As worded the statement is false of the code in the cases of the _refuted theorems (DESIGN.md, section 4); everything else in it is proved. The root of zero must be zero for the standard deviation (the root is a parameter of the model). The variable moving average is missing on a constant price: refuted with a witness."},
{"property": "C54", "status": "proved", "theorems": ["C54_median_average", "C54_crossing_a_level", "C54_crossing_a_line", "C54_directional_movement", "C54_macd", "C54_momentum", "C54_median_price", "C54_positive_volume_index", "C54_missing_level_holds", "C54_missing_line_holds"], "note": "Thirteen level crossings, five line crossings, directional movement, MACD, momentum, median price and positive volume index, for the object as built and as limited to a day by the simulation."},
{"property": "C55", "status": "proved", "theorems": ["C55_buy_rule", "C55_never_sells", "C55_buy_needs_a_low_refuted"], "note": "As worded the statement is false of the code in the cases of the _refuted theorems (DESIGN.md, section 4); everything else in it is proved. The documented rule is refuted: a buy without any value below 30, and never a sell. The rule the code follows is proved exactly, for data without infinities."},
{"property": "C56", "status": "proved", "theorems": ["C56_cloud_rule", "C56_buy_needs_a_cloud_refuted", "C56_sell_below_the_cloud_refuted"], "note": "As worded the statement is false of the code in the cases of the _refuted theorems (DESIGN.md, section 4); everything else in it is proved. Exact rule when cloud and close exist; refuted when the cloud is missing (counts as above it) and on its border (counts as below)."},
{"property": "C57", "status": "proved", "theorems": ["C57_line", "C57_step"], "note": "Complete data. Whole numbers when every day has a range (int conversion), exact values and gaps otherwise."},
{"property": "C58", "status": "proved", "theorems": ["C58_exposure_limit", "C58_negative_limit_refuted", "C58_long_closed_iff_price_rose", "C58_short_closed_only_if_price_fell", "C58_short_closed_when_price_fell_refuted", "C58_zero_exposure_refuted", "C58_exposure_not_negative_refuted", "C58_earnings_never_fall_refuted", "C58_exact_on_binary_fractions"], "note": "Binary64 with rounding to nearest even, np.sum in any order. Limit, closing rule and exactness on prices k/2^s proved. Zero exposure with nothing open, non-negative exposure, closing a short whenever the price fell and earnings that never fall are refuted with witnesses. Uses the real-number axioms of the standard library."},
{"property": "C59", "status": "proved", "theorems": ["C59_simple_moving_average", "C59_exponential_moving_average", "C59_triangular_moving_average", "C59_time_series_moving_average", "C59_variable_moving_average", "C59_double_exponential", "C59_triple_exponential", "C59_wilders_smoothing"], "note": "Closes known up to the day in question; the variable average needs some movement in every nine days."},
{"property": "C60", "status": "proved", "theorems": ["C60_macd", "C60_price_oscillator", "C60_volume_oscillator", "C60_volume_rate_of_change", "C60_standard_deviation", "C60_vertical_horizontal_filter", "C60_performance"], "note": "Data known up to the day; zero denominators give the infinite or missing value of the division."},
{"property": "C61", "status": "proved", "theorems": ["C61_chande_momentum", "C61_relative_strength", "C61_relative_momentum", "C61_intraday_momentum", "C61_qstick"], "note": "Data known up to the day. RSI with the rounding the code applies every day; RMI is missing while there are no losses."},
{"property": "C62", "status": "proved", "theorems": ["C62_williams_r", "C62_stochastic", "C62_stochastic_signal", "C62_stochastic_momentum", "C62_commodity_channel", "C62_ultimate_oscillator", "C62_range_indicator"], "note": "Data known up to the day; %D for the simple method, with nonzero ranges; the ultimate oscillator with nonzero true ranges."},
{"property": "C63", "status": "proved", "theorems": ["C63_average_true_range", "C63_mass_index", "C63_chaikin_volatility", "C63_relative_volatility", "C63_directional_lines", "C63_directional_index", "C63_average_directional_index", "C63_directional_rating", "C63_swing_index"], "note": "Data known up to the day and nonzero denominators where stated. The directional lines start from 13, not 14, values."},
{"property": "C64", "status": "proved", "theorems": ["C64_chaikin_money_flow", "C64_market_facilitation", "C64_ease_of_movement", "C64_klinger", "C64_williams_accumulation", "C64_chaikin_oscillator", "C64_williams_total_refuted"], "note": "As worded the statement is false of the code in the cases of the _refuted theorems (DESIGN.md, section 4); everything else in it is proved. Williams accumulation/distribution publishes the value of the day only: the running total is refuted."},
{"property": "C65", "status": "proved", "theorems": ["C65_projection_bands", "C65_projection_oscillator", "C65_projection_trigger", "C65_forecast_oscillator", "C65_detrended_price"], "note": "Data known up to the day; the detrended price uses the average of n/2+1 days later."},
{"property": "C66", "status": "proved", "theorems": ["C66_leaving_a_band", "C66_commodity_channel", "C66_projection_bands", "C66_projection_bands_missing", "C66_double_exponential", "C66_triple_exponential", "C66_moving_average", "C66_performance_long", "C66_performance_short", "C66_standard_deviation", "C66_typical_price", "C66_negative_volume_index", "C66_average_true_range"], "note": "ATR, standard deviation and typical price compare with the mean of the first input column, whatever it is; stated for known values of it."},
{"property": "C67", "status": "proved", "theorems": ["C67_three_days", "C67_volume_oscillator", "C67_qstick", "C67_market_facilitation", "C67_vertical_horizontal_filter"], "note": "The vertical horizontal filter for known nonzero closes."},
{"property": "C68", "status": "proved", "theorems": ["C68_mass_average", "C68_accumulation_distribution", "C68_chaikin_money_flow", "C68_chaikin_oscillator", "C68_fibonacci", "C68_mass_index", "C68_projection_oscillator", "C68_range_indicator", "C68_stochastic", "C68_williams_accumulation", "C68_williams_r", "C68_range_indicator_always_answers_refuted"], "note": "As worded the statement is false of the code in the cases of the _refuted theorems (DESIGN.md, section 4); everything else in it is proved. The range indicator raises IndexError when no value was ever below 20: always answering is refuted. Chaikin money flow needs the previous close, the Chaikin oscillator the last 90 closes."},
{"property": "C69", "status": "proved", "theorems": ["C69_constructor_succeeds_iff", "C69_column_missing"], "note": "The table of documented columns (DocSpec.v) is copied from the docstrings, independently of the properties file the code reads."},
{"property": "C70", "status": "proved", "theorems": ["C70_lines_drawn", "C70_plots", "C70_lines_distinguishable", "C70_cloud", "C70_title", "C70_legends", "C70_emphasis", "C70_colors_across_plots_refuted", "C70_indicator_lines_opaque_refuted"], "note": "Which lines are drawn where, with names, dates, cells, colours and legends; appearance (sizes, grids, ticks) is matplotlib and not modelled. Refuted: colours differ across the two plots (relative volatility index); all indicator lines are drawn opaque (directional movement index)."},
{"property": "C71", "status": "proved", "theorems": ["C71_simulation_graph", "C71_dpo_refuted"], "note": "As worded the statement is false of the code in the cases of the _refuted theorems (DESIGN.md, section 4); everything else in it is proved. Refuted for the detrended price oscillator, which has no signal on the last days."},
{"property": "C72", "status": "proved", "theorems": ["C72_parameters", "C72_rules_complete", "C72_fill_flag", "C72_only_when_refused", "C72_envelopes", "C72_volume_oscillator", "C72_envelopes_refuted", "C72_volume_oscillator_refuted", "C72_marked_value_refuted"], "note": "As worded the statement is false of the code in the cases of the _refuted theorems (DESIGN.md, section 4); everything else in it is proved. The full sentence is proved for all constructors and values, except: a wrong shift of Envelopes is reported with the value or type of the period, the periods of VolumeOscillator in the wrong order are reported for \"long_period \" (with a space), and a value that contains a mark of the template such as \"<p_name>\" is overwritten. All three are refuted with witnesses; what the first two say is proved."},
{"property": "C73", "status": "proved", "theorems": ["C73_rows", "C73_column", "C73_not_a_frame", "C73_index", "C73_empty", "C73_simulation_parameters", "C73_simulation_rules_complete", "C73_simulation_dates", "C73_simulation_not_a_frame", "C73_simulation_index", "C73_simulation_empty", "C73_simulation_column", "C73_simulation_only_when_refused", "C73_average_true_range_refuted"], "note": "As worded the statement is false of the code in the cases of the _refuted theorems (DESIGN.md, section 4); everything else in it is proved. Texts of exceptions raised by pandas or python are not modelled. Refuted: AverageTrueRange asks for 2 rows when 14 are needed."},
{"property": "C74", "status": "proved", "theorems": ["C74_old_rows_forgotten", "C74_on_balance_volume", "C74_exponential_average", "C74_every_column_refuted"], "note": "Proved for every column built from windows, with its number of rows (MemorySpec.v). When missing values are filled, or the indicator is built on another one, the data must have no missing cell. That all columns forget is refuted, with a witness for each of the other 35 columns."},
{"property": "C75", "status": "proved", "theorems": ["C75_middle_band", "C75_band_width", "C75_envelopes", "C75_time_series", "C75_forecast_oscillator", "C75_macd", "C75_stochastic_williams", "C75_rates_of_change"], "note": "Equalities are exact except where two published values are rounded separately; there the bound is the sum of the roundings. The stochastic identity needs a close that is not infinite."},
{"property": "C76", "status": "proved", "theorems": ["C76_one_row"], "note": "For rows up to which the close is known."},
{"property": "C77", "status": "proved", "theorems": ["C77_williams_r", "C77_stochastic_k", "C77_stochastic_k_refuted", "C77_rsi", "C77_median_price", "C77_median_price_decimal", "C77_ichimoku_lines", "C77_price_channel", "C77_fibonacci_order", "C77_fibonacci_ends", "C77_round_keeps_decimals", "C77_round_monotone", "C77_round_large_refuted"], "note": "Binary64 with rounding to nearest even; np.round as multiplication, rint and division. %K with the default k_slowing_periods = 1; the first mean of RSI may add in any order. Refuted for prices close to the largest float: %K and the rounding itself overflow. Uses the real-number axioms of the standard library."},
{"property": "C78", "status": "proved", "theorems": ["C78_one_unit", "C78_nearest", "C78_williams_r", "C78_stochastic_k", "C78_median_price", "C78_weighted_close", "C78_typical_price", "C78_last_decimal_refuted", "C78_ichimoku_lines", "C78_ichimoku_cloud", "C78_price_channel_high", "C78_price_channel_low", "C78_fibonacci", "C78_momentum", "C78_price_rate", "C78_volume_rate", "C78_performance"], "note": "For the indicators listed, those without running sums; %K with the default k_slowing_periods = 1; rows without missing cells, low <= close <= high where the exact formula needs it. That the fourth decimal is always the same is refuted: the median price of 10.0012 and 10.0011. Uses the real-number axioms of the standard library."},
{"property": "C79", "status": "proved", "theorems": ["C79_exponential", "C79_double_exponential", "C79_triple_exponential", "C79_wilders_smoothing", "C79_macd", "C79_exponential_among_prices", "C79_wilders_among_prices"], "note": "Rows without missing cells; the simple and triangular averages are in C96, the variable one is not included. The loop of pandas' ewm().mean() is modelled with its guard against moving on equal values and its computed weights. The price bound is price * (period + 1) <= 2^41 ten-thousandths. Uses the real-number axioms of the standard library."},
{"property": "C80", "status": "proved", "theorems": ["C80_mirrored_values", "C80_relative_momentum", "C80_relative_momentum_refuted", "C80_parabolic_start_refuted", "C80_klinger_tie_refuted"], "note": "Columns the table leaves out: ENV, the 23.6% level of FIB, MOM, PRC, FOSC, POSC, PRF, NVI, PVI, PVT, RI and the volume-only indicators. The side conditions per indicator are in MirrorSpec.ordinary: days with a range, sums that are not zero, and where the code treats a rise and a fall differently, that it does not matter. The *_refuted theorems give mirrored frames on which the plain reading fails."},
{"property": "C81", "status": "proved", "theorems": ["C81_reversed_signals", "C81_unchanged_signals", "C81_one_sided_refuted", "C81_stochastic_refuted"], "note": "Signals of constructed objects (not limited ones). The side conditions are those of C80 on every day and MirrorSpec.even_handed. The *_refuted theorems give mirrored frames for rules that are not even-handed."},
{"property": "C82", "status": "proved", "theorems": ["C82_gap_shown", "C82_every_column_refuted"], "note": "The table of columns, prices and days is GapSpec.uses. C82_every_column_refuted gives one frame and 21 columns that publish a number on a day without any price. A value can be missing for further reasons (division by zero, start of the data); this is the subject of other properties."},
{"property": "C83", "status": "proved", "theorems": ["C83_lost_for_good", "C83_parabolic_sar"], "note": "The table of columns, first rows and delays is GapSpec.blanks; the parabolic SAR has its own theorem. RelativeVolatilityIndex is seen to be lost too in C83_case, without a general theorem."},
{"property": "C84", "status": "proved", "theorems": ["C84_average_waits", "C84_macd_waits", "C84_average_resumes", "C84_regression_counts_zero", "C84_channel_counts_zero", "C84_strength_counts_nothing", "C84_volume_waits", "C84_typical_of_rest"], "note": "The prices given are described by GapSpec.sparse: any pattern of missing cells. Only the columns named are covered: the signal line of the MACD, DEMA, TEMA, ATR and the other columns listed in C82_every_column_refuted have no theorem about missing prices."},
{"property": "C85", "status": "proved", "theorems": ["C85_prices_move", "C85_levels_stay", "C85_relative_momentum", "C85_range_indicator", "C85_level_bound_refuted"], "note": "The 23.6% level of FIB is not in the table, nor are indicators of volumes only. The side conditions are those of C80 (MirrorSpec.ordinary), for the parabolic SAR also the condition on its first two days although a move would not need it. C85_level_bound_refuted shows for eight columns that they neither stay nor move."},
{"property": "C86", "status": "proved", "theorems": ["C86_same_signals", "C86_size_signals", "C86_average_signals", "C86_envelope_refuted"], "note": "Signals of constructed objects (not limited ones), under the side conditions of C81 (MirrorSpec.ordinary on every day, MirrorSpec.even_handed). TP, Ichimoku, UO, VHF, RMI, RI and the indicators without a rule are not covered. C86_envelope_refuted gives the two frames for the envelope."},
{"property": "C87", "status": "proved", "theorems": ["C87_same_values", "C87_same_refusals", "C87_same_simulation"], "note": "Dates are integers in the model (timestamps); the order of rows with equal dates is that of a stable sort (DESIGN.md, section 1)."},
{"property": "C88", "status": "proved", "theorems": ["C88_same_trades", "C88_statistics_refuted"], "note": "The indicator object is the same in both runs; that its signals do not depend on the currency is the subject of C50. C88_statistics_refuted: the stock value 10.123 is published as 10.12, 1012.3 as 1012.3."},
{"property": "C89", "status": "proved", "theorems": ["C89_price_lines_rise", "C89_fibonacci_levels_rise", "C89_averages_of_averages_refuted"], "note": "Rows are compared in the order of the frames; Fibonacci levels need the whole closes of both frames (same number of days). C89_averages_of_averages_refuted gives one dearer day that lowers DEMA, TEMA, LRI, TSF, the time series average and both outer Bollinger bands."},
{"property": "C90", "status": "proved", "theorems": ["C90_higher_close", "C90_forecast_oscillator", "C90_macd", "C90_ranges_refuted", "C90_macd_refuted"], "note": "The two inputs are the same outside row k. Side conditions: OrderSpec.sound_days for both, MirrorSpec.ordinary for both (for LRS and the time series average a period of two days at least). Comparison with present_le: says nothing where a value is missing on one side. C90_macd_refuted: closes of 10.0000 for 26 days, then 10.0006 gives 0.0001 and 10.0007 gives 0.0000. C90_ranges_refuted: RI, VHF, SD, outer Bollinger bands."},
{"property": "C91", "status": "proved", "theorems": ["C91_call", "C91_type_error", "C91_any_order", "C91_by_position", "C91_left_out", "C91_defaults_work"], "note": "Call.v models the signatures and python's binding of arguments; CallSpec.documented was written from the docstrings. C91_call says with which constructor arguments (parts) the object is made."},
{"property": "C92", "status": "proved", "theorems": ["C92_done", "C92_raised", "C92_last_counts", "C92_invalid", "C92_decimals_are_text", "C92_refuted", "C92_no_negative_number", "C92_no_flag"], "note": "As worded the statement is false of the code in the cases of the _refuted theorems (DESIGN.md, section 4); everything else in it is proved. C92_done, C92_raised and C92_invalid say what happens for whole numbers, numbers with one decimal and words; C92_decimals_are_text, C92_no_negative_number and C92_no_flag say for all texts what cannot be typed; C92_last_counts: of two values typed for one name the last counts."},
{"property": "C93", "status": "proved", "theorems": ["C93_all_simulations", "C93_finishes", "C93_needs_rows", "C93_every_class", "C93_figures", "C93_refuted"], "note": "As worded the statement is false of the code in the cases of the _refuted theorems (DESIGN.md, section 4); everything else in it is proved. C93_all_simulations: all 62 reports, or the 41 before RangeIndicator and then its IndexError (finding of C12); C93_finishes says exactly when; C93_refuted: 60 ordinary days on which the program stops. reports compares each report with the simulation on the unchanged data."},
{"property": "C94", "status": "proved", "theorems": ["C94_ratios", "C94_dimensions", "C94_range_indicator_refuted", "C94_swing_index_refuted", "C94_chaikin_refuted"], "note": "UnitSpec.ratios and UnitSpec.dimensions list the columns. Left out because they round on the way or use the square root: MACD, TSF, the outer Bollinger bands, RSI, PROJ, FOSC, SD, RVI, MA time_series. C94_range_indicator_refuted, C94_swing_index_refuted and C94_chaikin_refuted are the three exceptions the statement names."},
{"property": "C95", "status": "proved", "theorems": ["C95_data", "C95_signal", "C95_simulation", "C95_rounded_line_refuted", "C95_money_level_refuted"], "note": "C95_data: the whole data frame is the same (on balance volume: u times); C95_signal, C95_simulation; C95_rounded_line_refuted and C95_money_level_refuted show the two exceptions the statement names."},
{"property": "C96", "status": "proved", "theorems": ["C96_simple", "C96_middle_band", "C96_triangular", "C96_detrended_price", "C96_qstick", "C96_volume_oscillator", "C96_among_prices", "C96_any_size_refuted", "C96_flat", "C96_not_below_zero"], "note": "Rows without missing cells. roll_mean and roll_sum of pandas are modelled with both compensations, the count of equal values and the count of signs. C96_any_size_refuted: six prices, one of them eighteen million millions, after which the two-day average is 20 units of the fourth decimal off. Uses the real-number axioms of the standard library."},
{"property": "C97", "status": "proved", "theorems": ["C97_same_signal", "C97_simple", "C97_exponential", "C97_triangular", "C97_double_exponential", "C97_triple_exponential", "C97_wilders", "C97_weighted_close", "C97_macd", "C97_qstick", "C97_volume_oscillator", "C97_price_rate", "C97_volume_rate", "C97_price_channel", "C97_any_signal_refuted"], "note": "C97_same_signal holds for all 37 rules, given the accuracy of the floats; the other theorems combine it with the accuracy proved in C78, C79 and C96. The other 20 rules compute before they compare and are not modelled in binary64. Uses the real-number axioms of the standard library."},
{"property": "C98", "status": "proved", "theorems": ["C98_same_trades", "C98_amounts", "C98_statistics_counts", "C98_statistics_amounts", "C98_numpy_rounds", "C98_cents", "C98_at_the_limit_refuted"], "note": "The hypothesis on the limit cannot be dropped (C98_at_the_limit_refuted). round(x, 2) is any rounding at most 3/5 of a cent off that returns two-decimal floats; C98_numpy_rounds shows that numpy's is one. Uses the real-number axioms of the standard library."},
{"property": "C99", "status": "proved", "theorems": ["C99_trades_decide", "C99_trades_decide_positions", "C99_trades_decide_statistics", "C99_factor_without_limit", "C99_factor_without_limit_statistics", "C99_limit_not_reached", "C99_same_until_ignored", "C99_higher_limit_refuted", "C99_smaller_factor_refuted"], "note": "The two natural monotonicity claims are false (C99_higher_limit_refuted, C99_smaller_factor_refuted)."},
{"property": "C100", "status": "proved", "theorems": ["C100_small_errors", "C100_average_true_range", "C100_fibonacci_levels", "C100_other_columns_refuted"], "note": "Jumps of the other columns: C100_other_columns_refuted."},
{"property": "C101", "status": "proved", "theorems": ["C101_past_fades", "C101_average_halves", "C101_shares_vanish"], "note": "Complements C74, which gives the exact difference for the exponential average when rows are cut off."},
{"property": "C102", "status": "proved", "theorems": ["C102_basket", "C102_detrended_price", "C102_on_balance_volume", "C102_price_and_volume_trend", "C102_klinger_oscillator", "C102_accumulation_distribution", "C102_chaikin_oscillator", "C102_price_channel", "C102_average_true_range", "C102_other_columns_refuted"], "note": "Columns that do not add up: C102_other_columns_refuted."},
{"property": "C103", "status": "proved", "theorems": ["C103_rates", "C103_chaikin_money_flow", "C103_oscillators_refuted"], "note": "Oscillators for which it is false: C103_oscillators_refuted."},
{"property": "C104", "status": "proved", "theorems": ["C104_averages_are_late", "C104_regression_slope", "C104_forecast", "C104_forecast_oscillator", "C104_detrended_price", "C104_chande_momentum", "C104_relative_strength", "C104_relative_momentum", "C104_vertical_horizontal_filter", "C104_commodity_channel", "C104_williams_r", "C104_stochastic", "C104_stochastic_momentum", "C104_ultimate_oscillator", "C104_average_true_range", "C104_directional_movement"], "note": "%D of the stochastic oscillator, TEMA, MACD and the square roots are not included."},
{"property": "C105", "status": "proved", "theorems": ["C105_channel_sells_the_rise", "C105_channel_buys_the_fall", "C105_short_channel_holds", "C105_moving_averages", "C105_momentum_holds", "C105_candles_hold"], "note": ""},
{"property": "C106", "status": "proved", "theorems": ["C106_only_rises", "C106_only_falls", "C106_most_on_a_rise", "C106_most_on_a_fall", "C106_trades_without_limit"], "note": ""},
{"property": "C107", "status": "proved", "theorems": ["C107_average_on_a_rise", "C107_average_on_a_fall", "C107_channel_on_a_rise", "C107_channel_on_a_fall"], "note": "Distinct dates; the prices given to the simulation are the closes of the indicator (own_closes); no limit."},
{"property": "C108", "status": "proved", "theorems": ["C108_same_every_day", "C108_ultimate_oscillator", "C108_money_flow", "C108_momentum", "C108_price_rate_of_change", "C108_volume_rate_of_change", "C108_performance", "C108_vertical_horizontal_filter"], "note": "The columns whose recursion starts at a seed (relative strength, exponential averages) only tend to a constant and are not claimed."},
{"property": "C109", "status": "proved", "theorems": ["C109_holds"], "note": ""},
{"property": "C110", "status": "proved", "theorems": ["C110_averages", "C110_chande_momentum", "C110_relative_strength", "C110_relative_momentum", "C110_vertical_horizontal", "C110_on_balance_volume", "C110_williams_accumulation", "C110_directional_movement"], "note": "Double and triple exponential averages and the time series average can be above a rising price and are not claimed."},
{"property": "C111", "status": "proved", "theorems": ["C111_averages", "C111_on_balance_volume", "C111_oscillators_hold", "C111_directional_movement_holds"], "note": ""},
{"property": "C112", "status": "proved", "theorems": ["C112_averages_on_a_rise", "C112_averages_on_a_fall", "C112_volume_on_a_rise", "C112_volume_on_a_fall"], "note": "Distinct dates; the prices given to the simulation are the closes of the indicator (own_closes); no limit."},
{"property": "C113", "status": "proved", "theorems": ["C113_rests_on_values", "C113_nothing_shown", "C113_no_trade", "C113_williams_refuted", "C113_range_indicator_refuted"], "note": "The tables of cells are AdviceSpec.looks_at and looks_at_closes. Indicators of several columns of which one suffices (bands, channel, Fibonacci, stochastic) are covered by C113_nothing_shown. The mass index is not claimed. C113_no_trade: distinct dates, not DPO (finding of C16). As worded in the exceptions: C113_williams_refuted, C113_range_indicator_refuted."},
{"property": "C114", "status": "proved", "theorems": ["C114_trades_stand_alone", "C114_fewer_signals", "C114_fewer_signals_reported", "C114_limit_refuted", "C114_balance_refuted"], "note": "C114_fewer_signals_reported: not DPO (finding of C16), finite close values. With a limit: C114_limit_refuted; balance: C114_balance_refuted."},
{"property": "C115", "status": "proved", "theorems": ["C115_wider_bands", "C115_fewer_signals", "C115_earnings", "C115_limit_refuted"], "note": "For Bollinger bands all that is assumed of the square root is that it is not negative on numbers that are not (good_sqrt). With a limit: C115_limit_refuted."},
{"property": "C116", "status": "proved", "theorems": ["C116_books", "C116_only_buys", "C116_only_sells", "C116_reported", "C116_reported_flat", "C116_balance_refuted"], "note": "C116_reported and C116_reported_flat: not DPO (finding of C16), finite close values. C116_balance_refuted: on an unchanging market the balance grows by the price with every buy."},
{"property": "C117", "status": "proved", "theorems": ["C117_range_of_earnings", "C117_trades"], "note": "For the simulator fed with any signals."},
{"property": "C118", "status": "proved", "theorems": ["C118_turned", "C118_reported", "C118_limit_refuted"], "note": "C118_reported: not DPO (finding of C16), finite close values; that the signals are opposite is a hypothesis (C81 gives it for the last day of each object). With a limit: C118_limit_refuted."},
{"property": "C119", "status": "proved", "theorems": ["C119_cut", "C119_limit_refuted"], "note": "The signal of day k itself belongs to the first part, since a simulation does not trade on its first day. With a limit: C119_limit_refuted."},
{"property": "C120", "status": "proved", "theorems": ["C120_idle_day", "C120_price_stays", "C120_price_stays_reported", "C120_idle_day_reported", "C120_earning_day_refuted", "C120_first_day_refuted"], "note": "Reported versions: not DPO (finding of C16), finite close values; that the signals of the other days are the same is a hypothesis, since an indicator over more rows may signal something else. Days with earnings: C120_earning_day_refuted; the first day: C120_first_day_refuted."},
{"property": "C121", "status": "proved", "theorems": ["C121_every_day", "C121_opposite", "C121_same_earnings"], "note": "Indicators and conditions of C81 (even_handed on the data of every day, ordinary prices), without DPO (finding of C16: it shows fewer rows). Which indicators are one-sided: refuted theorems of C81; with a limit the earnings differ: C118_limit_refuted."},
{"property": "C122", "status": "proved", "theorems": ["C122_every_day", "C122_books", "C122_same_signals", "C122_same_earnings", "C122_envelope_refuted", "C122_limit_refuted"], "note": "Indicators and conditions of C86 (on the data of every day), without DPO (finding of C16). Envelopes: C122_envelope_refuted; limits: C122_limit_refuted. Portfolio value and balance are not the same: they contain the price."},
{"property": "C123", "status": "proved", "theorems": ["C123_advice_now", "C123_advice_of_a_day", "C123_simulations", "C123_rewritten_history", "C123_on_balance_volume", "C123_every_advice_refuted"], "note": "With fill_missing_values or for the indicators that build others inside, no cell may be missing (as in C74: filling looks at rows outside the window). The remaining indicators: C123_every_advice_refuted for seven of them; nothing is claimed for the rest."},
{"property": "C124", "status": "proved", "theorems": ["C124_resume", "C124_reported", "C124_old_history", "C124_open_position_refuted"], "note": "Finite prices. Holds with a limit too: with nothing open the exposure is zero. C124_open_position_refuted: with a position open it fails."},
{"property": "C125", "status": "proved", "theorems": ["C125_values", "C125_advice", "C125_simulations", "C125_cycle_of_values", "C125_cycle_of_advice", "C125_every_value_refuted"], "note": "The rows are compared after filling, so missing cells are allowed, except for the indicators that build others inside (these fill once more). DPO is left out, its value needs later days. The other columns: C125_every_value_refuted for eighteen of them; nothing is claimed for the rest."},
{"property": "C126", "status": "proved", "theorems": ["C126_on_balance_volume", "C126_price_and_volume_trend", "C126_negative_volume_index", "C126_positive_volume_index", "C126_averages_settle"], "note": "Exact arithmetic. The closes are different from zero for the price and volume trend and the volume indices, as in C48."},
{"property": "C127", "status": "proved", "theorems": ["C127_prices_and_signals", "C127_market", "C127_open_position_refuted"], "note": "Exact arithmetic; finite closes. The position-free days k and k+p are hypotheses; C127_open_position_refuted shows that the second one is needed: a position that stays open takes the room of later trades."},
{"property": "C128", "status": "proved", "theorems": ["C128_prices_and_signals", "C128_market", "C128_first_cycle_refuted"], "note": "Exact arithmetic; finite closes. The count starts one cycle after day k, because positions from before may close in the first cycle: C128_first_cycle_refuted."}
]}
