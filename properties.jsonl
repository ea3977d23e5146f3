{"id": "C01", "title": "Row order of the input is irrelevant", "statement": "If two input DataFrames hold the same (date, values) rows in a different order and no date repeats, then constructing any indicator on either one gives the same outcome: the same exception, or the same getTiData, getTiValue, getTiSignal and simulation.", "quantifier": "all indicators, all parameters, all input frames with distinct dates, all permutations of their rows", "why_tests_cant": "a test tries a handful of orders of one file; n! orders of every file are covered by the claim", "anchors": ["tti/utils/data_validation.py:validateInputData", "tti/indicators/_technical_indicator.py:TechnicalIndicator.__init__"]}
{"id": "C02", "title": "Only the required columns matter, by case-insensitive name", "statement": "The indicator values and the trading signal depend only on the values of the columns the indicator documents as required: adding other columns, changing the letter case of labels, or reordering columns changes nothing.", "quantifier": "all indicators, all frames, all extra columns, all column orders and label casings", "why_tests_cant": "tests use one fixed column layout; the known deviations (ATR, TypicalPrice signals) only show up under a reordering no test performs", "anchors": ["tti/utils/data_validation.py:validateInputData", "tti/indicators/_average_true_range.py:getTiSignal", "tti/indicators/_typical_price.py:getTiSignal"]}
{"id": "C03", "title": "Input validation accepts exactly the documented inputs", "statement": "Constructing an indicator succeeds in the validation phase if and only if the input is a non-empty DataFrame with a date index, contains every required column, the columns are numeric and fill_missing_values is a bool; otherwise the documented exception is raised (WrongTypeForInputParameter for a non-bool flag or input that is not a DataFrame, TypeError for a wrong index, ValueError for empty data and for a missing or non-numeric column), first failing check first.", "quantifier": "all Python values passed as input_data and fill_missing_values, all required-column sets", "why_tests_cant": "the accept/reject boundary ranges over all inputs; tests sample a few rejected ones", "anchors": ["tti/utils/data_validation.py:validateInputData"]}
{"id": "C04", "title": "The caller's DataFrame is not modified", "statement": "Constructing an indicator, successfully or not, leaves the caller's DataFrame as it was: same rows, same index, same values, same column labels.", "quantifier": "all input frames, all indicators, successful and failing constructions", "why_tests_cant": "absence of side effects on every path, including every error path, is not observable by finitely many runs", "anchors": ["tti/utils/data_validation.py:validateInputData"]}
{"id": "C05", "title": "Missing values are filled from the nearest earlier observation", "statement": "With fill_missing_values=True every missing cell becomes the last earlier present value of its column, or, if there is none, the first later present value; present cells are unchanged; a cell stays missing only if its whole column is missing; filling twice equals filling once.", "quantifier": "all frames, all patterns of missing cells, all lengths", "why_tests_cant": "exponentially many missing-value patterns", "anchors": ["tti/utils/data_preprocessing.py:fillMissingValues", "tti/utils/data_validation.py:validateInputData"]}
{"id": "C06", "title": "Validated data are sorted and keep row association", "statement": "The data an indicator works on have ascending dates, contain exactly the input rows (restricted to required columns), each value still attached to its own date.", "quantifier": "all input frames", "why_tests_cant": "needs all permutations and all values", "anchors": ["tti/utils/data_validation.py:validateInputData"]}
{"id": "C07", "title": "fill_missing_values=False is honoured everywhere", "statement": "When the caller asks not to fill missing values, no missing price is replaced by another day's price anywhere in the calculation, including inside indicators that are built from other indicators.", "quantifier": "all indicators, all frames with missing values", "why_tests_cant": "tests only call the indicators on complete data", "anchors": ["tti/indicators/_chaikin_oscillator.py", "tti/indicators/_moving_average.py", "tti/indicators/_time_series_forecast.py", "tti/indicators/_forecast_oscillator.py", "tti/indicators/_projection_oscillator.py", "tti/indicators/_moving_average.py:_calculateVariableMovingAverage"]}
{"id": "C08", "title": "Constructor arguments are accepted exactly on the documented domain", "statement": "Every indicator constructor accepts its parameters iff each has the documented type and range, raises WrongTypeForInputParameter for a wrong type and WrongValueForInputParameter for an out-of-range value, naming the offending parameter and its actual value, and never reaches the calculation with an invalid parameter.", "quantifier": "all Python values for all parameters of all indicators", "why_tests_cant": "infinitely many argument values; tests try two or three per parameter", "anchors": ["tti/indicators/_*.py:__init__", "tti/utils/exceptions.py"]}
{"id": "C09", "title": "NotEnoughInputData exactly when there are too few rows; otherwise the calculation completes", "statement": "With valid parameters and validated data, construction raises NotEnoughInputData iff the number of rows is below the indicator's documented minimum (a function of its parameters), the reported required count is that minimum, and in every other case the calculation completes without any exception.", "quantifier": "all indicators, parameters, and data of any length and content, missing and infinite values included", "why_tests_cant": "the boundary must hold for every parameter value and every length", "anchors": ["tti/indicators/_*.py:_calculateTi", "tti/indicators/_technical_indicator.py:TechnicalIndicator.__init__"]}
{"id": "C10", "title": "getTiValue returns the row of the date asked for", "statement": "getTiValue() returns the most recent row of getTiData(); getTiValue(date) returns the row stored under that date as a list with one number per indicator column; it returns None iff there is no such date (or no data).", "quantifier": "all indicators, all data, all dates, repeated dates included", "why_tests_cant": "all dates and all index shapes (duplicates) need covering", "anchors": ["tti/indicators/_technical_indicator.py:getTiValue"]}
{"id": "C11", "title": "getTiData has one row per input date and the documented columns", "statement": "getTiData() has exactly the input's dates, in ascending order, and exactly the documented columns in the documented order.", "quantifier": "all indicators, parameters, inputs", "why_tests_cant": "must hold for every length and parameter", "anchors": ["tti/indicators/_technical_indicator.py:getTiData", "tti/indicators/_*.py:_calculateTi"]}
{"id": "C12", "title": "getTiSignal always answers buy, hold or sell", "statement": "On any successfully constructed indicator, getTiSignal() returns one of the three documented signals and never raises.", "quantifier": "all indicators, parameters, inputs; also every truncated state in which the simulation calls it", "why_tests_cant": "crashes occur only for rare shapes (e.g. a level crossed with no earlier trough)", "anchors": ["tti/indicators/_*.py:getTiSignal", "tti/indicators/_range_indicator.py:getTiSignal", "tti/indicators/_median_price.py:getTiSignal"]}
{"id": "C13", "title": "No look-ahead: history is never rewritten by later data", "statement": "The indicator values for the first n days computed from the complete data equal the indicator values computed from the first n days only.", "quantifier": "all indicators, parameters, data, and all prefixes long enough to construct the indicator", "why_tests_cant": "relates runs on all prefixes of all series", "anchors": ["tti/indicators/_*.py:_calculateTi", "tti/indicators/_detrended_price_oscillator.py", "tti/indicators/_fibonacci_retracement.py", "tti/indicators/_accumulation_distribution_line.py"]}
{"id": "C14", "title": "Running a simulation leaves the indicator unchanged", "statement": "After getTiSimulation the indicator answers getTiData, getTiValue and getTiSignal exactly as before, whether the simulation returns or raises.", "quantifier": "all indicators, data, simulation arguments; success and failure at any round", "why_tests_cant": "state restoration on every path, including exceptions in the middle of the loop", "anchors": ["tti/indicators/_technical_indicator.py:getTiSimulation"]}
{"id": "C15", "title": "The simulation trades on the signals that were available on the day", "statement": "The signal used on simulation day i equals the signal that an indicator constructed that day, from the first i+1 rows only, would have returned.", "quantifier": "all look-ahead-free indicators, all data with distinct dates, all days for which an indicator can be constructed", "why_tests_cant": "relates two whole executions for every day of every series", "anchors": ["tti/indicators/_technical_indicator.py:getTiSimulation", "tti/indicators/_*.py:getTiSignal"]}
{"id": "C16", "title": "The simulation covers every day", "statement": "The simulation result has one completely filled row for every date of the close values given.", "quantifier": "all indicators, data and simulation arguments", "why_tests_cant": "needs every indicator and every length; the exception (DPO) is silent", "anchors": ["tti/indicators/_technical_indicator.py:getTiSimulation", "tti/utils/trading_simulation.py:closeSimulation"]}
{"id": "C17", "title": "Exposure is the sum of the open positions' exposures", "statement": "On every day the exposure column equals the sum, over the positions open at the end of that day, of the opening price (long) or short_exposure_factor times the opening price (short).", "quantifier": "all price series, signal sequences, exposure limits and factors, all days", "why_tests_cant": "an accounting invariant over unboundedly long histories", "anchors": ["tti/utils/trading_simulation.py:TradingSimulation.runSimulationRound", "tti/utils/trading_simulation.py:TradingSimulation._closeOpenPositions"]}
{"id": "C18", "title": "A position is closed on the first profitable day, and only then", "statement": "A long position is closed on the first later day whose close is strictly above its opening price, a short position on the first later day strictly below; until then it stays open; once closed it never reopens.", "quantifier": "all price series and signal sequences, every position", "why_tests_cant": "liveness/safety over all futures of every position", "anchors": ["tti/utils/trading_simulation.py:TradingSimulation._closeOpenPositions"]}
{"id": "C19", "title": "Earnings are the realised profits and never decrease", "statement": "The earnings column equals the sum over all positions closed so far of their profit at closing; every profit is strictly positive, so earnings never decrease and are never negative.", "quantifier": "all price series and signal sequences", "why_tests_cant": "accounting invariant over unbounded histories", "anchors": ["tti/utils/trading_simulation.py:TradingSimulation._closeOpenPositions", "tti/utils/trading_simulation.py:TradingSimulation.runSimulationRound"]}
{"id": "C20", "title": "Portfolio value and balance", "statement": "Portfolio value equals the day's price times (open longs minus open shorts) and balance equals earnings plus portfolio value, every day.", "quantifier": "all price series and signal sequences", "why_tests_cant": "accounting invariant over unbounded histories", "anchors": ["tti/utils/trading_simulation.py:TradingSimulation._calculatePortfolioValue"]}
{"id": "C21", "title": "Exposure never exceeds max_exposure", "statement": "When max_exposure is given, the exposure column is never above it on any day (prices are non-negative).", "quantifier": "all price series, signal sequences, limits and factors", "why_tests_cant": "safety over unbounded histories", "anchors": ["tti/utils/trading_simulation.py:TradingSimulation._processSignal"]}
{"id": "C22", "title": "Positions are opened exactly when a signal fits in the limit", "statement": "On day i a long (short) position is opened iff the signal is buy (sell), it is not the first day, and the exposure after today's closings plus the new position's exposure does not exceed max_exposure (if given); at most one position is opened per day.", "quantifier": "all price series, signal sequences, limits and factors, all days", "why_tests_cant": "if-and-only-if over all histories", "anchors": ["tti/utils/trading_simulation.py:TradingSimulation._processSignal"]}
{"id": "C23", "title": "Simulation statistics agree with the simulation data", "statement": "number_of_trading_days, number_of_buy_signals, number_of_sell_signals, last_stock_value, last_exposure, last_open_long_positions, last_open_short_positions, last_portfolio_value, last_earnings and final_balance are the counts and last values of the returned rows, and number_of_ignored_signals counts exactly the buy/sell signals that were not executed because max_exposure was reached.", "quantifier": "all simulations", "why_tests_cant": "relates two outputs on all histories", "anchors": ["tti/utils/trading_simulation.py:TradingSimulation._calculateSimulationStatistics", "tti/indicators/_technical_indicator.py:getTiSimulation"]}
{"id": "C24", "title": "Simulation arguments are validated", "statement": "A simulation starts iff close_values is valid numeric data on exactly the indicator's input dates, max_exposure is None or a positive number, and short_exposure_factor is a number not below one; otherwise the documented exception is raised.", "quantifier": "all Python values for the arguments", "why_tests_cant": "infinitely many values, NaN included", "anchors": ["tti/utils/trading_simulation.py:TradingSimulation._validateSimulationArguments", "tti/indicators/_technical_indicator.py:getTiSimulation"]}
{"id": "C25", "title": "The simulation is online", "statement": "The first n rows of the simulation depend only on the first n prices and signals.", "quantifier": "all n, all simulations", "why_tests_cant": "relates all prefixes of all runs", "anchors": ["tti/utils/trading_simulation.py:TradingSimulation.runSimulationRound"]}
{"id": "C26", "title": "Exposure is never negative and returns to zero when everything is closed", "statement": "For non-negative prices exposure is never negative, and on a day on which no position is open it is exactly zero.", "quantifier": "all price series and signal sequences", "why_tests_cant": "invariant over unbounded histories", "anchors": ["tti/utils/trading_simulation.py:TradingSimulation._closeOpenPositions"]}
{"id": "C27", "title": "Relative Strength Index stays in its documented range", "statement": "Every value of rsi is missing or lies between 0 and 100.", "quantifier": "all parameters, all price/volume series of any length, missing and infinite values included unless stated, all days", "why_tests_cant": "range over all real inputs; off-range values occur only for special windows", "anchors": ["tti/indicators/_relative_strength_index.py:_calculateTi"]}
{"id": "C28", "title": "Relative Momentum Index stays in its documented range", "statement": "Every value of rmi is missing or lies between 0 and 100.", "quantifier": "all parameters, all price/volume series of any length, missing and infinite values included unless stated, all days", "why_tests_cant": "range over all real inputs; off-range values occur only for special windows", "anchors": ["tti/indicators/_relative_momentum_index.py:_calculateTi"]}
{"id": "C29", "title": "Chande Momentum Oscillator stays in its documented range", "statement": "Every value of cmo is missing or lies between -100 and 100.", "quantifier": "all parameters, all price/volume series of any length, missing and infinite values included unless stated, all days", "why_tests_cant": "range over all real inputs; off-range values occur only for special windows", "anchors": ["tti/indicators/_chande_momentum_oscillator.py:_calculateTi"]}
{"id": "C30", "title": "Intraday Momentum Index stays in its documented range", "statement": "Every value of imi is missing or lies between 0 and 100.", "quantifier": "all parameters, all price/volume series of any length, missing and infinite values included unless stated, all days", "why_tests_cant": "range over all real inputs; off-range values occur only for special windows", "anchors": ["tti/indicators/_intraday_momentum_index.py:_calculateTi"]}
{"id": "C31", "title": "Stochastic Oscillator stays in its documented range", "statement": "Every value of %K and %D is missing or lies between 0 and 100 when every day has low <= close <= high.", "quantifier": "all parameters, all price/volume series of any length, missing and infinite values included unless stated, all days", "why_tests_cant": "range over all real inputs; off-range values occur only for special windows", "anchors": ["tti/indicators/_stochastic_oscillator.py:_calculateTi"]}
{"id": "C32", "title": "Williams %R stays in its documented range", "statement": "Every value of wr is missing or lies between -100 and 0 when every day has low <= close <= high.", "quantifier": "all parameters, all price/volume series of any length, missing and infinite values included unless stated, all days", "why_tests_cant": "range over all real inputs; off-range values occur only for special windows", "anchors": ["tti/indicators/_williams_r.py:_calculateTi"]}
{"id": "C33", "title": "Stochastic Momentum Index stays in its documented range", "statement": "Every value of smi is missing or lies between -100 and 100 when no price is missing and every day has low <= close <= high.", "quantifier": "all parameters, all price/volume series of any length, missing and infinite values included unless stated, all days", "why_tests_cant": "range over all real inputs; off-range values occur only for special windows", "anchors": ["tti/indicators/_stochastic_momentum_index.py:_calculateTi"]}
{"id": "C34", "title": "Vertical Horizontal Filter stays in its documented range", "statement": "Every value of vhf is missing or lies between 0 and 1.", "quantifier": "all parameters, all price/volume series of any length, missing and infinite values included unless stated, all days", "why_tests_cant": "range over all real inputs; off-range values occur only for special windows", "anchors": ["tti/indicators/_vertical_horizontal_filter.py:_calculateTi"]}
{"id": "C35", "title": "Directional Movement Index stays in its documented range", "statement": "Every value of +di, -di, dx, adx and adxr is missing or lies between 0 and 100 when no price is missing and every day has low <= close <= high.", "quantifier": "all parameters, all price/volume series of any length, missing and infinite values included unless stated, all days", "why_tests_cant": "range over all real inputs; off-range values occur only for special windows", "anchors": ["tti/indicators/_directional_movement_index.py:_calculateTi"]}
{"id": "C36", "title": "Ultimate Oscillator stays in its documented range", "statement": "Every value of uosc is missing or lies between 0 and 100 when every day has low <= close <= high.", "quantifier": "all parameters, all price/volume series of any length, missing and infinite values included unless stated, all days", "why_tests_cant": "range over all real inputs; off-range values occur only for special windows", "anchors": ["tti/indicators/_ultimate_oscillator.py:_calculateTi"]}
{"id": "C37", "title": "Swing Index stays in its documented range", "statement": "Every value of swi is missing or lies between -100 and 100 when every day has low <= open, close <= high.", "quantifier": "all parameters, all price/volume series of any length, missing and infinite values included unless stated, all days", "why_tests_cant": "range over all real inputs; off-range values occur only for special windows", "anchors": ["tti/indicators/_swing_index.py:_calculateTi"]}
{"id": "C38", "title": "Chaikin Money Flow stays in its documented range", "statement": "Every value of cmf is missing or lies between -1 and 1 when every day has low <= close <= high and volume >= 0.", "quantifier": "all parameters, all price/volume series of any length, missing and infinite values included unless stated, all days", "why_tests_cant": "range over all real inputs; off-range values occur only for special windows", "anchors": ["tti/indicators/_chaikin_money_flow.py:_calculateTi"]}
{"id": "C39", "title": "Range Indicator stays in its documented range", "statement": "Every value of ri is missing or lies between 0 and 100.", "quantifier": "all parameters, all price/volume series of any length, missing and infinite values included unless stated, all days", "why_tests_cant": "range over all real inputs; off-range values occur only for special windows", "anchors": ["tti/indicators/_range_indicator.py:_calculateTi"]}
{"id": "C40", "title": "Relative Volatility Index stays in its documented range", "statement": "Every value of rvi is missing or lies between 0 and 100.", "quantifier": "all parameters, all price/volume series of any length, missing and infinite values included unless stated, all days", "why_tests_cant": "range over all real inputs; off-range values occur only for special windows", "anchors": ["tti/indicators/_relative_volatility_index.py:_calculateTi"]}
{"id": "C41", "title": "Projection Oscillator stays in its documented range", "statement": "Every value of posc and trigger_line is missing or lies between 0 and 100 when no price is missing, every day has low <= close <= high and closes have at most four decimals.", "quantifier": "all parameters, all price/volume series of any length, missing and infinite values included unless stated, all days", "why_tests_cant": "range over all real inputs; off-range values occur only for special windows", "anchors": ["tti/indicators/_projection_oscillator.py:_calculateTi"]}
{"id": "C42", "title": "Bollinger bands are ordered and symmetric", "statement": "lower_band <= middle_band <= upper_band on every day on which they exist, and the middle is half way between the other two up to rounding.", "quantifier": "all series, periods, widths", "why_tests_cant": "all windows", "anchors": ["tti/indicators/_bollinger_bands.py:_calculateTi"]}
{"id": "C43", "title": "Envelopes are ordered", "statement": "lower_band <= upper_band on every day on which they exist.", "quantifier": "all series, periods and shifts", "why_tests_cant": "depends on sign of prices; tests use positive prices only", "anchors": ["tti/indicators/_envelopes.py:_calculateTi"]}
{"id": "C44", "title": "Moving averages lie between the smallest and largest averaged price", "statement": "A simple, exponential, triangular, variable, Wilder's or weighted moving average value never leaves the interval spanned by the prices seen so far (up to the 4-decimal rounding).", "quantifier": "all series, periods", "why_tests_cant": "convexity over all windows", "anchors": ["tti/indicators/_moving_average.py", "tti/indicators/_wilders_smoothing.py"]}
{"id": "C45", "title": "Price channel and Ichimoku lines are the exact window extremes", "statement": "highest_high/lowest_low are the maximum/minimum over the preceding period days; tenkan_sen/kijun_sen are the midpoints of 9/26-day extremes and the cloud lines are the midpoints 26 days earlier.", "quantifier": "all series, periods, days", "why_tests_cant": "for every window of every series", "anchors": ["tti/indicators/_price_channel.py:_calculateTi", "tti/indicators/_ichimoku_cloud.py:_calculateTi"]}
{"id": "C46", "title": "Fibonacci levels are ordered", "statement": "The retracement levels are constant in time and decrease/increase monotonically between the extreme prices.", "quantifier": "all series", "why_tests_cant": "all inputs incl. all orders of the extremes", "anchors": ["tti/indicators/_fibonacci_retracement.py:_calculateTi"]}
{"id": "C47", "title": "Linear regression outputs are the least-squares line", "statement": "lri and lrs are (up to 4-decimal rounding) the end point and slope of the unique line minimising the squared distance to the window; on an exactly linear price they reproduce it; tsf extrapolates that line one day ahead.", "quantifier": "all series, periods, days, all competing lines", "why_tests_cant": "optimality against all lines", "anchors": ["tti/indicators/_linear_regression_indicator.py", "tti/indicators/_linear_regression_slope.py", "tti/indicators/_time_series_forecast.py"]}
{"id": "C48", "title": "Cumulative volume indicators follow their day-to-day rule", "statement": "obv changes by +volume, -volume or 0 according to the sign of the price change; pvt changes by volume times the relative price change; nvi changes only on days of lower volume and pvi only on days of higher volume, by the relative price change.", "quantifier": "all series, all days", "why_tests_cant": "recurrence over unbounded histories", "anchors": ["tti/indicators/_on_balance_volume.py", "tti/indicators/_price_and_volume_trend.py", "tti/indicators/_negative_volume_index.py", "tti/indicators/_positive_volume_index.py"]}
{"id": "C49", "title": "Parabolic SAR follows Wilder's rules", "statement": "The acceleration factor stays in [0.02, 0.20]; in a rising trend the sar never exceeds the two previous lows and in a falling trend is never below the two previous highs; the trend flips exactly when the price crosses the sar.", "quantifier": "all high/low series, all days", "why_tests_cant": "state machine over unbounded histories", "anchors": ["tti/indicators/_parabolic_sar.py:_calculateTi"]}
{"id": "C50", "title": "Ratio indicators do not depend on the currency unit", "statement": "Multiplying all prices by a positive constant does not change RSI, RMI, CMO, IMI, Stochastic Oscillator, Williams %R, price rate of change, momentum.", "quantifier": "all series, all positive factors", "why_tests_cant": "a relation between runs on all scalings", "anchors": ["tti/indicators/_relative_strength_index.py", "tti/indicators/_chande_momentum_oscillator.py", "tti/indicators/_intraday_momentum_index.py", "tti/indicators/_williams_r.py", "tti/indicators/_stochastic_oscillator.py", "tti/indicators/_momentum.py", "tti/indicators/_price_rate_of_change.py"]}
{"id": "C51", "title": "Daily average prices lie within the day's range", "statement": "Median, typical and weighted price lie between the day's low and high (up to 4-decimal rounding) whenever low <= close <= high.", "quantifier": "all series, all days", "why_tests_cant": "all inputs", "anchors": ["tti/indicators/_median_price.py", "tti/indicators/_typical_price.py", "tti/indicators/_weighted_close.py"]}
{"id": "C52", "title": "Momentum and rate of change agree", "statement": "mom - prc = 100 for the same period on every day both exist (up to rounding).", "quantifier": "all series, periods, days", "why_tests_cant": "relates two indicators on all inputs", "anchors": ["tti/indicators/_momentum.py", "tti/indicators/_price_rate_of_change.py"]}
{"id": "C53", "title": "Trend-difference indicators vanish on a flat market", "statement": "On a constant price, MACD and its signal line, price oscillator, DPO, standard deviation and regression slope are 0, and every moving average (DEMA, TEMA included) equals the price, after the warm-up.", "quantifier": "all constants, lengths, periods", "why_tests_cant": "all lengths and parameters", "anchors": ["tti/indicators/_moving_average_convergence_divergence.py", "tti/indicators/_double_exponential_moving_average.py", "tti/indicators/_triple_exponential_moving_average.py", "tti/indicators/_price_oscillator.py", "tti/indicators/_standard_deviation.py"]}
{"id": "C54", "title": "Crossover signals fire only on a crossing", "statement": "For every indicator whose documented rule is a line crossing, buy and sell are raised exactly on the day of the crossing in the documented direction, never both, and hold when any value involved is missing.", "quantifier": "all crossover indicators, all series", "why_tests_cant": "all value combinations including ties and missing values", "anchors": ["tti/indicators/_*.py:getTiSignal"]}
{"id": "C55", "title": "Ultimate Oscillator signals follow the documented rule", "statement": "buy requires the documented bullish pattern (a bottom below 30 that is broken upwards), sell the mirrored bearish pattern.", "quantifier": "all series", "why_tests_cant": "pattern over all histories", "anchors": ["tti/indicators/_ultimate_oscillator.py:getTiSignal"]}
{"id": "C56", "title": "Ichimoku buy only above an existing cloud", "statement": "getTiSignal returns buy only if the price is above both cloud lines and these exist; sell only if below both.", "quantifier": "all series", "why_tests_cant": "warm-up region with undefined cloud is not exercised by tests", "anchors": ["tti/indicators/_ichimoku_cloud.py:getTiSignal"]}
{"id": "C57", "title": "Accumulation/distribution line step is bounded by the day's volume", "statement": "Each day the line moves by at most the day's volume, up iff the close is in the upper half of the day's range, before the final conversion to whole numbers.", "quantifier": "all series with low <= close <= high and volume >= 0", "why_tests_cant": "all inputs, degenerate high = low days included", "anchors": ["tti/indicators/_accumulation_distribution_line.py:_calculateTi"]}
{"id": "C58", "title": "The exposure limit survives floating point", "statement": "In IEEE binary64 arithmetic (not only for exact numbers) the reported exposure never exceeds max_exposure, while exact zero exposure with no open positions can fail.", "quantifier": "all binary64 price series and signal sequences", "why_tests_cant": "rounding over unbounded histories", "anchors": ["tti/utils/trading_simulation.py:TradingSimulation._processSignal"]}
{"id": "C59", "title": "Moving averages compute their textbook formulas", "statement": "Every published cell of the simple, exponential, triangular, time-series and variable moving average, DEMA, TEMA and Wilder's smoothing equals the textbook formula of the closes up to that day (rounded to 4 decimals), and is missing exactly before the warm-up day of the formula.", "quantifier": "all close series, periods, days", "why_tests_cant": "equality with a formula on all inputs, with weights reaching back to the first day", "anchors": ["tti/indicators/_moving_average.py", "tti/indicators/_double_exponential_moving_average.py", "tti/indicators/_triple_exponential_moving_average.py", "tti/indicators/_wilders_smoothing.py"]}
{"id": "C60", "title": "Oscillators of one column compute their textbook formulas", "statement": "MACD and its signal line, price oscillator, volume oscillator, volume rate of change, standard deviation, vertical horizontal filter and performance equal their formulas on every day and are missing exactly in the warm-up.", "quantifier": "all series, parameters, days", "why_tests_cant": "equality with a formula on all inputs", "anchors": ["tti/indicators/_moving_average_convergence_divergence.py", "tti/indicators/_price_oscillator.py", "tti/indicators/_volume_oscillator.py", "tti/indicators/_volume_rate_of_change.py", "tti/indicators/_standard_deviation.py", "tti/indicators/_vertical_horizontal_filter.py", "tti/indicators/_performance.py"]}
{"id": "C61", "title": "Gain/loss indexes compute their textbook formulas", "statement": "CMO, RSI, RMI, IMI and QStick are 100 times the (smoothed) gains over gains plus losses (or the documented variant) on every day after the warm-up.", "quantifier": "all series, parameters, days", "why_tests_cant": "recurrences over unbounded histories", "anchors": ["tti/indicators/_chande_momentum_oscillator.py", "tti/indicators/_relative_strength_index.py", "tti/indicators/_relative_momentum_index.py", "tti/indicators/_intraday_momentum_index.py", "tti/indicators/_qstick.py"]}
{"id": "C62", "title": "Range position indicators compute their textbook formulas", "statement": "Williams %R, stochastic %K and %D, SMI, CCI, ultimate oscillator and range indicator equal their formulas of high, low and close on every day after the warm-up.", "quantifier": "all series, parameters, days", "why_tests_cant": "equality with a formula on all inputs", "anchors": ["tti/indicators/_williams_r.py", "tti/indicators/_stochastic_oscillator.py", "tti/indicators/_stochastic_momentum_index.py", "tti/indicators/_commodity_channel_index.py", "tti/indicators/_ultimate_oscillator.py", "tti/indicators/_range_indicator.py"]}
{"id": "C63", "title": "Volatility and direction indicators compute their textbook formulas", "statement": "ATR, mass index, Chaikin volatility, relative volatility index, the five directional movement lines and the swing index equal their formulas on every day after the warm-up.", "quantifier": "all series without zero denominators, all days", "why_tests_cant": "recurrences over unbounded histories", "anchors": ["tti/indicators/_average_true_range.py", "tti/indicators/_mass_index.py", "tti/indicators/_volatility_chaikins.py", "tti/indicators/_relative_volatility_index.py", "tti/indicators/_directional_movement_index.py", "tti/indicators/_swing_index.py"]}
{"id": "C64", "title": "Volume indicators compute their textbook formulas", "statement": "Chaikin money flow, market facilitation index, ease of movement and its average, Klinger oscillator, Chaikin oscillator equal their formulas; Williams accumulation/distribution is the running total of the daily values.", "quantifier": "all series without zero denominators, all days", "why_tests_cant": "recurrences over unbounded histories", "anchors": ["tti/indicators/_chaikin_money_flow.py", "tti/indicators/_market_facilitation_index.py", "tti/indicators/_ease_of_movement.py", "tti/indicators/_klinger_oscillator.py", "tti/indicators/_chaikin_oscillator.py", "tti/indicators/_williams_accumulation_distribution.py"]}
{"id": "C65", "title": "Projection indicators and the detrended price compute their textbook formulas", "statement": "Projection bands are the highest (lowest) of the last highs (lows) moved along their regression slope to today; projection oscillator and trigger, forecast oscillator and detrended price oscillator equal their formulas.", "quantifier": "all series, parameters, days", "why_tests_cant": "equality with a formula on all inputs", "anchors": ["tti/indicators/_projection_bands.py", "tti/indicators/_projection_oscillator.py", "tti/indicators/_forecast_oscillator.py", "tti/indicators/_detrended_price_oscillator.py"]}
{"id": "C66", "title": "Band and threshold signals fire exactly outside the band or threshold", "statement": "Bollinger bands, envelopes, price channel, CCI, projection bands, DEMA, TEMA, moving average, performance, standard deviation, typical price, negative volume index and ATR answer buy or sell exactly when the last close or value is on the stated side of the stated lines, and hold otherwise or when a value is missing.", "quantifier": "all series, parameters and days at which the signal is asked", "why_tests_cant": "exact equivalence over all inputs, boundaries and missing values included", "anchors": ["tti/indicators/_bollinger_bands.py:getTiSignal", "tti/indicators/_envelopes.py:getTiSignal", "tti/indicators/_standard_deviation.py:getTiSignal", "tti/indicators/_average_true_range.py:getTiSignal"]}
{"id": "C67", "title": "Trend signals fire exactly on three monotone days", "statement": "OBV, PVT, PRC, VRC, Chaikin volatility, volume oscillator, QStick, market facilitation index and vertical horizontal filter answer exactly according to the direction of the last days, and hold otherwise.", "quantifier": "all series, parameters, days", "why_tests_cant": "exact equivalence over all inputs", "anchors": ["tti/indicators/_on_balance_volume.py:getTiSignal", "tti/indicators/_qstick.py:getTiSignal", "tti/indicators/_vertical_horizontal_filter.py:getTiSignal"]}
{"id": "C68", "title": "Pattern signals follow one exact rule", "statement": "ADL, Chaikin money flow, Chaikin oscillator, Fibonacci, mass index, projection oscillator, range indicator, stochastic, Williams A/D and Williams %R signal exactly on the pattern of values and prices coded, which searches back over the whole history where the rule says so.", "quantifier": "all series, parameters, days", "why_tests_cant": "exact equivalence; searches over unbounded histories", "anchors": ["tti/indicators/_mass_index.py:getTiSignal", "tti/indicators/_williams_r.py:getTiSignal", "tti/indicators/_range_indicator.py:getTiSignal", "tti/indicators/_stochastic_oscillator.py:getTiSignal"]}
{"id": "C69", "title": "The documented input columns are necessary and sufficient", "statement": "With accepted parameters a constructor succeeds exactly when the input has a date index, enough rows, and each column its docstring lists under 'Required input columns' (in any case, order, with any other columns around) holds numbers; when such a column is missing or not numeric it raises ValueError.", "quantifier": "all 57 indicators, all frames", "why_tests_cant": "every combination of columns of every indicator", "anchors": ["tti/indicators/properties/indicators_properties.py:INDICATORS_PROPERTIES", "tti/utils/data_validation.py:validateInputData"]}
{"id": "C70", "title": "The graph of an indicator shows exactly the data of the object", "statement": "getTiGraph never fails on a constructed object; it draws the prices it is about (close for most indicators) and every indicator column, each with its dates and published cells, in one plot when the indicator is measured in the price and in two otherwise; lines of one plot differ in name and colour and appear in a legend; only the Ichimoku cloud is filled, between its two lines.", "quantifier": "all 57 indicators, all inputs", "why_tests_cant": "images are only compared by eye, and only for the sample data", "anchors": ["tti/indicators/_technical_indicator.py:getTiGraph", "tti/utils/plot.py:linesGraph", "tti/indicators/properties/indicators_properties.py:INDICATORS_PROPERTIES"]}
{"id": "C71", "title": "The graph of the simulation shows the simulation", "statement": "The graph returned by getTiSimulation has three lines over the trading days 1, 2, ...: the given close prices, the exposure and the balance; each line ends in the value the statistics report.", "quantifier": "all indicators, all inputs and close values", "why_tests_cant": "images are not compared by tests", "anchors": ["tti/indicators/_technical_indicator.py:_getSimulationGraph", "tti/indicators/_technical_indicator.py:getTiSimulation"]}
{"id": "C72", "title": "A refused argument is reported by its name, its value and what is supported", "statement": "When a constructor refuses an argument, the text of the exception names the first parameter that is wrong, shows the value (or type) given for it, and states the supported values (or type); there is such a text exactly when a parameter differs from its documentation.", "quantifier": "all 57 constructors, all python values, all texts", "why_tests_cant": "tests look at the class of the exception, not at its text; no enumeration covers all values", "anchors": ["tti/utils/exceptions.py:WrongValueForInputParameter", "tti/utils/exceptions.py:WrongTypeForInputParameter", "tti/indicators/_envelopes.py:64-70", "tti/indicators/_volume_oscillator.py:72-75"]}
{"id": "C73", "title": "Refused data are reported by what is wrong with them", "statement": "The exception for too few rows names the indicator, the rows needed and the rows given; the exception for a missing or not numeric column names such a column (and the class); a wrong object, index or empty frame is reported as such; the simulation reports the same about close_values, and its own parameters by name, value and supported values.", "quantifier": "all 57 constructors, all frames, all texts", "why_tests_cant": "tests do not compare texts; the texts depend on all names, numbers and columns", "anchors": ["tti/utils/data_validation.py:validateInputData", "tti/utils/exceptions.py:NotEnoughInputData", "tti/utils/exceptions.py:NotValidInputDataForSimulation", "tti/utils/trading_simulation.py:226-281"]}
{"id": "C74", "title": "Old history can be cut off without changing the recent values", "statement": "A column built from windows of rows needs only a known number of earlier rows: on data without the rows before some date it shows, from that many rows on, the same cells for the same days. The columns smoothed recursively or accumulated depend on all the history; for on-balance volume the difference is its value on the first remaining day, for the exponential average it shrinks by the same factor every day.", "quantifier": "all 57 indicators, all frames, all parameters, all dates to cut at", "why_tests_cant": "relates two runs on data of different, unbounded length", "anchors": ["tti/indicators/_moving_average.py", "tti/indicators/_stochastic_oscillator.py", "tti/indicators/_linear_regression_slope.py", "tti/indicators/_ultimate_oscillator.py", "tti/indicators/_on_balance_volume.py"]}
{"id": "C75", "title": "Indicators that share a quantity agree on it", "statement": "On the same data: the middle Bollinger band is the simple moving average, and the bands lie the chosen number of standard deviations away; the average lies halfway between the envelopes; the time-series average is the time series forecast, and the forecast oscillator compares the close with yesterday's forecast; the MACD is the difference of the 12 and 26 day exponential averages; Williams' %R is the fast stochastic %K less 100, to the last decimal; the volume rate of change is the price rate of change of the same numbers.", "quantifier": "all data including missing cells, all parameters", "why_tests_cant": "relates the outputs of different classes for all inputs", "anchors": ["tti/indicators/_bollinger_bands.py", "tti/indicators/_standard_deviation.py", "tti/indicators/_envelopes.py", "tti/indicators/_time_series_forecast.py", "tti/indicators/_forecast_oscillator.py", "tti/indicators/_moving_average_convergence_divergence.py", "tti/indicators/_williams_r.py", "tti/indicators/_stochastic_oscillator.py", "tti/indicators/_volume_rate_of_change.py"]}
{"id": "C76", "title": "An average over one row is the price itself", "statement": "With period 1 the simple, exponential and triangular moving averages, the double and triple exponential averages and Wilder's smoothing show the close, rounded to four decimals.", "quantifier": "all data", "why_tests_cant": "the recurrences must collapse on every day of an unbounded series", "anchors": ["tti/indicators/_moving_average.py", "tti/indicators/_double_exponential_moving_average.py", "tti/indicators/_triple_exponential_moving_average.py", "tti/indicators/_wilders_smoothing.py"]}
{"id": "C77", "title": "Bounded indicators stay in their bounds in the arithmetic numpy really uses", "statement": "With every operation rounded to binary64: Williams %R is published within [-100, 0] and %K (no slowing) within [0, 100], they are missing exactly when the window is not full or flat, and hit the ends exactly when the close is the lowest low or highest high; RSI is missing or within [0, 100]; the median price and the Ichimoku lines lie between the low and the high; the channel's lower band is never above its upper band; the Fibonacci levels are in order and the outer ones are the highest and the lowest close; rounding to four decimals leaves prices of four decimals alone.", "quantifier": "all lengths, all periods, all prices up to 2^1000 (RSI: any floats)", "why_tests_cant": "a rounding error can push a ratio just above its bound for some of 2^64 inputs per cell; sampled prices do not hit them", "anchors": ["tti/indicators/_williams_r.py", "tti/indicators/_stochastic_oscillator.py", "tti/indicators/_relative_strength_index.py", "tti/indicators/_median_price.py", "tti/indicators/_ichimoku_cloud.py", "tti/indicators/_price_channel.py", "tti/indicators/_fibonacci_retracement.py"]}
{"id": "C78", "title": "The published floats are the exact values to the fourth decimal", "statement": "On prices of four decimals, the number an indicator publishes in binary64 is the float of a four-decimal number at most 0.6 units of the fourth decimal from the exact formula; so it differs from the correctly rounded exact value by at most one unit of the fourth decimal, and equals it unless the exact value is within a tenth of a unit of a tie. A missing or infinite exact value is published as missing or infinite. The price channel is exact.", "quantifier": "all lengths, all periods, all prices of up to 2^24 ticks of up to 2^20 ten-thousandths (ratios: all values up to 2^50 ten-thousandths that grew at most 2^24 times): Williams %R, %K, median price, weighted close, typical price, Ichimoku, price channel, Fibonacci levels, momentum, price and volume rate of change, performance", "why_tests_cant": "exact arithmetic is the yardstick of every other property; how far numpy is from it depends on all the bits of all the inputs", "anchors": ["tti/indicators/_williams_r.py", "tti/indicators/_stochastic_oscillator.py", "tti/indicators/_median_price.py", "tti/indicators/_weighted_close.py", "tti/indicators/_typical_price.py", "tti/indicators/_ichimoku_cloud.py", "tti/indicators/_price_channel.py", "tti/indicators/_fibonacci_retracement.py", "tti/indicators/_momentum.py", "tti/indicators/_price_rate_of_change.py", "tti/indicators/_volume_rate_of_change.py", "tti/indicators/_performance.py"]}
{"id": "C79", "title": "Recursive averages do not drift away from the exact average in binary64", "statement": "However long the history, the exponential, double and triple exponential averages and Wilder's smoothing published in binary64 are the float of a four-decimal number at most 0.6 units of the fourth decimal from the exact average; so they differ from the correctly rounded exact value by at most one unit of the fourth decimal. The MACD is within 1.2 units of the difference of the exact averages and its signal line within 2 units of the exact average of that. The exponential average and Wilder's smoothing never leave the range of the prices.", "quantifier": "all lengths, all periods, all four-decimal prices whose product with period + 1 stays below 219 million; any order of adding inside mean()", "why_tests_cant": "every day starts from the rounded average of the day before: whether errors build up over thousands of days cannot be seen on a few hundred rows", "anchors": ["tti/indicators/_moving_average.py:126-129", "tti/indicators/_double_exponential_moving_average.py", "tti/indicators/_triple_exponential_moving_average.py", "tti/indicators/_wilders_smoothing.py", "tti/indicators/_moving_average_convergence_divergence.py"]}
{"id": "C80", "title": "A market turned upside down gives mirrored values", "statement": "When every price x is replaced by m - x (highs and lows change places, volumes stay) and m is a multiple of 0.0002, then to the last published decimal: ADL, CMF, CO, CMO, CCI, DPO, EMV, KO, LRS, MACD, OBV, Qstick, SMI, SWI and WAD change sign; IMI, RSI, RVI, Projection oscillator, Stochastic and UO become 100 minus the value and Williams %R -100 minus it; ATR, MFI, MI, SD, VCH and VHF stay; +DI and -DI change places and DX, ADX, ADXR stay; every average, line and price level becomes m minus the value, with upper and lower bands (and Fibonacci levels symmetric around 50%) changing places. Where the code treats a rise and a fall differently this fails: RMI without any fall, KO on a day with an unchanged typical price, the first day of the parabolic SAR.", "quantifier": "all frames whose requested columns hold numbers, all rows, all accepted parameters, all m that are multiples of 0.0002; days where a formula is not divided by zero", "why_tests_cant": "no test compares the output on two related inputs; a slip in one of two symmetric branches gives plausible numbers", "anchors": ["tti/indicators/_parabolic_sar.py", "tti/indicators/_directional_movement_index.py", "tti/indicators/_relative_momentum_index.py", "tti/indicators/_klinger_oscillator.py", "tti/indicators/_projection_bands.py"]}
{"id": "C81", "title": "A market turned upside down gives the opposite signals", "statement": "On the mirrored market every buy becomes a sell, every sell a buy and every hold stays, for ADL, CMF, CO, CMO, CCI, DPO, DMI, EMV, IMI, KO, LRI, LRS, MI, MACD, MP, OBV, PSAR, Projection oscillator, Qstick, RSI, RVI, SMI, SWI, TSF, TEMA, WC, WS and WR; for BB, Price channel and Projection bands when the bands have not crossed, for the Stochastic when its two lines do not leave opposite extremes on one day, and for WAD when the close is not at once the lowest and the highest of thirty days. MFI and VCH give the same signal on both. DEMA, MA and TP only ever buy, so the mirrored market gets no sell; the Stochastic sells both ways in the excluded case.", "quantifier": "all frames whose requested columns hold numbers, all accepted parameters, all m that are multiples of 0.0002", "why_tests_cant": "the rules are written twice, once for each direction; tests do not compare the two", "anchors": ["tti/indicators/_stochastic_oscillator.py", "tti/indicators/_williams_r.py", "tti/indicators/_mass_index.py", "tti/indicators/_williams_accumulation_distribution.py", "tti/indicators/_projection_oscillator.py"]}
{"id": "C82", "title": "No value is published from prices that are not there", "statement": "With filling off, a day has a value only if the prices the value is computed from are there: the whole window for BB, CMF, CMO, ENV, IMI, LRS, simple and triangular MA, Price channel, POSC, Qstick, SD, Stochastic, UO, VHF, VOSC and WR; both ends for MOM, PRC and VRC; the day and the day before for EMV, SWI and WAD; the day itself for ADL, FOSC, MFI, MP, PRF, Projection oscillator and WC. This is not so for every column: ATR, CO, CCI, DEMA, FIB, ICH, LRI, exponential and time-series MA, NVI, OBV, PSAR, PVI, RI, RSI, RVI, SMI, TSF, TEMA and VCH publish a number on a day on which no price at all is given.", "quantifier": "all frames (any cells missing), filling on or off, all accepted parameters, all rows", "why_tests_cant": "tests use one data file without missing prices, or with the filling on", "anchors": ["tti/utils/data_preprocessing.py", "tti/indicators/_bollinger_bands.py", "tti/indicators/_stochastic_oscillator.py", "tti/indicators/_ultimate_oscillator.py", "tti/indicators/_momentum.py"]}
{"id": "C83", "title": "After one missing price some columns never come back", "statement": "With filling off, one missing price leaves all later rows missing: Wilders smoothing, RMI, PVT, +DI, -DI, DX, ADX and ADXR of the DMI and the variable moving average (any price used after their start), and the parabolic SAR from the next day on (high and low missing).", "quantifier": "all frames, all accepted parameters, all rows", "why_tests_cant": "needs a run of the code on data with holes, followed to the end of the data for any length", "anchors": ["tti/indicators/_wilders_smoothing.py", "tti/indicators/_relative_momentum_index.py", "tti/indicators/_price_and_volume_trend.py", "tti/indicators/_directional_movement_index.py", "tti/indicators/_moving_average.py", "tti/indicators/_parabolic_sar.py"]}
{"id": "C84", "title": "What the other columns take a missing price for", "statement": "With filling off: the exponential average and the MACD repeat their last value, and the average resumes with the weight of the past decayed once per missing day; the regression line and the CCI count a missing price as 0; the RSI and the OBV count it as no change, on its own day and on the next one, so a move across the gap is lost; the typical price is the mean of the prices that are there.", "quantifier": "all frames with any pattern of missing prices, all accepted parameters, all rows", "why_tests_cant": "no test feeds missing prices to these indicators; the numbers look plausible", "anchors": ["tti/indicators/_moving_average.py", "tti/indicators/_moving_average_convergence_divergence.py", "tti/indicators/_linear_regression_indicator.py", "tti/indicators/_commodity_channel_index.py", "tti/indicators/_relative_strength_index.py", "tti/indicators/_on_balance_volume.py", "tti/indicators/_typical_price.py"]}
{"id": "C85", "title": "Adding one amount to all prices moves price lines and leaves oscillators", "statement": "When one amount d (a multiple of 0.0002) is added to every price and the volumes stay, then to the last published decimal: every average, line and price level (MA, DEMA, TEMA, WS, LRI, TSF, MP, TP, WC, parabolic SAR, Ichimoku, Bollinger, Projection bands, Price channel, Fibonacci levels) lies exactly d higher, and ADL, CMF, CO, CMO, CCI, DPO, EMV, KO, LRS, MACD, OBV, Qstick, SMI, SWI, WAD, IMI, RSI, RVI, RMI, RI, Projection oscillator, UO, WR, Stochastic, ATR, MFI, MI, SD, VCH, VHF and DMI do not change. Envelopes, MOM, PRC, POSC, FOSC, NVI, PVI and PVT depend on the level of the prices: they do neither.", "quantifier": "all frames whose requested columns hold numbers, all rows, all accepted parameters, all d that are multiples of 0.0002; days where a formula is not divided by zero", "why_tests_cant": "a constant mixed into a formula, or a price where a difference of prices is meant, changes values by amounts a test on one file cannot notice", "anchors": ["tti/indicators/_relative_momentum_index.py", "tti/indicators/_range_indicator.py", "tti/indicators/_parabolic_sar.py", "tti/indicators/_bollinger_bands.py", "tti/indicators/_envelopes.py"]}
{"id": "C86", "title": "Adding one amount to all prices does not change the signals", "statement": "When one amount d (a multiple of 0.0002) is added to every price and the volumes stay, the signal stays the same for ADL, CMF, CO, CMO, CCI, DPO, DMI, EMV, IMI, KO, LRI, LRS, MI, MACD, MP, OBV, PSAR, Projection oscillator, Qstick, RSI, RVI, SMI, SWI, TSF, TEMA, WC, WS, WR, MFI, VCH, DEMA and MA; for BB, Price channel and Projection bands when the bands have not crossed, for the Stochastic when its two lines do not leave opposite extremes on one day and for WAD when the close is not at once the lowest and the highest of thirty days. Envelopes are a percentage of the price and do change their signal.", "quantifier": "all frames whose requested columns hold numbers, all accepted parameters, all d that are multiples of 0.0002", "why_tests_cant": "a rule that compares a price with a fixed number, or a level-free value with a price, gives plausible signals on one file", "anchors": ["tti/indicators/_bollinger_bands.py", "tti/indicators/_moving_average.py", "tti/indicators/_double_exponential_moving_average.py", "tti/indicators/_envelopes.py"]}
{"id": "C87", "title": "Dates matter only by their order", "statement": "When the dates of the input are replaced by other dates in the same order (daily bars by weekly or one-minute bars, gaps for week-ends closed or opened), every indicator publishes the same columns and numbers under the new dates, gives the same signal, answers getTiValue for a renumbered date as for the old one, refuses the same inputs with the same error, and the simulation with equally renumbered close values makes the same trades with the same money.", "quantifier": "all frames, all 57 constructors and parameters, all order-preserving replacements of the dates in use (also with repeated dates)", "why_tests_cant": "tests use one file of daily prices; code that looks at the distance of dates (resample, offsets, day of the week) agrees on it", "anchors": ["tti/utils/data_validation.py", "tti/utils/data_preprocessing.py", "tti/indicators/_technical_indicator.py", "tti/utils/trading_simulation.py"]}
{"id": "C88", "title": "The simulation does not depend on the currency", "statement": "When the close values given to getTiSimulation and the exposure limit are multiplied by one positive number, every day has the same signal and the same action, and stock value, exposure, portfolio value, earnings and balance are multiplied by it; the numbers of days, signals, ignored signals and open positions are the same, and the same arguments are refused. The money in the statistics is rounded to two decimals in every currency and is not multiplied exactly.", "quantifier": "all objects, all frames of close values (also with missing cells), all limits and factors, all positive multipliers", "why_tests_cant": "tests simulate one price series; a constant that is not money (an absolute tolerance, a forgotten factor) does not show", "anchors": ["tti/utils/trading_simulation.py", "tti/indicators/_technical_indicator.py"]}
{"id": "C89", "title": "Dearer prices never lower an average, a channel or a price level", "statement": "When a second input is nowhere cheaper than a first one in the columns used, then on no day is a moving average (simple, exponential, triangular), Wilder's smoothing, median price, typical price, weighted close, a line of Ichimoku, a price channel, the middle Bollinger band, an envelope or a Fibonacci level lower in the second, to the last published decimal, and a value is missing in one exactly when it is missing in the other. The double and triple exponential average, the regression lines and the outer Bollinger bands do not have this property.", "quantifier": "all pairs of frames whose requested columns hold numbers up to the row, all rows, all accepted parameters", "why_tests_cant": "a negative weight, a rounding in the wrong place or a swapped minimum and maximum keeps plausible values on one file", "anchors": ["tti/indicators/_moving_average.py", "tti/indicators/_wilders_smoothing.py", "tti/indicators/_median_price.py", "tti/indicators/_typical_price.py", "tti/indicators/_weighted_close.py", "tti/indicators/_ichimoku_cloud.py", "tti/indicators/_price_channel.py", "tti/indicators/_bollinger_bands.py", "tti/indicators/_envelopes.py", "tti/indicators/_fibonacci_retracement.py"]}
{"id": "C90", "title": "A higher close of the day does not lower the day's value", "statement": "When only the close of one day is higher, within the range of the day, the value of that day is not lower, wherever both are numbers, for ADL, CMF, CO, CMO, CCI, IMI, LRS, LRI, TSF, DEMA, TEMA, MOM, NVI, OBV, PVI, PVT, PRF, PRC, POSC, the Projection oscillator and its trigger line, Qstick, RSI, RMI, the Stochastic (both lines), SMI, SWI, KO, UO, WAD, WR and the time series average, for FOSC while its forecast is not negative; the MACD can be lower, by one unit of the fourth decimal at most, since its two averages are rounded apart. RI, VHF, SD and the outer Bollinger bands do not follow the close.", "quantifier": "all pairs of frames that differ in one close, with positive prices, closes within the range and volumes not negative; all rows, all accepted parameters; days where a formula is not divided by zero", "why_tests_cant": "a sign or a pair of operands the wrong way round shows only for some patterns of prices; rounding effects of one unit are below any tolerance of a test", "anchors": ["tti/indicators/_relative_strength_index.py", "tti/indicators/_commodity_channel_index.py", "tti/indicators/_swing_index.py", "tti/indicators/_price_oscillator.py", "tti/indicators/_moving_average_convergence_divergence.py", "tti/indicators/_ultimate_oscillator.py", "tti/indicators/_klinger_oscillator.py", "tti/indicators/_chaikin_oscillator.py"]}
{"id": "C91", "title": "Arguments may be given by position, by name or not at all", "statement": "A constructor of an indicator takes input_data, the parameters in the documented order and fill_missing_values, each by position or by name in any order of the names; a parameter that is not given has exactly the default its documentation names. Too many arguments, an unknown name, an argument given twice or no data is a TypeError. With data alone every one of the 57 classes can be constructed as soon as the data has as many rows as the default periods need.", "quantifier": "all 57 classes, all lists of positional and named arguments, all values, all inputs", "why_tests_cant": "the defaults of 57 signatures and their documentation are compared by no test; tests name most arguments", "anchors": ["tti/indicators/__init__.py", "tti/indicators/_bollinger_bands.py", "tti/indicators/_stochastic_oscillator.py", "tti/indicators/_moving_average.py", "tti/indicators/_performance.py"]}
{"id": "C92", "title": "What is typed after the program's name is what the constructor gets", "statement": "run_single_simulation.py simulates the class named tti.indicators.<Class> with the arguments name=value that are typed: a whole number, a decimal fraction or a word reaches the constructor as the value written, so that the documented default of every parameter, a negative number and True or False can be typed; the report is the one of that simulation. Any other class name is refused and no simulation runs.", "quantifier": "all 57 classes, all texts, all lists of arguments, all daily data", "why_tests_cant": "a pattern that misreads some texts is right on the texts a test chooses", "anchors": ["signals_simulation/run_single_simulation.py"]}
{"id": "C93", "title": "The program for all simulations reports on every indicator", "statement": "run_all_simulation.py, given daily data with the columns open, high, low, close and volume and enough rows, runs to its end and reports, in the order of the names, on every class of the package with its default parameters, on the moving average once for every documented type and on the stochastic oscillator fast and slow, each with a figure file of its own; one indicator's simulation does not change the report on another.", "quantifier": "all daily data with at least 55 rows, 57 classes, 62 simulations", "why_tests_cant": "the one data file in the repository exercises one path of each indicator", "anchors": ["signals_simulation/run_all_simulation.py", "tti/indicators/__init__.py"]}
{"id": "C94", "title": "Values in other units of money and volume", "statement": "Give an indicator the same days with every price a times and every volume u times as large (another currency, cents, a split, thousands of shares; a and u positive). The columns that are ratios or percentages (25 columns of 20 classes) show exactly the same numbers. A column that is an amount of money, of shares, of money per share or of squared money per share (39 columns of 27 classes) shows one exact value before the change and that value in the new unit after it, each rounded when published. The range indicator, the swing index and the Chaikin oscillator do neither.", "quantifier": "all factors, all daily data without missing cells and without a zero divisor, all periods, all rows", "why_tests_cant": "a test has one data file in one currency", "anchors": ["tti/indicators/_ease_of_movement.py", "tti/indicators/_market_facilitation_index.py", "tti/indicators/_klinger_oscillator.py", "tti/indicators/_range_indicator.py", "tti/indicators/_swing_index.py", "tti/indicators/_chaikin_oscillator.py"]}
{"id": "C95", "title": "Signals and simulations in other units of money and volume", "statement": "For the 19 indicators whose rules look only at ratios, or compare prices or volumes only with each other, the same days in other units give the same signal, and the simulation with prices and exposure limit in the new currency makes the same trades on the same days with a times the money. Indicators that compare a price with a line rounded to four decimals, or an amount of money with a fixed number, do not have this property.", "quantifier": "all factors, all daily data without missing cells, all periods, all simulation settings", "why_tests_cant": "a test has one data file in one currency", "anchors": ["tti/indicators/_technical_indicator.py", "tti/indicators/_on_balance_volume.py", "tti/indicators/_ultimate_oscillator.py", "tti/indicators/_chaikin_money_flow.py", "tti/indicators/_standard_deviation.py"]}
{"id": "C96", "title": "Rolling averages in binary64", "statement": "Prices have at most four decimals and price times number of rows is at most 879 million (2^43 ten-thousandths). Then the simple and the triangular moving average, the middle Bollinger band, the detrended price oscillator and the qstick, computed in binary64 with the running compensated sums of pandas, publish the float of a four-decimal number at most 3/5 of a unit of the fourth decimal away from the exact value, on every row; so does the volume oscillator for whole volumes up to 2^32 and histories of any length. The simple average lies between the lowest and the highest price of its window. Without the bound on the prices this fails (a running sum keeps the rounding errors of prices that have left the window), but a flat window always gives exactly its price and prices that are not negative never give a negative average.", "quantifier": "all histories of the stated size, all periods, all rows", "why_tests_cant": "rounding errors of running sums accumulate over the history; a test looks at one short file", "anchors": ["tti/indicators/_moving_average.py", "tti/indicators/_bollinger_bands.py", "tti/indicators/_detrended_price_oscillator.py", "tti/indicators/_qstick.py", "tti/indicators/_volume_oscillator.py"]}
{"id": "C97", "title": "Signals in binary64", "statement": "37 of the 57 trading rules only compare cells with cells and with whole numbers. If the floats a rule reads are known to be within dx and dy units of the fourth decimal of the exact published values (up to 2^32 in size) and more than dx+dy units lie between the two exact values, for every pair the rule compares, then the signal computed from the floats is the signal of exact arithmetic, also when cells are missing or infinite, and on every day of a simulation. In particular the simple, exponential and triangular moving average, DEMA, TEMA and Wilders smoothing give the exact signal unless the close is within one unit of the line, MACD unless it is within two units of zero or five of its signal line, weighted close, qstick, volume oscillator and the rates of change likewise; the price channel always. It is false that the signal is always the exact one: after closes of 10.0041 and 10.0042 the two-day average gives buy in binary64 and hold in exact arithmetic.", "quantifier": "all histories of the stated size, all parameters, every day of a simulation", "why_tests_cant": "whether rounding flips a comparison depends on all earlier prices; a test sees one file and no margin", "anchors": ["tti/indicators/_moving_average.py", "tti/indicators/_moving_average_convergence_divergence.py", "tti/indicators/_qstick.py", "tti/indicators/_price_channel.py", "tti/indicators/_volume_oscillator.py", "tti/indicators/_fibonacci_retracement.py"]}
{"id": "C98", "title": "Simulations on four-decimal prices in binary64", "statement": "Prices with four decimals such as 0.1 are not binary64 numbers, so the simulator works with rounded prices, exposures and earnings. Yet for up to 2^20 days, prices up to 2^36 ten-thousandths, a factor from 1 to 100, any order of addition in np.sum and any signals, it makes the same trade as exact arithmetic on every day: same actions, positions opened, positions closed; provided that no purchase or sale asks for an exposure within slack of the limit (nothing is needed without a limit). Stock value, exposure, portfolio value, earnings and balance are on every day within slack of the exact ones, where slack is 30 n^2 / 2^53 times the largest amount one position costs. The counts in the statistics are the exact ones and the amounts are two-decimal numbers at most one cent from the exact ones when slack is at most a quarter of a cent, and the exact ones unless the amount is near a half cent; e.g. for 5000 days, prices up to 10000 and a factor up to 2. It is false that the trades are the same when the limit is reached exactly: at a limit of 0.75 a sale that brings the exposure to 0.75 is refused in binary64.", "quantifier": "all price series and signals of the stated size, every day, all summation orders, all limits not reached within slack", "why_tests_cant": "rounding errors accumulate over all earlier days, and whether one flips a trade depends on the whole history", "anchors": ["tti/utils/trading_simulation.py:338-627", "tti/utils/trading_simulation.py:283-336"]}
{"id": "C99", "title": "What the limit and the factor change in a simulation", "statement": "max_exposure and short_exposure_factor act through the trades only. Two simulations of the same prices and signals, with any limits and factors, that took the same actions up to a day have the same signal, action, stock value, portfolio value, earnings and balance on that day, the same positions at the end and the same statistics but the last exposure; the exposures differ by the difference of the factors times what the open short positions were sold for. Hence without a limit the factor changes nothing but the exposure; a limit that the simulation without limit never exceeds on a day with a buy or sell signal changes nothing at all; and raising or removing the limit changes nothing before the first signal that was ignored. It is false that a higher limit ignores fewer signals or earns more, and that a smaller factor earns more.", "quantifier": "all price series, signals, limits, factors from 1 and days", "why_tests_cant": "compares pairs of whole simulations for every choice of the settings; an example can only show that two of them agree", "anchors": ["tti/utils/trading_simulation.py:157-211", "tti/utils/trading_simulation.py:338-480", "tti/utils/trading_simulation.py:593-627"]}
{"id": "C100", "title": "Small errors in the prices stay small in averages and channels", "statement": "If every price of two inputs differs by at most e up to a day, the values of that day differ by at most a factor times e plus the rounding to four decimals: factor 1 for the simple, exponential, triangular and Wilder average, the median, typical and weighted close price, the price channel, the Ichimoku lines, the middle Bollinger band and the Fibonacci levels, 1 + shift and 1 - shift for the envelopes, 3 for DEMA, 7 for TEMA, 2 for MACD, its signal line, Qstick and the average true range; a value is missing for both or for neither. It is false for RSI, the Chande momentum oscillator, Williams %R, the stochastic oscillator and the parabolic SAR: they can jump over their whole range when prices near a million are off by one.", "quantifier": "all pairs of inputs, all errors e, all days, all periods", "why_tests_cant": "a bound on all pairs of nearby inputs of any length; a test compares one pair", "anchors": ["tti/indicators/_moving_average.py", "tti/indicators/_double_exponential_moving_average.py", "tti/indicators/_triple_exponential_moving_average.py", "tti/indicators/_moving_average_convergence_divergence.py", "tti/indicators/_ichimoku_cloud.py", "tti/indicators/_price_channel.py", "tti/indicators/_average_true_range.py", "tti/indicators/_fibonacci_retracement.py"]}
{"id": "C101", "title": "Old prices fade from recursive averages at a known rate", "statement": "Two inputs of any lengths end with the same m closes, and all closes lie between lo and lo + w. Then the values of the last day differ by at most a share of w plus the rounding: (1 - 2/(p+1))^m for the exponential average, (1 - 1/p)^m for Wilder's, (3 + 2m/(p+1)) (1 - 2/(p+1))^m for DEMA, (7 + 8m/(p+1) + 2m(m+1)/(p+1)^2) (1 - 2/(p+1))^m for TEMA, (11/13)^m + (25/27)^m for MACD and 3 (25/27)^m for its signal line. The share for the exponential average is halved every (p+1)/2 days: so it is known how much history a value needs.", "quantifier": "all pairs of inputs of any lengths, all numbers of common days, all periods", "why_tests_cant": "relates two histories of unbounded length; a bounded test cannot show a rate", "anchors": ["tti/indicators/_moving_average.py", "tti/indicators/_wilders_smoothing.py", "tti/indicators/_double_exponential_moving_average.py", "tti/indicators/_triple_exponential_moving_average.py", "tti/indicators/_moving_average_convergence_divergence.py"]}
{"id": "C102", "title": "The averages of a basket are the sums of the averages of its members", "statement": "Three inputs: two securities, and w units of the first with w' units of the second, for any numbers w and w' (also negative). The value of the third is w times the value of the first plus w' times that of the second, up to the rounding to four decimals, for the simple, exponential, triangular and time series moving average, Wilder's smoothing, the median, typical and weighted close price, the middle Bollinger band, both envelopes, DEMA, TEMA, MACD and its signal line, Qstick, the volume oscillator, the detrended price oscillator, the linear regression indicator and slope and the time series forecast; a value is missing for all three or for none. With the same prices and the volumes of two venues it holds for on balance volume (exactly), price and volume trend, the Klinger oscillator, and, up to the cut to whole numbers, the accumulation/distribution line and the Chaikin oscillator. For weights that are not negative the price channel and the average true range of the basket reach at most as far as the sums. It is false for the highest high, the standard deviation, the outer Bollinger bands, the average true range, RSI and the parabolic SAR as an equality.", "quantifier": "all triples of inputs of any length, all weights, all periods", "why_tests_cant": "relates the results for three inputs and arbitrary weights; a test checks one triple", "anchors": ["tti/indicators/_moving_average.py", "tti/indicators/_double_exponential_moving_average.py", "tti/indicators/_triple_exponential_moving_average.py", "tti/indicators/_moving_average_convergence_divergence.py", "tti/indicators/_linear_regression_slope.py", "tti/indicators/_on_balance_volume.py", "tti/indicators/_price_and_volume_trend.py", "tti/indicators/_klinger_oscillator.py", "tti/indicators/_accumulation_distribution_line.py", "tti/indicators/_chaikin_oscillator.py", "tti/indicators/_price_channel.py", "tti/indicators/_average_true_range.py"]}
{"id": "C103", "title": "The rate of change of a basket lies between the rates of its members", "statement": "With weights that are not negative and positive prices, volumes or ranges, momentum, price rate of change, performance, the price oscillator, the volume rate of change and Chaikin's volatility of a basket of two securities lie between the values of the two securities; so does Chaikin money flow when the volumes of two venues are added. The rounding does not disturb it. It is false for RSI, the Chande momentum oscillator, the vertical horizontal filter, Williams %R and the stochastic oscillator: two securities with an RSI of 60 can make a basket with an RSI of 100.", "quantifier": "all triples of inputs of any length, all weights, all periods", "why_tests_cant": "an inequality between the results for three inputs; a test checks one triple", "anchors": ["tti/indicators/_momentum.py", "tti/indicators/_price_rate_of_change.py", "tti/indicators/_performance.py", "tti/indicators/_price_oscillator.py", "tti/indicators/_volume_rate_of_change.py", "tti/indicators/_volatility_chaikins.py", "tti/indicators/_chaikin_money_flow.py"]}
{"id": "C104", "title": "On a market that moves along a straight line the indicators have the values of the textbook", "statement": "When the close rises or falls by the same amount d every day: the simple average (and the middle Bollinger band) is exactly (p-1)/2 days behind the price, the triangular average p-1 days, the exponential average, Wilder's smoothing and DEMA a number of days given by a closed formula, the regression line not at all; the regression slope is d, the forecast the price of the next day, the forecast oscillator 0; the detrended price is -d for odd and -1.5 d for even periods; the Chande momentum oscillator is 100 or -100, RSI 100 or 0, the vertical horizontal filter (p-1)/p; the relative momentum index is missing on a rise and 0 on a fall. With candles of the same shape every day, the commodity channel index is plus or minus 400/3 (e-1)/e (e the period, or the next even number), whatever d; Williams %R, %K, the stochastic momentum index, the ultimate oscillator, ATR and the directional lines are given by the shape of the candle, d and the period; DX, ADX and ADXR are 100. All rounded to four decimals, from the first row with a value on.", "quantifier": "all straight lines and candle shapes, all periods, all lengths", "why_tests_cant": "a closed formula in the slope, the candle and the period; a test checks one line with one period", "anchors": ["tti/indicators/_moving_average.py", "tti/indicators/_wilders_smoothing.py", "tti/indicators/_double_exponential_moving_average.py", "tti/indicators/_detrended_price_oscillator.py", "tti/indicators/_relative_strength_index.py", "tti/indicators/_relative_momentum_index.py", "tti/indicators/_chande_momentum_oscillator.py", "tti/indicators/_commodity_channel_index.py", "tti/indicators/_williams_r.py", "tti/indicators/_stochastic_oscillator.py", "tti/indicators/_stochastic_momentum_index.py", "tti/indicators/_ultimate_oscillator.py", "tti/indicators/_average_true_range.py", "tti/indicators/_directional_movement_index.py"]}
{"id": "C105", "title": "What is signalled on a market that moves along a straight line", "statement": "When prices rise by the same amount every day, the commodity channel index with a period of five (the default) or more signals sell every day, and buy every day when they fall, however small the daily move; with a period of two to four it always holds. The simple and triangular averages signal buy every day of the rise and hold every day of the fall (for daily moves of more than 0.0001). RSI, CMO, the relative momentum index, the regression slope, the stochastic momentum index, the directional movement index and Williams %R hold every day. This is so on every day of a simulation.", "quantifier": "all straight lines and candle shapes, all periods, all lengths, every day of a simulation", "why_tests_cant": "about every day of every steady market; a test checks one series", "anchors": ["tti/indicators/_commodity_channel_index.py", "tti/indicators/_moving_average.py", "tti/indicators/_relative_strength_index.py", "tti/indicators/_chande_momentum_oscillator.py", "tti/indicators/_williams_r.py", "tti/indicators/_directional_movement_index.py", "tti/indicators/_stochastic_momentum_index.py"]}
{"id": "C106", "title": "What a simulation earns on a market that only rises or only falls", "statement": "When every price is above the one of the day before: each long position is closed on the next day, so the earnings are the next-day rises of the days on which a long position was opened; no short position is ever closed, so at most one long position and all short positions opened so far are open, and the exposure is the day's price (if bought) plus the factor times the prices of all short sales. On a market that only falls long and short exchange their parts. Earnings can never exceed the move since the second day, whatever the signals, because nothing is traded on the first day. Without a limit the trades are exactly the signals from the second day on.", "quantifier": "all strictly rising or falling price series, all signals, limits and factors, every day", "why_tests_cant": "about every list of signals and every length; a test runs one", "anchors": ["tti/utils/trading_simulation.py:361-458", "tti/utils/trading_simulation.py:460-591"]}
{"id": "C107", "title": "What the simulations of moving averages and of the commodity channel index earn on a straight line", "statement": "On a market that rises by d > 0.0001 every day, getTiSimulation of a simple or triangular moving average (without limit, on the closes of the indicator) buys every day from the first average on and has earned d for each day after it, holding one position; on a fall it never trades. The simulation of the commodity channel index with a period of at least five opens a short position every day of a rise and a long one every day of a fall and never earns anything: on day i it has i+1-(p-1) open positions, and exposure and balance are given in closed form.", "quantifier": "all straight lines, periods, factors and lengths, every day of the simulation", "why_tests_cant": "a statement about the whole chain of indicator, signals and simulator for every length; a test runs one market", "anchors": ["tti/indicators/_technical_indicator.py:400-425", "tti/utils/trading_simulation.py:593-627", "tti/indicators/_moving_average.py", "tti/indicators/_commodity_channel_index.py"]}
{"id": "C108", "title": "On a market of steady growth the relative indicators show the same value every day", "statement": "When every price is g times that of the day before (g > 0, rising or falling) and every volume w times, the momentum, the rates of change of price and volume, the price oscillator, the vertical horizontal filter, the Chande momentum, the intraday momentum, Williams %R, the stochastic %K, the commodity channel index, the ultimate oscillator and the Chaikin money flow have, from their first row on, the same published value every day. Closed forms: momentum 100 g^p, rates of change 100 (g^p - 1) and 100 (w^p - 1), performance g^k - 1, vertical horizontal filter (g^p - g)/(g^p - 1), each rounded to four decimals.", "quantifier": "all factors, periods, lengths and first prices", "why_tests_cant": "a statement about every length and factor; a test compares a few rows of one market", "anchors": ["tti/indicators/_momentum.py", "tti/indicators/_price_rate_of_change.py", "tti/indicators/_volume_rate_of_change.py", "tti/indicators/_price_oscillator.py", "tti/indicators/_vertical_horizontal_filter.py", "tti/indicators/_williams_r.py", "tti/indicators/_performance.py"]}
{"id": "C109", "title": "On a market of steady growth eight indicators never signal", "statement": "On such a market, with no zero close, getTiSignal of the momentum, the rates of change of price and volume, the price oscillator, the vertical horizontal filter, the Chande momentum, the intraday momentum and Williams %R is hold on every day, however fast the market grows or falls.", "quantifier": "all factors, periods and lengths, every day of the data", "why_tests_cant": "a claim that something never happens", "anchors": ["tti/indicators/_momentum.py", "tti/indicators/_price_rate_of_change.py", "tti/indicators/_vertical_horizontal_filter.py", "tti/indicators/_chande_momentum_oscillator.py", "tti/indicators/_intraday_momentum_index.py"]}
{"id": "C110", "title": "What the indicators show on a market that only rises or only falls", "statement": "When every close is above the one of the day before, by whatever amounts: the Chande momentum is 100, the relative momentum index is missing, on balance volume is the volume since the second day, Williams accumulation is the close over the true low, the vertical horizontal filter is the share of the last n-1 moves in the last n; with moves of more than 0.0001 the relative strength index is 100 and the published simple, triangular (period at least 2) and exponential (at least 3) averages are strictly below the close. When highs and lows rise every day, -DI is 0 and DX, ADX and ADXR are 100. On a market that only falls all of this is the other way round (Chande -100, relative strength and relative momentum 0, averages above the close, +DI 0).", "quantifier": "all rising and falling markets, periods, lengths and rows", "why_tests_cant": "about every market of a kind, not about one list of prices", "anchors": ["tti/indicators/_moving_average.py", "tti/indicators/_chande_momentum_oscillator.py", "tti/indicators/_relative_strength_index.py", "tti/indicators/_relative_momentum_index.py", "tti/indicators/_vertical_horizontal_filter.py", "tti/indicators/_on_balance_volume.py", "tti/indicators/_williams_accumulation_distribution.py", "tti/indicators/_directional_movement_index.py"]}
{"id": "C111", "title": "What the indicators advise on a market that only rises or only falls", "statement": "On a market whose closes rise by more than 0.0001 every day, getTiSignal of the simple, triangular and exponential averages is buy on every day from the first average on; on a falling market it is hold. On balance volume (positive volumes) says sell on every day of a rise from the third on and buy on every day of a fall. The Chande momentum, the relative strength and momentum indices and the directional movement (rising or falling highs and lows) never signal.", "quantifier": "all rising and falling markets, periods and lengths, every day", "why_tests_cant": "a claim about every day of every such market", "anchors": ["tti/indicators/_moving_average.py", "tti/indicators/_on_balance_volume.py", "tti/indicators/_relative_strength_index.py", "tti/indicators/_directional_movement_index.py"]}
{"id": "C112", "title": "What the simulations of moving averages and of on balance volume earn on a market that only rises or only falls", "statement": "On a market whose closes rise by more than 0.0001 every day, by whatever amounts, getTiSimulation of a simple, triangular or exponential average (without limit, on the closes of the indicator) has earned on day i exactly the close of day i less the close of the day of the first average, with one long position open and its price as exposure; on a falling market it never trades. The simulation of on balance volume opens a position against the market on every day from the third on, never closes one and never earns anything; exposure and balance are the sums of the closes paid and the number of positions times the last close.", "quantifier": "all rising and falling markets, periods, factors and lengths, every day of the simulation", "why_tests_cant": "a statement about the whole chain of indicator, signals and simulator for every market of a kind", "anchors": ["tti/indicators/_technical_indicator.py:382-425", "tti/utils/trading_simulation.py:593-627", "tti/indicators/_moving_average.py", "tti/indicators/_on_balance_volume.py"]}
{"id": "C113", "title": "An advice rests on values that are there", "statement": "getTiSignal says buy or sell only if the values its rule compares are there: for each indicator a fixed list of published cells (the last value, the last two, three or four) and of closes, none of which is missing; with any of them missing, or too few days, the answer is hold. In particular nothing is advised for a day for which nothing is published (start of the data, missing prices) and getTiSimulation opens no position on such a day. Exceptions: Williams accumulation/distribution can say buy on a day for which it has no value, the range indicator can say buy or sell on a day without a close, the mass index does not read its last value.", "quantifier": "all frames (any cells missing), filling on or off, all accepted parameters, constructed objects and objects limited by the simulation, every day", "why_tests_cant": "about all patterns of missing values for every rule; comparisons with missing values are silently false in python", "anchors": ["tti/indicators/_technical_indicator.py:382-425", "tti/indicators/_chaikin_money_flow.py:111-142", "tti/indicators/_williams_accumulation_distribution.py:88-115", "tti/indicators/_range_indicator.py:161-195", "tti/indicators/_mass_index.py:92-127", "tti/utils/trading_simulation.py:593-627"]}
{"id": "C114", "title": "Without a limit every simulated trade stands for itself", "statement": "With max_exposure None the signals may be divided in any way between two simulations on the same close values: on every day earnings, exposure, portfolio value, balance and the numbers of open positions of the two add up to those of the undivided one. Hence leaving out signals never raises the earnings or the number of open positions of any day, nor, for prices that are not negative, the exposure; for two indicators of which one signals only where the other does the same, so do the reported statistics. With a limit neither holds, and the balance can rise by leaving out signals.", "quantifier": "all price lists, all signal lists and all ways to divide them, all days, short exposure factor at least 1; all frames and constructor calls for the reported version", "why_tests_cant": "relates whole runs of the simulator for different signal lists; a trade that closed or blocked another would show only for particular interleavings", "anchors": ["tti/utils/trading_simulation.py:338-360", "tti/utils/trading_simulation.py:361-459", "tti/utils/trading_simulation.py:460-592", "tti/indicators/_technical_indicator.py:284-425"]}
{"id": "C115", "title": "Wider bands and further targets only take signals away, and never earn more", "statement": "Bollinger bands and envelopes with a larger width, the price channel over more days and projected profit with a target further away: the published bands of the wider one lie outside those of the narrower one on every day, its signal of every day is hold or the signal of the narrower one, and its simulation without a limit earns at most as much on every day and counts at most as many buy and sell signals. With a limit the wider one can earn more.", "quantifier": "all frames with distinct dates (closes not negative for the envelopes, lows not above highs for the channel), all accepted pairs of parameters, every day, all numeric close values, all short exposure factors", "why_tests_cant": "compares two parameter settings on every market; rounding to four decimals and missing values could break the order on some of them", "anchors": ["tti/indicators/_bollinger_bands.py:80-142", "tti/indicators/_envelopes.py:79-134", "tti/indicators/_price_channel.py:70-134", "tti/indicators/_performance.py:83-129", "tti/indicators/_technical_indicator.py:284-425"]}
{"id": "C116", "title": "The books of a simulation balance", "statement": "On every day of a simulation, with any limit and factor: earnings plus the profit or loss of the open positions is exactly the sum, over the days so far, of the stocks held (long minus short) times the move of the price to the next day; the open positions never show a profit, so earnings are never below what was gained in truth. Without sell signals that is earnings + portfolio value - exposure, without buy signals earnings + portfolio value + exposure / factor. If nothing is open at the end the reported earnings are the market's moves under the positions held. The column balance is not that profit: it counts stocks without what they cost.", "quantifier": "all price lists, signal lists, limits, factors from 1, every day; all indicators, frames and arguments for the reported version", "why_tests_cant": "an accounting identity over whole runs; tests compare a few totals", "anchors": ["tti/utils/trading_simulation.py:338-360", "tti/utils/trading_simulation.py:361-459", "tti/utils/trading_simulation.py:460-592", "tti/indicators/_technical_indicator.py:284-425"]}
{"id": "C117", "title": "What a number of trades can earn", "statement": "If the closes of the days so far lie between lo and hi, the earnings are at most (positions closed) times (hi - lo); if different closes differ by at least t, they are at least (positions closed) times t. The positions closed and those open are together the signals that were followed, at most the buy and sell signals so far.", "quantifier": "all price lists, signal lists, limits, factors from 1, every day, all lo, hi, t", "why_tests_cant": "bounds over all runs", "anchors": ["tti/utils/trading_simulation.py:361-459", "tti/utils/trading_simulation.py:460-592"]}
{"id": "C118", "title": "On a market turned upside down the opposite signals earn the same", "statement": "Without a limit: if every price p is replaced by m - p and buy and sell are exchanged, a simulation has the same earnings on every day, the same profit or loss of the open positions, and as many long positions as the other has short ones, whatever the short exposure factors of the two are. So do the reported statistics of two indicators with opposite signals on all days (such as those of C81 on mirrored data). With a limit this fails.", "quantifier": "all price lists, signal lists, m, factors from 1, every day; all pairs of indicators, frames and arguments for the reported version", "why_tests_cant": "long and short positions are treated by separate code; that they agree on all mirrored runs is not visible in single runs", "anchors": ["tti/utils/trading_simulation.py:361-459", "tti/utils/trading_simulation.py:460-592", "tti/indicators/_technical_indicator.py:284-425"]}
{"id": "C119", "title": "A simulation may be cut in two", "statement": "Without a limit: for every day k, the simulation of the signals up to day k (then hold), watched to the end, and a new simulation started on day k add up to the whole simulation: earnings, exposure, portfolio value, balance and open positions of every later day. With a limit this fails.", "quantifier": "all price lists, signal lists, days of the cut and later days, factors from 1", "why_tests_cant": "relates three runs of the simulator for every cut", "anchors": ["tti/utils/trading_simulation.py:157-211", "tti/utils/trading_simulation.py:361-459", "tti/utils/trading_simulation.py:460-627"]}
{"id": "C120", "title": "A day without a signal and without earnings may be left out of a simulation", "statement": "With any limit and factor: if after the first day a day's signal is hold and the earnings are those of the day before, then a simulation without that day has the same rows on all other days, and the same statistics but for the number of days. A day on which the price stays is such a day: it never changes the earnings, and with hold it repeats the row of the day before. So weekends and holidays filled with the last price, and days on which every open position loses, do not matter to a simulation. Days that earn something, and the first day, matter.", "quantifier": "all price lists, signal lists, limits, factors from 1, every day; all pairs of indicators, frames and arguments for the reported version", "why_tests_cant": "relates two runs of different length, with every later day of both", "anchors": ["tti/utils/trading_simulation.py:361-459", "tti/utils/trading_simulation.py:460-627", "tti/indicators/_technical_indicator.py:284-425"]}
{"id": "C121", "title": "An even-handed indicator earns the same on a market turned upside down", "statement": "If every price x the indicator reads becomes m - x, high and low exchanged, then on every day of a simulation an even-handed indicator (the rules of C81: oscillators with mirrored levels, closes crossing a line, bands that have not crossed, ...) gives the opposite advice; the simulations signal the opposite on every day whatever their limits and factors, and without limit on mirrored prices they earn the same on every day, with buys and sells, long and short positions exchanged.", "quantifier": "all such indicators and their arguments, all frames of distinct dates, every mirror m on a grid of 0.0002, every day, all arguments of the two simulations", "why_tests_cant": "relates two whole simulations over all markets, with the indicator recomputed on each", "anchors": ["tti/indicators/_technical_indicator.py:284-425", "tti/utils/trading_simulation.py:361-459", "tti/indicators/_relative_strength_index.py:107-161"]}
{"id": "C122", "title": "One amount added to all prices changes neither the trades nor the earnings of a simulation", "statement": "If one amount is added to every price the indicator reads, the indicators of C86 (oscillators, lines crossed by the close, bands, the averages that only buy, ...) give the same advice on every day of a simulation, whatever the limits and factors of the two simulations; without limit, on prices moved by the same amount, every day has the same earnings, the same open positions and the same profit on paper, and the statistics of signals, earnings and open positions are the same. Percentage bands (envelopes) and limits, which are amounts of money, do notice.", "quantifier": "all such indicators and their arguments, all frames of distinct dates, every amount on a grid of 0.0002, every day, all arguments of the two simulations; for given signals all price lists, amounts and factors", "why_tests_cant": "relates two whole simulations over all markets, with the indicator recomputed on each", "anchors": ["tti/indicators/_technical_indicator.py:284-425", "tti/utils/trading_simulation.py:361-459", "tti/utils/trading_simulation.py:460-627"]}
{"id": "C123", "title": "The advice of a day rests on the recent days only", "statement": "For 25 indicators (simple, triangular and time series averages, bands, channels, regression lines and slopes, CCI, CMF, CMO, IMI, MFI, QStick, rates of change, the stochastic oscillator, SWI, WAD, Ichimoku, ...) the advice of a day depends on that day and a fixed number of days before it, which follows from the period. Cutting off older rows, or replacing them by others, changes neither the advice of today nor that of any day with so many days before it, and two simulations signal the same from then on. On Balance Volume, though its level starts anew, advises the same after three days. ADL, ATR, MACD, momentum, RVI, TEMA and the ultimate oscillator still advise differently weeks later.", "quantifier": "all these indicators and their arguments, all frames, every date to cut at, every day, all arguments of the simulations", "why_tests_cant": "relates the advice on two histories of any length that differ before any date", "anchors": ["tti/indicators/_technical_indicator.py:284-425", "tti/indicators/_price_channel.py:111-134", "tti/indicators/_williams_accumulation_distribution.py:88-115"]}
{"id": "C124", "title": "With nothing open, the past of a simulation is only its earnings", "statement": "If no position is open at the end of a day of a simulation, the days from there on are those of a new simulation of the remaining prices and signals with the same limit and factor: the same positions are opened, with the same exposure and portfolio value every day, and earnings and balance are the new ones plus the earnings so far. Two simulations with nothing open on a day that see the same prices and signals from then on do and earn the same from then on. For the indicators of C123 the trades and earnings of the last months can therefore be found from the last months alone. With a position open this fails.", "quantifier": "all price and signal lists, every limit and factor, every day with nothing open; all frames, indicators of C123, dates to cut at", "why_tests_cant": "relates a simulation of any length to the simulation of its end, which needs an argument about all open positions", "anchors": ["tti/utils/trading_simulation.py:361-459", "tti/utils/trading_simulation.py:460-627", "tti/indicators/_technical_indicator.py:284-425"]}
{"id": "C125", "title": "The same days lead to the same values and to the same advice, whenever they come", "statement": "Take a day of one market and a day of another, or of the same one at another time, whose recent rows are the same up to the dates. Every column with a limited look-back shows the same value on both days, and every indicator with a limited reach gives the same advice, whatever came earlier, whatever comes later, and whatever the simulations trade at. So on a market that repeats itself every p days these values and advices repeat themselves every p days, and a simulation signals in the same rhythm. Running totals and recursive averages do not: weeks later they still differ from one cycle to the next.", "quantifier": "all columns with a look-back, all indicators with a reach, all pairs of frames and of days, all periods and numbers of cycles", "why_tests_cant": "relates any two places of any two histories of any length", "anchors": ["tti/indicators/_technical_indicator.py:284-425", "tti/indicators/_moving_average.py:90-196", "tti/indicators/_commodity_channel_index.py:70-131"]}
{"id": "C126", "title": "On a market that repeats itself running totals gain the same every cycle and recursive averages settle", "statement": "On a market that repeats itself every p days, on balance volume after t more cycles is its present value plus t times its value on day p, exactly; price and volume trend likewise before rounding; the negative and the positive volume index are multiplied by the same factor every cycle. The exponential, Wilder's, double and triple averages and the MACD show, from day k on, the value of day k in every cycle, but for a known share of the width of the market that vanishes as k grows.", "quantifier": "all markets, all cycle lengths, all numbers of cycles, all days and periods", "why_tests_cant": "unbounded induction over the cycles, for all prices and volumes", "anchors": ["tti/indicators/_on_balance_volume.py:52-80", "tti/indicators/_price_and_volume_trend.py:53-88", "tti/indicators/_negative_volume_index.py:53-85", "tti/indicators/_positive_volume_index.py:53-85", "tti/indicators/_moving_average.py:90-196"]}
{"id": "C127", "title": "On a market that repeats itself every cycle of a simulation trades and earns the same", "statement": "When prices and signals repeat every p days from day k on and nothing is open at the end of day k and of day k+p, a simulation opens the same positions, shows the same exposure, portfolio value and open positions on the same day of every later cycle, and its earnings after t more cycles are those of the day plus exactly t times what the first cycle gained, for every exposure limit and every factor. The same holds for the reported simulation of an indicator with recent advice on a market whose data repeat themselves.", "quantifier": "all prices, signals, limits, factors, cycle lengths, numbers of cycles and days; all indicators with recent advice", "why_tests_cant": "unbounded induction over the cycles of an arbitrary market", "anchors": ["tti/utils/trading_simulation.py:361-459", "tti/utils/trading_simulation.py:460-627", "tti/indicators/_technical_indicator.py:284-425"]}
{"id": "C128", "title": "Without a limit a repeating market adds the same earnings, exposure and open positions every cycle", "statement": "When prices and signals repeat every p days from day k on and no exposure limit is set, then from day k+p on, whatever positions are open, the earnings, the exposure and the numbers of open long and short positions t cycles later are those of the day plus exactly t times what one cycle adds: a position that is not closed within one cycle is never closed, so exposure grows without bound as soon as one cycle leaves a position open. The same holds for the reported simulation of an indicator with recent advice on a market whose data repeat themselves.", "quantifier": "all prices, signals, factors, cycle lengths, numbers of cycles and days; all indicators with recent advice", "why_tests_cant": "unbounded induction over the cycles of an arbitrary market", "anchors": ["tti/utils/trading_simulation.py:361-459", "tti/utils/trading_simulation.py:460-627", "tti/indicators/_technical_indicator.py:284-425"]}
