# Formal model of trading-technical-indicators: design, trusted base, findings

Source under study: `/repo` (python package `tti`), read as text and never run.  The model and the proofs are in
`rocq/theories` (Coq 8.16.1).  `properties.jsonl` lists the properties, `MANIFEST.json` the theorems that settle
each, `seeded/LOG.jsonl` the wrong programs the theorems were tested against.

Build: `cd rocq && coq_makefile -f _CoqProject -o Makefile && make -j4` (about 10 minutes).

## 1. What is modelled, and how

| part of the code | model | remarks |
|---|---|---|
| cells of a DataFrame | `Num.v` | `NaN`, `PInf`, `NInf` or `Fin q` with `q : Qc` an exact rational; IEEE rules for the special values (0/0 missing, x/0 infinite, comparisons with a missing value false); `.round(n)` exactly, half to even |
| pandas and numpy operations | `Pandas.v` | shift, diff, rolling sum/mean/min/max/std with min_periods, ewm(adjust=False) by span and by alpha, cumsum, row-wise max/min/sum/mean with and without skipping of missing cells, astype("int64", errors="ignore"), masks |
| `utils/data_validation.py` | `Frame.v` | frames with labels, dtypes (numeric or not), rows with integer timestamps; validation, dropping of columns, sort_index (stable), ffill/bfill; the caller's frame after the call is part of the result |
| the `_calculateTi` of the 57 indicator classes | `Ind.v` | one definition per class, and per auxiliary method |
| the `getTiSignal` of the 57 classes | `Signal.v` | in the error monad: an IndexError or KeyError is a value |
| the constructors and `_technical_indicator.py` | `Api.v` | argument checks over all python values, construction, getTiData, getTiValue, getTiSignal, getTiSimulation as state transformers, so that what an exception leaves behind is visible |
| `utils/trading_simulation.py` | `Sim.v` | array by array, in exact arithmetic |
| the same class in binary64 | `FloatSim.v` | Flocq's binary64, round to nearest even; `np.sum` may add in any order |
| Williams %R, %K, RSI, median price, Ichimoku lines, price channel, Fibonacci levels, momentum, rates of change, performance, weighted close, typical price in binary64 | `FloatInd.v` | the methods again, each operation rounded; indicators without pandas' running sums |
| exponential, double and triple exponential averages, MACD, Wilder's smoothing in binary64 | `FloatEwm.v` | the loop of pandas' `ewm().mean()` operation by operation (its source is not in /repo; it follows `aggregations.pyx` of pandas 1.x, which is trusted here); `mean()` may add in any order |
| simple and triangular averages, middle Bollinger band, detrended price oscillator, qstick, volume oscillator in binary64 | `FloatRoll.v` | the loops `roll_mean` and `roll_sum` of pandas operation by operation (not in /repo; they follow `aggregations.pyx` of pandas 2.x, which is trusted here) |
| getTiSignal in binary64 | `FloatSignal.v` | the 37 rules that only compare; a table of floats is a number of rows and a cell for each column name and row |
| `_calculateSimulationStatistics` in binary64 | `FloatStat.v` | round(x, 2) is left open in the theorems; `fround2` is numpy's |
| getTiGraph, `utils/plot.py`, _getSimulationGraph | `Graph.v` | up to the calls of matplotlib: lines, labels, colours, alphas, dates, cells, filled areas, legends |
| `properties/indicators_properties.py` | `Ind.v` (`required`), `Graph.v` (`graph_props`) | the table transcribed |
| `utils/exceptions.py`, the arguments of the `raise` statements, the texts of data_validation and trading_simulation | `Message.v` | python's str.replace; `str()` of floats and of unknown objects are parameters (record `texts`) |
| the signatures of the 57 constructors, python's binding of arguments | `Call.v` | positional, named and default arguments; a call python refuses is `Err TypeErr` |
| `signals_simulation/run_all_simulation.py`, `run_single_simulation.py` | `Script.v` | see below |
Exceptions are values (`Err e`), so that totality and exception contracts are theorems.  Every definition of these files
cites the file and lines it models.

The specifications are kept apart from the model: `FrameSpec`, `SimSpec`, `ApiSpec`, `IndSpec`, `RangeSpec`,
`ValueSpec`, `FormulaSpec` (textbook formulas over plain rational sequences), `SignalSpec`, `SarSpec`, `DocSpec`
(columns each docstring asks for), `GraphSpec`, `MessageSpec`, `MemorySpec`.  Theorems are in the `Props*.v` files and nothing else is; each ends with
`exact lemma`, followed by `Print Assumptions` and by an `Example` that meets its hypotheses.  All other files are
proofs.

### Simplifications (each also stated where it is made)

* **Exact arithmetic.**  Finite cells are exact rationals: the rounding of binary64, overflow and the sign of zero
  are not modelled, except in `FloatSim.v`, `FloatStat.v`, `FloatInd.v`, `FloatEwm.v` and `FloatRoll.v`, which model the simulator's and twenty-four indicators' arithmetic in binary64.
* **Square root** and the **exponential window of scipy** are parameters of the model (record `oracle`).  A theorem that
  needs something of them says so in a hypothesis (the root of a non-negative number is not negative; the root of zero is
  zero; the weights are positive); an executable instance (`ora0`) is used in the examples.
* **RollingOLS** of statsmodels is the solution of the normal equations of each window.  That this is the least-squares line
  is proved (C47).
* **pandas** (2.x) and numpy are read from their documentation; this reading is part of the trusted base.  Assumed in
  particular: `rolling(w, min_periods=w)` gives a missing value when the window has fewer than w present cells; infinite
  cells count as missing in rolling and ewm; `ewm(adjust=False)` carries the last value over missing cells with the weights
  of `ignore_na=False`; comparisons with a missing value are false; duplicated labels raise.
* **dtypes** are "numeric" or "not numeric"; integer columns are converted without loss.  Time zones, NaT, and
  frames with a MultiIndex are not modelled.
* **Graphs**: what is drawn, not how it looks (sizes, grids, ticks, fonts).
* Of `signals_simulation` the two programs are modelled from the data frame and the command line on (`Script.v`); reading the
  csv file, the clock and the layout of the printed text are not, and a class name with a comma counts as invalid.
* Logging, package metadata, the data sets of the examples, the programs in `examples` and `docs` and the tests are not modelled.

## 2. Properties: what is modelled and how each is proved


* **C01 Row order of the input is irrelevant** (proved; `PropsApi.v`, `PropsFrame.v`). `validate` and the constructor. Sorting rows with distinct keys has one result; everything else is a function of the sorted frame. Whole object (data, value, signal, simulation) equal for any permutation of rows with distinct dates; with repeated dates the order matters (refuted in PropsFrame).
* **C02 Only the required columns matter, by case-insensitive name** (proved; `PropsApi.v`, `PropsFrame.v`). `validate` selects columns by lower-cased label; every calculation reads columns by name, so equal look-ups suffice. Two signals read column 0: witness. As worded the statement is false of the code in the cases of the _refuted theorems (DESIGN.md, section 4); everything else in it is proved. Data and values for all indicators; signals and simulations for all but AverageTrueRange and TypicalPrice, whose signal reads the first input column (C02_column_order_refuted).
* **C03 Input validation accepts exactly the documented inputs** (proved; `PropsFrame.v`). Decision table of `validate` over all values. As worded the statement is false of the code in the cases of the _refuted theorems (DESIGN.md, section 4); everything else in it is proved. Exact acceptance condition and error for each documented cause. Duplicate labels give an undocumented KeyError (…_refuted).
* **C04 The caller's DataFrame is not modified** (proved; `PropsApi.v`, `PropsFrame.v`). The model returns the caller's frame after the call; rows, dtypes and index proved unchanged, labels refuted. As worded the statement is false of the code in the cases of the _refuted theorems (DESIGN.md, section 4); everything else in it is proved. Rows, dtypes and index of the caller are never changed by constructors and simulations; the column labels are lower-cased in place, shown by C04_labels_untouched_refuted.
* **C05 Missing values are filled from the nearest earlier observation** (proved; `PropsFrame.v`). Nearest-present-cell specification of ffill followed by bfill, induction over rows. Filled cell = closest earlier present cell, else closest later one; idempotent.
* **C06 Validated data are sorted and keep row association** (proved; `PropsFrame.v`). Sorted, a permutation of the rows, columns kept: induction over insertion sort.
* **C07 fill_missing_values=False is honoured everywhere** (proved; `PropsApi.v`). Nested constructors get the default flag in three classes: witness; the retained input is never filled. As worded the statement is false of the code in the cases of the _refuted theorems (DESIGN.md, section 4); everything else in it is proved. The retained input is never filled; but ChaikinOscillator, TimeSeriesForecast and MovingAverage(time_series) ignore the flag (C07_flag_ignored, C07_no_fill_refuted).
* **C08 Constructor arguments are accepted exactly on the documented domain** (proved; `PropsApi.v`). All constructors over all python values against a table of parameters (`ApiSpec.documented_params`). As worded the statement is false of the code in the cases of the _refuted theorems (DESIGN.md, section 4); everything else in it is proved. Exact domain and first error for all constructors; VolumeOscillator names a parameter that does not exist (refuted). bool counts as int, as in Python.
* **C09 NotEnoughInputData exactly when there are too few rows; otherwise the calculation completes** (proved; `PropsApi.v`). Every calculation in the error monad: the only error after validation is NotEnough, exactly below `min_rows`. As worded the statement is false of the code in the cases of the _refuted theorems (DESIGN.md, section 4); everything else in it is proved. The reported minimum is right except for AverageTrueRange (refuted).
* **C10 getTiValue returns the row of the date asked for** (proved; `PropsApi.v`). getTiValue over all date arguments and all objects. As worded the statement is false of the code in the cases of the _refuted theorems (DESIGN.md, section 4); everything else in it is proved. For distinct dates; with a repeated date the column names come back (refuted).
* **C11 getTiData has one row per input date and the documented columns** (proved; `PropsApi.v`). Every column function keeps the number of rows (`Lengths.v`, `Shape.v`). As worded the statement is false of the code in the cases of the _refuted theorems (DESIGN.md, section 4); everything else in it is proved. DetrendedPriceOscillator drops the last days (refuted for it, exact shape proved).
* **C12 getTiSignal always answers buy, hold or sell** (proved; `PropsApi.v`). Every signal in the error monad, totality per indicator, for the object as built and as limited to a day. As worded the statement is false of the code in the cases of the _refuted theorems (DESIGN.md, section 4); everything else in it is proved. All indicators but RangeIndicator and MedianPrice(1), both refuted.
* **C13 No look-ahead: history is never rewritten by later data** (proved; `PropsApi.v`). Every operation commutes with taking a prefix (`Causal.v`); composition over all 57 indicators. As worded the statement is false of the code in the cases of the _refuted theorems (DESIGN.md, section 4); everything else in it is proved. All indicators with no missing first day; separate theorems for DPO, ADL, CO; refuted for Fibonacci, DPO, ADL with infinite cells, and filling of a missing first day.
* **C14 Running a simulation leaves the indicator unchanged** (proved; `PropsApi.v`). The object is part of the state of the simulation loop. As worded the statement is false of the code in the cases of the _refuted theorems (DESIGN.md, section 4); everything else in it is proved. Refuted for an exception inside the loop.
* **C15 The simulation trades on the signals that were available on the day** (proved; `PropsApi.v`). C13 together with the locality of signals. Refuted for FibonacciRetracement.
* **C16 The simulation covers every day** (proved; `PropsApi.v`). Loop length; every row of the result is written. As worded the statement is false of the code in the cases of the _refuted theorems (DESIGN.md, section 4); everything else in it is proved. Refuted for DetrendedPriceOscillator.
* **C17 Exposure is the sum of the open positions' exposures** (proved; `PropsSim.v`). One invariant links the arrays of the simulator to a specification stated on the returned rows only (`SimSpec.v`, `SimProofs.v`); C18-C23, C25, C26 follow from it.
* **C18 A position is closed on the first profitable day, and only then** (proved; `PropsSim.v`). As C17.
* **C19 Earnings are the realised profits and never decrease** (proved; `PropsSim.v`). As C17.
* **C20 Portfolio value and balance** (proved; `PropsSim.v`). As C17.
* **C21 Exposure never exceeds max_exposure** (proved; `PropsSim.v`). As C17. As worded the statement is false of the code in the cases of the _refuted theorems (DESIGN.md, section 4); everything else in it is proved. For non-negative prices and a numeric limit; refuted for negative prices and for a NaN limit.
* **C22 Positions are opened exactly when a signal fits in the limit** (proved; `PropsSim.v`). As C17.
* **C23 Simulation statistics agree with the simulation data** (proved; `PropsSim.v`). As C17. As worded the statement is false of the code in the cases of the _refuted theorems (DESIGN.md, section 4); everything else in it is proved. The ignored counters are proved to count the signals that do not fit under the limit plus a signal on the first day; the documented reason (limit only) is refuted by that first day.
* **C24 Simulation arguments are validated** (proved; `PropsApi.v`). Decision table over all arguments. As worded the statement is false of the code in the cases of the _refuted theorems (DESIGN.md, section 4); everything else in it is proved. NaN is accepted for both numbers (refuted).
* **C25 The simulation is online** (proved; `PropsSim.v`). Prefix property of the loop.
* **C26 Exposure is never negative and returns to zero when everything is closed** (proved; `PropsSim.v`). As C17. Exact arithmetic; non-negative prices.
* **C27 Relative Strength Index stays in its documented range** (proved; `PropsRange.v`). Ranges (C27-C41): sums of non-negative terms, window extremes, then rational arithmetic (`RangeFacts.v`, `RangeMore.v`), carried to constructed objects by `Publish.v`. All inputs, missing and infinite cells included.
* **C28 Relative Momentum Index stays in its documented range** (proved; `PropsRange.v`). As C27. All inputs, missing and infinite cells included.
* **C29 Chande Momentum Oscillator stays in its documented range** (proved; `PropsRange.v`). As C27. All inputs, missing and infinite cells included.
* **C30 Intraday Momentum Index stays in its documented range** (proved; `PropsRange.v`). As C27. All inputs, missing and infinite cells included.
* **C31 Stochastic Oscillator stays in its documented range** (proved; `PropsRange.v`). As C27. As worded the statement is false of the code in the cases of the _refuted theorems (DESIGN.md, section 4); everything else in it is proved. Missing cells allowed as long as none is filled in; refuted when a missing low is filled. Assumes positive window weights from scipy.
* **C32 Williams %R stays in its documented range** (proved; `PropsRange.v`). As C27. As worded the statement is false of the code in the cases of the _refuted theorems (DESIGN.md, section 4); everything else in it is proved. Missing cells allowed as long as none is filled in; refuted when a missing low is filled.
* **C33 Stochastic Momentum Index stays in its documented range** (proved; `PropsRange.v`). As C27. Complete data; refuted for a missing close with fill_missing_values=False.
* **C34 Vertical Horizontal Filter stays in its documented range** (proved; `PropsRange.v`). As C27. All inputs.
* **C35 Directional Movement Index stays in its documented range** (proved; `PropsRange.v`). As C27. Complete data; refuted for missing closes with fill_missing_values=False.
* **C36 Ultimate Oscillator stays in its documented range** (proved; `PropsRange.v`). As C27. Missing cells allowed as long as none is filled in.
* **C37 Swing Index stays in its documented range** (proved; `PropsRange.v`). As C27. All inputs (the code clips).
* **C38 Chaikin Money Flow stays in its documented range** (proved; `PropsRange.v`). As C27. Missing cells allowed as long as none is filled in.
* **C39 Range Indicator stays in its documented range** (proved; `PropsRange.v`). As C27. All inputs.
* **C40 Relative Volatility Index stays in its documented range** (proved; `PropsRange.v`). As C27. All inputs; assumes sqrt of a non-negative number is not negative.
* **C41 Projection Oscillator stays in its documented range** (proved; `PropsRange.v`). As C27. Refuted for closes with more than four decimals.
* **C42 Bollinger bands are ordered and symmetric** (proved; `PropsValue.v`). Window means and deviations; rounding is monotone and symmetric (`RoundFacts.v`). Order (assuming sqrt is not negative), exact symmetry and the values themselves, all inputs.
* **C43 Envelopes are ordered** (proved; `PropsValue.v`). As C42. As worded the statement is false of the code in the cases of the _refuted theorems (DESIGN.md, section 4); everything else in it is proved. For closes that are not negative, plus the values for all inputs; refuted for negative prices.
* **C44 Moving averages lie between the smallest and largest averaged price** (proved; `PropsValue.v`). Convex combinations; induction over the recurrences. Simple, exponential, triangular and variable moving average and Wilder smoothing, for data without infinite closes; the time-series type extrapolates and is refuted.
* **C45 Price channel and Ichimoku lines are the exact window extremes** (proved; `PropsValue.v`). Window extremes with missing cells skipped. All inputs, missing cells included.
* **C46 Fibonacci levels are ordered** (proved; `PropsValue.v`). The levels are fixed fractions between the extremes of the whole history. Order and constancy for all inputs; values for closes without infinities.
* **C47 Linear regression outputs are the least-squares line** (proved; `PropsFormula2.v`). Completing the square: the line of the normal equations is the best and the only best line (`Line.v`). Closes known up to the day, period at least 2 (1 is accepted for lrs only and gives missing values). Slope and end point are rounded separately in tsf.
* **C48 Cumulative volume indicators follow their day-to-day rule** (proved; `PropsCumul.v`). Induction over the running totals (`Recur.v`). Data complete up to the day in question; previous closes not zero for pvt, nvi, pvi.
* **C49 Parabolic SAR follows Wilder's rules** (proved; `PropsSar.v`). The loop is proved equal to a stop-and-reverse written day by day (`SarSpec.v`), then its rules. As worded the statement is false of the code in the cases of the _refuted theorems (DESIGN.md, section 4); everything else in it is proved. The stop equals a stop-and-reverse defined day by day (SarSpec.v); factor, side, turning and new-trend rules. On a turning day the stop can be inside the price range (outside day), and on the next day it can fall in a rising trend: both refuted with witnesses.
* **C50 Ratio indicators do not depend on the currency unit** (proved; `PropsUnits.v`). Formulas of C60-C65 under multiplication of all prices (`ScaleFacts.v`). As worded the statement is false of the code in the cases of the _refuted theorems (DESIGN.md, section 4); everything else in it is proved. Stated for the known rows of both inputs. The relative strength index rounds gains and losses before dividing and does depend on the unit: refuted with a witness. The list also covers price oscillator, VHF, performance, CCI, SMI, Chaikin volatility and money flow, mass index and the directional lines.
* **C51 Daily average prices lie within the day's range** (proved; `PropsValue.v`). Arithmetic and rounding. Every day with finite high, low, close.
* **C52 Momentum and rate of change agree** (proved; `PropsValue.v`). Arithmetic; both are rounded alike. Exact equality, no rounding slack; plus the values of both.
* **C53 Trend-difference indicators vanish on a flat market** (proved; `PropsUnits.v`). Formulas of C59-C65 on a constant sequence (`FlatFacts.v`). As worded the statement is false of the code in the cases of the _refuted theorems (DESIGN.md, section 4); everything else in it is proved. The root of zero must be zero for the standard deviation (the root is a parameter of the model). The variable moving average is missing on a constant price: refuted with a witness.
* **C54 Crossover signals fire only on a crossing** (proved; `PropsIdent.v`, `PropsSignal.v`). Each signal as a function of the published cells (`SignalApi*.v`). Thirteen level crossings, five line crossings, directional movement, MACD, momentum, median price and positive volume index, for the object as built and as limited to a day by the simulation.
* **C55 Ultimate Oscillator signals follow the documented rule** (proved; `PropsSignal.v`). As C54; search over the whole history. As worded the statement is false of the code in the cases of the _refuted theorems (DESIGN.md, section 4); everything else in it is proved. The documented rule is refuted: a buy without any value below 30, and never a sell. The rule the code follows is proved exactly, for data without infinities.
* **C56 Ichimoku buy only above an existing cloud** (proved; `PropsSignal.v`). As C54. As worded the statement is false of the code in the cases of the _refuted theorems (DESIGN.md, section 4); everything else in it is proved. Exact rule when cloud and close exist; refuted when the cloud is missing (counts as above it) and on its border (counts as below).
* **C57 Accumulation/distribution line step is bounded by the day's volume** (proved; `PropsCumul.v`). As C48; the final integer conversion stated separately. Complete data. Whole numbers when every day has a range (int conversion), exact values and gaps otherwise.
* **C58 The exposure limit survives floating point** (proved; `PropsFloat.v`). Simulator over Flocq's binary64; monotonicity of rounding; agreement with the exact simulator where all values are k/2^s (`FloatSame.v`). Binary64 with rounding to nearest even, np.sum in any order. Limit, closing rule and exactness on prices k/2^s proved. Zero exposure with nothing open, non-negative exposure, closing a short whenever the price fell and earnings that never fall are refuted with witnesses. Uses the real-number axioms of the standard library.
* **C59 Moving averages compute their textbook formulas** (proved; `PropsFormula.v`). Formulas (C59-C65): each column on data known up to the day equals a formula over plain rationals (`FormulaSpec.v`); lemmas for windows and recurrences that start late (`Starts.v`, `Recur.v`). Closes known up to the day in question; the variable average needs some movement in every nine days.
* **C60 Oscillators of one column compute their textbook formulas** (proved; `PropsFormula.v`). As C59. Data known up to the day; zero denominators give the infinite or missing value of the division.
* **C61 Gain/loss indexes compute their textbook formulas** (proved; `PropsFormula.v`). As C59. Data known up to the day. RSI with the rounding the code applies every day; RMI is missing while there are no losses.
* **C62 Range position indicators compute their textbook formulas** (proved; `PropsFormula.v`). As C59. Data known up to the day; %D for the simple method, with nonzero ranges; the ultimate oscillator with nonzero true ranges.
* **C63 Volatility and direction indicators compute their textbook formulas** (proved; `PropsFormula2.v`). As C59. Data known up to the day and nonzero denominators where stated. The directional lines start from 13, not 14, values.
* **C64 Volume indicators compute their textbook formulas** (proved; `PropsFormula2.v`). As C59. As worded the statement is false of the code in the cases of the _refuted theorems (DESIGN.md, section 4); everything else in it is proved. Williams accumulation/distribution publishes the value of the day only: the running total is refuted.
* **C65 Projection indicators and the detrended price compute their textbook formulas** (proved; `PropsFormula2.v`). As C59. Data known up to the day; the detrended price uses the average of n/2+1 days later.
* **C66 Band and threshold signals fire exactly outside the band or threshold** (proved; `PropsSignal2.v`). As C54. ATR, standard deviation and typical price compare with the mean of the first input column, whatever it is; stated for known values of it.
* **C67 Trend signals fire exactly on three monotone days** (proved; `PropsSignal2.v`). As C54. The vertical horizontal filter for known nonzero closes.
* **C68 Pattern signals follow one exact rule** (proved; `PropsIdent.v`, `PropsSignal2.v`). As C54; searches back over the history (`SignalFacts.v`). As worded the statement is false of the code in the cases of the _refuted theorems (DESIGN.md, section 4); everything else in it is proved. The range indicator raises IndexError when no value was ever below 20: always answering is refuted. Chaikin money flow needs the previous close, the Chaikin oscillator the last 90 closes.
* **C69 The documented input columns are necessary and sufficient** (proved; `PropsDoc.v`). C03, C08 and C09 together, against the columns of the docstrings. The table of documented columns (DocSpec.v) is copied from the docstrings, independently of the properties file the code reads.
* **C70 The graph of an indicator shows exactly the data of the object** (proved; `PropsGraph.v`). Soundness of constructed objects; tables by cases over the 57 indicators. Which lines are drawn where, with names, dates, cells, colours and legends; appearance (sizes, grids, ticks) is matplotlib and not modelled. Refuted: colours differ across the two plots (relative volatility index); all indicator lines are drawn opaque (directional movement index).
* **C71 The graph of the simulation shows the simulation** (proved; `PropsGraph.v`). C16 and the statistics. As worded the statement is false of the code in the cases of the _refuted theorems (DESIGN.md, section 4); everything else in it is proved. Refuted for the detrended price oscillator, which has no signal on the last days.
* **C72 A refused argument is reported by its name, its value and what is supported** (proved; `PropsMessage.v`). Replacing passes over a text in which the mark does not occur (`MessageFacts.v`); each check says what its rule says. As worded the statement is false of the code in the cases of the _refuted theorems (DESIGN.md, section 4); everything else in it is proved. The full sentence is proved for all constructors and values, except: a wrong shift of Envelopes is reported with the value or type of the period, the periods of VolumeOscillator in the wrong order are reported for "long_period " (with a space), and a value that contains a mark of the template such as "<p_name>" is overwritten. All three are refuted with witnesses; what the first two say is proved.
* **C73 Refused data are reported by what is wrong with them** (proved; `PropsMessage.v`). As C72; C03, C09 and C24 for the cases. As worded the statement is false of the code in the cases of the _refuted theorems (DESIGN.md, section 4); everything else in it is proved. Texts of exceptions raised by pandas or python are not modelled. Refuted: AverageTrueRange asks for 2 rows when 14 are needed.
* **C74 Old history can be cut off without changing the recent values** (proved; `PropsMemory.v`). A relation between a series and the series of the shortened data, preserved by shift, windows and cell-wise operations (`MemoryFacts.v`); regression lines do not move when the days are renumbered. Proved for every column built from windows, with its number of rows (MemorySpec.v). When missing values are filled, or the indicator is built on another one, the data must have no missing cell. That all columns forget is refuted, with a witness for each of the other 35 columns.
* **C75 Indicators that share a quantity agree on it** (proved; `PropsIdent.v`). Both classes see the same validated frame (`IdentApi.v`); rounding to even commutes with adding 100. Equalities are exact except where two published values are rounded separately; there the bound is the sum of the roundings. The stochastic identity needs a close that is not infinite.
* **C76 An average over one row is the price itself** (proved; `PropsIdent.v`). From C59. For rows up to which the close is known.
* **C77 Bounded indicators stay in their bounds in the arithmetic numpy really uses** (proved; `PropsFloatInd.v`). Every operation rounds a monotone real function, so order and bounds survive each step (`FloatOrd.v`); relative errors where a bound is only met approximately before the final rounding (`FloatDec.v`). Binary64 with rounding to nearest even; np.round as multiplication, rint and division. %K with the default k_slowing_periods = 1; the first mean of RSI may add in any order. Refuted for prices close to the largest float: %K and the rounding itself overflow. Uses the real-number axioms of the standard library.
* **C78 The published floats are the exact values to the fourth decimal** (proved; `PropsFloatAcc.v`). An interval of certain width around the real value is carried through each float operation (`FloatAcc.v`), the exact value is the formula of C59-C65 (`FloatAccApi.v`); rounding to four decimals then moves by at most half a unit and the error before it. For the indicators listed, those without running sums; %K with the default k_slowing_periods = 1; rows without missing cells, low <= close <= high where the exact formula needs it. That the fourth decimal is always the same is refuted: the median price of 10.0012 and 10.0011. Uses the real-number axioms of the standard library.
* **C79 Recursive averages do not drift away from the exact average in binary64** (proved; `PropsFloatEwm.v`). One step of the loop shrinks the distance to the exact average and adds a bounded rounding error; the two balance at a distance that does not depend on the length (`FloatEwmAcc.v`); sums in any order by induction over the tree of additions (`FloatEwmAcc5.v`). Rows without missing cells; the simple and triangular averages are in C96, the variable one is not included. The loop of pandas' ewm().mean() is modelled with its guard against moving on equal values and its computed weights. The price bound is price * (period + 1) <= 2^41 ten-thousandths. Uses the real-number axioms of the standard library.
* **C80 A market turned upside down gives mirrored values** (proved; `PropsMirror.v`). Each published value is rewritten by its formula (C42 to C65); mirroring commutes with sums, means, extremes, regression lines, recursions and rounding (`MirrorFacts.v`), the parabolic SAR by a simulation of the loop on both sides (`MirrorSar.v`). Columns the table leaves out: ENV, the 23.6% level of FIB, MOM, PRC, FOSC, POSC, PRF, NVI, PVI, PVT, RI and the volume-only indicators. The side conditions per indicator are in MirrorSpec.ordinary: days with a range, sums that are not zero, and where the code treats a rise and a fall differently, that it does not matter. The *_refuted theorems give mirrored frames on which the plain reading fails.
* **C81 A market turned upside down gives the opposite signals** (proved; `PropsMirror.v`). A map that reverses the order exchanges rising and falling through levels, above and below, lowest and highest (`MirrorSignal.v`); the rules of C54 to C56 and C66 to C68 then give the opposite answer. Signals of constructed objects (not limited ones). The side conditions are those of C80 on every day and MirrorSpec.even_handed. The *_refuted theorems give mirrored frames for rules that are not even-handed.
* **C82 No value is published from prices that are not there** (proved; `PropsMissing.v`). A calculus of missing cells (`GapFacts.v`): each operation on columns says which cells of the result are missing when a cell of an argument is; a tactic composes them over the formula of each indicator (`GapApi.v`). The table of columns, prices and days is GapSpec.uses. C82_every_column_refuted gives one frame and 21 columns that publish a number on a day without any price. A value can be missing for further reasons (division by zero, start of the data); this is the subject of other properties.
* **C83 After one missing price some columns never come back** (proved; `PropsMissing.v`). The same calculus with an end: a recursion that reads its own last value stays missing (`g_seeded`, `g_cumsum`); for the parabolic SAR the maximum and minimum over the trend stay missing (`GapMore.v`). The table of columns, first rows and delays is GapSpec.blanks; the parabolic SAR has its own theorem. RelativeVolatilityIndex is seen to be lost too in C83_case, without a general theorem.
* **C84 What the other columns take a missing price for** (proved; `PropsMissing.v`). The state of the weighted sums is followed through the missing days (`GapMore.v`: `ewm_state_gap`, `ewm_resume`); for the others the formula on the column with zeros (or with unchanged prices) in place of the missing cells is the formula of the code. The prices given are described by GapSpec.sparse: any pattern of missing cells. Only the columns named are covered: the signal line of the MACD, DEMA, TEMA, ATR and the other columns listed in C82_every_column_refuted have no theorem about missing prices.
* **C85 Adding one amount to all prices moves price lines and leaves oscillators** (proved; `PropsMove.v`). Mirroring twice, at 0 and at d, adds d: an object of the mirrored prices is constructed between the two (`MoveApi.v`: `in_between`) and C80 used on both halves; RMI and RI directly from their formulas. The 23.6% level of FIB is not in the table, nor are indicators of volumes only. The side conditions are those of C80 (MirrorSpec.ordinary), for the parabolic SAR also the condition on its first two days although a move would not need it. C85_level_bound_refuted shows for eight columns that they neither stay nor move.
* **C86 Adding one amount to all prices does not change the signals** (proved; `PropsMove.v`). C81 on both halves: the opposite of the opposite; DEMA and MA from their rules and C85. Signals of constructed objects (not limited ones), under the side conditions of C81 (MirrorSpec.ordinary on every day, MirrorSpec.even_handed). TP, Ichimoku, UO, VHF, RMI, RI and the indicators without a rule are not covered. C86_envelope_refuted gives the two frames for the envelope.
* **C87 Dates matter only by their order** (proved; `PropsDates.v`). Sorting, filling, cutting and looking up compare dates and nothing else (`DateFacts.v`: every function of the model commutes with renumbering). Dates are integers in the model (timestamps); the order of rows with equal dates is that of a stable sort (DESIGN.md, section 1).
* **C88 The simulation does not depend on the currency** (proved; `PropsDates.v`). Every step of the simulator commutes with multiplying all money by a positive number (`CurrencyFacts.v`), including infinite and missing prices. The indicator object is the same in both runs; that its signals do not depend on the currency is the subject of C50. C88_statistics_refuted: the stock value 10.123 is published as 10.12, 1012.3 as 1012.3.
* **C89 Dearer prices never lower an average, a channel or a price level** (proved; `PropsOrder.v`). Every formula of the list is monotone in each price (`OrderFacts.v`, `OrderApi.v`), rounding is monotone. Rows are compared in the order of the frames; Fibonacci levels need the whole closes of both frames (same number of days). C89_averages_of_averages_refuted gives one dearer day that lowers DEMA, TEMA, LRI, TSF, the time series average and both outer Bollinger bands.
* **C90 A higher close of the day does not lower the day's value** (proved; `PropsOrder.v`). Each formula as a function of the last close (`OrderApi2.v`): CCI by comparing the mean deviation of both inputs (`closer`), DEMA and TEMA by the weight of the last value, regression lines by their last coefficient, ratios by cross multiplication; the MACD by counting units of the fourth decimal (`rounded_gap`). The two inputs are the same outside row k. Side conditions: OrderSpec.sound_days for both, MirrorSpec.ordinary for both (for LRS and the time series average a period of two days at least). Comparison with present_le: says nothing where a value is missing on one side. C90_macd_refuted: closes of 10.0000 for 26 days, then 10.0006 gives 0.0001 and 10.0007 gives 0.0000. C90_ranges_refuted: RI, VHF, SD, outer Bollinger bands.
* **C91 Arguments may be given by position, by name or not at all** (proved; `PropsCall.v`). Python's binding of arguments by position, by name and by default (`Call.v`) against the documented names and defaults (`CallSpec.v`); `CallFacts.v`. Call.v models the signatures and python's binding of arguments; CallSpec.documented was written from the docstrings. C91_call says with which constructor arguments (parts) the object is made.
* **C92 What is typed after the program's name is what the constructor gets** (proved; `PropsCall.v`). The two regular expressions, `split` and the dictionary of arguments as functions on texts (`Script.v`); printing and reading back of decimal numbers by the standard library's `Decimal` (`ScriptFacts2.v`). As worded the statement is false of the code in the cases of the _refuted theorems (DESIGN.md, section 4); everything else in it is proved. C92_done, C92_raised and C92_invalid say what happens for whole numbers, numbers with one decimal and words; C92_decimals_are_text, C92_no_negative_number and C92_no_flag say for all texts what cannot be typed; C92_last_counts: of two values typed for one name the last counts.
* **C93 The program for all simulations reports on every indicator** (proved; `PropsCall.v`). Induction over the list of calls; after the first one the data has lower case names and is not changed any more (`ScriptFacts.v`). As worded the statement is false of the code in the cases of the _refuted theorems (DESIGN.md, section 4); everything else in it is proved. C93_all_simulations: all 62 reports, or the 41 before RangeIndicator and then its IndexError (finding of C12); C93_finishes says exactly when; C93_refuted: 60 ordinary days on which the program stops. reports compares each report with the simulation on the unchanged data.
* **C94 Values in other units of money and volume** (proved; `PropsUnits2.v`). The textbook formulas of C59-C65 are homogeneous (`UnitFacts.v`); each class by its formula (`UnitApi.v`). UnitSpec.ratios and UnitSpec.dimensions list the columns. Left out because they round on the way or use the square root: MACD, TSF, the outer Bollinger bands, RSI, PROJ, FOSC, SD, RVI, MA time_series. C94_range_indicator_refuted, C94_swing_index_refuted and C94_chaikin_refuted are the three exceptions the statement names.
* **C95 Signals and simulations in other units of money and volume** (proved; `PropsUnits2.v`). Equal cells, dates and names make equal frames; the rules only compare (`UnitSim.v`), and the simulator commutes with the currency (C88). C95_data: the whole data frame is the same (on balance volume: u times); C95_signal, C95_simulation; C95_rounded_line_refuted and C95_money_level_refuted show the two exceptions the statement names.
* **C96 Rolling averages in binary64** (proved; `PropsFloatRoll.v`). A bound on the two compensations and a drift that grows by a fixed amount per row (`FloatRollAcc.v`); rows before the first window (`FloatRollAcc2.v`); sums of whole numbers are exact (`FloatRollAcc5.v`). Rows without missing cells. roll_mean and roll_sum of pandas are modelled with both compensations, the count of equal values and the count of signs. C96_any_size_refuted: six prices, one of them eighteen million millions, after which the two-day average is 20 units of the fourth decimal off. Uses the real-number axioms of the standard library.
* **C97 Signals in binary64** (proved; `PropsFloatSig.v`). Four-decimal floats up to 2^48 units keep their order, so a comparison is decided by the integers behind them (`settles`); each rule is rewritten comparison by comparison (`FloatSignalFacts.v`), then the accuracy of C78, C79 and C96 is inserted (`FloatSignalApi.v`). C97_same_signal holds for all 37 rules, given the accuracy of the floats; the other theorems combine it with the accuracy proved in C78, C79 and C96. The other 20 rules compute before they compare and are not modelled in binary64. Uses the real-number axioms of the standard library.
* **C98 Simulations on four-decimal prices in binary64** (proved; `PropsFloatSim.v`). An invariant over the days (`kept` in `FloatSimAcc.v`): every slot is the float image of the exact slot, so the closing conditions, which compare one price with one other, agree; exposure and earnings carry an error linear in the days and the closed positions times n units. `FloatSimDays.v` runs it over a simulation and rounds the last row. The hypothesis on the limit cannot be dropped (C98_at_the_limit_refuted). round(x, 2) is any rounding at most 3/5 of a cent off that returns two-decimal floats; C98_numpy_rounds shows that numpy's is one. Uses the real-number axioms of the standard library.
* **C99 What the limit and the factor change in a simulation** (proved; `PropsLimit.v`). The words of `SimSpec.v` (still open, closed on, profit, earnings) depend on actions and prices only (`SimLimit.v`, section `Ext`); strong induction over the days shows that actions agree as long as the same positions fit. The two natural monotonicity claims are false (C99_higher_limit_refuted, C99_smaller_factor_refuted).
* **C100 Small errors in the prices stay small in averages and channels** (proved; `PropsSway.v`). Each published formula (C59-C65) is monotone and commutes with adding a constant, so it moves by at most the error; sums of such formulas by the sum of the absolute weights (`SwayFacts.v`, `SwayApi.v`). Jumps of the other columns: C100_other_columns_refuted.
* **C101 Old prices fade from recursive averages at a known rate** (proved; `PropsFade.v`). `left_over` in `SwayFacts.v` is the recursion of the difference; solved in closed form for one, two and three averages in a row; the halving is Bernoulli's inequality. Complements C74, which gives the exact difference for the exponential average when rows are cut off.
* **C102 The averages of a basket are the sums of the averages of its members** (proved; `PropsBasket.v`). Each published formula (C59-C65) is linear in the column it reads (`BasketFacts.v`, `BasketApi.v`), and rounding moves each of the three numbers by half a unit at most; truncation by one (`BasketApi2.v`). True range and highest high are sublinear. Columns that do not add up: C102_other_columns_refuted.
* **C103 The rate of change of a basket lies between the rates of its members** (proved; `PropsBasket.v`). The mediant inequality for the quotient before rounding; rounding is monotone (`BasketApi2.v`). Oscillators for which it is false: C103_oscillators_refuted.
* **C104 On a market that moves along a straight line the indicators have the values of the textbook** (proved; `PropsSteady.v`). The published formulas (C59-C65) are evaluated on f j = f 0 + d j by induction over the rows (`SteadyFacts.v`, `SteadyApi.v`). %D of the stochastic oscillator, TEMA, MACD and the square roots are not included.
* **C105 What is signalled on a market that moves along a straight line** (proved; `PropsSteady.v`). The signal rules (C54, C66, C68) applied to the values of C104 (`SteadySig.v`); an object limited by the simulation shows a prefix of the columns.
* **C106 What a simulation earns on a market that only rises or only falls** (proved; `PropsOneWay.v`). `still_open` and `closed_on` of C17-C20 are evaluated for a market on which one side wins every day (`OneWay.v`).
* **C107 What the simulations of moving averages and of the commodity channel index earn on a straight line** (proved; `PropsOneWay.v`). C105 gives the signal of each day of the simulation (an object limited to k+1 days), C106 the money, sums of arithmetic series the closed form (`OneWayApi.v`). Distinct dates; the prices given to the simulation are the closes of the indicator (own_closes); no limit.
* **C108 On a market of steady growth the relative indicators show the same value every day** (proved; `PropsGrowth.v`). The formulas of C59-C65 over a window move with the market: the value of row k+1 is that of row k with all inputs multiplied (`GrowthFacts.v`), and ratios forget the factor. The columns whose recursion starts at a seed (relative strength, exponential averages) only tend to a constant and are not claimed.
* **C109 On a market of steady growth eight indicators never signal** (proved; `PropsGrowth.v`). C108 and the signal rules of C54, C67 and C68 (`GrowthApi.v`).
* **C110 What the indicators show on a market that only rises or only falls** (proved; `PropsClimb.v`). The formulas of C59-C65 with bounds for means and smoothed values of a series that only rises (`ClimbFacts.v`); the fall is the rise of the negated series; the rounding error of 0.00005 is less than half a move. Double and triple exponential averages and the time series average can be above a rising price and are not claimed.
* **C111 What the indicators advise on a market that only rises or only falls** (proved; `PropsClimb.v`). C110 and the signal rules of C54, C66 and C67 (`ClimbApi.v`).
* **C112 What the simulations of moving averages and of on balance volume earn on a market that only rises or only falls** (proved; `PropsClimb.v`). C111 gives the signal of each day of the simulation, C106 the money (`ClimbApi.v`). Distinct dates; the prices given to the simulation are the closes of the indicator (own_closes); no limit.
* **C113 An advice rests on values that are there** (proved; `PropsAdvice.v`). Every true comparison has two present sides (`AdviceFacts.v`); each of the 57 rules is taken apart into its reads and conditions by one tactic; the simulation's signal of a day is that of the object limited to the day (`AdviceApi.v`). The tables of cells are AdviceSpec.looks_at and looks_at_closes. Indicators of several columns of which one suffices (bands, channel, Fibonacci, stochastic) are covered by C113_nothing_shown. The mass index is not claimed. C113_no_trade: distinct dates, not DPO (finding of C16). As worded in the exceptions: C113_williams_refuted, C113_range_indicator_refuted.
* **C114 Without a limit every simulated trade stands for itself** (proved; `PropsQuiet.v`). The state after a day is the list of positions still open; for a price each position closes by itself, so the two lists merge (`QuietSim.v`); the signals left out form the other part of a division, whose earnings are not negative. C114_fewer_signals_reported: not DPO (finding of C16), finite close values. With a limit: C114_limit_refuted; balance: C114_balance_refuted.
* **C115 Wider bands and further targets only take signals away, and never earn more** (proved; `PropsQuiet.v`). Bands are monotone in width, rounding is monotone, and the rules compare the close with one band each (`QuietApi.v`); the simulation then follows from C114. For Bollinger bands all that is assumed of the square root is that it is not negative on numbers that are not (good_sqrt). With a limit: C115_limit_refuted.
* **C116 The books of a simulation balance** (proved; `PropsBooks.v`). Induction over the days on the rows alone (`Books.v`): each open position gains its side times the move of the price, and is either closed at that or kept; the rest are C17 to C20 read as sums over open positions. C116_reported and C116_reported_flat: not DPO (finding of C16), finite close values. C116_balance_refuted: on an unchanging market the balance grows by the price with every buy.
* **C117 What a number of trades can earn** (proved; `PropsBooks.v`). The closed positions of a day are the difference of two counts; each earns a difference of two closes (`Books.v`). For the simulator fed with any signals.
* **C118 On a market turned upside down the opposite signals earn the same** (proved; `PropsTurn.v`). Each position is profitable on the same days on both sides (`TurnSim.v`); the reported version reads prices and signals off the rows (`TurnApi.v`). C118_reported: not DPO (finding of C16), finite close values; that the signals are opposite is a hypothesis (C81 gives it for the last day of each object). With a limit: C118_limit_refuted.
* **C119 A simulation may be cut in two** (proved; `PropsTurn.v`). C114 divides the signals at day k; leading days without positions can be dropped (`TurnSim.v`). The signal of day k itself belongs to the first part, since a simulation does not trade on its first day. With a limit: C119_limit_refuted.
* **C120 A day without a signal and without earnings may be left out of a simulation** (proved; `PropsIdle.v`). Without earnings nothing was closed, since every closed position earns more than 0; the two runs then differ by one empty slot, which no later sum or count notices (`IdleSim.v`, `gap_days`). Reported versions: not DPO (finding of C16), finite close values; that the signals of the other days are the same is a hypothesis, since an indicator over more rows may signal something else. Days with earnings: C120_earning_day_refuted; the first day: C120_first_day_refuted.
* **C121 An even-handed indicator earns the same on a market turned upside down** (proved; `PropsMirrorSim.v`). C81's rules restated for any two objects that show mirrored values (`facing_objects`, `MirrorDays.v`); the data limited to a day are two such objects (`limited_facing`, `MirrorSims.v`); then C118. Indicators and conditions of C81 (even_handed on the data of every day, ordinary prices), without DPO (finding of C16: it shows fewer rows). Which indicators are one-sided: refuted theorems of C81; with a limit the earnings differ: C118_limit_refuted.
* **C122 One amount added to all prices changes neither the trades nor the earnings of a simulation** (proved; `PropsMoveSim.v`). Moving by d is mirroring at 0 and at d (as in C85): C121 twice, through the frame in between, whose rows are built for the purpose (`frame_of`); the books by C118 twice (`MoveSims.v`). Indicators and conditions of C86 (on the data of every day), without DPO (finding of C16). Envelopes: C122_envelope_refuted; limits: C122_limit_refuted. Portfolio value and balance are not the same: they contain the price.
* **C123 The advice of a day rests on the recent days only** (proved; `PropsRecent.v`). C74 for the values, `MemoryApi.two_col` for the closes; `recent_signal` reads the signal rule of each indicator and finds that it looks at such cells only (`RecentSig.v`). With fill_missing_values or for the indicators that build others inside, no cell may be missing (as in C74: filling looks at rows outside the window). The remaining indicators: C123_every_advice_refuted for seven of them; nothing is claimed for the rest.
* **C124 With nothing open, the past of a simulation is only its earnings** (proved; `PropsResume.v`). Positions closed by day k stay closed, so the sums of C17–C20 over the earlier days vanish; that the limit lets the same positions in follows by strong induction over the days (`ResumeSim.v`). Reported rows and the link to C123 in `ResumeApi.v`. Finite prices. Holds with a limit too: with nothing open the exposure is zero. C124_open_position_refuted: with a position open it fails.
* **C125 The same days lead to the same values and to the same advice, whenever they come** (proved; `PropsRepeat.v`). Both days are compared with the few rows they have in common: by causality (`short_prefix`) the later rows do not matter, by `MemoryApi.two_cells` the earlier ones do not (`RepeatApi.v`); the advice by `RecentSig.recent_signal`. The rows are compared after filling, so missing cells are allowed, except for the indicators that build others inside (these fill once more). DPO is left out, its value needs later days. The other columns: C125_every_value_refuted for eighteen of them; nothing is claimed for the rest.
* **C126 On a market that repeats itself running totals gain the same every cycle and recursive averages settle** (proved; `PropsCycle.v`). Induction over the cycle on the textbook lines of C48; the averages by C101, the market compared with itself some cycles later (`CycleApi.v`). Exact arithmetic. The closes are different from zero for the price and volume trend and the volume indices, as in C48.
* **C127 On a market that repeats itself every cycle of a simulation trades and earns the same** (proved; `PropsCycleRuns.v`). C124 with the run cut p days before its end (C25) against its own rest, then induction over the cycles (`CycleSim.v`); repeated signals from C125 (`CycleRuns.v`). Exact arithmetic; finite closes. The position-free days k and k+p are hypotheses; C127_open_position_refuted shows that the second one is needed: a position that stays open takes the room of later trades.
* **C128 Without a limit a repeating market adds the same earnings, exposure and open positions every cycle** (proved; `PropsLap.v`). A profitable day comes again p days later, so a position is closed within one cycle or never; the sums over open and closed positions (C19, C20) are then shifted by p days (`LapSim.v`); repeated signals from C125 (`LapRuns.v`). Exact arithmetic; finite closes. The count starts one cycle after day k, because positions from before may close in the first cycle: C128_first_cycle_refuted.

The statements of all properties are in `properties.jsonl`.  A property with `_refuted` theorems is false of the code as it is worded for all inputs:
the witness shows where, and the remaining theorems of the property prove it everywhere else or give the exact behaviour.

## 3. Theorems

| property | theorems | assumptions |
|---|---|---|
| C01 | `C01_row_order_irrelevant`, `C01_validated_data_ignores_row_order` | none |
| C02 | `C02_data`, `C02_signals_and_simulation`, `C02_column_order_refuted`, `C02_validated_data_ignores_other_columns` | none |
| C03 | `C03_accepted_iff`, `C03_documented_errors`, `C03_duplicate_labels_refuted` | none |
| C04 | `C04_constructor`, `C04_simulation`, `C04_callers_data_untouched`, `C04_labels_untouched_refuted` | none |
| C05 | `C05_fill`, `C05_present_cells_kept`, `C05_missing_only_if_column_empty`, `C05_filling_again_changes_nothing` | none |
| C06 | `C06_sorted`, `C06_rows_stay_together`, `C06_columns_kept` | none |
| C07 | `C07_input_kept`, `C07_flag_ignored`, `C07_no_fill_refuted` | none |
| C08 | `C08_accepted_iff`, `C08_parameters_used`, `C08_error`, `C08_no_calculation`, `C08_fill_flag`, `C08_volume_oscillator_name_refuted` | none |
| C09 | `C09_not_enough_iff`, `C09_otherwise_completes`, `C09_reported_minimum`, `C09_atr_minimum_refuted` | none |
| C10 | `C10_date`, `C10_latest`, `C10_repeated_date_refuted` | none |
| C11 | `C11_shape`, `C11_dpo_drops_days_refuted` | none |
| C12 | `C12_signal`, `C12_signal_during_simulation`, `C12_range_indicator_refuted`, `C12_median_price_refuted`, `C12_median_price_never_simulates` | none |
| C13 | `C13_history_not_rewritten`, `C13_dpo`, `C13_adl`, `C13_chaikin_oscillator`, `C13_fibonacci_refuted`, `C13_dpo_refuted`, `C13_adl_refuted`, `C13_filling_refuted` | none |
| C14 | `C14_unchanged`, `C14_unchanged_on_return`, `C14_unchanged_on_bad_arguments`, `C14_exception_refuted` | none |
| C15 | `C15_signal_of_the_day`, `C15_fibonacci_refuted` | none |
| C16 | `C16_every_day`, `C16_dpo_refuted` | none |
| C17 | `C17_exposure_is_sum_of_open_positions`, `C17_stock_value_is_close_price` | none |
| C18 | `C18_open_until_first_profitable_day`, `C18_exposure_released_on_closing`, `C18_closed_once` | none |
| C19 | `C19_earnings_are_realised_profits`, `C19_every_closing_earns`, `C19_earnings_never_fall` | none |
| C20 | `C20_portfolio_value_and_balance` | none |
| C21 | `C21_exposure_never_above_limit`, `C21_negative_prices_refuted`, `C21_nan_limit_refuted` | none |
| C22 | `C22_when_positions_are_opened` | none |
| C23 | `C23_counts`, `C23_last_values`, `C23_ignored_signals`, `C23_ignored_because_of_limit_refuted` | none |
| C24 | `C24_starts_iff`, `C24_nan_refuted` | none |
| C25 | `C25_simulation_is_online` | none |
| C26 | `C26_exposure_nonnegative`, `C26_zero_exposure_iff_nothing_open` | none |
| C27 | `C27_rsi_range` | none |
| C28 | `C28_rmi_range` | none |
| C29 | `C29_cmo_range` | none |
| C30 | `C30_imi_range` | none |
| C31 | `C31_stochastic_range`, `C31_filled_refuted` | none |
| C32 | `C32_williams_range`, `C32_filled_refuted` | none |
| C33 | `C33_smi_range`, `C33_missing_close_refuted` | none |
| C34 | `C34_vhf_range` | none |
| C35 | `C35_dmi_range`, `C35_missing_close_refuted` | none |
| C36 | `C36_uo_range` | none |
| C37 | `C37_swing_range` | none |
| C38 | `C38_cmf_range` | none |
| C39 | `C39_range_indicator_range` | none |
| C40 | `C40_rvi_range` | none |
| C41 | `C41_projection_range`, `C41_fine_prices_refuted` | none |
| C42 | `C42_bollinger_order`, `C42_bollinger_symmetric`, `C42_bollinger_values` | none |
| C43 | `C43_envelopes_order`, `C43_envelopes_values`, `C43_negative_prices_refuted` | none |
| C44 | `C44_moving_average_between`, `C44_wilders_smoothing_between`, `C44_time_series_refuted` | none |
| C45 | `C45_channel_high`, `C45_channel_low`, `C45_ichimoku_lines`, `C45_ichimoku_cloud` | none |
| C46 | `C46_levels_constant`, `C46_levels_ordered`, `C46_level_values` | none |
| C47 | `C47_regression_indicator`, `C47_regression_slope`, `C47_time_series_forecast`, `C47_least_squares`, `C47_straight_price` | none |
| C48 | `C48_on_balance_volume`, `C48_price_and_volume_trend`, `C48_negative_volume_index`, `C48_positive_volume_index` | none |
| C49 | `C49_published_stop`, `C49_published_side`, `C49_acceleration_range`, `C49_acceleration_steps`, `C49_side_of_the_price`, `C49_turns_on_crossing`, `C49_new_trend`, `C49_extreme`, `C49_moves_with_the_trend`, `C49_stop_below_the_low_refuted`, `C49_stop_never_falls_while_rising_refuted` | none |
| C50 | `C50_chande_momentum`, `C50_relative_momentum`, `C50_intraday_momentum`, `C50_stochastic`, `C50_stochastic_signal`, `C50_williams_r`, `C50_momentum`, `C50_price_rate_of_change`, `C50_price_oscillator`, `C50_vertical_horizontal_filter`, `C50_performance`, `C50_commodity_channel`, `C50_stochastic_momentum`, `C50_chaikin_volatility`, `C50_mass_index`, `C50_chaikin_money_flow`, `C50_directional`, `C50_relative_strength_refuted` | none |
| C51 | `C51_median_price`, `C51_typical_price`, `C51_weighted_close` | none |
| C52 | `C52_momentum_and_rate`, `C52_momentum_values`, `C52_rate_values` | none |
| C53 | `C53_moving_averages`, `C53_time_series_average`, `C53_double_exponential`, `C53_triple_exponential`, `C53_wilders_smoothing`, `C53_regression_line`, `C53_forecast`, `C53_macd`, `C53_price_oscillator`, `C53_detrended_price`, `C53_standard_deviation`, `C53_regression_slope`, `C53_variable_average_refuted` | none |
| C54 | `C54_median_average`, `C54_crossing_a_level`, `C54_crossing_a_line`, `C54_directional_movement`, `C54_macd`, `C54_momentum`, `C54_median_price`, `C54_positive_volume_index`, `C54_missing_level_holds`, `C54_missing_line_holds` | none |
| C55 | `C55_buy_rule`, `C55_never_sells`, `C55_buy_needs_a_low_refuted` | none |
| C56 | `C56_cloud_rule`, `C56_buy_needs_a_cloud_refuted`, `C56_sell_below_the_cloud_refuted` | none |
| C57 | `C57_line`, `C57_step` | none |
| C58 | `C58_exposure_limit`, `C58_negative_limit_refuted`, `C58_long_closed_iff_price_rose`, `C58_short_closed_only_if_price_fell`, `C58_short_closed_when_price_fell_refuted`, `C58_zero_exposure_refuted`, `C58_exposure_not_negative_refuted`, `C58_earnings_never_fall_refuted`, `C58_exact_on_binary_fractions` | the four axioms of section 5 |
| C59 | `C59_simple_moving_average`, `C59_exponential_moving_average`, `C59_triangular_moving_average`, `C59_time_series_moving_average`, `C59_variable_moving_average`, `C59_double_exponential`, `C59_triple_exponential`, `C59_wilders_smoothing` | none |
| C60 | `C60_macd`, `C60_price_oscillator`, `C60_volume_oscillator`, `C60_volume_rate_of_change`, `C60_standard_deviation`, `C60_vertical_horizontal_filter`, `C60_performance` | none |
| C61 | `C61_chande_momentum`, `C61_relative_strength`, `C61_relative_momentum`, `C61_intraday_momentum`, `C61_qstick` | none |
| C62 | `C62_williams_r`, `C62_stochastic`, `C62_stochastic_signal`, `C62_stochastic_momentum`, `C62_commodity_channel`, `C62_ultimate_oscillator`, `C62_range_indicator` | none |
| C63 | `C63_average_true_range`, `C63_mass_index`, `C63_chaikin_volatility`, `C63_relative_volatility`, `C63_directional_lines`, `C63_directional_index`, `C63_average_directional_index`, `C63_directional_rating`, `C63_swing_index` | none |
| C64 | `C64_chaikin_money_flow`, `C64_market_facilitation`, `C64_ease_of_movement`, `C64_klinger`, `C64_williams_accumulation`, `C64_chaikin_oscillator`, `C64_williams_total_refuted` | none |
| C65 | `C65_projection_bands`, `C65_projection_oscillator`, `C65_projection_trigger`, `C65_forecast_oscillator`, `C65_detrended_price` | none |
| C66 | `C66_leaving_a_band`, `C66_commodity_channel`, `C66_projection_bands`, `C66_projection_bands_missing`, `C66_double_exponential`, `C66_triple_exponential`, `C66_moving_average`, `C66_performance_long`, `C66_performance_short`, `C66_standard_deviation`, `C66_typical_price`, `C66_negative_volume_index`, `C66_average_true_range` | none |
| C67 | `C67_three_days`, `C67_volume_oscillator`, `C67_qstick`, `C67_market_facilitation`, `C67_vertical_horizontal_filter` | none |
| C68 | `C68_mass_average`, `C68_accumulation_distribution`, `C68_chaikin_money_flow`, `C68_chaikin_oscillator`, `C68_fibonacci`, `C68_mass_index`, `C68_projection_oscillator`, `C68_range_indicator`, `C68_stochastic`, `C68_williams_accumulation`, `C68_williams_r`, `C68_range_indicator_always_answers_refuted` | none |
| C69 | `C69_constructor_succeeds_iff`, `C69_column_missing` | none |
| C70 | `C70_lines_drawn`, `C70_plots`, `C70_lines_distinguishable`, `C70_cloud`, `C70_title`, `C70_legends`, `C70_emphasis`, `C70_colors_across_plots_refuted`, `C70_indicator_lines_opaque_refuted` | none |
| C71 | `C71_simulation_graph`, `C71_dpo_refuted` | none |
| C72 | `C72_parameters`, `C72_rules_complete`, `C72_fill_flag`, `C72_only_when_refused`, `C72_envelopes`, `C72_volume_oscillator`, `C72_envelopes_refuted`, `C72_volume_oscillator_refuted`, `C72_marked_value_refuted` | none |
| C73 | `C73_rows`, `C73_column`, `C73_not_a_frame`, `C73_index`, `C73_empty`, `C73_simulation_parameters`, `C73_simulation_rules_complete`, `C73_simulation_dates`, `C73_simulation_not_a_frame`, `C73_simulation_index`, `C73_simulation_empty`, `C73_simulation_column`, `C73_simulation_only_when_refused`, `C73_average_true_range_refuted` | none |
| C74 | `C74_old_rows_forgotten`, `C74_on_balance_volume`, `C74_exponential_average`, `C74_every_column_refuted` | none |
| C75 | `C75_middle_band`, `C75_band_width`, `C75_envelopes`, `C75_time_series`, `C75_forecast_oscillator`, `C75_macd`, `C75_stochastic_williams`, `C75_rates_of_change` | none |
| C76 | `C76_one_row` | none |
| C77 | `C77_williams_r`, `C77_stochastic_k`, `C77_stochastic_k_refuted`, `C77_rsi`, `C77_median_price`, `C77_median_price_decimal`, `C77_ichimoku_lines`, `C77_price_channel`, `C77_fibonacci_order`, `C77_fibonacci_ends`, `C77_round_keeps_decimals`, `C77_round_monotone`, `C77_round_large_refuted` | the four axioms of section 5 |
| C78 | `C78_one_unit`, `C78_nearest`, `C78_williams_r`, `C78_stochastic_k`, `C78_median_price`, `C78_weighted_close`, `C78_typical_price`, `C78_last_decimal_refuted`, `C78_ichimoku_lines`, `C78_ichimoku_cloud`, `C78_price_channel_high`, `C78_price_channel_low`, `C78_fibonacci`, `C78_momentum`, `C78_price_rate`, `C78_volume_rate`, `C78_performance` | the four axioms of section 5 |
| C79 | `C79_exponential`, `C79_double_exponential`, `C79_triple_exponential`, `C79_wilders_smoothing`, `C79_macd`, `C79_exponential_among_prices`, `C79_wilders_among_prices` | the four axioms of section 5 |
| C80 | `C80_mirrored_values`, `C80_relative_momentum`, `C80_relative_momentum_refuted`, `C80_parabolic_start_refuted`, `C80_klinger_tie_refuted` | none |
| C81 | `C81_reversed_signals`, `C81_unchanged_signals`, `C81_one_sided_refuted`, `C81_stochastic_refuted` | none |
| C82 | `C82_gap_shown`, `C82_every_column_refuted` | none |
| C83 | `C83_lost_for_good`, `C83_parabolic_sar` | none |
| C84 | `C84_average_waits`, `C84_macd_waits`, `C84_average_resumes`, `C84_regression_counts_zero`, `C84_channel_counts_zero`, `C84_strength_counts_nothing`, `C84_volume_waits`, `C84_typical_of_rest` | none |
| C85 | `C85_prices_move`, `C85_levels_stay`, `C85_relative_momentum`, `C85_range_indicator`, `C85_level_bound_refuted` | none |
| C86 | `C86_same_signals`, `C86_size_signals`, `C86_average_signals`, `C86_envelope_refuted` | none |
| C87 | `C87_same_values`, `C87_same_refusals`, `C87_same_simulation` | none |
| C88 | `C88_same_trades`, `C88_statistics_refuted` | none |
| C89 | `C89_price_lines_rise`, `C89_fibonacci_levels_rise`, `C89_averages_of_averages_refuted` | none |
| C90 | `C90_higher_close`, `C90_forecast_oscillator`, `C90_macd`, `C90_ranges_refuted`, `C90_macd_refuted` | none |
| C91 | `C91_call`, `C91_type_error`, `C91_any_order`, `C91_by_position`, `C91_left_out`, `C91_defaults_work` | none |
| C92 | `C92_done`, `C92_raised`, `C92_last_counts`, `C92_invalid`, `C92_decimals_are_text`, `C92_refuted`, `C92_no_negative_number`, `C92_no_flag` | none |
| C93 | `C93_all_simulations`, `C93_finishes`, `C93_needs_rows`, `C93_every_class`, `C93_figures`, `C93_refuted` | none |
| C94 | `C94_ratios`, `C94_dimensions`, `C94_range_indicator_refuted`, `C94_swing_index_refuted`, `C94_chaikin_refuted` | none |
| C95 | `C95_data`, `C95_signal`, `C95_simulation`, `C95_rounded_line_refuted`, `C95_money_level_refuted` | none |
| C96 | `C96_simple`, `C96_middle_band`, `C96_triangular`, `C96_detrended_price`, `C96_qstick`, `C96_volume_oscillator`, `C96_among_prices`, `C96_any_size_refuted`, `C96_flat`, `C96_not_below_zero` | the four axioms of section 5 |
| C97 | `C97_same_signal`, `C97_simple`, `C97_exponential`, `C97_triangular`, `C97_double_exponential`, `C97_triple_exponential`, `C97_wilders`, `C97_weighted_close`, `C97_macd`, `C97_qstick`, `C97_volume_oscillator`, `C97_price_rate`, `C97_volume_rate`, `C97_price_channel`, `C97_any_signal_refuted` | the four axioms of section 5 |
| C98 | `C98_same_trades`, `C98_amounts`, `C98_statistics_counts`, `C98_statistics_amounts`, `C98_numpy_rounds`, `C98_cents`, `C98_at_the_limit_refuted` | the four axioms of section 5 |
| C99 | `C99_trades_decide`, `C99_trades_decide_positions`, `C99_trades_decide_statistics`, `C99_factor_without_limit`, `C99_factor_without_limit_statistics`, `C99_limit_not_reached`, `C99_same_until_ignored`, `C99_higher_limit_refuted`, `C99_smaller_factor_refuted` | none |
| C100 | `C100_small_errors`, `C100_average_true_range`, `C100_fibonacci_levels`, `C100_other_columns_refuted` | none |
| C101 | `C101_past_fades`, `C101_average_halves`, `C101_shares_vanish` | none |
| C102 | `C102_basket`, `C102_detrended_price`, `C102_on_balance_volume`, `C102_price_and_volume_trend`, `C102_klinger_oscillator`, `C102_accumulation_distribution`, `C102_chaikin_oscillator`, `C102_price_channel`, `C102_average_true_range`, `C102_other_columns_refuted` | none |
| C103 | `C103_rates`, `C103_chaikin_money_flow`, `C103_oscillators_refuted` | none |
| C104 | `C104_averages_are_late`, `C104_regression_slope`, `C104_forecast`, `C104_forecast_oscillator`, `C104_detrended_price`, `C104_chande_momentum`, `C104_relative_strength`, `C104_relative_momentum`, `C104_vertical_horizontal_filter`, `C104_commodity_channel`, `C104_williams_r`, `C104_stochastic`, `C104_stochastic_momentum`, `C104_ultimate_oscillator`, `C104_average_true_range`, `C104_directional_movement` | none |
| C105 | `C105_channel_sells_the_rise`, `C105_channel_buys_the_fall`, `C105_short_channel_holds`, `C105_moving_averages`, `C105_momentum_holds`, `C105_candles_hold` | none |
| C106 | `C106_only_rises`, `C106_only_falls`, `C106_most_on_a_rise`, `C106_most_on_a_fall`, `C106_trades_without_limit` | none |
| C107 | `C107_average_on_a_rise`, `C107_average_on_a_fall`, `C107_channel_on_a_rise`, `C107_channel_on_a_fall` | none |
| C108 | `C108_same_every_day`, `C108_ultimate_oscillator`, `C108_money_flow`, `C108_momentum`, `C108_price_rate_of_change`, `C108_volume_rate_of_change`, `C108_performance`, `C108_vertical_horizontal_filter` | none |
| C109 | `C109_holds` | none |
| C110 | `C110_averages`, `C110_chande_momentum`, `C110_relative_strength`, `C110_relative_momentum`, `C110_vertical_horizontal`, `C110_on_balance_volume`, `C110_williams_accumulation`, `C110_directional_movement` | none |
| C111 | `C111_averages`, `C111_on_balance_volume`, `C111_oscillators_hold`, `C111_directional_movement_holds` | none |
| C112 | `C112_averages_on_a_rise`, `C112_averages_on_a_fall`, `C112_volume_on_a_rise`, `C112_volume_on_a_fall` | none |
| C113 | `C113_rests_on_values`, `C113_nothing_shown`, `C113_no_trade`, `C113_williams_refuted`, `C113_range_indicator_refuted` | none |
| C114 | `C114_trades_stand_alone`, `C114_fewer_signals`, `C114_fewer_signals_reported`, `C114_limit_refuted`, `C114_balance_refuted` | none |
| C115 | `C115_wider_bands`, `C115_fewer_signals`, `C115_earnings`, `C115_limit_refuted` | none |
| C116 | `C116_books`, `C116_only_buys`, `C116_only_sells`, `C116_reported`, `C116_reported_flat`, `C116_balance_refuted` | none |
| C117 | `C117_range_of_earnings`, `C117_trades` | none |
| C118 | `C118_turned`, `C118_reported`, `C118_limit_refuted` | none |
| C119 | `C119_cut`, `C119_limit_refuted` | none |
| C120 | `C120_idle_day`, `C120_price_stays`, `C120_price_stays_reported`, `C120_idle_day_reported`, `C120_earning_day_refuted`, `C120_first_day_refuted` | none |
| C121 | `C121_every_day`, `C121_opposite`, `C121_same_earnings` | none |
| C122 | `C122_every_day`, `C122_books`, `C122_same_signals`, `C122_same_earnings`, `C122_envelope_refuted`, `C122_limit_refuted` | none |
| C123 | `C123_advice_now`, `C123_advice_of_a_day`, `C123_simulations`, `C123_rewritten_history`, `C123_on_balance_volume`, `C123_every_advice_refuted` | none |
| C124 | `C124_resume`, `C124_reported`, `C124_old_history`, `C124_open_position_refuted` | none |
| C125 | `C125_values`, `C125_advice`, `C125_simulations`, `C125_cycle_of_values`, `C125_cycle_of_advice`, `C125_every_value_refuted` | none |
| C126 | `C126_on_balance_volume`, `C126_price_and_volume_trend`, `C126_negative_volume_index`, `C126_positive_volume_index`, `C126_averages_settle` | none |
| C127 | `C127_prices_and_signals`, `C127_market`, `C127_open_position_refuted` | none |
| C128 | `C128_prices_and_signals`, `C128_market`, `C128_first_cycle_refuted` | none |

## 4. Findings

Each finding is a theorem `…_refuted` with a witness evaluated in the kernel, unless another theorem is named.

### Input handling
* The constructor lower-cases the column labels of the caller's DataFrame in place (`C04_labels_untouched_refuted`).
* Labels that differ only in case and are not required make validation raise KeyError, an undocumented error
  (`C03_duplicate_labels_refuted`).
* fill_missing_values=False is ignored by ChaikinOscillator, TimeSeriesForecast and MovingAverage("time_series"): they build
  another indicator with the default flag (`C07_no_fill_refuted`, `C07_flag_ignored`).
* A missing first day is filled from the future, so later data change history (`C13_filling_refuted`).
* With rows of the same date the order of the rows matters; getTiValue of a repeated date returns the column names
  (`C10_repeated_date_refuted`).

### Constructors and errors
* VolumeOscillator blames the parameter "long_period " (with a blank), which does not exist
  (`C08_volume_oscillator_name_refuted`).
* AverageTrueRange reports a minimum number of rows that is not the real one (`C09_atr_minimum_refuted`).
* MarketFacilitationIndex and others document NotEnoughInputData but never raise it (`min_rows` in `ApiSpec.v`; C09).
* DetrendedPriceOscillator drops the last period/2+1 days from its data (`C11_dpo_drops_days_refuted`); the simulation
  therefore leaves them empty (`C16_dpo_refuted`, `C71_dpo_refuted`).

### Look-ahead
* FibonacciRetracement takes its levels from the whole history (`C13_fibonacci_refuted`), so the simulation trades on
  prices of the future (`C15_fibonacci_refuted`).
* DetrendedPriceOscillator subtracts an average of later days (`C13_dpo_refuted`).
* AccumulationDistributionLine is converted to integers only if no day has high = low: one later day changes
  all earlier values (`C13_adl_refuted`).

### Signals
* RangeIndicator raises IndexError when no value was ever below 20 (`C12_range_indicator_refuted`,
  `C68_range_indicator_always_answers_refuted`); MedianPrice(period=1) raises for a single row
  (`C12_median_price_refuted`), so it can never be simulated (`C12_median_price_never_simulates`).  After such an exception
  the indicator keeps the truncated data (`C14_exception_refuted`).
* UltimateOscillator never sells, and buys without any value below 30: `.all() < 30` compares a truth value with 30
  (`C55_never_sells`, `C55_buy_needs_a_low_refuted`).
* IchimokuCloud: a missing cloud counts as below the price, and a price on the border of the cloud as below it
  (`C56_buy_needs_a_cloud_refuted`, `C56_sell_below_the_cloud_refuted`).
* AverageTrueRange, StandardDeviation and TypicalPrice compare with the first input column, whatever it is
  (`C66_average_true_range`, `C66_standard_deviation`, `C66_typical_price`, `C02_column_order_refuted`).
* MassIndex: the condition that the value is back below 26.5 is disabled by `if True or …` (`C68_mass_index`).
* AccumulationDistributionLine looks only at the sign of the line and at whether the price moved
  (`C68_accumulation_distribution`).
* StochasticOscillator "crosses" compares only today's side and the direction of %K (`C68_stochastic`).

### Values
* RelativeMomentumIndex is missing when there are no losses, where the RSI is 100 (`C61_relative_momentum`,
  `C61_relative_strength`).
* RSI rounds gains and losses before dividing: it depends on the currency unit (`C50_relative_strength_refuted`).
* WilliamsAccumulationDistribution publishes the value of the day, not the running total
  (`C64_williams_total_refuted`).
* The directional movement lines start from the sum of 13, not 14, values (`C63_directional_lines`).
* The Klinger oscillator computes |2(dm/cm) - 1|, and the swing index uses another R than Wilder's (`C64_klinger`,
  `C63_swing_index`).
* LinearRegressionIndicator treats missing closes as 0; LinearRegressionSlope accepts period 1 and is then missing (C47).
* The variable moving average is missing on a constant price (`C53_variable_average_refuted`); the time-series average
  leaves the range of the prices (`C44_time_series_refuted`).
* Recursively smoothed and cumulative columns never forget the start of the data: a single extreme day changes
  them weeks later (`C74_every_column_refuted`, 35 columns).
* Envelopes are upside down for negative prices (`C43_negative_prices_refuted`).
* Filling a missing low or close pushes the stochastic and %R out of their range (`C31_filled_refuted`,
  `C32_filled_refuted`); missing closes do so for SMI and DMI without filling (`C33_missing_close_refuted`,
  `C35_missing_close_refuted`); closes with more than four decimals do so for the projection oscillator
  (`C41_fine_prices_refuted`).
* Parabolic SAR: on an outside day the new stop lies inside the price range, and the stop can fall in a rising trend on the
  next day (`C49_stop_below_the_low_refuted`, `C49_stop_never_falls_while_rising_refuted`).

### Simulation
* A signal on the first day is counted as ignored although no limit was reached
  (`C23_ignored_because_of_limit_refuted`).
* NaN is accepted for max_exposure and short_exposure_factor, and switches the limit off (`C24_nan_refuted`,
  `C21_nan_limit_refuted`); negative prices break the limit (`C21_negative_prices_refuted`).
* In binary64: exposure is not exactly 0 when nothing is open and can be negative, a short is not always
  closed when the price fell, the earnings can fall (`C58_zero_exposure_refuted`,
  `C58_exposure_not_negative_refuted`, `C58_short_closed_when_price_fell_refuted`, `C58_earnings_never_fall_refuted`).
  The limit itself holds (`C58_exposure_limit`).

### Graphs
* DirectionalMovementIndex has five alphas for six lines: its last line is as faint as the price
  (`C70_indicator_lines_opaque_refuted`); RelativeVolatilityIndex uses one colour in both plots
  (`C70_colors_across_plots_refuted`).

### Messages
* Envelopes reports a wrong shift with the value (or type) of the period (`C72_envelopes_refuted`,
  `C72_envelopes`); VolumeOscillator names a parameter `long_period ` with a space (`C72_volume_oscillator_refuted`).
* The texts are built by successive replacements: a value that contains `<p_name>` or `<p_supported>` is overwritten
  (`C72_marked_value_refuted`).
* AverageTrueRange asks for 2 rows when 14 are needed (`C73_average_true_range_refuted`).

### Very large prices
* Prices near the largest float overflow inside %K and inside the rounding to four decimals
  (`C77_stochastic_k_refuted`, `C77_round_large_refuted`).


### Last decimal
* Halves of a unit of the fourth decimal: the published float can differ from the correctly rounded value by one unit,
  e.g. the median price of 10.0012 and 10.0011 (`C78_last_decimal_refuted`).

### Rise and fall treated differently
* RelativeMomentumIndex is missing after rises without a fall, but 0 after falls without a rise
  (`C80_relative_momentum_refuted`); KlingerOscillator counts an unchanged typical price as a fall
  (`C80_klinger_tie_refuted`); the parabolic SAR starts with a rise whenever the second high is higher, also when the
  second low is lower (`C80_parabolic_start_refuted`).
* DoubleExponentialMovingAverage, MovingAverage and TypicalPrice never sell (`C81_one_sided_refuted`); the stochastic
  sells when one line leaves the top and the other the bottom (`C81_stochastic_refuted`).

### Missing prices, filling off
* One missing price leaves WildersSmoothing, RelativeMomentumIndex, PriceAndVolumeTrend, DirectionalMovementIndex and the
  variable moving average missing to the end of the data, and the parabolic SAR after a day without high and low
  (`C83_lost_for_good`, `C83_parabolic_sar`).
* LinearRegressionIndicator and CommodityChannelIndex count a missing price as 0 (`C84_regression_counts_zero`,
  `C84_channel_counts_zero`).
* RelativeStrengthIndex and OnBalanceVolume lose the move across a gap (`C84_strength_counts_nothing`, `C84_volume_waits`).
* 21 columns publish a number for a day without any price (`C82_every_column_refuted`).

### A higher close, a lower value
* The MACD is the difference of two averages that are rounded before: a close of 10.0007 instead of 10.0006 lowers it from
  0.0001 to 0.0000 (`C90_macd_refuted`); never by more than 0.0001 (`C90_macd`).

### The simulation programs
* run_single_simulation.py recognises a decimal fraction only with exactly one digit after the point (the pattern
  `^[0-9]*\.[0-9]]*$` has one bracket too many): `target=0.05` and `shift=0.10`, the documented defaults, reach the
  constructor as texts and are refused with a WrongTypeForInputParameter (`C92_refuted`, `C92_decimals_are_text`).
  A text such as `1.5]` is taken for a number and ends in a ValueError, as does an empty value; an argument without `=`
  ends in an IndexError.
* Negative numbers are passed on as texts, so Performance with mode SHORT can be run from there only with target 0
  (`C92_no_negative_number`); `fill_missing_values=False` and `=True` never work (`C92_no_flag`).
* run_all_simulation.py stops with an IndexError at RangeIndicator on ordinary data (`C93_refuted`), which leaves the
  indicators after it in the alphabet without a report; on all other daily data of 55 rows it runs to the end.

### Units of money and volume
* RangeIndicator adds and compares ranges in money with ratios, and SwingIndex multiplies by an amount of money divided by a
  fixed limit move of 3 and then cuts at 100: both are published as indexes but change with the currency
  (`C94_range_indicator_refuted`, `C94_swing_index_refuted`).
* ChaikinOscillator starts from the accumulation/distribution line cut to whole shares, so a market with small volumes
  gets other values than the same market in smaller units (`C94_chaikin_refuted`).
* Lines are rounded to four decimals before prices are compared with them: at prices far below a cent the signal of a
  moving average is not the one of the same prices in a smaller unit (`C95_rounded_line_refuted`). StandardDeviation
  compares an amount of money with the number 2, whatever the price level (`C95_money_level_refuted`).

### Running sums in binary64
* pandas' running sum is compensated but does not forget: after a price about 10^13 times the others has left the window, the
  moving average stays off by up to its rounding error. With prices 0.7788, 897200000000, 0.5098, 18520000000000, 0.3423,
  0.1370 the two-day average of the last row is published as 0.2377, the exact one is 0.23965 (`C96_any_size_refuted`).

### Signals in binary64
* A moving average is rounded to four decimals before the close is compared with it, and ties are rounded differently in
  binary64: after closes of 10.0041 and 10.0042 the two-day average is published as 10.0041 instead of 10.0042 and the
  signal is buy instead of hold (`C97_any_signal_refuted`).

### Simulations in binary64
* A limit that is reached exactly may be missed by one unit in the last place: with a factor of 1.5 and a limit of 0.75,
  a sale at 0.4 while 0.15 is open asks for an exposure of exactly 0.75; the simulator finds more and ignores the signal
  (`C98_at_the_limit_refuted`).

### The limit is not monotone
* A higher `max_exposure` can ignore more signals and earn less: with a limit of 10 instead of 9 a purchase at 10 goes
  through and blocks the later purchases at 5 and 4 (`C99_higher_limit_refuted`). A smaller `short_exposure_factor` can
  end with a lower balance (`C99_smaller_factor_refuted`).

### Columns that are not stable
* RSI, CMO, Williams %R, %K and the parabolic SAR are discontinuous in the prices: when the range or the sum of the moves
  is tiny they can go from one end of their scale to the other although no price changed by more than one millionth
  (`C100_other_columns_refuted`).

### Oscillators of a basket
* RSI, CMO, VHF, Williams %R and %K of a basket need not lie between those of its members: two securities with an RSI of
  60 each make a basket with an RSI of 100 (`C103_oscillators_refuted`).

### A market that moves along a straight line
* The commodity channel index does not depend on how fast the market moves: 111.11 with the default period of 5 for any
  steady rise.  So with the default period the signal is sell on every day of every steady rise and buy on every day of
  every steady fall (`C105_channel_sells_the_rise`, `C105_channel_buys_the_fall`).
* With an even period the detrended price oscillator compares the price with an average centred one and a half days away,
  with an odd period one day (`C104_detrended_price`): on a steady rise it is below zero, not zero.
* The relative momentum index is missing (not 100) on a steady rise (`C104_relative_momentum`).

### Simulations on a straight line
* The simulation of the commodity channel index with its default period opens a position against the market every day of a
  steady rise or fall and never closes one (`C107_channel_on_a_rise`, `C107_channel_on_a_fall`).  The balance shown is
  positive on the fall and negative on the rise, because it counts what open positions are worth and not what they cost.

### A market that only rises or only falls
* On balance volume sells on every day of a rise and buys on every day of a fall, from the third day on, however the market
  moves; its simulation then piles up losing positions and never closes one (`C111_on_balance_volume`,
  `C112_volume_on_a_rise`, `C112_volume_on_a_fall`).
* The relative momentum index has no value at all as long as the market only rises (`C110_relative_momentum`).

### Advice without values
* With filling off, Williams accumulation/distribution says buy on a day for which it publishes nothing, if the close is the
  lowest of thirty days: `min(...) != missing` is true (`C113_williams_refuted`; _williams_accumulation_distribution.py:105-114).
* With filling off, the range indicator says buy or sell on a day without a close: the `else` branch of a comparison with a
  missing number (`C113_range_indicator_refuted`; _range_indicator.py:176-191).

### Earnings cannot be used to choose a width or target
* Without a limit, `earnings` counts only trades closed at a profit and every trade stands for itself, so the narrowest
  Bollinger bands or envelopes, the shortest price channel and the nearest profit target always show the highest earnings,
  on every market (`C114_fewer_signals`, `C115_earnings`); what it costs shows only in the balance (`C114_balance_refuted`).
* With a limit an extra signal can use up the exposure a better one needs (`C114_limit_refuted`, `C115_limit_refuted`).

### Earnings and balance against the true profit
* The true profit of a simulation is earnings plus the (never positive) profit of the open positions (`C116_books`). The
  reported earnings leave the second part out: on one season of bars the envelopes report 23 while their positions lost 7
  (`C116_case_reported`). The reported balance adds the market value of open positions without their cost: on an unchanging
  market three buys at 10 show a balance of 30 (`C116_balance_refuted`; trading_simulation.py:338-360, 588-591).

### Positions that are never closed

- On a market that repeats itself a position that is not closed within one cycle is never closed, and the default of no exposure limit lets every cycle add another one: exposure then grows by the same amount every cycle, without bound (C128; four of the 25 indicators of `C128_tide_case`). With a limit, such a position can take the room of all later trades, so that the simulation stops earning (`C127_open_position_refuted`).


## 5. Trusted base

* Coq's kernel (and its virtual machine, used by `vm_compute`).
* The axioms `Print Assumptions` lists:
  * every theorem outside `PropsFloat.v`, `PropsFloatInd.v`, `PropsFloatAcc.v`, `PropsFloatEwm.v`, `PropsFloatRoll.v`, `PropsFloatSig.v` and `PropsFloatSim.v`: **Closed under the global context** (no axioms);
  * the theorems of `PropsFloat.v`, `PropsFloatInd.v`, `PropsFloatAcc.v`, `PropsFloatEwm.v`, `PropsFloatRoll.v`, `PropsFloatSig.v` and `PropsFloatSim.v` (all of C58, C77, C78, C79, C96, C97 and C98): `ClassicalDedekindReals.sig_not_dec`,
    `ClassicalDedekindReals.sig_forall_dec`, `FunctionalExtensionality.functional_extensionality_dep` and
    `Classical_Prop.classic`, all of the standard library.  They come with the real numbers Flocq's theorems are about.
  Libraries used: the standard library, and Flocq for the `Float*.v` and `PropsFloat*.v` files only.
* The transcription of the python code (cited line by line) and the reading of pandas, numpy, scipy and statsmodels in section 1.
* That the exact arithmetic of the model is the intended meaning of the code's floating point arithmetic (section 1), outside `FloatSim.v`, `FloatStat.v`, `FloatInd.v`, `FloatEwm.v`, `FloatRoll.v` and `FloatSignal.v`; for the indicators of C78, C79 and C96 this is proved up to the last published decimal, for the simulator up to the bound of C98.

The development has no axioms of its own, no `Admitted`, no functors or module types, and switches off no kernel check.

## 6. Wrong programs

The model is edited, in a copy, the way a bug would change the program (wrong boundary, missing case, swapped argument,
dropped update), the affected `Props` files are rebuilt, and the theorems that no longer hold are recorded in
`seeded/LOG.jsonl` (one line per edit).  An edit that falsifies a claim without failing a theorem led to a stronger theorem; the
`tightened` field names it.
