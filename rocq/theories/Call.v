(** * Call: the constructors as they are called, with arguments by position or by keyword.

    Models the signatures of the 57 classes of tti/indicators/__init__.py:8-64 and python's
    binding of arguments to parameters.  Not modelled: the texts of python's TypeErrors. *)
From Coq Require Import ZArith QArith Qcanon Bool String List PeanoNat.
From Verif Require Import Num Pandas Frame Sim Ind Signal Api.
Import ListNotations.
Open Scope list_scope. Open Scope string_scope.

(** the classes, in the order of the imports, which is the order of their names *)
Inductive klass :=
| kADL | kATR | kBB | kCMF | kCO | kCMO | kCCI | kDPO | kDMI | kDEMA | kEMV | kENV | kFIB | kFOSC
| kICH | kIMI | kKO | kLRI | kLRS | kMFI | kMI | kMP | kMOM | kMA | kMACD | kNVI | kOBV | kPSAR
| kPRF | kPVI | kPVT | kPCH | kPOSC | kPRC | kPB | kPROJ | kQS | kRI | kRMI | kRSI | kRVI | kSD
| kSMI | kSO | kSWI | kTSF | kTEMA | kTP | kUO | kVHF | kVCH | kVOSC | kVRC | kWC | kWS | kWAD
| kWR.
Definition name_of (k : klass) : string :=
  match k with
  | kADL => "AccumulationDistributionLine"
  | kATR => "AverageTrueRange"
  | kBB => "BollingerBands"
  | kCMF => "ChaikinMoneyFlow"
  | kCO => "ChaikinOscillator"
  | kCMO => "ChandeMomentumOscillator"
  | kCCI => "CommodityChannelIndex"
  | kDPO => "DetrendedPriceOscillator"
  | kDMI => "DirectionalMovementIndex"
  | kDEMA => "DoubleExponentialMovingAverage"
  | kEMV => "EaseOfMovement"
  | kENV => "Envelopes"
  | kFIB => "FibonacciRetracement"
  | kFOSC => "ForecastOscillator"
  | kICH => "IchimokuCloud"
  | kIMI => "IntradayMomentumIndex"
  | kKO => "KlingerOscillator"
  | kLRI => "LinearRegressionIndicator"
  | kLRS => "LinearRegressionSlope"
  | kMFI => "MarketFacilitationIndex"
  | kMI => "MassIndex"
  | kMP => "MedianPrice"
  | kMOM => "Momentum"
  | kMA => "MovingAverage"
  | kMACD => "MovingAverageConvergenceDivergence"
  | kNVI => "NegativeVolumeIndex"
  | kOBV => "OnBalanceVolume"
  | kPSAR => "ParabolicSAR"
  | kPRF => "Performance"
  | kPVI => "PositiveVolumeIndex"
  | kPVT => "PriceAndVolumeTrend"
  | kPCH => "PriceChannel"
  | kPOSC => "PriceOscillator"
  | kPRC => "PriceRateOfChange"
  | kPB => "ProjectionBands"
  | kPROJ => "ProjectionOscillator"
  | kQS => "Qstick"
  | kRI => "RangeIndicator"
  | kRMI => "RelativeMomentumIndex"
  | kRSI => "RelativeStrengthIndex"
  | kRVI => "RelativeVolatilityIndex"
  | kSD => "StandardDeviation"
  | kSMI => "StochasticMomentumIndex"
  | kSO => "StochasticOscillator"
  | kSWI => "SwingIndex"
  | kTSF => "TimeSeriesForecast"
  | kTEMA => "TripleExponentialMovingAverage"
  | kTP => "TypicalPrice"
  | kUO => "UltimateOscillator"
  | kVHF => "VerticalHorizontalFilter"
  | kVCH => "VolatilityChaikins"
  | kVOSC => "VolumeOscillator"
  | kVRC => "VolumeRateOfChange"
  | kWC => "WeightedClose"
  | kWS => "WildersSmoothing"
  | kWAD => "WilliamsAccumulationDistribution"
  | kWR => "WilliamsR"
  end.
Definition classes : list klass :=
  [kADL; kATR; kBB; kCMF; kCO; kCMO; kCCI; kDPO; kDMI; kDEMA; kEMV; kENV; kFIB; kFOSC; kICH; kIMI;
   kKO; kLRI; kLRS; kMFI; kMI; kMP; kMOM; kMA; kMACD; kNVI; kOBV; kPSAR; kPRF; kPVI; kPVT; kPCH;
   kPOSC; kPRC; kPB; kPROJ; kQS; kRI; kRMI; kRSI; kRVI; kSD; kSMI; kSO; kSWI; kTSF; kTEMA; kTP; kUO;
   kVHF; kVCH; kVOSC; kVRC; kWC; kWS; kWAD; kWR].

(** the parameters between input_data and fill_missing_values, with their defaults *)
Definition signature (k : klass) : list (string * pyval) :=
  match k with
  | kADL => []   (* _accumulation_distribution_line.py:44 *)
  | kATR => []   (* _average_true_range.py:45 *)
  | kBB => [("period", VInt 20); ("std_number", VInt 2)]   (* _bollinger_bands.py:55 *)
  | kCMF => [("period", VInt 5)]   (* _chaikin_money_flow.py:52 *)
  | kCO => []   (* _chaikin_oscillator.py:46 *)
  | kCMO => [("period", VInt 5)]   (* _chande_momentum_oscillator.py:51 *)
  | kCCI => [("period", VInt 5)]   (* _commodity_channel_index.py:52 *)
  | kDPO => [("period", VInt 6)]   (* _detrended_price_oscillator.py:51 *)
  | kDMI => []   (* _directional_movement_index.py:47 *)
  | kDEMA => [("period", VInt 5)]   (* _double_exponential_moving_average.py:51 *)
  | kEMV => [("period", VInt 40)]   (* _ease_of_movement.py:53 *)
  | kENV => [("period", VInt 20); ("shift", VFloat (D 10 100))]   (* _envelopes.py:54 *)
  | kFIB => []   (* _fibonacci_retracement.py:45 *)
  | kFOSC => [("period", VInt 14)]   (* _forecast_oscillator.py:52 *)
  | kICH => []   (* _ichimoku_cloud.py:45 *)
  | kIMI => [("period", VInt 14)]   (* _intraday_momentum_index.py:52 *)
  | kKO => []   (* _klinger_oscillator.py:45 *)
  | kLRI => [("period", VInt 14)]   (* _linear_regression_indicator.py:54 *)
  | kLRS => [("period", VInt 14)]   (* _linear_regression_slope.py:51 *)
  | kMFI => []   (* _market_facilitation_index.py:44 *)
  | kMI => []   (* _mass_index.py:45 *)
  | kMP => [("period", VInt 20)]   (* _median_price.py:48 *)
  | kMOM => [("period", VInt 12)]   (* _momentum.py:51 *)
  | kMA => [("period", VInt 20); ("ma_type", VStr "simple")]   (* _moving_average.py:62 *)
  | kMACD => []   (* _moving_average_convergence_divergence.py:46 *)
  | kNVI => []   (* _negative_volume_index.py:45 *)
  | kOBV => []   (* _on_balance_volume.py:44 *)
  | kPSAR => []   (* _parabolic_sar.py:45 *)
  | kPRF => [("mode", VStr "LONG"); ("target", VFloat (D 5 100))]   (* _performance.py:55 *)
  | kPVI => []   (* _positive_volume_index.py:45 *)
  | kPVT => []   (* _price_and_volume_trend.py:45 *)
  | kPCH => [("period", VInt 5)]   (* _price_channel.py:53 *)
  | kPOSC => [("long_ma", VInt 30); ("short_ma", VInt 10)]   (* _price_oscillator.py:52 *)
  | kPRC => [("period", VInt 25)]   (* _price_rate_of_change.py:51 *)
  | kPB => [("period", VInt 14)]   (* _projection_bands.py:56 *)
  | kPROJ => [("period", VInt 14)]   (* _projection_oscillator.py:54 *)
  | kQS => [("period", VInt 8)]   (* _qstick.py:52 *)
  | kRI => [("range_period", VInt 5); ("smoothing_period", VInt 3)]   (* _range_indicator.py:55 *)
  | kRMI => [("period", VInt 8); ("momentum_period", VInt 4)]   (* _relative_momentum_index.py:54 *)
  | kRSI => [("period", VInt 14)]   (* _relative_strength_index.py:51 *)
  | kRVI => [("period", VInt 5)]   (* _relative_volatility_index.py:52 *)
  | kSD => [("period", VInt 20)]   (* _standard_deviation.py:49 *)
  | kSMI => [("period", VInt 5); ("smoothing_period", VInt 3); ("double_smoothing_period", VInt 3)]   (* _stochastic_momentum_index.py:58 *)
  | kSO => [("k_periods", VInt 14); ("k_slowing_periods", VInt 1); ("d_periods", VInt 3); ("d_method", VStr "simple")]   (* _stochastic_oscillator.py:66 *)
  | kSWI => []   (* _swing_index.py:44 *)
  | kTSF => [("period", VInt 14)]   (* _time_series_forecast.py:53 *)
  | kTEMA => [("period", VInt 5)]   (* _triple_exponential_moving_average.py:51 *)
  | kTP => [("period", VInt 200)]   (* _typical_price.py:48 *)
  | kUO => []   (* _ultimate_oscillator.py:45 *)
  | kVHF => [("period", VInt 5)]   (* _vertical_horizontal_filter.py:53 *)
  | kVCH => [("ema_period", VInt 10); ("change_period", VInt 10)]   (* _volatility_chaikins.py:57 *)
  | kVOSC => [("long_period", VInt 5); ("short_period", VInt 2)]   (* _volume_oscillator.py:54 *)
  | kVRC => [("period", VInt 5)]   (* _volume_rate_of_change.py:51 *)
  | kWC => []   (* _weighted_close.py:44 *)
  | kWS => [("period", VInt 5)]   (* _wilders_smoothing.py:51 *)
  | kWAD => []   (* _williams_accumulation_distribution.py:45 *)
  | kWR => [("period", VInt 5)]   (* _williams_r.py:53 *)
  end.

(** what a constructor does with its parameters *)
Definition body (k : klass) (v : string -> pyval) : ctor :=
  match k with
  | kADL => cADL
  | kATR => cATR
  | kBB => cBB (v "period") (v "std_number")
  | kCMF => cCMF (v "period")
  | kCO => cCO
  | kCMO => cCMO (v "period")
  | kCCI => cCCI (v "period")
  | kDPO => cDPO (v "period")
  | kDMI => cDMI
  | kDEMA => cDEMA (v "period")
  | kEMV => cEMV (v "period")
  | kENV => cENV (v "period") (v "shift")
  | kFIB => cFIB
  | kFOSC => cFOSC (v "period")
  | kICH => cICH
  | kIMI => cIMI (v "period")
  | kKO => cKO
  | kLRI => cLRI (v "period")
  | kLRS => cLRS (v "period")
  | kMFI => cMFI
  | kMI => cMI
  | kMP => cMP (v "period")
  | kMOM => cMOM (v "period")
  | kMA => cMA (v "period") (v "ma_type")
  | kMACD => cMACD
  | kNVI => cNVI
  | kOBV => cOBV
  | kPSAR => cPSAR
  | kPRF => cPRF (v "mode") (v "target")
  | kPVI => cPVI
  | kPVT => cPVT
  | kPCH => cPCH (v "period")
  | kPOSC => cPOSC (v "long_ma") (v "short_ma")
  | kPRC => cPRC (v "period")
  | kPB => cPB (v "period")
  | kPROJ => cPROJ (v "period")
  | kQS => cQS (v "period")
  | kRI => cRI (v "range_period") (v "smoothing_period")
  | kRMI => cRMI (v "period") (v "momentum_period")
  | kRSI => cRSI (v "period")
  | kRVI => cRVI (v "period")
  | kSD => cSD (v "period")
  | kSMI => cSMI (v "period") (v "smoothing_period") (v "double_smoothing_period")
  | kSO => cSO (v "k_periods") (v "k_slowing_periods") (v "d_periods") (v "d_method")
  | kSWI => cSWI
  | kTSF => cTSF (v "period")
  | kTEMA => cTEMA (v "period")
  | kTP => cTP (v "period")
  | kUO => cUO
  | kVHF => cVHF (v "period")
  | kVCH => cVCH (v "ema_period") (v "change_period")
  | kVOSC => cVOSC (v "long_period") (v "short_period")
  | kVRC => cVRC (v "period")
  | kWC => cWC
  | kWS => cWS (v "period")
  | kWAD => cWAD
  | kWR => cWR (v "period")
  end.

(** ** python's calls *)
(** an argument: data or another value; data where a number or a string is meant is an
    object of another type, and the other way round *)
Inductive arg := AData (v : rawval) | AVal (p : pyval).
Definition as_data (a : arg) : rawval := match a with AData v => v | AVal _ => RNotFrame end.
Definition as_val (a : arg) : pyval := match a with AData _ => VOther | AVal p => p end.

Fixpoint lookup {A} (n : string) (l : list (string * A)) : option A :=
  match l with [] => None | (m, a) :: r => if String.eqb n m then Some a else lookup n r end.

(** parameters of __init__ after self: name and default *)
Definition formals (k : klass) : list (string * option pyval) :=
  ("input_data", None) :: map (fun p => (fst p, Some (snd p))) (signature k) ++ [("fill_missing_values", Some (VBool true))].

(** positional arguments take the names in order; too many of them: TypeError *)
Fixpoint by_position (names : list string) (pos : list arg) : res (list (string * arg)) :=
  match pos, names with
  | [], _ => Ok []
  | a :: p, n :: r => do l <- by_position r p; Ok ((n, a) :: l)
  | _ :: _, [] => Err TypeErr
  end.
(** keyword arguments: an unexpected name or a second value for a name: TypeError *)
Fixpoint by_keyword (names : list string) (kw bound : list (string * arg)) : res (list (string * arg)) :=
  match kw with
  | [] => Ok bound
  | (n, a) :: r =>
      if mem n names then match lookup n bound with
                          | Some _ => Err TypeErr
                          | None => by_keyword names r ((n, a) :: bound)
                          end
      else Err TypeErr
  end.
(** every parameter without a default needs an argument *)
Fixpoint with_defaults (formals : list (string * option pyval)) (bound : list (string * arg)) : res (list (string * arg)) :=
  match formals with
  | [] => Ok []
  | (n, d) :: r =>
      do l <- with_defaults r bound;
      match lookup n bound, d with
      | Some a, _ => Ok ((n, a) :: l)
      | None, Some v => Ok ((n, AVal v) :: l)
      | None, None => Err TypeErr
      end
  end.
Definition arguments (k : klass) (pos : list arg) (kw : list (string * arg)) : res (list (string * arg)) :=
  let names := map fst (formals k) in
  do b <- by_position names pos;
  do b' <- by_keyword names kw b;
  with_defaults (formals k) b'.

(** a call of the class with these arguments.  Err: the call itself failed; otherwise the result of the
    constructor, as [construct] *)
Definition new (o : oracle) (k : klass) (pos : list arg) (kw : list (string * arg)) : res (rawval * res obj) :=
  do l <- arguments k pos kw;
  let get n := match lookup n l with Some a => a | None => AVal VNone end in
  Ok (construct o (body k (fun n => as_val (get n))) (as_data (get "input_data")) (as_val (get "fill_missing_values"))).
