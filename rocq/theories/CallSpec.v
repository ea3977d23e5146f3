(** * CallSpec: the words for statements about calls of the constructors. *)
From Coq Require Import ZArith QArith Qcanon Bool String List PeanoNat.
From Verif Require Import Num Pandas Frame Sim Ind Signal Api Call.
Import ListNotations.
Open Scope list_scope. Open Scope string_scope.

(** the parameters and the defaults the docstrings of the classes name, besides input_data and
    "fill_missing_values (bool, default=True)" *)
Definition documented (k : klass) : list (string * pyval) :=
  match k with
  | kBB => [("period", VInt 20); ("std_number", VInt 2)]   (* _bollinger_bands.py *)
  | kCMF => [("period", VInt 5)]   (* _chaikin_money_flow.py *)
  | kCMO => [("period", VInt 5)]   (* _chande_momentum_oscillator.py *)
  | kCCI => [("period", VInt 5)]   (* _commodity_channel_index.py *)
  | kDPO => [("period", VInt 6)]   (* _detrended_price_oscillator.py *)
  | kDEMA => [("period", VInt 5)]   (* _double_exponential_moving_average.py *)
  | kEMV => [("period", VInt 40)]   (* _ease_of_movement.py *)
  | kENV => [("period", VInt 20); ("shift", VFloat (D 10 100))]   (* _envelopes.py *)
  | kFOSC => [("period", VInt 14)]   (* _forecast_oscillator.py *)
  | kIMI => [("period", VInt 14)]   (* _intraday_momentum_index.py *)
  | kLRI => [("period", VInt 14)]   (* _linear_regression_indicator.py *)
  | kLRS => [("period", VInt 14)]   (* _linear_regression_slope.py *)
  | kMP => [("period", VInt 20)]   (* _median_price.py *)
  | kMOM => [("period", VInt 12)]   (* _momentum.py *)
  | kMA => [("period", VInt 20); ("ma_type", VStr "simple")]   (* _moving_average.py *)
  | kPRF => [("mode", VStr "LONG"); ("target", VFloat (D 5 100))]   (* _performance.py *)
  | kPCH => [("period", VInt 5)]   (* _price_channel.py *)
  | kPOSC => [("long_ma", VInt 30); ("short_ma", VInt 10)]   (* _price_oscillator.py *)
  | kPRC => [("period", VInt 25)]   (* _price_rate_of_change.py *)
  | kPB => [("period", VInt 14)]   (* _projection_bands.py *)
  | kPROJ => [("period", VInt 14)]   (* _projection_oscillator.py *)
  | kQS => [("period", VInt 8)]   (* _qstick.py *)
  | kRI => [("range_period", VInt 5); ("smoothing_period", VInt 3)]   (* _range_indicator.py *)
  | kRMI => [("period", VInt 8); ("momentum_period", VInt 4)]   (* _relative_momentum_index.py *)
  | kRSI => [("period", VInt 14)]   (* _relative_strength_index.py *)
  | kRVI => [("period", VInt 5)]   (* _relative_volatility_index.py *)
  | kSD => [("period", VInt 20)]   (* _standard_deviation.py *)
  | kSMI => [("period", VInt 5); ("smoothing_period", VInt 3); ("double_smoothing_period", VInt 3)]   (* _stochastic_momentum_index.py *)
  | kSO => [("k_periods", VInt 14); ("k_slowing_periods", VInt 1); ("d_periods", VInt 3); ("d_method", VStr "simple")]   (* _stochastic_oscillator.py *)
  | kTSF => [("period", VInt 14)]   (* _time_series_forecast.py *)
  | kTEMA => [("period", VInt 5)]   (* _triple_exponential_moving_average.py *)
  | kTP => [("period", VInt 200)]   (* _typical_price.py *)
  | kVHF => [("period", VInt 5)]   (* _vertical_horizontal_filter.py *)
  | kVCH => [("ema_period", VInt 10); ("change_period", VInt 10)]   (* _volatility_chaikins.py *)
  | kVOSC => [("long_period", VInt 5); ("short_period", VInt 2)]   (* _volume_oscillator.py *)
  | kVRC => [("period", VInt 5)]   (* _volume_rate_of_change.py *)
  | kWS => [("period", VInt 5)]   (* _wilders_smoothing.py *)
  | kWR => [("period", VInt 5)]   (* _williams_r.py *)
  | _ => []
  end.
Definition documented_names (k : klass) : list string :=
  "input_data" :: map fst (documented k) ++ ["fill_missing_values"].
Definition documented_default (k : klass) (n : string) : option pyval :=
  lookup n (documented k ++ [("fill_missing_values", VBool true)]).

(** the class and the values of the parameters of a constructor call *)
Definition parts (c : ctor) : klass * list pyval :=
  match c with
  | cADL => (kADL, [])
  | cATR => (kATR, [])
  | cBB a b => (kBB, [a; b])
  | cCMF a => (kCMF, [a])
  | cCO => (kCO, [])
  | cCMO a => (kCMO, [a])
  | cCCI a => (kCCI, [a])
  | cDPO a => (kDPO, [a])
  | cDMI => (kDMI, [])
  | cDEMA a => (kDEMA, [a])
  | cEMV a => (kEMV, [a])
  | cENV a b => (kENV, [a; b])
  | cFIB => (kFIB, [])
  | cFOSC a => (kFOSC, [a])
  | cICH => (kICH, [])
  | cIMI a => (kIMI, [a])
  | cKO => (kKO, [])
  | cLRI a => (kLRI, [a])
  | cLRS a => (kLRS, [a])
  | cMFI => (kMFI, [])
  | cMI => (kMI, [])
  | cMP a => (kMP, [a])
  | cMOM a => (kMOM, [a])
  | cMA a b => (kMA, [a; b])
  | cMACD => (kMACD, [])
  | cNVI => (kNVI, [])
  | cOBV => (kOBV, [])
  | cPSAR => (kPSAR, [])
  | cPRF a b => (kPRF, [a; b])
  | cPVI => (kPVI, [])
  | cPVT => (kPVT, [])
  | cPCH a => (kPCH, [a])
  | cPOSC a b => (kPOSC, [a; b])
  | cPRC a => (kPRC, [a])
  | cPB a => (kPB, [a])
  | cPROJ a => (kPROJ, [a])
  | cQS a => (kQS, [a])
  | cRI a b => (kRI, [a; b])
  | cRMI a b => (kRMI, [a; b])
  | cRSI a => (kRSI, [a])
  | cRVI a => (kRVI, [a])
  | cSD a => (kSD, [a])
  | cSMI a b c => (kSMI, [a; b; c])
  | cSO a b c d => (kSO, [a; b; c; d])
  | cSWI => (kSWI, [])
  | cTSF a => (kTSF, [a])
  | cTEMA a => (kTEMA, [a])
  | cTP a => (kTP, [a])
  | cUO => (kUO, [])
  | cVHF a => (kVHF, [a])
  | cVCH a b => (kVCH, [a; b])
  | cVOSC a b => (kVOSC, [a; b])
  | cVRC a => (kVRC, [a])
  | cWC => (kWC, [])
  | cWS a => (kWS, [a])
  | cWAD => (kWAD, [])
  | cWR a => (kWR, [a])
  end.

(** the arguments given, by position and by name *)
Definition given (k : klass) (pos : list arg) (kw : list (string * arg)) : list (string * arg) :=
  combine (documented_names k) pos ++ kw.
(** a call python accepts: no more positions than parameters, no name twice, no unknown
    name, and data *)
Definition proper (k : klass) (pos : list arg) (kw : list (string * arg)) : Prop :=
  (List.length pos <= List.length (documented_names k))%nat /\
  NoDup (map fst (given k pos kw)) /\
  (forall n, In n (map fst kw) -> In n (documented_names k)) /\
  In "input_data" (map fst (given k pos kw)).
(** the value a parameter has: the one given, else the documented one *)
Definition setting (k : klass) (g : list (string * arg)) (n : string) : arg :=
  match lookup n g with
  | Some a => a
  | None => match documented_default k n with Some v => AVal v | None => AVal VNone end
  end.

(** how many rows the class needs with the documented defaults *)
Definition rows_by_default (k : klass) : nat :=
  match k with
  | kADL | kFIB | kICH | kMFI | kMP | kOBV | kPRF | kSWI | kTP | kWC | kWAD => 1
  | kNVI | kPSAR | kPVI | kPVT => 2
  | kCMF | kCMO | kCCI | kDEMA | kPCH | kRI | kSMI | kTEMA | kVHF | kVOSC | kVRC | kWS | kWR => 5
  | kDPO => 6 | kQS => 8 | kCO | kVCH => 10 | kRMI | kMOM => 12
  | kATR | kFOSC | kIMI | kLRI | kLRS | kPB | kPROJ | kTSF | kSO => 14 | kRSI | kRVI => 15
  | kBB | kENV | kMA | kSD => 20
  | kMI | kPRC => 25 | kMACD => 26 | kDMI | kUO => 28 | kPOSC => 30 | kEMV => 40 | kKO => 55
  end%nat.
