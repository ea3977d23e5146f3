(** * DocSpec: the input columns each class documents ("Required input columns are ..."),
    copied from the docstrings in /repo/tti/indicators. *)
From Coq Require Import List String.
From Verif Require Import Frame FrameSpec Ind Signal Api.
Import ListNotations.
Open Scope string_scope.

Definition documented_inputs (c : ctor) : list string :=
  match c with
  | cADL => ["high"; "low"; "close"; "volume"]                  (* _accumulation_distribution_line.py *)
  | cATR => ["high"; "low"; "close"]                            (* _average_true_range.py *)
  | cBB _ _ => ["close"]                                        (* _bollinger_bands.py *)
  | cCMF _ => ["high"; "low"; "close"; "volume"]                (* _chaikin_money_flow.py *)
  | cCO => ["high"; "low"; "close"; "volume"]                   (* _chaikin_oscillator.py *)
  | cCMO _ => ["close"]                                         (* _chande_momentum_oscillator.py *)
  | cCCI _ => ["high"; "low"; "close"]                          (* _commodity_channel_index.py *)
  | cDPO _ => ["close"]                                         (* _detrended_price_oscillator.py *)
  | cDMI => ["high"; "low"; "close"]                            (* _directional_movement_index.py *)
  | cDEMA _ => ["close"]                                        (* _double_exponential_moving_average.py *)
  | cEMV _ => ["high"; "low"; "volume"]                         (* _ease_of_movement.py *)
  | cENV _ _ => ["close"]                                       (* _envelopes.py *)
  | cFIB => ["close"]                                           (* _fibonacci_retracement.py *)
  | cFOSC _ => ["close"]                                        (* _forecast_oscillator.py *)
  | cICH => ["high"; "low"; "close"]                            (* _ichimoku_cloud.py *)
  | cIMI _ => ["open"; "close"]                                 (* _intraday_momentum_index.py *)
  | cKO => ["high"; "low"; "close"; "volume"]                   (* _klinger_oscillator.py *)
  | cLRI _ => ["close"]                                         (* _linear_regression_indicator.py *)
  | cLRS _ => ["close"]                                         (* _linear_regression_slope.py *)
  | cMFI => ["high"; "low"; "volume"]                           (* _market_facilitation_index.py *)
  | cMI => ["high"; "low"; "close"]                             (* _mass_index.py *)
  | cMP _ => ["high"; "low"; "close"]                           (* _median_price.py *)
  | cMOM _ => ["close"]                                         (* _momentum.py *)
  | cMA _ _ => ["close"]                                        (* _moving_average.py *)
  | cMACD => ["close"]                                          (* _moving_average_convergence_divergence.py *)
  | cNVI => ["close"; "volume"]                                 (* _negative_volume_index.py *)
  | cOBV => ["close"; "volume"]                                 (* _on_balance_volume.py *)
  | cPSAR => ["high"; "low"; "close"]                           (* _parabolic_sar.py *)
  | cPRF _ _ => ["close"]                                       (* _performance.py *)
  | cPVI => ["close"; "volume"]                                 (* _positive_volume_index.py *)
  | cPVT => ["close"; "volume"]                                 (* _price_and_volume_trend.py *)
  | cPCH _ => ["high"; "low"; "close"]                          (* _price_channel.py *)
  | cPOSC _ _ => ["close"]                                      (* _price_oscillator.py *)
  | cPRC _ => ["close"]                                         (* _price_rate_of_change.py *)
  | cPB _ => ["high"; "low"; "close"]                           (* _projection_bands.py *)
  | cPROJ _ => ["high"; "low"; "close"]                         (* _projection_oscillator.py *)
  | cQS _ => ["open"; "close"]                                  (* _qstick.py *)
  | cRI _ _ => ["high"; "low"; "close"; "volume"]               (* _range_indicator.py *)
  | cRMI _ _ => ["close"]                                       (* _relative_momentum_index.py *)
  | cRSI _ => ["close"]                                         (* _relative_strength_index.py *)
  | cRVI _ => ["high"; "low"]                                   (* _relative_volatility_index.py *)
  | cSD _ => ["close"]                                          (* _standard_deviation.py *)
  | cSMI _ _ _ => ["high"; "low"; "close"]                      (* _stochastic_momentum_index.py *)
  | cSO _ _ _ _ => ["high"; "low"; "close"]                     (* _stochastic_oscillator.py *)
  | cSWI => ["open"; "high"; "low"; "close"]                    (* _swing_index.py *)
  | cTSF _ => ["close"]                                         (* _time_series_forecast.py *)
  | cTEMA _ => ["close"]                                        (* _triple_exponential_moving_average.py *)
  | cTP _ => ["high"; "low"; "close"]                           (* _typical_price.py *)
  | cUO => ["high"; "low"; "close"]                             (* _ultimate_oscillator.py *)
  | cVHF _ => ["close"]                                         (* _vertical_horizontal_filter.py *)
  | cVCH _ _ => ["high"; "low"]                                 (* _volatility_chaikins.py *)
  | cVOSC _ _ => ["volume"]                                     (* _volume_oscillator.py *)
  | cVRC _ => ["volume"]                                        (* _volume_rate_of_change.py *)
  | cWC => ["high"; "low"; "close"]                             (* _weighted_close.py *)
  | cWS _ => ["close"]                                          (* _wilders_smoothing.py *)
  | cWAD => ["high"; "low"; "close"]                            (* _williams_accumulation_distribution.py *)
  | cWR _ => ["high"; "low"; "close"]                           (* _williams_r.py *)
  end.

(** a column that is present, once, with numbers *)
Definition numeric_column (raw : rawframe) (n : string) : Prop :=
  count_label n (str_labels raw) = 1%nat /\ exists k, position n (str_labels raw) = Some k /\ nth k (r_numeric raw) false = true.
