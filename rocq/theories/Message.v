(** * Message: the texts of the exceptions.

    Models tti/utils/exceptions.py, the arguments of every `raise` in the constructors,
    and the texts of data_validation.py and of the simulation's argument checks.
    Not modelled: the texts of exceptions raised by pandas or python itself. *)
From Coq Require Import ZArith QArith Qcanon Bool String Ascii List PeanoNat Decimal DecimalString.
From Verif Require Import Num Pandas Frame Sim Ind Signal Api.
Import ListNotations.
Open Scope string_scope.

(** ** python's strings *)
(** s.replace(old, new), for a text [old] that is not empty: every occurrence, from
    left to right; [skip] characters of an occurrence are still to be left out *)
Fixpoint replace_from (old new : string) (skip : nat) (s : string) : string :=
  match s with
  | EmptyString => EmptyString
  | String c r =>
      match skip with
      | S k => replace_from old new k r
      | O => if prefix old s then new ++ replace_from old new (String.length old - 1) r
             else String c (replace_from old new 0 r)
      end
  end.
Definition replace (old new s : string) : string := replace_from old new 0 s.

(** str(n) *)
Definition show_z (z : Z) : string := NilEmpty.string_of_int (Z.to_int z).
Definition show_nat (n : nat) : string := show_z (Z.of_nat n).

(** str(x) of floats and of other objects, type(x) of other objects, the type of an index that
    is no DatetimeIndex and the dtype of a column: left open *)
Record texts := mkTexts {
  t_float : num -> string; t_other : string; t_other_type : string;
  t_not_frame : string; t_index : string; t_dtype : string -> string }.
Definition py_str (T : texts) (v : pyval) : string :=
  match v with
  | VInt z => show_z z
  | VBool b => if b then "True" else "False"
  | VFloat x => t_float T x
  | VStr s => s
  | VNone => "None"
  | VOther => t_other T
  end.
Definition py_type (T : texts) (v : pyval) : string :=
  match v with
  | VInt _ => "<class 'int'>"
  | VBool _ => "<class 'bool'>"
  | VFloat _ => "<class 'float'>"
  | VStr _ => "<class 'str'>"
  | VNone => "<class 'NoneType'>"
  | VOther => t_other_type T
  end.

(** ** tti/utils/exceptions.py *)
(** :9-23 *)
Definition not_enough_text (name : string) (required got : nat) : string :=
  replace "<data_num>" (show_nat got)
    (replace "<req_data_num>" (show_nat required)
      (replace "<ti_name>" name
        "Not enough input data for calculating the <ti_name> technical indicator. Minimum required data are (<req_data_num>), but (<data_num>) found.")).
(** :26-39 *)
Definition wrong_value_text (value name supports : string) : string :=
  replace "<p_supported>" supports
    (replace "<p_name>" name
      (replace "<p_value>" value
        "Wrong value (<p_value>) for input parameter (<p_name>). Supported values are (<p_supported>).")).
(** :42-55 *)
Definition wrong_type_text (type name supported : string) : string :=
  replace "<p_supported>" supported
    (replace "<p_name>" name
      (replace "<p_type>" type
        "Wrong type (<p_type>) for input parameter (<p_name>). Supported type is (<p_supported>).")).
(** :58-68 *)
Definition not_valid_text (argument details : string) : string :=
  replace "<p_input_argument>" argument "Not valid input data for simulation, input argument: <p_input_argument>. " ++ details.

(** ** the arguments of the raise statements *)
Inductive complaint :=
| SaysValue (value : pyval) (name supports : string)
| SaysType (value : pyval) (name supported : string).
Definition complaint_text (T : texts) (c : complaint) : string :=
  match c with
  | SaysValue v n s => wrong_value_text (py_str T v) n s
  | SaysType v n s => wrong_type_text (py_type T v) n s
  end.
Definition orelse {A} (a b : option A) : option A := match a with Some _ => a | None => b end.
Infix "<|>" := orelse (at level 55, right associativity).

(** every period argument, e.g. _bollinger_bands.py:57-63, _projection_bands.py:58-64 *)
Definition say_int (low : Z) (name : string) (v : pyval) : option complaint :=
  match int_of v with
  | Some z => if Z.ltb low z then None else Some (SaysValue v name (">" ++ show_z low))
  | None => Some (SaysType v name "int")
  end.
(** _bollinger_bands.py:65-71 *)
Definition say_std (v : pyval) : option complaint :=
  match number_of v with
  | Some x => if nltb (F 0) x then None else Some (SaysValue v "std_number" ">0")
  | None => Some (SaysType v "std_number" "int or float")
  end.
(** _envelopes.py:64-70: both statements name the period instead of the shift *)
Definition say_shift (period v : pyval) : option complaint :=
  match v with
  | VFloat x => if gt3 (F 1) x (F 0) then None else Some (SaysValue period "shift" ">0.0 and <1.0")
  | _ => Some (SaysType period "shift" "float")
  end.
(** _moving_average.py:64-85 *)
Definition say_ma_period (p t : pyval) : option complaint :=
  match int_of p with
  | Some z =>
      if (match t with VStr s => String.eqb s "time_series" | _ => false end) && Z.ltb z 2
      then Some (SaysValue p "period" ">1")
      else if Z.ltb 0 z then None else Some (SaysValue p "period" ">0")
  | None => Some (SaysType p "period" "int")
  end.
Definition say_ma_type (v : pyval) : option complaint :=
  match v with
  | VStr s =>
      if mem s ["simple"; "exponential"; "time_series"; "triangular"; "variable"] then None
      else Some (SaysValue v "ma_type" "'simple', 'exponential', 'time_series', 'triangular' or 'variable'")
  | _ => Some (SaysType v "ma_type" "str")
  end.
(** _performance.py:57-74 *)
Definition say_mode (v : pyval) : option complaint :=
  match v with
  | VStr s => if mem s ["LONG"; "SHORT"] then None else Some (SaysValue v "mode" "'LONG' or 'SHORT'")
  | _ => Some (SaysType v "mode" "str")
  end.
Definition say_target (m v : pyval) : option complaint :=
  let mode s := match m with VStr t => String.eqb t s | _ => false end in
  match number_of v with
  | Some x =>
      if (mode "LONG" && ngeb x (F 0)) || (mode "SHORT" && nleb x (F 0)) then None
      else Some (SaysValue v "target" ">=0 for mode 'LONG', <=0 for mode 'SHORT'")
  | None => Some (SaysType v "target" "int or float")
  end.
(** _stochastic_oscillator.py:84-90, :100-106 *)
Definition say_slowing (v : pyval) : option complaint :=
  match int_of v with
  | Some z => if Z.eqb z 1 || Z.eqb z 3 then None else Some (SaysValue v "k_slowing_periods" "1 or 3")
  | None => Some (SaysType v "k_slowing_periods" "int")
  end.
Definition say_d_method (v : pyval) : option complaint :=
  match v with
  | VStr s => if mem s ["simple"; "exponential"] then None
              else Some (SaysValue v "d_method" "'simple' or 'exponential'")
  | _ => Some (SaysType v "d_method" "str")
  end.
(** _price_oscillator.py:70-71: both are integers here *)
Definition say_posc (l s : pyval) : option complaint :=
  match int_of l, int_of s with
  | Some a, Some b => if Z.leb a b then Some (SaysValue s "short_ma" "long_ma > short_ma") else None
  | _, _ => None
  end.
(** _volume_oscillator.py:72-75.  str of the integer short_period *)
Definition say_vosc (T : texts) (l s : pyval) : option complaint :=
  match int_of l, int_of s with
  | Some a, Some b =>
      if Z.leb a b then Some (SaysValue l "long_period " ("> short_period [" ++ py_str T s ++ "]")) else None
  | _, _ => None
  end.

Definition say_period (p : pyval) : option complaint := say_int 0 "period" p.
(** the checks of the constructors, in their order *)
Definition says (T : texts) (c : ctor) : option complaint :=
  match c with
  | cADL | cATR | cCO | cDMI | cFIB | cICH | cKO | cMFI | cMI | cMACD | cNVI | cOBV | cPSAR | cPVI | cPVT
  | cSWI | cUO | cWC | cWAD => None
  | cBB p s => say_period p <|> say_std s
  | cENV p s => say_period p <|> say_shift p s
  | cCMF p | cCMO p | cCCI p | cDPO p | cDEMA p | cEMV p | cIMI p | cLRS p | cMP p | cMOM p | cPCH p | cPRC p
  | cQS p | cRSI p | cRVI p | cSD p | cTEMA p | cTP p | cVHF p | cVRC p | cWS p | cWR p => say_period p
  | cFOSC p | cLRI p | cPB p | cPROJ p | cTSF p => say_int 1 "period" p
  | cMA p t => say_ma_period p t <|> say_ma_type t
  | cPRF m t => say_mode m <|> say_target m t
  | cPOSC l s => say_int 0 "long_ma" l <|> say_int 0 "short_ma" s <|> say_posc l s
  | cRI r s => say_int 0 "range_period" r <|> say_int 0 "smoothing_period" s
  | cRMI p m => say_period p <|> say_int 0 "momentum_period" m
  | cSMI p s d => say_period p <|> say_int 0 "smoothing_period" s <|> say_int 0 "double_smoothing_period" d
  | cSO k s d m => say_int 0 "k_periods" k <|> say_slowing s <|> say_int 0 "d_periods" d <|> say_d_method m
  | cVCH e c => say_int 0 "ema_period" e <|> say_int 0 "change_period" c
  | cVOSC l s => say_int 0 "long_period" l <|> say_int 0 "short_period" s <|> say_vosc T l s
  end.

(** ** data_validation.py *)
(** :71-91, with the name [who] of the class that asks *)
Fixpoint required_text (T : texts) (who : string) (req : list string) (labels : list string) (numeric : list bool)
  : option string :=
  match req with
  | [] => None
  | c :: r =>
      match Frame.position c labels with
      | None => Some ("Required column `" ++ c ++ "` for the technical indicator `" ++ who
                      ++ "` does not exist in the input_data  pandas.DataFrame.")
      | Some k =>
          if Nat.leb 2 (count_label c labels) then None            (* AttributeError of pandas *)
          else if nth k numeric false then required_text T who r labels numeric
          else Some ("The input_data pandas.DataFrame must hold columns of numeric type, but column `" ++ c
                     ++ "` is of type `" ++ t_dtype T c ++ "`.")
      end
  end.
(** the text of the exception of validateInputData; None: no exception, or one of pandas or python *)
Definition validate_text (T : texts) (who : string) (v : rawval) (req : list string) : option string :=
  match v with
  | RNotFrame => Some (wrong_type_text (t_not_frame T) "input_data" "pd.DataFrame")                   (* :50-51 *)
  | RFrame f =>
      if negb (r_datetime f) then
        Some ("Invalid input_data index type. It was expected `pd.DatetimeIndex` but `" ++ t_index T ++ "` was found.")
      else if (match r_rows f with [] => true | _ => false end) || (match r_labels f with [] => true | _ => false end)
      then Some "The input_data cannot be an empty pandas.DataFrame."
      else match lower_labels (r_labels f) with
           | None => None
           | Some labels => required_text T who req labels (r_numeric f)
           end
  end.

(** ** constructors *)
Definition class_name (i : ind) : string :=
  match i with
  | iADL => "AccumulationDistributionLine" | iATR => "AverageTrueRange" | iBB _ _ => "BollingerBands"
  | iCMF _ => "ChaikinMoneyFlow" | iCO => "ChaikinOscillator" | iCMO _ => "ChandeMomentumOscillator"
  | iCCI _ => "CommodityChannelIndex" | iDPO _ => "DetrendedPriceOscillator" | iDMI => "DirectionalMovementIndex"
  | iDEMA _ => "DoubleExponentialMovingAverage" | iEMV _ => "EaseOfMovement" | iENV _ _ => "Envelopes"
  | iFIB => "FibonacciRetracement" | iFOSC _ => "ForecastOscillator" | iICH => "IchimokuCloud"
  | iIMI _ => "IntradayMomentumIndex" | iKO => "KlingerOscillator" | iLRI _ => "LinearRegressionIndicator"
  | iLRS _ => "LinearRegressionSlope" | iMFI => "MarketFacilitationIndex" | iMI => "MassIndex"
  | iMP _ => "MedianPrice" | iMOM _ => "Momentum" | iMA _ _ => "MovingAverage"
  | iMACD => "MovingAverageConvergenceDivergence" | iNVI => "NegativeVolumeIndex" | iOBV => "OnBalanceVolume"
  | iPSAR => "ParabolicSAR" | iPRF _ _ => "Performance" | iPVI => "PositiveVolumeIndex"
  | iPVT => "PriceAndVolumeTrend" | iPCH _ => "PriceChannel" | iPOSC _ _ => "PriceOscillator"
  | iPRC _ => "PriceRateOfChange" | iPB _ => "ProjectionBands" | iPROJ _ => "ProjectionOscillator"
  | iQS _ => "Qstick" | iRI _ _ => "RangeIndicator" | iRMI _ _ => "RelativeMomentumIndex"
  | iRSI _ => "RelativeStrengthIndex" | iRVI _ => "RelativeVolatilityIndex" | iSD _ => "StandardDeviation"
  | iSMI _ _ _ => "StochasticMomentumIndex" | iSO _ _ _ _ => "StochasticOscillator" | iSWI => "SwingIndex"
  | iTSF _ => "TimeSeriesForecast" | iTEMA _ => "TripleExponentialMovingAverage" | iTP _ => "TypicalPrice"
  | iUO => "UltimateOscillator" | iVHF _ => "VerticalHorizontalFilter" | iVCH _ _ => "VolatilityChaikins"
  | iVOSC _ _ => "VolumeOscillator" | iVRC _ => "VolumeRateOfChange" | iWC => "WeightedClose"
  | iWS _ => "WildersSmoothing" | iWAD => "WilliamsAccumulationDistribution" | iWR _ => "WilliamsR"
  end.
(** the text of the exception a constructor raises *)
Definition construct_text (T : texts) (o : oracle) (c : ctor) (v : rawval) (fill : pyval) : option string :=
  match says T c with
  | Some w => Some (complaint_text T w)
  | None =>
      match check c with
      | Err _ => None
      | Ok i =>
          match fill with
          | VBool b =>
              match snd (validate v (required i) b) with
              | Err _ => validate_text T (class_name i) v (required i)
              | Ok f => match calc o i f with
                        | Err (NotEnough name shown got) => Some (not_enough_text name shown got)
                        | _ => None
                        end
              end
          | _ => Some (wrong_type_text (py_type T fill) "fill_missing_values" "bool")    (* _technical_indicator.py:50-53 *)
          end
      end
  end.

(** ** the simulation's arguments (trading_simulation.py:226-281) *)
Definition say_max_exposure (v : pyval) : option complaint :=
  match number_of v with
  | Some x => if nleb x (F 0) then Some (SaysValue v "max_exposure" ">0 or None") else None
  | None => match v with VNone => None | _ => Some (SaysType v "max_exposure" "int or float or None") end
  end.
Definition say_factor (v : pyval) : option complaint :=
  match number_of v with
  | Some x => if nltb x (F 1) then Some (SaysValue v "short_exposure_factor" ">=1.0") else None
  | None => Some (SaysType v "short_exposure_factor" "int or float")
  end.
Definition sim_text (T : texts) (idx : list Z) (close_values : rawval) (max_exp fac : pyval) : option string :=
  match snd (validate close_values ["close"] true) with
  | Err _ =>
      match validate_text T "TradingSimulation" close_values ["close"] with
      | Some s => Some (not_valid_text "close_values" (replace "input_data" "close_values" s))
      | None => None
      end
  | Ok f =>
      if negb (zlist_eqb (index f) (sort_z idx)) then
        Some (not_valid_text "close_values"
                "Index of the `close_values` DataFrame should be the same as the index of the `input_data` argument in the indicator's constructor.")
      else match say_max_exposure max_exp <|> say_factor fac with
           | Some w => Some (complaint_text T w)
           | None => None
           end
  end.
