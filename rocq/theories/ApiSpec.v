(** * ApiSpec: words used in the statements about the public API. *)
From Coq Require Import ZArith QArith Qcanon Bool List String PeanoNat Sorted Permutation.
From Verif Require Import Num Pandas Sim Frame FrameSpec Ind Signal Api IndSpec.
Import ListNotations.
Open Scope list_scope. Open Scope string_scope.

(** the caller's data as it was known on day t: the rows dated up to t *)
Definition until (t : Z) (f : rawframe) : rawframe :=
  mkRaw (r_datetime f) (r_labels f) (r_numeric f) (filter (fun r => Z.leb (fst r) t) (r_rows f)).
Definition dates (f : rawframe) : list Z := map fst (r_rows f).

(** on the earliest date no cell of the given columns is missing *)
Definition first_day_complete (cs : list string) (f : rawframe) : Prop :=
  forall c d x, In c cs -> In (d, x) (raw_cells c f) -> (forall d', In d' (dates f) -> (d <= d')%Z) -> x <> NaN.

(** columns named in the docstrings of the _calculateTi methods (MovingAverage's
    docstring says "ma"; the column carries the type as a suffix) *)
Definition documented_columns (i : ind) : list string :=
  match i with
  | iADL => ["adl"] | iATR => ["atr"] | iBB _ _ => ["middle_band"; "upper_band"; "lower_band"]
  | iCMF _ => ["cmf"] | iCO => ["co"] | iCMO _ => ["cmo"] | iCCI _ => ["cci"] | iDPO _ => ["dpo"]
  | iDMI => ["+di"; "-di"; "dx"; "adx"; "adxr"] | iDEMA _ => ["dema"] | iEMV _ => ["emv"; "emv_ma"]
  | iENV _ _ => ["upper_band"; "lower_band"]
  | iFIB => ["rl_0.0"; "rl_23.6"; "rl_38.2"; "rl_50.0"; "rl_61.8"; "rl_100.0"]
  | iFOSC _ => ["fosc"] | iICH => ["tenkan_sen"; "kijun_sen"; "senkou_a"; "senkou_b"]
  | iIMI _ => ["imi"] | iKO => ["ko"] | iLRI _ => ["lri"] | iLRS _ => ["lrs"] | iMFI => ["mfi"]
  | iMI => ["mi"] | iMP _ => ["mp"] | iMOM _ => ["mom"]
  | iMA _ MSimple => ["ma-simple"] | iMA _ MExponential => ["ma-exponential"]
  | iMA _ MTimeSeries => ["ma-time_series"] | iMA _ MTriangular => ["ma-triangular"]
  | iMA _ MVariable => ["ma-variable"]
  | iMACD => ["macd"; "signal_line"] | iNVI => ["nvi"] | iOBV => ["obv"] | iPSAR => ["sar"]
  | iPRF PLong _ => ["prf"; "target_LONG"] | iPRF Ind.PShort _ => ["prf"; "target_SHORT"]
  | iPVI => ["pvi"] | iPVT => ["pvt"] | iPCH _ => ["highest_high"; "lowest_low"]
  | iPOSC _ _ => ["posc"] | iPRC _ => ["prc"] | iPB _ => ["upper_band"; "lower_band"]
  | iPROJ _ => ["posc"; "trigger_line"] | iQS _ => ["qstick"] | iRI _ _ => ["ri"]
  | iRMI _ _ => ["rmi"] | iRSI _ => ["rsi"] | iRVI _ => ["rvi"] | iSD _ => ["sd"]
  | iSMI _ _ _ => ["smi"] | iSO _ _ _ _ => ["%K"; "%D"] | iSWI => ["swi"] | iTSF _ => ["tsf"]
  | iTEMA _ => ["tema"] | iTP _ => ["tp"] | iUO => ["uosc"] | iVHF _ => ["vhf"] | iVCH _ _ => ["vch"]
  | iVOSC _ _ => ["vosc"] | iVRC _ => ["vrc"] | iWC => ["wc"] | iWS _ => ["ws"] | iWAD => ["wad"]
  | iWR _ => ["wr"]
  end.

(** how many rows the calculation needs *)
Definition min_rows (i : ind) : nat :=
  match i with
  | iADL | iFIB | iICH | iMFI | iMP _ | iOBV | iPRF _ _ | iSWI | iTP _ | iWC | iWAD => 1
  | iNVI | iPSAR | iPVI | iPVT => 2
  | iCO => 10 | iATR => 14 | iMI => 25 | iMACD => 26 | iDMI | iUO => 28 | iKO => 55
  | iMA _ MVariable => 22
  | iBB p _ | iCMF p | iCMO p | iCCI p | iDPO p | iDEMA p | iENV p _ | iFOSC p | iIMI p | iLRI p | iLRS p
  | iMOM p | iMA p _ | iPCH p | iPRC p | iPB p | iPROJ p | iQS p | iSD p | iSMI p _ _ | iSO p _ _ _
  | iTSF p | iTEMA p | iVHF p | iVRC p | iWS p | iWR p => p
  | iEMV p => Nat.max p 2
  | iPOSC long _ | iVOSC long _ => long
  | iRI r s => Nat.max r s
  | iVCH e c => Nat.max e c
  | iRMI p m => p + m
  | iRSI p => p + 1
  | iRVI p => p + 10
  end%nat.

(** ** constructor parameters: name, is the type right, is the value in range.
    Listed in the order of the constructors' signatures. *)
Record param := mkParam { p_name : string; p_type : bool; p_range : bool }.

Definition is_int (v : pyval) : bool := match v with VInt _ | VBool _ => true | _ => false end.
Definition as_int (v : pyval) : Z :=
  match v with VInt z => z | VBool true => 1 | _ => 0 end%Z.
Definition is_number (v : pyval) : bool := match v with VInt _ | VBool _ | VFloat _ => true | _ => false end.
Definition as_number (v : pyval) : num :=
  match v with VInt z => F z | VBool true => F 1 | VBool false => F 0 | VFloat x => x | _ => NaN end.
Definition is_float (v : pyval) : bool := match v with VFloat _ => true | _ => false end.
Definition is_str (v : pyval) : bool := match v with VStr _ => true | _ => false end.
Definition as_str (v : pyval) : string := match v with VStr s => s | _ => "" end.

(** an integer larger than [low] *)
Definition int_gt (low : Z) (name : string) (v : pyval) : param :=
  mkParam name (is_int v) (Z.ltb low (as_int v)).
Definition one_of (names : list string) (name : string) (v : pyval) : param :=
  mkParam name (is_str v) (mem (as_str v) names).
Definition pos_period (v : pyval) : list param := [int_gt 0 "period" v].

Definition documented_params (c : ctor) : list param :=
  match c with
  | cADL | cATR | cCO | cDMI | cFIB | cICH | cKO | cMFI | cMI | cMACD | cNVI | cOBV | cPSAR | cPVI | cPVT
  | cSWI | cUO | cWC | cWAD => []
  | cBB p s => [int_gt 0 "period" p; mkParam "std_number" (is_number s) (nltb (F 0) (as_number s))]
  | cENV p s =>
      [int_gt 0 "period" p;
       mkParam "shift" (is_float s) (nltb (F 0) (as_number s) && nltb (as_number s) (F 1))]
  | cCMF p | cCMO p | cCCI p | cDPO p | cDEMA p | cEMV p | cIMI p | cLRS p | cMP p | cMOM p | cPCH p | cPRC p
  | cQS p | cRSI p | cRVI p | cSD p | cTEMA p | cTP p | cVHF p | cVRC p | cWS p | cWR p => pos_period p
  | cFOSC p | cLRI p | cPB p | cPROJ p | cTSF p => [int_gt 1 "period" p]
  | cMA p t =>
      [int_gt (if String.eqb (as_str t) "time_series" then 1 else 0) "period" p;
       one_of ["simple"; "exponential"; "time_series"; "triangular"; "variable"] "ma_type" t]
  | cPRF m t =>
      [one_of ["LONG"; "SHORT"] "mode" m;
       mkParam "target" (is_number t)
         (if String.eqb (as_str m) "LONG" then nleb (F 0) (as_number t) else nleb (as_number t) (F 0))]
  | cPOSC l s => [int_gt 0 "long_ma" l; int_gt 0 "short_ma" s;
                  mkParam "short_ma" true (Z.ltb (as_int s) (as_int l))]
  | cVOSC l s => [int_gt 0 "long_period" l; int_gt 0 "short_period" s;
                  mkParam "long_period" true (Z.ltb (as_int s) (as_int l))]
  | cRI r s => [int_gt 0 "range_period" r; int_gt 0 "smoothing_period" s]
  | cRMI p m => [int_gt 0 "period" p; int_gt 0 "momentum_period" m]
  | cSMI p s d => [int_gt 0 "period" p; int_gt 0 "smoothing_period" s; int_gt 0 "double_smoothing_period" d]
  | cSO k s d m =>
      [int_gt 0 "k_periods" k;
       mkParam "k_slowing_periods" (is_int s) (Z.eqb (as_int s) 1 || Z.eqb (as_int s) 3);
       int_gt 0 "d_periods" d; one_of ["simple"; "exponential"] "d_method" m]
  | cVCH e c => [int_gt 0 "ema_period" e; int_gt 0 "change_period" c]
  end.

(** every parameter has the right type and range *)
Definition params_ok (c : ctor) : Prop :=
  forall p, In p (documented_params c) -> p_type p = true /\ p_range p = true.

(** the error for the first parameter that is wrong *)
Fixpoint first_fault (l : list param) : option err :=
  match l with
  | [] => None
  | p :: r => if negb (p_type p) then Some (WrongType (p_name p))
              else if negb (p_range p) then Some (WrongValue (p_name p))
              else first_fault r
  end.

(** the indicator asked for *)
Definition nat_arg (v : pyval) : nat := Z.to_nat (as_int v).
Definition asked (c : ctor) : ind :=
  match c with
  | cADL => iADL | cATR => iATR | cCO => iCO | cDMI => iDMI | cFIB => iFIB | cICH => iICH | cKO => iKO
  | cMFI => iMFI | cMI => iMI | cMACD => iMACD | cNVI => iNVI | cOBV => iOBV | cPSAR => iPSAR | cPVI => iPVI
  | cPVT => iPVT | cSWI => iSWI | cUO => iUO | cWC => iWC | cWAD => iWAD
  | cBB p s => iBB (nat_arg p) (as_number s) | cENV p s => iENV (nat_arg p) (as_number s)
  | cCMF p => iCMF (nat_arg p) | cCMO p => iCMO (nat_arg p) | cCCI p => iCCI (nat_arg p)
  | cDPO p => iDPO (nat_arg p) | cDEMA p => iDEMA (nat_arg p) | cEMV p => iEMV (nat_arg p)
  | cIMI p => iIMI (nat_arg p) | cLRS p => iLRS (nat_arg p) | cMP p => iMP (nat_arg p)
  | cMOM p => iMOM (nat_arg p) | cPCH p => iPCH (nat_arg p) | cPRC p => iPRC (nat_arg p)
  | cQS p => iQS (nat_arg p) | cRSI p => iRSI (nat_arg p) | cRVI p => iRVI (nat_arg p)
  | cSD p => iSD (nat_arg p) | cTEMA p => iTEMA (nat_arg p) | cTP p => iTP (nat_arg p)
  | cVHF p => iVHF (nat_arg p) | cVRC p => iVRC (nat_arg p) | cWS p => iWS (nat_arg p)
  | cWR p => iWR (nat_arg p) | cFOSC p => iFOSC (nat_arg p) | cLRI p => iLRI (nat_arg p)
  | cPB p => iPB (nat_arg p) | cPROJ p => iPROJ (nat_arg p) | cTSF p => iTSF (nat_arg p)
  | cMA p t => iMA (nat_arg p)
      (if String.eqb (as_str t) "simple" then MSimple
       else if String.eqb (as_str t) "exponential" then MExponential
       else if String.eqb (as_str t) "time_series" then MTimeSeries
       else if String.eqb (as_str t) "triangular" then MTriangular else MVariable)
  | cPRF m t => iPRF (if String.eqb (as_str m) "LONG" then PLong else Ind.PShort) (as_number t)
  | cPOSC l s => iPOSC (nat_arg l) (nat_arg s) | cVOSC l s => iVOSC (nat_arg l) (nat_arg s)
  | cRI r s => iRI (nat_arg r) (nat_arg s) | cRMI p m => iRMI (nat_arg p) (nat_arg m)
  | cSMI p s d => iSMI (nat_arg p) (nat_arg s) (nat_arg d)
  | cSO k s d m => iSO (nat_arg k) (nat_arg s) (nat_arg d)
      (if String.eqb (as_str m) "simple" then DSimple else DExponential)
  | cVCH e c => iVCH (nat_arg e) (nat_arg c)
  end.

(** fill_missing_values must be a bool *)
Definition is_bool (v : pyval) : bool := match v with VBool _ => true | _ => false end.

(** the same dates and the same values in the given columns *)
Definition same_data (cs : list string) (raw raw' : rawframe) : Prop :=
  dates raw = dates raw' /\ forall c, In c cs -> raw_cells c raw = raw_cells c raw'.
(** published data without missing or infinite cells *)
Definition all_finite (f : frame) : Prop := forall r x, In r (rows f) -> In x (snd r) -> isfin x = true.

(** filling looks at a later day only when a column starts with a missing cell; on the
    first day nothing is missing if anything is filled at all *)
Definition causal_hyp (i : ind) (b : bool) (raw : rawframe) : Prop :=
  b = true \/ nested i = true -> first_day_complete (required i) raw.

(** the cell the signal reads depends on the order of the input columns *)
Definition order_sensitive (i : ind) : bool := match i with iATR | iTP _ => true | _ => false end.
(** neither RangeIndicator nor MedianPrice(period=1), whose getTiSignal may raise *)
Definition sim_safe (i : ind) : bool := match i with iRI _ _ => false | iMP 1 => false | _ => true end.
Definition is_dpo (i : ind) : bool := match i with iDPO _ => true | _ => false end.
(** indicators whose values ignore fill_missing_values=False *)
Definition ignores_flag (i : ind) : bool :=
  match i with iCO | iTSF _ | iMA _ MTimeSeries => true | _ => false end.

(** ** simulation arguments *)
Definition usable_close (idx : list Z) (cv : rawval) : Prop :=
  exists raw, cv = RFrame raw /\ acceptable cv ["close"] /\ Permutation (dates raw) idx.
Definition sim_params (me fa : pyval) : list param :=
  [mkParam "max_exposure" (match me with VNone => true | _ => is_number me end)
     (match me with VNone => true | _ => negb (nleb (as_number me) (F 0)) end);
   mkParam "short_exposure_factor" (is_number fa) (negb (nltb (as_number fa) (F 1)))].
