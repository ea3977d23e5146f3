(** * Api: constructing an indicator and its public methods
    (tti/indicators/_technical_indicator.py and the constructors of the 57 classes).
    The graphs are in Graph.v, the texts of the exceptions in Message.v. *)
From Coq Require Import ZArith QArith Qcanon Bool List String PeanoNat.
From Verif Require Import Num Pandas Frame Sim Ind Signal.
Import ListNotations.
Open Scope list_scope.

(** ** arguments as the caller gives them.  bool is a subclass of int. *)
Definition int_of (v : pyval) : option Z :=
  match v with VInt z => Some z | VBool b => Some (if b then 1 else 0)%Z | _ => None end.

(** isinstance(v, int) and v > low, the check of every period argument, e.g.
    _bollinger_bands.py:57-63 (low = 0), _projection_bands.py:58-64 (low = 1) *)
Definition int_above (low : Z) (name : string) (v : pyval) : res nat :=
  match int_of v with
  | Some z => if Z.ltb low z then Ok (Z.to_nat z) else Err (WrongValue name)
  | None => Err (WrongType name)
  end.

(** the constructor calls *)
Inductive ctor :=
| cADL | cATR | cBB (period std_number : pyval) | cCMF (period : pyval) | cCO | cCMO (period : pyval)
| cCCI (period : pyval) | cDPO (period : pyval) | cDMI | cDEMA (period : pyval) | cEMV (period : pyval)
| cENV (period shift : pyval) | cFIB | cFOSC (period : pyval) | cICH | cIMI (period : pyval) | cKO
| cLRI (period : pyval) | cLRS (period : pyval) | cMFI | cMI | cMP (period : pyval) | cMOM (period : pyval)
| cMA (period ma_type : pyval) | cMACD | cNVI | cOBV | cPSAR | cPRF (mode target : pyval) | cPVI | cPVT
| cPCH (period : pyval) | cPOSC (long_ma short_ma : pyval) | cPRC (period : pyval) | cPB (period : pyval)
| cPROJ (period : pyval) | cQS (period : pyval) | cRI (range_period smoothing_period : pyval)
| cRMI (period momentum_period : pyval) | cRSI (period : pyval) | cRVI (period : pyval) | cSD (period : pyval)
| cSMI (period smoothing_period double_smoothing_period : pyval)
| cSO (k_periods k_slowing_periods d_periods d_method : pyval) | cSWI | cTSF (period : pyval)
| cTEMA (period : pyval) | cTP (period : pyval) | cUO | cVHF (period : pyval)
| cVCH (ema_period change_period : pyval) | cVOSC (long_period short_period : pyval) | cVRC (period : pyval)
| cWC | cWS (period : pyval) | cWAD | cWR (period : pyval).

Section Check.
Open Scope string_scope.

Definition one (f : nat -> ind) (low : Z) (p : pyval) : res ind :=
  do n <- int_above low "period" p; Ok (f n).

(** _bollinger_bands.py:65-71 *)
Definition check_std (v : pyval) : res num :=
  match number_of v with
  | Some x => if nltb (F 0) x then Ok x else Err (WrongValue "std_number")
  | None => Err (WrongType "std_number")
  end.
(** _envelopes.py:64-70 *)
Definition check_shift (v : pyval) : res num :=
  match v with
  | VFloat x => if gt3 (F 1) x (F 0) then Ok x else Err (WrongValue "shift")
  | _ => Err (WrongType "shift")
  end.
(** _moving_average.py:75-85 *)
Definition check_ma_type (v : pyval) : res ma_type :=
  match v with
  | VStr s =>
      if String.eqb s "simple" then Ok MSimple
      else if String.eqb s "exponential" then Ok MExponential
      else if String.eqb s "time_series" then Ok MTimeSeries
      else if String.eqb s "triangular" then Ok MTriangular
      else if String.eqb s "variable" then Ok MVariable
      else Err (WrongValue "ma_type")
  | _ => Err (WrongType "ma_type")
  end.
(** _moving_average.py:64-73: with ma_type "time_series" the period must be > 1 *)
Definition check_ma_period (p t : pyval) : res nat :=
  match int_of p with
  | Some z =>
      if (match t with VStr s => String.eqb s "time_series" | _ => false end) && Z.ltb z 2
      then Err (WrongValue "period")
      else if Z.ltb 0 z then Ok (Z.to_nat z) else Err (WrongValue "period")
  | None => Err (WrongType "period")
  end.
(** _performance.py:57-74 *)
Definition check_mode (v : pyval) : res perf_mode :=
  match v with
  | VStr s => if String.eqb s "LONG" then Ok PLong
              else if String.eqb s "SHORT" then Ok Ind.PShort
              else Err (WrongValue "mode")
  | _ => Err (WrongType "mode")
  end.
Definition check_target (m : perf_mode) (v : pyval) : res num :=
  match number_of v with
  | Some x => if (match m with PLong => ngeb x (F 0) | Ind.PShort => nleb x (F 0) end)
              then Ok x else Err (WrongValue "target")
  | None => Err (WrongType "target")
  end.
(** _stochastic_oscillator.py:84-90, :100-106 *)
Definition check_slowing (v : pyval) : res nat :=
  match int_of v with
  | Some z => if Z.eqb z 1 || Z.eqb z 3 then Ok (Z.to_nat z) else Err (WrongValue "k_slowing_periods")
  | None => Err (WrongType "k_slowing_periods")
  end.
Definition check_d_method (v : pyval) : res d_method :=
  match v with
  | VStr s => if String.eqb s "simple" then Ok DSimple
              else if String.eqb s "exponential" then Ok DExponential
              else Err (WrongValue "d_method")
  | _ => Err (WrongType "d_method")
  end.

(** the argument checks of the constructors, in their order *)
Definition check (c : ctor) : res ind :=
  match c with
  | cADL => Ok iADL | cATR => Ok iATR | cCO => Ok iCO | cDMI => Ok iDMI | cFIB => Ok iFIB
  | cICH => Ok iICH | cKO => Ok iKO | cMFI => Ok iMFI | cMI => Ok iMI | cMACD => Ok iMACD
  | cNVI => Ok iNVI | cOBV => Ok iOBV | cPSAR => Ok iPSAR | cPVI => Ok iPVI | cPVT => Ok iPVT
  | cSWI => Ok iSWI | cUO => Ok iUO | cWC => Ok iWC | cWAD => Ok iWAD
  | cBB p s => do n <- int_above 0 "period" p; do k <- check_std s; Ok (iBB n k)
  | cCMF p => one iCMF 0 p | cCMO p => one iCMO 0 p | cCCI p => one iCCI 0 p
  | cDPO p => one iDPO 0 p | cDEMA p => one iDEMA 0 p | cEMV p => one iEMV 0 p
  | cENV p s => do n <- int_above 0 "period" p; do x <- check_shift s; Ok (iENV n x)
  | cFOSC p => one iFOSC 1 p | cIMI p => one iIMI 0 p | cLRI p => one iLRI 1 p
  | cLRS p => one iLRS 0 p | cMP p => one iMP 0 p | cMOM p => one iMOM 0 p
  | cMA p t => do n <- check_ma_period p t; do ty <- check_ma_type t; Ok (iMA n ty)
  | cPRF m t => do md <- check_mode m; do x <- check_target md t; Ok (iPRF md x)
  | cPCH p => one iPCH 0 p
  | cPOSC l s =>                                          (* _price_oscillator.py:54-71 *)
      do n <- int_above 0 "long_ma" l; do m <- int_above 0 "short_ma" s;
      if Nat.leb n m then Err (WrongValue "short_ma") else Ok (iPOSC n m)
  | cPRC p => one iPRC 0 p | cPB p => one iPB 1 p | cPROJ p => one iPROJ 1 p | cQS p => one iQS 0 p
  | cRI r s => do n <- int_above 0 "range_period" r; do m <- int_above 0 "smoothing_period" s; Ok (iRI n m)
  | cRMI p s => do n <- int_above 0 "period" p; do m <- int_above 0 "momentum_period" s; Ok (iRMI n m)
  | cRSI p => one iRSI 0 p | cRVI p => one iRVI 0 p | cSD p => one iSD 0 p
  | cSMI p s d =>
      do n <- int_above 0 "period" p; do m <- int_above 0 "smoothing_period" s;
      do k <- int_above 0 "double_smoothing_period" d; Ok (iSMI n m k)
  | cSO k s d m =>
      do n <- int_above 0 "k_periods" k; do w <- check_slowing s;
      do e <- int_above 0 "d_periods" d; do x <- check_d_method m; Ok (iSO n w e x)
  | cTSF p => one iTSF 1 p | cTEMA p => one iTEMA 0 p | cTP p => one iTP 0 p | cVHF p => one iVHF 0 p
  | cVCH e c => do n <- int_above 0 "ema_period" e; do m <- int_above 0 "change_period" c; Ok (iVCH n m)
  | cVOSC l s =>                                          (* _volume_oscillator.py:56-75 *)
      do n <- int_above 0 "long_period" l; do m <- int_above 0 "short_period" s;
      if Nat.leb n m then Err (WrongValue "long_period ") else Ok (iVOSC n m)
  | cVRC p => one iVRC 0 p | cWS p => one iWS 0 p | cWR p => one iWR 0 p
  end.
End Check.

(** ** the object *)
Record obj := mkObj { ob_ind : ind; ob_input : frame; ob_ti : frame }.

(** Class(input_data, ..., fill_missing_values) (_technical_indicator.py:48-69, after
    the subclass checked its own arguments).  First component: the caller's
    input_data afterwards. *)
Definition construct (o : oracle) (c : ctor) (v : rawval) (fill : pyval) : rawval * res obj :=
  match check c with
  | Err e => (v, Err e)
  | Ok i =>
      match fill with
      | VBool b =>
          let (v', r) := validate v (required i) b in
          (v', do f <- r; do it <- calc o i f; Ok (mkObj i (fst it) (snd it)))
      | _ => (v, Err (WrongType "fill_missing_values"))
      end
  end.

(** getTiData (_technical_indicator.py:126-134) *)
Definition get_ti_data (ob : obj) : frame := ob_ti ob.

(** getTiSignal *)
Definition get_ti_signal (ob : obj) : res signal := signal_of (ob_ind ob) (ob_input ob) (ob_ti ob).

(** getTiValue (_technical_indicator.py:136-157).  [date]: not given, not a date,
    or a timestamp.  A timestamp found several times makes .loc return a DataFrame,
    and list() of it is the list of column names. *)
Inductive ti_value := TVNone | TVRow (l : list num) | TVNames (l : list string).
Inductive date_arg := DNotGiven | DBad | DAt (t : Z).
Definition get_ti_value (ob : obj) (d : date_arg) : ti_value :=
  let ti := ob_ti ob in
  match d with
  | DNotGiven => match rev (rows ti) with [] => TVNone | r :: _ => TVRow (snd r) end
  | DBad => TVNone
  | DAt t => match filter (fun r : row => Z.eqb (fst r) t) (rows ti) with
             | [] => TVNone
             | [r] => TVRow (snd r)
             | _ => TVNames (cols ti)
             end
  end.

(** one round of the loop in getTiSimulation (_technical_indicator.py:415-417): the
    object with its data limited to the rows dated up to row i *)
Definition limited (i : nat) (ob : obj) : obj :=
  let cut f := upto (nth i (index f) 0%Z) f in
  mkObj (ob_ind ob) (cut (ob_input ob)) (cut (ob_ti ob)).

(** rounds i, i+1, ..., [n] of them.  Result: the object as it is left when the loop
    ends or an exception escapes, and the simulator. *)
Fixpoint rounds (full : obj) (i n : nat) (cur : obj) (st : sim) : obj * res sim :=
  match n with
  | O => (cur, Ok st)
  | S k =>
      let ob := limited i full in
      match get_ti_signal ob with
      | Err e => (ob, Err e)
      | Ok sg => rounds full (S i) k ob (run_round i sg st)
      end
  end.

(** getTiSimulation (_technical_indicator.py:284-432).  First component: the indicator
    object afterwards; second: the caller's close_values object afterwards. *)
Definition get_ti_simulation (ob : obj) (close_values : rawval) (max_exp fac : pyval)
  : obj * rawval * res (sim * stats) :=
  let (v', r) := sim_init (index (ob_input ob)) close_values max_exp fac in
  match r with
  | Err e => (ob, v', Err e)
  | Ok st =>
      match rounds ob 0 (length (rows (ob_ti ob))) ob st with
      | (ob', Err e) => (ob', v', Err e)
      | (_, Ok st') => (ob, v', Ok (st', statistics st'))           (* :422-425 restore *)
      end
  end.
