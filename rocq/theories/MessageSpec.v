(** * MessageSpec: the sentence a user should read when an argument is refused. *)
From Coq Require Import ZArith QArith Qcanon Bool String Ascii List.
From Verif Require Import Num Frame Sim Ind Api ApiSpec Message.
Import ListNotations.
Open Scope string_scope.

(** a parameter: its name, the value given for it, is the type right and which is asked for, is
    the value in range and which values are *)
Record rule := mkRule {
  ru_name : string; ru_value : pyval;
  ru_type_ok : bool; ru_types : string;
  ru_range_ok : bool; ru_range : string }.

Definition int_over (low : Z) (text name : string) (v : pyval) : rule :=
  mkRule name v (is_int v) "int" (Z.ltb low (as_int v)) text.
Definition positive (name : string) (v : pyval) : rule := int_over 0 ">0" name v.
Definition rules (T : texts) (c : ctor) : list rule :=
  match c with
  | cADL | cATR | cCO | cDMI | cFIB | cICH | cKO | cMFI | cMI | cMACD | cNVI | cOBV | cPSAR | cPVI | cPVT
  | cSWI | cUO | cWC | cWAD => []
  | cBB p s => [positive "period" p;
                mkRule "std_number" s (is_number s) "int or float" (nltb (F 0) (as_number s)) ">0"]
  | cENV p s => [positive "period" p;
                 mkRule "shift" s (is_float s) "float" (nltb (F 0) (as_number s) && nltb (as_number s) (F 1)) ">0.0 and <1.0"]
  | cCMF p | cCMO p | cCCI p | cDPO p | cDEMA p | cEMV p | cIMI p | cLRS p | cMP p | cMOM p | cPCH p | cPRC p
  | cQS p | cRSI p | cRVI p | cSD p | cTEMA p | cTP p | cVHF p | cVRC p | cWS p | cWR p => [positive "period" p]
  | cFOSC p | cLRI p | cPB p | cPROJ p | cTSF p => [int_over 1 ">1" "period" p]
  | cMA p t =>
      [if String.eqb (as_str t) "time_series" then int_over 1 ">1" "period" p else positive "period" p;
       mkRule "ma_type" t (is_str t) "str" (mem (as_str t) ["simple"; "exponential"; "time_series"; "triangular"; "variable"])
         "'simple', 'exponential', 'time_series', 'triangular' or 'variable'"]
  | cPRF m t =>
      [mkRule "mode" m (is_str m) "str" (mem (as_str m) ["LONG"; "SHORT"]) "'LONG' or 'SHORT'";
       mkRule "target" t (is_number t) "int or float"
         (if String.eqb (as_str m) "LONG" then nleb (F 0) (as_number t) else nleb (as_number t) (F 0))
         ">=0 for mode 'LONG', <=0 for mode 'SHORT'"]
  | cPOSC l s => [positive "long_ma" l; positive "short_ma" s;
                  mkRule "short_ma" s true "int" (Z.ltb (as_int s) (as_int l)) "long_ma > short_ma"]
  | cVOSC l s => [positive "long_period" l; positive "short_period" s;
                  mkRule "long_period" l true "int" (Z.ltb (as_int s) (as_int l)) ("> short_period [" ++ py_str T s ++ "]")]
  | cRI r s => [positive "range_period" r; positive "smoothing_period" s]
  | cRMI p m => [positive "period" p; positive "momentum_period" m]
  | cSMI p s d => [positive "period" p; positive "smoothing_period" s; positive "double_smoothing_period" d]
  | cSO k s d m =>
      [positive "k_periods" k;
       mkRule "k_slowing_periods" s (is_int s) "int" (Z.eqb (as_int s) 1 || Z.eqb (as_int s) 3) "1 or 3";
       positive "d_periods" d;
       mkRule "d_method" m (is_str m) "str" (mem (as_str m) ["simple"; "exponential"]) "'simple' or 'exponential'"]
  | cVCH e c => [positive "ema_period" e; positive "change_period" c]
  end.
Definition sim_rules (me fa : pyval) : list rule :=
  [mkRule "max_exposure" me (match me with VNone => true | _ => is_number me end) "int or float or None"
     (match me with VNone => true | _ => negb (nleb (as_number me) (F 0)) end) ">0 or None";
   mkRule "short_exposure_factor" fa (is_number fa) "int or float" (negb (nltb (as_number fa) (F 1))) ">=1.0"].

(** the sentence for the first parameter that is wrong *)
Fixpoint report (T : texts) (l : list rule) : option string :=
  match l with
  | [] => None
  | r :: l =>
      if negb (ru_type_ok r) then
        Some ("Wrong type (" ++ py_type T (ru_value r) ++ ") for input parameter (" ++ ru_name r
              ++ "). Supported type is (" ++ ru_types r ++ ").")
      else if negb (ru_range_ok r) then
        Some ("Wrong value (" ++ py_str T (ru_value r) ++ ") for input parameter (" ++ ru_name r
              ++ "). Supported values are (" ++ ru_range r ++ ").")
      else report T l
  end.

(** the text [p] occurs in [s] *)
Definition occurs (p s : string) : Prop := exists a b, s = a ++ p ++ b.
(** the value does not contain the marks of the library's own templates *)
Definition unmarked (s : string) : Prop := ~ occurs "<p_name>" s /\ ~ occurs "<p_supported>" s.
Definition unmarked_values (T : texts) (l : list rule) : Prop :=
  forall r, In r l -> unmarked (py_str T (ru_value r)) /\ unmarked (py_type T (ru_value r)).
(** the period is right, so it is the shift that is wrong: the message shows the period; both periods
    are right in themselves, so it is their order that is wrong: the message misspells the name *)
Definition misreported (c : ctor) : bool :=
  match c with
  | cENV p _ => is_int p && Z.ltb 0 (as_int p)
  | cVOSC l s => (is_int l && Z.ltb 0 (as_int l)) && (is_int s && Z.ltb 0 (as_int s))
  | _ => false
  end.

(** only the letters of a title, as small letters *)
Definition letter (c : ascii) : bool :=
  let n := nat_of_ascii c in (Nat.leb 65 n && Nat.leb n 90) || (Nat.leb 97 n && Nat.leb n 122).
Fixpoint letters (s : string) : string :=
  match s with
  | EmptyString => EmptyString
  | String c r => if letter c then String (lower_ascii c) (letters r) else letters r
  end.
(** the title of an indicator in a message is the name of its class, written with spaces;
    the message of the variable moving average adds the type *)
Definition titles (i : ind) (title : string) : Prop :=
  letters title = lower (class_name i) ++ match i with iMA _ MVariable => "variable" | _ => "" end.

(** the sentence about the input column [n] *)
Definition missing_column (who n : string) : string :=
  "Required column `" ++ n ++ "` for the technical indicator `" ++ who ++ "` does not exist in the input_data  pandas.DataFrame.".
Definition column_not_numeric (T : texts) (n : string) : string :=
  "The input_data pandas.DataFrame must hold columns of numeric type, but column `" ++ n ++ "` is of type `" ++ t_dtype T n ++ "`.".
