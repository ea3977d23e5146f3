(** * AdviceSpec: words used in the statements about the values an advice rests on. *)
From Coq Require Import ZArith QArith Qcanon Bool List String PeanoNat.
From Verif Require Import Num NumFacts Pandas Sim Frame FrameSpec Ind Signal Api IndSpec ApiSpec RangeSpec ValueSpec FormulaSpec SignalSpec.
Import ListNotations.
Open Scope list_scope. Open Scope string_scope. Open Scope nat_scope.

(** the same days for several columns *)
Definition on_days (names : list string) (days : list nat) : list (string * nat) := flat_map (fun n => map (fun d => (n, d)) days) names.

(** published columns and days (1: the last one) without which nothing is advised *)
Definition looks_at (i : ind) : list (string * nat) :=
  match i with
  | iADL => on_days ["adl"] [1] | iATR => on_days ["atr"] [1] | iCMF _ => on_days ["cmf"] [1; 2] | iCO => on_days ["co"] [1; 2] | iCMO _ => on_days ["cmo"] [1; 2]
  | iCCI _ => on_days ["cci"] [1] | iDPO _ => on_days ["dpo"] [1; 2] | iDMI => on_days ["+di"; "-di"] [1; 2] ++ on_days ["adxr"] [1] | iDEMA _ => on_days ["dema"] [1]
  | iEMV _ => on_days ["emv_ma"] [1; 2] | iFOSC _ => on_days ["fosc"] [1; 2] | iICH => on_days ["tenkan_sen"; "kijun_sen"] [1; 2] | iIMI _ => on_days ["imi"] [1; 2]
  | iKO => on_days ["ko"] [1; 2] | iLRI _ => on_days ["lri"] [1; 2] | iLRS _ => on_days ["lrs"] [1; 2] | iMFI => on_days ["mfi"] [1; 2] | iMP _ => on_days ["mp"] [1; 2]
  | iMOM _ => on_days ["mom"] [1; 2] | iMA _ t => on_days [ma_name t] [1] | iMACD => on_days ["macd"] [1; 2] | iNVI => on_days ["nvi"] [1] | iOBV => on_days ["obv"] [1; 2; 3]
  | iPSAR => on_days ["sar"] [1; 2] | iPRF _ _ => on_days ["prf"] [1] | iPVI => on_days ["pvi"] [1; 2] | iPVT => on_days ["pvt"] [1; 2; 3] | iPOSC _ _ => on_days ["posc"] [1; 2]
  | iPRC _ => on_days ["prc"] [1; 2; 3] | iPB _ => on_days ["upper_band"; "lower_band"] [1] | iPROJ _ => on_days ["posc"] [1; 2] | iQS _ => on_days ["qstick"] [1; 2; 3; 4]
  | iRI _ _ => on_days ["ri"] [1; 2] | iRMI _ _ => on_days ["rmi"] [1; 2] | iRSI _ => on_days ["rsi"] [1; 2] | iRVI _ => on_days ["rvi"] [1; 2] | iSD _ => on_days ["sd"] [1]
  | iSMI _ _ _ => on_days ["smi"] [1; 2] | iSWI => on_days ["swi"] [1; 2] | iTSF _ => on_days ["tsf"] [1; 2] | iTEMA _ => on_days ["tema"] [1] | iTP _ => on_days ["tp"] [1]
  | iUO => on_days ["uosc"] [1] | iVHF _ => on_days ["vhf"] [1; 2; 3] | iVCH _ _ => on_days ["vch"] [1; 2; 3] | iVOSC _ _ => on_days ["vosc"] [1; 2; 3] | iVRC _ => on_days ["vrc"] [1; 2; 3]
  | iWC => on_days ["wc"] [1; 2] | iWS _ => on_days ["ws"] [1; 2] | iWR _ => on_days ["wr"] [1; 2]
  | iBB _ _ | iENV _ _ | iFIB | iMI | iPCH _ | iSO _ _ _ _ | iWAD => []
  end.
(** the closes without which nothing is advised *)
Definition looks_at_closes (i : ind) : list nat :=
  match i with
  | iADL | iFIB | iLRI _ | iPSAR | iTSF _ | iWC | iWS _ => [1; 2]
  | iATR | iBB _ _ | iENV _ _ | iCO | iDEMA _ | iMA _ _ | iPCH _ | iPB _ | iSD _ | iTEMA _ | iWAD => [1]
  | iCMF _ => [1; 3]
  | _ => []
  end.
(** the two indicators that may advise something on a day on which they have no value *)
Definition deaf (c : ctor) : bool := match c with cMI | cWAD => true | _ => false end.
(** nothing is published for the last day *)
Definition nothing_shown (st : obj) : Prop := forall name, In name (cols (get_ti_data st)) -> ago name st 1 = NaN.
