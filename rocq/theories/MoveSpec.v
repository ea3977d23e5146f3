(** * MoveSpec: words used in the statements about a market whose prices all move by one amount. *)
From Coq Require Import ZArith QArith Qcanon Bool List String PeanoNat.
From Verif Require Import Num NumFacts Pandas Sim Frame FrameSpec Ind Signal Api IndSpec ApiSpec RangeSpec ValueSpec FormulaSpec SignalSpec MirrorSpec.
Import ListNotations.
Open Scope list_scope. Open Scope string_scope. Open Scope Qc_scope.

(** every price x of the first input is d + x in the second: the columns an indicator asks for, over all rows;
    the volumes are the same *)
Definition beside (d : Qc) (k : nat) (ob ob' : obj) (name : string) (f : nat -> Qc) : Prop :=
  known (given name ob) k f /\ known (given name ob') k (fun j => d + f j).
Definition moved (c : ctor) (d : Qc) (ob ob' : obj) (op h l cl v : nat -> Qc) : Prop :=
  let n := days_given ob in let asks name := In name (required (asked c)) in
  days_given ob' = n /\
  (asks "open" -> beside d (n - 1) ob ob' "open" op) /\ (asks "high" -> beside d (n - 1) ob ob' "high" h) /\
  (asks "low" -> beside d (n - 1) ob ob' "low" l) /\ (asks "close" -> beside d (n - 1) ob ob' "close" cl) /\
  (asks "volume" -> beside 0 (n - 1) ob ob' "volume" v).

(** columns that move with the prices *)
Definition price_like (c : ctor) : list string :=
  match c with
  | cMA _ (VStr t) => if existsb (String.eqb t) ["simple"; "exponential"; "triangular"; "time_series"; "variable"] then ["ma-" ++ t] else []
  | cDEMA _ => ["dema"] | cTEMA _ => ["tema"] | cWS _ => ["ws"] | cLRI _ => ["lri"] | cTSF _ => ["tsf"] | cMP _ => ["mp"] | cTP _ => ["tp"] | cWC => ["wc"]
  | cPSAR => ["sar"] | cICH => ["tenkan_sen"; "kijun_sen"; "senkou_a"; "senkou_b"] | cBB _ _ => ["upper_band"; "middle_band"; "lower_band"]
  | cPB _ => ["upper_band"; "lower_band"] | cPCH _ => ["highest_high"; "lowest_low"] | cFIB => ["rl_0.0"; "rl_38.2"; "rl_50.0"; "rl_61.8"; "rl_100.0"]
  | _ => []
  end.
(** columns that do not change *)
Definition level_free (c : ctor) : list string :=
  match c with
  | cADL => ["adl"] | cCMF _ => ["cmf"] | cCO => ["co"] | cCMO _ => ["cmo"] | cCCI _ => ["cci"] | cDPO _ => ["dpo"] | cEMV _ => ["emv"; "emv_ma"] | cKO => ["ko"]
  | cLRS _ => ["lrs"] | cMACD => ["macd"; "signal_line"] | cOBV => ["obv"] | cQS _ => ["qstick"] | cSMI _ _ _ => ["smi"] | cSWI => ["swi"] | cWAD => ["wad"]
  | cIMI _ => ["imi"] | cRSI _ => ["rsi"] | cRVI _ => ["rvi"] | cPROJ _ => ["posc"; "trigger_line"] | cUO => ["uosc"] | cWR _ => ["wr"]
  | cSO _ _ _ (VStr t) => if String.eqb t "simple" then ["%K"; "%D"] else ["%K"]
  | cATR => ["atr"] | cMFI => ["mfi"] | cMI => ["mi"] | cSD _ => ["sd"] | cVCH _ _ => ["vch"] | cVHF _ => ["vhf"] | cDMI => ["+di"; "-di"; "dx"; "adx"; "adxr"]
  | _ => []
  end.
