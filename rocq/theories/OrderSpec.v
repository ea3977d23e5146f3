(** * OrderSpec: words used in the statements about higher prices. *)
From Coq Require Import ZArith QArith Qcanon Bool List String PeanoNat.
From Verif Require Import Num NumFacts Pandas Sim Frame FrameSpec Ind Signal Api IndSpec ApiSpec RangeSpec ValueSpec FormulaSpec SignalSpec MirrorSpec.
Import ListNotations.
Open Scope list_scope. Open Scope string_scope. Open Scope Qc_scope.

(** both missing, or both numbers and the second is not below the first *)
Definition no_lower (x y : num) : Prop := (x = NaN /\ y = NaN) \/ exists a b, x = Fin a /\ y = Fin b /\ a <= b.

(** ** a market that is nowhere cheaper than another *)
(** rows 0 .. k of the column are f in the first input and g in the second, and f is nowhere above g *)
Definition under (k : nat) (ob ob' : obj) (name : string) (f g : nat -> Qc) : Prop :=
  known (given name ob) k f /\ known (given name ob') k g /\ forall j, (j <= k)%nat -> f j <= g j.
Definition dearer (c : ctor) (k : nat) (ob ob' : obj) (h h' l l' cl cl' : nat -> Qc) : Prop :=
  let asks name := In name (required (asked c)) in
  (asks "high" -> under k ob ob' "high" h h') /\ (asks "low" -> under k ob ob' "low" l l') /\ (asks "close" -> under k ob ob' "close" cl cl').
(** the published columns that are averages or extremes of prices *)
Definition price_lines (c : ctor) : list string :=
  match c with
  | cMA _ (VStr t) => if existsb (String.eqb t) ["simple"; "exponential"; "triangular"] then ["ma-" ++ t] else []
  | cWS _ => ["ws"] | cMP _ => ["mp"] | cTP _ => ["tp"] | cWC => ["wc"]
  | cICH => ["tenkan_sen"; "kijun_sen"; "senkou_a"; "senkou_b"] | cPCH _ => ["highest_high"; "lowest_low"]
  | cBB _ _ => ["middle_band"] | cENV _ _ => ["upper_band"; "lower_band"]
  | _ => []
  end.

(** ** one close that is higher *)
(** the two inputs are the same, except that the close of row k is not lower in the second *)
Definition alike (n : nat) (ob ob' : obj) (name : string) (f : nat -> Qc) : Prop :=
  known (given name ob) (n - 1) f /\ known (given name ob') (n - 1) f.
Definition close_raised (c : ctor) (k : nat) (ob ob' : obj) (op h l cl cl' v : nat -> Qc) : Prop :=
  let n := days_given ob in let asks name := In name (required (asked c)) in
  days_given ob' = n /\ (k < n)%nat /\
  (asks "open" -> alike n ob ob' "open" op) /\ (asks "high" -> alike n ob ob' "high" h) /\
  (asks "low" -> alike n ob ob' "low" l) /\ (asks "volume" -> alike n ob ob' "volume" v) /\
  (asks "close" -> known (given "close" ob) (n - 1) cl /\ known (given "close" ob') (n - 1) cl') /\
  (forall j, j <> k -> cl' j = cl j) /\ cl k <= cl' k.
(** prices are positive, the close is within the day's range, volumes are not negative *)
Definition sound_days (n : nat) (h l cl v : nat -> Qc) : Prop :=
  forall j, (j < n)%nat -> 0 < l j /\ l j <= cl j /\ cl j <= h j /\ 0 <= v j.
(** the published columns whose value of the day does not fall when the close of the day is higher *)
Definition follows_close (c : ctor) : list string :=
  match c with
  | cADL => ["adl"] | cCMF _ => ["cmf"] | cCO => ["co"] | cCMO _ => ["cmo"] | cCCI _ => ["cci"] | cIMI _ => ["imi"]
  | cLRS _ => ["lrs"] | cLRI _ => ["lri"] | cTSF _ => ["tsf"] | cDEMA _ => ["dema"] | cTEMA _ => ["tema"] | cMOM _ => ["mom"]
  | cNVI => ["nvi"] | cOBV => ["obv"] | cPVI => ["pvi"] | cPVT => ["pvt"] | cPRF _ _ => ["prf"] | cPRC _ => ["prc"] | cPOSC _ _ => ["posc"]
  | cPROJ _ => ["posc"; "trigger_line"] | cQS _ => ["qstick"] | cRSI _ => ["rsi"] | cRMI _ _ => ["rmi"]
  | cSO _ _ _ (VStr t) => if String.eqb t "simple" then ["%K"; "%D"] else ["%K"]
  | cSMI _ _ _ => ["smi"] | cKO => ["ko"] | cSWI => ["swi"] | cUO => ["uosc"] | cWAD => ["wad"] | cWR _ => ["wr"]
  | cMA _ (VStr t) => if String.eqb t "time_series" then ["ma-time_series"] else []
  | _ => []
  end.
