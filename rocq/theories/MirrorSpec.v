(** * MirrorSpec: words used in the statements about a market turned upside down. *)
From Coq Require Import ZArith QArith Qcanon Bool List String PeanoNat.
From Verif Require Import Num NumFacts Pandas Sim Frame FrameSpec Ind Signal Api IndSpec ApiSpec RangeSpec ValueSpec FormulaSpec SignalSpec.
Import ListNotations.
Open Scope list_scope. Open Scope string_scope. Open Scope Qc_scope.

(** the same constructor call was made on two inputs *)
Definition twice (c : ctor) (o : oracle) (raw raw' : rawframe) (b b' : bool) (ob ob' : obj) : Prop :=
  snd (construct o c (RFrame raw) (VBool b)) = Ok ob /\ snd (construct o c (RFrame raw') (VBool b')) = Ok ob'.
(** up to row k, column [name] of the first object is f and column [name'] of the second is m - f *)
Definition faces (m : Qc) (k : nat) (ob ob' : obj) (name name' : string) (f : nat -> Qc) : Prop :=
  known (given name ob) k f /\ known (given name' ob') k (fun j => m - f j).
(** a multiple of 0.0002: with such an m, rounding m - x and x to four decimals agree *)
Definition even_ticks (m : Qc) : Prop := exists z : Z, m = Q2Qc (2 * z # 10000).
(** buy instead of sell and sell instead of buy *)
Definition opposite (s : signal) : signal := match s with Buy => Sell | Sell => Buy | Hold => Hold end.

(** every price x of the first input is m - x in the second: the columns an indicator asks for, over all rows.
    What was a high is then a low; the volumes are the same. *)
Definition turned_over (c : ctor) (m : Qc) (ob ob' : obj) (op h l cl v : nat -> Qc) : Prop :=
  let n := days_given ob in let asks name := In name (required (asked c)) in
  days_given ob' = n /\
  (asks "open" -> faces m (n - 1) ob ob' "open" "open" op) /\
  (asks "high" -> faces m (n - 1) ob ob' "high" "low" h) /\ (asks "low" -> faces m (n - 1) ob ob' "low" "high" l) /\
  (asks "close" -> faces m (n - 1) ob ob' "close" "close" cl) /\
  (asks "volume" -> known (given "volume" ob) (n - 1) v /\ known (given "volume" ob') (n - 1) v).

(** how a published number changes *)
Inductive law := Same | Opposed | Rest | Rest_below | Across.
Definition follow (w : law) (m : Qc) (x : num) : num :=
  match w with
  | Same => x | Opposed => nneg x | Across => nsub (Fin m) x
  | Rest => nsub (Fin (zq 100)) x | Rest_below => nsub (Fin (zq (-100))) x
  end.
(** column of the second object, column of the first object it faces, law *)
Definition mirror_table (c : ctor) : list (string * string * law) :=
  match c with
  | cADL => [("adl", "adl", Opposed)] | cCMF _ => [("cmf", "cmf", Opposed)] | cCO => [("co", "co", Opposed)]
  | cCMO _ => [("cmo", "cmo", Opposed)] | cCCI _ => [("cci", "cci", Opposed)] | cDPO _ => [("dpo", "dpo", Opposed)]
  | cEMV _ => [("emv", "emv", Opposed); ("emv_ma", "emv_ma", Opposed)] | cKO => [("ko", "ko", Opposed)]
  | cLRS _ => [("lrs", "lrs", Opposed)] | cMACD => [("macd", "macd", Opposed); ("signal_line", "signal_line", Opposed)]
  | cOBV => [("obv", "obv", Opposed)] | cQS _ => [("qstick", "qstick", Opposed)] | cSMI _ _ _ => [("smi", "smi", Opposed)]
  | cSWI => [("swi", "swi", Opposed)] | cWAD => [("wad", "wad", Opposed)]
  | cIMI _ => [("imi", "imi", Rest)] | cRSI _ => [("rsi", "rsi", Rest)] | cRVI _ => [("rvi", "rvi", Rest)]
  | cPROJ _ => [("posc", "posc", Rest); ("trigger_line", "trigger_line", Rest)]
  | cSO _ _ _ (VStr t) => if String.eqb t "simple" then [("%K", "%K", Rest); ("%D", "%D", Rest)] else [("%K", "%K", Rest)]
  | cUO => [("uosc", "uosc", Rest)]
  | cWR _ => [("wr", "wr", Rest_below)]
  | cATR => [("atr", "atr", Same)] | cMFI => [("mfi", "mfi", Same)] | cMI => [("mi", "mi", Same)] | cSD _ => [("sd", "sd", Same)]
  | cVCH _ _ => [("vch", "vch", Same)] | cVHF _ => [("vhf", "vhf", Same)]
  | cDMI => [("+di", "-di", Same); ("-di", "+di", Same); ("dx", "dx", Same); ("adx", "adx", Same); ("adxr", "adxr", Same)]
  | cMA _ (VStr t) => if existsb (String.eqb t) ["simple"; "exponential"; "triangular"; "time_series"; "variable"] then [("ma-" ++ t, "ma-" ++ t, Across)] else []
  | cDEMA _ => [("dema", "dema", Across)] | cTEMA _ => [("tema", "tema", Across)] | cWS _ => [("ws", "ws", Across)]
  | cLRI _ => [("lri", "lri", Across)] | cTSF _ => [("tsf", "tsf", Across)] | cMP _ => [("mp", "mp", Across)]
  | cTP _ => [("tp", "tp", Across)] | cWC => [("wc", "wc", Across)] | cPSAR => [("sar", "sar", Across)]
  | cICH => [("tenkan_sen", "tenkan_sen", Across); ("kijun_sen", "kijun_sen", Across); ("senkou_a", "senkou_a", Across); ("senkou_b", "senkou_b", Across)]
  | cBB _ _ => [("upper_band", "lower_band", Across); ("middle_band", "middle_band", Across); ("lower_band", "upper_band", Across)]
  | cPB _ => [("upper_band", "lower_band", Across); ("lower_band", "upper_band", Across)]
  | cPCH _ => [("highest_high", "lowest_low", Across); ("lowest_low", "highest_high", Across)]
  | cFIB => [("rl_0.0", "rl_100.0", Across); ("rl_38.2", "rl_61.8", Across); ("rl_50.0", "rl_50.0", Across); ("rl_61.8", "rl_38.2", Across); ("rl_100.0", "rl_0.0", Across)]
  | _ => []
  end.
(** what must hold of the n days for the formula of row k to be the plain one: days with a range, days with volume,
    averages that are not divided by zero; and where the code treats a rise and a fall differently, that it does not matter *)
Definition ordinary (c : ctor) (n k : nat) (op h l cl v : nat -> Qc) : Prop :=
  match c with
  | cADL => forall j, (j < n)%nat -> l j <= cl j /\ cl j <= h j
  | cCMF _ | cCO => forall j, (j < n)%nat -> l j <= cl j /\ cl j <= h j /\ l j < h j
  | cMI => forall j, (j < n)%nat -> l j < h j
  | cEMV _ => forall j, (j < n)%nat -> l j <> h j /\ v j <> 0
  | cSWI => swing_span op h l cl k <> 0
  | cATR => (13 <= k)%nat
  | cDMI => forall j, (14 <= j < n)%nat -> running (true_range h l cl) j <> 0 /\ plus_di h l cl j + minus_di h l cl j <> 0
  | cUO => forall w, In w [7; 14; 28]%nat -> (28 <= k)%nat -> sum_last (reach h l cl) w k <> 0
  | cSO p q _ _ => forall j, (nat_arg p + nat_arg q - 2 <= j <= k)%nat -> sum_last (fun i => max_last h (nat_arg p) i - min_last l (nat_arg p) i) (nat_arg q) j <> 0
  | cPROJ p => forall j, (nat_arg p - 1 <= j <= k)%nat -> r4 (highest_projection h (nat_arg p) j) <> r4 (lowest_projection l (nat_arg p) j)
  | cLRS p => (2 <= nat_arg p)%nat
  | cMA p (VStr "time_series") => (2 <= nat_arg p)%nat
  | cMA p (VStr "variable") => forall j, (22 <= j <= k)%nat -> exists i, (j - 9 < i <= j)%nat /\ cl i <> cl (i - 1)%nat
  (** the typical price moves every day *)
  | cKO => forall j, (1 <= j < n)%nat -> measure h l cl j <> 0 /\ h j + l j + cl j <> h (j - 1)%nat + l (j - 1)%nat + cl (j - 1)%nat
  (** from the first day to the second, the high rises or the low falls, and not both *)
  | cPSAR => (2 <= n)%nat /\ (h 0%nat < h 1%nat <-> l 0%nat <= l 1%nat)
  | _ => True
  end.

(** the rules that treat a rise and a fall alike, and what must hold of the first object where they overlap *)
Definition even_handed (c : ctor) (ob : obj) : Prop :=
  match c with
  | cADL | cCMF _ | cCO | cCMO _ | cCCI _ | cDPO _ | cDMI | cEMV _ | cIMI _ | cKO | cLRI _ | cLRS _ | cMI | cMACD | cOBV | cPSAR
  | cPROJ _ | cQS _ | cRSI _ | cRVI _ | cSMI _ _ _ | cSWI | cTSF _ | cTEMA _ | cWC | cWS _ | cWR _ => True
  | cMP p => (2 <= nat_arg p \/ 2 <= days_shown ob)%nat
  (** the bands have not crossed *)
  | cBB _ _ => ~ less (ago "upper_band" ob 1) (ago "lower_band" ob 1)
  | cPCH _ => ~ less (ago "highest_high" ob 1) (ago "lowest_low" ob 1)
  | cPB _ => ~ less (ago "upper_band" ob 1) (ago "lower_band" ob 1)
  (** the two lines do not leave opposite extremes on one day *)
  | cSO _ _ _ t => t = VStr "simple" /\
      ~ ((fell_through (ago "%K" ob) (level 80) \/ fell_through (ago "%D" ob) (level 80)) /\
         (rose_through (ago "%K" ob) (level 20) \/ rose_through (ago "%D" ob) (level 20)))
  (** the close is not at once the lowest and the highest of thirty days *)
  | cWAD => ~ (lowest_now (price "close" ob) 30 /\ highest_now (price "close" ob) 30)
  | _ => False
  end.
