(** * UnitSpec: words used in the statements about other units of money and of volume. *)
From Coq Require Import ZArith QArith Qcanon Bool List String PeanoNat.
From Verif Require Import Num NumFacts Pandas Sim Frame FrameSpec Ind Signal Api IndSpec ApiSpec RangeSpec ValueSpec FormulaSpec SignalSpec MirrorSpec.
Import ListNotations.
Open Scope list_scope. Open Scope string_scope. Open Scope Qc_scope.

(** ** the same market in other units: one unit of money is a new ones, one unit of volume is u new ones *)
Definition times (a : Qc) (k : nat) (ob ob' : obj) (name : string) (f : nat -> Qc) : Prop :=
  known (given name ob) k f /\ known (given name ob') k (fun j => a * f j).
Definition exchanged (c : ctor) (a u : Qc) (ob ob' : obj) (op h l cl v : nat -> Qc) : Prop :=
  let n := days_given ob in let asks name := In name (required (asked c)) in
  days_given ob' = n /\
  (asks "open" -> times a (n - 1) ob ob' "open" op) /\ (asks "high" -> times a (n - 1) ob ob' "high" h) /\
  (asks "low" -> times a (n - 1) ob ob' "low" l) /\ (asks "close" -> times a (n - 1) ob ob' "close" cl) /\
  (asks "volume" -> times u (n - 1) ob ob' "volume" v).

(** ** columns that are ratios: the same numbers in any units *)
Definition ratios (c : ctor) : list string :=
  match c with
  | cCMO _ => ["cmo"] | cRMI _ _ => ["rmi"] | cIMI _ => ["imi"] | cWR _ => ["wr"] | cMOM _ => ["mom"] | cPRC _ => ["prc"] | cPOSC _ _ => ["posc"] | cPRF _ _ => ["prf"]
  | cCCI _ => ["cci"] | cSMI _ _ _ => ["smi"] | cVCH _ _ => ["vch"] | cVHF _ => ["vhf"] | cMI => ["mi"] | cUO => ["uosc"] | cDMI => ["+di"; "-di"; "dx"; "adx"; "adxr"]
  | cSO _ _ _ (VStr t) => if String.eqb t "simple" then ["%K"; "%D"] else ["%K"]
  | cCMF _ => ["cmf"] | cVRC _ => ["vrc"] | cNVI => ["nvi"] | cPVI => ["pvi"]
  | _ => []
  end.
(** ** columns that are amounts of money, of shares, of money per share, ... *)
Inductive dimension := Money | Shares | Money_per_share | Money_squared_per_share.
(** how many new units one old unit of the dimension is *)
Definition rate (a u : Qc) (d : dimension) : Qc :=
  match d with Money => a | Shares => u | Money_per_share => a / u | Money_squared_per_share => a * a / u end.
Definition dimensions (c : ctor) : list (string * dimension) :=
  match c with
  | cMA _ (VStr t) => if existsb (String.eqb t) ["simple"; "exponential"; "triangular"; "variable"] then [("ma-" ++ t, Money)] else []
  | cDEMA _ => [("dema", Money)] | cTEMA _ => [("tema", Money)] | cWS _ => [("ws", Money)] | cMP _ => [("mp", Money)] | cTP _ => [("tp", Money)] | cWC => [("wc", Money)]
  | cICH => [("tenkan_sen", Money); ("kijun_sen", Money); ("senkou_a", Money); ("senkou_b", Money)] | cPCH _ => [("highest_high", Money); ("lowest_low", Money)]
  | cFIB => [("rl_0.0", Money); ("rl_23.6", Money); ("rl_38.2", Money); ("rl_50.0", Money); ("rl_61.8", Money); ("rl_100.0", Money)]
  | cENV _ _ => [("upper_band", Money); ("lower_band", Money)] | cBB _ _ => [("middle_band", Money)] | cPB _ => [("upper_band", Money); ("lower_band", Money)]
  | cLRI _ => [("lri", Money)] | cLRS _ => [("lrs", Money)] | cATR => [("atr", Money)] | cQS _ => [("qstick", Money)] | cDPO _ => [("dpo", Money)]
  | cWAD => [("wad", Money)] | cPSAR => [("sar", Money)]
  | cOBV => [("obv", Shares)] | cPVT => [("pvt", Shares)] | cKO => [("ko", Shares)] | cVOSC _ _ => [("vosc", Shares)] | cADL => [("adl", Shares)]
  | cMFI => [("mfi", Money_per_share)]
  | cEMV _ => [("emv", Money_squared_per_share); ("emv_ma", Money_squared_per_share)]
  | _ => []
  end.
(** what is done to the exact value when it is published *)
Definition published (c : ctor) (x : num) : num :=
  match c with
  | cOBV => x
  | cADL => match x with Fin q => Fin (qtrunc q) | _ => x end
  | cMFI => nround 10 x
  | _ => nround 4 x
  end.
(** there is one exact value x of the day: the first object shows x, the second x in the new units *)
Definition converted (c : ctor) (r : Qc) (y y' : num) : Prop :=
  exists x, y = published c x /\ y' = published c (nmul (Fin r) x).

(** what must hold of the n days for the formula of row k to be the plain one *)
Definition workable (c : ctor) (n k : nat) (h l cl v : nat -> Qc) : Prop :=
  match c with
  | cADL | cCMF _ => forall j, (j < n)%nat -> l j <= cl j /\ cl j <= h j /\ l j < h j
  | cMI => forall j, (j < n)%nat -> l j < h j
  | cEMV _ => forall j, (j < n)%nat -> l j <> h j /\ v j <> 0
  | cATR => (13 <= k)%nat
  | cDMI => forall j, (14 <= j < n)%nat -> running (true_range h l cl) j <> 0 /\ plus_di h l cl j + minus_di h l cl j <> 0
  | cUO => forall w, In w [7; 14; 28]%nat -> (28 <= k)%nat -> sum_last (reach h l cl) w k <> 0
  | cSO p q _ _ => forall j, (nat_arg p + nat_arg q - 2 <= j <= k)%nat -> sum_last (fun i => max_last h (nat_arg p) i - min_last l (nat_arg p) i) (nat_arg q) j <> 0
  | cLRS p => (2 <= nat_arg p)%nat
  | cMA p (VStr "variable") => forall j, (22 <= j <= k)%nat -> exists i, (j - 9 < i <= j)%nat /\ cl i <> cl (i - 1)%nat
  | cKO => forall j, (1 <= j < n)%nat -> measure h l cl j <> 0
  | cNVI | cPVI | cPVT => forall j, (j < n)%nat -> cl j <> 0
  | cDPO p => (k + S (nat_arg p / 2) < n)%nat
  | cPSAR => (2 <= n)%nat
  | _ => True
  end.

(** ** indicators whose signals are the same in any units: all their columns are ratios (the volume of
    cOBV is only compared with itself), and the prices are only compared with each other *)
Definition unit_free (c : ctor) : Prop :=
  match c with
  | cCMO _ | cRMI _ _ | cIMI _ | cWR _ | cMOM _ | cPRC _ | cPOSC _ _ | cPRF _ _ | cCCI _ | cSMI _ _ _ | cVCH _ _ | cDMI
  | cVRC _ | cNVI | cPVI | cCMF _ | cUO | cOBV => True
  | cSO _ _ _ t => t = VStr "simple"
  | _ => False
  end.
Definition same_dates (ob ob' : obj) : Prop := index (ob_input ob') = index (ob_input ob).
