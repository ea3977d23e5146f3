(** * GapSpec: words used in the statements about missing prices. *)
From Coq Require Import ZArith QArith Qcanon Bool List String PeanoNat.
From Verif Require Import Num Pandas Frame Ind RangeSpec ValueSpec.
Import ListNotations.
Open Scope list_scope. Open Scope string_scope. Open Scope nat_scope.

(** the same list of days for several columns *)
Definition each (names prices : list string) (days : list nat) : list (string * string * list nat) :=
  flat_map (fun n => map (fun x => (n, x, days)) prices) names.
(** published column, input column, days: a value is published only if the prices that many days
    back are all there *)
Definition uses (i : ind) : list (string * string * list nat) :=
  let last n := seq 0 n in
  match i with
  | iADL => each ["adl"] ["close"; "volume"; "high"; "low"] [0]
  | iBB p _ => each ["middle_band"; "upper_band"; "lower_band"] ["close"] (last p)
  | iCMF p => each ["cmf"] ["close"; "volume"; "high"; "low"] (last p)
  | iCMO p => each ["cmo"] ["close"] (last (S p))
  | iEMV p => each ["emv"] ["high"; "low"] [0; 1] ++ each ["emv"] ["volume"] [0] ++
              each ["emv_ma"] ["high"; "low"] (last (S p)) ++ each ["emv_ma"] ["volume"] (last p)
  | iENV p _ => each ["upper_band"; "lower_band"] ["close"] (last p)
  | iFOSC _ => each ["fosc"] ["close"] [0]
  | iIMI p => each ["imi"] ["open"; "close"] (last p)
  | iLRS p => each ["lrs"] ["close"] (last p)
  | iMFI => each ["mfi"] ["high"; "low"; "volume"] [0]
  | iMP _ => each ["mp"] ["high"; "low"] [0]
  | iMOM p => each ["mom"] ["close"] [0; p]
  | iMA p MSimple => each ["ma-simple"] ["close"] (last p)
  | iMA p MTriangular => each ["ma-triangular"] ["close"] (last (p + p - 1))
  | iPRF _ _ => each ["prf"] ["close"] [0]
  | iPCH p => each ["highest_high"] ["high"] (seq 1 p) ++ each ["lowest_low"] ["low"] (seq 1 p)
  | iPOSC long short => each ["posc"] ["close"] (last (Nat.max long short))
  | iPRC p => each ["prc"] ["close"] [0; p]
  | iPROJ _ => each ["posc"] ["close"] [0]
  | iQS p => each ["qstick"] ["open"; "close"] (last p)
  | iSD p => each ["sd"] ["close"] (last p)
  | iSO k slow d _ => each ["%K"] ["close"] (last slow) ++ each ["%K"] ["high"; "low"] (last (k + slow - 1)) ++
                      each ["%D"] ["close"] (last (slow + d - 1)) ++ each ["%D"] ["high"; "low"] (last (k + slow + d - 2))
  | iSWI => each ["swi"] ["open"; "close"] [0; 1]
  | iUO => each ["uosc"] ["close"] (last 29) ++ each ["uosc"] ["high"; "low"] (last 28)
  | iVHF p => each ["vhf"] ["close"] (last (S p))
  | iVOSC long short => each ["vosc"] ["volume"] (last (Nat.max long short))
  | iVRC p => each ["vrc"] ["volume"] [0; p]
  | iWC => each ["wc"] ["close"; "high"; "low"] [0]
  | iWAD => each ["wad"] ["close"] [0; 1]
  | iWR p => each ["wr"] ["high"; "low"] (last p) ++ each ["wr"] ["close"] [0]
  | _ => []
  end.

(** published column, input column, first row, delay: a price missing on that row or a later
    one leaves every row missing from that many rows later to the end *)
Definition blanks (i : ind) : list (string * string * nat * nat) :=
  match i with
  | iDMI => flat_map (fun n => [(n, "high", 14, 0); (n, "low", 14, 0); (n, "close", 13, 1)]) ["+di"; "-di"; "dx"] ++
            flat_map (fun n => [(n, "high", 28, 0); (n, "low", 28, 0); (n, "close", 27, 1)]) ["adx"; "adxr"]
  | iMA _ MVariable => [("ma-variable", "close", 21, 0)]
  | iPVT => [("pvt", "close", 1, 0); ("pvt", "close", 0, 1); ("pvt", "volume", 1, 0)]
  | iRMI p m => [("rmi", "close", p + m, 0); ("rmi", "close", p, m)]
  | iWS p => [("ws", "close", p, 0)]
  | _ => []
  end.

(** what is known of a column: the price of a day, or that there is none *)
Definition cell_of (x : option Qc) : num := match x with Some q => Fin q | None => NaN end.
Definition sparse (x : nat -> num) (k : nat) (f : nat -> option Qc) : Prop := forall j, (j <= k)%nat -> x j = cell_of (f j).
(** a missing price counted as 0 *)
Definition or_zero (f : nat -> option Qc) (j : nat) : Qc := match f j with Some q => q | None => 0%Qc end.
(** the change since the day before, no change if one of the two is missing *)
Definition move (f : nat -> option Qc) (j : nat) : Qc :=
  match f j, f (j - 1) with Some a, Some b => (a - b)%Qc | _, _ => 0%Qc end.
