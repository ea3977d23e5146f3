(** * RecentSpec: words used in the statements about the days an advice rests on. *)
From Coq Require Import ZArith QArith Qcanon Bool List String PeanoNat.
From Verif Require Import Num Pandas Sim Frame Ind Signal Api.
Import ListNotations.

(** how many days before its own day an advice depends on; None: on all of them, or on a number that depends on the data *)
Definition advice_reach (i : ind) : option nat :=
  match i with
  | iBB p _ | iENV p _ | iPB p | iCCI p => Some (p - 1)
  | iPCH p => Some p
  | iCMF p => Some (Nat.max p 2)
  | iCMO p | iEMV p | iFOSC p => Some (p + 1)
  | iICH => Some 77
  | iIMI p | iLRI p | iLRS p | iTSF p => Some (p - 1 + 1)
  | iMFI | iWC => Some 1
  | iMA p MSimple | iMA p MTimeSeries => Some (p - 1)
  | iMA p MTriangular => Some (2 * (p - 1))
  | iPOSC long _ => Some (long - 1 + 1)
  | iPRC p | iVRC p => Some (p + 2)
  | iQS p => Some (p - 1 + 3)
  | iSO k slow d _ => Some (k - 1 + (slow - 1) + (d - 1) + 1)
  | iSWI => Some 2
  | iVOSC long _ => Some (long - 1 + 2)
  | iWAD => Some 30
  | _ => None
  end%nat.
