(** * MemorySpec: words used in the statements about how far back an indicator looks. *)
From Coq Require Import ZArith QArith Qcanon Bool List String PeanoNat.
From Verif Require Import Num Pandas Frame Ind RangeSpec.
Import ListNotations.
Open Scope list_scope. Open Scope string_scope.

(** the caller's data without the rows dated before t, and how many rows these are *)
Definition since (t : Z) (f : rawframe) : rawframe :=
  mkRaw (r_datetime f) (r_labels f) (r_numeric f) (filter (fun r => Z.leb t (fst r)) (r_rows f)).
Definition earlier (t : Z) (f : rawframe) : nat := List.length (filter (fun r => Z.ltb (fst r) t) (r_rows f)).

(** no cell of the columns is missing *)
Definition gapless (cs : list string) (f : rawframe) : Prop :=
  forall c r, In c cs -> In r (r_rows f) -> raw_cell f c r <> NaN.

(** how many rows before its own row a cell of the column depends on; None: on all of them *)
Definition lookback (i : ind) (c : string) : option nat :=
  match i, c with
  | iBB p _, ("middle_band" | "upper_band" | "lower_band") => Some (p - 1)
  | iCMF p, "cmf" => Some (p - 1)
  | iCMO p, "cmo" => Some p
  | iCCI p, "cci" => Some (p - 1)
  | iDPO p, "dpo" => Some (p - 1 - S (p / 2))
  | iEMV _, "emv" => Some 1
  | iEMV p, "emv_ma" => Some p
  | iENV p _, ("upper_band" | "lower_band") => Some (p - 1)
  | iFOSC p, "fosc" => Some p
  | iICH, "tenkan_sen" => Some 8
  | iICH, "kijun_sen" => Some 25
  | iICH, "senkou_a" => Some 51
  | iICH, "senkou_b" => Some 77
  | iIMI p, "imi" => Some (p - 1)
  | iLRI p, "lri" => Some (p - 1)
  | iLRS p, "lrs" => Some (p - 1)
  | iMFI, "mfi" => Some 0
  | iMP _, "mp" => Some 0
  | iMOM p, "mom" => Some p
  | iMA p MSimple, "ma-simple" => Some (p - 1)
  | iMA p MTimeSeries, "ma-time_series" => Some (p - 1)
  | iMA p MTriangular, "ma-triangular" => Some (2 * (p - 1))
  | iPRF PLong _, "target_LONG" => Some 0
  | iPRF PShort _, "target_SHORT" => Some 0
  | iPCH p, ("highest_high" | "lowest_low") => Some p
  | iPOSC long _, "posc" => Some (long - 1)
  | iPRC p, "prc" => Some p
  | iPB p, ("upper_band" | "lower_band") => Some (p - 1)
  | iPROJ p, "posc" => Some (p - 1)
  | iQS p, "qstick" => Some (p - 1)
  | iSD p, "sd" => Some (p - 1)
  | iSO k slow _ _, "%K" => Some (k - 1 + (slow - 1))
  | iSO k slow d _, "%D" => Some (k - 1 + (slow - 1) + (d - 1))
  | iSWI, "swi" => Some 1
  | iTSF p, "tsf" => Some (p - 1)
  | iTP _, "tp" => Some 0
  | iUO, "uosc" => Some 28
  | iVHF p, "vhf" => Some p
  | iVOSC long _, "vosc" => Some (long - 1)
  | iVRC p, "vrc" => Some p
  | iWC, "wc" => Some 0
  | iWAD, "wad" => Some 1
  | iWR p, "wr" => Some (p - 1)
  | _, _ => None
  end%nat.
