(** * FloatEwmSpec: what the statements about recursive averages in binary64 speak of. *)
From Coq Require Import ZArith QArith Qcanon Qreals Reals Bool List.
From Flocq Require Import Core IEEE754.BinarySingleNaN.
From Verif Require Import Num FloatSim FloatSpec FloatAccSpec.

(** prices of f i ten-thousandths on n rows, and a period p: price * (p + 1) stays below
    2^41 ten-thousandths, which is 219 million (a 200-day average of prices up to a million) *)
Definition moderate (p : nat) (f : nat -> Z) (n : nat) : Prop :=
  forall i, (i < n)%nat -> ((Z.abs (f i) + 1) * (Z.of_nat p + 1) <= 2 ^ 41)%Z.
(** x is the float of a four-decimal number at most d units of the fourth decimal away from u *)
Definition within (d : R) (x : f64) (u : num) : Prop :=
  match u with
  | NaN => missing x
  | PInf => x = B754_infinity false
  | NInf => x = B754_infinity true
  | Fin q => exists m : Z, is_finite x = true /\ val x = val (dec4 m) /\ (Rabs (IZR m - 10000 * Q2R q) <= d)%R
  end.
(** the published float x is the published exact number a, give or take d in the fourth decimal *)
Definition apart (d : Z) (x : f64) (a : num) : Prop :=
  match a with
  | NaN => missing x
  | PInf => x = B754_infinity false
  | NInf => x = B754_infinity true
  | Fin q => exists m n : Z, q = units n /\ (Z.abs (m - n) <= d)%Z /\ is_finite x = true /\ val x = val (dec4 m)
  end.
