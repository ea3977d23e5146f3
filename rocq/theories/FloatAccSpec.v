(** * FloatAccSpec: what the accuracy statements speak of. *)
From Coq Require Import String ZArith QArith Qcanon Qreals Reals Bool List.
From Flocq Require Import Core IEEE754.BinarySingleNaN.
From Verif Require Import Num FloatSim FloatSpec.
Import ListNotations.

(** k ten-thousandths *)
Definition units (k : Z) : Qc := Q2Qc (Qmake k 10000).
(** the prices f 0, f 1, ... counted in ticks of t ten-thousandths: exact, and as n floats *)
Definition prices (t : Z) (f : nat -> Z) (i : nat) : Qc := units (t * f i).
Definition column (t : Z) (f : nat -> Z) (n : nat) : list f64 := map (fun i => dec4 (t * f i)) (seq 0 n).
(** at most 2^24 ticks of at most 2^20 ten-thousandths, on n rows *)
Definition fits (t : Z) (f : nat -> Z) (n : nat) : Prop :=
  (1 <= t <= 2 ^ 20)%Z /\ forall i, (i < n)%nat -> (Z.abs (f i) <= 2 ^ 24)%Z.
(** x was published where exact arithmetic has u before rounding to four decimals: the float of a
    four-decimal number less than 3/5 of a unit of the fourth decimal away *)
Definition tracks (x : f64) (u : num) : Prop :=
  match u with
  | NaN => missing x
  | PInf => x = B754_infinity false
  | NInf => x = B754_infinity true
  | Fin q => exists m : Z, is_finite x = true /\ val x = val (dec4 m) /\ (Rabs (IZR m - 10000 * Q2R q) <= 3 / 5)%R
  end.
(** the published float x is the published exact number a, give or take one in the fourth decimal *)
Definition agrees (x : f64) (a : num) : Prop :=
  match a with
  | NaN => missing x
  | PInf => x = B754_infinity false
  | NInf => x = B754_infinity true
  | Fin q => exists m n : Z, q = units n /\ (Z.abs (m - n) <= 1)%Z /\ is_finite x = true /\ val x = val (dec4 m)
  end.
(** the retracement levels: column name and thousandths of the way down *)
Definition level_names : list (String.string * Z) :=
  [("rl_0.0", 0%Z); ("rl_23.6", 236%Z); ("rl_38.2", 382%Z); ("rl_50.0", 500%Z); ("rl_61.8", 618%Z); ("rl_100.0", 1000%Z)]%string.
