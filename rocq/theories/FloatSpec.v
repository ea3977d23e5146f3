(** * FloatSpec: what the statements about binary64 indicators speak of. *)
From Coq Require Import ZArith Reals Bool List.
From Flocq Require Import Core IEEE754.BinarySingleNaN.
From Verif Require Import FloatSim.
Import ListNotations.

(** the real number a finite float stands for *)
Definition val (x : f64) : R := @B2R 53 1024 x.
(** a number no larger than 2^1000 *)
Definition price (x : f64) : Prop := is_finite x = true /\ (Rabs (val x) <= bpow radix2 1000)%R.
(** the float nearest to k / 10000, as a program gets it: the division of two integers *)
Definition dec4 (k : Z) : f64 := fdiv (fz k 0) (fz 10000 0).
Definition cell (s : list f64) (i : nat) : f64 := nth i s fnan.
(** a history of days: every cell a price, low <= close <= high *)
Definition days (high low close : list f64) : Prop :=
  length high = length close /\ length low = length close /\
  forall i, (i < length close)%nat ->
    price (cell high i) /\ price (cell low i) /\ price (cell close i) /\
    (val (cell low i) <= val (cell close i) <= val (cell high i))%R.
(** rows max(0, k-p+1) .. k *)
Definition recent (p k i : nat) : Prop := (S k - p <= i <= k)%nat.
(** the published cell is a number between a and b *)
Definition between (a b : R) (x : f64) : Prop := is_finite x = true /\ (a <= val x <= b)%R.
Definition missing (x : f64) : Prop := is_nan x = true.
(** some low of the last p rows is below some high of them *)
Definition wide (p k : nat) (high low : list f64) : Prop :=
  exists i j, recent p k i /\ recent p k j /\ (val (cell low i) < val (cell high j))%R.
(** prices with at most four decimals, up to 2^46 / 10000 (seven billion) *)
Definition decimal_cells (s : list f64) : Prop := forall x, In x s -> exists k, (Z.abs k <= 2 ^ 46)%Z /\ x = dec4 k.
(** the highs and lows alone: every cell a price, low <= high *)
Definition bars_ok (high low : list f64) : Prop :=
  length low = length high /\
  forall i, (i < length high)%nat -> price (cell high i) /\ price (cell low i) /\ (val (cell low i) <= val (cell high i))%R.
