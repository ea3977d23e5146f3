(** * FloatSimSpec: words used in the statements about simulations in binary64. *)
From Coq Require Import ZArith QArith Qcanon Qreals Reals Bool List PeanoNat.
From Flocq Require Import Core IEEE754.BinarySingleNaN.
From Verif Require Import Num Sim FloatSim FloatSpec FloatAccSpec.
Import ListNotations.

(** bound for n days, prices up to K and a factor of A ten-thousandths: 30 n^2 / 2^53 times the
    largest amount one position can cost *)
Definition slack (n : nat) (K A : Z) : R :=
  (30 * (INR n * INR n) * (IZR K / 10000 * (IZR A / 10000)) / 9007199254740992)%R.
(** the float x is a number within e of the exact number a *)
Definition near (e : R) (x : f64) (a : num) : Prop :=
  match a with Fin q => is_finite x = true /\ (Rabs (val x - Q2R q) <= e)%R | _ => False end.
(** the exposure the day's signal asks for: the position of the signal comes on top of what is
    open; when it was not opened it is missing from the day's exposure *)
Definition asked (f : num) (r : simrow) : num :=
  match x_action r, x_signal r with
  | Some ANone, Some Sell => nadd (x_exposure r) (nmul f (x_stock r))
  | Some ANone, Some Buy => nadd (x_exposure r) (x_stock r)
  | _, _ => x_exposure r
  end.
(** a is more than e away from the limit l (in ten-thousandths), and from its float *)
Definition off_limit (e : R) (l : Z) (a : num) : Prop :=
  match a with Fin q => (e + Rabs (IZR l / 10000) / 4503599627370496 < Rabs (Q2R q - IZR l / 10000))%R | _ => False end.

(** the float nearest to m / 100 *)
Definition dec2 (m : Z) : f64 := fdiv (fz m 0) (fz 100 0).
(** what is used of round(x, 2): up to 2^43 it returns the float of a two-decimal number at most
    3/5 of a cent from x *)
Definition rounds (round2 : f64 -> f64) : Prop :=
  forall x, is_finite x = true -> (Rabs (val x) <= 8796093022208)%R ->
  exists m, is_finite (round2 x) = true /\ val (round2 x) = val (dec2 m) /\ (Rabs (IZR m - 100 * val x) <= 3 / 5)%R.
(** x is the float of a number of cents, a a number of cents, and they differ by at most one *)
Definition one_cent (x : f64) (a : num) : Prop :=
  exists m c, is_finite x = true /\ val x = val (dec2 m) /\ a = Fin (Q2Qc (Qmake c 100)) /\ (Z.abs (m - c) <= 1)%Z.
(** a is closest to c cents, and clearly so *)
Definition settled (e : R) (c : Z) (a : num) : Prop :=
  match a with Fin q => (Rabs (IZR c - 100 * Q2R q) < 2 / 5 - 100 * e)%R | _ => False end.

(** prices up to K ten-thousandths, a factor from 1 to 100, at most 2^20 days, signals for the
    first of the days; L is the limit in ten-thousandths, None for no limit *)
Definition tradable (K A : Z) (L : option Z) (ks : list Z) (sgs : list signal) : Prop :=
  (1 <= K <= 2 ^ 36)%Z /\ (10000 <= A <= 1000000)%Z /\ match L with Some l => (Z.abs l <= 2 ^ 46)%Z | None => True end /\
  (Z.of_nat (length sgs) <= 2 ^ 20)%Z /\ (forall k, In k ks -> (0 <= k <= K)%Z) /\ (length sgs <= length ks)%nat.
(** the two simulations of the same prices *)
Definition exact_sim (A : Z) (L : option Z) (ks : list Z) (sgs : list signal) : sim :=
  simulate (map (fun k => Fin (units k)) ks) (option_map (fun l => Fin (units l)) L) (Fin (units A)) sgs.
Definition float_sim (npsum : list f64 -> f64) (A : Z) (L : option Z) (ks : list Z) (sgs : list signal) : fsim :=
  fsimulate npsum (map dec4 ks) (option_map dec4 L) (dec4 A) sgs.
(** every purchase or sale after the first day asks for an exposure that is not too close to the limit *)
Definition off_limits (K A : Z) (L : option Z) (ks : list Z) (sgs : list signal) : Prop :=
  forall i, (1 <= i < length sgs)%nat -> nth i sgs Hold <> Hold ->
  match L with Some l => off_limit (slack (length sgs) K A) l (asked (Fin (units A)) (nth i (data (exact_sim A L ks sgs)) simrow0)) | None => True end.
