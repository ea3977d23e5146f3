(** * SarSpec: Wilder's stop-and-reverse rules, in ordinary arithmetic.

    h and l are the highs and lows by row; nothing refers to the model of the code. *)
From Coq Require Import ZArith QArith Qcanon Bool List PeanoNat.
From Verif Require Import Num NumFacts RangeSpec ValueSpec FormulaSpec.
Open Scope Qc_scope.

(** the trend on a day: its direction, the acceleration factor, the highest high
    (lowest low) reached in it, the stop, and the day it began *)
Record trend := mkTrend { rising : bool; factor : Qc; extreme : Qc; stop : Qc; since : nat }.
Definition step02 : Qc := Q2Qc (2 # 100).
Definition cap20 : Qc := Q2Qc (2 # 10).
(** lowest / highest of the days a .. b *)
Definition lowest (l : nat -> Qc) (a b : nat) : Qc := min_to l a (b - a).
Definition highest (h : nat -> Qc) (a b : nat) : Qc := max_to h a (b - a).

Section Wilder.
  Variables h l : nat -> Qc.
  (** the first direction is guessed from the first two highs *)
  Definition trend_first : trend :=
    if qltb (h 0%nat) (h 1%nat) then mkTrend true step02 (h 0%nat) (l 0%nat) 0 else mkTrend false step02 (l 0%nat) (h 0%nat) 0.
  (** the stop for day k+1 after the trend t of day k: it moves towards the extreme by the
      factor, but in a rising trend not above the lows of the two days before, in a
      falling one not below their highs *)
  Definition moved (t : trend) : Qc := stop t + factor t * (extreme t - stop t).
  Definition stop_for (t : trend) (k : nat) : Qc :=
    if rising t then smaller (moved t) (lowest l (k - 1) k) else larger (moved t) (highest h (k - 1) k).
  (** the price of day k+1 goes through that stop *)
  Definition broken (t : trend) (k : nat) : bool :=
    if rising t then qltb (l (S k)) (stop_for t k) else qltb (stop_for t k) (h (S k)).
  (** the opposite trend begins at the extreme of the old one *)
  Definition turned (t : trend) (k : nat) : trend :=
    if rising t then mkTrend false step02 (l (S k)) (highest h (since t) k) (S k)
    else mkTrend true step02 (h (S k)) (lowest l (since t) k) (S k).
  (** the trend goes on; the factor grows with every new extreme, up to 0.20 *)
  Definition went_on (t : trend) (k : nat) : trend :=
    let e := if rising t then highest h (since t) (S k) else lowest l (since t) (S k) in
    let new := if rising t then qltb (extreme t) e else qltb e (extreme t) in
    mkTrend (rising t) (if new then smaller cap20 (factor t + step02) else factor t) e (stop_for t k) (since t).
  Fixpoint trend_at (k : nat) : trend :=
    match k with
    | O => trend_first
    | S j => let t := trend_at j in if broken t j then turned t j else went_on t j
    end.
End Wilder.
