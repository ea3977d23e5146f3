(** * ClimbSpec: words used in the statements about a market that rises every day, or falls every day, by whatever amounts. *)
From Coq Require Import ZArith QArith Qcanon Bool List String PeanoNat.
From Verif Require Import Num NumFacts Pandas Sim Frame FrameSpec Ind Signal Api IndSpec ApiSpec RangeSpec ValueSpec FormulaSpec SignalSpec.
Import ListNotations.
Open Scope list_scope. Open Scope string_scope. Open Scope Qc_scope.

(** up to row k every value is more than e above (below) the one before *)
Definition climbs_by (e : Qc) (c : nat -> Qc) (k : nat) : Prop := forall j, (j < k)%nat -> c j + e < c (S j).
Definition sinks_by (e : Qc) (c : nat -> Qc) (k : nat) : Prop := forall j, (j < k)%nat -> c (S j) + e < c j.
(** the unit of the last published decimal *)
Definition tick4 : Qc := Q2Qc (1 # 10000).

(** the whole column of the market the object works on *)
Definition column (name : string) (st : obj) (c : nat -> Qc) : Prop := forall j, (j < days_given st)%nat -> given name st j = Fin (c j).
Definition all_up (e : Qc) (st : obj) (c : nat -> Qc) : Prop := climbs_by e c (days_given st - 1).
Definition all_down (e : Qc) (st : obj) (c : nat -> Qc) : Prop := sinks_by e c (days_given st - 1).

(** the averages that follow the price: name, first row, shortest period that smooths enough *)
Definition smooth (t : string) (n : nat) : option nat :=
  if String.eqb t "simple" then if (2 <=? n)%nat then Some (n - 1)%nat else None
  else if String.eqb t "triangular" then if (2 <=? n)%nat then Some (2 * (n - 1))%nat else None
  else if String.eqb t "exponential" then if (3 <=? n)%nat then Some (n - 1)%nat else None
  else None.
