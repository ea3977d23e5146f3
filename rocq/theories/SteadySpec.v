(** * SteadySpec: words used in the statements about a market that moves by the same amount every day. *)
From Coq Require Import ZArith QArith Qcanon Bool List String PeanoNat.
From Verif Require Import Num NumFacts Pandas Sim Frame FrameSpec Ind Signal Api IndSpec ApiSpec RangeSpec ValueSpec FormulaSpec SignalSpec.
Import ListNotations.
Open Scope list_scope. Open Scope string_scope. Open Scope Qc_scope.

(** up to row k the values move by d every day *)
Definition straight (f : nat -> Qc) (k : nat) (d : Qc) : Prop := forall j, (j <= k)%nat -> f j = f O + d * nq j.
(** the high is u above and the low s below the close every day *)
Definition parallel (h l c : nat -> Qc) (k : nat) (u s : Qc) : Prop := forall j, (j <= k)%nat -> h j = c j + u /\ l j = c j - s.

(** the columns that follow the price: first row, and by how many days they are late in row k *)
Definition late (c : ctor) (k : nat) : list (string * nat * Qc) :=
  match c with
  | cMA p (VStr t) => let n := nat_arg p in
    if String.eqb t "simple" then [("ma-simple", (n - 1)%nat, (nq n - 1) / zq 2)]
    else if String.eqb t "triangular" then [("ma-triangular", (2 * (n - 1))%nat, nq n - 1)]
    else if String.eqb t "exponential" then [("ma-exponential", (n - 1)%nat, (nq n - 1) / zq 2 * (1 - (1 - span n) ^ k))]
    else []
  | cBB p _ => let n := nat_arg p in [("middle_band", (n - 1)%nat, (nq n - 1) / zq 2)]
  | cWS p => let n := nat_arg p in [("ws", (n - 1)%nat, (nq n - 1) * (1 - (1 - 1 / nq n) ^ (k - (n - 1)) / zq 2))]
  | cDEMA p => let n := nat_arg p in let r := 1 - span n in let m := (k - (n - 1))%nat in
    [("dema", (2 * (n - 1))%nat, (nq n - 1) / zq 2 * (r ^ m - (1 - span n * nq m) * r ^ k))]
  | cLRI p => if (2 <=? nat_arg p)%nat then [("lri", (nat_arg p - 1)%nat, 0)] else []
  | _ => []
  end.
(** the value 400/3 (e - 1)/e of the commodity channel index, e the next even number *)
Definition channel_of (p : nat) : Qc := let e := nq (2 * (S p / 2)) in zq 400 * (e - 1) / (zq 3 * e).
(** 100 on a rise, -100 (or 0) on a fall *)
Definition by_direction (d x y : Qc) : Qc := if qltb 0 d then x else y.
(** the largest of the day's range and the distances from the previous close *)
Definition daily_range (u s d : Qc) : Qc := larger3 (u + s) (u + d) (s - d).

(** the close of every day the indicator knows is d above that of the day before *)
Definition moves_by (st : obj) (d : Qc) : Prop := exists q, forall j, (j < days_given st)%nat -> given "close" st j = Fin (q + d * nq j).
(** and the high is u above, the low s below the close *)
Definition candles (st : obj) (d u s : Qc) : Prop := exists q, forall j, (j < days_given st)%nat ->
  given "close" st j = Fin (q + d * nq j) /\ given "high" st j = Fin (q + d * nq j + u) /\ given "low" st j = Fin (q + d * nq j - s).
(** indicators that have the same value every day then, and only signal when it changes *)
Definition unmoved (c : ctor) (d : Qc) : Prop :=
  match c with
  | cCMO _ | cRMI _ _ => d <> 0
  | cRSI _ => r4 d <> 0
  | cLRS p => (2 <= nat_arg p)%nat
  | _ => False
  end.
