(** * ValueSpec: words used in the statements about single indicator values. *)
From Coq Require Import ZArith QArith Qcanon Bool List String PeanoNat.
From Verif Require Import Num NumFacts Pandas Frame Ind Signal Api IndSpec ApiSpec RangeSpec.
Import ListNotations.
Open Scope list_scope. Open Scope Qc_scope.

(** row j of a column of the data the indicator works on, and of getTiData *)
Definition given (c : string) (ob : obj) (j : nat) : num := cell_at c j (ob_input ob).
Definition shown (c : string) (ob : obj) (j : nat) : num := cell_at c j (get_ti_data ob).
(** number of rows the indicator works on *)
Definition days_given (ob : obj) : nat := List.length (rows (ob_input ob)).

(** f 0 + ... + f (n-1), and the mean *)
Fixpoint total (f : nat -> Qc) (n : nat) : Qc :=
  match n with O => 0 | S k => total f k + f k end.
Definition nq (n : nat) : Qc := zq (Z.of_nat n).
Definition mean (f : nat -> Qc) (n : nat) : Qc := total f n / nq n.
(** mean squared distance from the mean *)
Definition variance (f : nat -> Qc) (n : nat) : Qc :=
  mean (fun j => (f j - mean f n) * (f j - mean f n)) n.
Definition r4 (q : Qc) : Qc := qround 4 q.

(** the last p rows up to row k are all finite numbers, f 0 ... f (p-1) *)
Definition win (x : nat -> num) (p k : nat) (f : nat -> Qc) : Prop :=
  (p <= S k)%nat /\ forall j, (j < p)%nat -> x (S k - p + j)%nat = Fin (f j).
(** v is computed by g from the last p values, and missing when one of them is missing
    or infinite or there are fewer than p rows *)
Definition rolled (x : nat -> num) (p k : nat) (v : num) (g : (nat -> Qc) -> num) : Prop :=
  (forall f, win x p k f -> v = g f) /\ ((forall f, ~ win x p k f) -> v = NaN).

(** M is the largest / smallest finite value on rows a .. b *)
Definition highest (x : nat -> num) (a b : nat) (M : Qc) : Prop :=
  (exists j, (a <= j <= b)%nat /\ x j = Fin M) /\ forall j q, (a <= j <= b)%nat -> x j = Fin q -> q <= M.
Definition lowest (x : nat -> num) (a b : nat) (m : Qc) : Prop :=
  (exists j, (a <= j <= b)%nat /\ x j = Fin m) /\ forall j q, (a <= j <= b)%nat -> x j = Fin q -> m <= q.
Definition none_finite (x : nat -> num) (a b : nat) : Prop := forall j, (a <= j <= b)%nat -> isfin (x j) = false.

(** every present value on rows 0 .. k is a number from lo to hi *)
Definition seen_between (x : nat -> num) (k : nat) (lo hi : Qc) : Prop :=
  forall j, (j <= k)%nat -> between lo hi (x j).
(** v is half way between the highest x and the lowest y of the rows a .. b *)
Definition midpoint (x y : nat -> num) (a b : nat) (v : num) : Prop :=
  (exists M m, highest x a b M /\ lowest y a b m /\ v = Fin ((M + m) / zq 2)) \/
  ((none_finite x a b \/ none_finite y a b) /\ v = NaN).
(** every cell of the rows a .. b is a finite number; some cell is not *)
Definition full (x : nat -> num) (a b : nat) : Prop := forall j, (a <= j <= b)%nat -> isfin (x j) = true.
Definition gap (x : nat -> num) (a b : nat) : Prop := exists j, (a <= j <= b)%nat /\ isfin (x j) = false.
(** the retracement levels: column name and fraction of the way down *)
Open Scope string_scope.
Definition levels : list (string * Qc) :=
  [("rl_0.0", zq 0); ("rl_23.6", Q2Qc (236 # 1000)); ("rl_38.2", Q2Qc (382 # 1000)); ("rl_50.0", Q2Qc (1 # 2));
   ("rl_61.8", Q2Qc (618 # 1000)); ("rl_100.0", zq 1)].

(** ** lines that are carried from day to day *)
Section Lines.
Local Open Scope Qc_scope.
(** rows 0 .. k of a column are the finite numbers f 0 .. f k *)
Definition known (x : nat -> num) (k : nat) (f : nat -> Qc) : Prop := forall j, (j <= k)%nat -> x j = Fin (f j).
(** on balance volume: add the volume on a rising day, subtract it on a falling day *)
Fixpoint obv_line (c v : nat -> Qc) (k : nat) : Qc :=
  match k with
  | O => 0
  | S j => obv_line c v j + (if qltb (c j) (c k) then v k else if qltb (c k) (c j) then - v k else 0)
  end.
(** price and volume trend: add volume times the relative price change *)
Fixpoint pvt_line (c v : nat -> Qc) (k : nat) : Qc :=
  match k with O => 0 | S j => pvt_line c v j + v k * ((c k - c j) / c j) end.
(** volume indices: start at 1000; on the days that count move by the relative price change *)
Fixpoint index_line (counts : Qc -> Qc -> bool) (c v : nat -> Qc) (k : nat) : Qc :=
  match k with
  | O => zq 1000
  | S j => let prev := index_line counts c v j in
           if counts (v j) (v k) then prev * (1 + (c k - c j) / c j) else prev
  end.
(** accumulation/distribution: the volume weighted by the position of the close in
    the day's range, -1 at the low to +1 at the high; nothing on a day without range *)
Definition adl_move (h l c v : Qc) : Qc := if qltb l h then v * (((c - l) - (h - c)) / (h - l)) else 0.
End Lines.
