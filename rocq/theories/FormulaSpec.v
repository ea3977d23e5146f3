(** * FormulaSpec: the vocabulary of the textbook formulas.

    Everything here is ordinary arithmetic on sequences of rational numbers indexed
    by the row; nothing refers to the model of the code. *)
From Coq Require Import ZArith QArith Qcanon Bool List PeanoNat.
From Verif Require Import Num NumFacts RangeSpec ValueSpec.
Import ListNotations.
Open Scope Qc_scope.

(** missing before row a *)
Definition from (a k : nat) (v : num) : num := if (k <? a)%nat then NaN else v.
(** a / b with the result of the number type: infinite or missing when b = 0 *)
Definition ratio (a b : Qc) : num := ndiv (Fin a) (Fin b).
(** rounded to four decimals *)
Definition rn (v : num) : num := nround 4 v.

(** sum, mean, largest and smallest of the last p values up to row k *)
Definition sum_last (f : nat -> Qc) (p k : nat) : Qc := total (fun j => f (S k - p + j)%nat) p.
Definition mean_last (f : nat -> Qc) (p k : nat) : Qc := sum_last f p k / nq p.
Definition larger (a b : Qc) : Qc := if qltb a b then b else a.
Definition smaller (a b : Qc) : Qc := if qltb b a then b else a.
Fixpoint max_to (f : nat -> Qc) (a n : nat) : Qc :=
  match n with O => f a | S m => larger (max_to f a m) (f (a + n)%nat) end.
Fixpoint min_to (f : nat -> Qc) (a n : nat) : Qc :=
  match n with O => f a | S m => smaller (min_to f a m) (f (a + n)%nat) end.
Definition max_last (f : nat -> Qc) (p k : nat) : Qc := max_to f (S k - p) (p - 1).
Definition min_last (f : nat -> Qc) (p k : nat) : Qc := min_to f (S k - p) (p - 1).
Definition abs (a : Qc) : Qc := if qltb a 0 then - a else a.
Definition larger3 (a b c : Qc) : Qc := larger (larger a b) c.

(** exponential average with weight [alpha] for the newest value *)
Fixpoint ema (alpha : Qc) (f : nat -> Qc) (n : nat) : Qc :=
  match n with O => f O | S m => alpha * f n + (1 - alpha) * ema alpha f m end.
(** the weight for a span of p days *)
Definition span (p : nat) : Qc := zq 2 / nq (S p).
(** the p-day exponential average of the values from row a on *)
Definition ema_from (a p : nat) (f : nat -> Qc) (k : nat) : Qc := ema (span p) (fun j => f (a + j)%nat) (k - a).

(** a line that starts with [seed] in row a and moves from the previous value and the new
    input by [step] afterwards *)
Fixpoint run (step : Qc -> Qc -> Qc) (seed : Qc) (f : nat -> Qc) (n : nat) : Qc :=
  match n with O => seed | S m => step (run step seed f m) (f n) end.
Definition run_from (a : nat) (step : Qc -> Qc -> Qc) (seed : Qc) (f : nat -> Qc) (k : nat) : Qc :=
  run step seed (fun j => f (a + j)%nat) (k - a).
(** Wilder's smoothing: move 1/p of the way to the new value *)
Definition wilders (p : nat) (prev x : Qc) : Qc := prev + (x - prev) / nq p.

(** gain and loss of a change *)
Definition gain (d : Qc) : Qc := if qltb 0 d then d else 0.
Definition loss (d : Qc) : Qc := if qltb d 0 then - d else 0.
(** change over m rows *)
Definition change (m : nat) (f : nat -> Qc) (k : nat) : Qc := f k - f (k - m)%nat.

(** ** pieces of particular indicators *)
(** typical price *)
Definition typical (h l c : nat -> Qc) (j : nat) : Qc := (h j + l j + c j) / zq 3.
(** Wilder's true range; the first day has only its own range *)
Definition true_range (h l c : nat -> Qc) (j : nat) : Qc :=
  match j with O => h j - l j | S i => larger3 (h j - l j) (h j - c i) (c i - l j) end.
(** ease of movement: distance the midpoint moved over the box ratio *)
Definition middle (h l : nat -> Qc) (j : nat) : Qc := (h j + l j) / zq 2.
Definition box (h l v : nat -> Qc) (j : nat) : Qc := v j / (zq 10000 * (h j - l j)).
Definition ease (h l v : nat -> Qc) (j : nat) : Qc := (middle h l j - middle h l (j - 1)) / box h l v j.
(** buying pressure and range of the ultimate oscillator *)
Definition true_low (l c : nat -> Qc) (j : nat) : Qc := smaller (l j) (c (j - 1)%nat).
Definition true_high (h c : nat -> Qc) (j : nat) : Qc := larger (h j) (c (j - 1)%nat).
Definition pressure (l c : nat -> Qc) (j : nat) : Qc := c j - true_low l c j.
Definition reach (h l c : nat -> Qc) (j : nat) : Qc := true_high h c j - true_low l c j.
(** directional movement *)
Definition up_move (h : nat -> Qc) (j : nat) : Qc := h j - h (j - 1)%nat.
Definition down_move (l : nat -> Qc) (j : nat) : Qc := l (j - 1)%nat - l j.
Definition plus_move (h l : nat -> Qc) (j : nat) : Qc :=
  if qltb (down_move l j) (up_move h j) && qltb 0 (up_move h j) then up_move h j else 0.
Definition minus_move (h l : nat -> Qc) (j : nat) : Qc :=
  if qltb (up_move h j) (down_move l j) && qltb 0 (down_move l j) then down_move l j else 0.
(** running sum that forgets 1/14 each day; starts with the sum of the rows 1 .. 13 *)
Definition running (f : nat -> Qc) (k : nat) : Qc :=
  run_from 13 (fun prev x => prev - prev / zq 14 + x) (total (fun j => f (1 + j)%nat) 13) f k.
(** range indicator: range per price advance, then its place among the last r values *)
Definition strain (h l c : nat -> Qc) (j : nat) : Qc :=
  if qltb (c (j - 1)%nat) (c j) then true_range h l c j / (c j - c (j - 1)%nat) else true_range h l c j.
Definition place (r : nat) (f : nat -> Qc) (j : nat) : Qc :=
  if qltb (min_last f r j) (max_last f r j)
  then zq 100 * (f j - min_last f r j) / (max_last f r j - min_last f r j) else 0.
(** Klinger: direction of the typical price, the measurement carried within a trend, the volume force *)
Definition trend (h l c : nat -> Qc) (j : nat) : Qc :=
  if qltb (h (j - 1)%nat + l (j - 1)%nat + c (j - 1)%nat) (h j + l j + c j) then 1 else - (1).
Fixpoint measure (h l c : nat -> Qc) (j : nat) : Qc :=
  match j with
  | O => 0
  | S i => if (2 <=? j)%nat && qeqb (trend h l c j) (trend h l c i)
           then measure h l c i + (h j - l j) else (h i - l i) + (h j - l j)
  end.
Definition force (h l c v : nat -> Qc) (j : nat) : Qc :=
  v j * abs (zq 2 * ((h j - l j) / measure h l c j) - 1) * trend h l c j * zq 100.
(** swing index *)
Definition swing_span (o h l c : nat -> Qc) (j : nat) : Qc :=
  larger3 (abs (h j - c (j - 1)%nat)) (abs (l j - c (j - 1)%nat)) (h j - l j) + abs (c (j - 1)%nat - o (j - 1)%nat) / zq 4.
Definition swing (o h l c : nat -> Qc) (j : nat) : Qc :=
  zq 50 * (((c j - c (j - 1)%nat) + (c j - o j) / zq 2 + (c (j - 1)%nat - o (j - 1)%nat) / zq 4) / swing_span o h l c j)
  * (larger (abs (h j - c (j - 1)%nat)) (abs (l j - c (j - 1)%nat)) / zq 3).
Definition clip (a : Qc) : Qc := if qltb (zq 100) a then zq 100 else if qltb a (zq (-100)) then zq (-100) else a.
(** deviation on rising and on falling days (relative volatility) *)
Definition deviation (sq : Qc -> Qc) (f : nat -> Qc) (j : nat) : Qc := sq (variance (fun i => f (S j - 10 + i)%nat) 10).
Definition rising (sq : Qc -> Qc) (f : nat -> Qc) (j : nat) : Qc := if qltb 0 (change 1 f j) then deviation sq f j else 0.
Definition falling (sq : Qc -> Qc) (f : nat -> Qc) (j : nat) : Qc := if qltb (change 1 f j) 0 then deviation sq f j else 0.
(** Wilder average of the values from row a on: the mean of the first p, then smoothed *)
Definition wilder_from (a p : nat) (f : nat -> Qc) (k : nat) : Qc :=
  run_from (a + p - 1) (wilders p) (mean_last f p (a + p - 1)) f k.
(** the directional lines *)
Definition directional (h l c f : nat -> Qc) (j : nat) : Qc := zq 100 * running f j / running (true_range h l c) j.
Definition plus_di (h l c : nat -> Qc) : nat -> Qc := directional h l c (plus_move h l).
Definition minus_di (h l c : nat -> Qc) : nat -> Qc := directional h l c (minus_move h l).
Definition dx_line (h l c : nat -> Qc) (j : nat) : Qc :=
  zq 100 * abs (plus_di h l c j - minus_di h l c j) / abs (plus_di h l c j + minus_di h l c j).
Definition adx_line (h l c : nat -> Qc) (j : nat) : Qc :=
  run_from 27 (fun prev y => (zq 13 * prev + y) / zq 14) (total (fun i => dx_line h l c (14 + i)%nat) 14 / zq 14) (dx_line h l c) j.
(** ** straight lines through p values y 0 .. y (p-1) *)
(** squared distance of the line a + b i from the values *)
Definition misfit (y : nat -> Qc) (p : nat) (a b : Qc) : Qc :=
  total (fun i => (y i - (a + b * nq i)) * (y i - (a + b * nq i))) p.
(** no other line is closer *)
Definition best_line (y : nat -> Qc) (p : nat) (a b : Qc) : Prop :=
  forall a' b', misfit y p a b <= misfit y p a' b' /\ (misfit y p a' b' = misfit y p a b -> a' = a /\ b' = b).
(** the values of the last p rows up to row k *)
Definition last_rows (f : nat -> Qc) (p k : nat) (i : nat) : Qc := f (S k - p + i)%nat.
(** the coefficients *)
Definition fit_slope (y : nat -> Qc) (p : nat) : Qc :=
  (nq p * total (fun i => nq i * y i) p - total nq p * total y p)
  / (nq p * total (fun i => nq i * nq i) p - total nq p * total nq p).
Definition fit_start (y : nat -> Qc) (p : nat) : Qc := (total y p - fit_slope y p * total nq p) / nq p.
Definition slope_last (f : nat -> Qc) (p k : nat) : Qc := fit_slope (last_rows f p k) p.
Definition end_last (f : nat -> Qc) (p k : nat) : Qc :=
  fit_start (last_rows f p k) p + slope_last f p k * nq (p - 1).
(** the forecast for the next day as published: end point and slope are rounded separately *)
Definition forecast (f : nat -> Qc) (p k : nat) : Qc := r4 (slope_last f p k) + r4 (end_last f p k).
(** the values of the last p days projected along a slope to today: highest and lowest *)
Definition highest_projection (f : nat -> Qc) (p k : nat) : Qc :=
  max_to (fun j => nq j * slope_last f p k + f (k - j)%nat) 0 (p - 1).
Definition lowest_projection (f : nat -> Qc) (p k : nat) : Qc :=
  min_to (fun j => nq j * slope_last f p k + f (k - j)%nat) 0 (p - 1).
(** average whose weight for the newest price follows the momentum of the last nine days *)
Definition momentum9 (f : nat -> Qc) (j : nat) : Qc :=
  let u := sum_last (fun i => gain (change 1 f i)) 9 j in let d := sum_last (fun i => loss (change 1 f i)) 9 j in
  r4 (zq 100 * (u - d) / (u + d)).
Fixpoint weighted (w f : nat -> Qc) (m : nat) : Qc :=
  match m with
  | O => f 21%nat
  | S i => w (21 + m)%nat * f (21 + m)%nat + (1 - w (21 + m)%nat) * weighted w f i
  end.
Definition variable_line (p : nat) (f : nat -> Qc) (k : nat) : Qc :=
  weighted (fun j => span p * abs (momentum9 f j / zq 100)) f (k - 21).
