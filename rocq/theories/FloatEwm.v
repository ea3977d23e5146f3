(** * FloatEwm: the exponential and Wilder averages in IEEE-754 binary64.

    The loop of pandas' ewm(...).mean() on floats, operation by operation, and the
    indicators that are built from it alone; Wilder's smoothing.  Operations: FloatSim.v,
    rounding: FloatInd.v. *)
From Coq Require Import ZArith Bool List PeanoNat.
From Flocq Require Import Core.Zaux IEEE754.BinarySingleNaN.
From Verif Require Import Pandas FloatSim FloatInd.
Import ListNotations.
Open Scope list_scope.

Definition fone : f64 := fz 1 0.
Definition ftwo : f64 := fz 2 0.
Definition fthree : f64 := fz 3 0.
(** x == y *)
Definition feqb : f64 -> f64 -> bool := Beqb.
(** span p: com = (p - 1) / 2, alpha = 1 / (1 + com) (pandas/core/window/ewm.py, aggregations.pyx:ewm) *)
Definition falpha (p : nat) : f64 := fdiv fone (fadd fone (fdiv (fz (Z.of_nat p - 1) 0) ftwo)).
(** a new observation x: the average stays when it equals x ("avoid numerical errors on constant series") *)
Definition fmove (alpha ow w x : f64) : f64 :=
  if feqb w x then w else fdiv (fadd (fmul ow w) (fmul alpha x)) (fadd ow alpha).
(** ewm(span=p, min_periods=m, adjust=False).mean(): the loop of aggregations.pyx:ewm with normalize
    and without adjust and ignore_na.  [w]: the average so far, [ow]: its weight; infinite cells
    count as missing.  The loop starts with the first cell: here with no average and weight 1. *)
Fixpoint fewm_from (alpha : f64) (m : nat) (w ow : f64) (nobs : nat) (s : fseries) : fseries :=
  match s with
  | [] => []
  | x :: r =>
      let obs := is_finite x in
      let nobs' := if obs then S nobs else nobs in
      let decayed := fmul ow (fsub fone alpha) in
      let w' := if is_nan w then (if obs then x else w) else if obs then fmove alpha decayed w x else w in
      let ow' := if is_nan w then ow else if obs then fone else decayed in
      (if m <=? nobs' then w' else fnan) :: fewm_from alpha m w' ow' nobs' r
  end.
Definition fewm (p m : nat) (s : fseries) : fseries := fewm_from (falpha p) m fnan fone 0 s.

(** _moving_average.py:126-129, 176: ma_type 'exponential' *)
Definition fema (p : nat) (close : fseries) : fseries := map fround4 (fewm p p close).
(** _double_exponential_moving_average.py:87-97 *)
Definition fdema (p : nat) (close : fseries) : fseries :=
  let e := fewm p p close in fmap2 (fun a b => fround4 (fsub (fmul ftwo a) b)) e (fewm p p e).
(** _triple_exponential_moving_average.py:87-102 *)
Definition ftema (p : nat) (close : fseries) : fseries :=
  let e := fewm p p close in let e2 := fewm p p e in
  fmap3 (fun a b c => fround4 (fadd (fsub (fmul fthree a) (fmul fthree b)) c)) e e2 (fewm p p e2).
(** _moving_average_convergence_divergence.py:75-88 *)
Definition fmacd_raw (close : fseries) : fseries := fmap2 fsub (fema 12 close) (fema 26 close).
Definition fmacd (close : fseries) : fseries := map fround4 (fmacd_raw close).
Definition fmacd_signal (close : fseries) : fseries := map fround4 (fewm 9 9 (fmacd_raw close)).

(** _wilders_smoothing.py:88-100, row p - 1 + n before the rounding; [npsum] is the sum inside mean() *)
Section Ws.
Variable npsum : list f64 -> f64.
Fixpoint fws_line (p n : nat) (close : fseries) : f64 :=
  match n with
  | O => fmean npsum (firstn p close)
  | S m => let prev := fws_line p m close in fadd prev (fdiv (fsub (nth (p + m) close fnan) prev) (fz (Z.of_nat p) 0))
  end.
Definition fws (p : nat) (close : fseries) (k : nat) : f64 :=
  if S k <? p then fnan else fround4 (fws_line p (S k - p) close).
End Ws.
