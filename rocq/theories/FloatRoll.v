(** * FloatRoll: rolling means and sums in IEEE-754 binary64.

    The loops roll_mean and roll_sum of pandas 2.3 (pandas/_libs/window/aggregations.pyx, not
    part of /repo) for a window of w rows, operation by operation, and the indicators that
    are built from them alone.  Operations: FloatSim.v, rounding: FloatInd.v. *)
From Coq Require Import ZArith Bool List PeanoNat.
From Flocq Require Import Core.Zaux IEEE754.BinarySingleNaN.
From Verif Require Import Pandas FloatSim FloatInd FloatEwm.
Import ListNotations.
Open Scope list_scope.

(** sum_x, compensation_add, compensation_remove, prev_value, nobs, neg_ct, num_consecutive_same_value *)
Record roll := mkRoll { ro_sum : f64; ro_add : f64; ro_rem : f64; ro_prev : f64; ro_nobs : nat; ro_neg : nat; ro_same : nat }.
Definition fneg (x : f64) : f64 := Bopp x.
(** infinite cells become missing before the loop (_prep_values) *)
Definition seen (x : f64) : f64 := if is_finite x then x else fnan.
(** one step of the compensated sum: the new sum and the new compensation *)
Definition kahan (sum comp x : f64) : f64 * f64 :=
  let y := fsub x comp in let t := fadd sum y in (t, fsub (fsub t sum) y).
Definition ro_fresh (x : f64) : roll := mkRoll f0 f0 f0 (seen x) 0 0 0.
(** add_mean, add_sum *)
Definition ro_enter (x : f64) (st : roll) : roll :=
  if is_finite x
  then let (t, c) := kahan (ro_sum st) (ro_add st) x in
       mkRoll t c (ro_rem st) x (S (ro_nobs st)) (if Bsign x then S (ro_neg st) else ro_neg st)
              (if feqb x (ro_prev st) then S (ro_same st) else 1)
  else st.
(** remove_mean, remove_sum *)
Definition ro_leave (x : f64) (st : roll) : roll :=
  if is_finite x
  then let (t, c) := kahan (ro_sum st) (ro_rem st) (fneg x) in
       mkRoll t (ro_add st) c (ro_prev st) (ro_nobs st - 1) (if Bsign x then ro_neg st - 1 else ro_neg st) (ro_same st)
  else st.
(** the state after row i; a window that shares no row with the previous one starts afresh *)
Fixpoint ro_at (w : nat) (s : fseries) (i : nat) : roll :=
  let x := nth i s fnan in
  match i with
  | O => ro_enter x (ro_fresh x)
  | S j => if w <=? 1 then ro_enter x (ro_fresh x)
           else let st := ro_at w s j in ro_enter x (if w <=? i then ro_leave (nth (i - w) s fnan) st else st)
  end.
(** calc_mean and calc_sum, with min_periods = m *)
Definition ro_mean (m : nat) (st : roll) : f64 :=
  if (m <=? ro_nobs st) && (0 <? ro_nobs st)
  then let r := fdiv (ro_sum st) (fz (Z.of_nat (ro_nobs st)) 0) in
       if ro_nobs st <=? ro_same st then ro_prev st
       else if (ro_neg st =? 0) && fltb r f0 then f0
       else if (ro_neg st =? ro_nobs st) && fltb f0 r then f0 else r
  else fnan.
Definition ro_total (m : nat) (st : roll) : f64 :=
  if (ro_nobs st =? 0) && (m =? 0) then f0
  else if m <=? ro_nobs st
  then if ro_nobs st <=? ro_same st then fmul (ro_prev st) (fz (Z.of_nat (ro_nobs st)) 0) else ro_sum st
  else fnan.
(** Series.rolling(window=w, min_periods=w).mean() / .sum() *)
Definition froll_mean (w : nat) (s : fseries) : fseries := map (fun i => ro_mean w (ro_at w s i)) (seq 0 (length s)).
Definition froll_sum (w : nat) (s : fseries) : fseries := map (fun i => ro_total w (ro_at w s i)) (seq 0 (length s)).
(** Series.shift(-k) *)
Definition fshift_back (k : nat) (s : fseries) : fseries := firstn (length s) (skipn k s ++ repeat fnan (length s)).

(** _moving_average.py:121-124, 176: ma_type 'simple'; _bollinger_bands.py:99: the middle band *)
Definition fsma (p : nat) (close : fseries) : fseries := map fround4 (froll_mean p close).
(** _moving_average.py:149-156, 176: ma_type 'triangular' *)
Definition ftma (p : nat) (close : fseries) : fseries := map fround4 (froll_mean p (froll_mean p close)).
(** _detrended_price_oscillator.py:87-96 *)
Definition fdpo (p : nat) (close : fseries) : fseries :=
  fmap2 (fun c a => fround4 (fsub c a)) close (fshift_back (S (p / 2)) (froll_mean p close)).
(** _qstick.py:89-93 *)
Definition fqstick (p : nat) (opn close : fseries) : fseries :=
  map (fun t => fround4 (fdiv t (fz (Z.of_nat p) 0))) (froll_sum p (fmap2 fsub close opn)).
(** _volume_oscillator.py:107-116 *)
Definition fvosc (long short : nat) (volume : fseries) : fseries :=
  fmap2 (fun a b => fround4 (fsub a b)) (froll_mean short volume) (froll_mean long volume).
