(** * FloatInd: some indicators in IEEE-754 binary64.

    The same methods as in Ind.v, on the numbers numpy and pandas really compute with (see
    FloatSim.v for the operations).  Only indicators without pandas' running sums are
    here; those are in FloatRoll.v.  A series is a
    column of the validated data. *)
From Coq Require Import ZArith Bool List PeanoNat.
From Flocq Require Import Core.Zaux IEEE754.BinarySingleNaN.
From Verif Require Import Pandas FloatSim.
Import ListNotations.
Open Scope list_scope.

Definition fseries := list f64.
(** np.rint; np.round(x, 4): times 10^4, to the nearest integer (ties to even), divided by 10^4 *)
Definition frint : f64 -> f64 := @Bnearbyint 53 1024 prec_lt mode_NE.
Definition ften4 : f64 := fz 10000 0.
Definition fround4 (x : f64) : f64 := fdiv (frint (fmul x ften4)) ften4.

Definition fmap2 (f : f64 -> f64 -> f64) (a b : fseries) : fseries := map (fun q => f (fst q) (snd q)) (combine a b).
Definition fmap3 (f : f64 -> f64 -> f64 -> f64) (a b c : fseries) : fseries := map (fun q => f (fst q) (fst (snd q)) (snd (snd q))) (combine a (combine b c)).
(** Series.shift(k) *)
Definition fshift (k : nat) (s : fseries) : fseries := firstn (length s) (repeat fnan k ++ s).
(** Series.rolling(window=w, min_periods=m).max() / .min(); infinite cells count as missing *)
Definition fpick (better : f64 -> f64 -> bool) (v : list f64) : f64 :=
  match v with [] => fnan | x :: r => fold_left (fun a y => if better y a then y else a) r x end.
Definition frolling (w m : nat) (better : f64 -> f64 -> bool) (s : fseries) : fseries :=
  map (fun i => let v := filter is_finite (window w i s) in if m <=? length v then fpick better v else fnan) (seq 0 (length s)).
Definition froll_max (w m : nat) : fseries -> fseries := frolling w m (fun y a => fltb a y).
Definition froll_min (w m : nat) : fseries -> fseries := frolling w m (fun y a => fltb y a).

(** _williams_r.py:87-102 *)
Definition fwr_of (hh ll c : f64) : f64 := fround4 (fmul (fz (-100) 0) (fdiv (fsub hh c) (fsub hh ll))).
Definition fwr (p : nat) (high low close : fseries) : fseries := fmap3 fwr_of (froll_max p p high) (froll_min p p low) close.
(** _stochastic_oscillator.py:138-177 with k_slowing_periods = 1, the default: the sum of one cell is the cell *)
Definition fso_of (hh ll c : f64) : f64 := fround4 (fdiv (fmul (fz 100 0) (fsub c ll)) (fsub hh ll)).
Definition fso_k (k : nat) (high low close : fseries) : fseries := fmap3 fso_of (froll_max k k high) (froll_min k k low) close.
(** _median_price.py:84-91 *)
Definition fmp (high low : fseries) : fseries := fmap2 (fun h l => fround4 (fmul (fz 1 (-1)) (fadd h l))) high low.
(** _ichimoku_cloud.py:71-91; n = 9, 26, 52 *)
Definition fich (n : nat) (high low : fseries) : fseries := fmap2 (fun h l => fdiv (fadd h l) (fz 2 0)) (froll_max n 1 high) (froll_min n 1 low).
Definition fich_a (high low : fseries) : fseries := fshift 26 (fmap2 (fun a b => fdiv (fadd a b) (fz 2 0)) (fich 9 high low) (fich 26 high low)).
Definition fich_b (high low : fseries) : fseries := fshift 26 (fich 52 high low).
(** _price_channel.py:88-109 *)
Definition fpch_high (p : nat) (high : fseries) : fseries := map fround4 (fshift 1 (froll_max p p high)).
Definition fpch_low (p : nat) (low : fseries) : fseries := map fround4 (fshift 1 (froll_min p p low)).
(** _fibonacci_retracement.py:66-81: the level of multiplier c; the multipliers are literals such as 0.236 *)
Definition thousandth (k : Z) : f64 := fdiv (fz k 0) (fz 1000 0).
Definition flevels : list f64 := map thousandth [0; 236; 382; 500; 618; 1000]%Z.
Definition ffib (c : f64) (close : fseries) : f64 :=
  let v := filter (fun x => negb (is_nan x)) close in
  let mx := fpick (fun y a => fltb a y) v in let mn := fpick (fun y a => fltb y a) v in
  fround4 (fsub mx (fmul c (fsub mx mn))).

(** _momentum.py:85-95; the rows before [p] are missing, and so is the shifted price there *)
Definition fmom (p : nat) (close : fseries) : fseries := fmap2 (fun a w => fround4 (fdiv (fmul (fz 100 0) a) w)) close (fshift p close).
(** _price_rate_of_change.py:91-97 *)
Definition fprc (p : nat) (close : fseries) : fseries := fmap2 (fun a w => fround4 (fdiv (fmul (fz 100 0) (fsub a w)) w)) close (fshift p close).
(** _volume_rate_of_change.py:91-96 *)
Definition fvrc (p : nat) (volume : fseries) : fseries := fmap2 (fun a w => fround4 (fmul (fz 100 0) (fdiv (fsub a w) w))) volume (fshift p volume).
(** _performance.py:101-107, the column prf *)
Definition fprf (close : fseries) : fseries := let c0 := nth 0 close fnan in map (fun a => fround4 (fdiv (fsub a c0) c0)) close.
(** _weighted_close.py:64-68 *)
Definition fwc (close high low : fseries) : fseries :=
  fmap3 (fun c h l => fround4 (fdiv (fadd (fadd (fmul (fz 2 0) c) h) l) (fz 4 0))) close high low.
(** _typical_price.py:75-82: DataFrame.mean(axis=1), the columns summed from the left; rows without a missing cell *)
Definition ftp (high low close : fseries) : fseries :=
  fmap3 (fun h l c => fround4 (fdiv (fadd (fadd h l) c) (fz 3 0))) high low close.

(** _relative_strength_index.py:87-137.  [npsum] is the sum inside mean(). *)
Section Rsi.
Variable npsum : list f64 -> f64.
Definition fgain (c1 c0 : f64) : f64 := fround4 (if fltb c0 c1 then fsub c1 c0 else f0).
Definition fgains (close : fseries) : fseries := map (fun q => fgain (fst q) (snd q)) (combine (tl close) close).
Definition flosses (close : fseries) : fseries := map (fun q => fgain (snd q) (fst q)) (combine (tl close) close).
Definition fmean (l : list f64) : f64 := let v := filter (fun x => negb (is_nan x)) l in fdiv (npsum v) (fz (Z.of_nat (length v)) 0).
Definition fwilder (p : nat) (prev x : f64) : f64 := fround4 (fadd prev (fdiv (fsub x prev) (fz (Z.of_nat p) 0))).
(** the smoothed line after the first [p + n] changes *)
Fixpoint fsmooth (p n : nat) (s : fseries) : f64 :=
  match n with O => fmean (firstn p s) | S m => fwilder p (fsmooth p m s) (nth (p + m) s fnan) end.
Definition frsi_of (up down : f64) : f64 := fround4 (fsub (fz 100 0) (fdiv (fz 100 0) (fadd (fdiv up down) (fz 1 0)))).
(** row k; the rows before [p] are missing *)
Definition frsi (p : nat) (close : fseries) (k : nat) : f64 :=
  if k <? p then fnan else frsi_of (fsmooth p (k - p) (fgains close)) (fsmooth p (k - p) (flosses close)).
End Rsi.
