(** * PropsFloatEwm: C79, recursive averages in binary64 (FloatEwm.v) against exact arithmetic (Ind.v). *)
From Coq Require Import ZArith QArith Qcanon Qreals Reals Bool List String PeanoNat Lia.
From Flocq Require Import Core IEEE754.BinarySingleNaN.
From Verif Require Import FloatSim FloatInd FloatEwm.
From Verif Require Import Num Sim Frame FrameSpec Ind Api ApiSpec RangeSpec ValueSpec FormulaSpec.
From Verif Require Import FloatSpec FloatAccSpec FloatEwmSpec FloatAcc FloatAcc3 FloatEwmApi.
From Verif Require Import PropsApi PropsRange PropsValue PropsCumul PropsFormula FloatCases FloatAccCases FloatEwmCases.
Import ListNotations.
Open Scope list_scope. Open Scope string_scope.

(** ** C79 however long the history, the published float is the exact average to the fourth decimal *)
Theorem C79_exponential :
  forall o raw b ob, wf_raw raw -> forall c n k, (k < n)%nat -> known (given "close" ob) k (prices 1 c) ->
  forall p, snd (construct o (cMA p (VStr "exponential")) (RFrame raw) (VBool b)) = Ok ob -> let w := nat_arg p in moderate w c n ->
  let v := from (w - 1) k (Fin (ema_from 0 w (prices 1 c) k)) in
  shown "ma-exponential" ob k = rn v /\ tracks (cell (fema w (column 1 c n)) k) v.
Proof. exact ema_accuracy. Qed.
Print Assumptions C79_exponential.
Theorem C79_double_exponential :
  forall o raw b ob, wf_raw raw -> forall c n k, (k < n)%nat -> known (given "close" ob) k (prices 1 c) ->
  forall p, snd (construct o (cDEMA p) (RFrame raw) (VBool b)) = Ok ob -> let w := nat_arg p in moderate w c n ->
  let e := ema_from 0 w (prices 1 c) in let e2 := ema_from (w - 1) w e in
  let v := from (2 * (w - 1)) k (Fin (zq 2 * e k - e2 k)%Qc) in
  shown "dema" ob k = rn v /\ tracks (cell (fdema w (column 1 c n)) k) v.
Proof. exact dema_accuracy. Qed.
Print Assumptions C79_double_exponential.
Theorem C79_triple_exponential :
  forall o raw b ob, wf_raw raw -> forall c n k, (k < n)%nat -> known (given "close" ob) k (prices 1 c) ->
  forall p, snd (construct o (cTEMA p) (RFrame raw) (VBool b)) = Ok ob -> let w := nat_arg p in moderate w c n ->
  let e := ema_from 0 w (prices 1 c) in let e2 := ema_from (w - 1) w e in let e3 := ema_from (2 * (w - 1)) w e2 in
  let v := from (3 * (w - 1)) k (Fin (zq 3 * e k - zq 3 * e2 k + e3 k)%Qc) in
  shown "tema" ob k = rn v /\ tracks (cell (ftema w (column 1 c n)) k) v.
Proof. exact tema_accuracy. Qed.
Print Assumptions C79_triple_exponential.
(** whatever the order in which mean() adds the first prices *)
Theorem C79_wilders_smoothing :
  forall o raw b ob, wf_raw raw -> forall c n k, (k < n)%nat -> known (given "close" ob) k (prices 1 c) ->
  forall npsum p, (forall l, added l (npsum l)) -> snd (construct o (cWS p) (RFrame raw) (VBool b)) = Ok ob -> let w := nat_arg p in moderate w c n ->
  let v := from (w - 1) k (Fin (run_from (w - 1) (wilders w) (mean_last (prices 1 c) w (w - 1)) (prices 1 c) k)) in
  shown "ws" ob k = rn v /\ tracks (fws npsum w (column 1 c n) k) v.
Proof. exact ws_accuracy. Qed.
Print Assumptions C79_wilders_smoothing.
Example C79_average_case :
  moderate 3 (counts closes_ten) 10 /\ (forall l, added l (from_left l)) /\
  known (given "close" (the (made ora0 (cTEMA (VInt 2)) ten true))) 9 (prices 1 (counts closes_ten)) /\
  equals (value (cMA (VInt 3) (VStr "exponential")) ten true "ma-exponential" 9) 132988 10000 = true /\ bits (cell (fema 3 (column 1 (counts closes_ten) 10)) 9) = bits (dec4 132988) /\
  equals (value (cDEMA (VInt 3)) ten true "dema" 9) 134795 10000 = true /\ bits (cell (fdema 3 (column 1 (counts closes_ten) 10)) 9) = bits (dec4 134795) /\
  equals (value (cTEMA (VInt 2)) ten true "tema" 9) 130458 10000 = true /\ bits (cell (ftema 2 (column 1 (counts closes_ten) 10)) 9) = bits (dec4 130458) /\
  equals (value (cWS (VInt 3)) ten true "ws" 9) 130308 10000 = true /\ bits (fws from_left 3 (column 1 (counts closes_ten) 10) 9) = bits (dec4 130308).
Proof.
  split; [apply whole_moderate; vm_compute; reflexivity|]. split; [exact from_left_adds|]. split; [apply counts_known; [vm_compute; reflexivity|cbn; lia]|].
  vm_compute. repeat split.
Qed.

(** ** C79 the moving average convergence divergence: its two averages are rounded before they are
    subtracted, so it is within 6/5 of a unit of the textbook difference, and its signal line within 2 *)
Theorem C79_macd :
  forall o raw b ob, wf_raw raw -> forall c n k, (k < n)%nat -> known (given "close" ob) k (prices 1 c) ->
  snd (construct o cMACD (RFrame raw) (VBool b)) = Ok ob -> moderate 26 c n ->
  let d j := (ema_from 0 12 (prices 1 c) j - ema_from 0 26 (prices 1 c) j)%Qc in
  within (6 / 5) (cell (fmacd (column 1 c n)) k) (from 25 k (Fin (d k))) /\ apart 2 (cell (fmacd (column 1 c n)) k) (shown "macd" ob k) /\
  within 2 (cell (fmacd_signal (column 1 c n)) k) (from 33 k (Fin (ema_from 25 9 d k))) /\ apart 3 (cell (fmacd_signal (column 1 c n)) k) (shown "signal_line" ob k).
Proof. exact macd_accuracy. Qed.
Print Assumptions C79_macd.
Example C79_macd_case : let ob := the (made ora0 cMACD swing_days true) in
  wf_raw swing_days /\ made ora0 cMACD swing_days true <> None /\ moderate 26 (counts swings) 40 /\ known (given "close" ob) 39 (prices 1 (counts swings)) /\
  equals (shown "macd" ob 39) (-5695) 10000 = true /\ bits (cell (fmacd (column 1 (counts swings) 40)) 39) = bits (dec4 (-5695)) /\
  equals (shown "signal_line" ob 39) 35380 10000 = true /\ bits (cell (fmacd_signal (column 1 (counts swings) 40)) 39) = bits (dec4 35380).
Proof.
  cbv zeta. split; [apply bars_wf|]. split; [vm_compute; discriminate|]. split; [apply whole_moderate; vm_compute; reflexivity|].
  split; [apply counts_known; [vm_compute; reflexivity|cbn; lia]|]. vm_compute. repeat split.
Qed.

(** ** C79 the averages never leave the range of the prices *)
Theorem C79_exponential_among_prices : forall p c n k lo hi, (0 < p)%nat -> moderate p c n -> (p - 1 <= k < n)%nat -> (lo <= k)%nat -> (hi <= k)%nat ->
  (forall i, (i <= k)%nat -> (c lo <= c i <= c hi)%Z) ->
  between (val (dec4 (c lo))) (val (dec4 (c hi))) (cell (fema p (column 1 c n)) k).
Proof. exact ema_among. Qed.
Print Assumptions C79_exponential_among_prices.
Theorem C79_wilders_among_prices : forall npsum p c n k lo hi, (forall l, added l (npsum l)) -> (0 < p)%nat -> moderate p c n -> (p - 1 <= k < n)%nat -> (lo <= k)%nat -> (hi <= k)%nat ->
  (forall i, (i <= k)%nat -> (c lo <= c i <= c hi)%Z) ->
  between (val (dec4 (c lo))) (val (dec4 (c hi))) (fws npsum p (column 1 c n) k).
Proof. exact ws_among. Qed.
Print Assumptions C79_wilders_among_prices.
Example C79_among_case : forall i, (i <= 9)%nat -> (counts closes_ten 2 <= counts closes_ten i <= counts closes_ten 7)%Z.
Proof. intros i I. do 10 (destruct i as [|i]; [cbn; lia|]). lia. Qed.
