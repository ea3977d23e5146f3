(** * PropsFloatAcc: C78, the published binary64 numbers against exact arithmetic (FloatInd.v, Ind.v). *)
From Coq Require Import ZArith QArith Qcanon Qreals Reals Bool List String PeanoNat Lia.
From Flocq Require Import Core IEEE754.BinarySingleNaN.
From Verif Require Import FloatSim FloatInd.
From Verif Require Import Num Sim Frame FrameSpec Ind Api ApiSpec RangeSpec ValueSpec FormulaSpec.
From Verif Require Import FloatSpec FloatAccSpec FloatAcc FloatAcc3 FloatAccApi.
From Verif Require Import PropsApi PropsRange PropsValue PropsCumul PropsFormula FloatCases FloatAccCases.
Import ListNotations.
Open Scope list_scope. Open Scope string_scope.

(** ** C78 what the four-decimal number published in binary64 says about the exact one *)
Theorem C78_one_unit : forall x u, tracks x u -> agrees x (rn u).
Proof. exact tracks_agrees. Qed.
Print Assumptions C78_one_unit.
Theorem C78_nearest : forall x q n, tracks x (Fin q) -> (Rabs (IZR n - 10000 * Q2R q) < 2 / 5)%R ->
  rn (Fin q) = Fin (units n) /\ is_finite x = true /\ val x = val (dec4 n).
Proof. exact tracks_nearest. Qed.
Print Assumptions C78_nearest.

(** ** C78 Williams %R *)
Theorem C78_williams_r :
  forall o raw b ob, wf_raw raw -> forall t h l c n k, (k < n)%nat ->
  forall p, snd (construct o (cWR p) (RFrame raw) (VBool b)) = Ok ob ->
  fits t h n -> fits t l n -> fits t c n ->
  known (given "high" ob) k (prices t h) -> known (given "low" ob) k (prices t l) -> known (given "close" ob) k (prices t c) ->
  (forall i, (i <= k)%nat -> (l i <= c i <= h i)%Z) ->
  let w := nat_arg p in let top := max_last (prices t h) w k in let bottom := min_last (prices t l) w k in
  let u := from (w - 1) k (nmul (Fin (- zq 100)) (ratio (top - prices t c k) (top - bottom)))%Qc in
  shown "wr" ob k = rn u /\ tracks (cell (fwr w (column t h n) (column t l n) (column t c n)) k) u.
Proof. exact williams_accuracy. Qed.
Print Assumptions C78_williams_r.
Example C78_williams_hypotheses : let ob := the (made ora0 (cWR (VInt 3)) ten true) in wf_raw ten /\ made ora0 (cWR (VInt 3)) ten true <> None /\
  fits 10000 (ticks highs_ten) 10 /\ fits 10000 (ticks lows_ten) 10 /\ fits 10000 (ticks closes_ten) 10 /\
  known (given "high" ob) 9 (prices 10000 (ticks highs_ten)) /\ known (given "low" ob) 9 (prices 10000 (ticks lows_ten)) /\ known (given "close" ob) 9 (prices 10000 (ticks closes_ten)) /\
  forall i, (i <= 9)%nat -> (ticks lows_ten i <= ticks closes_ten i <= ticks highs_ten i)%Z.
Proof.
  split; [apply bars_wf|]. split; [vm_compute; discriminate|]. do 3 (split; [apply whole_fits; vm_compute; reflexivity|]).
  do 3 (split; [apply whole_known; [vm_compute; reflexivity|cbn; lia]|]). intros i I. do 10 (destruct i as [|i]; [cbn; lia|]). lia.
Qed.
Example C78_williams_case : equals (value (cWR (VInt 3)) ten true "wr" 9) (-571429) 10000 = true /\
  bits (cell (fwr 3 (column 10000 (ticks highs_ten) 10) (column 10000 (ticks lows_ten) 10) (column 10000 (ticks closes_ten) 10)) 9) = bits (dec4 (-571429)).
Proof. vm_compute. auto. Qed.

(** ** C78 %K of the stochastic oscillator, without slowing *)
Theorem C78_stochastic_k :
  forall o raw b ob, wf_raw raw -> forall t h l c n k, (k < n)%nat ->
  forall p q r m, snd (construct o (cSO p q r m) (RFrame raw) (VBool b)) = Ok ob -> nat_arg q = 1%nat ->
  fits t h n -> fits t l n -> fits t c n ->
  known (given "high" ob) k (prices t h) -> known (given "low" ob) k (prices t l) -> known (given "close" ob) k (prices t c) ->
  (forall i, (i <= k)%nat -> (l i <= c i <= h i)%Z) ->
  let w := nat_arg p in let top := max_last (prices t h) w k in let bottom := min_last (prices t l) w k in
  let u := from (w - 1) k (ratio (zq 100 * (prices t c k - bottom)) (top - bottom))%Qc in
  shown "%K" ob k = rn u /\ tracks (cell (fso_k w (column t h n) (column t l n) (column t c n)) k) u.
Proof. exact stochastic_accuracy. Qed.
Print Assumptions C78_stochastic_k.
Example C78_stochastic_hypotheses : let c := cSO (VInt 3) (VInt 1) (VInt 2) (VStr "simple") in let ob := the (made ora0 c ten true) in made ora0 c ten true <> None /\ nat_arg (VInt 1) = 1%nat /\
  known (given "high" ob) 9 (prices 10000 (ticks highs_ten)) /\ known (given "low" ob) 9 (prices 10000 (ticks lows_ten)) /\ known (given "close" ob) 9 (prices 10000 (ticks closes_ten)).
Proof.
  split; [vm_compute; discriminate|]. split; [reflexivity|].
  split; [|split]; (apply whole_known; [vm_compute; reflexivity|cbn; lia]).
Qed.
Example C78_stochastic_case : equals (value (cSO (VInt 3) (VInt 1) (VInt 2) (VStr "simple")) ten true "%K" 9) 428571 10000 = true /\
  bits (cell (fso_k 3 (column 10000 (ticks highs_ten) 10) (column 10000 (ticks lows_ten) 10) (column 10000 (ticks closes_ten) 10)) 9) = bits (dec4 428571).
Proof. vm_compute. auto. Qed.

(** ** C78 median price, weighted close and typical price *)
Theorem C78_median_price :
  forall o raw b ob, wf_raw raw -> forall t h l n k, (k < n)%nat ->
  forall p, snd (construct o (cMP p) (RFrame raw) (VBool b)) = Ok ob -> fits t h n -> fits t l n ->
  given "high" ob k = Fin (prices t h k) -> given "low" ob k = Fin (prices t l k) -> (l k <= h k)%Z ->
  let u := Fin ((prices t h k + prices t l k) / zq 2)%Qc in
  shown "mp" ob k = rn u /\ tracks (cell (fmp (column t h n) (column t l n)) k) u.
Proof. exact median_accuracy. Qed.
Print Assumptions C78_median_price.
Theorem C78_weighted_close :
  forall o raw b ob, wf_raw raw -> forall t h l c n k, (k < n)%nat ->
  snd (construct o cWC (RFrame raw) (VBool b)) = Ok ob -> fits t h n -> fits t l n -> fits t c n ->
  given "high" ob k = Fin (prices t h k) -> given "low" ob k = Fin (prices t l k) -> given "close" ob k = Fin (prices t c k) -> (l k <= c k <= h k)%Z ->
  let u := Fin ((zq 2 * prices t c k + prices t h k + prices t l k) / zq 4)%Qc in
  shown "wc" ob k = rn u /\ tracks (cell (fwc (column t c n) (column t h n) (column t l n)) k) u.
Proof. exact weighted_accuracy. Qed.
Print Assumptions C78_weighted_close.
Theorem C78_typical_price :
  forall o raw b ob, wf_raw raw -> forall t h l c n k, (k < n)%nat ->
  forall p, snd (construct o (cTP p) (RFrame raw) (VBool b)) = Ok ob -> fits t h n -> fits t l n -> fits t c n ->
  given "high" ob k = Fin (prices t h k) -> given "low" ob k = Fin (prices t l k) -> given "close" ob k = Fin (prices t c k) -> (l k <= c k <= h k)%Z ->
  let u := Fin ((prices t h k + prices t l k + prices t c k) / zq 3)%Qc in
  shown "tp" ob k = rn u /\ tracks (cell (ftp (column t h n) (column t l n) (column t c n)) k) u.
Proof. exact typical_accuracy. Qed.
Print Assumptions C78_typical_price.
Example C78_means_hypotheses : let ob := the (made ora0 cWC ten true) in made ora0 cWC ten true <> None /\ made ora0 (cMP (VInt 3)) ten true <> None /\ made ora0 (cTP (VInt 3)) ten true <> None /\
  given "high" ob 7 = Fin (prices 10000 (ticks highs_ten) 7) /\ given "low" ob 7 = Fin (prices 10000 (ticks lows_ten) 7) /\ given "close" ob 7 = Fin (prices 10000 (ticks closes_ten) 7).
Proof.
  do 3 (split; [vm_compute; discriminate|]).
  split; [apply (whole_known "high" _ highs_ten 9); [vm_compute; reflexivity|cbn; lia|lia]|].
  split; [apply (whole_known "low" _ lows_ten 9); [vm_compute; reflexivity|cbn; lia|lia]|].
  apply (whole_known "close" _ closes_ten 9); [vm_compute; reflexivity|cbn; lia|lia].
Qed.
Example C78_means_case :
  equals (value (cMP (VInt 3)) ten true "mp" 7) 130000 10000 = true /\ bits (cell (fmp (column 10000 (ticks highs_ten) 10) (column 10000 (ticks lows_ten) 10)) 7) = bits (dec4 130000) /\
  equals (value cWC ten true "wc" 7) 140000 10000 = true /\ bits (cell (fwc (column 10000 (ticks closes_ten) 10) (column 10000 (ticks highs_ten) 10) (column 10000 (ticks lows_ten) 10)) 7) = bits (dec4 140000) /\
  equals (value (cTP (VInt 3)) ten true "tp" 7) 136667 10000 = true /\ bits (cell (ftp (column 10000 (ticks highs_ten) 10) (column 10000 (ticks lows_ten) 10) (column 10000 (ticks closes_ten) 10)) 7) = bits (dec4 136667).
Proof. vm_compute. repeat split. Qed.

(** ** C78 at a tie the last decimal can differ: the median price of 10.0012 and 10.0011 *)
Theorem C78_last_decimal_refuted :
  exists t h l n k m, fits t h n /\ fits t l n /\ (k < n)%nat /\
    rn (Fin ((prices t h k + prices t l k) / zq 2)%Qc) = Fin (units m) /\
    val (cell (fmp (column t h n) (column t l n)) k) <> val (dec4 m).
Proof. exact tie_differs. Qed.
Print Assumptions C78_last_decimal_refuted.

(** ** C78 the Ichimoku lines *)
Theorem C78_ichimoku_lines :
  forall o raw b ob, wf_raw raw -> forall t h l n k, (k < n)%nat ->
  snd (construct o cICH (RFrame raw) (VBool b)) = Ok ob -> fits t h n -> fits t l n -> (k < days_given ob)%nat ->
  known (given "high" ob) k (prices t h) -> known (given "low" ob) k (prices t l) ->
  (exists u, midpoint (given "high" ob) (given "low" ob) (k - 8) k u /\ shown "tenkan_sen" ob k = rn u /\
     tracks (fround4 (cell (fich 9 (column t h n) (column t l n)) k)) u) /\
  (exists u, midpoint (given "high" ob) (given "low" ob) (k - 25) k u /\ shown "kijun_sen" ob k = rn u /\
     tracks (fround4 (cell (fich 26 (column t h n) (column t l n)) k)) u).
Proof. exact ichimoku_accuracy. Qed.
Print Assumptions C78_ichimoku_lines.
Theorem C78_ichimoku_cloud :
  forall o raw b ob, wf_raw raw -> forall t h l n k, (k < n)%nat ->
  snd (construct o cICH (RFrame raw) (VBool b)) = Ok ob -> fits t h n -> fits t l n -> (k < days_given ob)%nat -> (26 <= k)%nat ->
  known (given "high" ob) k (prices t h) -> known (given "low" ob) k (prices t l) ->
  (exists u v, midpoint (given "high" ob) (given "low" ob) (k - 26 - 8) (k - 26) u /\
     midpoint (given "high" ob) (given "low" ob) (k - 26 - 25) (k - 26) v /\
     shown "senkou_a" ob k = rn (ndiv (nadd u v) (Fin (zq 2))) /\
     tracks (fround4 (cell (fich_a (column t h n) (column t l n)) k)) (ndiv (nadd u v) (Fin (zq 2)))) /\
  (exists u, midpoint (given "high" ob) (given "low" ob) (k - 26 - 51) (k - 26) u /\ shown "senkou_b" ob k = rn u /\
     tracks (fround4 (cell (fich_b (column t h n) (column t l n)) k)) u).
Proof. exact cloud_accuracy. Qed.
Print Assumptions C78_ichimoku_cloud.
Example C78_ichimoku_case : let ob := the (made ora0 cICH (cycle 3) true) in made ora0 cICH (cycle 3) true <> None /\ days_given ob = 30%nat /\
  fits 10000 (ticks cycle_highs) 30 /\ fits 10000 (ticks cycle_lows) 30 /\
  known (given "high" ob) 29 (prices 10000 (ticks cycle_highs)) /\ known (given "low" ob) 29 (prices 10000 (ticks cycle_lows)) /\
  equals (shown "tenkan_sen" ob 29) 120000 10000 = true /\ bits (fround4 (cell (fich 9 (column 10000 (ticks cycle_highs) 30) (column 10000 (ticks cycle_lows) 30)) 29)) = bits (dec4 120000) /\
  equals (shown "senkou_a" ob 29) 100000 10000 = true /\ bits (fround4 (cell (fich_a (column 10000 (ticks cycle_highs) 30) (column 10000 (ticks cycle_lows) 30)) 29)) = bits (dec4 100000).
Proof.
  split; [vm_compute; discriminate|]. split; [vm_compute; reflexivity|]. do 2 (split; [apply whole_fits; vm_compute; reflexivity|]).
  do 2 (split; [apply whole_known; [vm_compute; reflexivity|cbn; lia]|]). vm_compute. repeat split.
Qed.

(** ** C78 the price channel is exact *)
Theorem C78_price_channel_high :
  forall o raw b ob, wf_raw raw -> forall t h n k, (k < n)%nat ->
  forall p, snd (construct o (cPCH p) (RFrame raw) (VBool b)) = Ok ob -> fits t h n -> (k < days_given ob)%nat -> known (given "high" ob) k (prices t h) ->
  let w := nat_arg p in let x := cell (fpch_high w (column t h n)) k in
  ((k < w)%nat -> shown "highest_high" ob k = NaN /\ missing x) /\
  ((w <= k)%nat -> exists m, highest (given "high" ob) (k - w) (k - 1) (units m) /\
     shown "highest_high" ob k = Fin (units m) /\ is_finite x = true /\ val x = val (dec4 m)).
Proof. exact channel_high_accuracy. Qed.
Print Assumptions C78_price_channel_high.
Theorem C78_price_channel_low :
  forall o raw b ob, wf_raw raw -> forall t l n k, (k < n)%nat ->
  forall p, snd (construct o (cPCH p) (RFrame raw) (VBool b)) = Ok ob -> fits t l n -> (k < days_given ob)%nat -> known (given "low" ob) k (prices t l) ->
  let w := nat_arg p in let x := cell (fpch_low w (column t l n)) k in
  ((k < w)%nat -> shown "lowest_low" ob k = NaN /\ missing x) /\
  ((w <= k)%nat -> exists m, lowest (given "low" ob) (k - w) (k - 1) (units m) /\
     shown "lowest_low" ob k = Fin (units m) /\ is_finite x = true /\ val x = val (dec4 m)).
Proof. exact channel_low_accuracy. Qed.
Print Assumptions C78_price_channel_low.
Example C78_price_channel_case : let ob := the (made ora0 (cPCH (VInt 3)) ten true) in made ora0 (cPCH (VInt 3)) ten true <> None /\ days_given ob = 10%nat /\
  known (given "high" ob) 9 (prices 10000 (ticks highs_ten)) /\ known (given "low" ob) 9 (prices 10000 (ticks lows_ten)) /\
  equals (shown "highest_high" ob 9) 17 1 = true /\ bits (cell (fpch_high 3 (column 10000 (ticks highs_ten) 10)) 9) = bits (dec4 170000) /\
  equals (shown "lowest_low" ob 9) 10 1 = true /\ bits (cell (fpch_low 3 (column 10000 (ticks lows_ten) 10)) 9) = bits (dec4 100000).
Proof.
  split; [vm_compute; discriminate|]. split; [vm_compute; reflexivity|].
  do 2 (split; [apply whole_known; [vm_compute; reflexivity|cbn; lia]|]). vm_compute. repeat split.
Qed.

(** ** C78 the Fibonacci levels *)
Theorem C78_fibonacci :
  forall o raw b ob, wf_raw raw -> forall t c, snd (construct o cFIB (RFrame raw) (VBool b)) = Ok ob ->
  fits t c (days_given ob) -> known (given "close" ob) (days_given ob - 1) (prices t c) -> (0 < days_given ob)%nat ->
  exists M m, highest (given "close" ob) 0 (days_given ob - 1) M /\ lowest (given "close" ob) 0 (days_given ob - 1) m /\
    forall j name z k, nth_error level_names j = Some (name, z) -> (k < days_given ob)%nat ->
      let u := Fin (M - zq z / zq 1000 * (M - m))%Qc in
      shown name ob k = rn u /\ tracks (ffib (nth j flevels (thousandth 0)) (column t c (days_given ob))) u.
Proof. exact (fun o raw b ob W t c => fibonacci_accuracy o raw b ob W t c c c 1 0 Nat.lt_0_1). Qed.
Print Assumptions C78_fibonacci.
Example C78_fibonacci_case : let ob := the (made ora0 cFIB ten true) in made ora0 cFIB ten true <> None /\ days_given ob = 10%nat /\
  fits 10000 (ticks closes_ten) 10 /\ known (given "close" ob) 9 (prices 10000 (ticks closes_ten)) /\
  equals (shown "rl_23.6" ob 4) 135840 10000 = true /\ bits (ffib (thousandth 236) (column 10000 (ticks closes_ten) 10)) = bits (dec4 135840).
Proof.
  split; [vm_compute; discriminate|]. split; [vm_compute; reflexivity|]. split; [apply whole_fits; vm_compute; reflexivity|].
  split; [apply whole_known; [vm_compute; reflexivity|cbn; lia]|]. vm_compute. repeat split.
Qed.

(** ** C78 ratios to an earlier row *)
Theorem C78_momentum :
  forall o raw b ob, wf_raw raw -> forall v n k, (k < n)%nat -> (forall i, (i < n)%nat -> (0 <= v i <= 2 ^ 50)%Z) ->
  forall p, snd (construct o (cMOM p) (RFrame raw) (VBool b)) = Ok ob -> let w := nat_arg p in
  (v (k - w)%nat = 0 \/ v k <= 2 ^ 24 * v (k - w)%nat)%Z -> known (given "close" ob) k (prices 1 v) ->
  let u := from w k (ratio (zq 100 * prices 1 v k) (prices 1 v (k - w)%nat))%Qc in
  shown "mom" ob k = rn u /\ tracks (cell (fmom w (column 1 v n)) k) u.
Proof. exact momentum_accuracy. Qed.
Print Assumptions C78_momentum.
Theorem C78_price_rate :
  forall o raw b ob, wf_raw raw -> forall v n k, (k < n)%nat -> (forall i, (i < n)%nat -> (0 <= v i <= 2 ^ 50)%Z) ->
  forall p, snd (construct o (cPRC p) (RFrame raw) (VBool b)) = Ok ob -> let w := nat_arg p in
  (v (k - w)%nat = 0 \/ v k <= 2 ^ 24 * v (k - w)%nat)%Z -> known (given "close" ob) k (prices 1 v) ->
  let u := from w k (ratio (zq 100 * (prices 1 v k - prices 1 v (k - w)%nat)) (prices 1 v (k - w)%nat))%Qc in
  shown "prc" ob k = rn u /\ tracks (cell (fprc w (column 1 v n)) k) u.
Proof. exact rate_accuracy. Qed.
Print Assumptions C78_price_rate.
Theorem C78_volume_rate :
  forall o raw b ob, wf_raw raw -> forall v n k, (k < n)%nat -> (forall i, (i < n)%nat -> (0 <= v i <= 2 ^ 50)%Z) ->
  forall p, snd (construct o (cVRC p) (RFrame raw) (VBool b)) = Ok ob -> let w := nat_arg p in
  (v (k - w)%nat = 0 \/ v k <= 2 ^ 24 * v (k - w)%nat)%Z -> known (given "volume" ob) k (prices 1 v) ->
  let u := from w k (ratio (zq 100 * (prices 1 v k - prices 1 v (k - w)%nat)) (prices 1 v (k - w)%nat))%Qc in
  shown "vrc" ob k = rn u /\ tracks (cell (fvrc w (column 1 v n)) k) u.
Proof. exact volume_rate_accuracy. Qed.
Print Assumptions C78_volume_rate.
Theorem C78_performance :
  forall o raw b ob, wf_raw raw -> forall v n k, (k < n)%nat -> (forall i, (i < n)%nat -> (0 <= v i <= 2 ^ 50)%Z) ->
  forall p q, snd (construct o (cPRF p q) (RFrame raw) (VBool b)) = Ok ob ->
  (v 0%nat = 0 \/ v k <= 2 ^ 24 * v 0%nat)%Z -> known (given "close" ob) k (prices 1 v) ->
  let u := ratio (prices 1 v k - prices 1 v 0%nat)%Qc (prices 1 v 0%nat) in
  shown "prf" ob k = rn u /\ tracks (cell (fprf (column 1 v n)) k) u.
Proof. exact performance_accuracy. Qed.
Print Assumptions C78_performance.
Example C78_ratio_hypotheses : (forall i, (i < 10)%nat -> (0 <= counts closes_ten i <= 2 ^ 50)%Z) /\ (forall i, (i < 10)%nat -> (0 <= counts volumes_ten i <= 2 ^ 50)%Z) /\
  made ora0 (cMOM (VInt 3)) ten true <> None /\ made ora0 (cPRC (VInt 3)) ten true <> None /\ made ora0 (cVRC (VInt 3)) ten true <> None /\ made ora0 (cPRF (VStr "LONG") (VInt 2)) ten true <> None /\
  known (given "close" (the (made ora0 (cMOM (VInt 3)) ten true))) 9 (prices 1 (counts closes_ten)) /\
  known (given "volume" (the (made ora0 (cVRC (VInt 3)) ten true))) 9 (prices 1 (counts volumes_ten)).
Proof.
  do 2 (split; [apply counts_small; vm_compute; reflexivity|]). do 4 (split; [vm_compute; discriminate|]).
  split; (apply counts_known; [vm_compute; reflexivity|cbn; lia]).
Qed.
Example C78_ratio_case :
  equals (value (cMOM (VInt 3)) ten true "mom" 9) 1181818 10000 = true /\ bits (cell (fmom 3 (column 1 (counts closes_ten) 10)) 9) = bits (dec4 1181818) /\
  equals (value (cPRC (VInt 3)) ten true "prc" 9) 181818 10000 = true /\ bits (cell (fprc 3 (column 1 (counts closes_ten) 10)) 9) = bits (dec4 181818) /\
  equals (value (cVRC (VInt 3)) ten true "vrc" 9) (-357143) 10000 = true /\ bits (cell (fvrc 3 (column 1 (counts volumes_ten) 10)) 9) = bits (dec4 (-357143)) /\
  equals (value (cPRF (VStr "LONG") (VInt 2)) ten true "prf" 9) 1818 10000 = true /\ bits (cell (fprf (column 1 (counts closes_ten) 10)) 9) = bits (dec4 1818).
Proof. vm_compute. repeat split. Qed.
