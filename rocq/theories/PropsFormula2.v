(** * PropsFormula2: formulas of volatility, direction, volume, projections and regression (see PropsFormula). *)
From Coq Require Import ZArith QArith Qcanon Bool List String PeanoNat Lia.
From Verif Require Import Num NumFacts Pandas Sim Frame FrameSpec Ind Signal Api IndSpec ApiSpec RangeSpec PropsApi PropsRange ValueSpec ValueApi PropsValue CumulApi PropsCumul FormulaSpec FormulaApi PropsFormula.
Import ListNotations.
Open Scope list_scope. Open Scope string_scope. Open Scope Qc_scope.

(** ** C63 Volatility and direction *)
Theorem C63_average_true_range o raw b ob k h l c : wf_raw raw ->
  snd (construct o cATR (RFrame raw) (VBool b)) = Ok ob ->
  (13 <= k)%nat ->
  known (given "high" ob) k h -> known (given "low" ob) k l -> known (given "close" ob) k c ->
  let tr := true_range h l c in
  shown "atr" ob k = Fin (r4 (run_from 13 (wilders 14) (mean_last tr 14 13) tr k)).
Proof. exact (fun W => average_true_range_shown o raw b ob W k h l c). Qed.
Print Assumptions C63_average_true_range.
Theorem C63_mass_index o raw b ob k h l : wf_raw raw ->
  snd (construct o cMI (RFrame raw) (VBool b)) = Ok ob ->
  (forall j, (j <= k)%nat -> l j < h j) ->
  known (given "high" ob) k h -> known (given "low" ob) k l ->
  let e := ema_from 0 9 (fun j => h j - l j) in let e2 := ema_from 8 9 e in
  shown "mi" ob k = from 40 k (Fin (r4 (sum_last (fun j => e j / e2 j) 25 k))).
Proof. exact (fun W => mass_index_shown o raw b ob W k h l). Qed.
Print Assumptions C63_mass_index.
Theorem C63_chaikin_volatility o raw b ob p q k h l : wf_raw raw ->
  snd (construct o (cVCH p q) (RFrame raw) (VBool b)) = Ok ob ->
  known (given "high" ob) k h -> known (given "low" ob) k l ->
  let n := nat_arg p in let m := nat_arg q in let e := ema_from 0 n (fun j => h j - l j) in
  shown "vch" ob k = from (n - 1 + m) k (rn (ratio (zq 100 * (e k - e (k - m)%nat)) (e (k - m)%nat))).
Proof. exact (fun W => chaikin_volatility_shown o raw b ob W p q k h l). Qed.
Print Assumptions C63_chaikin_volatility.
Theorem C63_relative_volatility o raw b ob p k h l : wf_raw raw ->
  snd (construct o (cRVI p) (RFrame raw) (VBool b)) = Ok ob ->
  known (given "high" ob) k h -> known (given "low" ob) k l ->
  let n := nat_arg p in
  let up f := wilder_from 9 n (rising (o_sqrt o) f) k in let down f := wilder_from 9 n (falling (o_sqrt o) f) k in
  shown "rvi" ob k = from (n + 8) k (rn (ndiv (nadd (ratio (zq 100 * up h) (up h + down h)) (ratio (zq 100 * up l) (up l + down l))) (Fin (zq 2)))).
Proof. exact (fun W => relative_volatility_shown o raw b ob W p k h l). Qed.
Print Assumptions C63_relative_volatility.
Theorem C63_directional_lines o raw b ob k h l c : wf_raw raw ->
  snd (construct o cDMI (RFrame raw) (VBool b)) = Ok ob ->
  (forall j, (14 <= j <= k)%nat -> running (true_range h l c) j <> 0) ->
  known (given "high" ob) k h -> known (given "low" ob) k l -> known (given "close" ob) k c ->
  shown "+di" ob k = from 14 k (Fin (r4 (plus_di h l c k))) /\ shown "-di" ob k = from 14 k (Fin (r4 (minus_di h l c k))).
Proof. exact (fun W => directional_lines_shown o raw b ob W k h l c). Qed.
Print Assumptions C63_directional_lines.
Theorem C63_directional_index o raw b ob k h l c : wf_raw raw ->
  snd (construct o cDMI (RFrame raw) (VBool b)) = Ok ob ->
  (forall j, (14 <= j <= k)%nat -> running (true_range h l c) j <> 0) ->
  (forall j, (14 <= j <= k)%nat -> plus_di h l c j + minus_di h l c j <> 0) ->
  known (given "high" ob) k h -> known (given "low" ob) k l -> known (given "close" ob) k c ->
  shown "dx" ob k = from 14 k (Fin (r4 (dx_line h l c k))).
Proof. exact (fun W => directional_index_shown o raw b ob W k h l c). Qed.
Print Assumptions C63_directional_index.
Theorem C63_average_directional_index o raw b ob k h l c : wf_raw raw ->
  snd (construct o cDMI (RFrame raw) (VBool b)) = Ok ob ->
  (forall j, (14 <= j <= k)%nat -> running (true_range h l c) j <> 0) ->
  (forall j, (14 <= j <= k)%nat -> plus_di h l c j + minus_di h l c j <> 0) ->
  known (given "high" ob) k h -> known (given "low" ob) k l -> known (given "close" ob) k c ->
  shown "adx" ob k = from 27 k (Fin (r4 (adx_line h l c k))).
Proof. exact (fun W => average_directional_index_shown o raw b ob W k h l c). Qed.
Print Assumptions C63_average_directional_index.
Theorem C63_directional_rating o raw b ob k h l c : wf_raw raw ->
  snd (construct o cDMI (RFrame raw) (VBool b)) = Ok ob ->
  (forall j, (14 <= j <= k)%nat -> running (true_range h l c) j <> 0) ->
  (forall j, (14 <= j <= k)%nat -> plus_di h l c j + minus_di h l c j <> 0) ->
  known (given "high" ob) k h -> known (given "low" ob) k l -> known (given "close" ob) k c ->
  shown "adxr" ob k = from 40 k (Fin (r4 ((adx_line h l c k + adx_line h l c (k - 13)%nat) / zq 2))).
Proof. exact (fun W => directional_rating_shown o raw b ob W k h l c). Qed.
Print Assumptions C63_directional_rating.
Theorem C63_swing_index o raw b ob k op h l c : wf_raw raw ->
  snd (construct o cSWI (RFrame raw) (VBool b)) = Ok ob ->
  swing_span op h l c k <> 0 ->
  known (given "open" ob) k op -> known (given "high" ob) k h -> known (given "low" ob) k l -> known (given "close" ob) k c ->
  shown "swi" ob k = from 1 k (Fin (r4 (clip (swing op h l c k)))).
Proof. exact (fun W => swing_index_shown o raw b ob W k op h l c). Qed.
Print Assumptions C63_swing_index.
Example C63_case : wf_raw ten /\
  equals (value (cVCH (VInt 3) (VInt 2)) ten true "vch" 5) (25) 4 = true /\
  equals (value (cSWI) ten true "swi" 5) (-6579) 1250 = true.
Proof. split; [apply bars_wf|]. repeat split; vm_compute; reflexivity. Qed.

Definition known_month (c : ctor) (k : nat) : Prop := let ob := the (made ora0 c (bars month) true) in
  known (given "high" ob) k (at_of highs_month) /\ known (given "low" ob) k (at_of lows_month) /\ known (given "close" ob) k (at_of closes_month).
Example C63_hypotheses : known_month cDMI 28 /\ known_month cATR 28 /\ three_known cSWI /\
  (forall j, (14 <= j <= 28)%nat -> running (true_range (at_of highs_month) (at_of lows_month) (at_of closes_month)) j <> 0) /\
  (forall j, (14 <= j <= 28)%nat -> plus_di (at_of highs_month) (at_of lows_month) (at_of closes_month) j + minus_di (at_of highs_month) (at_of lows_month) (at_of closes_month) j <> 0) /\
  (forall j, (j <= 28)%nat -> at_of lows_month j < at_of highs_month j).
Proof.
  repeat split; try (apply reads_known; [vm_compute; reflexivity|cbn; lia]).
  - intros j J. apply nonzero. do 14 (destruct j as [|j]; [lia|]). do 15 (destruct j as [|j]; [vm_compute; reflexivity|]). lia.
  - intros j J. apply nonzero. do 14 (destruct j as [|j]; [lia|]). do 15 (destruct j as [|j]; [vm_compute; reflexivity|]). lia.
  - intros j J. apply qltb_iff. do 29 (destruct j as [|j]; [vm_compute; reflexivity|]). lia.
Qed.

(** ** C64 Volume *)
Theorem C64_chaikin_money_flow o raw b ob p k c v h l : wf_raw raw ->
  snd (construct o (cCMF p) (RFrame raw) (VBool b)) = Ok ob ->
  (forall j, (j <= k)%nat -> l j <= c j /\ c j <= h j /\ l j < h j) ->
  known (given "close" ob) k c -> known (given "volume" ob) k v -> known (given "high" ob) k h -> known (given "low" ob) k l ->
  let n := nat_arg p in
  shown "cmf" ob k = from (n - 1) k (rn (ratio (sum_last (fun j => adl_move (h j) (l j) (c j) (v j)) n k) (sum_last v n k))).
Proof. exact (fun W => chaikin_money_flow_shown o raw b ob W p k c v h l). Qed.
Print Assumptions C64_chaikin_money_flow.
Theorem C64_market_facilitation o raw b ob k h l v : wf_raw raw ->
  snd (construct o cMFI (RFrame raw) (VBool b)) = Ok ob ->
  known (given "high" ob) k h -> known (given "low" ob) k l -> known (given "volume" ob) k v ->
  shown "mfi" ob k = nround 10 (ratio (h k - l k) (v k)).
Proof. exact (fun W => market_facilitation_shown o raw b ob W k h l v). Qed.
Print Assumptions C64_market_facilitation.
Theorem C64_ease_of_movement o raw b ob p k h l v : wf_raw raw ->
  snd (construct o (cEMV p) (RFrame raw) (VBool b)) = Ok ob ->
  (forall j, (j <= k)%nat -> l j <> h j /\ v j <> 0) ->
  known (given "high" ob) k h -> known (given "low" ob) k l -> known (given "volume" ob) k v ->
  let n := nat_arg p in
  shown "emv" ob k = from 1 k (Fin (r4 (ease h l v k))) /\
  shown "emv_ma" ob k = from n k (Fin (r4 (mean_last (ease h l v) n k))).
Proof. exact (fun W => ease_of_movement_shown o raw b ob W p k h l v). Qed.
Print Assumptions C64_ease_of_movement.
Theorem C64_klinger o raw b ob k h l c v : wf_raw raw ->
  snd (construct o cKO (RFrame raw) (VBool b)) = Ok ob ->
  (forall j, (1 <= j <= k)%nat -> measure h l c j <> 0) ->
  known (given "high" ob) k h -> known (given "low" ob) k l -> known (given "close" ob) k c -> known (given "volume" ob) k v ->
  shown "ko" ob k = from 55 k (Fin (r4 (ema_from 1 34 (force h l c v) k - ema_from 1 55 (force h l c v) k))).
Proof. exact (fun W => klinger_shown o raw b ob W k h l c v). Qed.
Print Assumptions C64_klinger.
(** the value of the day, not the running total *)
Theorem C64_williams_accumulation o raw b ob k h l c : wf_raw raw ->
  snd (construct o cWAD (RFrame raw) (VBool b)) = Ok ob ->
  known (given "high" ob) k h -> known (given "low" ob) k l -> known (given "close" ob) k c ->
  shown "wad" ob k = from 1 k (Fin (r4 (if qltb (c (k - 1)%nat) (c k) then c k - true_low l c k else if qltb (c k) (c (k - 1)%nat) then c k - true_high h c k else 0))).
Proof. exact (fun W => williams_accumulation_shown o raw b ob W k h l c). Qed.
Print Assumptions C64_williams_accumulation.
(** needs every day of the input: the line below it is rounded to integers only when all its cells are finite *)
Theorem C64_chaikin_oscillator o raw b ob k h l c v : wf_raw raw ->
  snd (construct o cCO (RFrame raw) (VBool b)) = Ok ob ->
  (k < days_given ob)%nat ->
  (forall j, (j < days_given ob)%nat -> l j <= c j /\ c j <= h j) ->
  (forall j, (j < days_given ob)%nat -> l j < h j) ->
  known (given "high" ob) (days_given ob - 1) h -> known (given "low" ob) (days_given ob - 1) l -> known (given "close" ob) (days_given ob - 1) c -> known (given "volume" ob) (days_given ob - 1) v ->
  let line j := qtrunc (total (fun i => adl_move (h i) (l i) (c i) (v i)) (S j)) in
  shown "co" ob k = from 9 k (Fin (r4 (ema_from 0 3 line k - ema_from 0 10 line k))).
Proof. exact (fun W => chaikin_oscillator_shown o raw b ob W k h l c v). Qed.
Print Assumptions C64_chaikin_oscillator.
Example C64_case : wf_raw ten /\
  equals (value (cCMF (VInt 4)) ten true "cmf" 5) (2529) 10000 = true /\
  equals (value (cMFI) ten true "mfi" 5) (1) 5 = true /\
  equals (value (cEMV (VInt 3)) ten true "emv" 5) (3000) 1 = true /\
  equals (value (cEMV (VInt 3)) ten true "emv_ma" 5) (2375) 2 = true /\
  equals (value (cWAD) ten true "wad" 4) (4) 1 = true /\
  equals (value (cWAD) ten true "wad" 5) (-3) 1 = true /\
  equals (value (cCO) ten true "co" 9) (21219) 1250 = true.
Proof. split; [apply bars_wf|]. repeat split; vm_compute; reflexivity. Qed.

Example C64_hypotheses : let ob := the (made ora0 cCO ten true) in
  days_given ob = 10%nat /\ known (given "high" ob) 9 (at_of highs_ten) /\ known (given "low" ob) 9 (at_of lows_ten) /\
  known (given "close" ob) 9 (at_of closes_ten) /\ known (given "volume" ob) 9 (at_of volumes_ten) /\
  (forall j, (j < 10)%nat -> at_of lows_ten j <= at_of closes_ten j /\ at_of closes_ten j <= at_of highs_ten j /\ at_of lows_ten j < at_of highs_ten j) /\
  (forall j, (j < 10)%nat -> at_of lows_ten j <> at_of highs_ten j /\ at_of volumes_ten j <> 0) /\
  (forall j, (1 <= j < 10)%nat -> measure (at_of highs_ten) (at_of lows_ten) (at_of closes_ten) j <> 0).
Proof.
  cbv zeta. split; [vm_compute; reflexivity|]. do 4 (split; [apply reads_known; [vm_compute; reflexivity|cbn; lia]|]). split; [|split].
  - intros j J. do 10 (destruct j as [|j]; [repeat split; first [apply qleb_iff|apply qltb_iff]; vm_compute; reflexivity|]). lia.
  - intros j J. split; [intro E; apply qeqb_iff in E; revert E; do 10 (destruct j as [|j]; [vm_compute; discriminate|]); lia|].
    apply nonzero. do 10 (destruct j as [|j]; [vm_compute; reflexivity|]). lia.
  - intros j J. apply nonzero. destruct j as [|j]; [lia|]. do 9 (destruct j as [|j]; [vm_compute; reflexivity|]). lia.
Qed.
(** Williams' line is the running total of the daily values; the published column is not *)
Definition wad_total (h l c : nat -> Qc) (k : nat) : Qc :=
  total (fun i => let j := S i in if qltb (c (j - 1)%nat) (c j) then c j - true_low l c j else if qltb (c j) (c (j - 1)%nat) then c j - true_high h c j else 0) k.
Theorem C64_williams_total_refuted : exists raw ob k h l c, wf_raw raw /\ snd (construct ora0 cWAD (RFrame raw) (VBool true)) = Ok ob /\
  known (given "high" ob) k h /\ known (given "low" ob) k l /\ known (given "close" ob) k c /\ (1 <= k)%nat /\
  shown "wad" ob k <> Fin (r4 (wad_total h l c k)).
Proof.
  exists ten, (the (made ora0 cWAD ten true)), 5%nat, (at_of highs_ten), (at_of lows_ten), (at_of closes_ten).
  split; [apply bars_wf|]. split; [vm_compute; reflexivity|]. do 3 (split; [apply reads_known; [vm_compute; reflexivity|cbn; lia]|]).
  split; [lia|]. intro E. assert (X : neqb (shown "wad" (the (made ora0 cWAD ten true)) 5) (Fin (r4 (wad_total (at_of highs_ten) (at_of lows_ten) (at_of closes_ten) 5))) = true)
    by (rewrite E; apply qeqb_iff; reflexivity). vm_compute in X. discriminate.
Qed.
Print Assumptions C64_williams_total_refuted.

(** ** C65 Projections and detrending *)
(** the prices of the last n days, moved along their own regression slope to today *)
Theorem C65_projection_bands o raw b ob p k h l : wf_raw raw ->
  snd (construct o (cPB p) (RFrame raw) (VBool b)) = Ok ob ->
  known (given "high" ob) k h -> known (given "low" ob) k l ->
  let n := nat_arg p in
  shown "upper_band" ob k = from (n - 1) k (Fin (r4 (highest_projection h n k))) /\
  shown "lower_band" ob k = from (n - 1) k (Fin (r4 (lowest_projection l n k))).
Proof. exact (fun W => projection_bands_shown o raw b ob W p k h l). Qed.
Print Assumptions C65_projection_bands.
Theorem C65_projection_oscillator o raw b ob p k h l c : wf_raw raw ->
  snd (construct o (cPROJ p) (RFrame raw) (VBool b)) = Ok ob ->
  known (given "high" ob) k h -> known (given "low" ob) k l -> known (given "close" ob) k c ->
  let n := nat_arg p in let top := r4 (highest_projection h n k) in let bottom := r4 (lowest_projection l n k) in
  shown "posc" ob k = from (n - 1) k (rn (ratio (zq 100 * (c k - bottom)) (top - bottom))).
Proof. exact (fun W => projection_oscillator_shown o raw b ob W p k h l c). Qed.
Print Assumptions C65_projection_oscillator.
Theorem C65_projection_trigger o raw b ob p k h l c : wf_raw raw ->
  snd (construct o (cPROJ p) (RFrame raw) (VBool b)) = Ok ob ->
  (forall j, (nat_arg p - 1 <= j <= k)%nat -> r4 (highest_projection h (nat_arg p) j) <> r4 (lowest_projection l (nat_arg p) j)) ->
  known (given "high" ob) k h -> known (given "low" ob) k l -> known (given "close" ob) k c ->
  let n := nat_arg p in
  let place j := zq 100 * (c j - r4 (lowest_projection l n j)) / (r4 (highest_projection h n j) - r4 (lowest_projection l n j)) in
  shown "trigger_line" ob k = from (n + 1) k (Fin (r4 (ema_from (n - 1) 3 place k))).
Proof. exact (fun W => projection_trigger_shown o raw b ob W p k h l c). Qed.
Print Assumptions C65_projection_trigger.
Theorem C65_forecast_oscillator o raw b ob p k c : wf_raw raw ->
  snd (construct o (cFOSC p) (RFrame raw) (VBool b)) = Ok ob ->
  known (given "close" ob) k c ->
  let n := nat_arg p in
  shown "fosc" ob k = from n k (rn (ratio (zq 100 * (c k - forecast c n (k - 1))) (c k))).
Proof. exact (fun W => forecast_oscillator_shown o raw b ob W p k c). Qed.
Print Assumptions C65_forecast_oscillator.
(** the average is the one of n/2 + 1 days later; the last n/2 + 1 days are not published *)
Theorem C65_detrended_price o raw b ob p k c : wf_raw raw ->
  snd (construct o (cDPO p) (RFrame raw) (VBool b)) = Ok ob ->
  known (given "close" ob) k c ->
  let n := nat_arg p in let d := S (n / 2) in
  (d <= k)%nat -> shown "dpo" ob (k - d) = from (n - 1 - d) (k - d) (Fin (r4 (c (k - d)%nat - mean_last c n k))).
Proof. exact (fun W => detrended_price_shown o raw b ob W p k c). Qed.
Print Assumptions C65_detrended_price.
Example C65_case : wf_raw ten /\
  equals (value (cPB (VInt 3)) ten true "upper_band" 5) (16) 1 = true /\
  equals (value (cPB (VInt 3)) ten true "lower_band" 5) (11) 1 = true /\
  equals (value (cPROJ (VInt 3)) ten true "posc" 5) (20) 1 = true /\
  equals (value (cPROJ (VInt 3)) ten true "trigger_line" 5) (26893) 625 = true /\
  equals (value (cFOSC (VInt 3)) ten true "fosc" 5) (-8889) 400 = true /\
  equals (value (cDPO (VInt 4)) ten true "dpo" 2) (-2) 1 = true.
Proof. split; [apply bars_wf|]. repeat split; vm_compute; reflexivity. Qed.

Example C65_hypotheses : three_known (cPROJ (VInt 3)) /\ known (given "close" (the (made ora0 (cDPO (VInt 4)) ten true))) 9 (at_of closes_ten) /\
  (forall j, (2 <= j <= 5)%nat -> r4 (highest_projection (at_of highs_ten) 3 j) <> r4 (lowest_projection (at_of lows_ten) 3 j)).
Proof.
  repeat split; try (apply reads_known; [vm_compute; reflexivity|cbn; lia]).
  intros j J E. apply qeqb_iff in E. revert E. do 2 (destruct j as [|j]; [lia|]). do 4 (destruct j as [|j]; [vm_compute; discriminate|]). lia.
Qed.

(** ** C47 Regression *)
Theorem C47_regression_indicator o raw b ob p k c : wf_raw raw ->
  snd (construct o (cLRI p) (RFrame raw) (VBool b)) = Ok ob ->
  known (given "close" ob) k c ->
  let n := nat_arg p in
  shown "lri" ob k = from (n - 1) k (Fin (r4 (end_last c n k))).
Proof. exact (fun W => regression_indicator_shown o raw b ob W p k c). Qed.
Print Assumptions C47_regression_indicator.
Theorem C47_regression_slope o raw b ob p k c : wf_raw raw ->
  snd (construct o (cLRS p) (RFrame raw) (VBool b)) = Ok ob ->
  (2 <= nat_arg p)%nat ->
  known (given "close" ob) k c ->
  let n := nat_arg p in
  shown "lrs" ob k = from (n - 1) k (Fin (r4 (slope_last c n k))).
Proof. exact (fun W => regression_slope_shown o raw b ob W p k c). Qed.
Print Assumptions C47_regression_slope.
Theorem C47_time_series_forecast o raw b ob p k c : wf_raw raw ->
  snd (construct o (cTSF p) (RFrame raw) (VBool b)) = Ok ob ->
  known (given "close" ob) k c ->
  let n := nat_arg p in
  shown "tsf" ob k = from (n - 1) k (Fin (forecast c n k)).
Proof. exact (fun W => time_series_forecast_shown o raw b ob W p k c). Qed.
Print Assumptions C47_time_series_forecast.
(** the straight line closest to the last n closes: its last point, its slope, their sum *)
Theorem C47_least_squares o raw b ob ob' ob'' p k c : wf_raw raw -> (2 <= nat_arg p)%nat ->
  snd (construct o (cLRI p) (RFrame raw) (VBool b)) = Ok ob ->
  snd (construct o (cLRS p) (RFrame raw) (VBool b)) = Ok ob' ->
  snd (construct o (cTSF p) (RFrame raw) (VBool b)) = Ok ob'' ->
  known (given "close" ob) k c -> (nat_arg p - 1 <= k)%nat ->
  let n := nat_arg p in
  exists first slope, best_line (last_rows c n k) n first slope /\
    let end_point := first + slope * nq (n - 1) in
    shown "lri" ob k = Fin (r4 end_point) /\ shown "lrs" ob' k = Fin (r4 slope) /\ shown "tsf" ob'' k = Fin (r4 slope + r4 end_point).
Proof. exact (least_squares_shown o raw b ob ob' ob'' p k c). Qed.
Print Assumptions C47_least_squares.
(** closes on a straight line are reproduced *)
Theorem C47_straight_price o raw b ob ob' ob'' p k c first slope : wf_raw raw -> (2 <= nat_arg p)%nat ->
  snd (construct o (cLRI p) (RFrame raw) (VBool b)) = Ok ob ->
  snd (construct o (cLRS p) (RFrame raw) (VBool b)) = Ok ob' ->
  snd (construct o (cTSF p) (RFrame raw) (VBool b)) = Ok ob'' ->
  known (given "close" ob) k c -> (nat_arg p - 1 <= k)%nat ->
  (forall i, (i < nat_arg p)%nat -> c (S k - nat_arg p + i)%nat = first + slope * nq i) ->
  shown "lri" ob k = Fin (r4 (c k)) /\ shown "lrs" ob' k = Fin (r4 slope) /\ shown "tsf" ob'' k = Fin (r4 slope + r4 (c k)).
Proof. exact (straight_price_shown o raw b ob ob' ob'' p k c first slope). Qed.
Print Assumptions C47_straight_price.

Example C47_case : wf_raw ten /\
  equals (value (cLRI (VInt 4)) ten true "lri" 5) (64) 5 = true /\
  equals (value (cLRS (VInt 4)) ten true "lrs" 5) (6) 5 = true /\
  equals (value (cTSF (VInt 4)) ten true "tsf" 5) (14) 1 = true.
Proof. split; [apply bars_wf|]. repeat split; vm_compute; reflexivity. Qed.

Example C47_straight_case : let up := bars [(1, 9, 1, 2, 1); (1, 9, 1, 5, 1); (1, 9, 1, 8, 1); (1, 9, 1, 1, 1)]%Z in
  known (given "close" (the (made ora0 (cLRI (VInt 3)) up true))) 2 (at_of [2; 5; 8]%Z) /\
  (forall i, (i < 3)%nat -> at_of [2; 5; 8]%Z (S 2 - 3 + i)%nat = zq 2 + zq 3 * nq i) /\
  equals (value (cLRI (VInt 3)) up true "lri" 2) 8 1 = true /\ equals (value (cLRS (VInt 3)) up true "lrs" 2) 3 1 = true /\
  equals (value (cTSF (VInt 3)) up true "tsf" 2) 11 1 = true.
Proof.
  cbv zeta. split; [apply reads_known; [vm_compute; reflexivity|cbn; lia]|]. split; [|repeat split; vm_compute; reflexivity].
  intros i I. apply Qc_is_canon. do 3 (destruct i as [|i]; [vm_compute; reflexivity|]). lia.
Qed.
Example C47_hypotheses : known (given "close" (the (made ora0 (cLRI (VInt 4)) ten true))) 9 (at_of closes_ten).
Proof. apply reads_known; [vm_compute; reflexivity|cbn; lia]. Qed.

