(** * PropsFormula: the values of the indicators are the textbook formulas.

    [known x k f]: rows 0 .. k of x are the finite numbers f 0 .. f k.  The words of the
    formulas (mean_last, ema_from, wilder_from, true_range, ...) are defined in FormulaSpec
    without reference to the model.  [from a k v]: missing before row a, v from row a on. *)
From Coq Require Import ZArith QArith Qcanon Bool List String PeanoNat Lia.
From Verif Require Import Num NumFacts Pandas Sim Frame FrameSpec Ind Signal Api IndSpec ApiSpec RangeSpec PropsApi PropsRange ValueSpec ValueApi PropsValue CumulApi PropsCumul FormulaSpec FormulaApi.
Import ListNotations.
Open Scope list_scope. Open Scope string_scope. Open Scope Qc_scope.

(** days with open, high, low, close and volume *)
Definition bars (rs : list (Z * Z * Z * Z * Z)) : rawframe :=
  mkRaw true ohlcv [true; true; true; true; true]
    (map (fun p => let '(k, (a, h, l, c, v)) := p in (Z.of_nat k, [F a; F h; F l; F c; F v])) (combine (seq 1 (List.length rs)) rs)).
Lemma bars_wf rs : wf_raw (bars rs).
Proof. split; [reflexivity|]. intros r H. cbn in H. apply in_map_iff in H as ([k [[[[a h] l] c] v]] & <- & _). reflexivity. Qed.
Definition ten_days := [(10, 12, 8, 11, 50); (11, 13, 9, 12, 60); (12, 12, 8, 9, 30); (9, 11, 7, 10, 40); (10, 14, 9, 13, 80); (13, 15, 11, 12, 20); (12, 13, 10, 11, 70); (11, 16, 10, 15, 90); (15, 17, 13, 14, 55); (14, 15, 12, 13, 45)]%Z.
Definition ten := bars ten_days.
Definition opens_ten := [10; 11; 12; 9; 10; 13; 12; 11; 15; 14]%Z. Definition highs_ten := [12; 13; 12; 11; 14; 15; 13; 16; 17; 15]%Z. Definition lows_ten := [8; 9; 8; 7; 9; 11; 10; 10; 13; 12]%Z.
Definition closes_ten := [11; 12; 9; 10; 13; 12; 11; 15; 14; 13]%Z. Definition volumes_ten := [50; 60; 30; 40; 80; 20; 70; 90; 55; 45]%Z.
Lemma nonzero q : qeqb q 0 = false -> q <> 0.
Proof. intros H E. apply qeqb_iff in E. congruence. Qed.

(** ** C59 Moving averages *)
Theorem C59_simple_moving_average o raw b ob p k c : wf_raw raw ->
  snd (construct o (cMA p (VStr "simple")) (RFrame raw) (VBool b)) = Ok ob ->
  known (given "close" ob) k c ->
  let n := nat_arg p in
  shown "ma-simple" ob k = from (n - 1) k (Fin (r4 (mean_last c n k))).
Proof. exact (fun W => simple_moving_average_shown o raw b ob W p k c). Qed.
Print Assumptions C59_simple_moving_average.
Theorem C59_exponential_moving_average o raw b ob p k c : wf_raw raw ->
  snd (construct o (cMA p (VStr "exponential")) (RFrame raw) (VBool b)) = Ok ob ->
  known (given "close" ob) k c ->
  let n := nat_arg p in
  shown "ma-exponential" ob k = from (n - 1) k (Fin (r4 (ema_from 0 n c k))).
Proof. exact (fun W => exponential_moving_average_shown o raw b ob W p k c). Qed.
Print Assumptions C59_exponential_moving_average.
Theorem C59_triangular_moving_average o raw b ob p k c : wf_raw raw ->
  snd (construct o (cMA p (VStr "triangular")) (RFrame raw) (VBool b)) = Ok ob ->
  known (given "close" ob) k c ->
  let n := nat_arg p in
  shown "ma-triangular" ob k = from (2 * (n - 1)) k (Fin (r4 (mean_last (mean_last c n) n k))).
Proof. exact (fun W => triangular_moving_average_shown o raw b ob W p k c). Qed.
Print Assumptions C59_triangular_moving_average.
(** the last point of the least squares line of the last n days plus its slope *)
Theorem C59_time_series_moving_average o raw b ob p k c : wf_raw raw ->
  snd (construct o (cMA p (VStr "time_series")) (RFrame raw) (VBool b)) = Ok ob ->
  (2 <= nat_arg p)%nat ->
  known (given "close" ob) k c ->
  let n := nat_arg p in
  shown "ma-time_series" ob k = from (n - 1) k (Fin (forecast c n k)).
Proof. exact (fun W => time_series_moving_average_shown o raw b ob W p k c). Qed.
Print Assumptions C59_time_series_moving_average.
(** the weight of the newest price follows the momentum of the last nine days *)
Theorem C59_variable_moving_average o raw b ob p k c : wf_raw raw ->
  snd (construct o (cMA p (VStr "variable")) (RFrame raw) (VBool b)) = Ok ob ->
  (forall j, (22 <= j <= k)%nat -> exists i, (j - 9 < i <= j)%nat /\ c i <> c (i - 1)%nat) ->
  known (given "close" ob) k c ->
  let n := nat_arg p in
  shown "ma-variable" ob k = from 21 k (Fin (r4 (variable_line n c k))).
Proof. exact (fun W => variable_moving_average_shown o raw b ob W p k c). Qed.
Print Assumptions C59_variable_moving_average.
Theorem C59_double_exponential o raw b ob p k c : wf_raw raw ->
  snd (construct o (cDEMA p) (RFrame raw) (VBool b)) = Ok ob ->
  known (given "close" ob) k c ->
  let n := nat_arg p in let e := ema_from 0 n c in let e2 := ema_from (n - 1) n e in
  shown "dema" ob k = from (2 * (n - 1)) k (Fin (r4 (zq 2 * e k - e2 k))).
Proof. exact (fun W => double_exponential_shown o raw b ob W p k c). Qed.
Print Assumptions C59_double_exponential.
Theorem C59_triple_exponential o raw b ob p k c : wf_raw raw ->
  snd (construct o (cTEMA p) (RFrame raw) (VBool b)) = Ok ob ->
  known (given "close" ob) k c ->
  let n := nat_arg p in let e := ema_from 0 n c in let e2 := ema_from (n - 1) n e in let e3 := ema_from (2 * (n - 1)) n e2 in
  shown "tema" ob k = from (3 * (n - 1)) k (Fin (r4 (zq 3 * e k - zq 3 * e2 k + e3 k))).
Proof. exact (fun W => triple_exponential_shown o raw b ob W p k c). Qed.
Print Assumptions C59_triple_exponential.
Theorem C59_wilders_smoothing o raw b ob p k c : wf_raw raw ->
  snd (construct o (cWS p) (RFrame raw) (VBool b)) = Ok ob ->
  known (given "close" ob) k c ->
  let n := nat_arg p in
  shown "ws" ob k = from (n - 1) k (Fin (r4 (run_from (n - 1) (wilders n) (mean_last c n (n - 1)) c k))).
Proof. exact (fun W => wilders_smoothing_shown o raw b ob W p k c). Qed.
Print Assumptions C59_wilders_smoothing.
Example C59_case : wf_raw ten /\
  equals (value (cMA (VInt 3) (VStr "simple")) ten true "ma-simple" 4) (106667) 10000 = true /\
  equals (value (cMA (VInt 3) (VStr "exponential")) ten true "ma-exponential" 4) (185) 16 = true /\
  equals (value (cMA (VInt 3) (VStr "triangular")) ten true "ma-triangular" 5) (108889) 10000 = true /\
  equals (value (cMA (VInt 4) (VStr "time_series")) ten true "ma-time_series" 5) (14) 1 = true /\
  equals (value (cDEMA (VInt 3)) ten true "dema" 5) (15293) 1250 = true /\
  equals (value (cTEMA (VInt 2)) ten true "tema" 5) (24299) 2000 = true /\
  equals (value (cWS (VInt 3)) ten true "ws" 5) (115309) 10000 = true.
Proof. split; [apply bars_wf|]. repeat split; vm_compute; reflexivity. Qed.

Example C59_hypotheses : known (given "close" (the (made ora0 (cMA (VInt 3) (VStr "time_series")) ten true))) 9 (at_of closes_ten) /\
  known (given "close" (the (made ora0 (cDEMA (VInt 3)) ten true))) 9 (at_of closes_ten).
Proof. split; (apply reads_known; [vm_compute; reflexivity|cbn; lia]). Qed.
(** a price that moves every day, long enough for the variable average *)
Definition zigzag := closing (map (fun k => (Z.of_nat k, F (10 + Z.of_nat (k mod 3)))) (seq 1 27)).
Definition zigzag_closes := map (fun k => (10 + Z.of_nat (k mod 3))%Z) (seq 1 27).
Example C59_variable_case : let ob := the (made ora0 (cMA (VInt 4) (VStr "variable")) zigzag true) in
  wf_raw zigzag /\ known (given "close" ob) 23 (at_of zigzag_closes) /\
  (forall j, (22 <= j <= 23)%nat -> exists i, (j - 9 < i <= j)%nat /\ at_of zigzag_closes i <> at_of zigzag_closes (i - 1)%nat) /\
  isfin (shown "ma-variable" ob 23) = true.
Proof.
  cbv zeta. split; [split; [reflexivity|intros r H; cbn in H; decompose [or] H; subst; try reflexivity; contradiction]|].
  split; [apply reads_known; [vm_compute; reflexivity|cbn; lia]|]. split; [|vm_compute; reflexivity].
  intros j J. exists j. split; [lia|]. assert (j = 22 \/ j = 23)%nat as [-> | ->] by lia; intro E; apply qeqb_iff in E; vm_compute in E; discriminate.
Qed.

(** ** C60 Oscillators of one column *)
(** the 12 and the 26 day averages are rounded before they are subtracted *)
Theorem C60_macd o raw b ob k c : wf_raw raw ->
  snd (construct o cMACD (RFrame raw) (VBool b)) = Ok ob ->
  known (given "close" ob) k c ->
  let m j := r4 (ema_from 0 12 c j) - r4 (ema_from 0 26 c j) in
  shown "macd" ob k = from 25 k (Fin (r4 (m k))) /\ shown "signal_line" ob k = from 33 k (Fin (r4 (ema_from 25 9 m k))).
Proof. exact (fun W => macd_shown o raw b ob W k c). Qed.
Print Assumptions C60_macd.
Theorem C60_price_oscillator o raw b ob p q k c : wf_raw raw ->
  snd (construct o (cPOSC p q) (RFrame raw) (VBool b)) = Ok ob ->
  known (given "close" ob) k c ->
  let long := nat_arg p in let short := nat_arg q in
  shown "posc" ob k = from (long - 1) k (rn (ratio (zq 100 * (mean_last c short k - mean_last c long k)) (mean_last c long k))).
Proof. exact (fun W => price_oscillator_shown o raw b ob W p q k c). Qed.
Print Assumptions C60_price_oscillator.
Theorem C60_volume_oscillator o raw b ob p q k v : wf_raw raw ->
  snd (construct o (cVOSC p q) (RFrame raw) (VBool b)) = Ok ob ->
  known (given "volume" ob) k v ->
  let long := nat_arg p in let short := nat_arg q in
  shown "vosc" ob k = from (long - 1) k (Fin (r4 (mean_last v short k - mean_last v long k))).
Proof. exact (fun W => volume_oscillator_shown o raw b ob W p q k v). Qed.
Print Assumptions C60_volume_oscillator.
Theorem C60_volume_rate_of_change o raw b ob p k v : wf_raw raw ->
  snd (construct o (cVRC p) (RFrame raw) (VBool b)) = Ok ob ->
  known (given "volume" ob) k v ->
  let n := nat_arg p in
  shown "vrc" ob k = from n k (rn (ratio (zq 100 * change n v k) (v (k - n)%nat))).
Proof. exact (fun W => volume_rate_of_change_shown o raw b ob W p k v). Qed.
Print Assumptions C60_volume_rate_of_change.
(** the root of the mean squared distance from the mean (divided by n, not n - 1) *)
Theorem C60_standard_deviation o raw b ob p k c : wf_raw raw ->
  snd (construct o (cSD p) (RFrame raw) (VBool b)) = Ok ob ->
  known (given "close" ob) k c ->
  let n := nat_arg p in
  shown "sd" ob k = from (n - 1) k (Fin (r4 (o_sqrt o (variance (last_rows c n k) n)))).
Proof. exact (fun W => standard_deviation_shown o raw b ob W p k c). Qed.
Print Assumptions C60_standard_deviation.
Theorem C60_vertical_horizontal_filter o raw b ob p k c : wf_raw raw ->
  snd (construct o (cVHF p) (RFrame raw) (VBool b)) = Ok ob ->
  known (given "close" ob) k c ->
  let n := nat_arg p in
  shown "vhf" ob k = from n k (rn (ratio (max_last c n k - min_last c n k) (sum_last (fun j => abs (change 1 c j)) n k))).
Proof. exact (fun W => vertical_horizontal_filter_shown o raw b ob W p k c). Qed.
Print Assumptions C60_vertical_horizontal_filter.
(** change since the first day *)
Theorem C60_performance o raw b ob p q k c : wf_raw raw ->
  snd (construct o (cPRF p q) (RFrame raw) (VBool b)) = Ok ob ->
  known (given "close" ob) k c ->
  shown "prf" ob k = rn (ratio (c k - c O) (c O)).
Proof. exact (fun W => performance_shown o raw b ob W p q k c). Qed.
Print Assumptions C60_performance.
Example C60_case : wf_raw ten /\
  equals (value (cPOSC (VInt 4) (VInt 2)) ten true "posc" 5) (34091) 2500 = true /\
  equals (value (cVOSC (VInt 4) (VInt 2)) ten true "vosc" 5) (15) 2 = true /\
  equals (value (cVRC (VInt 3)) ten true "vrc" 5) (-333333) 10000 = true /\
  equals (value (cSD (VInt 4)) ten true "sd" 5) (5) 2 = true /\
  equals (value (cVHF (VInt 4)) ten true "vhf" 5) (1) 2 = true /\
  equals (value (cPRF (VStr "LONG") (VInt 2)) ten true "prf" 5) (909) 10000 = true.
Proof. split; [apply bars_wf|]. repeat split; vm_compute; reflexivity. Qed.

Example C60_hypotheses : known (given "close" (the (made ora0 (cPOSC (VInt 4) (VInt 2)) ten true))) 9 (at_of closes_ten) /\
  known (given "volume" (the (made ora0 (cVOSC (VInt 4) (VInt 2)) ten true))) 9 (at_of volumes_ten) /\
  known (given "close" (the (made ora0 cMACD zigzag true))) 26 (at_of zigzag_closes).
Proof. repeat split; (apply reads_known; [vm_compute; reflexivity|cbn; lia]). Qed.

(** ** C61 Gains against losses *)
Theorem C61_chande_momentum o raw b ob p k c : wf_raw raw ->
  snd (construct o (cCMO p) (RFrame raw) (VBool b)) = Ok ob ->
  known (given "close" ob) k c ->
  let n := nat_arg p in
  let up := sum_last (fun j => gain (change 1 c j)) n k in let down := sum_last (fun j => loss (change 1 c j)) n k in
  shown "cmo" ob k = from n k (rn (ratio (zq 100 * (up - down)) (up + down))).
Proof. exact (fun W => chande_momentum_shown o raw b ob W p k c). Qed.
Print Assumptions C61_chande_momentum.
(** gains, losses and both averages are rounded to four decimals every day *)
Theorem C61_relative_strength o raw b ob p k c : wf_raw raw ->
  snd (construct o (cRSI p) (RFrame raw) (VBool b)) = Ok ob ->
  known (given "close" ob) k c ->
  let n := nat_arg p in
  let average f := run_from n (fun prev y => r4 (wilders n prev y)) (mean_last f n n) f k in
  let up := average (fun j => r4 (gain (change 1 c j))) in let down := average (fun j => r4 (loss (change 1 c j))) in
  shown "rsi" ob k = from n k (rn (ratio (zq 100 * up) (up + down))).
Proof. exact (fun W => relative_strength_shown o raw b ob W p k c). Qed.
Print Assumptions C61_relative_strength.
(** missing, not 100, while there was no loss at all *)
Theorem C61_relative_momentum o raw b ob p q k c : wf_raw raw ->
  snd (construct o (cRMI p q) (RFrame raw) (VBool b)) = Ok ob ->
  known (given "close" ob) k c ->
  let n := nat_arg p in let m := nat_arg q in
  let up := wilder_from m n (fun j => gain (change m c j)) k in let down := wilder_from m n (fun j => loss (change m c j)) k in
  shown "rmi" ob k = from (n + m - 1) k (if qeqb down 0 then NaN else Fin (r4 (zq 100 * up / (up + down)))).
Proof. exact (fun W => relative_momentum_shown o raw b ob W p q k c). Qed.
Print Assumptions C61_relative_momentum.
Theorem C61_intraday_momentum o raw b ob p k op c : wf_raw raw ->
  snd (construct o (cIMI p) (RFrame raw) (VBool b)) = Ok ob ->
  known (given "open" ob) k op -> known (given "close" ob) k c ->
  let n := nat_arg p in
  let up := sum_last (fun j => gain (c j - op j)) n k in let down := sum_last (fun j => gain (op j - c j)) n k in
  shown "imi" ob k = from (n - 1) k (rn (ratio (zq 100 * up) (up + down))).
Proof. exact (fun W => intraday_momentum_shown o raw b ob W p k op c). Qed.
Print Assumptions C61_intraday_momentum.
Theorem C61_qstick o raw b ob p k op c : wf_raw raw ->
  snd (construct o (cQS p) (RFrame raw) (VBool b)) = Ok ob ->
  known (given "open" ob) k op -> known (given "close" ob) k c ->
  let n := nat_arg p in
  shown "qstick" ob k = from (n - 1) k (Fin (r4 (mean_last (fun j => c j - op j) n k))).
Proof. exact (fun W => qstick_shown o raw b ob W p k op c). Qed.
Print Assumptions C61_qstick.
Example C61_case : wf_raw ten /\
  equals (value (cCMO (VInt 3)) ten true "cmo" 5) (60) 1 = true /\
  equals (value (cRSI (VInt 3)) ten true "rsi" 5) (34573) 625 = true /\
  equals (value (cRMI (VInt 3) (VInt 2)) ten true "rmi" 6) (451613) 10000 = true /\
  equals (value (cIMI (VInt 4)) ten true "imi" 5) (50) 1 = true /\
  equals (value (cQS (VInt 4)) ten true "qstick" 5) (0) 1 = true.
Proof. split; [apply bars_wf|]. repeat split; vm_compute; reflexivity. Qed.

Example C61_hypotheses : known (given "close" (the (made ora0 (cRSI (VInt 3)) ten true))) 9 (at_of closes_ten) /\
  known (given "open" (the (made ora0 (cIMI (VInt 3)) ten true))) 9 (at_of opens_ten) /\
  known (given "close" (the (made ora0 (cIMI (VInt 3)) ten true))) 9 (at_of closes_ten).
Proof. repeat split; (apply reads_known; [vm_compute; reflexivity|cbn; lia]). Qed.
(** two indexes of the same gains and losses disagree on a price that only rises *)
Example C61_rising_price : wf_raw (bars (firstn 4 [(1, 2, 1, 1, 1); (1, 2, 1, 2, 1); (1, 3, 1, 3, 1); (1, 4, 1, 4, 1)]%Z)) /\
  let up := bars [(1, 2, 1, 1, 1); (1, 2, 1, 2, 1); (1, 3, 1, 3, 1); (1, 4, 1, 4, 1)]%Z in
  equals (value (cRSI (VInt 2)) up true "rsi" 3) 100 1 = true /\ isnan (value (cRMI (VInt 2) (VInt 1)) up true "rmi" 3) = true.
Proof. split; [apply bars_wf|]. split; vm_compute; reflexivity. Qed.

(** ** C62 Place of the price in its range *)
Theorem C62_williams_r o raw b ob p k h l c : wf_raw raw ->
  snd (construct o (cWR p) (RFrame raw) (VBool b)) = Ok ob ->
  known (given "high" ob) k h -> known (given "low" ob) k l -> known (given "close" ob) k c ->
  let n := nat_arg p in let top := max_last h n k in let bottom := min_last l n k in
  shown "wr" ob k = from (n - 1) k (rn (nmul (Fin (- zq 100)) (ratio (top - c k) (top - bottom)))).
Proof. exact (fun W => williams_r_shown o raw b ob W p k h l c). Qed.
Print Assumptions C62_williams_r.
Theorem C62_stochastic o raw b ob p q r m k h l c : wf_raw raw ->
  snd (construct o (cSO p q r m) (RFrame raw) (VBool b)) = Ok ob ->
  known (given "high" ob) k h -> known (given "low" ob) k l -> known (given "close" ob) k c ->
  let n := nat_arg p in let s := nat_arg q in
  shown "%K" ob k = from (n + s - 2) k (rn (ratio (zq 100 * sum_last (fun j => c j - min_last l n j) s k) (sum_last (fun j => max_last h n j - min_last l n j) s k))).
Proof. exact (fun W => stochastic_shown o raw b ob W p q r m k h l c). Qed.
Print Assumptions C62_stochastic.
Theorem C62_stochastic_signal o raw b ob p q r k h l c : wf_raw raw ->
  snd (construct o (cSO p q r (VStr "simple")) (RFrame raw) (VBool b)) = Ok ob ->
  (forall j, (nat_arg p + nat_arg q - 2 <= j <= k)%nat -> sum_last (fun i => max_last h (nat_arg p) i - min_last l (nat_arg p) i) (nat_arg q) j <> 0) ->
  known (given "high" ob) k h -> known (given "low" ob) k l -> known (given "close" ob) k c ->
  let n := nat_arg p in let s := nat_arg q in let d := nat_arg r in
  let fast j := r4 (zq 100 * sum_last (fun i => c i - min_last l n i) s j / sum_last (fun i => max_last h n i - min_last l n i) s j) in
  shown "%D" ob k = from (n + s + d - 3) k (Fin (r4 (mean_last fast d k))).
Proof. exact (fun W => stochastic_signal_shown o raw b ob W p q r k h l c). Qed.
Print Assumptions C62_stochastic_signal.
Theorem C62_stochastic_momentum o raw b ob p q r k h l c : wf_raw raw ->
  snd (construct o (cSMI p q r) (RFrame raw) (VBool b)) = Ok ob ->
  known (given "high" ob) k h -> known (given "low" ob) k l -> known (given "close" ob) k c ->
  let n := nat_arg p in let s := nat_arg q in let d := nat_arg r in
  let distance j := c j - (max_last h n j + min_last l n j) / zq 2 in let width j := max_last h n j - min_last l n j in
  let twice f := ema_from (n + s - 2) d (ema_from (n - 1) s f) in
  shown "smi" ob k = from (n + s + d - 3) k (rn (ratio (zq 100 * twice distance k) (twice width k / zq 2))).
Proof. exact (fun W => stochastic_momentum_shown o raw b ob W p q r k h l c). Qed.
Print Assumptions C62_stochastic_momentum.
Theorem C62_commodity_channel o raw b ob p k h l c : wf_raw raw ->
  snd (construct o (cCCI p) (RFrame raw) (VBool b)) = Ok ob ->
  known (given "high" ob) k h -> known (given "low" ob) k l -> known (given "close" ob) k c ->
  let n := nat_arg p in let tp := typical h l c in let mean := mean_last tp n k in
  let spread := mean_last (fun j => abs (mean - tp j)) n k in
  shown "cci" ob k = from (n - 1) k (rn (ratio (tp k - mean) (Q2Qc (15 # 1000) * spread))).
Proof. exact (fun W => commodity_channel_shown o raw b ob W p k h l c). Qed.
Print Assumptions C62_commodity_channel.
Theorem C62_ultimate_oscillator o raw b ob k h l c : wf_raw raw ->
  snd (construct o cUO (RFrame raw) (VBool b)) = Ok ob ->
  (forall w, In w [7; 14; 28]%nat -> (28 <= k)%nat -> sum_last (reach h l c) w k <> 0) ->
  known (given "high" ob) k h -> known (given "low" ob) k l -> known (given "close" ob) k c ->
  let share w := sum_last (pressure l c) w k / sum_last (reach h l c) w k in
  shown "uosc" ob k = from 28 k (Fin (r4 (zq 100 * (zq 4 * share 7%nat + zq 2 * share 14%nat + share 28%nat) / zq 7))).
Proof. exact (fun W => ultimate_oscillator_shown o raw b ob W k h l c). Qed.
Print Assumptions C62_ultimate_oscillator.
Theorem C62_range_indicator o raw b ob p q k h l c : wf_raw raw ->
  snd (construct o (cRI p q) (RFrame raw) (VBool b)) = Ok ob ->
  known (given "high" ob) k h -> known (given "low" ob) k l -> known (given "close" ob) k c ->
  let n := nat_arg p in let s := nat_arg q in
  shown "ri" ob k = from (n + s - 1) k (Fin (r4 (ema_from n s (place n (strain h l c)) k))).
Proof. exact (fun W => range_indicator_shown o raw b ob W p q k h l c). Qed.
Print Assumptions C62_range_indicator.
Example C62_case : wf_raw ten /\
  equals (value (cWR (VInt 4)) ten true "wr" 5) (-75) 2 = true /\
  equals (value (cSO (VInt 3) (VInt 3) (VInt 2) (VStr "simple")) ten true "%K" 5) (666667) 10000 = true /\
  equals (value (cSO (VInt 3) (VInt 3) (VInt 2) (VStr "simple")) ten true "%D" 6) (321429) 5000 = true /\
  equals (value (cSMI (VInt 2) (VInt 2) (VInt 2)) ten true "smi" 5) (125767) 5000 = true /\
  equals (value (cCCI (VInt 4)) ten true "cci" 5) (823529) 10000 = true /\
  equals (value (cRI (VInt 3) (VInt 2)) ten true "ri" 5) (666667) 10000 = true.
Proof. split; [apply bars_wf|]. repeat split; vm_compute; reflexivity. Qed.

Definition three_known (c : ctor) : Prop := let ob := the (made ora0 c ten true) in
  known (given "high" ob) 9 (at_of highs_ten) /\ known (given "low" ob) 9 (at_of lows_ten) /\ known (given "close" ob) 9 (at_of closes_ten).
Example C62_hypotheses : three_known (cSO (VInt 3) (VInt 3) (VInt 2) (VStr "simple")) /\ three_known (cSMI (VInt 2) (VInt 2) (VInt 2)) /\
  (forall j, (4 <= j <= 6)%nat -> sum_last (fun i => max_last (at_of highs_ten) 3 i - min_last (at_of lows_ten) 3 i) 3 j <> 0).
Proof.
  repeat split; try (apply reads_known; [vm_compute; reflexivity|cbn; lia]).
  intros j J. apply nonzero. assert (j = 4 \/ j = 5 \/ j = 6)%nat as [-> | [-> | ->]] by lia; vm_compute; reflexivity.
Qed.
(** a month for the ultimate oscillator *)
Definition month := (ten_days ++ ten_days ++ ten_days)%list.
Definition part (g : Z * Z * Z * Z * Z -> Z) := map g month.
Definition highs_month := part (fun '(_, h, _, _, _) => h). Definition lows_month := part (fun '(_, _, l, _, _) => l).
Definition closes_month := part (fun '(_, _, _, c, _) => c). Definition volumes_month := part (fun '(_, _, _, _, v) => v).
Example C62_ultimate_case : let ob := the (made ora0 cUO (bars month) true) in
  known (given "high" ob) 29 (at_of highs_month) /\ known (given "low" ob) 29 (at_of lows_month) /\ known (given "close" ob) 29 (at_of closes_month) /\
  (forall w, In w [7; 14; 28]%nat -> (28 <= 29)%nat -> sum_last (reach (at_of highs_month) (at_of lows_month) (at_of closes_month)) w 29 <> 0) /\
  isfin (shown "uosc" ob 29) = true.
Proof.
  cbv zeta. repeat split; try (apply reads_known; [vm_compute; reflexivity|cbn; lia]); try (vm_compute; reflexivity).
  intros w I _. apply nonzero. cbn in I. decompose [or] I; subst; try contradiction; vm_compute; reflexivity.
Qed.

