(** * PropsIdent: indicators that share a quantity agree on it.

    [ob], [ob'] are objects built from the same data with the same flag.  [given c ob k]:
    row k of the data after validation; [shown c ob k]: row k of column c of getTiData. *)
From Coq Require Import ZArith QArith Qcanon Bool List String PeanoNat Lia.
From Verif Require Import Num NumFacts Pandas Sim Frame FrameSpec Ind Signal Api IndSpec ApiSpec RangeSpec PropsApi PropsRange ValueSpec ValueApi PropsValue FormulaSpec FormulaApi PropsFormula IdentFacts IdentApi.
Import ListNotations.
Open Scope list_scope. Open Scope string_scope. Open Scope Qc_scope.

(** ** C75 Indicators that share a quantity agree on it *)
Theorem C75_middle_band o raw b ob ob' p w k : wf_raw raw ->
  snd (construct o (cMA p (VStr "simple")) (RFrame raw) (VBool b)) = Ok ob ->
  snd (construct o (cBB p w) (RFrame raw) (VBool b)) = Ok ob' ->
  shown "middle_band" ob' k = shown "ma-simple" ob k.
Proof. exact (fun W => middle_band_average o raw b ob ob' W p w k). Qed.
Print Assumptions C75_middle_band.
(** the bands lie the chosen number of standard deviations away, up to the rounding of both *)
Theorem C75_band_width o raw b ob ob' p w k c sd mid up low : wf_raw raw ->
  snd (construct o (cSD p) (RFrame raw) (VBool b)) = Ok ob ->
  snd (construct o (cBB p w) (RFrame raw) (VBool b)) = Ok ob' -> as_number w = Fin c ->
  shown "sd" ob k = Fin sd -> shown "middle_band" ob' k = Fin mid -> shown "upper_band" ob' k = Fin up -> shown "lower_band" ob' k = Fin low ->
  qabs (up - mid - c * sd) <= (1 + qabs c) * Q2Qc (5 # 100000) /\ qabs (mid - low - c * sd) <= (1 + qabs c) * Q2Qc (5 # 100000).
Proof. exact (fun W => bands_deviation o raw b ob ob' W p w k c sd mid up low). Qed.
Print Assumptions C75_band_width.
(** the average lies halfway between the envelopes, up to the rounding of the three *)
Theorem C75_envelopes o raw b ob ob' p w k avg up low : wf_raw raw ->
  snd (construct o (cMA p (VStr "simple")) (RFrame raw) (VBool b)) = Ok ob ->
  snd (construct o (cENV p w) (RFrame raw) (VBool b)) = Ok ob' ->
  shown "ma-simple" ob k = Fin avg -> shown "upper_band" ob' k = Fin up -> shown "lower_band" ob' k = Fin low ->
  qabs (up + low - zq 2 * avg) <= Q2Qc (2 # 10000).
Proof. exact (fun W => envelope_average o raw b ob ob' W p w k avg up low). Qed.
Print Assumptions C75_envelopes.
Theorem C75_time_series o raw b ob ob' p k : wf_raw raw ->
  snd (construct o (cMA p (VStr "time_series")) (RFrame raw) (VBool b)) = Ok ob ->
  snd (construct o (cTSF p) (RFrame raw) (VBool b)) = Ok ob' ->
  shown "tsf" ob' k = shown "ma-time_series" ob k.
Proof. exact (fun W => forecast_average o raw b ob ob' W p k). Qed.
Print Assumptions C75_time_series.
(** the forecast oscillator compares a close with the forecast made the day before *)
Theorem C75_forecast_oscillator o raw b ob ob' p k : wf_raw raw ->
  snd (construct o (cTSF p) (RFrame raw) (VBool b)) = Ok ob ->
  snd (construct o (cFOSC p) (RFrame raw) (VBool b)) = Ok ob' -> (1 <= k)%nat ->
  let c := given "close" ob k in
  shown "fosc" ob' k = nround 4 (ndiv (nmul (F 100) (nsub c (shown "tsf" ob (k - 1)))) c).
Proof. exact (fun W => forecast_oscillator_forecast o raw b ob ob' W p k). Qed.
Print Assumptions C75_forecast_oscillator.
Theorem C75_macd o raw b ob ob12 ob26 k : wf_raw raw ->
  snd (construct o (cMA (VInt 12) (VStr "exponential")) (RFrame raw) (VBool b)) = Ok ob12 ->
  snd (construct o (cMA (VInt 26) (VStr "exponential")) (RFrame raw) (VBool b)) = Ok ob26 ->
  snd (construct o cMACD (RFrame raw) (VBool b)) = Ok ob ->
  shown "macd" ob k = nround 4 (nsub (shown "ma-exponential" ob12 k) (shown "ma-exponential" ob26 k)).
Proof. exact (fun W => macd_averages o raw b ob W k ob12 ob26). Qed.
Print Assumptions C75_macd.
(** Williams' %R is the fast stochastic moved down by 100, to the last decimal *)
Theorem C75_stochastic_williams o raw b ob ob' p d m k : wf_raw raw ->
  snd (construct o (cWR p) (RFrame raw) (VBool b)) = Ok ob ->
  snd (construct o (cSO p (VInt 1) d m) (RFrame raw) (VBool b)) = Ok ob' ->
  given "close" ob k <> PInf /\ given "close" ob k <> NInf ->
  shown "%K" ob' k = nadd (F 100) (shown "wr" ob k).
Proof. exact (fun W => stochastic_williams o raw b ob ob' W p d m k). Qed.
Print Assumptions C75_stochastic_williams.
(** the rate of change of volumes is the rate of change of prices, for the same numbers *)
Theorem C75_rates_of_change o raw raw' b b' ob ob' p k : wf_raw raw -> wf_raw raw' ->
  snd (construct o (cVRC p) (RFrame raw) (VBool b)) = Ok ob ->
  snd (construct o (cPRC p) (RFrame raw') (VBool b')) = Ok ob' ->
  days_given ob = days_given ob' -> (forall j, given "volume" ob j = given "close" ob' j) ->
  shown "vrc" ob k = shown "prc" ob' k.
Proof. exact (fun W W' H H' => rates_of_change o raw b ob W p k H raw' b' ob' W' H'). Qed.
Print Assumptions C75_rates_of_change.

Example C75_bands_case : let sma := the (made ora0 (cMA (VInt 3) (VStr "simple")) ten true) in let bb := the (made ora0 (cBB (VInt 3) (VFloat (D 2 1))) ten true) in
  let env := the (made ora0 (cENV (VInt 3) (VFloat (D 1 10))) ten true) in
  shown "middle_band" bb 4 = Fin (r4 (zq 32 / zq 3)) /\ shown "ma-simple" sma 4 = Fin (r4 (zq 32 / zq 3)) /\
  isfin (shown "upper_band" env 4) = true /\ isfin (shown "lower_band" env 4) = true /\ as_number (VFloat (D 2 1)) = Fin (zq 2) /\
  isfin (shown "upper_band" bb 4) = true /\ isfin (shown "sd" (the (made ora0 (cSD (VInt 3)) ten true)) 4) = true.
Proof. vm_compute. repeat split; try reflexivity. Qed.
Example C75_forecast_case : let ts := the (made ora0 (cTSF (VInt 3)) ten true) in let ma := the (made ora0 (cMA (VInt 3) (VStr "time_series")) ten true) in
  let fo := the (made ora0 (cFOSC (VInt 3)) ten true) in
  shown "tsf" ts 4 = Fin (r4 (zq 44 / zq 3)) /\ shown "ma-time_series" ma 4 = Fin (r4 (zq 44 / zq 3)) /\ isfin (shown "fosc" fo 5) = true.
Proof. vm_compute. repeat split. Qed.
Example C75_stochastic_case : let wr := the (made ora0 (cWR (VInt 4)) ten true) in let so := the (made ora0 (cSO (VInt 4) (VInt 1) (VInt 3) (VStr "simple")) ten true) in
  shown "%K" so 5 = D 625 10 /\ shown "wr" wr 5 = D (-375) 10.
Proof. vm_compute. split; apply f_equal; apply Qc_is_canon; reflexivity. Qed.
Example C75_macd_case : let raw := bars (map (fun j => let a := (100 + (Z.of_nat j * 7919) mod 37)%Z in (a, a, a, a, 1)%Z) (seq 0 27)) in
  isfin (shown "macd" (the (made ora0 cMACD raw true)) 26) = true /\ shown "macd" (the (made ora0 cMACD raw true)) 26 <> F 0.
Proof. vm_compute. split; [reflexivity|discriminate]. Qed.
Example C75_rates_case : let v := the (made ora0 (cVRC (VInt 2)) ten true) in
  let p := the (made ora0 (cPRC (VInt 2)) (bars (map (fun '(o, h, l, c, v) => (o, h, l, v, c)) ten_days)) true) in
  (forall j, given "volume" v j = given "close" p j) /\ shown "vrc" v 4 = Fin (r4 (zq 500 / zq 3)).
Proof.
  split; [|vm_compute; reflexivity]. intro j. do 10 (destruct j as [|j]; [vm_compute; reflexivity|]).
  unfold given, cell_at. rewrite !nth_overflow; [reflexivity|..]; vm_compute; lia.
Qed.

(** ** C76 An average over one row is the price itself *)
Theorem C76_one_row o raw b ob c name k x : wf_raw raw -> In (c, name)
    [(cMA (VInt 1) (VStr "simple"), "ma-simple"); (cMA (VInt 1) (VStr "exponential"), "ma-exponential"); (cMA (VInt 1) (VStr "triangular"), "ma-triangular");
     (cDEMA (VInt 1), "dema"); (cTEMA (VInt 1), "tema"); (cWS (VInt 1), "ws")] ->
  snd (construct o c (RFrame raw) (VBool b)) = Ok ob ->
  known (given "close" ob) k x -> shown name ob k = Fin (r4 (x k)).
Proof. exact (fun W => one_row_shown o raw b ob W c name k x). Qed.
Print Assumptions C76_one_row.
Example C76_case : forallb (fun q => neqb (shown (snd q) (the (made ora0 (fst q) ten true)) 4) (F 13)) one_row = true /\ List.length one_row = 6%nat.
Proof. vm_compute. split; reflexivity. Qed.

(** ** C54, C68: the averages of the close that two signals look at *)
Theorem C68_mass_average o raw b ob k c : wf_raw raw -> snd (construct o cMI (RFrame raw) (VBool b)) = Ok ob ->
  known (given "close" ob) k c -> given "9_ema" ob k = from 8 k (Fin (ema_from 0 9 c k)).
Proof. exact (fun W => mass_average o raw b ob W k c). Qed.
Print Assumptions C68_mass_average.
Theorem C54_median_average o raw b ob p k c : wf_raw raw -> snd (construct o (cMP p) (RFrame raw) (VBool b)) = Ok ob ->
  known (given "close" ob) k c -> given "close_ema" ob k = from (nat_arg p - 1) k (Fin (ema_from 0 (nat_arg p) c k)).
Proof. exact (fun W => median_average o raw b ob W p k c). Qed.
Print Assumptions C54_median_average.
Example C54_average_case : neqb (given "close_ema" (the (made ora0 (cMP (VInt 3)) ten true)) 3) (D 81 8) = true /\
  given "close_ema" (the (made ora0 (cMP (VInt 3)) ten true)) 1 = NaN.
Proof. vm_compute. split; reflexivity. Qed.
