(** * PropsValue: values, order and agreement of bands, averages and levels.

    [given c ob j] is row j of column c of the data the object works on (the
    caller's data after validation and filling), [shown c ob j] row j of column c of
    getTiData.  [rolled x p k v g]: v is g of the last p values of x up to row k when
    these are all finite, and missing otherwise.  [r4] rounds to four decimals. *)
From Coq Require Import ZArith QArith Qcanon Bool List String PeanoNat Lia.
From Verif Require Import Num NumFacts Pandas Sim Frame FrameSpec Ind Signal Api IndSpec ApiSpec RangeSpec PropsApi PropsRange ValueSpec ValueApi.
Import ListNotations.
Open Scope list_scope. Open Scope string_scope.

Definition equals (x : num) (n : Z) (d : positive) : bool := neqb x (D n d).

(** ** C42 Bollinger bands *)
Theorem C42_bollinger_order o p w raw b ob k : wf_raw raw ->
  snd (construct o (cBB p w) (RFrame raw) (VBool b)) = Ok ob -> good_sqrt o ->
  present_le (shown "lower_band" ob k) (shown "middle_band" ob k) /\
  present_le (shown "middle_band" ob k) (shown "upper_band" ob k).
Proof. exact (fun W => bb_shown_order o raw b ob W p w k). Qed.
Print Assumptions C42_bollinger_order.
(** half way exactly: the two outer bands are rounded the same way *)
Theorem C42_bollinger_symmetric o p w raw b ob k u m l : wf_raw raw ->
  snd (construct o (cBB p w) (RFrame raw) (VBool b)) = Ok ob ->
  shown "upper_band" ob k = Fin u -> shown "middle_band" ob k = Fin m -> shown "lower_band" ob k = Fin l ->
  (u - m = m - l)%Qc.
Proof. exact (fun W => bb_shown_symmetric o raw b ob W p w k u m l). Qed.
Print Assumptions C42_bollinger_symmetric.
(** the values: mean of the last p closes, plus and minus w standard deviations *)
Theorem C42_bollinger_values o p w raw b ob k : wf_raw raw ->
  snd (construct o (cBB p w) (RFrame raw) (VBool b)) = Ok ob ->
  rolled (given "close" ob) (nat_arg p) k (shown "middle_band" ob k) (fun x => Fin (r4 (mean x (nat_arg p)))) /\
  rolled (given "close" ob) (nat_arg p) k (shown "upper_band" ob k)
    (fun x => nround 4 (nadd (Fin (r4 (mean x (nat_arg p)))) (nmul (Fin (o_sqrt o (variance x (nat_arg p)))) (as_number w)))) /\
  rolled (given "close" ob) (nat_arg p) k (shown "lower_band" ob k)
    (fun x => nround 4 (nsub (Fin (r4 (mean x (nat_arg p)))) (nmul (Fin (o_sqrt o (variance x (nat_arg p)))) (as_number w)))).
Proof. exact (fun W => bb_shown_values o raw b ob W p w k). Qed.
Print Assumptions C42_bollinger_values.
Definition few := closing [(1%Z, F 4); (2%Z, F 8); (3%Z, F 6); (4%Z, F 6)].
Lemma few_wf : wf_raw few.
Proof. split; [reflexivity|]. intros r H. in_rows; subst; reflexivity. Qed.
Example C42_case : good_sqrt ora0 /\ wf_raw few /\
  equals (value (cBB (VInt 3) (VInt 3)) few true "lower_band" 2) (-2) 1 = true /\
  equals (value (cBB (VInt 3) (VInt 3)) few true "middle_band" 2) 6 1 = true /\
  equals (value (cBB (VInt 3) (VInt 3)) few true "upper_band" 2) 14 1 = true.
Proof. split; [intros q Q; exact Q|]. split; [apply few_wf|]. repeat split; vm_compute; reflexivity. Qed.

(** ** C43 Envelopes *)
(** with no negative close the bands are ordered *)
Theorem C43_envelopes_order o p w raw b ob k : wf_raw raw ->
  snd (construct o (cENV p w) (RFrame raw) (VBool b)) = Ok ob ->
  (forall j, present_le (F 0) (given "close" ob j)) ->
  present_le (shown "lower_band" ob k) (shown "upper_band" ob k).
Proof. exact (fun W => env_shown_order o raw b ob W p w k). Qed.
Print Assumptions C43_envelopes_order.
Theorem C43_envelopes_values o p w raw b ob k : wf_raw raw ->
  snd (construct o (cENV p w) (RFrame raw) (VBool b)) = Ok ob ->
  rolled (given "close" ob) (nat_arg p) k (shown "upper_band" ob k)
    (fun x => nround 4 (nmul (nadd (F 1) (as_number w)) (Fin (mean x (nat_arg p))))) /\
  rolled (given "close" ob) (nat_arg p) k (shown "lower_band" ob k)
    (fun x => nround 4 (nmul (nsub (F 1) (as_number w)) (Fin (mean x (nat_arg p))))).
Proof. exact (fun W => env_shown_values o raw b ob W p w k). Qed.
Print Assumptions C43_envelopes_values.
Example C43_case : wf_raw few /\
  equals (value (cENV (VInt 3) (VFloat (D 1 4))) few true "lower_band" 2) 9 2 = true /\
  equals (value (cENV (VInt 3) (VFloat (D 1 4))) few true "upper_band" 2) 15 2 = true.
Proof. split; [apply few_wf|]. repeat split; vm_compute; reflexivity. Qed.
(** negative prices (spreads, interest rates) turn the bands upside down *)
Definition negative := closing [(1%Z, F (-4)); (2%Z, F (-8))].
Theorem C43_negative_prices_refuted : exists o p w raw b ob k, wf_raw raw /\
  snd (construct o (cENV p w) (RFrame raw) (VBool b)) = Ok ob /\
  ~ present_le (shown "lower_band" ob k) (shown "upper_band" ob k).
Proof.
  exists ora0, (VInt 2), (VFloat (D 1 4)), negative, true, (the (made ora0 (cENV (VInt 2) (VFloat (D 1 4))) negative true)), 1%nat.
  split; [split; [reflexivity|]; intros r H; in_rows; subst; reflexivity|]. split; [vm_compute; reflexivity|].
  vm_compute. intros [H|[H|H]]; discriminate.
Qed.
Print Assumptions C43_negative_prices_refuted.

(** ** C44 Averages stay between the smallest and the largest price seen *)
Theorem C44_moving_average_between o p t raw b ob k lo hi : wf_raw raw ->
  snd (construct o (cMA p (VStr t)) (RFrame raw) (VBool b)) = Ok ob ->
  In t ["simple"; "exponential"; "triangular"; "variable"] ->
  seen_between (given "close" ob) k lo hi ->
  between (r4 lo) (r4 hi) (shown ("ma-" ++ t) ob k).
Proof. exact (fun W => ma_shown_between o raw b ob W p t k lo hi). Qed.
Print Assumptions C44_moving_average_between.
Theorem C44_wilders_smoothing_between o p raw b ob k lo hi : wf_raw raw ->
  snd (construct o (cWS p) (RFrame raw) (VBool b)) = Ok ob ->
  seen_between (given "close" ob) k lo hi ->
  between (r4 lo) (r4 hi) (shown "ws" ob k).
Proof. exact (fun W => ws_shown_between o raw b ob W p k lo hi). Qed.
Print Assumptions C44_wilders_smoothing_between.
Example C44_case : wf_raw few /\
  inside 4 8 (value (cMA (VInt 2) (VStr "simple")) few true "ma-simple" 2) = true /\
  inside 4 8 (value (cMA (VInt 2) (VStr "exponential")) few true "ma-exponential" 2) = true /\
  inside 4 8 (value (cMA (VInt 2) (VStr "triangular")) few true "ma-triangular" 2) = true /\
  inside 4 8 (value (cWS (VInt 2)) few true "ws" 2) = true.
Proof. split; [apply few_wf|]. repeat split; vm_compute; reflexivity. Qed.
Example C44_case_variable : inside 90 150 (value (cMA (VInt 3) (VStr "variable")) (market 24) true "ma-variable" 23) = true.
Proof. vm_compute. reflexivity. Qed.
(** the time series type extrapolates and does leave the interval *)
Definition ramp := closing [(1%Z, F 1); (2%Z, F 2); (3%Z, F 3)].
Theorem C44_time_series_refuted : exists o p raw b ob k lo hi, wf_raw raw /\
  snd (construct o (cMA p (VStr "time_series")) (RFrame raw) (VBool b)) = Ok ob /\
  seen_between (given "close" ob) k lo hi /\ ~ between (r4 lo) (r4 hi) (shown "ma-time_series" ob k).
Proof.
  exists ora0, (VInt 2), ramp, true, (the (made ora0 (cMA (VInt 2) (VStr "time_series")) ramp true)), 2%nat, (zq 1), (zq 3).
  split; [split; [reflexivity|]; intros r H; in_rows; subst; reflexivity|]. split; [vm_compute; reflexivity|]. split.
  - intros j J. right. destruct j as [|[|[|j]]]; [exists (zq 1)|exists (zq 2)|exists (zq 3)|lia];
      (split; [vm_compute; f_equal; apply Qc_is_canon; reflexivity|split; discriminate]).
  - intros [H|(q & H & _ & B)]; [vm_compute in H; discriminate H|].
    assert (E : neqb (shown "ma-time_series" (the (made ora0 (cMA (VInt 2) (VStr "time_series")) ramp true)) 2) (F 4) = true) by (vm_compute; reflexivity).
    rewrite H in E. cbn in E. apply qeqb_iff in E. subst q. apply B. reflexivity.
Qed.
Print Assumptions C44_time_series_refuted.

(** ** C45 Price channel and Ichimoku *)
Theorem C45_channel_high o p raw b ob k : wf_raw raw ->
  snd (construct o (cPCH p) (RFrame raw) (VBool b)) = Ok ob -> (k < days_given ob)%nat ->
  (exists M, (nat_arg p <= k)%nat /\ full (given "high" ob) (k - nat_arg p) (k - 1) /\
     highest (given "high" ob) (k - nat_arg p) (k - 1) M /\ shown "highest_high" ob k = Fin (r4 M)) \/
  (((k < nat_arg p)%nat \/ ValueSpec.gap (given "high" ob) (k - nat_arg p) (k - 1)) /\ shown "highest_high" ob k = NaN).
Proof. exact (fun W => pch_shown_high o raw b ob W p k). Qed.
Print Assumptions C45_channel_high.
Theorem C45_channel_low o p raw b ob k : wf_raw raw ->
  snd (construct o (cPCH p) (RFrame raw) (VBool b)) = Ok ob -> (k < days_given ob)%nat ->
  (exists M, (nat_arg p <= k)%nat /\ full (given "low" ob) (k - nat_arg p) (k - 1) /\
     lowest (given "low" ob) (k - nat_arg p) (k - 1) M /\ shown "lowest_low" ob k = Fin (r4 M)) \/
  (((k < nat_arg p)%nat \/ ValueSpec.gap (given "low" ob) (k - nat_arg p) (k - 1)) /\ shown "lowest_low" ob k = NaN).
Proof. exact (fun W => pch_shown_low o raw b ob W p k). Qed.
Print Assumptions C45_channel_low.
Theorem C45_ichimoku_lines o raw b ob k : wf_raw raw ->
  snd (construct o cICH (RFrame raw) (VBool b)) = Ok ob -> (k < days_given ob)%nat ->
  (exists v, midpoint (given "high" ob) (given "low" ob) (k - 8) k v /\ shown "tenkan_sen" ob k = nround 4 v) /\
  (exists v, midpoint (given "high" ob) (given "low" ob) (k - 25) k v /\ shown "kijun_sen" ob k = nround 4 v).
Proof. exact (fun W => ich_shown_lines o raw b ob W k). Qed.
Print Assumptions C45_ichimoku_lines.
Theorem C45_ichimoku_cloud o raw b ob k : wf_raw raw ->
  snd (construct o cICH (RFrame raw) (VBool b)) = Ok ob -> (k < days_given ob)%nat ->
  ((k < 26)%nat -> shown "senkou_a" ob k = NaN /\ shown "senkou_b" ob k = NaN) /\
  ((26 <= k)%nat ->
    (exists v w, midpoint (given "high" ob) (given "low" ob) (k - 26 - 8) (k - 26) v /\
       midpoint (given "high" ob) (given "low" ob) (k - 26 - 25) (k - 26) w /\
       shown "senkou_a" ob k = nround 4 (ndiv (nadd v w) (F 2))) /\
    (exists v, midpoint (given "high" ob) (given "low" ob) (k - 26 - 51) (k - 26) v /\ shown "senkou_b" ob k = nround 4 v)).
Proof. exact (fun W => ich_shown_cloud o raw b ob W k). Qed.
Print Assumptions C45_ichimoku_cloud.
Definition three := hlc [(F 12, F 10, F 11); (F 16, F 9, F 15); (F 11, F 8, F 8)].
Example C45_case : wf_raw three /\
  equals (value (cPCH (VInt 2)) three true "highest_high" 2) 16 1 = true /\
  equals (value (cPCH (VInt 2)) three true "lowest_low" 2) 9 1 = true /\
  equals (value cICH three true "tenkan_sen" 2) 12 1 = true /\ equals (value cICH three true "kijun_sen" 1) 25 2 = true.
Proof. split; [apply hlc_wf|]. repeat split; vm_compute; reflexivity. Qed.
Example C45_case_cloud : isfin (value cICH (market 28) true "senkou_a" 27) = true /\ isfin (value cICH (market 28) true "senkou_b" 27) = true.
Proof. split; vm_compute; reflexivity. Qed.

(** ** C46 Fibonacci retracement *)
Theorem C46_levels_constant o raw b ob name c k k' : wf_raw raw ->
  snd (construct o cFIB (RFrame raw) (VBool b)) = Ok ob -> In (name, c) levels ->
  (k < days_given ob)%nat -> (k' < days_given ob)%nat -> shown name ob k = shown name ob k'.
Proof. exact (fun W => fib_shown_constant o raw b ob W name c k k'). Qed.
Print Assumptions C46_levels_constant.
(** the larger the fraction the lower the level, infinite prices included *)
Theorem C46_levels_ordered o raw b ob n1 c1 n2 c2 k : wf_raw raw ->
  snd (construct o cFIB (RFrame raw) (VBool b)) = Ok ob -> In (n1, c1) levels -> In (n2, c2) levels ->
  (c1 <= c2)%Qc -> present_le (shown n2 ob k) (shown n1 ob k).
Proof. exact (fun W => fib_shown_order o raw b ob W n1 c1 n2 c2 k). Qed.
Print Assumptions C46_levels_ordered.
Theorem C46_level_values o raw b ob : wf_raw raw ->
  snd (construct o cFIB (RFrame raw) (VBool b)) = Ok ob ->
  (forall j, given "close" ob j = NaN \/ isfin (given "close" ob j) = true) ->
  (exists M m, highest (given "close" ob) 0 (days_given ob - 1) M /\ lowest (given "close" ob) 0 (days_given ob - 1) m /\
     forall name c k, In (name, c) levels -> (k < days_given ob)%nat -> shown name ob k = Fin (r4 (M - c * (M - m))%Qc)) \/
  (none_finite (given "close" ob) 0 (days_given ob - 1) /\
     forall name c k, In (name, c) levels -> (k < days_given ob)%nat -> shown name ob k = NaN).
Proof. exact (fun W => fib_shown_values o raw b ob W). Qed.
Print Assumptions C46_level_values.
Example C46_case : wf_raw few /\ equals (value cFIB few true "rl_0.0" 3) 8 1 = true /\
  equals (value cFIB few true "rl_23.6" 0) 7056 1000 = true /\ equals (value cFIB few true "rl_38.2" 1) 6472 1000 = true /\
  equals (value cFIB few true "rl_50.0" 2) 6 1 = true /\ equals (value cFIB few true "rl_61.8" 2) 5528 1000 = true /\
  equals (value cFIB few true "rl_100.0" 2) 4 1 = true.
Proof. split; [apply few_wf|]. repeat split; vm_compute; reflexivity. Qed.

(** ** C51 Average prices of a day *)
Theorem C51_median_price o p raw b ob k h l : wf_raw raw ->
  snd (construct o (cMP p) (RFrame raw) (VBool b)) = Ok ob ->
  given "high" ob k = Fin h -> given "low" ob k = Fin l -> (l <= h)%Qc ->
  shown "mp" ob k = Fin (r4 ((h + l) / zq 2)%Qc) /\ between (r4 l) (r4 h) (shown "mp" ob k).
Proof. exact (fun W => mp_shown_range o raw b ob W p k h l). Qed.
Print Assumptions C51_median_price.
Theorem C51_typical_price o p raw b ob k h l c : wf_raw raw ->
  snd (construct o (cTP p) (RFrame raw) (VBool b)) = Ok ob ->
  given "high" ob k = Fin h -> given "low" ob k = Fin l -> given "close" ob k = Fin c -> (l <= c)%Qc -> (c <= h)%Qc ->
  shown "tp" ob k = Fin (r4 ((h + l + c) / zq 3)%Qc) /\ between (r4 l) (r4 h) (shown "tp" ob k).
Proof. exact (fun W => tp_shown_range o raw b ob W p k h l c). Qed.
Print Assumptions C51_typical_price.
Theorem C51_weighted_close o raw b ob k h l c : wf_raw raw ->
  snd (construct o cWC (RFrame raw) (VBool b)) = Ok ob ->
  given "high" ob k = Fin h -> given "low" ob k = Fin l -> given "close" ob k = Fin c -> (l <= c)%Qc -> (c <= h)%Qc ->
  shown "wc" ob k = Fin (r4 ((zq 2 * c + h + l) / zq 4)%Qc) /\ between (r4 l) (r4 h) (shown "wc" ob k).
Proof. exact (fun W => wc_shown_range o raw b ob W k h l c). Qed.
Print Assumptions C51_weighted_close.
Example C51_case : wf_raw three /\ equals (value (cMP (VInt 1)) three true "mp" 1) 25 2 = true /\
  equals (value (cTP (VInt 1)) three true "tp" 1) 133333 10000 = true /\ equals (value cWC three true "wc" 1) 55 4 = true.
Proof. split; [apply hlc_wf|]. repeat split; vm_compute; reflexivity. Qed.

(** ** C52 Momentum and rate of change *)
Theorem C52_momentum_and_rate o p raw b ob ob' k m q : wf_raw raw ->
  snd (construct o (cMOM p) (RFrame raw) (VBool b)) = Ok ob ->
  snd (construct o (cPRC p) (RFrame raw) (VBool b)) = Ok ob' ->
  shown "mom" ob k = Fin m -> shown "prc" ob' k = Fin q -> (m - q = zq 100)%Qc.
Proof. exact (mom_prc_shown o raw b ob ob' p k m q). Qed.
Print Assumptions C52_momentum_and_rate.
Theorem C52_momentum_values o p raw b ob k : wf_raw raw ->
  snd (construct o (cMOM p) (RFrame raw) (VBool b)) = Ok ob ->
  ((k < nat_arg p)%nat -> shown "mom" ob k = NaN) /\
  forall a c, (nat_arg p <= k)%nat -> given "close" ob k = Fin a -> given "close" ob (k - nat_arg p) = Fin c ->
    shown "mom" ob k = nround 4 (ndiv (Fin (zq 100 * a)) (Fin c)).
Proof. exact (fun W => mom_shown_values o raw b ob W p k). Qed.
Print Assumptions C52_momentum_values.
Theorem C52_rate_values o p raw b ob k : wf_raw raw ->
  snd (construct o (cPRC p) (RFrame raw) (VBool b)) = Ok ob ->
  ((k < nat_arg p)%nat -> shown "prc" ob k = NaN) /\
  forall a c, (nat_arg p <= k)%nat -> given "close" ob k = Fin a -> given "close" ob (k - nat_arg p) = Fin c ->
    shown "prc" ob k = nround 4 (ndiv (Fin (zq 100 * (a - c))) (Fin c)).
Proof. exact (fun W => prc_shown_values o raw b ob W p k). Qed.
Print Assumptions C52_rate_values.
Example C52_case : wf_raw few /\ equals (value (cMOM (VInt 2)) few true "mom" 2) 150 1 = true /\
  equals (value (cPRC (VInt 2)) few true "prc" 2) 50 1 = true /\ equals (value (cMOM (VInt 1)) few true "mom" 3) 100 1 = true.
Proof. split; [apply few_wf|]. repeat split; vm_compute; reflexivity. Qed.
