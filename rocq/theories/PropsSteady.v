(** * PropsSteady: a market that moves by the same amount every day (C104, C105).

    [straight f k d]: up to row k the values f rise by d every day.  [parallel h l c k u s]: the highs are u above, the lows s
    below the closes.  [late c k]: columns of the averages with their first row and the number of days they are behind the
    price in row k.  [from a k v]: v, missing before row a.  [moves_by]/[candles]: the same about all days an object knows
    ([SteadySpec.v]). *)
From Coq Require Import ZArith QArith Qcanon Bool List String PeanoNat Lia.
From Verif Require Import Num NumFacts Pandas Sim Frame FrameSpec Ind Signal Api IndSpec ApiSpec RangeSpec PropsApi PropsRange ValueSpec ValueApi PropsValue PropsCumul FormulaSpec FormulaApi PropsFormula SignalSpec SignalApi PropsSignal MirrorSpec PropsMirror OrderSpec OrderFacts OrderApi PropsOrder SteadySpec SteadyFacts SteadyApi SteadySig.
Import ListNotations.
Open Scope list_scope. Open Scope string_scope. Open Scope Qc_scope.
Notation built ct o raw b ob := (snd (construct o ct (RFrame raw) (VBool b)) = Ok ob).

(** ** C104 On a straight line every indicator has the value of the textbook *)
(** averages are late by a known number of days: (p - 1)/2 for the simple average, p - 1 for the triangular one, and so on *)
Theorem C104_averages_are_late o raw b ob k d c ct name a q : wf_raw raw -> known (given "close" ob) k c -> straight c k d -> built ct o raw b ob ->
  In (name, a, q) (late ct k) -> shown name ob k = from a k (Fin (r4 (c k - d * q))).
Proof. exact (fun W K S => averages_late o raw b ob k d c W K S ct name a q). Qed.
Print Assumptions C104_averages_are_late.
Theorem C104_regression_slope o raw b ob k d c p : wf_raw raw -> known (given "close" ob) k c -> straight c k d -> built (cLRS p) o raw b ob -> (2 <= nat_arg p)%nat ->
  shown "lrs" ob k = from (nat_arg p - 1) k (Fin (r4 d)).
Proof. exact (fun W K S => steady_slope o raw b ob k d c W K S p). Qed.
Print Assumptions C104_regression_slope.
(** the forecast for the next day is right, up to the two roundings *)
Theorem C104_forecast o raw b ob k d c p : wf_raw raw -> known (given "close" ob) k c -> straight c k d -> built (cTSF p) o raw b ob -> (2 <= nat_arg p)%nat ->
  shown "tsf" ob k = from (nat_arg p - 1) k (Fin (r4 d + r4 (c k))).
Proof. exact (fun W K S => steady_tsf o raw b ob k d c W K S p). Qed.
Print Assumptions C104_forecast.
Theorem C104_forecast_oscillator o raw b ob k d c p : wf_raw raw -> known (given "close" ob) k c -> straight c k d -> built (cFOSC p) o raw b ob -> (2 <= nat_arg p)%nat ->
  r4 d = d -> r4 (c (k - 1)%nat) = c (k - 1)%nat -> c k <> 0 -> shown "fosc" ob k = from (nat_arg p) k (level 0).
Proof. exact (fun W K S => steady_fosc o raw b ob k d c W K S p). Qed.
Print Assumptions C104_forecast_oscillator.
(** the detrended price is minus one day's move for an odd period and minus one and a half for an even one: with an even period the average is not centred on the day it is compared with *)
Theorem C104_detrended_price o raw b ob k d c p : wf_raw raw -> known (given "close" ob) k c -> straight c k d -> built (cDPO p) o raw b ob -> let e := S (nat_arg p / 2) in (e <= k)%nat ->
  shown "dpo" ob (k - e) = from (nat_arg p - 1 - e) (k - e) (Fin (r4 (- d * (if Nat.even (nat_arg p) then zq 3 / zq 2 else 1)))).
Proof. exact (fun W K S => steady_dpo o raw b ob k d c W K S p). Qed.
Print Assumptions C104_detrended_price.
(** momentum oscillators stand at their ends *)
Theorem C104_chande_momentum o raw b ob k d c p : wf_raw raw -> known (given "close" ob) k c -> straight c k d -> built (cCMO p) o raw b ob -> d <> 0 ->
  shown "cmo" ob k = from (nat_arg p) k (level (if qltb 0 d then 100 else -100)).
Proof. exact (fun W K S => steady_cmo o raw b ob k d c W K S p). Qed.
Print Assumptions C104_chande_momentum.
Theorem C104_relative_strength o raw b ob k d c p : wf_raw raw -> known (given "close" ob) k c -> straight c k d -> built (cRSI p) o raw b ob -> r4 d <> 0 ->
  shown "rsi" ob k = from (nat_arg p) k (level (if qltb 0 d then 100 else 0)).
Proof. exact (fun W K S => steady_rsi o raw b ob k d c W K S p). Qed.
Print Assumptions C104_relative_strength.
(** except the relative momentum index, which is missing on a steady rise *)
Theorem C104_relative_momentum o raw b ob k d c p q : wf_raw raw -> known (given "close" ob) k c -> straight c k d -> built (cRMI p q) o raw b ob -> d <> 0 ->
  shown "rmi" ob k = from (nat_arg p + nat_arg q - 1) k (if qltb 0 d then NaN else level 0).
Proof. exact (fun W K S => steady_rmi o raw b ob k d c W K S p q). Qed.
Print Assumptions C104_relative_momentum.
Theorem C104_vertical_horizontal_filter o raw b ob k d c p : wf_raw raw -> known (given "close" ob) k c -> straight c k d -> built (cVHF p) o raw b ob -> d <> 0 ->
  shown "vhf" ob k = from (nat_arg p) k (Fin (r4 ((nq (nat_arg p) - 1) / nq (nat_arg p)))).
Proof. exact (fun W K S => steady_vhf o raw b ob k d c W K S p). Qed.
Print Assumptions C104_vertical_horizontal_filter.
(** candles of the same shape every day *)
Theorem C104_commodity_channel o raw b ob k d u s h l c p : wf_raw raw -> known (given "close" ob) k c -> straight c k d -> known (given "high" ob) k h -> known (given "low" ob) k l -> parallel h l c k u s ->
  built (cCCI p) o raw b ob -> (2 <= nat_arg p)%nat -> d <> 0 ->
  shown "cci" ob k = from (nat_arg p - 1) k (Fin (r4 (if qltb 0 d then channel_of (nat_arg p) else - channel_of (nat_arg p)))).
Proof. exact (fun W K S KH KL PA => steady_cci o raw b ob k d u s h l c W K S KH KL PA p). Qed.
Print Assumptions C104_commodity_channel.
Theorem C104_williams_r o raw b ob k d u s h l c p : wf_raw raw -> known (given "close" ob) k c -> straight c k d -> known (given "high" ob) k h -> known (given "low" ob) k l -> parallel h l c k u s ->
  built (cWR p) o raw b ob -> let n := nat_arg p in let up := u + loss d * (nq n - 1) in let down := s + gain d * (nq n - 1) in up + down <> 0 ->
  shown "wr" ob k = from (n - 1) k (Fin (r4 (- zq 100 * up / (up + down)))).
Proof. exact (fun W K S KH KL PA => steady_wr o raw b ob k d u s h l c W K S KH KL PA p). Qed.
Print Assumptions C104_williams_r.
Theorem C104_stochastic o raw b ob k d u s h l c p q r m : wf_raw raw -> known (given "close" ob) k c -> straight c k d -> known (given "high" ob) k h -> known (given "low" ob) k l -> parallel h l c k u s ->
  built (cSO p q r m) o raw b ob -> let n := nat_arg p in let up := u + loss d * (nq n - 1) in let down := s + gain d * (nq n - 1) in up + down <> 0 ->
  shown "%K" ob k = from (n + nat_arg q - 2) k (Fin (r4 (zq 100 * down / (up + down)))).
Proof. exact (fun W K S KH KL PA => steady_k o raw b ob k d u s h l c W K S KH KL PA p q r m). Qed.
Print Assumptions C104_stochastic.
Theorem C104_stochastic_momentum o raw b ob k d u s h l c p q r : wf_raw raw -> known (given "close" ob) k c -> straight c k d -> known (given "high" ob) k h -> known (given "low" ob) k l -> parallel h l c k u s ->
  built (cSMI p q r) o raw b ob -> let n := nat_arg p in let up := u + loss d * (nq n - 1) in let down := s + gain d * (nq n - 1) in up + down <> 0 ->
  shown "smi" ob k = from (n + nat_arg q + nat_arg r - 3) k (Fin (r4 (zq 100 * (down - up) / (up + down)))).
Proof. exact (fun W K S KH KL PA => steady_smi o raw b ob k d u s h l c W K S KH KL PA p q r). Qed.
Print Assumptions C104_stochastic_momentum.
Theorem C104_ultimate_oscillator o raw b ob k d u s h l c : wf_raw raw -> known (given "close" ob) k c -> straight c k d -> known (given "high" ob) k h -> known (given "low" ob) k l -> parallel h l c k u s ->
  built cUO o raw b ob -> let up := larger u (- d) in let down := larger s d in up + down <> 0 -> shown "uosc" ob k = from 28 k (Fin (r4 (zq 100 * down / (up + down)))).
Proof. exact (fun W K S KH KL PA => steady_uo o raw b ob k d u s h l c W K S KH KL PA). Qed.
Print Assumptions C104_ultimate_oscillator.
(** the first day has no day before it; its smaller range is forgotten by 1/14 a day *)
Theorem C104_average_true_range o raw b ob k d u s h l c : wf_raw raw -> known (given "close" ob) k c -> straight c k d -> known (given "high" ob) k h -> known (given "low" ob) k l -> parallel h l c k u s ->
  built cATR o raw b ob -> (13 <= k)%nat -> let r := daily_range u s d in shown "atr" ob k = Fin (r4 (r - (r - (u + s)) / zq 14 * (zq 13 / zq 14) ^ (k - 13))).
Proof. exact (fun W K S KH KL PA => steady_atr o raw b ob k d u s h l c W K S KH KL PA). Qed.
Print Assumptions C104_average_true_range.
Theorem C104_directional_movement o raw b ob k d u s h l c : wf_raw raw -> known (given "close" ob) k c -> straight c k d -> known (given "high" ob) k h -> known (given "low" ob) k l -> parallel h l c k u s ->
  d <> 0 -> 0 <= u -> 0 <= s -> built cDMI o raw b ob ->
  shown "+di" ob k = from 14 k (Fin (r4 (zq 100 * gain d / daily_range u s d))) /\ shown "-di" ob k = from 14 k (Fin (r4 (zq 100 * loss d / daily_range u s d))) /\
  shown "dx" ob k = from 14 k (level 100) /\ shown "adx" ob k = from 27 k (level 100) /\ shown "adxr" ob k = from 40 k (level 100).
Proof. exact (fun W K S KH KL PA => steady_dmi o raw b ob k d u s h l c W K S KH KL PA). Qed.
Print Assumptions C104_directional_movement.

(** n days from price q, d every day, highs u above and lows s below the close *)
Definition steady_rows (n : nat) (q d u s : Z) : list (Z * Z * Z * Z * Z) := map (fun j => let c := (q + d * Z.of_nat j)%Z in (c, c + u, c - s, c, 5)%Z) (seq 0 n).
Definition on_line (rs : list (Z * Z * Z * Z * Z)) (n : nat) (d u s : Z) : bool :=
  forallb (fun j => qeqb (cl_of rs j) (cl_of rs 0 + zq d * nq j) && qeqb (hi_of rs j) (cl_of rs j + zq u) && qeqb (lo_of rs j) (cl_of rs j - zq s)) (seq 0 (S n)).
Lemma on_line_ok rs n d u s : on_line rs n d u s = true -> straight (cl_of rs) n (zq d) /\ parallel (hi_of rs) (lo_of rs) (cl_of rs) n (zq u) (zq s).
Proof.
  unfold on_line. rewrite forallb_forall. intro H. split; intros j J; specialize (H j ltac:(apply in_seq; lia)); apply andb_prop in H as [H L]; apply andb_prop in H as [C H]; apply qeqb_iff in C, H, L; [exact C|split; assumption].
Qed.
Definition fits (c : ctor) (n : nat) (q d u s : Z) : bool :=
  let rs := steady_rows n q d u s in let ob := obj_of c rs in
  is_made c rs && on_line rs (n - 1) d u s && reads_as (given "close" ob) n (cl_of rs) && forallb (fun x => negb (existsb (String.eqb (fst x)) (required (asked c))) || reads_as (given (fst x) ob) n (snd x)) [("high", hi_of rs); ("low", lo_of rs)].
Definition lineup : list ctor := [cMA (VInt 3) (VStr "simple"); cMA (VInt 3) (VStr "triangular"); cMA (VInt 3) (VStr "exponential"); cBB (VInt 4) (VInt 2); cWS (VInt 3); cDEMA (VInt 3); cLRI (VInt 4); cLRS (VInt 4); cTSF (VInt 4); cFOSC (VInt 4); cDPO (VInt 5);
  cDPO (VInt 6); cCMO (VInt 4); cRSI (VInt 4); cRMI (VInt 4) (VInt 2); cVHF (VInt 4); cCCI (VInt 5); cWR (VInt 5); cSO (VInt 5) (VInt 3) (VInt 3) (VStr "simple"); cSMI (VInt 4) (VInt 2) (VInt 3); cUO; cATR; cDMI].
Definition holds_at (c : ctor) (rs : list (Z * Z * Z * Z * Z)) (name : string) (k : nat) (x : Q) : bool := neqb (shown name (obj_of c rs) k) (Fin (Q2Qc x)).
Example C104_case : forallb (fun c => fits c 45 10 2 1 3) lineup = true /\ forallb (fun c => fits c 45 200 (-4) 1 3) lineup = true /\
  (let up := steady_rows 45 10 2 1 3 in let down := steady_rows 45 200 (-4) 1 3 in
   holds_at (cMA (VInt 3) (VStr "simple")) up "ma-simple" 9 26 && holds_at (cMA (VInt 3) (VStr "triangular")) up "ma-triangular" 9 24 && holds_at (cWS (VInt 3)) up "ws" 4 (148889 # 10000) &&
   holds_at (cDPO (VInt 5)) up "dpo" 9 (-2) && holds_at (cDPO (VInt 6)) up "dpo" 9 (-3) && holds_at (cFOSC (VInt 4)) up "fosc" 9 0 && holds_at (cTSF (VInt 4)) up "tsf" 9 30 &&
   holds_at (cRSI (VInt 4)) up "rsi" 9 100 && holds_at (cRSI (VInt 4)) down "rsi" 9 0 && holds_at (cVHF (VInt 4)) up "vhf" 9 (3 # 4) &&
   holds_at (cCCI (VInt 5)) up "cci" 9 (1111111 # 10000) && holds_at (cCCI (VInt 5)) down "cci" 9 (-1111111 # 10000) && holds_at (cWR (VInt 5)) up "wr" 9 (-83333 # 10000) &&
   holds_at cUO up "uosc" 30 75 && holds_at cUO down "uosc" 30 (428571 # 10000) && holds_at cATR down "atr" 14 (6801 # 1000) && holds_at cDMI up "+di" 20 50 && holds_at cDMI down "-di" 20 (571429 # 10000) && holds_at cDMI down "adxr" 44 100) = true.
Proof. vm_compute. auto. Qed.
Example C104_hypotheses : let rs := steady_rows 45 200 (-4) 1 3 in let ob := obj_of cDMI rs in built cDMI ora0 (bars rs) true ob /\
  known (given "close" ob) 44 (cl_of rs) /\ known (given "high" ob) 44 (hi_of rs) /\ known (given "low" ob) 44 (lo_of rs) /\ straight (cl_of rs) 44 (zq (-4)) /\ parallel (hi_of rs) (lo_of rs) (cl_of rs) 44 (zq 1) (zq 3).
Proof.
  cbv zeta. split; [apply is_made_ok; vm_compute; reflexivity|]. split; [apply reads_as_known; vm_compute; reflexivity|]. split; [apply reads_as_known; vm_compute; reflexivity|]. split; [apply reads_as_known; vm_compute; reflexivity|].
  apply on_line_ok. vm_compute. reflexivity.
Qed.

(** ** C105 What is signalled on a straight line *)
(** the commodity channel index sells every day of a steady rise and buys every day of a steady fall, for every period from five (the default) on, however slow or fast the market moves *)
Theorem C105_channel_sells_the_rise o raw b st d u s p : working o (cCCI p) raw b st -> candles st d u s -> (5 <= nat_arg p <= days_given st)%nat -> 0 < d -> get_ti_signal st = Ok Sell.
Proof. exact (cci_sells o raw b st d u s p). Qed.
Print Assumptions C105_channel_sells_the_rise.
Theorem C105_channel_buys_the_fall o raw b st d u s p : working o (cCCI p) raw b st -> candles st d u s -> (5 <= nat_arg p <= days_given st)%nat -> d < 0 -> get_ti_signal st = Ok Buy.
Proof. exact (cci_buys o raw b st d u s p). Qed.
Print Assumptions C105_channel_buys_the_fall.
(** with a period of 2, 3 or 4 it never reaches 100 *)
Theorem C105_short_channel_holds o raw b st d u s p : working o (cCCI p) raw b st -> candles st d u s -> (2 <= nat_arg p <= 4 \/ 2 <= nat_arg p /\ days_given st < nat_arg p)%nat -> d <> 0 -> get_ti_signal st = Ok Hold.
Proof. exact (cci_holds o raw b st d u s p). Qed.
Print Assumptions C105_short_channel_holds.
(** the moving averages buy every day of a steady rise and never on a steady fall *)
Theorem C105_moving_averages o raw b st d t p : t = "simple" \/ t = "triangular" -> working o (cMA p (VStr t)) raw b st -> moves_by st d -> (2 <= nat_arg p)%nat ->
  ((if String.eqb t "simple" then nat_arg p else 2 * nat_arg p - 1) <= days_given st)%nat ->
  (Q2Qc (1 # 10000) < d -> get_ti_signal st = Ok Buy) /\ (d < - Q2Qc (1 # 10000) -> get_ti_signal st = Ok Hold).
Proof. exact (average_follows o raw b st d t p). Qed.
Print Assumptions C105_moving_averages.
(** indicators that signal when a level is crossed say nothing: RSI, CMO, RMI and the regression slope *)
Theorem C105_momentum_holds o raw b st d ct : working o ct raw b st -> moves_by st d -> unmoved ct d -> get_ti_signal st = Ok Hold.
Proof. exact (momentum_holds o raw b st d ct). Qed.
Print Assumptions C105_momentum_holds.
Theorem C105_candles_hold o raw b st d u s ct : working o ct raw b st -> candles st d u s -> 0 <= u -> 0 <= s -> 0 < u + s -> d <> 0 ->
  (match ct with cSMI _ _ _ | cDMI | cWR _ => True | _ => False end) -> get_ti_signal st = Ok Hold.
Proof. exact (candles_hold o raw b st d u s ct). Qed.
Print Assumptions C105_candles_hold.

Lemma candles_ok c n q d u s : (let rs := steady_rows n q d u s in reads_as (given "close" (obj_of c rs)) n (fun j => zq q + zq d * nq j) && reads_as (given "high" (obj_of c rs)) n (fun j => zq q + zq d * nq j + zq u) && reads_as (given "low" (obj_of c rs)) n (fun j => zq q + zq d * nq j - zq s) && Nat.eqb (days_given (obj_of c rs)) n) = true ->
  candles (obj_of c (steady_rows n q d u s)) (zq d) (zq u) (zq s).
Proof.
  cbv zeta. intro H. apply andb_prop in H as [H N]. apply andb_prop in H as [H L]. apply andb_prop in H as [C H]. apply Nat.eqb_eq in N. destruct n as [|n]; [exists 0; intros j J; lia|].
  exists (zq q). intros j J. split; [|split]; [exact (reads_as_known _ _ _ C j ltac:(lia))|exact (reads_as_known _ _ _ H j ltac:(lia))|exact (reads_as_known _ _ _ L j ltac:(lia))].
Qed.
Example C105_case : let up := steady_rows 12 10 2 1 3 in let st := obj_of (cCCI (VInt 5)) up in
  working ora0 (cCCI (VInt 5)) (bars up) true st /\ candles st (zq 2) (zq 1) (zq 3) /\ (5 <= nat_arg (VInt 5) <= days_given st)%nat /\ get_ti_signal st = Ok Sell /\
  shows (cCCI (VInt 5)) up [(3, Hold); (4, Sell); (7, Sell); (11, Sell)]%nat = true /\ shows (cCCI (VInt 4)) up [(3, Hold); (4, Hold); (11, Hold)]%nat = true /\ shows (cCCI (VInt 5)) (steady_rows 12 200 (-4) 1 3) [(4, Buy); (11, Buy)]%nat = true /\
  shows (cMA (VInt 3) (VStr "simple")) up [(2, Buy); (11, Buy)]%nat = true /\ shows (cMA (VInt 3) (VStr "simple")) (steady_rows 12 200 (-4) 1 3) [(2, Hold); (11, Hold)]%nat = true /\
  shows (cRSI (VInt 3)) up [(2, Hold); (3, Hold); (11, Hold)]%nat = true /\ shows (cWR (VInt 3)) up [(2, Hold); (3, Hold); (11, Hold)]%nat = true.
Proof.
  cbv zeta. split; [|split; [apply candles_ok; vm_compute; reflexivity|split; [vm_compute; lia|vm_compute; auto 12]]].
  split; [apply bars_wf|]. eexists. split; [apply is_made_ok; vm_compute; reflexivity|left; reflexivity].
Qed.
