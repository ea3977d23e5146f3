(** * PropsUnits: prices in another currency unit, and a price that never moves. *)
From Coq Require Import ZArith QArith Qcanon Bool List String PeanoNat Lia.
From Verif Require Import Num NumFacts Pandas Sim Frame FrameSpec Ind Signal Api IndSpec ApiSpec RangeSpec ValueSpec FormulaSpec FlatFacts ScaleFacts PropsApi PropsRange PropsValue PropsCumul PropsFormula PropsFormula2.
Import ListNotations.
Open Scope list_scope. Open Scope string_scope. Open Scope Qc_scope.

(** ** C50 Currency units *)
(** the same constructor call was made on two inputs *)
Definition built (c : ctor) (o o' : oracle) (raw raw' : rawframe) (b b' : bool) (ob ob' : obj) : Prop :=
  snd (construct o c (RFrame raw) (VBool b)) = Ok ob /\ snd (construct o' c (RFrame raw') (VBool b')) = Ok ob'.
(** up to row k the column is f in the first object and s times f in the second *)
Definition in_units (s : Qc) (k : nat) (ob ob' : obj) (name : string) (f : nat -> Qc) : Prop :=
  known (given name ob) k f /\ known (given name ob') k (fun j => s * f j).

Section Units.
Variables (o o' : oracle) (raw raw' : rawframe) (b b' : bool) (ob ob' : obj) (s : Qc) (k : nat).
Theorem C50_chande_momentum p c : wf_raw raw -> wf_raw raw' -> 0 < s -> built (cCMO p) o o' raw raw' b b' ob ob' ->
  in_units s k ob ob' "close" c -> shown "cmo" ob' k = shown "cmo" ob k.
Proof. exact (fun W W' S => scaled_cmo o o' raw raw' b b' ob ob' s k W W' S p c). Qed.
Theorem C50_relative_momentum p q c : wf_raw raw -> wf_raw raw' -> 0 < s -> built (cRMI p q) o o' raw raw' b b' ob ob' ->
  in_units s k ob ob' "close" c -> shown "rmi" ob' k = shown "rmi" ob k.
Proof. exact (fun W W' S => scaled_rmi o o' raw raw' b b' ob ob' s k W W' S p q c). Qed.
Theorem C50_intraday_momentum p op c : wf_raw raw -> wf_raw raw' -> 0 < s -> built (cIMI p) o o' raw raw' b b' ob ob' ->
  in_units s k ob ob' "open" op -> in_units s k ob ob' "close" c -> shown "imi" ob' k = shown "imi" ob k.
Proof. exact (fun W W' S => scaled_imi o o' raw raw' b b' ob ob' s k W W' S p op c). Qed.
Theorem C50_stochastic p q r m h l c : wf_raw raw -> wf_raw raw' -> 0 < s -> built (cSO p q r m) o o' raw raw' b b' ob ob' ->
  in_units s k ob ob' "high" h -> in_units s k ob ob' "low" l -> in_units s k ob ob' "close" c -> shown "%K" ob' k = shown "%K" ob k.
Proof. exact (fun W W' S => scaled_so o o' raw raw' b b' ob ob' s k W W' S p q r m h l c). Qed.
Theorem C50_stochastic_signal p q r h l c : wf_raw raw -> wf_raw raw' -> 0 < s -> built (cSO p q r (VStr "simple")) o o' raw raw' b b' ob ob' ->
  (forall j, (nat_arg p + nat_arg q - 2 <= j <= k)%nat -> sum_last (fun i => max_last h (nat_arg p) i - min_last l (nat_arg p) i) (nat_arg q) j <> 0) ->
  in_units s k ob ob' "high" h -> in_units s k ob ob' "low" l -> in_units s k ob ob' "close" c -> shown "%D" ob' k = shown "%D" ob k.
Proof. exact (fun W W' S => scaled_stochastic_d o o' raw raw' b b' ob ob' s k W W' S p q r h l c). Qed.
Theorem C50_williams_r p h l c : wf_raw raw -> wf_raw raw' -> 0 < s -> built (cWR p) o o' raw raw' b b' ob ob' ->
  in_units s k ob ob' "high" h -> in_units s k ob ob' "low" l -> in_units s k ob ob' "close" c -> shown "wr" ob' k = shown "wr" ob k.
Proof. exact (fun W W' S => scaled_wr o o' raw raw' b b' ob ob' s k W W' S p h l c). Qed.
Theorem C50_momentum p c : wf_raw raw -> wf_raw raw' -> 0 < s -> built (cMOM p) o o' raw raw' b b' ob ob' ->
  in_units s k ob ob' "close" c -> shown "mom" ob' k = shown "mom" ob k.
Proof. exact (fun W W' S => scaled_mom o o' raw raw' b b' ob ob' s k W W' S p c). Qed.
Theorem C50_price_rate_of_change p c : wf_raw raw -> wf_raw raw' -> 0 < s -> built (cPRC p) o o' raw raw' b b' ob ob' ->
  in_units s k ob ob' "close" c -> shown "prc" ob' k = shown "prc" ob k.
Proof. exact (fun W W' S => scaled_prc o o' raw raw' b b' ob ob' s k W W' S p c). Qed.
Theorem C50_price_oscillator p q c : wf_raw raw -> wf_raw raw' -> 0 < s -> built (cPOSC p q) o o' raw raw' b b' ob ob' ->
  in_units s k ob ob' "close" c -> shown "posc" ob' k = shown "posc" ob k.
Proof. exact (fun W W' S => scaled_posc o o' raw raw' b b' ob ob' s k W W' S p q c). Qed.
Theorem C50_vertical_horizontal_filter p c : wf_raw raw -> wf_raw raw' -> 0 < s -> built (cVHF p) o o' raw raw' b b' ob ob' ->
  in_units s k ob ob' "close" c -> shown "vhf" ob' k = shown "vhf" ob k.
Proof. exact (fun W W' S => scaled_vhf o o' raw raw' b b' ob ob' s k W W' S p c). Qed.
Theorem C50_performance p q c : wf_raw raw -> wf_raw raw' -> 0 < s -> built (cPRF p q) o o' raw raw' b b' ob ob' ->
  in_units s k ob ob' "close" c -> shown "prf" ob' k = shown "prf" ob k.
Proof. exact (fun W W' S => scaled_prf o o' raw raw' b b' ob ob' s k W W' S p q c). Qed.
Theorem C50_commodity_channel p h l c : wf_raw raw -> wf_raw raw' -> 0 < s -> built (cCCI p) o o' raw raw' b b' ob ob' ->
  in_units s k ob ob' "high" h -> in_units s k ob ob' "low" l -> in_units s k ob ob' "close" c -> shown "cci" ob' k = shown "cci" ob k.
Proof. exact (fun W W' S => scaled_cci o o' raw raw' b b' ob ob' s k W W' S p h l c). Qed.
Theorem C50_stochastic_momentum p q r h l c : wf_raw raw -> wf_raw raw' -> 0 < s -> built (cSMI p q r) o o' raw raw' b b' ob ob' ->
  in_units s k ob ob' "high" h -> in_units s k ob ob' "low" l -> in_units s k ob ob' "close" c -> shown "smi" ob' k = shown "smi" ob k.
Proof. exact (fun W W' S => scaled_smi o o' raw raw' b b' ob ob' s k W W' S p q r h l c). Qed.
Theorem C50_chaikin_volatility p q h l : wf_raw raw -> wf_raw raw' -> 0 < s -> built (cVCH p q) o o' raw raw' b b' ob ob' ->
  in_units s k ob ob' "high" h -> in_units s k ob ob' "low" l -> shown "vch" ob' k = shown "vch" ob k.
Proof. exact (fun W W' S => scaled_vch o o' raw raw' b b' ob ob' s k W W' S p q h l). Qed.
Theorem C50_mass_index h l : wf_raw raw -> wf_raw raw' -> 0 < s -> built cMI o o' raw raw' b b' ob ob' ->
  (forall j, (j <= k)%nat -> l j < h j) ->
  in_units s k ob ob' "high" h -> in_units s k ob ob' "low" l -> shown "mi" ob' k = shown "mi" ob k.
Proof. exact (fun W W' S => scaled_mi o o' raw raw' b b' ob ob' s k W W' S h l). Qed.
(** the volume stays the same *)
Theorem C50_chaikin_money_flow p h l c v : wf_raw raw -> wf_raw raw' -> 0 < s -> built (cCMF p) o o' raw raw' b b' ob ob' ->
  (forall j, (j <= k)%nat -> l j <= c j /\ c j <= h j /\ l j < h j) ->
  in_units s k ob ob' "high" h -> in_units s k ob ob' "low" l -> in_units s k ob ob' "close" c ->
  known (given "volume" ob) k v -> known (given "volume" ob') k v -> shown "cmf" ob' k = shown "cmf" ob k.
Proof. exact (fun W W' S => scaled_cmf o o' raw raw' b b' ob ob' s k W W' S p h l c v). Qed.
Theorem C50_directional h l c name : wf_raw raw -> wf_raw raw' -> 0 < s -> built cDMI o o' raw raw' b b' ob ob' ->
  In name ["+di"; "-di"; "dx"; "adx"; "adxr"] ->
  (forall j, (14 <= j <= k)%nat -> running (true_range h l c) j <> 0) -> (forall j, (14 <= j <= k)%nat -> plus_di h l c j + minus_di h l c j <> 0) ->
  in_units s k ob ob' "high" h -> in_units s k ob ob' "low" l -> in_units s k ob ob' "close" c -> shown name ob' k = shown name ob k.
Proof. exact (fun W W' S => scaled_dmi o o' raw raw' b b' ob ob' s k W W' S h l c name). Qed.
End Units.
Print Assumptions C50_chande_momentum. Print Assumptions C50_relative_momentum. Print Assumptions C50_intraday_momentum.
Print Assumptions C50_stochastic. Print Assumptions C50_stochastic_signal. Print Assumptions C50_williams_r.
Print Assumptions C50_momentum. Print Assumptions C50_price_rate_of_change. Print Assumptions C50_price_oscillator.
Print Assumptions C50_vertical_horizontal_filter. Print Assumptions C50_performance. Print Assumptions C50_commodity_channel.
Print Assumptions C50_stochastic_momentum. Print Assumptions C50_chaikin_volatility. Print Assumptions C50_mass_index.
Print Assumptions C50_chaikin_money_flow. Print Assumptions C50_directional.

(** prices in units of 1 / d *)
Definition priced (d : positive) (rs : list (Z * Z * Z * Z * Z)) : rawframe :=
  mkRaw true ohlcv [true; true; true; true; true]
    (map (fun p => let '(k, (a, h, l, c, v)) := p in (Z.of_nat k, [D a d; D h d; D l d; D c d; F v])) (combine (seq 1 (List.length rs)) rs)).
Lemma priced_wf d rs : wf_raw (priced d rs).
Proof. split; [reflexivity|]. intros r H. cbn in H. apply in_map_iff in H as ([k [[[[a h] l] c] v]] & <- & _). reflexivity. Qed.
Definition is_unit (d : positive) (name : string) (ob : obj) (l : list Z) : bool :=
  forallb (fun j => neqb (given name ob j) (Fin (Q2Qc (1 # d) * at_of l j))) (seq 0 (List.length l)).
Lemma is_unit_known d name ob l k : is_unit d name ob l = true -> (k < List.length l)%nat -> known (given name ob) k (fun j => Q2Qc (1 # d) * at_of l j).
Proof.
  unfold is_unit. rewrite forallb_forall. intros H K j J. specialize (H j). rewrite in_seq in H. specialize (H ltac:(lia)).
  destruct (given name ob j); try discriminate. cbn in H. apply qeqb_iff in H. rewrite H. reflexivity.
Qed.
Definition cents : Qc := Q2Qc (1 # 100).
Example C50_case : let c := cRMI (VInt 3) (VInt 2) in let ob := the (made ora0 c ten true) in let ob' := the (made ora0 c (priced 100 ten_days) true) in
  wf_raw ten /\ wf_raw (priced 100 ten_days) /\ 0 < cents /\ built c ora0 ora0 ten (priced 100 ten_days) true true ob ob' /\
  in_units cents 9 ob ob' "close" (at_of closes_ten) /\ equals (value c (priced 100 ten_days) true "rmi" 6) 451613 10000 = true.
Proof.
  split; [apply bars_wf|]. split; [apply priced_wf|]. split; [apply qltb_iff; vm_compute; reflexivity|]. split; [split; vm_compute; reflexivity|]. split; [|vm_compute; reflexivity].
  split; [apply reads_known; [vm_compute; reflexivity|cbn; lia]|apply is_unit_known; [vm_compute; reflexivity|cbn; lia]].
Qed.
Example C50_case_range : let c := cWR (VInt 4) in let ob := the (made ora0 c ten true) in let ob' := the (made ora0 c (priced 100 ten_days) true) in
  built c ora0 ora0 ten (priced 100 ten_days) true true ob ob' /\ in_units cents 9 ob ob' "high" (at_of highs_ten) /\
  in_units cents 9 ob ob' "low" (at_of lows_ten) /\ in_units cents 9 ob ob' "close" (at_of closes_ten) /\
  equals (value c (priced 100 ten_days) true "wr" 5) (-75) 2 = true.
Proof.
  split; [split; vm_compute; reflexivity|].
  repeat (split; [split; [apply reads_known; [vm_compute; reflexivity|cbn; lia]|apply is_unit_known; [vm_compute; reflexivity|cbn; lia]]|]). vm_compute. reflexivity.
Qed.
(** the relative strength index rounds gains and losses, so it does depend on the unit *)
Theorem C50_relative_strength_refuted : exists p raw raw' ob ob' s c k, wf_raw raw /\ wf_raw raw' /\ 0 < s /\
  built (cRSI p) ora0 ora0 raw raw' true true ob ob' /\ in_units s k ob ob' "close" c /\
  (exists q, shown "rsi" ob k = Fin q) /\ (exists q, shown "rsi" ob' k = Fin q) /\ shown "rsi" ob' k <> shown "rsi" ob k.
Proof.
  exists (VInt 3), ten, (priced 7000 ten_days). set (ob := the (made ora0 (cRSI (VInt 3)) ten true)). set (ob' := the (made ora0 (cRSI (VInt 3)) (priced 7000 ten_days) true)).
  exists ob, ob', (Q2Qc (1 # 7000)), (at_of closes_ten), 5%nat. split; [apply bars_wf|]. split; [apply priced_wf|]. split; [apply qltb_iff; vm_compute; reflexivity|].
  split; [split; vm_compute; reflexivity|]. split; [split; [apply reads_known; [vm_compute; reflexivity|cbn; lia]|apply is_unit_known; [vm_compute; reflexivity|cbn; lia]]|].
  split; [eexists; vm_compute; reflexivity|]. split; [eexists; vm_compute; reflexivity|]. intro E. assert (neqb (shown "rsi" ob' 5) (shown "rsi" ob 5) = true) as N by (rewrite E; vm_compute; reflexivity).
  vm_compute in N. discriminate.
Qed.
Print Assumptions C50_relative_strength_refuted.

(** ** C53 A price that never moves *)
Theorem C53_moving_averages o raw b ob p t k v : wf_raw raw -> snd (construct o (cMA p (VStr t)) (RFrame raw) (VBool b)) = Ok ob ->
  known (given "close" ob) k (fun _ => v) -> In t ["simple"; "exponential"; "triangular"] ->
  shown ("ma-" ++ t) ob k = from (if String.eqb t "triangular" then 2 * (nat_arg p - 1) else nat_arg p - 1) k (Fin (r4 v)).
Proof. exact (fun W C FL => flat_averages o raw b ob W k v FL p t C). Qed.
Print Assumptions C53_moving_averages.
Theorem C53_time_series_average o raw b ob p k v : wf_raw raw -> snd (construct o (cMA p (VStr "time_series")) (RFrame raw) (VBool b)) = Ok ob ->
  known (given "close" ob) k (fun _ => v) -> (2 <= nat_arg p)%nat ->
  shown "ma-time_series" ob k = from (nat_arg p - 1) k (Fin (r4 v)).
Proof. exact (fun W C FL P => flat_time_series o raw b ob W k v FL p P C). Qed.
Print Assumptions C53_time_series_average.
Theorem C53_double_exponential o raw b ob p k v : wf_raw raw -> snd (construct o (cDEMA p) (RFrame raw) (VBool b)) = Ok ob ->
  known (given "close" ob) k (fun _ => v) -> shown "dema" ob k = from (2 * (nat_arg p - 1)) k (Fin (r4 v)).
Proof. exact (fun W C FL => flat_dema o raw b ob W k v FL p C). Qed.
Print Assumptions C53_double_exponential.
Theorem C53_triple_exponential o raw b ob p k v : wf_raw raw -> snd (construct o (cTEMA p) (RFrame raw) (VBool b)) = Ok ob ->
  known (given "close" ob) k (fun _ => v) -> shown "tema" ob k = from (3 * (nat_arg p - 1)) k (Fin (r4 v)).
Proof. exact (fun W C FL => flat_tema o raw b ob W k v FL p C). Qed.
Print Assumptions C53_triple_exponential.
Theorem C53_wilders_smoothing o raw b ob p k v : wf_raw raw -> snd (construct o (cWS p) (RFrame raw) (VBool b)) = Ok ob ->
  known (given "close" ob) k (fun _ => v) -> shown "ws" ob k = from (nat_arg p - 1) k (Fin (r4 v)).
Proof. exact (fun W C FL => flat_ws o raw b ob W k v FL p C). Qed.
Print Assumptions C53_wilders_smoothing.
Theorem C53_regression_line o raw b ob p k v : wf_raw raw -> snd (construct o (cLRI p) (RFrame raw) (VBool b)) = Ok ob ->
  known (given "close" ob) k (fun _ => v) -> shown "lri" ob k = from (nat_arg p - 1) k (Fin (r4 v)).
Proof. exact (fun W C FL => flat_lri o raw b ob W k v FL p C). Qed.
Print Assumptions C53_regression_line.
Theorem C53_forecast o raw b ob p k v : wf_raw raw -> snd (construct o (cTSF p) (RFrame raw) (VBool b)) = Ok ob ->
  known (given "close" ob) k (fun _ => v) -> shown "tsf" ob k = from (nat_arg p - 1) k (Fin (r4 v)).
Proof. exact (fun W C FL => flat_tsf o raw b ob W k v FL p C). Qed.
Print Assumptions C53_forecast.
Theorem C53_macd o raw b ob k v : wf_raw raw -> snd (construct o cMACD (RFrame raw) (VBool b)) = Ok ob ->
  known (given "close" ob) k (fun _ => v) -> shown "macd" ob k = from 25 k (Fin 0) /\ shown "signal_line" ob k = from 33 k (Fin 0).
Proof. exact (fun W C FL => flat_macd o raw b ob W k v FL C). Qed.
Print Assumptions C53_macd.
Theorem C53_price_oscillator o raw b ob p q k v : wf_raw raw -> snd (construct o (cPOSC p q) (RFrame raw) (VBool b)) = Ok ob ->
  known (given "close" ob) k (fun _ => v) -> v <> 0 -> shown "posc" ob k = from (nat_arg p - 1) k (Fin 0).
Proof. exact (fun W C FL Z => flat_posc o raw b ob W k v FL p q Z C). Qed.
Print Assumptions C53_price_oscillator.
Theorem C53_detrended_price o raw b ob p k v : wf_raw raw -> snd (construct o (cDPO p) (RFrame raw) (VBool b)) = Ok ob ->
  known (given "close" ob) k (fun _ => v) -> let d := S (nat_arg p / 2) in (d <= k)%nat ->
  shown "dpo" ob (k - d) = from (nat_arg p - 1 - d) (k - d) (Fin 0).
Proof. exact (fun W C FL => flat_dpo o raw b ob W k v FL p C). Qed.
Print Assumptions C53_detrended_price.
(** the root of 0 is 0 *)
Theorem C53_standard_deviation o raw b ob p k v : wf_raw raw -> snd (construct o (cSD p) (RFrame raw) (VBool b)) = Ok ob ->
  known (given "close" ob) k (fun _ => v) -> o_sqrt o 0 = 0 -> shown "sd" ob k = from (nat_arg p - 1) k (Fin 0).
Proof. exact (fun W C FL Z => flat_sd o raw b ob W k v FL p Z C). Qed.
Print Assumptions C53_standard_deviation.
Theorem C53_regression_slope o raw b ob p k v : wf_raw raw -> snd (construct o (cLRS p) (RFrame raw) (VBool b)) = Ok ob ->
  known (given "close" ob) k (fun _ => v) -> (2 <= nat_arg p)%nat -> shown "lrs" ob k = from (nat_arg p - 1) k (Fin 0).
Proof. exact (fun W C FL P => flat_slope_shown o raw b ob W k v FL p P C). Qed.
Print Assumptions C53_regression_slope.

Definition still (n : nat) := closing (map (fun k => (Z.of_nat k, F 7)) (seq 1 n)).
Lemma still_wf n : wf_raw (still n).
Proof. split; [reflexivity|]. intros r H. unfold still, closing in H. cbn in H. repeat rewrite map_map in H. apply in_map_iff in H as (? & <- & _). reflexivity. Qed.
Definition stays (ob : obj) (k : nat) (v : Qc) : bool := forallb (fun j => neqb (given "close" ob j) (Fin v)) (seq 0 (S k)).
Lemma stays_known ob k v : stays ob k v = true -> known (given "close" ob) k (fun _ => v).
Proof.
  unfold stays. rewrite forallb_forall. intros H j J. specialize (H j). rewrite in_seq in H. specialize (H ltac:(lia)).
  destruct (given "close" ob j); try discriminate. cbn in H. apply qeqb_iff in H. rewrite H. reflexivity.
Qed.
Example C53_case : wf_raw (still 40) /\ known (given "close" (the (made ora0 cMACD (still 40) true))) 39 (fun _ => zq 7) /\
  known (given "close" (the (made ora0 (cPOSC (VInt 4) (VInt 2)) (still 40) true))) 39 (fun _ => zq 7) /\ zq 7 <> 0 /\ o_sqrt ora0 0 = 0 /\
  equals (value cMACD (still 40) true "signal_line" 39) 0 1 = true /\ isnan (value cMACD (still 40) true "signal_line" 32) = true /\
  equals (value (cTEMA (VInt 5)) (still 40) true "tema" 12) 7 1 = true /\ equals (value (cLRS (VInt 5)) (still 40) true "lrs" 12) 0 1 = true.
Proof.
  split; [apply still_wf|]. split; [apply stays_known; vm_compute; reflexivity|]. split; [apply stays_known; vm_compute; reflexivity|].
  split; [apply nonzero; vm_compute; reflexivity|]. split; [apply Qc_is_canon; vm_compute; reflexivity|]. repeat split; vm_compute; reflexivity.
Qed.
(** the variable moving average has no value on a price that stays the same *)
Theorem C53_variable_average_refuted : exists p raw ob k v, wf_raw raw /\ snd (construct ora0 (cMA p (VStr "variable")) (RFrame raw) (VBool true)) = Ok ob /\
  known (given "close" ob) k (fun _ => v) /\ (nat_arg p <= 22 < k)%nat /\ shown "ma-variable" ob k = NaN.
Proof.
  exists (VInt 4), (still 40), (the (made ora0 (cMA (VInt 4) (VStr "variable")) (still 40) true)), 30%nat, (zq 7).
  split; [apply still_wf|]. split; [vm_compute; reflexivity|]. split; [apply stays_known; vm_compute; reflexivity|]. split; [cbn; lia|]. vm_compute. reflexivity.
Qed.
Print Assumptions C53_variable_average_refuted.
