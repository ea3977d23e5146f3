(** * PropsApi: constructors, getTiData, getTiValue, getTiSignal and getTiSimulation
    of all indicators. *)
From Coq Require Import ZArith QArith Qcanon Bool List String PeanoNat Lia Sorted Permutation.
From Verif Require Import Num Pandas Sim Frame FrameSpec FrameProofs Ind Signal Api IndSpec ApiSpec ApiCheck ApiProofs ApiLemmas.
Import ListNotations.
Open Scope list_scope. Open Scope string_scope.

(** ** concrete data used below *)
Definition day_of (k : Z) : row :=
  let c := (100 + Z.modulo (k * 7) 11)%Z in
  (k, [F (c - 1); F (c + 2); F (c - 3); F c; F (1000 + 10 * Z.modulo (k * 5) 7)]).
Definition ohlcv := [LStr "Open"; LStr "High"; LStr "Low"; LStr "Close"; LStr "Volume"].
Definition market (n : nat) : rawframe :=
  mkRaw true ohlcv [true; true; true; true; true] (map (fun k => day_of (Z.of_nat k)) (seq 1 n)).
Definition closing (l : list (Z * num)) : rawframe :=
  mkRaw true [LStr "close"] [true] (map (fun p => (fst p, [snd p])) l).
Definition closes (n : nat) : rawframe :=
  closing (map (fun k => let r := day_of (Z.of_nat k) in (fst r, nth 3 (snd r) NaN)) (seq 1 n)).
Definition ora0 : oracle := mkOracle (fun q => q) (fun n => repeat 1%Qc n).
(** the object an accepted construction returns *)
Definition made (o : oracle) (c : ctor) (raw : rawframe) (b : bool) : option obj :=
  match snd (construct o c (RFrame raw) (VBool b)) with Ok ob => Some ob | Err _ => None end.
Definition obj0 := mkObj iADL (mkFrame [] []) (mkFrame [] []).
Definition the (x : option obj) : obj := match x with Some ob => ob | None => obj0 end.
Definition signals_of (r : res (sim * stats)) : list (option signal) :=
  match r with Ok (st, _) => map x_signal (data st) | Err _ => [] end.
Lemma market_wf n : wf_raw (market n).
Proof.
  split; [reflexivity|]. intros r H. cbn in H. apply in_map_iff in H as (k & <- & _). reflexivity.
Qed.
Lemma made_ok o c raw b ob : made o c raw b = Some ob -> snd (construct o c (RFrame raw) (VBool b)) = Ok ob.
Proof. unfold made. destruct (snd _); congruence. Qed.

(** ** C01 row order of the input *)
Theorem C01_row_order_irrelevant o c dt labels numeric (rs rs' : list row) fill :
  NoDup (map fst rs) -> Permutation rs rs' ->
  snd (construct o c (RFrame (mkRaw dt labels numeric rs)) fill)
  = snd (construct o c (RFrame (mkRaw dt labels numeric rs')) fill).
Proof. exact (construct_perm o c dt labels numeric rs rs' fill). Qed.
Print Assumptions C01_row_order_irrelevant.

Example C01_construct_case :
  let rs := r_rows (market 6) in
  NoDup (map fst rs) /\ rs <> rev rs /\
  exists ob, snd (construct ora0 (cMA (VInt 2) (VStr "simple")) (RFrame (market 6)) (VBool true)) = Ok ob /\
    get_ti_signal ob = Ok Buy /\ List.length (rows (get_ti_data ob)) = 6%nat.
Proof.
  split; [repeat constructor; simpl; intuition discriminate|]. split; [vm_compute; discriminate|].
  eexists. split; [vm_compute; reflexivity|]. split; vm_compute; reflexivity.
Qed.

(** ** C02 only the required columns matter *)
Theorem C02_data o c i raw raw' b ob ob' : wf_raw raw -> wf_raw raw' ->
  check c = Ok i -> same_data (required i) raw raw' ->
  snd (construct o c (RFrame raw) (VBool b)) = Ok ob -> snd (construct o c (RFrame raw') (VBool b)) = Ok ob' ->
  get_ti_data ob' = get_ti_data ob /\ forall d, get_ti_value ob' d = get_ti_value ob d.
Proof. exact (construct_same_data o c i raw raw' b ob ob'). Qed.
Print Assumptions C02_data.

Theorem C02_signals_and_simulation o c i raw raw' b ob ob' : wf_raw raw -> wf_raw raw' ->
  check c = Ok i -> same_data (required i) raw raw' ->
  snd (construct o c (RFrame raw) (VBool b)) = Ok ob -> snd (construct o c (RFrame raw') (VBool b)) = Ok ob' ->
  order_sensitive i = false ->
  get_ti_signal ob' = get_ti_signal ob /\
  forall cv me fa, snd (get_ti_simulation ob' cv me fa) = snd (get_ti_simulation ob cv me fa).
Proof. exact (construct_same_signals o c i raw raw' b ob ob'). Qed.
Print Assumptions C02_signals_and_simulation.

Example C02_construct_case :
  let raw' := mkRaw true [LStr "CLOSE"; LStr "x"] [true; false]
                (map (fun r => (fst r, [nth 3 (snd r) NaN; NaN])) (r_rows (market 8))) in
  same_data ["close"] (market 8) raw' /\ made ora0 (cMOM (VInt 2)) raw' true <> None /\
  get_ti_data (the (made ora0 (cMOM (VInt 2)) raw' true)) = get_ti_data (the (made ora0 (cMOM (VInt 2)) (market 8) true)).
Proof.
  split; [split; [reflexivity|intros c [<-|[]]; reflexivity]|]. split; [vm_compute; discriminate|vm_compute; reflexivity].
Qed.

(** TypicalPrice and AverageTrueRange take the first input column for the price in
    getTiSignal: swapping two columns changes the signal *)
Theorem C02_column_order_refuted : exists o c raw raw' ob ob',
  wf_raw raw /\ wf_raw raw' /\ same_data (required (ob_ind ob)) raw raw' /\
  snd (construct o c (RFrame raw) (VBool true)) = Ok ob /\ snd (construct o c (RFrame raw') (VBool true)) = Ok ob' /\
  get_ti_signal ob = Ok Hold /\ get_ti_signal ob' = Ok Buy.
Proof.
  exists ora0, (cTP (VInt 1)),
    (mkRaw true [LStr "high"; LStr "low"; LStr "close"] [true; true; true] [(1%Z, [F 12; F 8; F 10])]),
    (mkRaw true [LStr "low"; LStr "high"; LStr "close"] [true; true; true] [(1%Z, [F 8; F 12; F 10])]).
  eexists. eexists. split; [split; [reflexivity|intros r [<-|[]]; reflexivity]|].
  split; [split; [reflexivity|intros r [<-|[]]; reflexivity]|].
  split; [|split; [vm_compute; reflexivity|split; [vm_compute; reflexivity|split; vm_compute; reflexivity]]].
  split; [reflexivity|]. intros c H. cbn in H. destruct H as [<-|[<-|[<-|[]]]]; reflexivity.
Qed.
Print Assumptions C02_column_order_refuted.

(** ** C04 the caller's objects *)
Theorem C04_constructor o c raw fill : exists labels,
  fst (construct o c (RFrame raw) fill) = RFrame (mkRaw (r_datetime raw) labels (r_numeric raw) (r_rows raw)) /\
  (labels = r_labels raw \/ labels = map LStr (str_labels raw)).
Proof. exact (construct_caller o c raw fill). Qed.
Print Assumptions C04_constructor.

Theorem C04_simulation ob raw me fa : exists labels,
  snd (fst (get_ti_simulation ob (RFrame raw) me fa)) = RFrame (mkRaw (r_datetime raw) labels (r_numeric raw) (r_rows raw)) /\
  (labels = r_labels raw \/ labels = map LStr (str_labels raw)).
Proof. exact (simulation_caller ob raw me fa). Qed.
Print Assumptions C04_simulation.

(** ** C07 fill_missing_values=False *)
(** the data an indicator keeps: every cell is the caller's cell of that day *)
Theorem C07_input_kept o c raw ob col : wf_raw raw ->
  snd (construct o c (RFrame raw) (VBool false)) = Ok ob -> In col (required (ob_ind ob)) ->
  Permutation (cells col (ob_input ob)) (raw_cells col raw).
Proof. exact (construct_input_kept o c raw ob col). Qed.
Print Assumptions C07_input_kept.

(** ... but indicators built on another indicator fill anyway: with these three the
    flag makes no difference at all *)
Theorem C07_flag_ignored o c raw ob ob' : wf_raw raw ->
  snd (construct o c (RFrame raw) (VBool false)) = Ok ob -> snd (construct o c (RFrame raw) (VBool true)) = Ok ob' ->
  ignores_flag (ob_ind ob) = true -> get_ti_data ob' = get_ti_data ob.
Proof. exact (construct_flag o c raw ob ob'). Qed.
Print Assumptions C07_flag_ignored.

Definition gap : rawframe := closing [(1%Z, F 10); (2%Z, NaN); (3%Z, F 12); (4%Z, F 13)].
(** a forecast for day 4 appears although the window contains a missing day *)
Theorem C07_no_fill_refuted : exists ob,
  snd (construct ora0 (cTSF (VInt 4)) (RFrame gap) (VBool false)) = Ok ob /\
  col "close" (ob_input ob) = [F 10; NaN; F 12; F 13] /\ exists q, get_ti_value ob (DAt 4) = TVRow [Fin q] /\ q = Q2Qc 14.
Proof.
  eexists. split; [vm_compute; reflexivity|]. split; [vm_compute; reflexivity|].
  eexists. split; [vm_compute; reflexivity|]. apply Qc_is_canon. reflexivity.
Qed.
Print Assumptions C07_no_fill_refuted.

(** ** C08 constructor arguments *)
Theorem C08_accepted_iff c : (exists i, check c = Ok i) <-> params_ok c.
Proof. exact (check_accepts c). Qed.
Print Assumptions C08_accepted_iff.

Theorem C08_parameters_used c i : check c = Ok i -> i = asked c.
Proof. exact (check_asked c i). Qed.
Print Assumptions C08_parameters_used.

(** the error raised is that of the first wrong parameter, naming it *)
Theorem C08_error c e : (forall l s, c <> cVOSC l s) ->
  check c = Err e <-> first_fault (documented_params c) = Some e.
Proof. exact (check_error c e). Qed.
Print Assumptions C08_error.

Theorem C08_no_calculation o c v fill e : check c = Err e -> construct o c v fill = (v, Err e).
Proof. exact (construct_bad_args o c v fill e). Qed.
Print Assumptions C08_no_calculation.

Theorem C08_fill_flag o c v fill i : check c = Ok i -> is_bool fill = false ->
  construct o c v fill = (v, Err (WrongType "fill_missing_values")).
Proof. exact (construct_bad_flag o c v fill i). Qed.
Print Assumptions C08_fill_flag.

Example C08_cases :
  check (cRSI (VInt 14)) = Ok (iRSI 14) /\ check (cRSI (VFloat (F 14))) = Err (WrongType "period") /\
  check (cRSI (VInt 0)) = Err (WrongValue "period") /\ check (cSO (VInt 14) (VInt 2) (VInt 3) (VStr "simple")) = Err (WrongValue "k_slowing_periods") /\
  check (cBB (VInt 20) (VFloat NaN)) = Err (WrongValue "std_number") /\
  check (cMA (VInt 1) (VStr "time_series")) = Err (WrongValue "period").
Proof. repeat split. Qed.

(** VolumeOscillator names a parameter that does not exist *)
Theorem C08_volume_oscillator_name_refuted : exists c e,
  check c = Err e /\ first_fault (documented_params c) = Some (WrongValue "long_period") /\ e = WrongValue "long_period ".
Proof. exists (cVOSC (VInt 2) (VInt 5)). eexists. repeat split. Qed.
Print Assumptions C08_volume_oscillator_name_refuted.

(** ** C09 enough rows *)
Theorem C09_not_enough_iff o c i raw b f : check c = Ok i -> snd (validate (RFrame raw) (required i) b) = Ok f ->
  (List.length (r_rows raw) < min_rows i)%nat <->
  exists name shown, snd (construct o c (RFrame raw) (VBool b)) = Err (NotEnough name shown (List.length (r_rows raw))).
Proof. exact (construct_not_enough o c i raw b f). Qed.
Print Assumptions C09_not_enough_iff.

Theorem C09_otherwise_completes o c i raw b f : check c = Ok i -> snd (validate (RFrame raw) (required i) b) = Ok f ->
  (min_rows i <= List.length (r_rows raw))%nat ->
  exists ob, snd (construct o c (RFrame raw) (VBool b)) = Ok ob.
Proof. exact (construct_completes o c i raw b f). Qed.
Print Assumptions C09_otherwise_completes.

Theorem C09_reported_minimum o c i raw b name shown got : check c = Ok i -> i <> iATR ->
  snd (construct o c (RFrame raw) (VBool b)) = Err (NotEnough name shown got) -> shown = min_rows i.
Proof. exact (construct_shown o c i raw b name shown got). Qed.
Print Assumptions C09_reported_minimum.

Example C09_cases :
  snd (construct ora0 (cRSI (VInt 5)) (RFrame (market 5)) (VBool true)) = Err (NotEnough "Relative Strength Index" 6 5) /\
  made ora0 (cRSI (VInt 5)) (market 6) true <> None /\
  snd (construct ora0 (cRMI (VInt 5) (VInt 3)) (RFrame (market 7)) (VBool true)) = Err (NotEnough "Relative Momentum Index" 8 7) /\
  made ora0 (cRMI (VInt 5) (VInt 3)) (market 8) true <> None.
Proof. repeat split; vm_compute; discriminate. Qed.

(** AverageTrueRange needs 14 rows and reports that it needs 2 *)
Theorem C09_atr_minimum_refuted : exists raw name shown,
  snd (construct ora0 cATR (RFrame raw) (VBool true)) = Err (NotEnough name shown (List.length (r_rows raw))) /\
  (shown <= List.length (r_rows raw))%nat.
Proof. exists (market 13). eexists. eexists. split; [vm_compute; reflexivity|cbn; lia]. Qed.
Print Assumptions C09_atr_minimum_refuted.

(** ** C10 getTiValue *)
Theorem C10_date o c raw b ob : wf_raw raw -> NoDup (dates raw) ->
  snd (construct o c (RFrame raw) (VBool b)) = Ok ob ->
  (forall t l, get_ti_value ob (DAt t) = TVRow l <-> In (t, l) (rows (get_ti_data ob))) /\
  (forall t, get_ti_value ob (DAt t) = TVNone <-> ~ In t (index (get_ti_data ob))) /\
  (forall t l, get_ti_value ob (DAt t) = TVRow l -> List.length l = List.length (documented_columns (ob_ind ob))).
Proof. exact (construct_value o c raw b ob). Qed.
Print Assumptions C10_date.

Theorem C10_latest o c raw b ob : wf_raw raw -> snd (construct o c (RFrame raw) (VBool b)) = Ok ob ->
  (forall l, get_ti_value ob DNotGiven = TVRow l <->
     exists rs t, rows (get_ti_data ob) = (rs ++ [(t, l)])%list /\ forall d, In d (index (get_ti_data ob)) -> (d <= t)%Z) /\
  (get_ti_value ob DNotGiven = TVNone <-> rows (get_ti_data ob) = []) /\
  get_ti_value ob DBad = TVNone.
Proof. exact (construct_latest o c raw b ob). Qed.
Print Assumptions C10_latest.

Example C10_case : let ob := the (made ora0 cOBV (market 4) true) in
  get_ti_value ob (DAt 3) = TVRow [F (-20)] /\ get_ti_value ob DNotGiven = TVRow [F (-1080)] /\ get_ti_value ob (DAt 9) = TVNone.
Proof. vm_compute. repeat split. Qed.

(** a date that occurs twice: the answer is the list of column names *)
Theorem C10_repeated_date_refuted : exists raw ob t,
  snd (construct ora0 cWC (RFrame raw) (VBool true)) = Ok ob /\ In t (index (get_ti_data ob)) /\
  get_ti_value ob (DAt t) = TVNames ["wc"].
Proof.
  exists (mkRaw true ohlcv [true; true; true; true; true] [day_of 1; day_of 2; day_of 2]). eexists. exists 2%Z.
  split; [vm_compute; reflexivity|]. split; [vm_compute; auto|vm_compute; reflexivity].
Qed.
Print Assumptions C10_repeated_date_refuted.

(** ** C11 getTiData *)
Theorem C11_shape o c raw b ob : wf_raw raw -> snd (construct o c (RFrame raw) (VBool b)) = Ok ob ->
  cols (get_ti_data ob) = documented_columns (ob_ind ob) /\
  (forall r, In r (rows (get_ti_data ob)) -> List.length (snd r) = List.length (documented_columns (ob_ind ob))) /\
  StronglySorted Z.le (index (get_ti_data ob)) /\
  (is_dpo (ob_ind ob) = false -> Permutation (index (get_ti_data ob)) (dates raw)) /\
  Permutation (index (ob_input ob)) (dates raw) /\
  (forall p, ob_ind ob = iDPO p ->
     index (get_ti_data ob) = firstn (List.length (dates raw) - S (p / 2)) (index (ob_input ob))).
Proof. exact (construct_data_shape o c raw b ob). Qed.
Print Assumptions C11_shape.

Example C11_case : let ob := the (made ora0 cMACD (market 30) true) in
  cols (get_ti_data ob) = ["macd"; "signal_line"] /\ index (get_ti_data ob) = map Z.of_nat (seq 1 30).
Proof. vm_compute. split; reflexivity. Qed.

(** DetrendedPriceOscillator drops the last period/2 + 1 days *)
Theorem C11_dpo_drops_days_refuted : exists raw ob t,
  snd (construct ora0 (cDPO (VInt 6)) (RFrame raw) (VBool true)) = Ok ob /\ In t (dates raw) /\ ~ In t (index (get_ti_data ob)).
Proof.
  exists (market 8). eexists. exists 5%Z. split; [vm_compute; reflexivity|]. split; [vm_compute; tauto|].
  vm_compute. intuition discriminate.
Qed.
Print Assumptions C11_dpo_drops_days_refuted.

(** ** C12 getTiSignal answers *)
Theorem C12_signal o c raw b ob : wf_raw raw -> snd (construct o c (RFrame raw) (VBool b)) = Ok ob ->
  (forall r s, ob_ind ob <> iRI r s) -> (ob_ind ob = iMP 1 -> List.length (r_rows raw) <> 1%nat) ->
  exists s, get_ti_signal ob = Ok s.
Proof. exact (construct_signal o c raw b ob). Qed.
Print Assumptions C12_signal.

(** also in every state in which the simulation asks *)
Theorem C12_signal_during_simulation o c raw b ob k : wf_raw raw -> snd (construct o c (RFrame raw) (VBool b)) = Ok ob ->
  sim_safe (ob_ind ob) = true -> exists s, get_ti_signal (limited k ob) = Ok s.
Proof. exact (construct_signal_limited o c raw b ob k). Qed.
Print Assumptions C12_signal_during_simulation.

Example C12_case : map (fun k => get_ti_signal (limited k (the (made ora0 (cMA (VInt 2) (VStr "simple")) (market 6) true)))) (seq 0 6)
  = [Ok Hold; Ok Hold; Ok Buy; Ok Hold; Ok Hold; Ok Buy].
Proof. vm_compute. reflexivity. Qed.

(** RangeIndicator looks for an earlier value below 20 and fails if there is none *)
Theorem C12_range_indicator_refuted : exists raw ob, wf_raw raw /\
  snd (construct ora0 (cRI (VInt 3) (VInt 2)) (RFrame raw) (VBool true)) = Ok ob /\ get_ti_signal ob = Err IndexErr.
Proof. exists (market 7). eexists. split; [apply market_wf|]. split; [vm_compute; reflexivity|vm_compute; reflexivity]. Qed.
Print Assumptions C12_range_indicator_refuted.
(** MedianPrice(period=1) on one row *)
Theorem C12_median_price_refuted : exists raw ob, wf_raw raw /\
  snd (construct ora0 (cMP (VInt 1)) (RFrame raw) (VBool true)) = Ok ob /\ get_ti_signal ob = Err IndexErr.
Proof. exists (market 1). eexists. split; [apply market_wf|]. split; [vm_compute; reflexivity|vm_compute; reflexivity]. Qed.
Print Assumptions C12_median_price_refuted.
(** ... so no simulation of MedianPrice(period=1) ever completes *)
Theorem C12_median_price_never_simulates o raw b ob cv me fa r : wf_raw raw -> NoDup (dates raw) ->
  snd (construct o (cMP (VInt 1)) (RFrame raw) (VBool b)) = Ok ob ->
  snd (get_ti_simulation ob cv me fa) <> Ok r.
Proof. exact (median_price_never_simulates o raw b ob cv me fa r). Qed.
Print Assumptions C12_median_price_never_simulates.

(** ** C13 no look-ahead *)
Theorem C13_history_not_rewritten o c raw b ob ob' t : wf_raw raw ->
  snd (construct o c (RFrame raw) (VBool b)) = Ok ob ->
  snd (construct o c (RFrame (until t raw)) (VBool b)) = Ok ob' ->
  looks_ahead (ob_ind ob) = false -> causal_hyp (ob_ind ob) b raw ->
  get_ti_data ob' = upto t (get_ti_data ob).
Proof. exact (construct_until_data o c raw b ob ob' t). Qed.
Print Assumptions C13_history_not_rewritten.

(** DetrendedPriceOscillator publishes late but never rewrites *)
Theorem C13_dpo o v raw b ob ob' t : wf_raw raw ->
  snd (construct o (cDPO v) (RFrame raw) (VBool b)) = Ok ob ->
  snd (construct o (cDPO v) (RFrame (until t raw)) (VBool b)) = Ok ob' ->
  (b = true -> first_day_complete ["close"] raw) ->
  get_ti_data ob' = fprefix (List.length (rows (get_ti_data ob'))) (get_ti_data ob).
Proof. exact (construct_until_dpo o v raw b ob ob' t). Qed.
Print Assumptions C13_dpo.

(** AccumulationDistributionLine and ChaikinOscillator: as long as the line is finite *)
Theorem C13_adl o raw b ob ob' t : wf_raw raw ->
  snd (construct o cADL (RFrame raw) (VBool b)) = Ok ob ->
  snd (construct o cADL (RFrame (until t raw)) (VBool b)) = Ok ob' ->
  (b = true -> first_day_complete (required iADL) raw) -> all_finite (get_ti_data ob) ->
  get_ti_data ob' = upto t (get_ti_data ob).
Proof. exact (construct_until_adl o raw b ob ob' t). Qed.
Print Assumptions C13_adl.
Theorem C13_chaikin_oscillator o raw b ob ob' t oba : wf_raw raw ->
  snd (construct o cCO (RFrame raw) (VBool b)) = Ok ob ->
  snd (construct o cCO (RFrame (until t raw)) (VBool b)) = Ok ob' ->
  first_day_complete (required iCO) raw ->
  snd (construct o cADL (RFrame raw) (VBool true)) = Ok oba -> all_finite (get_ti_data oba) ->
  get_ti_data ob' = upto t (get_ti_data ob).
Proof. exact (construct_until_co o raw b ob ob' t oba). Qed.
Print Assumptions C13_chaikin_oscillator.

Lemma market_complete n cs : first_day_complete cs (market n).
Proof.
  intros c d x _ H _. unfold raw_cells in H. destruct (position c (str_labels (market n))) as [k|] eqn:P; [|destruct H].
  apply in_map_iff in H as (r & E & H). injection E as <- <-. cbn in H. apply in_map_iff in H as (j & <- & _).
  apply position_lt in P. cbn in P. destruct k as [|[|[|[|[|k]]]]]; cbn; try discriminate. exfalso. lia.
Qed.
Example C13_case : causal_hyp (iTSF 3) true (market 9) /\
  made ora0 (cTSF (VInt 3)) (market 9) true <> None /\
  (let ti := get_ti_data (the (made ora0 (cTSF (VInt 3)) (until 6 (market 9)) true)) in
   index ti = [1; 2; 3; 4; 5; 6]%Z /\ ti = upto 6 (get_ti_data (the (made ora0 (cTSF (VInt 3)) (market 9) true)))).
Proof.
  split; [intro; apply market_complete|]. split; [vm_compute; discriminate|]. vm_compute. split; reflexivity.
Qed.
Example C13_adl_case : all_finite (get_ti_data (the (made ora0 cADL (market 5) true))).
Proof. intros r x H Hx. vm_compute in H. repeat (destruct H as [<-|H]; [destruct Hx as [<-|[]]; reflexivity|]). destruct H. Qed.

(** FibonacciRetracement recomputes every past level when a new extreme arrives *)
Theorem C13_fibonacci_refuted : exists raw t ob ob', wf_raw raw /\
  snd (construct ora0 cFIB (RFrame raw) (VBool true)) = Ok ob /\
  snd (construct ora0 cFIB (RFrame (until t raw)) (VBool true)) = Ok ob' /\
  get_ti_value ob' (DAt 1) <> get_ti_value ob (DAt 1).
Proof.
  exists (market 3), 2%Z. eexists. eexists. split; [apply market_wf|]. split; [vm_compute; reflexivity|].
  split; [vm_compute; reflexivity|]. vm_compute. discriminate.
Qed.
Print Assumptions C13_fibonacci_refuted.
Theorem C13_dpo_refuted : exists raw t ob ob', wf_raw raw /\
  snd (construct ora0 (cDPO (VInt 2)) (RFrame raw) (VBool true)) = Ok ob /\
  snd (construct ora0 (cDPO (VInt 2)) (RFrame (until t raw)) (VBool true)) = Ok ob' /\
  get_ti_value ob' (DAt t) = TVNone /\ get_ti_value ob (DAt t) <> TVNone.
Proof.
  exists (market 6), 4%Z. eexists. eexists. split; [apply market_wf|]. split; [vm_compute; reflexivity|].
  split; [vm_compute; reflexivity|]. split; [vm_compute; reflexivity|vm_compute; discriminate].
Qed.
Print Assumptions C13_dpo_refuted.
(** one missing or infinite day switches the rounding of the whole line off *)
Theorem C13_adl_refuted : exists raw t ob ob', wf_raw raw /\
  snd (construct ora0 cADL (RFrame raw) (VBool true)) = Ok ob /\
  snd (construct ora0 cADL (RFrame (until t raw)) (VBool true)) = Ok ob' /\
  get_ti_value ob' (DAt 1) <> get_ti_value ob (DAt 1).
Proof.
  exists (mkRaw true ohlcv [true; true; true; true; true]
    [(1%Z, [F 1; F 12; F 9; F 10; F 5]); (2%Z, [F 1; F 12; F 9; F 10; PInf])]), 1%Z.
  eexists. eexists. split; [split; [reflexivity|intros r [<-|[<-|[]]]; reflexivity]|].
  split; [vm_compute; reflexivity|]. split; [vm_compute; reflexivity|]. vm_compute. discriminate.
Qed.
Print Assumptions C13_adl_refuted.
(** with a missing first day, filling takes tomorrow's price *)
Theorem C13_filling_refuted : exists raw t ob ob', wf_raw raw /\
  snd (construct ora0 (cMA (VInt 1) (VStr "simple")) (RFrame raw) (VBool true)) = Ok ob /\
  snd (construct ora0 (cMA (VInt 1) (VStr "simple")) (RFrame (until t raw)) (VBool true)) = Ok ob' /\
  get_ti_value ob' (DAt t) = TVRow [NaN] /\ get_ti_value ob (DAt t) <> TVRow [NaN].
Proof.
  exists (closing [(1%Z, NaN); (2%Z, F 7)]), 1%Z. eexists. eexists.
  split; [split; [reflexivity|intros r [<-|[<-|[]]]; reflexivity]|].
  split; [vm_compute; reflexivity|]. split; [vm_compute; reflexivity|]. split; [vm_compute; reflexivity|vm_compute; discriminate].
Qed.
Print Assumptions C13_filling_refuted.

(** ** C14 the simulation leaves the indicator as it was *)
Theorem C14_unchanged o c raw b ob cv me fa : wf_raw raw -> snd (construct o c (RFrame raw) (VBool b)) = Ok ob ->
  sim_safe (ob_ind ob) = true -> fst (fst (get_ti_simulation ob cv me fa)) = ob.
Proof. exact (construct_simulation_keeps o c raw b ob cv me fa). Qed.
Print Assumptions C14_unchanged.

(** any indicator: when the simulation returns, or rejects its arguments *)
Theorem C14_unchanged_on_return ob cv me fa r :
  snd (get_ti_simulation ob cv me fa) = Ok r -> fst (fst (get_ti_simulation ob cv me fa)) = ob.
Proof. exact (simulation_keeps_ok ob cv me fa r). Qed.
Print Assumptions C14_unchanged_on_return.
Theorem C14_unchanged_on_bad_arguments o c raw b ob cv me fa : wf_raw raw ->
  snd (construct o c (RFrame raw) (VBool b)) = Ok ob ->
  ~ (usable_close (index (ob_input ob)) cv /\ first_fault (sim_params me fa) = None) ->
  fst (fst (get_ti_simulation ob cv me fa)) = ob.
Proof. exact (construct_simulation_rejected o c raw b ob cv me fa). Qed.
Print Assumptions C14_unchanged_on_bad_arguments.

Example C14_case : let ob := the (made ora0 (cMA (VInt 2) (VStr "simple")) (market 6) true) in
  signals_of (snd (get_ti_simulation ob (RFrame (closes 6)) VNone (VFloat (F 2)))) = [Some Hold; Some Hold; Some Buy; Some Hold; Some Hold; Some Buy] /\
  snd (get_ti_simulation ob (RFrame (closes 5)) VNone (VFloat (F 2))) = Err (NotValidSim "close_values").
Proof. vm_compute. split; reflexivity. Qed.

(** an exception in a round leaves the indicator with shortened data *)
Theorem C14_exception_refuted : exists raw ob cv me fa, wf_raw raw /\
  snd (construct ora0 (cRI (VInt 3) (VInt 2)) (RFrame raw) (VBool true)) = Ok ob /\
  get_ti_signal ob = Ok Hold /\
  snd (get_ti_simulation ob cv me fa) = Err IndexErr /\
  List.length (rows (get_ti_data ob)) = 12%nat /\
  List.length (rows (get_ti_data (fst (fst (get_ti_simulation ob cv me fa))))) = 7%nat.
Proof.
  exists (market 12). eexists. exists (RFrame (closes 12)), VNone, (VFloat (F 2)). split; [apply market_wf|].
  split; [vm_compute; reflexivity|]. repeat split; vm_compute; reflexivity.
Qed.
Print Assumptions C14_exception_refuted.

(** ** C15 the signals were available on the day *)
Theorem C15_signal_of_the_day o c raw b ob cv me fa st stats k ob' : wf_raw raw ->
  snd (construct o c (RFrame raw) (VBool b)) = Ok ob ->
  looks_ahead (ob_ind ob) = false -> causal_hyp (ob_ind ob) b raw ->
  snd (get_ti_simulation ob cv me fa) = Ok (st, stats) ->
  (k < List.length (dates raw))%nat ->
  snd (construct o c (RFrame (until (nth k (sort_z (dates raw)) 0%Z) raw)) (VBool b)) = Ok ob' ->
  exists s, get_ti_signal ob' = Ok s /\ x_signal (nth k (data st) simrow0) = Some s.
Proof. exact (simulation_live o c raw b ob cv me fa st stats k ob'). Qed.
Print Assumptions C15_signal_of_the_day.

Example C15_case :
  signals_of (snd (get_ti_simulation (the (made ora0 (cMA (VInt 2) (VStr "simple")) (market 6) true)) (RFrame (closes 6)) VNone (VFloat (F 2))))
  = [Some Hold; Some Hold; Some Buy; Some Hold; Some Hold; Some Buy] /\
  get_ti_signal (the (made ora0 (cMA (VInt 2) (VStr "simple")) (until 3 (market 6)) true)) = Ok Buy.
Proof. vm_compute. split; reflexivity. Qed.

(** the Fibonacci simulation trades on levels that were not known on the day *)
Theorem C15_fibonacci_refuted : exists raw ob st stats ob', wf_raw raw /\
  snd (construct ora0 cFIB (RFrame raw) (VBool true)) = Ok ob /\
  snd (get_ti_simulation ob (RFrame raw) VNone (VFloat (F 2))) = Ok (st, stats) /\
  snd (construct ora0 cFIB (RFrame (until 2 raw)) (VBool true)) = Ok ob' /\
  get_ti_signal ob' = Ok Sell /\ x_signal (nth 1 (data st) simrow0) = Some Hold.
Proof.
  exists (closing [(1%Z, F 10); (2%Z, F 20); (3%Z, F 1000)]). eexists. eexists. eexists. eexists.
  split; [split; [reflexivity|intros r [<-|[<-|[<-|[]]]]; reflexivity]|].
  split; [vm_compute; reflexivity|]. split; [vm_compute; reflexivity|]. split; [vm_compute; reflexivity|].
  split; vm_compute; reflexivity.
Qed.
Print Assumptions C15_fibonacci_refuted.

(** ** C16 the simulation covers every day *)
Theorem C16_every_day o c raw b ob cv me fa st stats : wf_raw raw ->
  snd (construct o c (RFrame raw) (VBool b)) = Ok ob -> is_dpo (ob_ind ob) = false ->
  snd (get_ti_simulation ob cv me fa) = Ok (st, stats) ->
  List.length (data st) = List.length (dates raw) /\
  forall k, (k < List.length (data st))%nat ->
    x_signal (nth k (data st) simrow0) <> None /\ x_action (nth k (data st) simrow0) <> None /\
    x_stock (nth k (data st) simrow0) = nth k (close st) NaN.
Proof. exact (construct_simulation_covers o c raw b ob cv me fa st stats). Qed.
Print Assumptions C16_every_day.

Theorem C16_dpo_refuted : exists raw ob st stats, wf_raw raw /\
  snd (construct ora0 (cDPO (VInt 2)) (RFrame raw) (VBool true)) = Ok ob /\
  snd (get_ti_simulation ob (RFrame raw) VNone (VFloat (F 2))) = Ok (st, stats) /\
  x_signal (nth 5 (data st) simrow0) = None /\ List.length (data st) = 6%nat.
Proof.
  exists (market 6). eexists. eexists. eexists. split; [apply market_wf|]. split; [vm_compute; reflexivity|].
  split; [vm_compute; reflexivity|]. split; vm_compute; reflexivity.
Qed.
Print Assumptions C16_dpo_refuted.

(** ** C24 simulation arguments *)
Theorem C24_starts_iff o c raw b ob cv me fa : wf_raw raw -> snd (construct o c (RFrame raw) (VBool b)) = Ok ob ->
  sim_safe (ob_ind ob) = true ->
  (usable_close (dates raw) cv /\ first_fault (sim_params me fa) = None
     <-> exists r, snd (get_ti_simulation ob cv me fa) = Ok r) /\
  (~ usable_close (dates raw) cv -> snd (get_ti_simulation ob cv me fa) = Err (NotValidSim "close_values")) /\
  (usable_close (dates raw) cv -> forall e, first_fault (sim_params me fa) = Some e ->
     snd (get_ti_simulation ob cv me fa) = Err e).
Proof. exact (construct_simulation_args o c raw b ob cv me fa). Qed.
Print Assumptions C24_starts_iff.

Example C24_cases : let ob := the (made ora0 (cMA (VInt 2) (VStr "simple")) (market 3) true) in
  let run cv me fa := snd (get_ti_simulation ob cv me fa) in
  run (RFrame (closes 3)) (VInt 0) (VFloat (F 2)) = Err (WrongValue "max_exposure") /\
  run (RFrame (closes 3)) (VStr "1") (VFloat (F 2)) = Err (WrongType "max_exposure") /\
  run (RFrame (closes 3)) (VInt 5) (VFloat (D 1 2)) = Err (WrongValue "short_exposure_factor") /\
  run (RFrame (closes 3)) (VInt 5) VNone = Err (WrongType "short_exposure_factor") /\
  run (RFrame (closes 4)) (VInt 5) (VInt 1) = Err (NotValidSim "close_values") /\
  run RNotFrame (VInt 5) (VInt 1) = Err (NotValidSim "close_values") /\
  signals_of (run (RFrame (closes 3)) (VInt 5) (VInt 1)) = [Some Hold; Some Hold; Some Buy].
Proof. vm_compute. repeat split. Qed.

(** NaN is neither a positive number nor at least one, and is accepted for both *)
Theorem C24_nan_refuted : exists raw ob me fa r, wf_raw raw /\
  snd (construct ora0 cWC (RFrame raw) (VBool true)) = Ok ob /\
  nltb (F 0) (as_number me) = false /\ nleb (F 1) (as_number fa) = false /\
  snd (get_ti_simulation ob (RFrame raw) me fa) = Ok r.
Proof.
  exists (market 3). eexists. exists (VFloat NaN), (VFloat NaN). eexists. split; [apply market_wf|].
  split; [vm_compute; reflexivity|]. split; [reflexivity|]. split; [reflexivity|]. vm_compute. reflexivity.
Qed.
Print Assumptions C24_nan_refuted.
