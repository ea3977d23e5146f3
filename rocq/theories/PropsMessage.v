(** * PropsMessage: what the exceptions say. *)
From Coq Require Import ZArith QArith Qcanon Bool String Ascii List PeanoNat Permutation.
From Verif Require Import Num Pandas Frame FrameSpec Sim Ind Signal Api ApiSpec DocSpec Message MessageSpec MessageFacts PropsApi.
Import ListNotations.
Open Scope string_scope.

Definition texts0 : texts := mkTexts (fun x => if isfin x then "2.5" else "nan") "[1, 2]" "<class 'list'>" "<class 'dict'>"
  "<class 'pandas.core.indexes.range.RangeIndex'>" (fun _ => "object").
(** ** C72 A refused argument is reported by its name, its value or type, and what is supported *)
Theorem C72_parameters T o c v fill s : unmarked_values T (rules T c) -> misreported c = false ->
  report T (rules T c) = Some s -> construct_text T o c v fill = Some s.
Proof. exact (parameters_report T o c v fill s). Qed.
Print Assumptions C72_parameters.
(** nothing is reported exactly if every parameter is as documented *)
Theorem C72_rules_complete T c : report T (rules T c) = None <-> params_ok c.
Proof. exact (report_none T c). Qed.
Print Assumptions C72_rules_complete.
Theorem C72_fill_flag T o c v fill : params_ok c -> is_bool fill = false -> unmarked (py_type T fill) ->
  construct_text T o c v fill
  = Some ("Wrong type (" ++ py_type T fill ++ ") for input parameter (fill_missing_values). Supported type is (bool).").
Proof. exact (flag_report T o c v fill). Qed.
Print Assumptions C72_fill_flag.
Theorem C72_only_when_refused T o c v fill s : construct_text T o c v fill = Some s -> exists e, snd (construct o c v fill) = Err e.
Proof. exact (text_refused T o c v fill s). Qed.
Print Assumptions C72_only_when_refused.

(** what the two wrong sentences say *)
Theorem C72_envelopes T o p s v fill : misreported (cENV p s) = true -> ~ params_ok (cENV p s) ->
  unmarked (py_str T p) -> unmarked (py_type T p) ->
  construct_text T o (cENV p s) v fill
  = Some (if is_float s
          then "Wrong value (" ++ py_str T p ++ ") for input parameter (shift). Supported values are (>0.0 and <1.0)."
          else "Wrong type (" ++ py_type T p ++ ") for input parameter (shift). Supported type is (float).").
Proof. exact (envelopes_report T o p s v fill). Qed.
Print Assumptions C72_envelopes.
Theorem C72_volume_oscillator T o l s v fill : misreported (cVOSC l s) = true -> ~ params_ok (cVOSC l s) -> unmarked (py_str T l) ->
  construct_text T o (cVOSC l s) v fill
  = Some ("Wrong value (" ++ py_str T l ++ ") for input parameter (long_period ). Supported values are (> short_period [" ++ py_str T s ++ "]).").
Proof. exact (volume_oscillator_report T o l s v fill). Qed.
Print Assumptions C72_volume_oscillator.
(** Envelopes(period=20, shift=3.0): the value shown is 20 *)
Theorem C72_envelopes_refuted : exists T c s, unmarked_values T (rules T c) /\ report T (rules T c) = Some s /\
  forall o v fill, construct_text T o c v fill <> Some s.
Proof.
  exists texts0, (cENV (VInt 20) (VFloat (F 3))). eexists. split; [|split; [vm_compute; reflexivity|intros o v fill E; vm_compute in E; discriminate E]].
  intros r [<-|[<-|[]]]; split; apply plain_unmarked; reflexivity.
Qed.
Print Assumptions C72_envelopes_refuted.
(** VolumeOscillator(long_period=3, short_period=5): no parameter is called "long_period " *)
Theorem C72_volume_oscillator_refuted : exists T c s, unmarked_values T (rules T c) /\ report T (rules T c) = Some s /\
  forall o v fill, construct_text T o c v fill <> Some s.
Proof.
  exists texts0, (cVOSC (VInt 3) (VInt 5)). eexists. split; [|split; [vm_compute; reflexivity|intros o v fill E; vm_compute in E; discriminate E]].
  intros r [<-|[<-|[<-|[]]]]; split; apply plain_unmarked; reflexivity.
Qed.
Print Assumptions C72_volume_oscillator_refuted.
(** a value that contains a mark of the template is overwritten *)
Theorem C72_marked_value_refuted : exists T c s, misreported c = false /\ report T (rules T c) = Some s /\
  forall o v fill, construct_text T o c v fill
    = Some "Wrong value (ma_type) for input parameter (ma_type). Supported values are ('simple', 'exponential', 'time_series', 'triangular' or 'variable')." /\
    construct_text T o c v fill <> Some s.
Proof.
  exists texts0, (cMA (VInt 5) (VStr "<p_name>")). eexists. split; [reflexivity|]. split; [vm_compute; reflexivity|].
  intros o v fill. split; [vm_compute; reflexivity|intro E; vm_compute in E; discriminate E].
Qed.
Print Assumptions C72_marked_value_refuted.

Example C72_case : forall v fill,
  construct_text texts0 ora0 (cSO (VInt 5) (VInt 2) (VInt 3) (VStr "simple")) v fill
    = Some "Wrong value (2) for input parameter (k_slowing_periods). Supported values are (1 or 3)." /\
  construct_text texts0 ora0 (cPOSC (VInt 10) (VInt 30)) v fill
    = Some "Wrong value (30) for input parameter (short_ma). Supported values are (long_ma > short_ma)." /\
  construct_text texts0 ora0 (cMA (VInt 1) (VStr "time_series")) v fill
    = Some "Wrong value (1) for input parameter (period). Supported values are (>1)." /\
  construct_text texts0 ora0 (cBB (VBool false) VNone) v fill
    = Some "Wrong value (False) for input parameter (period). Supported values are (>0)." /\
  construct_text texts0 ora0 (cPRF (VStr "LONG") (VStr "5")) v fill
    = Some "Wrong type (<class 'str'>) for input parameter (target). Supported type is (int or float)." /\
  construct_text texts0 ora0 (cENV (VInt 20) (VFloat (F 3))) v fill
    = Some "Wrong value (20) for input parameter (shift). Supported values are (>0.0 and <1.0).".
Proof. intros v fill. repeat split. Qed.
Example C72_case_hypotheses : unmarked_values texts0 (rules texts0 (cSO (VInt 5) (VInt 2) (VInt 3) (VStr "simple"))) /\
  misreported (cENV (VInt 20) (VFloat (F 3))) = true /\ misreported (cENV (VInt (-20)) (VFloat (F 3))) = false /\
  construct_text texts0 ora0 (cRSI (VInt 5)) (RFrame (market 8)) VNone
    = Some "Wrong type (<class 'NoneType'>) for input parameter (fill_missing_values). Supported type is (bool)." /\
  construct_text texts0 ora0 (cRSI (VInt 5)) (RFrame (market 8)) (VBool true) = None.
Proof.
  split; [intros r [<-|[<-|[<-|[<-|[]]]]]; split; apply plain_unmarked; reflexivity|]. repeat split; vm_compute; reflexivity.
Qed.

(** ** C73 Refused data are reported by what is wrong with them *)
Theorem C73_rows T o c raw b name shown got :
  snd (construct o c (RFrame raw) (VBool b)) = Err (NotEnough name shown got) ->
  construct_text T o c (RFrame raw) (VBool b)
  = Some ("Not enough input data for calculating the " ++ name ++ " technical indicator. Minimum required data are ("
          ++ show_nat shown ++ "), but (" ++ show_nat got ++ ") found.")
  /\ titles (asked c) name /\ got = List.length (r_rows raw) /\ (asked c <> iATR -> shown = min_rows (asked c)).
Proof. exact (rows_report T o c raw b name shown got). Qed.
Print Assumptions C73_rows.
Theorem C73_column T o c raw b : params_ok c -> r_datetime raw = true -> r_rows raw <> [] -> r_labels raw <> [] ->
  all_str raw -> NoDup (str_labels raw) -> ~ (forall n, In n (documented_inputs c) -> numeric_column raw n) ->
  exists n, In n (documented_inputs c) /\
    ((~ In n (str_labels raw) /\
      construct_text T o c (RFrame raw) (VBool b) = Some (missing_column (class_name (asked c)) n)) \/
     (In n (str_labels raw) /\ ~ numeric_column raw n /\
      construct_text T o c (RFrame raw) (VBool b) = Some (column_not_numeric T n))).
Proof. exact (input_column_report T o c raw b). Qed.
Print Assumptions C73_column.
Theorem C73_not_a_frame T o c b : params_ok c -> unmarked (t_not_frame T) ->
  construct_text T o c RNotFrame (VBool b)
  = Some ("Wrong type (" ++ t_not_frame T ++ ") for input parameter (input_data). Supported type is (pd.DataFrame).").
Proof. exact (input_type_report T o c b). Qed.
Print Assumptions C73_not_a_frame.
Theorem C73_index T o c raw b : params_ok c -> r_datetime raw = false ->
  construct_text T o c (RFrame raw) (VBool b)
  = Some ("Invalid input_data index type. It was expected `pd.DatetimeIndex` but `" ++ t_index T ++ "` was found.").
Proof. exact (input_index_report T o c raw b). Qed.
Print Assumptions C73_index.
Theorem C73_empty T o c raw b : params_ok c -> r_datetime raw = true -> r_rows raw = [] \/ r_labels raw = [] ->
  construct_text T o c (RFrame raw) (VBool b) = Some "The input_data cannot be an empty pandas.DataFrame.".
Proof. exact (input_empty_report T o c raw b). Qed.
Print Assumptions C73_empty.

(** the arguments of getTiSimulation *)
Theorem C73_simulation_parameters T idx cv me fa : usable_close idx cv -> unmarked_values T (sim_rules me fa) ->
  sim_text T idx cv me fa = report T (sim_rules me fa).
Proof. exact (sim_parameters_report T idx cv me fa). Qed.
Print Assumptions C73_simulation_parameters.
Theorem C73_simulation_rules_complete T me fa : report T (sim_rules me fa) = None <-> first_fault (sim_params me fa) = None.
Proof. exact (report_first_fault T (sim_rules me fa)). Qed.
Print Assumptions C73_simulation_rules_complete.
Theorem C73_simulation_dates T idx raw me fa : acceptable (RFrame raw) ["close"] -> ~ Permutation (dates raw) idx ->
  sim_text T idx (RFrame raw) me fa
  = Some "Not valid input data for simulation, input argument: close_values. Index of the `close_values` DataFrame should be the same as the index of the `input_data` argument in the indicator's constructor.".
Proof. exact (sim_dates_report T idx raw me fa). Qed.
Print Assumptions C73_simulation_dates.
Theorem C73_simulation_not_a_frame T idx me fa : unmarked (t_not_frame T) -> ~ occurs "input_data" (t_not_frame T) ->
  sim_text T idx RNotFrame me fa
  = Some ("Not valid input data for simulation, input argument: close_values. Wrong type (" ++ t_not_frame T
          ++ ") for input parameter (close_values). Supported type is (pd.DataFrame).").
Proof. exact (sim_type_report T idx me fa). Qed.
Print Assumptions C73_simulation_not_a_frame.
Theorem C73_simulation_index T idx raw me fa : r_datetime raw = false -> ~ occurs "input_data" (t_index T) ->
  sim_text T idx (RFrame raw) me fa
  = Some ("Not valid input data for simulation, input argument: close_values. Invalid close_values index type. It was expected `pd.DatetimeIndex` but `"
          ++ t_index T ++ "` was found.").
Proof. exact (sim_index_report T idx raw me fa). Qed.
Print Assumptions C73_simulation_index.
Theorem C73_simulation_empty T idx raw me fa : r_datetime raw = true -> r_rows raw = [] \/ r_labels raw = [] ->
  sim_text T idx (RFrame raw) me fa
  = Some "Not valid input data for simulation, input argument: close_values. The close_values cannot be an empty pandas.DataFrame.".
Proof. exact (sim_empty_report T idx raw me fa). Qed.
Print Assumptions C73_simulation_empty.
Theorem C73_simulation_column T idx raw me fa : r_datetime raw = true -> r_rows raw <> [] -> r_labels raw <> [] ->
  all_str raw -> NoDup (str_labels raw) -> ~ occurs "input_data" (t_dtype T "close") ->
  (~ In "close" (str_labels raw) -> sim_text T idx (RFrame raw) me fa
    = Some "Not valid input data for simulation, input argument: close_values. Required column `close` for the technical indicator `TradingSimulation` does not exist in the close_values  pandas.DataFrame.") /\
  (In "close" (str_labels raw) -> ~ numeric_column raw "close" -> sim_text T idx (RFrame raw) me fa
    = Some ("Not valid input data for simulation, input argument: close_values. The close_values pandas.DataFrame must hold columns of numeric type, but column `close` is of type `"
            ++ t_dtype T "close" ++ "`.")).
Proof. exact (sim_column_report T idx raw me fa). Qed.
Print Assumptions C73_simulation_column.
Theorem C73_simulation_only_when_refused T ob cv me fa s : sim_text T (index (ob_input ob)) cv me fa = Some s ->
  exists e, snd (get_ti_simulation ob cv me fa) = Err e.
Proof. exact (sim_text_raises T ob cv me fa s). Qed.
Print Assumptions C73_simulation_only_when_refused.

(** the message of AverageTrueRange asks for 2 rows when 14 are needed *)
Theorem C73_average_true_range_refuted : exists raw s,
  construct_text texts0 ora0 cATR (RFrame raw) (VBool true) = Some s /\
  s = "Not enough input data for calculating the Average True Range technical indicator. Minimum required data are (2), but (13) found." /\
  min_rows iATR = 14%nat.
Proof. exists (market 13). eexists. split; [vm_compute; reflexivity|]. split; reflexivity. Qed.
Print Assumptions C73_average_true_range_refuted.

Example C73_case :
  construct_text texts0 ora0 (cRMI (VInt 5) (VInt 3)) (RFrame (market 7)) (VBool true)
    = Some "Not enough input data for calculating the Relative Momentum Index technical indicator. Minimum required data are (8), but (7) found." /\
  construct_text texts0 ora0 cOBV (RFrame (closes 4)) (VBool true)
    = Some "Required column `volume` for the technical indicator `OnBalanceVolume` does not exist in the input_data  pandas.DataFrame." /\
  construct_text texts0 ora0 (cWR (VInt 2)) (RFrame (mkRaw true [LStr "High"; LStr "Low"; LStr "CLOSE"] [true; true; false] (r_rows (market 3)))) (VBool true)
    = Some "The input_data pandas.DataFrame must hold columns of numeric type, but column `close` is of type `object`." /\
  construct_text texts0 ora0 (cRSI (VInt 2)) RNotFrame (VBool true)
    = Some "Wrong type (<class 'dict'>) for input parameter (input_data). Supported type is (pd.DataFrame)." /\
  sim_text texts0 (dates (market 4)) (RFrame (closes 4)) (VInt (-5)) (VFloat (F 2))
    = Some "Wrong value (-5) for input parameter (max_exposure). Supported values are (>0 or None)." /\
  sim_text texts0 (dates (market 4)) (RFrame (closes 4)) VNone (VStr "2")
    = Some "Wrong type (<class 'str'>) for input parameter (short_exposure_factor). Supported type is (int or float)." /\
  sim_text texts0 (dates (market 5)) (RFrame (closes 4)) VNone (VInt 2)
    = Some "Not valid input data for simulation, input argument: close_values. Index of the `close_values` DataFrame should be the same as the index of the `input_data` argument in the indicator's constructor.".
Proof. vm_compute. repeat split. Qed.
Example C73_case_hypotheses : usable_close (dates (market 4)) (RFrame (closes 4)) /\ unmarked_values texts0 (sim_rules (VInt (-5)) (VFloat (F 2))) /\
  ~ occurs "input_data" (t_dtype texts0 "close") /\ unmarked (t_not_frame texts0) /\ titles (iMA 7 MVariable) "Moving Average (variable)" /\
  ~ numeric_column (closes 4) "volume".
Proof.
  split.
  { exists (closes 4). split; [reflexivity|]. split; [|vm_compute; auto]. exists (closes 4). split; [reflexivity|]. split; [reflexivity|].
    split; [discriminate|]. split; [discriminate|]. split; [intros l [<-|[]]; eauto|].
    split; [intros c [<-|[]]; split; [reflexivity|exists 0%nat; split; reflexivity]|constructor]. }
  split; [intros r [<-|[<-|[]]]; split; apply plain_unmarked; reflexivity|]. split; [apply (char_missing "_"); reflexivity|].
  split; [apply plain_unmarked; reflexivity|]. split; [vm_compute; reflexivity|]. intros [E _]. vm_compute in E. discriminate E.
Qed.
