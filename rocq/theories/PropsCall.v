(** * PropsCall: calls of the constructors, and the two simulation programs
    (signals_simulation/run_all_simulation.py, run_single_simulation.py). *)
From Coq Require Import ZArith QArith Qcanon Bool String Ascii List PeanoNat Lia Permutation.
From Verif Require Import Num Pandas Sim Frame FrameSpec Ind Signal Api ApiSpec DocSpec DocFacts Call CallSpec CallFacts Script ScriptSpec ScriptFacts ScriptFacts2 ScriptFacts3 Message.
Import ListNotations.
Open Scope list_scope. Open Scope string_scope.

(** ** concrete data used below *)
Definition ora1 : oracle := mkOracle (fun q => q) (fun n => repeat 1%Qc n).
Definition data_of (close : Z -> Z) (n : nat) : rawframe :=
  mkRaw true [LStr "open"; LStr "high"; LStr "low"; LStr "close"; LStr "volume"] [true; true; true; true; true]
    (map (fun k => let k := Z.of_nat k in let c := close k in
                   (k, [F (c - 1); F (c + 2); F (c - 3); F c; F (1000 + 10 * Z.modulo (k * 5) 7)])) (seq 1 n)).
Definition rising := data_of (fun k => 100 + k)%Z.
Definition uneven := data_of (fun k => 100 + Z.modulo (k * 7) 11)%Z.
Lemma data_market close n : market_data (data_of close n).
Proof.
  split.
  - split; [reflexivity|]. intros r H. cbn in H. apply in_map_iff in H as (k & <- & _). reflexivity.
  - reflexivity.
  - intros l H. cbn in H. intuition (subst; eexists; reflexivity).
  - cbn. repeat constructor; cbn; intuition discriminate.
  - cbn. tauto.
  - intros m H. cbn in H. destruct H as [<-|[<-|[<-|[<-|[<-|[]]]]]]; (split; [reflexivity|]); eexists; split; reflexivity.
Qed.
Definition run_of (r : res (rawval * res obj)) : bool := match r with Ok (_, Ok _) => true | _ => false end.

(** ** C91 calls of the constructors *)
(** a call that python accepts constructs with the arguments given, and with the documented
    defaults for the others *)
Theorem C91_call o k pos kw : proper k pos kw ->
  exists c, new o k pos kw
    = Ok (construct o c (as_data (setting k (given k pos kw) "input_data"))
                        (as_val (setting k (given k pos kw) "fill_missing_values"))) /\
    parts c = (k, map (fun n => as_val (setting k (given k pos kw) n)) (map fst (documented k))).
Proof. exact (call_settings o k pos kw). Qed.
Print Assumptions C91_call.
(** any other call is a TypeError *)
Theorem C91_type_error o k pos kw : ~ proper k pos kw -> new o k pos kw = Err TypeErr.
Proof. exact (call_improper o k pos kw). Qed.
Print Assumptions C91_type_error.
(** the order of named arguments does not matter *)
Theorem C91_any_order o k pos kw kw' : Permutation kw kw' -> new o k pos kw = new o k pos kw'.
Proof. exact (call_any_order o k pos kw kw'). Qed.
Print Assumptions C91_any_order.
(** the n-th position is the n-th documented name *)
Theorem C91_by_position o k pos a kw : (List.length pos < List.length (documented_names k))%nat ->
  new o k (pos ++ [a]) kw = new o k pos ((nth (List.length pos) (documented_names k) "", a) :: kw).
Proof. exact (call_by_name o k pos a kw). Qed.
Print Assumptions C91_by_position.
(** naming the documented default is leaving it out *)
Theorem C91_left_out o k pos kw n v : proper k pos kw -> ~ In n (map fst (given k pos kw)) -> documented_default k n = Some v ->
  new o k pos kw = new o k pos ((n, AVal v) :: kw).
Proof. exact (call_left_out o k pos kw n v). Qed.
Print Assumptions C91_left_out.
(** with data alone every class constructs, given the documented columns and enough rows *)
Theorem C91_defaults_work o k df : market_data df ->
  ((exists v ob, new o k [] [("input_data", AData (RFrame df))] = Ok (v, Ok ob)) <-> (rows_by_default k <= List.length (r_rows df))%nat).
Proof. exact (defaults_work o k df). Qed.
Print Assumptions C91_defaults_work.

Example C91_case :
  proper kMA [AData (RFrame (rising 30)); AVal (VInt 3)] [("ma_type", AVal (VStr "triangular"))] /\
  new ora1 kMA [AData (RFrame (rising 30)); AVal (VInt 3)] [("ma_type", AVal (VStr "triangular"))]
  = Ok (construct ora1 (cMA (VInt 3) (VStr "triangular")) (RFrame (rising 30)) (VBool true)) /\
  new ora1 kMA [AData (RFrame (rising 30)); AVal (VInt 3)] [("period", AVal (VInt 4))] = Err TypeErr /\
  new ora1 kMA [AData (RFrame (rising 30))] [("periods", AVal (VInt 4))] = Err TypeErr /\
  new ora1 kMA [] [("period", AVal (VInt 4))] = Err TypeErr /\
  run_of (new ora1 kMA [AData (RFrame (rising 30))] []) = true /\ run_of (new ora1 kMA [AData (RFrame (rising 19))] []) = false.
Proof.
  split; [|split; [reflexivity|]; repeat (split; [vm_compute; reflexivity|]); vm_compute; reflexivity].
  split; [cbn; lia|]. split; [cbn; repeat constructor; cbn; intuition discriminate|].
  split; [intros n [<-|[]]; cbn; auto|cbn; auto].
Qed.

(** ** C92 one simulation from the command line *)
(** name=value arguments reach the constructor as the values written: whole numbers, numbers
    with one decimal, words *)
Theorem C92_done o k texts kw df rp : gives texts kw -> NoDup (map fst kw) ->
  (forall n, In n (map fst kw) -> In n (map fst (documented k) ++ ["fill_missing_values"])%list) -> market_data df ->
  run_single o ((package ++ name_of k) :: texts) df = ODone rp <->
  exists v ob st,
    new o k [] (("input_data", AData (RFrame df)) :: map (fun p => (fst p, AVal (snd p))) kw) = Ok (v, Ok ob) /\
    snd (get_ti_simulation ob (closing_prices df) VNone (VFloat (D 15 10))) = Ok (st, rp_stats rp) /\
    rp_title rp = "Trading Simulation for technical indicator:  " ++ name_of k /\ rp_figure rp = "foo.png".
Proof. exact (run_single_done o k texts kw df rp). Qed.
Print Assumptions C92_done.
Theorem C92_raised o k texts kw df e : gives texts kw -> NoDup (map fst kw) ->
  (forall n, In n (map fst kw) -> In n (map fst (documented k) ++ ["fill_missing_values"])%list) -> market_data df ->
  run_single o ((package ++ name_of k) :: texts) df = ORaised e <->
  exists v r,
    new o k [] (("input_data", AData (RFrame df)) :: map (fun p => (fst p, AVal (snd p))) kw) = Ok (v, r) /\
    match r with Err e' => e' = e | Ok ob => snd (get_ti_simulation ob (closing_prices df) VNone (VFloat (D 15 10))) = Err e end.
Proof. exact (run_single_raised o k texts kw df e). Qed.
Print Assumptions C92_raised.
(** when a name is typed twice the last value counts *)
Theorem C92_last_counts o s a n t v t' v' b c df : no_equals n -> written t v -> written t' v' -> (forall x y, In x b -> x <> n ++ "=" ++ y) ->
  run_single o (s :: a ++ (n ++ "=" ++ t) :: b ++ (n ++ "=" ++ t') :: c) df = run_single o (s :: a ++ (n ++ "=" ++ t') :: b ++ c) df.
Proof. exact (last_counts o s a n t v t' v' b c df). Qed.
Print Assumptions C92_last_counts.
(** only the classes of the package can be named, by their exact names *)
Theorem C92_invalid o s args df : run_single o (s :: args) df = OInvalid <->
  forall k, s <> "tti.indicators." ++ name_of k /\ s <> "tti.indicators." ++ name_of k ++ String (ascii_of_nat 10) "".
Proof. exact (run_single_invalid o s args df). Qed.
Print Assumptions C92_invalid.

Definition single_ok (r : outcome) : bool := match r with ODone _ => true | _ => false end.
Example C92_case :
  gives ["period=3"; "ma_type=triangular"] [("period", VInt 3); ("ma_type", VStr "triangular")] /\
  gives ["shift=0.5"] [("shift", VFloat (D 5 10))] /\
  single_ok (run_single ora1 ["tti.indicators.MovingAverage"; "period=3"; "ma_type=triangular"] (rising 12)) = true /\
  single_ok (run_single ora1 ["tti.indicators.Envelopes"; "shift=0.5"; "period=7"] (rising 12)) = true /\
  run_single ora1 ["tti.indicators.MovingAverage"; "period=30"] (rising 12) = ORaised (NotEnough "Moving Average" 30 12) /\
  run_single ora1 ["tti.indicators.MovingAverage"; "ma_type=any"] (rising 32) = ORaised (WrongValue "ma_type") /\
  run_single ora1 ["MovingAverage"; "period=3"] (rising 12) = OInvalid.
Proof.
  assert (N1 : no_equals "period") by (apply no_equals_chars; reflexivity).
  assert (N2 : no_equals "ma_type") by (apply no_equals_chars; reflexivity).
  assert (N3 : no_equals "shift") by (apply no_equals_chars; reflexivity).
  split; [|split; [|repeat (split; [vm_compute; reflexivity|]); vm_compute; reflexivity]].
  - constructor; [exists "3"; split; [reflexivity|split; [exact N1|exact (W_integer 3 ltac:(lia))]]|].
    constructor; [|constructor]. exists "triangular". split; [reflexivity|split; [exact N2|]]. cbn [snd].
    apply W_word; [reflexivity|apply no_equals_chars; reflexivity].
  - constructor; [|constructor]. exists "0.5". split; [reflexivity|split; [exact N3|]]. cbn [snd]. exact (W_tenths 0 5 ltac:(lia) ltac:(lia)).
Qed.

Example C92_last_case :
  no_equals "period" /\ written "30" (VInt 30) /\ written "4" (VInt 4) /\ (forall y, "ma_type=simple" <> "period" ++ "=" ++ y) /\
  run_single ora1 ["tti.indicators.MovingAverage"; "period=30"; "ma_type=simple"] (rising 12) = ORaised (NotEnough "Moving Average" 30 12) /\
  single_ok (run_single ora1 ["tti.indicators.MovingAverage"; "period=30"; "ma_type=simple"; "period=4"] (rising 12)) = true.
Proof.
  split; [apply no_equals_chars; reflexivity|]. split; [exact (W_integer 30 ltac:(lia))|]. split; [exact (W_integer 4 ltac:(lia))|].
  split; [intro y; discriminate|]. split; vm_compute; reflexivity.
Qed.

(** a number with two decimals or more is passed on as a text, so that the documented defaults
    of Envelopes (shift 0.10) and Performance (target 0.05) are refused when typed *)
Theorem C92_decimals_are_text o df : market_data df ->
  run_single o ["tti.indicators.Envelopes"; "shift=0.10"] df = ORaised (WrongType "shift") /\
  run_single o ["tti.indicators.Performance"; "target=0.05"] df = ORaised (WrongType "target") /\
  documented_default kENV "shift" = Some (VFloat (D 10 100)) /\ documented_default kPRF "target" = Some (VFloat (D 5 100)) /\
  (forall a c d e, all_chars is_digit a = true -> is_digit c = true -> is_digit d = true ->
     typed_value (a ++ "." ++ String c (String d e)) = Ok (VStr (a ++ "." ++ String c (String d e)))).
Proof. exact (decimals_refused o df). Qed.
Print Assumptions C92_decimals_are_text.
Theorem C92_refuted : exists df, market_data df /\
  single_ok (run_single ora1 ["tti.indicators.Performance"] df) = true /\
  run_single ora1 ["tti.indicators.Performance"; "target=0.05"] df = ORaised (WrongType "target").
Proof. exists (rising 12). split; [apply data_market|]. split; vm_compute; reflexivity. Qed.
Print Assumptions C92_refuted.
(** neither can a negative number be typed: Performance for a short position has only target 0 *)
Theorem C92_no_negative_number o df s : market_data df -> no_equals s ->
  run_single o ["tti.indicators.Performance"; "mode=SHORT"; "target=-" ++ s] df = ORaised (WrongType "target").
Proof. exact (negative_refused o df s). Qed.
Print Assumptions C92_no_negative_number.
(** nor True or False: with fill_missing_values on the command line no simulation runs *)
Theorem C92_no_flag o s args t df rp : In ("fill_missing_values=" ++ t) args -> run_single o (s :: args) df <> ODone rp.
Proof. exact (flag_not_typeable o s args t df rp). Qed.
Print Assumptions C92_no_flag.
Example C92_flag_case :
  run_single ora1 ["tti.indicators.MovingAverage"; "period=3"; "fill_missing_values=False"] (rising 12) = ORaised (WrongType "fill_missing_values") /\
  run_single ora1 ["tti.indicators.Performance"; "mode=SHORT"; "target=-0.5"] (rising 12) = ORaised (WrongType "target").
Proof. split; vm_compute; reflexivity. Qed.

(** ** C93 all simulations *)
(** on daily data with the rows the longest default period needs the program reports on every
    call, or ends with an IndexError at RangeIndicator after reporting on the calls before it *)
Theorem C93_all_simulations o df : market_data df -> (55 <= List.length (r_rows df))%nat ->
  (snd (run_all o df) = None /\ Forall2 (reports o df) all_calls (fst (run_all o df))) \/
  (snd (run_all o df) = Some IndexErr /\ Forall2 (reports o df) before_ri (fst (run_all o df))).
Proof. exact (run_all_market o df). Qed.
Print Assumptions C93_all_simulations.
Theorem C93_finishes o df : market_data df -> (55 <= List.length (r_rows df))%nat ->
  snd (run_all o df) = None <-> exists rp, reports o df (kRI, (None, [])) rp.
Proof. exact (run_all_finishes o df). Qed.
Print Assumptions C93_finishes.
Theorem C93_needs_rows o df : market_data df -> snd (run_all o df) = None -> (55 <= List.length (r_rows df))%nat.
Proof. exact (run_all_rows o df). Qed.
Print Assumptions C93_needs_rows.
(** the calls are those of every class with its defaults, of the moving average once for each
    documented type and of the stochastic oscillator fast and slow; each has a figure of its own *)
Theorem C93_every_class k info kw : In (k, (info, kw)) all_calls <->
  (k <> kMA /\ k <> kSO /\ info = None /\ kw = []) \/
  (k = kMA /\ exists t, In t ["simple"; "exponential"; "time_series"; "triangular"; "variable"] /\
                        info = Some t /\ kw = [("ma_type", VStr t)]) \/
  (k = kSO /\ ((info = Some "fast" /\ kw = [("k_slowing_periods", VInt 1)]) \/
               (info = Some "slow" /\ kw = [("k_slowing_periods", VInt 3)]))).
Proof. exact (all_calls_in k info kw). Qed.
Print Assumptions C93_every_class.
Theorem C93_figures : NoDup (map (fun c => figure (fst c) (fst (snd c))) all_calls).
Proof. exact figures_nodup. Qed.
Print Assumptions C93_figures.
(** on some data the program never gets past RangeIndicator *)
Theorem C93_refuted : exists df, market_data df /\ (55 <= List.length (r_rows df))%nat /\ snd (run_all ora1 df) = Some IndexErr.
Proof.
  exists (uneven 60). split; [apply data_market|]. split; [cbn; lia|].
  destruct (run_all_market ora1 (uneven 60) (data_market _ _) ltac:(cbn; lia)) as [[E _]|[E _]]; [exfalso|exact E].
  apply run_all_finishes in E; [|apply data_market|cbn; lia]. destruct E as (rp & (v & ob & st & E1 & E2 & _)).
  assert (X : snd (execute ora1 kRI (uneven 60) None []) = Err IndexErr) by (vm_compute; reflexivity).
  rewrite (execute_outcome ora1 kRI (uneven 60) None [] (data_market _ _)), E1, E2 in X. discriminate.
Qed.
Print Assumptions C93_refuted.
Example C93_case : snd (run_all ora1 (rising 60)) = None /\ List.length all_calls = 62%nat.
Proof.
  split; [|reflexivity]. apply run_all_finishes; [apply data_market|cbn; lia|].
  assert (X : exists rp, snd (execute ora1 kRI (rising 60) None []) = Ok rp).
  { destruct (snd (execute ora1 kRI (rising 60) None [])) as [rp|e] eqn:E; [eauto|]. exfalso.
    assert (Y : match snd (execute ora1 kRI (rising 60) None []) with Ok _ => true | Err _ => false end = true) by (vm_compute; reflexivity).
    rewrite E in Y. discriminate. }
  destruct X as (rp & X). exists rp. eapply execute_reports; [apply data_market|exact X].
Qed.
