(** * PropsGraph: what the graphs show. *)
From Coq Require Import ZArith QArith Qcanon Bool String List PeanoNat Lia.
From Verif Require Import Num Pandas Sim Frame FrameSpec Ind Signal Api ApiSpec ApiProofs Message MessageSpec Graph GraphSpec GraphFacts GraphApi PropsApi.
Import ListNotations.
Open Scope string_scope. Open Scope list_scope.

(** ** C70 The graph of an indicator shows exactly the data of the object *)
(** the lines: the prices the graph is about, then every indicator column, each with
    its dates and the cells the object publishes *)
Theorem C70_lines_drawn o c raw b ob : wf_raw raw -> snd (construct o c (RFrame raw) (VBool b)) = Ok ob ->
  exists fig, get_ti_graph ob = Ok fig /\
    map (fun l => (ln_label l, ln_x l, ln_y l)) (concat (fg_axes fig))
    = map (fun n => (n, index (ob_input ob), col n (ob_input ob))) (prices_shown (ob_ind ob))
      ++ map (fun n => (n, index (ob_ti ob), col n (ob_ti ob))) (cols (get_ti_data ob)).
Proof. exact (lines_drawn o c raw b ob). Qed.
Print Assumptions C70_lines_drawn.
(** an indicator in units of the price shares one plot with it; any other has a plot of its own below the price *)
Theorem C70_plots o c raw b ob fig : wf_raw raw -> snd (construct o c (RFrame raw) (VBool b)) = Ok ob ->
  get_ti_graph ob = Ok fig ->
  map (map ln_label) (fg_axes fig)
  = (if one_plot (ob_ind ob) then [prices_shown (ob_ind ob) ++ cols (get_ti_data ob)]
     else [prices_shown (ob_ind ob); cols (get_ti_data ob)]).
Proof. exact (plots o c raw b ob fig). Qed.
Print Assumptions C70_plots.
(** in no plot two lines have the same name or the same colour, and every line is in a legend *)
Theorem C70_lines_distinguishable o c raw b ob fig plot : wf_raw raw -> snd (construct o c (RFrame raw) (VBool b)) = Ok ob ->
  get_ti_graph ob = Ok fig -> In plot (fg_axes fig) ->
  NoDup (map ln_label plot) /\ NoDup (map ln_color plot) /\
  forall l, In l plot -> ln_color l <> None /\ exists legend, In legend (fg_legends fig) /\ In (ln_label l) legend.
Proof. exact (lines_distinguishable o c raw b ob fig plot). Qed.
Print Assumptions C70_lines_distinguishable.
(** only the Ichimoku cloud is filled: the area between its two lines, on the days of the data *)
Theorem C70_cloud o c raw b ob fig : wf_raw raw -> snd (construct o c (RFrame raw) (VBool b)) = Ok ob ->
  get_ti_graph ob = Ok fig ->
  (ob_ind ob = iICH -> exists color, fg_fills fig =
     [mkFill (index (get_ti_data ob)) (col "senkou_a" (get_ti_data ob)) (col "senkou_b" (get_ti_data ob)) color]) /\
  (ob_ind ob <> iICH -> fg_fills fig = []).
Proof. exact (cloud_filled o c raw b ob fig). Qed.
Print Assumptions C70_cloud.

(** the title is the name of the class, written with spaces (Envelopes adds "Trading Bands") *)
Theorem C70_title o c raw b ob fig : wf_raw raw -> snd (construct o c (RFrame raw) (VBool b)) = Ok ob ->
  get_ti_graph ob = Ok fig ->
  letters (fg_title fig) = (lower (class_name (ob_ind ob)) ++ match ob_ind ob with iENV _ _ => "tradingbands" | _ => "" end)%string.
Proof. exact (title_shown o c raw b ob fig). Qed.
Print Assumptions C70_title.
(** every plot has one legend, with the names of its lines in their order *)
Theorem C70_legends o c raw b ob fig : wf_raw raw -> snd (construct o c (RFrame raw) (VBool b)) = Ok ob ->
  get_ti_graph ob = Ok fig -> fg_legends fig = map (map ln_label) (fg_axes fig).
Proof. exact (legends_shown o c raw b ob fig). Qed.
Print Assumptions C70_legends.
(** the prices are drawn faint, the indicator opaque *)
Theorem C70_emphasis o c raw b ob fig : wf_raw raw -> snd (construct o c (RFrame raw) (VBool b)) = Ok ob ->
  get_ti_graph ob = Ok fig -> ob_ind ob <> iDMI ->
  map ln_alpha (concat (fg_axes fig))
  = repeat (D 1 2) (List.length (prices_shown (ob_ind ob))) ++ repeat (F 1) (List.length (cols (get_ti_data ob))).
Proof. exact (emphasis o c raw b ob fig). Qed.
Print Assumptions C70_emphasis.

Definition figure_of (c : ctor) (n : nat) : option figure :=
  match made ora0 c (market n) true with
  | Some ob => match get_ti_graph ob with Ok f => Some f | Err _ => None end
  | None => None end.
Example C70_case : exists fig, figure_of (cRVI (VInt 2)) 14 = Some fig /\
  map (map ln_label) (fg_axes fig) = [["high"; "low"]; ["rvi"]] /\
  fg_legends fig = [["high"; "low"]; ["rvi"]] /\ fg_title fig = "Relative Volatility Index" /\
  map ln_alpha (concat (fg_axes fig)) = [D 1 2; D 1 2; F 1].
Proof. eexists. split; [vm_compute; reflexivity|]. split; [vm_compute; reflexivity|]. split; [|split]; vm_compute; reflexivity. Qed.
Example C70_case_one : exists fig, figure_of (cPCH (VInt 3)) 8 = Some fig /\
  map (map ln_label) (fg_axes fig) = [["close"; "highest_high"; "lowest_low"]].
Proof. eexists. split; [vm_compute; reflexivity|]. vm_compute; reflexivity. Qed.

(** two lines of different plots can share a colour *)
Theorem C70_colors_across_plots_refuted : exists fig, figure_of (cRVI (VInt 2)) 14 = Some fig /\
  ~ NoDup (map ln_color (concat (fg_axes fig))).
Proof.
  eexists. split; [vm_compute; reflexivity|]. vm_compute. intro H.
  repeat match goal with H : NoDup (_ :: _) |- _ => inversion H; clear H; subst end. cbn in *. intuition.
Qed.
Print Assumptions C70_colors_across_plots_refuted.
(** the indicator's lines are not all as opaque as they are meant to be: the list of the
    directional movement index is one short, its last line is drawn as faint as the price *)
Theorem C70_indicator_lines_opaque_refuted : exists ob fig l,
  made ora0 cDMI (market 30) true = Some ob /\ get_ti_graph ob = Ok fig /\
  In l (concat (fg_axes fig)) /\ ln_label l = "adxr" /\ In (ln_label l) (cols (get_ti_data ob)) /\ ln_alpha l = D 1 2.
Proof.
  eexists. eexists. eexists. split; [vm_compute; reflexivity|]. split; [vm_compute; reflexivity|].
  split; [cbn; do 5 right; left; reflexivity|]. repeat split; vm_compute; auto 10.
Qed.
Print Assumptions C70_indicator_lines_opaque_refuted.

(** ** C71 The graph of the simulation shows the simulation *)
(** three lines over the trading days 1, 2, ...: the close prices given by the caller, the
    exposure and the balance; each ends in the value the statistics report *)
Theorem C71_simulation_graph o c raw b ob cv me fa st stats : wf_raw raw ->
  snd (construct o c (RFrame raw) (VBool b)) = Ok ob -> is_dpo (ob_ind ob) = false ->
  snd (get_ti_simulation ob (RFrame cv) me fa) = Ok (st, stats) ->
  let days := List.length (dates raw) in
  exists price exposure balance f, simulation_graph st = [price; exposure; balance] /\
    (sl_label price = "close_price" /\ sl_label exposure = "exposure" /\ sl_label balance = "balance") /\
    Forall (fun l => sl_x l = seq 1 days /\ List.length (sl_y l) = days) [price; exposure; balance] /\
    snd (validate (RFrame cv) ["close"] true) = Ok f /\ sl_y price = col "close" f /\
    number_of_trading_days stats = days /\
    last_stock_value stats = nround 2 (List.last (sl_y price) NaN) /\
    last_exposure stats = nround 2 (List.last (sl_y exposure) NaN) /\
    final_balance stats = nround 2 (List.last (sl_y balance) NaN).
Proof. exact (sim_graph_lines o c raw b ob cv me fa st stats). Qed.
Print Assumptions C71_simulation_graph.
Definition simulated (c : ctor) (n : nat) : option (sim * stats) :=
  match made ora0 c (market n) true with
  | Some ob => match snd (get_ti_simulation ob (RFrame (closes n)) VNone (VFloat (F 2))) with Ok r => Some r | Err _ => None end
  | None => None end.
Example C71_case : exists st stats, simulated (cWR (VInt 2)) 6 = Some (st, stats) /\
  map sl_x (simulation_graph st) = [[1; 2; 3; 4; 5; 6]; [1; 2; 3; 4; 5; 6]; [1; 2; 3; 4; 5; 6]]%nat /\
  ~ In NaN (concat (map sl_y (simulation_graph st))).
Proof. eexists. eexists. split; [vm_compute; reflexivity|]. split; [vm_compute; reflexivity|]. vm_compute. intuition discriminate. Qed.
(** the detrended price oscillator has no value for the last days: there the lines are missing
    and do not end in the reported values *)
Theorem C71_dpo_refuted : exists st stats, simulated (cDPO (VInt 2)) 6 = Some (st, stats) /\
  number_of_trading_days stats = 4%nat /\
  map (fun l => List.length (sl_x l)) (simulation_graph st) = [6; 6; 6]%nat /\
  map (fun l => List.last (sl_y l) (F 0)) (simulation_graph st) = [NaN; NaN; NaN] /\ final_balance stats <> NaN.
Proof.
  eexists. eexists. split; [vm_compute; reflexivity|]. repeat split; try (vm_compute; reflexivity). vm_compute. discriminate.
Qed.
Print Assumptions C71_dpo_refuted.
