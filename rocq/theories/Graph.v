(** * Graph: what getTiGraph and the graph of getTiSimulation draw.

    Models _technical_indicator.py:159-281 and utils/plot.py up to the calls of
    matplotlib: which lines are drawn on which subplot, with which label, colour,
    alpha, dates and cells, which areas are filled, and the titles and legends.
    Not modelled: everything about appearance (sizes, grids, margins, tick marks),
    pd.concat of two frames with different dates (never happens, C70) and areas
    whose borders are constants (there are none). *)
From Coq Require Import ZArith QArith Qcanon Bool List String PeanoNat.
From Verif Require Import Num Pandas Frame Sim Ind Signal Api.
Import ListNotations.
Open Scope list_scope.

(** ** the graph entries of properties/indicators_properties.py *)
Inductive border := ATiIndex | ACol (frame_no : nat) (column : string).
Record area := mkArea { a_x : border; a_y1 : border; a_y2 : border; a_color : string }.
Record gprops := mkGprops {
  g_title : string;
  g_inputs : list string;
  g_y_label : string;
  g_colors : list string;
  g_alphas : list num;
  g_areas : option (list area);
  g_subplots : bool }.

Open Scope string_scope.
Definition graph_props (i : ind) : gprops :=
  match i with
  | iADL => mkGprops "Accumulation Distribution Line" ["close"] "ADL | Price"
      ["black"; "limegreen"] [D 1 2; D 1 1]
      None true  (* :30 *)
  | iATR => mkGprops "Average True Range" ["close"] "ATR | Price"
      ["black"; "limegreen"] [D 1 2; D 1 1]
      None true  (* :41 *)
  | iBB _ _ => mkGprops "Bollinger Bands" ["close"] "Price"
      ["black"; "cornflowerblue"; "limegreen"; "tomato"] [D 1 2; D 1 1; D 1 1; D 1 1]
      None false  (* :52 *)
  | iCMF _ => mkGprops "Chaikin Money Flow" ["close"] "CMF | Price"
      ["black"; "limegreen"] [D 1 2; D 1 1]
      None true  (* :63 *)
  | iCO => mkGprops "Chaikin Oscillator" ["close"] "CO | Price"
      ["black"; "limegreen"] [D 1 2; D 1 1]
      None true  (* :74 *)
  | iCMO _ => mkGprops "Chande Momentum Oscillator" ["close"] "CMO | Price"
      ["black"; "limegreen"] [D 1 2; D 1 1]
      None true  (* :85 *)
  | iCCI _ => mkGprops "Commodity Channel Index" ["close"] "CCI | Price"
      ["black"; "limegreen"] [D 1 2; D 1 1]
      None true  (* :96 *)
  | iDPO _ => mkGprops "Detrended Price Oscillator" ["close"] "DPO | Price"
      ["black"; "limegreen"] [D 1 2; D 1 1]
      None true  (* :107 *)
  | iDMI => mkGprops "Directional Movement Index" ["close"] "DMI | Price"
      ["black"; "limegreen"; "red"; "cornflowerblue"; "tomato"; "orange"] [D 1 2; D 1 1; D 1 1; D 1 1; D 1 1]
      None true  (* :118 *)
  | iDEMA _ => mkGprops "Double Exponential Moving Average" ["close"] "Price"
      ["black"; "limegreen"] [D 1 2; D 1 1]
      None false  (* :129 *)
  | iEMV _ => mkGprops "Ease Of Movement" [] "EMV"
      ["limegreen"; "tomato"] [D 1 1; D 1 1]
      None false  (* :140 *)
  | iENV _ _ => mkGprops "Envelopes (Trading Bands)" ["close"] "Price"
      ["black"; "limegreen"; "tomato"] [D 1 2; D 1 1; D 1 1]
      None false  (* :151 *)
  | iFIB => mkGprops "Fibonacci Retracement" ["close"] "Price"
      ["black"; "limegreen"; "peru"; "cornflowerblue"; "tomato"; "orange"; "brown"] [D 1 2; D 1 1; D 1 1; D 1 1; D 1 1; D 1 1; D 1 1]
      None false  (* :162 *)
  | iFOSC _ => mkGprops "Forecast Oscillator" ["close"] "FOSC | Price"
      ["black"; "limegreen"] [D 1 2; D 1 1]
      None true  (* :181 *)
  | iICH => mkGprops "Ichimoku Cloud" ["close"] "Price"
      ["black"; "cornflowerblue"; "tomato"; "limegreen"; "orange"; "purple"] [D 1 2; D 1 1; D 1 1; D 1 1; D 1 1; D 1 1]
      (Some [mkArea ATiIndex (ACol 0 "senkou_a") (ACol 0 "senkou_b") "lightblue"]) false  (* :192 *)
  | iIMI _ => mkGprops "Intraday Momentum Index" ["close"] "IMI | Price"
      ["black"; "limegreen"] [D 1 2; D 1 1]
      None true  (* :210 *)
  | iKO => mkGprops "Klinger Oscillator" ["close"] "KO | Price"
      ["black"; "limegreen"] [D 1 2; D 1 1]
      None true  (* :221 *)
  | iLRI _ => mkGprops "Linear Regression Indicator" ["close"] "Price"
      ["black"; "limegreen"] [D 1 2; D 1 1]
      None false  (* :232 *)
  | iLRS _ => mkGprops "Linear Regression Slope" ["close"] "LRS | Price"
      ["black"; "limegreen"] [D 1 2; D 1 1]
      None true  (* :243 *)
  | iMFI => mkGprops "Market Facilitation Index" ["volume"] "MFI | Volume"
      ["black"; "limegreen"] [D 1 2; D 1 1]
      None true  (* :254 *)
  | iMI => mkGprops "Mass Index" ["close"; "9_ema"] "MI | Price"
      ["black"; "tomato"; "limegreen"] [D 1 2; D 1 2; D 1 1]
      None true  (* :265 *)
  | iMP _ => mkGprops "Median Price" ["close_ema"] "Price"
      ["red"; "limegreen"] [D 1 2; D 1 1]
      None false  (* :276 *)
  | iMOM _ => mkGprops "Momentum" ["close"] "MOM | Price"
      ["black"; "limegreen"] [D 1 2; D 1 1]
      None true  (* :287 *)
  | iMA _ _ => mkGprops "Moving Average" ["close"] "Price"
      ["black"; "limegreen"] [D 1 2; D 1 1]
      None false  (* :298 *)
  | iMACD => mkGprops "Moving Average Convergence Divergence" ["close"] "MACD | Price"
      ["black"; "cornflowerblue"; "tomato"] [D 1 2; D 1 1; D 1 1]
      None true  (* :309 *)
  | iNVI => mkGprops "Negative Volume Index" ["close"] "NVI | Price"
      ["black"; "limegreen"] [D 1 2; D 1 1]
      None true  (* :320 *)
  | iOBV => mkGprops "On Balance Volume" ["close"] "Volume | Price"
      ["black"; "limegreen"] [D 1 2; D 1 1]
      None true  (* :331 *)
  | iPSAR => mkGprops "Parabolic SAR" ["close"] "PSAR"
      ["black"; "limegreen"] [D 1 2; D 1 1]
      None false  (* :342 *)
  | iPRF _ _ => mkGprops "Performance" ["close"] "PERF | Price"
      ["black"; "limegreen"; "tomato"] [D 1 2; D 1 1; D 1 1]
      None true  (* :353 *)
  | iPVI => mkGprops "Positive Volume Index" ["close"] "PVI | Price"
      ["black"; "limegreen"] [D 1 2; D 1 1]
      None true  (* :364 *)
  | iPVT => mkGprops "Price And Volume Trend" ["close"] "PVT | Price"
      ["black"; "limegreen"] [D 1 2; D 1 1]
      None true  (* :375 *)
  | iPCH _ => mkGprops "Price Channel" ["close"] "PCH"
      ["black"; "limegreen"; "tomato"] [D 1 2; D 1 1; D 1 1]
      None false  (* :386 *)
  | iPOSC _ _ => mkGprops "Price Oscillator" ["close"] "POSC | Price"
      ["black"; "limegreen"] [D 1 2; D 1 1]
      None true  (* :397 *)
  | iPRC _ => mkGprops "Price Rate Of Change" ["close"] "PRC | Price"
      ["black"; "limegreen"] [D 1 2; D 1 1]
      None true  (* :408 *)
  | iPB _ => mkGprops "Projection Bands" ["close"] "PBS"
      ["black"; "limegreen"; "tomato"] [D 1 2; D 1 1; D 1 1]
      None false  (* :419 *)
  | iPROJ _ => mkGprops "Projection Oscillator" ["close"] "POSC | Price"
      ["black"; "limegreen"; "tomato"] [D 1 2; D 1 1; D 1 1]
      None true  (* :430 *)
  | iQS _ => mkGprops "Qstick" ["close"] "QST | Price"
      ["black"; "limegreen"] [D 1 2; D 1 1]
      None true  (* :441 *)
  | iRI _ _ => mkGprops "Range Indicator" ["close"] "RI | Price"
      ["black"; "limegreen"] [D 1 2; D 1 1]
      None true  (* :452 *)
  | iRMI _ _ => mkGprops "Relative Momentum Index" ["close"] "RMI | Price"
      ["black"; "limegreen"] [D 1 2; D 1 1]
      None true  (* :463 *)
  | iRSI _ => mkGprops "Relative Strength Index" ["close"] "RSI | Price"
      ["black"; "limegreen"] [D 1 2; D 1 1]
      None true  (* :474 *)
  | iRVI _ => mkGprops "Relative Volatility Index" ["high"; "low"] "RVI | Price"
      ["limegreen"; "tomato"; "limegreen"] [D 1 2; D 1 2; D 1 1]
      None true  (* :485 *)
  | iSD _ => mkGprops "Standard Deviation" ["close"] "SD | Price"
      ["black"; "limegreen"] [D 1 2; D 1 1]
      None true  (* :496 *)
  | iSMI _ _ _ => mkGprops "Stochastic Momentum Index" ["close"] "SMI | Price"
      ["black"; "limegreen"] [D 1 2; D 1 1]
      None true  (* :507 *)
  | iSO _ _ _ _ => mkGprops "Stochastic Oscillator" ["close"] "Percentage | Price"
      ["black"; "cornflowerblue"; "tomato"] [D 1 2; D 1 1; D 1 1]
      None true  (* :518 *)
  | iSWI => mkGprops "Swing Index" ["close"] "SWI | Price"
      ["black"; "limegreen"] [D 1 2; D 1 1]
      None true  (* :529 *)
  | iTSF _ => mkGprops "Time Series Forecast" ["close"] "Price"
      ["black"; "limegreen"] [D 1 2; D 1 1]
      None false  (* :540 *)
  | iTEMA _ => mkGprops "Triple Exponential Moving Average" ["close"] "Price"
      ["black"; "limegreen"] [D 1 2; D 1 1]
      None false  (* :551 *)
  | iTP _ => mkGprops "TypicalPrice" ["close"] "Price"
      ["black"; "limegreen"] [D 1 2; D 1 1]
      None false  (* :562 *)
  | iUO => mkGprops "Ultimate Oscillator" ["close"] "UOSC | Price"
      ["black"; "limegreen"] [D 1 2; D 1 1]
      None true  (* :573 *)
  | iVHF _ => mkGprops "Vertical Horizontal Filter" ["close"] "VHF | Price"
      ["black"; "limegreen"] [D 1 2; D 1 1]
      None true  (* :584 *)
  | iVCH _ _ => mkGprops "Volatility Chaikins" [] "VCH"
      ["limegreen"] [D 1 1]
      None false  (* :595 *)
  | iVOSC _ _ => mkGprops "Volume Oscillator" ["volume"] "VOSC | Volume"
      ["black"; "limegreen"] [D 1 2; D 1 1]
      None true  (* :606 *)
  | iVRC _ => mkGprops "Volume Rate Of Change" ["volume"] "VROC | Volume"
      ["black"; "limegreen"] [D 1 2; D 1 1]
      None true  (* :617 *)
  | iWC => mkGprops "WeightedClose" ["close"] "Price"
      ["black"; "limegreen"] [D 1 2; D 1 1]
      None false  (* :628 *)
  | iWS _ => mkGprops "Wilders Smoothing" ["close"] "Price"
      ["black"; "limegreen"] [D 1 2; D 1 1]
      None false  (* :639 *)
  | iWAD => mkGprops "Williams Accumulation Distribution" ["close"] "WAD | Price"
      ["black"; "limegreen"] [D 1 2; D 1 1]
      None true  (* :650 *)
  | iWR _ => mkGprops "Williams %R" ["close"] "WR | Price"
      ["black"; "limegreen"] [D 1 2; D 1 1]
      None true  (* :661 *)
  end.
Close Scope string_scope.

(** ** frames *)
(** df[[name, ...]] *)
Definition pick (names : list string) (f : frame) : res frame :=
  if forallb (fun n => mem n (cols f)) names
  then Ok (mkFrame names (map (fun kr => (fst (snd kr), map (fun n => nth (fst kr) (col n f) NaN) names))
                              (combine (seq 0 (List.length (rows f))) (rows f))))
  else Err KeyErr.
Fixpoint same_dates (a b : list Z) : bool :=
  match a, b with
  | [], [] => true
  | x :: a', y :: b' => Z.eqb x y && same_dates a' b'
  | _, _ => false
  end.
(** pd.concat([a, b], axis=1) *)
Definition beside (a b : frame) : res frame :=
  if same_dates (index a) (index b)
  then Ok (mkFrame (cols a ++ cols b)
                   (map (fun p => (fst (fst p), snd (fst p) ++ snd (snd p))) (combine (rows a) (rows b))))
  else Err ValueErr.

(** ** lines *)
Record line := mkLine { ln_label : string; ln_color : option string; ln_alpha : num; ln_x : list Z; ln_y : list num }.
Record fill := mkFill { fl_x : list Z; fl_y1 : list num; fl_y2 : list num; fl_color : string }.
Record figure := mkFigure {
  fg_title : string;
  fg_x_label : string;
  fg_y_label : string;
  fg_axes : list (list line);       (* from top to bottom *)
  fg_fills : list fill;             (* on the lowest subplot *)
  fg_legends : list (list string) }.

(** plot.py:74-94.  [j] lines have been drawn before this one *)
Definition draw (colors : list string) (alphas : list num) (f : frame) (j : nat) (name : string) : line :=
  mkLine name
         (match colors with [] => None | _ => nth_error colors (j mod List.length colors) end)
         (match alphas with [] => D 9 10 | _ => nth (j mod List.length alphas) alphas NaN end)
         (index f) (col name f).
Definition draw_frame (colors : list string) (alphas : list num) (f : frame) (j : nat) : list line :=
  map (fun kn => draw colors alphas f (j + fst kn) (snd kn)) (combine (seq 0 (List.length (cols f))) (cols f)).
Fixpoint draw_frames (colors : list string) (alphas : list num) (data : list frame) (j : nat) : list (list line) :=
  match data with
  | [] => []
  | f :: r => draw_frame colors alphas f j :: draw_frames colors alphas r (j + List.length (cols f))
  end.

(** plot.py:138-155: data[no][column].to_list() and data[0].index; fill_between
    raises ValueError when the sizes differ *)
Definition border_cells (data : list frame) (b : border) : res (list num) :=
  match b with
  | ACol k c =>
      do f <- get (nth_error data k);
      if mem c (cols f) then Ok (col c f) else Err KeyErr
  | ATiIndex => Err TypeErr
  end.
Definition border_dates (data : list frame) (b : border) : res (list Z) :=
  match b with
  | ATiIndex => do f <- get (nth_error data 0); Ok (index f)
  | ACol _ _ => Err TypeErr
  end.
Definition fill_of (data : list frame) (a : area) : res fill :=
  do x <- border_dates data (a_x a);
  do y1 <- border_cells data (a_y1 a);
  do y2 <- border_cells data (a_y2 a);
  if Nat.eqb (List.length y1) (List.length x) && Nat.eqb (List.length y2) (List.length x)
  then Ok (mkFill x y1 y2 (a_color a)) else Err ValueErr.
Fixpoint fills_of (data : list frame) (l : list area) : res (list fill) :=
  match l with
  | [] => Ok []
  | a :: r => do x <- fill_of data a; do y <- fills_of data r; Ok (x :: y)
  end.

(** plot.py:104-131: the legend of the first subplot, and of the last when there are two *)
Definition legends (axes : list (list line)) : list (list string) :=
  match axes with
  | [] => []
  | [a] => match a with [] => [] | _ => [map ln_label a] end
  | a :: _ => (match a with [] => [] | _ => [map ln_label a] end)
              ++ (match last axes [] with [] => [] | b => [map ln_label b] end)
  end.

(** linesGraph (plot.py:14-157) on DataFrames with a DatetimeIndex *)
Definition lines_graph (data : list frame) (p : gprops) : res figure :=
  let axes := draw_frames (g_colors p) (g_alphas p) data 0 in
  do fs <- match g_areas p with None => Ok [] | Some l => fills_of data l end;
  Ok (mkFigure (g_title p) "Date" (g_y_label p) axes fs (legends axes)).

(** getTiGraph (_technical_indicator.py:159-182) *)
Definition get_ti_graph (ob : obj) : res figure :=
  let p := graph_props (ob_ind ob) in
  do inp <- pick (g_inputs p) (ob_input ob);
  if g_subplots p then lines_graph [inp; ob_ti ob] p
  else do f <- beside inp (ob_ti ob); lines_graph [f] p.

(** ** _getSimulationGraph (_technical_indicator.py:184-281): x counts the days from 1 *)
Record sim_line := mkSimLine { sl_label : string; sl_color : string; sl_x : list nat; sl_y : list num }.
Definition simulation_graph (st : sim) : list sim_line :=
  let x := seq 1 (List.length (data st)) in
  [ mkSimLine "close_price" "limegreen" x (map x_stock (data st));
    mkSimLine "exposure" "tomato" x (map x_exposure (data st));
    mkSimLine "balance" "cornflowerblue" x (map x_balance (data st)) ].
