(** * Ind: the 57 indicators of tti/indicators, calculation part.

    One series function per computed column; file and lines of the python
    method [_calculateTi] are given for each.  [calc] puts them together.
    Not modelled: repeated timestamps inside the calculations (pandas then aligns
    by label), column dtypes. *)
From Coq Require Import ZArith QArith Qcanon Bool List String PeanoNat.
From Verif Require Import Num Pandas Frame.
Import ListNotations.
Open Scope list_scope.
Notation length := List.length.

(** what numpy / scipy provide and the model leaves open: the square root and the
    weights of scipy's exponential window of a given size *)
Record oracle := mkOracle { o_sqrt : Qc -> Qc; o_win : nat -> list Qc }.

Inductive ma_type := MSimple | MExponential | MTimeSeries | MTriangular | MVariable.
Inductive perf_mode := PLong | PShort.
Inductive d_method := DSimple | DExponential.

Inductive ind :=
| iADL | iATR | iBB (p : nat) (k : num) | iCMF (p : nat) | iCO | iCMO (p : nat) | iCCI (p : nat)
| iDPO (p : nat) | iDMI | iDEMA (p : nat) | iEMV (p : nat) | iENV (p : nat) (shift : num) | iFIB
| iFOSC (p : nat) | iICH | iIMI (p : nat) | iKO | iLRI (p : nat) | iLRS (p : nat) | iMFI | iMI
| iMP (p : nat) | iMOM (p : nat) | iMA (p : nat) (t : ma_type) | iMACD | iNVI | iOBV | iPSAR
| iPRF (m : perf_mode) (target : num) | iPVI | iPVT | iPCH (p : nat) | iPOSC (long short : nat)
| iPRC (p : nat) | iPB (p : nat) | iPROJ (p : nat) | iQS (p : nat) | iRI (r s : nat)
| iRMI (p m : nat) | iRSI (p : nat) | iRVI (p : nat) | iSD (p : nat) | iSMI (p s d : nat)
| iSO (k slow d : nat) (m : d_method) | iSWI | iTSF (p : nat) | iTEMA (p : nat) | iTP (p : nat)
| iUO | iVHF (p : nat) | iVCH (e c : nat) | iVOSC (long short : nat) | iVRC (p : nat) | iWC
| iWS (p : nat) | iWAD | iWR (p : nat).

(** ** shorthands *)
Definition scale (k : num) (s : series) : series := smap (nmul k) s.
Definition sdivc (s : series) (k : num) : series := smap (fun x => ndiv x k) s.
Definition saddc (s : series) (k : num) : series := smap (fun x => nadd x k) s.
Definition sabs (s : series) : series := smap nabs s.
Definition nn (n : nat) : num := Fin (qnat n).
(** s[s < 0] = 0 and s[s > 0] = 0 *)
Definition drop_neg (s : series) : series := smap (fun x => if nltb x (F 0) then F 0 else x) s.
Definition drop_pos (s : series) : series := smap (fun x => if nltb (F 0) x then F 0 else x) s.
Definition slice {A} (a b : nat) (s : list A) : list A := firstn (b - a) (skipn a s).
(** rows before k set to missing *)
Definition from_row (k : nat) (s : series) : series := firstn (length s) (repeat NaN k ++ skipn k s).
(** DataFrame([a, b]).max(axis=1) and friends, on rows *)
Definition row2 (agg : series -> num) (a b : series) : series := szip (fun x y => agg [x; y]) a b.
Definition row3 (agg : series -> num) (a b c : series) : series := szip3 (fun x y z => agg [x; y; z]) a b c.
(** Wilder smoothing step  prev + (x - prev) / p *)
Definition wilder (p : nat) (prev x : num) : num := nadd prev (ndiv (nsub x prev) (nn p)).

(** ** a *)
(** money flow volume: _accumulation_distribution_line.py:63-70,
    _chaikin_money_flow.py:90-97 *)
Definition money_flow (close volume high low : series) : series :=
  sdiv (smul volume (ssub (ssub close low) (ssub high close))) (ssub high low).
(** _accumulation_distribution_line.py:52-74 *)
Definition adl (close volume high low : series) : series :=
  astype_int (cumsum (money_flow close volume high low)).

(** true range with missing candidates skipped: _average_true_range.py:72-81 *)
Definition true_range_skip (high low close : series) : series :=
  row3 max_skip (ssub high low) (ssub high (shift 1 close)) (ssub (shift 1 close) low).
(** _average_true_range.py:83-90 *)
Definition atr (high low close : series) : series :=
  let tr := true_range_skip high low close in
  sround 4 (repeat NaN 13 ++
            ewm_alpha (Q2Qc (1 # 14)) 1 (mean_skip (firstn 14 tr) :: skipn 14 tr)).

(** ** b *)
(** _bollinger_bands.py:98-115 *)
Definition bb_middle (p : nat) (close : series) : series := sround 4 (roll_mean p close).
Definition bb_upper (o : oracle) (p : nat) (k : num) (close : series) : series :=
  sround 4 (sadd (bb_middle p close) (smap (fun x => nmul x k) (roll_std (o_sqrt o) p close))).
Definition bb_lower (o : oracle) (p : nat) (k : num) (close : series) : series :=
  sround 4 (ssub (bb_middle p close) (smap (fun x => nmul x k) (roll_std (o_sqrt o) p close))).

(** ** c *)
(** _chaikin_money_flow.py:88-109 *)
Definition cmf (p : nat) (close volume high low : series) : series :=
  sround 4 (sdiv (roll_sum p (money_flow close volume high low)) (roll_sum p volume)).
(** _chaikin_oscillator.py:71-80, from the AccumulationDistributionLine *)
Definition co (adl_data : series) : series :=
  sround 4 (ssub (ewm 3 3 adl_data) (ewm 10 10 adl_data)).
(** _chande_momentum_oscillator.py:87-111 *)
Definition cmo (p : nat) (close : series) : series :=
  let up := roll_sum p (drop_neg (sdiff close)) in
  let dn := sabs (roll_sum p (drop_pos (sdiff close))) in
  sround 4 (sdiv (scale (F 100) (ssub up dn)) (sadd up dn)).
(** _commodity_channel_index.py:90-108; _technical_indicator.py:_rolling_pipe *)
Definition cci_tp (high low close : series) : series := sdivc (row3 sum_skip high low close) (F 3).
Definition cci_diff (p : nat) (tp sma : series) : series :=
  map (fun i => if p <=? S i
                then nsum (map (fun t => nabs (nsub (nth i sma NaN) t)) (window p i tp))
                else NaN)
      (seq 0 (length tp)).
Definition cci (p : nat) (high low close : series) : series :=
  let tp := cci_tp high low close in
  let sma := roll_mean p tp in
  sround 4 (sdiv (ssub tp sma) (sdivc (scale (D 15 1000) (cci_diff p tp sma)) (nn p))).

(** ** d *)
(** _detrended_price_oscillator.py:87-96 (the cut to fewer rows is in [ti_index]) *)
Definition dpo (p : nat) (close : series) : series :=
  sround 4 (ssub close (shift_back (S (p / 2)) (roll_mean p close))).
(** _directional_movement_index.py:94-101: numpy max, first row missing *)
Definition true_range_nan (high low close : series) : series :=
  row3 max_nan (ssub high low) (ssub high (shift 1 close)) (ssub (shift 1 close) low).
(** :103-133 *)
Definition dm_first (s : series) : series := from_row 1 s.
Definition plus_dm (high low : series) : series :=
  let up := sdiff high in
  let dn := ssub (shift 1 low) low in
  dm_first (szip (fun u d => if nltb d u && nltb (F 0) u then u else F 0) up dn).
Definition minus_dm (high low : series) : series :=
  let up := sdiff high in
  let dn := ssub (shift 1 low) low in
  dm_first (szip (fun u d => if nltb u d && nltb (F 0) d then d else F 0) up dn).
(** :135-158 *)
Definition dmi_smooth (s : series) : series :=
  seeded 13 (sum_skip (firstn 14 s)) (fun prev x => nadd (nsub prev (ndiv prev (F 14))) x) s.
(** :160-163 *)
Definition dmi_di (dm tr : series) : series :=
  from_row 14 (sdiv (scale (F 100) (dmi_smooth dm)) (dmi_smooth tr)).
(** :165-169 *)
Definition dmi_dx (pdi mdi : series) : series :=
  sdiv (scale (F 100) (sabs (ssub pdi mdi))) (sabs (sadd pdi mdi)).
(** :171-177 *)
Definition dmi_adx (dx : series) : series :=
  seeded 27 (ndiv (sum_skip (firstn 28 dx)) (F 14))
         (fun prev x => ndiv (nadd (nmul (F 13) prev) x) (F 14)) dx.
Definition dmi_adxr (adx : series) : series :=
  from_row 40 (sdivc (sadd adx (shift 13 adx)) (F 2)).
(** _double_exponential_moving_average.py:87-97 *)
Definition dema (p : nat) (close : series) : series :=
  let e := ewm p p close in sround 4 (ssub (scale (F 2) e) (ewm p p e)).

(** ** e *)
(** _ease_of_movement.py:94-107 *)
Definition emv_raw (high low volume : series) : series :=
  sdiv (scale (D 1 2) (ssub (sadd high low) (sadd (shift 1 high) (shift 1 low))))
       (sdiv volume (smap (fun x => nmul x (F 10000)) (ssub high low))).
Definition emv (high low volume : series) : series := sround 4 (emv_raw high low volume).
Definition emv_ma (p : nat) (high low volume : series) : series :=
  sround 4 (roll_mean p (emv_raw high low volume)).
(** _envelopes.py:104-109 *)
Definition env_upper (p : nat) (sh : num) (close : series) : series :=
  sround 4 (scale (nadd (F 1) sh) (roll_mean p close)).
Definition env_lower (p : nat) (sh : num) (close : series) : series :=
  sround 4 (scale (nsub (F 1) sh) (roll_mean p close)).

(** ** f *)
(** _fibonacci_retracement.py:65-81: level c in every row *)
Definition fib_level (c : num) (close : series) : series :=
  let mx := max_skip close in
  sround 4 (repeat (nsub mx (nmul c (nsub mx (min_skip close)))) (length close)).

(** ** i *)
(** _ichimoku_cloud.py:71-89 *)
Definition ich_mid (w : nat) (high low : series) : series :=
  sdivc (sadd (roll_max w 1 high) (roll_min w 1 low)) (F 2).
Definition ich_tenkan (high low : series) : series := sround 4 (ich_mid 9 high low).
Definition ich_kijun (high low : series) : series := sround 4 (ich_mid 26 high low).
Definition ich_senkou_a (high low : series) : series :=
  sround 4 (shift 26 (sdivc (sadd (ich_mid 9 high low) (ich_mid 26 high low)) (F 2))).
Definition ich_senkou_b (high low : series) : series :=
  sround 4 (shift 26 (ich_mid 52 high low)).
(** _intraday_momentum_index.py:92-106 *)
Definition imi (p : nat) (opn close : series) : series :=
  let up := roll_sum p (drop_neg (ssub close opn)) in
  let dn := roll_sum p (drop_neg (ssub opn close)) in
  sround 4 (sdiv (scale (F 100) up) (sadd up dn)).

(** ** k *)
(** _klinger_oscillator.py:72-77 *)
Definition ko_trend (high low close : series) : series :=
  let s := row3 sum_skip high low close in
  smap (fun x => let y := if nltb (F 0) x then F 1 else x in
                 if nleb y (F 0) then F (-1) else y)
       (ssub s (shift 1 s)).
(** :82-88 *)
Definition ko_cm (t dm : series) : series :=
  seeded 0 (F 0)
    (fun prev (q : (num * num) * (num * num)) =>
       let '((t1, t0), (d1, d0)) := q in
       if neqb t1 t0 then nadd prev d1 else nadd d0 d1)
    (combine (combine t (shift 1 t)) (combine dm (shift 1 dm))).
(** :90 *)
Definition ko_force (high low close volume : series) : series :=
  let t := ko_trend high low close in
  let dm := ssub high low in
  let r := smap (fun x => nabs (nsub (nmul (F 2) x) (F 1))) (sdiv dm (ko_cm t dm)) in
  smap (fun x => nmul x (F 100)) (smul (smul volume r) t).
(** :92-97 *)
Definition ko (high low close volume : series) : series :=
  let v := ko_force high low close volume in
  sround 4 (ssub (ewm 34 34 v) (ewm 55 55 v)).

(** ** l *)
(** _linear_regression_indicator.py:94-104 *)
Definition lri (p : nat) (close : series) : series :=
  szip (fun i ab => nround 4 (nadd (fst ab) (nmul (nn i) (snd ab))))
       (seq 0 (length close)) (rolling_ols p close).
(** _linear_regression_slope.py:89-114 *)
Definition days (n : nat) : series := map nn (seq 1 n).
Definition lrs (p : nat) (close : series) : series :=
  let d := days (length close) in
  let xy := roll_sum p (smul close d) in
  let x := roll_sum p d in
  let xx := roll_sum p (smul d d) in
  let y := roll_sum p close in
  sround 4 (sdiv (ssub (scale (nn p) xy) (smul x y)) (ssub (scale (nn p) xx) (smul x x))).

(** ** m *)
(** _market_facilitation_index.py:65-72 *)
Definition mfi (high low volume : series) : series := sround 10 (sdiv (ssub high low) volume).
(** _mass_index.py:79-90 *)
Definition mi (high low : series) : series :=
  let e := ewm 9 9 (ssub high low) in
  sround 4 (roll_sum 25 (sdiv e (ewm 9 9 e))).
(** _median_price.py:84-91 *)
Definition mp (high low : series) : series := sround 4 (scale (D 1 2) (sadd high low)).
(** _momentum.py:85-95; the rows before [period] are missing, and so is the
    shifted price there *)
Definition mom (p : nat) (close : series) : series :=
  sround 4 (sdiv (scale (F 100) close) (shift p close)).
(** slope + regression value, the sum skipping missing cells, from row p-1 on:
    _time_series_forecast.py:93-107, _moving_average.py:131-147 *)
Definition tsf_raw (p : nat) (close : series) : series :=
  from_row (p - 1) (row2 sum_skip (lrs p close) (lri p close)).
(** _moving_average.py:158-174 *)
Definition ma_variable (p : nat) (close cmo_data : series) : series :=
  let vr := sabs (sdivc cmo_data (F 100)) in
  let sm := ndiv (F 2) (nn (S p)) in
  seeded 21 (nth 21 close NaN)
    (fun prev (cv : num * num) =>
       nadd (nmul (nmul sm (fst cv)) (snd cv))
            (nmul (nsub (F 1) (nmul sm (snd cv))) prev))
    (combine close vr).
(** _moving_average.py:114-176; [filled] is the input of the nested indicators *)
Definition ma (p : nat) (t : ma_type) (close filled : series) : series :=
  sround 4 (match t with
            | MSimple => roll_mean p close
            | MExponential => ewm p p close
            | MTimeSeries => tsf_raw p filled
            | MTriangular => roll_mean p (roll_mean p close)
            | MVariable => ma_variable p close (cmo 9 filled)
            end).
(** _moving_average_convergence_divergence.py:74-84 *)
Definition macd_raw (close : series) : series :=
  ssub (sround 4 (ewm 12 12 close)) (sround 4 (ewm 26 26 close)).
Definition macd (close : series) : series := sround 4 (macd_raw close).
Definition macd_signal (close : series) : series := sround 4 (ewm 9 9 (macd_raw close)).

(** ** n, o *)
(** _negative_volume_index.py:70-84, _positive_volume_index.py:70-84 *)
Definition vi (moves : num -> num -> bool) (close volume : series) : series :=
  sround 4 (seeded 0 (F 1000)
    (fun prev (q : (num * num) * (num * num)) =>
       let '((c1, c0), (v1, v0)) := q in
       if moves v1 v0 then nadd prev (nmul (nsub c1 c0) (ndiv prev c0)) else prev)
    (combine (combine close (shift 1 close)) (combine volume (shift 1 volume)))).
Definition nvi (close volume : series) : series := vi nltb close volume.
Definition pvi (close volume : series) : series := vi ngtb close volume.
(** _on_balance_volume.py:62-73 *)
Definition obv (close volume : series) : series :=
  let c0 := shift 1 close in
  let inc := szip ngtb close c0 in
  let dec := szip nltb close c0 in
  cumsum (assign dec (smap nneg volume)
           (assign inc volume (repeat (F 0) (length close)))).

(** ** p *)
(** _parabolic_sar.py:91-206 *)
Record sar_state := mkSar { sa_af : num; sa_ep : num; sa_sar : num; sa_long : bool; sa_start : nat }.
Definition sar_first (high low : series) : sar_state :=
  let h i := nth i high NaN in let l i := nth i low NaN in
  if ngtb (h 1%nat) (h 0%nat)
  then mkSar (D 2 100) (h 0%nat) (l 0%nat) true 0
  else mkSar (D 2 100) (l 0%nat) (h 0%nat) false 0.
Definition sar_next (high low : series) (i : nat) (st : sar_state) : sar_state :=
  let h k := nth k high NaN in let l k := nth k low NaN in
  let start := sa_start st in
  let ep := if sa_long st then max_nan (slice start (S i) high)
            else min_nan (slice start (S i) low) in                               (* :157-164 *)
  let af := if sa_long st && ngtb ep (sa_ep st)
            then pymin (D 2 10) (nadd (sa_af st) (D 2 100))
            else if negb (sa_long st) && nltb ep (sa_ep st)
            then pymin (D 2 10) (nadd (sa_af st) (D 2 100))
            else sa_af st in                                                      (* :166-175 *)
  let raw := nadd (sa_sar st) (nmul (sa_af st) (nsub (sa_ep st) (sa_sar st))) in  (* :177-179 *)
  let sar := if sa_long st then pymin raw (min_nan (slice (i - 2) i low))
             else pymax raw (max_nan (slice (i - 2) i high)) in                   (* :181-190 *)
  if (negb (sa_long st) && ngtb (h i) sar) || (sa_long st && nltb (l i) sar)      (* :192-195 *)
  then if sa_long st                                                              (* :141-155 *)
       then mkSar (D 2 100) (l i) (max_nan (slice start i high)) false i
       else mkSar (D 2 100) (h i) (min_nan (slice start i low)) true i
  else mkSar af ep sar (sa_long st) start.
Fixpoint sar_go (high low : series) (fuel i : nat) (st : sar_state) : list sar_state :=
  match fuel with
  | O => []
  | S k => let st' := sar_next high low i st in st' :: sar_go high low k (S i) st'
  end.
Definition sar_states (high low : series) : list sar_state :=
  match length high with
  | O => []
  | S k => let s0 := sar_first high low in s0 :: sar_go high low k 1 s0
  end.
(** :75-89 *)
Definition psar (high low : series) : series := sround 4 (map sa_sar (sar_states high low)).
(** _performance.py:94-107 *)
Definition prf (close : series) : series :=
  let c0 := nth 0 close NaN in
  sround 4 (smap (fun c => ndiv (nsub c c0) c0) close).
(** _price_and_volume_trend.py:70-81 *)
Definition pvt (close volume : series) : series :=
  sround 4 (seeded 0 (F 0)
    (fun prev (q : (num * num) * num) =>
       let '((c1, c0), v) := q in nadd prev (nmul (nsub c1 c0) (ndiv v c0)))
    (combine (combine close (shift 1 close)) volume)).
(** _price_channel.py:95-109 *)
Definition pch_high (p : nat) (high : series) : series := sround 4 (shift 1 (roll_max p p high)).
Definition pch_low (p : nat) (low : series) : series := sround 4 (shift 1 (roll_min p p low)).
(** _price_oscillator.py:97-110 *)
Definition price_osc (long short : nat) (close : series) : series :=
  let l := roll_mean long close in
  sround 4 (sdiv (scale (F 100) (ssub (roll_mean short close) l)) l).
(** _price_rate_of_change.py:91-97 *)
Definition prc (p : nat) (close : series) : series :=
  sround 4 (sdiv (scale (F 100) (ssub close (shift p close))) (shift p close)).
(** _projection_bands.py:98-138; python's max / min over a list *)
Definition pb_slope (p : nat) (s : series) : series := map snd (rolling_ols p s).
Definition pb_band (best : num -> list num -> num) (p : nat) (s : series) : series :=
  let sl := pb_slope p s in
  sround 4 (map (fun i => if p <=? S i
                          then best (nth i s NaN)
                                 (map (fun j => nadd (nmul (nn j) (nth i sl NaN)) (nth (i - j) s NaN))
                                      (seq 1 (p - 1)))
                          else NaN)
                (seq 0 (length s))).
Definition pb_upper (p : nat) (high : series) : series := pb_band pymax_list p high.
Definition pb_lower (p : nat) (low : series) : series := pb_band pymin_list p low.
(** _projection_oscillator.py:91-113, from the bands *)
Definition proj_raw (close upper lower : series) : series :=
  sdiv (scale (F 100) (ssub close lower)) (ssub upper lower).
Definition proj (close upper lower : series) : series := sround 4 (proj_raw close upper lower).
Definition proj_trigger (close upper lower : series) : series :=
  sround 4 (ewm 3 3 (proj_raw close upper lower)).

(** ** q, r *)
(** _qstick.py:90-94 *)
Definition qstick (p : nat) (opn close : series) : series :=
  sround 4 (sdivc (roll_sum p (ssub close opn)) (nn p)).
(** _range_indicator.py:115-131 *)
Definition ri_text (high low close : series) : series :=
  szip3 (fun tr c1 c0 => if ngtb c1 c0 then ndiv tr (nsub c1 c0) else tr)
        (true_range_nan high low close) close (shift 1 close).
(** :133-151 *)
Definition ri_range (r : nat) (st : series) : series :=
  let mn := roll_min r r st in
  let mx := roll_max r r st in
  let d0 := ssub mx mn in
  let d1 := assign (map (fun x => ngtb x (F 0)) d0)
                   (sdiv (scale (F 100) (ssub st mn)) (ssub mx mn)) d0 in
  assign (map (fun x => nleb x (F 0)) d1) (scale (F 100) (ssub st mn)) d1.
(** :153-159 *)
Definition ri (r s : nat) (high low close : series) : series :=
  sround 4 (ewm s s (ri_range r (ri_text high low close))).
(** _relative_momentum_index.py:107-147 *)
Definition rmi_up (m : nat) (close : series) : series :=
  smap (fun x => if nltb (F 0) x then x else if nleb x (F 0) then F 0 else NaN) (ssub close (shift m close)).
Definition rmi_dn (m : nat) (close : series) : series :=
  smap (fun x => if nltb x (F 0) then nabs x else if nleb (F 0) x then F 0 else NaN) (ssub close (shift m close)).
Definition rmi_smooth (p m : nat) (s : series) : series :=
  seeded (p + m - 1) (mean_skip (slice m (p + m) s)) (wilder p) s.
Definition rmi (p m : nat) (close : series) : series :=
  let q := sdiv (rmi_smooth p m (rmi_up m close)) (rmi_smooth p m (rmi_dn m close)) in
  sround 4 (sdiv (scale (F 100) q) (saddc q (F 1))).
(** _relative_strength_index.py:91-137 *)
Definition rsi_up (close : series) : series :=
  from_row 1 (szip (fun c1 c0 => nround 4 (if nltb c0 c1 then nsub c1 c0 else F 0)) close (shift 1 close)).
Definition rsi_dn (close : series) : series :=
  from_row 1 (szip (fun c1 c0 => nround 4 (if nltb c1 c0 then nsub c0 c1 else F 0)) close (shift 1 close)).
Definition rsi_smooth (p : nat) (s : series) : series :=
  seeded p (mean_skip (firstn (S p) s)) (fun prev x => nround 4 (wilder p prev x)) s.
Definition rsi (p : nat) (close : series) : series :=
  let q := sdiv (rsi_smooth p (rsi_up close)) (rsi_smooth p (rsi_dn close)) in
  sround 4 (smap (fun x => nsub (F 100) (ndiv (F 100) (nadd x (F 1)))) q).
(** _relative_volatility_index.py:107-131 *)
Definition rvi_up (o : oracle) (s : series) : series :=
  assign (map (fun x => ngtb x (F 0)) (sdiff s)) (roll_std (o_sqrt o) 10 s) (repeat (F 0) (length s)).
Definition rvi_dn (o : oracle) (s : series) : series :=
  assign (map (fun x => nltb x (F 0)) (sdiff s)) (roll_std (o_sqrt o) 10 s) (repeat (F 0) (length s)).
(** :133-169 *)
Definition rvi_smooth (p : nat) (s : series) : series :=
  seeded (p + 8) (mean_skip (slice 9 (p + 9) s)) (wilder p) s.
(** :171-179 *)
Definition rvi_half (o : oracle) (p : nat) (s : series) : series :=
  let u := rvi_smooth p (rvi_up o s) in
  let d := rvi_smooth p (rvi_dn o s) in
  sdiv (scale (F 100) u) (sadd u d).
Definition rvi (o : oracle) (p : nat) (high low : series) : series :=
  sround 4 (sdivc (sadd (rvi_half o p high) (rvi_half o p low)) (F 2)).

(** ** s *)
(** _standard_deviation.py:88-93 *)
Definition sd (o : oracle) (p : nat) (close : series) : series := sround 4 (roll_std (o_sqrt o) p close).
(** _stochastic_momentum_index.py:125-185 *)
Definition smi (p s d : nat) (high low close : series) : series :=
  let hh := roll_max p p high in
  let ll := roll_min p p low in
  let dist := ssub close (sdivc (sadd hh ll) (F 2)) in
  let diff := ssub hh ll in
  sround 4 (scale (F 100) (sdiv (ewm d d (ewm s s dist)) (scale (D 1 2) (ewm d d (ewm s s diff))))).
(** _stochastic_oscillator.py:138-177 *)
Definition so_k (k slow : nat) (high low close : series) : series :=
  let ll := roll_min k k low in
  let hh := roll_max k k high in
  sround 4 (sdiv (scale (F 100) (roll_sum slow (ssub close ll))) (roll_sum slow (ssub hh ll))).
(** :178-190 *)
Definition so_d (o : oracle) (k slow d : nat) (m : d_method) (high low close : series) : series :=
  let pk := so_k k slow high low close in
  sround 4 (match m with DSimple => roll_mean d pk | DExponential => roll_wmean (o_win o d) d pk end).
(** _swing_index.py:66-107 *)
Definition swi (opn high low close : series) : series :=
  let yc := shift 1 close in
  let yo := shift 1 opn in
  let th_yc := sabs (ssub high yc) in
  let tl_yc := sabs (ssub low yc) in
  let th_tl := ssub high low in
  let numer := sadd (sadd (ssub close yc) (scale (D 1 2) (ssub close opn))) (scale (D 1 4) (ssub yc yo)) in
  let kk := row2 max_skip th_yc tl_yc in
  let r := sadd (row3 max_skip th_yc tl_yc th_tl) (scale (D 1 4) (sabs (ssub yc yo))) in
  let raw := smul (scale (F 50) (sdiv numer r)) (sdivc kk (F 3)) in
  sround 4 (smap (fun x => let y := if ngtb x (F 100) then F 100 else x in
                           if nltb y (F (-100)) then F (-100) else y) raw).

(** ** t *)
(** _time_series_forecast.py:89-109 *)
Definition tsf (p : nat) (filled : series) : series := sround 4 (tsf_raw p filled).
(** _triple_exponential_moving_average.py:87-102 *)
Definition tema (p : nat) (close : series) : series :=
  let e := ewm p p close in
  let e2 := ewm p p e in
  sround 4 (sadd (ssub (scale (F 3) e) (scale (F 3) e2)) (ewm p p e2)).
(** _typical_price.py:75-82 *)
Definition tp (high low close : series) : series := sround 4 (row3 mean_skip high low close).
(** _forecast_oscillator.py:88-103 *)
Definition fosc (close tsf_data : series) : series :=
  sround 4 (sdiv (scale (F 100) (ssub close (shift 1 tsf_data))) close).

(** ** u *)
(** _ultimate_oscillator.py:74-102 *)
Definition uo_high (high close : series) : series := row2 max_nan high (shift 1 close).
Definition uo_low (low close : series) : series := row2 min_nan low (shift 1 close).
Definition uo_ratio (w : nat) (high low close : series) : series :=
  sdiv (roll_sum w (ssub close (uo_low low close)))
       (roll_sum w (ssub (uo_high high close) (uo_low low close))).
(** :104-114 *)
Definition uo (high low close : series) : series :=
  sround 4 (sdivc (scale (F 100) (sadd (sadd (scale (F 4) (uo_ratio 7 high low close))
                                             (scale (F 2) (uo_ratio 14 high low close)))
                                       (uo_ratio 28 high low close))) (F 7)).

(** ** v *)
(** _vertical_horizontal_filter.py:93-113 *)
Definition vhf (p : nat) (close : series) : series :=
  sround 4 (sdiv (sabs (ssub (roll_max p p close) (roll_min p p close)))
                 (roll_sum p (sabs (ssub close (shift 1 close))))).
(** _volatility_chaikins.py:107-121 *)
Definition vch (e c : nat) (high low : series) : series :=
  let h := ewm e e (ssub high low) in
  sround 4 (scale (F 100) (sdiv (ssub h (shift c h)) (shift c h))).
(** _volume_oscillator.py:107-116 *)
Definition vosc (long short : nat) (volume : series) : series :=
  sround 4 (ssub (roll_mean short volume) (roll_mean long volume)).
(** _volume_rate_of_change.py:91-96 *)
Definition vrc (p : nat) (volume : series) : series :=
  sround 4 (scale (F 100) (sdiv (ssub volume (shift p volume)) (shift p volume))).

(** ** w *)
(** _weighted_close.py:64-68 *)
Definition wc (close high low : series) : series :=
  sround 4 (sdivc (sadd (sadd (scale (F 2) close) high) low) (F 4)).
(** _wilders_smoothing.py:87-100 *)
Definition ws (p : nat) (close : series) : series :=
  sround 4 (seeded (p - 1) (mean_skip (firstn p close)) (wilder p) close).
(** _williams_accumulation_distribution.py:67-86 *)
Definition wad (close high low : series) : series :=
  let yc := shift 1 close in
  let trh := row2 max_nan yc high in
  let trl := row2 min_nan yc low in
  let d := ssub close yc in
  let w1 := assign (map (fun x => ngtb x (F 0)) d) (ssub close trl) d in
  sround 4 (assign (map (fun x => nltb x (F 0)) d) (ssub close trh) w1).
(** _williams_r.py:89-102 *)
Definition wr (p : nat) (high low close : series) : series :=
  let hh := roll_max p p high in
  let ll := roll_min p p low in
  sround 4 (scale (F (-100)) (sdiv (ssub hh close) (ssub hh ll))).

(** ** the columns an indicator computes.  [f] is the validated input; nested
    indicators are constructed with fill_missing_values=True on it. *)
Section Columns.
Variable o : oracle.
Open Scope string_scope.

Definition ma_name (t : ma_type) : string :=
  match t with
  | MSimple => "ma-simple" | MExponential => "ma-exponential" | MTimeSeries => "ma-time_series"
  | MTriangular => "ma-triangular" | MVariable => "ma-variable"
  end.
Definition perf_name (m : perf_mode) : string :=
  match m with PLong => "target_LONG" | PShort => "target_SHORT" end.

Definition adl_of (f : frame) : series :=
  adl (col "close" f) (col "volume" f) (col "high" f) (col "low" f).

Definition ti_cols (i : ind) (f : frame) : list (string * series) :=
  let c := col "close" f in let h := col "high" f in let l := col "low" f in
  let v := col "volume" f in let op := col "open" f in
  let ff := fill_missing f in
  let fc := col "close" ff in let fh := col "high" ff in let fl := col "low" ff in
  match i with
  | iADL => [("adl", adl_of f)]
  | iATR => [("atr", atr h l c)]
  | iBB p k => [("middle_band", bb_middle p c); ("upper_band", bb_upper o p k c); ("lower_band", bb_lower o p k c)]
  | iCMF p => [("cmf", cmf p c v h l)]
  | iCO => [("co", co (adl_of ff))]
  | iCMO p => [("cmo", cmo p c)]
  | iCCI p => [("cci", cci p h l c)]
  | iDPO p => [("dpo", dpo p c)]
  | iDMI =>
      let tr := true_range_nan h l c in
      let pdi := dmi_di (plus_dm h l) tr in
      let mdi := dmi_di (minus_dm h l) tr in
      let dx := dmi_dx pdi mdi in
      let adx := dmi_adx dx in
      [("+di", sround 4 pdi); ("-di", sround 4 mdi); ("dx", sround 4 dx);
       ("adx", sround 4 adx); ("adxr", sround 4 (dmi_adxr adx))]
  | iDEMA p => [("dema", dema p c)]
  | iEMV p => [("emv", emv h l v); ("emv_ma", emv_ma p h l v)]
  | iENV p sh => [("upper_band", env_upper p sh c); ("lower_band", env_lower p sh c)]
  | iFIB => [("rl_0.0", fib_level (F 0) c); ("rl_23.6", fib_level (D 236 1000) c);
             ("rl_38.2", fib_level (D 382 1000) c); ("rl_50.0", fib_level (D 1 2) c);
             ("rl_61.8", fib_level (D 618 1000) c); ("rl_100.0", fib_level (F 1) c)]
  | iFOSC p => [("fosc", fosc c (tsf p fc))]
  | iICH => [("tenkan_sen", ich_tenkan h l); ("kijun_sen", ich_kijun h l);
             ("senkou_a", ich_senkou_a h l); ("senkou_b", ich_senkou_b h l)]
  | iIMI p => [("imi", imi p op c)]
  | iKO => [("ko", ko h l c v)]
  | iLRI p => [("lri", lri p c)]
  | iLRS p => [("lrs", lrs p c)]
  | iMFI => [("mfi", mfi h l v)]
  | iMI => [("mi", mi h l)]
  | iMP _ => [("mp", mp h l)]
  | iMOM p => [("mom", mom p c)]
  | iMA p t => [(ma_name t, ma p t c fc)]
  | iMACD => [("macd", macd c); ("signal_line", macd_signal c)]
  | iNVI => [("nvi", nvi c v)]
  | iOBV => [("obv", obv c v)]
  | iPSAR => [("sar", psar h l)]
  | iPRF m t => [("prf", prf c); (perf_name m, sround 4 (repeat t (length c)))]
  | iPVI => [("pvi", pvi c v)]
  | iPVT => [("pvt", pvt c v)]
  | iPCH p => [("highest_high", pch_high p h); ("lowest_low", pch_low p l)]
  | iPOSC a b => [("posc", price_osc a b c)]
  | iPRC p => [("prc", prc p c)]
  | iPB p => [("upper_band", pb_upper p h); ("lower_band", pb_lower p l)]
  | iPROJ p => let up := pb_upper p fh in let lo := pb_lower p fl in
               [("posc", proj c up lo); ("trigger_line", proj_trigger c up lo)]
  | iQS p => [("qstick", qstick p op c)]
  | iRI r s => [("ri", ri r s h l c)]
  | iRMI p m => [("rmi", rmi p m c)]
  | iRSI p => [("rsi", rsi p c)]
  | iRVI p => [("rvi", rvi o p h l)]
  | iSD p => [("sd", sd o p c)]
  | iSMI p s d => [("smi", smi p s d h l c)]
  | iSO k slow d m => [("%K", so_k k slow h l c); ("%D", so_d o k slow d m h l c)]
  | iSWI => [("swi", swi op h l c)]
  | iTSF p => [("tsf", tsf p fc)]
  | iTEMA p => [("tema", tema p c)]
  | iTP _ => [("tp", tp h l c)]
  | iUO => [("uosc", uo h l c)]
  | iVHF p => [("vhf", vhf p c)]
  | iVCH e ch => [("vch", vch e ch h l)]
  | iVOSC a b => [("vosc", vosc a b v)]
  | iVRC p => [("vrc", vrc p v)]
  | iWC => [("wc", wc c h l)]
  | iWS p => [("ws", ws p c)]
  | iWAD => [("wad", wad c h l)]
  | iWR p => [("wr", wr p h l c)]
  end.

(** required input columns: properties/indicators_properties.py *)
Definition required (i : ind) : list string :=
  match i with
  | iADL | iCMF _ | iCO => ["close"; "volume"; "high"; "low"]
  | iATR | iCCI _ | iDMI | iICH | iMI | iMP _ | iPSAR | iPCH _ | iPB _ | iPROJ _
  | iSMI _ _ _ | iSO _ _ _ _ | iTP _ | iUO | iWC | iWAD | iWR _ => ["high"; "low"; "close"]
  | iBB _ _ | iCMO _ | iDPO _ | iDEMA _ | iENV _ _ | iFIB | iFOSC _ | iLRI _ | iLRS _ | iMOM _
  | iMA _ _ | iMACD | iPRF _ _ | iPOSC _ _ | iPRC _ | iRMI _ _ | iRSI _ | iSD _ | iTSF _
  | iTEMA _ | iVHF _ | iWS _ => ["close"]
  | iEMV _ | iMFI => ["high"; "low"; "volume"]
  | iIMI _ | iQS _ => ["open"; "close"]
  | iKO | iRI _ _ => ["high"; "low"; "close"; "volume"]
  | iNVI | iOBV | iPVI | iPVT => ["close"; "volume"]
  | iRVI _ | iVCH _ _ => ["high"; "low"]
  | iSWI => ["open"; "high"; "low"; "close"]
  | iVOSC _ _ | iVRC _ => ["volume"]
  end.

(** the check at the top of _calculateTi: name and number reported, rows needed *)
Definition needs (i : ind) : option (string * nat * nat) :=
  match i with
  | iADL | iFIB | iICH | iMFI | iMP _ | iOBV | iPRF _ _ | iSWI | iTP _ | iWC | iWAD => None
  | iATR => Some ("Average True Range", 2, 14)                           (* :67-68 *)
  | iBB p _ => Some ("Bollinger Bands", p, p)
  | iCMF p => Some ("Chaikin Money Flow", p, p)
  | iCO => Some ("Chaikin Oscillator", 10, 10)
  | iCMO p => Some ("Chande Momentum Oscillator", p, p)
  | iCCI p => Some ("Commodity Channel Index", p, p)
  | iDPO p => Some ("Detrended Price Oscillator", p, p)
  | iDMI => Some ("Directional Movement Index", 28, 28)
  | iDEMA p => Some ("Double Exponential Moving Average", p, p)
  | iEMV p => Some ("Ease Of Movement", Nat.max p 2, Nat.max p 2)
  | iENV p _ => Some ("Envelopes", p, p)
  | iFOSC p => Some ("Forecast Oscillator", p, p)
  | iIMI p => Some ("Intraday Momentum Index", p, p)
  | iKO => Some ("Klinger Oscillator", 55, 55)
  | iLRI p => Some ("Linear Regression Indicator", p, p)
  | iLRS p => Some ("Linear Regression Slope", p, p)
  | iMI => Some ("Mass Index", 25, 25)
  | iMOM p => Some ("Momentum", p, p)
  | iMA _ MVariable => Some ("Moving Average (variable)", 22, 22)
  | iMA p _ => Some ("Moving Average", p, p)
  | iMACD => Some ("Moving Average Convergence Divergence", 26, 26)
  | iNVI => Some ("Negative Volume Index", 2, 2)
  | iPSAR => Some ("Parabolic SAR", 2, 2)
  | iPVI => Some ("Positive Volume Index", 2, 2)
  | iPVT => Some ("Price and Volume Trend", 2, 2)
  | iPCH p => Some ("Price Channel", p, p)
  | iPOSC a _ => Some ("Price Oscillator", a, a)
  | iPRC p => Some ("Price Rate of Change", p, p)
  | iPB p => Some ("Projection Bands", p, p)
  | iPROJ p => Some ("Projection Oscillator", p, p)
  | iQS p => Some ("Qstick", p, p)
  | iRI r s => Some ("Range Indicator", Nat.max r s, Nat.max r s)
  | iRMI p m => Some ("Relative Momentum Index", p + m, p + m)
  | iRSI p => Some ("Relative Strength Index", p + 1, p + 1)
  | iRVI p => Some ("Relative Volatility Index", p + 10, p + 10)
  | iSD p => Some ("Standard Deviation", p, p)
  | iSMI p _ _ => Some ("Stochastic Momentum Index", p, p)
  | iSO k _ _ _ => Some ("Stochastic Oscillator", k, k)
  | iTSF p => Some ("Time Series Forecast", p, p)
  | iTEMA p => Some ("Triple Exponential Moving Average", p, p)
  | iUO => Some ("Ultimate Oscillator", 28, 28)
  | iVHF p => Some ("Vertical Horizontal Filter", p, p)
  | iVCH e c => Some ("Volatility Chaikins", Nat.max e c, Nat.max e c)
  | iVOSC a _ => Some ("Volume Oscillator", a, a)
  | iVRC p => Some ("Volume Rate of Change", p, p)
  | iWS p => Some ("Wilder's Smoothing", p, p)
  | iWR p => Some ("William's %R", p, p)
  end%nat.

(** index of the result: all rows, except for DetrendedPriceOscillator
    (dpo.iloc[:-1-int(period/2)], _detrended_price_oscillator.py:96) *)
Definition ti_index (i : ind) (f : frame) : list Z :=
  match i with
  | iDPO p => firstn (length (rows f) - S (p / 2)) (index f)
  | _ => index f
  end.

(** _input_data afterwards: MassIndex and MedianPrice append a column
    (_mass_index.py:73-75, _median_price.py:78-82) *)
Definition input_after (i : ind) (f : frame) : frame :=
  match i with
  | iMI => add_col "9_ema" (ewm 9 9 (col "close" f)) f
  | iMP p => add_col "close_ema" (ewm p p (col "close" f)) f
  | _ => f
  end.

(** _calculateTi: (the input data it leaves behind, the indicator data) *)
Definition calc (i : ind) (f : frame) : res (frame * frame) :=
  do _ <- (match needs i with
           | Some (name, shown, n) =>
               if Nat.ltb (length (rows f)) n then Err (NotEnough name shown (length (rows f))) else Ok tt
           | None => Ok tt
           end);
  Ok (input_after i f, mk_ti (ti_index i f) (ti_cols i f)).
End Columns.
