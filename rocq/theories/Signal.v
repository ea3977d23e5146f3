(** * Signal: getTiSignal of the 57 indicators.

    A signal is computed from the object's current [_input_data] and [_ti_data].
    Positional reads may raise IndexError ([iat]); where the length check at the
    top makes them safe the model reads eagerly.  A line range without a file name
    refers to the indicator's own file in tti/indicators. *)
From Coq Require Import ZArith QArith Qcanon Bool List String PeanoNat.
From Verif Require Import Num Pandas Frame Sim Ind.
Import ListNotations.
Open Scope list_scope.

(** s.iat[-k] *)
Definition iat (s : series) (k : nat) : res num := get (ineg s k).
(** a < b < c and a > b > c *)
Definition lt3 (a b c : num) : bool := nltb a b && nltb b c.
Definition gt3 (a b c : num) : bool := ngtb a b && ngtb b c.

(** return hold unless there are k rows of indicator data *)
Definition guard (k : nat) (ti : frame) (s : res signal) : res signal :=
  if Nat.ltb (length (rows ti)) k then Ok Hold else s.

Definition case2 (c1 : bool) (s1 : signal) (c2 : bool) (s2 : signal) : res signal :=
  Ok (if c1 then s1 else if c2 then s2 else Hold).

(** s.iat[-2] < up < s.iat[-1]  /  s.iat[-2] > down > s.iat[-1] *)
Definition level_cross (up : num) (su : signal) (down : num) (sd : signal) (s : series) : res signal :=
  do a <- iat s 2; do b <- iat s 1;
  case2 (lt3 a up b) su (gt3 a down b) sd.

(** x crosses y: from above to below / from below to above *)
Definition line_cross (below : signal) (above : signal) (x y : series) : res signal :=
  do x2 <- iat x 2; do y2 <- iat y 2; do x1 <- iat x 1; do y1 <- iat y 1;
  case2 (ngtb x2 y2 && nltb x1 y1) below (nltb x2 y2 && ngtb x1 y1) above.

(** three falling / three rising values *)
Definition three (falling rising : signal) (s : series) : res signal :=
  do a <- iat s 3; do b <- iat s 2; do c <- iat s 1;
  case2 (gt3 a b c) falling (lt3 a b c) rising.

(** ** Ichimoku: _whereInCloud (_ichimoku_cloud.py:93-113): list.sort() of three
    cells (count_run + binary insertion of CPython's listobject.c, which matters
    only for missing cells), then .index(value): first equal or identical cell *)
Definition cell := (num * bool)%type.          (* true: the value itself *)
Definition clt (a b : cell) : bool := nltb (fst a) (fst b).
Definition insert3 (x y c : cell) : list cell :=
  if clt c y then (if clt c x then [c; x; y] else [x; c; y]) else [x; y; c].
Definition sort3 (a b c : cell) : list cell :=
  if clt b a
  then (if clt c b then [c; b; a] else insert3 b a c)
  else (if clt c b then insert3 a b c else [a; b; c]).
Fixpoint cell_index (v : num) (l : list cell) : Z :=
  match l with
  | [] => 0%Z
  | c :: r => if snd c || neqb (fst c) v then 0%Z else (1 + cell_index v r)%Z
  end.
Definition where_in_cloud (v a b : num) : Z :=
  (cell_index v (sort3 (a, false) (b, false) (v, true)) - 1)%Z.

Section Signals.
Open Scope string_scope.

(** _double_exponential_moving_average.py:99-117 *)
Definition dema_signal (close d : series) : res signal :=
  do x <- iat close 1; do y <- iat d 1; Ok (if nltb x y then Buy else Hold).
(** _momentum.py:97-128 *)
Definition mom_signal (m : series) : res signal :=
  if Nat.ltb (length m) 9 then Ok Hold
  else let e := ewm 9 9 m in
       do a <- iat m 2; do ea <- iat e 2; do b <- iat m 1; do eb <- iat e 1;
       case2 (nltb a ea && ngtb b eb) Sell (ngtb a ea && nltb b eb) Buy.

(** _mass_index.py:106-117: reversed values before the last *)
Fixpoint bulge (l : series) : bool :=
  match l with
  | [] => false
  | x :: r => if nltb x (D 265 10) then false else if ngtb x (F 27) then true else bulge r
  end.

(** rows of close where the mask holds *)
Definition masked (mask : list bool) (s : series) : series :=
  map snd (filter (fun p : bool * num => fst p) (combine mask s)).

Definition last_index (mask : list bool) : Z :=
  match last_true mask with Some k => Z.of_nat k | None => (-1)%Z end.

Definition signal_of (i : ind) (inp ti : frame) : res signal :=
  let c := col "close" inp in
  let t (name : string) := col name ti in
  match i with
  | iADL =>                                      (* _accumulation_distribution_line.py:76-104 *)
      guard 2 ti (
      do c1 <- iat c 1; do c2 <- iat c 2; do a <- iat (t "adl") 1;
      let slope := nsub c1 c2 in
      case2 (lt3 slope (F 0) a || (ngtb slope (F 0) && ngtb a (F 0))) Buy
            (gt3 slope (F 0) a || (nltb slope (F 0) && nltb a (F 0))) Sell)
  | iATR =>                                      (* _average_true_range.py:92-125 *)
      guard 10 ti (
      do a <- iat (t "atr") 1; do c1 <- iat c 1;
      do s5 <- iat (rolling 5 5 agg_mean (icol 0 inp)) 1;
      do s10 <- iat (rolling 10 5 agg_mean (icol 0 inp)) 1;
      Ok (if ngtb a (nmul (D 1 100) c1)
          then if ngtb c1 s5 then (if ngtb c1 s10 then Buy else Sell)
               else if nltb c1 s5 then Buy else Hold
          else Hold))
  | iBB _ _ | iENV _ _ =>                        (* _bollinger_bands.py:119-142, _envelopes.py:111-134 *)
      guard 1 ti (
      do c1 <- iat c 1; do u <- iat (t "upper_band") 1; do l <- iat (t "lower_band") 1;
      case2 (ngtb c1 u) Sell (nltb c1 l) Buy)
  | iCMF _ =>                                    (* _chaikin_money_flow.py:111-142 *)
      guard 3 ti (
      do m2 <- iat (t "cmf") 2; do m1 <- iat (t "cmf") 1; do c1 <- iat c 1;
      do c3 <- iat c 3; do c2 <- iat c 2;
      case2 (ngtb m2 m1 && nltb (pymax c3 c2) c1) Sell
            (nltb m2 m1 && ngtb (pymin c3 c2) c1) Buy)
  | iCO =>                                       (* _chaikin_oscillator.py:82-116 *)
      guard 90 ti (
      let ma := mean_skip (tail_k 90 c) in
      do c1 <- iat c 1; do o2 <- iat (t "co") 2; do o1 <- iat (t "co") 1;
      case2 (ngtb c1 ma && lt3 o2 o1 (F 0)) Buy (nltb c1 ma && gt3 o2 o1 (F 0)) Sell)
  | iCMO _ => guard 2 ti (level_cross (F 50) Sell (F (-50)) Buy (t "cmo"))     (* :113-135 *)
  | iCCI _ =>                                    (* _commodity_channel_index.py:110-133 *)
      guard 1 ti (do v <- iat (t "cci") 1; case2 (nltb v (F (-100))) Buy (ngtb v (F 100)) Sell)
  | iDPO _ => guard 2 ti (level_cross (F 0) Buy (F 0) Sell (t "dpo"))          (* :98-120 *)
  | iDMI =>                                      (* _directional_movement_index.py:185-218 *)
      guard 2 ti (
      do p2 <- iat (t "+di") 2; do m2 <- iat (t "-di") 2;
      do p1 <- iat (t "+di") 1; do m1 <- iat (t "-di") 1; do x <- iat (t "adxr") 1;
      case2 (ngtb p2 m2 && nltb p1 m1 && ngeb x (F 20)) Sell
            (nltb p2 m2 && ngtb p1 m1 && ngeb x (F 20)) Buy)
  | iDEMA _ => guard 1 ti (dema_signal c (t "dema"))                           (* :99-117 *)
  | iEMV _ => guard 2 ti (level_cross (F 0) Buy (F 0) Sell (t "emv_ma"))       (* :109-131 *)
  | iFIB =>                                      (* _fibonacci_retracement.py:83-147 *)
      guard 2 ti (
      do c2 <- iat c 2; do c1 <- iat c 1;
      do a2 <- iat (t "rl_61.8") 2; do a1 <- iat (t "rl_61.8") 1;
      do b2 <- iat (t "rl_50.0") 2; do b1 <- iat (t "rl_50.0") 1;
      do d2 <- iat (t "rl_38.2") 2; do d1 <- iat (t "rl_38.2") 1;
      do e2 <- iat (t "rl_23.6") 2; do e1 <- iat (t "rl_23.6") 1;
      let down x2 x1 := ngtb c2 x2 && nltb c1 x1 in
      let up x2 x1 := nltb c2 x2 && ngtb c1 x1 in
      case2 (down a2 a1 || down b2 b1 || down d2 d1 || down e2 e1) Buy
            (up a2 a1 || up b2 b1 || up d2 d1 || up e2 e1) Sell)
  | iFOSC _ => guard 2 ti (level_cross (F 0) Sell (F 0) Buy (t "fosc"))        (* :105-126 *)
  | iICH =>                                      (* _ichimoku_cloud.py:115-166 *)
      guard 2 ti (
      do c1 <- iat c 1; do a <- iat (t "senkou_a") 1; do b <- iat (t "senkou_b") 1;
      do t2 <- iat (t "tenkan_sen") 2; do t1 <- iat (t "tenkan_sen") 1;
      do k2 <- iat (t "kijun_sen") 2; do k1 <- iat (t "kijun_sen") 1;
      let pos := (where_in_cloud c1 a b + where_in_cloud t1 a b + where_in_cloud k1 a b)%Z in
      case2 (nltb t2 k2 && ngtb t1 k1 && Z.eqb pos 3) Buy
            (ngtb t2 k2 && nltb t1 k1 && Z.eqb pos (-3)) Sell)
  | iIMI _ => guard 2 ti (level_cross (F 70) Sell (F 30) Buy (t "imi"))        (* :108-130 *)
  | iKO => guard 2 ti (level_cross (F 0) Sell (F 0) Buy (t "ko"))              (* :99-120 *)
  | iLRI _ => guard 2 ti (line_cross Buy Sell c (t "lri"))                     (* :106-134 *)
  | iLRS _ => guard 2 ti (level_cross (F 0) Sell (F 0) Buy (t "lrs"))          (* :116-139 *)
  | iMFI =>                                      (* _market_facilitation_index.py:74-97 *)
      guard 2 ti (do a <- iat (t "mfi") 2; do b <- iat (t "mfi") 1;
                  case2 (ngtb a b) Buy (nltb a b) Sell)
  | iMI =>                                       (* _mass_index.py:92-127 *)
      guard 2 ti (
      if bulge (rev (removelast (t "mi")))
      then do e2 <- iat (col "9_ema" inp) 2; do e1 <- iat (col "9_ema" inp) 1;
           case2 (nltb e2 e1) Sell (ngtb e2 e1) Buy
      else Ok Hold)
  | iMP p => guard p ti (line_cross Sell Buy (col "close_ema" inp) (t "mp"))   (* _median_price.py:93-121 *)
  | iMOM _ => mom_signal (t "mom")                                             (* :97-128 *)
  | iMA _ ty =>                                  (* _moving_average.py:178-196 *)
      guard 1 ti (do c1 <- iat c 1; do m <- iat (t (ma_name ty)) 1; Ok (if ngtb c1 m then Buy else Hold))
  | iMACD =>                                     (* _moving_average_convergence_divergence.py:90-126 *)
      guard 2 ti (
      do a <- iat (t "macd") 2; do b <- iat (t "macd") 1;
      do sa <- iat (t "signal_line") 2; do sb <- iat (t "signal_line") 1;
      Ok (if lt3 a (F 0) b then Buy
          else if gt3 a (F 0) b then Sell
          else if ngtb a sa && nltb b sb then Sell
          else if nltb a sa && ngtb b sb then Buy
          else Hold))
  | iNVI =>                                      (* _negative_volume_index.py:86-106 *)
      guard 255 ti (
      do x <- iat (t "nvi") 1; do e <- iat (ewm 255 255 (t "nvi")) 1;
      Ok (if ngtb x e then Buy else Hold))
  | iOBV => guard 3 ti (three Buy Sell (t "obv"))                              (* :75-109 *)
  | iPSAR => guard 2 ti (line_cross Sell Buy c (t "sar"))                      (* :208-233 *)
  | iPRF m target =>                             (* _performance.py:109-129 *)
      guard 1 ti (
      do x <- iat (icol 0 ti) 1;
      Ok (match m with
          | PLong => if ngeb x target then Sell else Hold
          | Ind.PShort => if nleb x target then Buy else Hold
          end))
  | iPVI =>                                      (* _positive_volume_index.py:86-113 *)
      guard 255 ti (line_cross Sell Buy (t "pvi") (ewm 255 255 (t "pvi")))
  | iPVT => guard 3 ti (three Buy Sell (t "pvt"))                              (* :83-117 *)
  | iPCH _ =>                                    (* _price_channel.py:111-134 *)
      guard 1 ti (
      do c1 <- iat c 1; do u <- iat (t "highest_high") 1; do l <- iat (t "lowest_low") 1;
      case2 (ngtb c1 u) Sell (nltb c1 l) Buy)
  | iPOSC _ _ => guard 2 ti (level_cross (F 0) Buy (F 0) Sell (t "posc"))      (* :112-133 *)
  | iPRC _ => guard 3 ti (three Buy Sell (t "prc"))                            (* :99-133 *)
  | iPB _ =>                                     (* _projection_bands.py:140-168 *)
      guard 1 ti (
      do u <- iat (t "upper_band") 1; do l <- iat (t "lower_band") 1; do c1 <- iat c 1;
      let lim := nmul (D 15 100) (nsub u l) in
      case2 (nltb (nsub u c1) lim) Sell (nltb (nsub c1 l) lim) Buy)
  | iPROJ _ =>                                   (* _projection_oscillator.py:115-153 *)
      guard 4 ti (
      let p := t "posc" in let g := t "trigger_line" in
      do p4 <- iat p 4; do p3 <- iat p 3; do p2 <- iat p 2; do p1 <- iat p 1;
      do g4 <- iat g 4; do g3 <- iat g 3; do g2 <- iat g 2; do g1 <- iat g 1;
      Ok (if lt3 p2 (F 15) p1 then Buy
          else if gt3 p2 (F 85) p1 then Sell
          else if nltb p4 g4 && nltb p3 g3 && ngtb p2 g2 && ngtb p1 g1 then Buy
          else if ngtb p4 g4 && ngtb p3 g3 && nltb p2 g2 && nltb p1 g1 then Sell
          else Hold))
  | iQS _ =>                                     (* _qstick.py:96-129 *)
      guard 4 ti (
      do q4 <- iat (t "qstick") 4; do q3 <- iat (t "qstick") 3;
      do q2 <- iat (t "qstick") 2; do q1 <- iat (t "qstick") 1;
      case2 (lt3 q4 q3 (F 0) && lt3 (F 0) q2 q1) Buy (gt3 q4 q3 (F 0) && gt3 (F 0) q2 q1) Sell)
  | iRI _ _ =>                                   (* _range_indicator.py:161-195 *)
      guard 2 ti (
      let r := t "ri" in
      do a <- iat r 2; do b <- iat r 1; do c2 <- iat c 2; do c1 <- iat c 1;
      if lt3 a (F 20) b then Ok (if nltb c2 c1 then Buy else Sell)
      else if lt3 a (F 70) b
      then do x <- iat (masked (map (fun v => nltb v (F 20)) r) c) 1;
           Ok (if nltb x c1 then Sell else Buy)
      else Ok Hold)
  | iRMI _ _ => guard 2 ti (level_cross (F 70) Sell (F 30) Buy (t "rmi"))      (* :149-171 *)
  | iRSI _ => guard 2 ti (level_cross (F 70) Sell (F 30) Buy (t "rsi"))        (* :139-161 *)
  | iRVI _ => guard 2 ti (level_cross (F 60) Sell (F 40) Buy (t "rvi"))        (* :181-201 *)
  | iSD p =>                                     (* _standard_deviation.py:99-126 *)
      guard 1 ti (
      do m <- iat (sround 4 (roll_mean p (icol 0 inp))) 1; do c1 <- iat c 1; do s <- iat (t "sd") 1;
      case2 (ngtb c1 m && ngtb s (F 2)) Sell (nltb c1 m && ngtb s (F 2)) Buy)
  | iSMI _ _ _ => guard 2 ti (level_cross (F 40) Sell (F (-40)) Buy (t "smi")) (* :187-209 *)
  | iSO _ _ _ _ =>                               (* _stochastic_oscillator.py:196-246 *)
      guard 2 ti (
      do k2 <- iat (t "%K") 2; do k1 <- iat (t "%K") 1;
      do d2 <- iat (t "%D") 2; do d1 <- iat (t "%D") 1;
      Ok (if gt3 k2 (F 80) k1 || gt3 d2 (F 80) d1 then Sell
          else if lt3 k2 (F 20) k1 || lt3 d2 (F 20) d1 then Buy
          else if gt3 (nsub k2 k1) (F 0) (nsub k1 d1) && ngtb k1 (F 80) then Sell
          else if lt3 (nsub k2 k1) (F 0) (nsub k1 d1) && nltb k1 (F 20) then Buy
          else Hold))
  | iSWI => guard 2 ti (level_cross (F 0) Sell (F 0) Buy (t "swi"))            (* :109-131 *)
  | iTSF _ => guard 2 ti (line_cross Buy Sell c (t "tsf"))                     (* :111-139 *)
  | iTEMA _ =>                                   (* _triple_exponential_moving_average.py:104-126 *)
      guard 1 ti (do c1 <- iat c 1; do x <- iat (t "tema") 1;
                  case2 (nltb c1 x) Buy (ngtb c1 x) Sell)
  | iTP p =>                                     (* _typical_price.py:84-105 *)
      if Nat.ltb (length (rows inp)) p then Ok Hold
      else guard 1 ti (
      do m <- iat (roll_mean p (icol 0 inp)) 1; do x <- iat (t "tp") 1;
      Ok (if ngtb x m then Buy else Hold))
  | iUO =>                                       (* _ultimate_oscillator.py:116-149 *)
      guard 30 ti (
      do u <- iat (t "uosc") 1;
      Ok (if negb (Z.eqb (argmin (tail_k 30 c)) (argmin (tail_k 30 (t "uosc"))))
             && nltb (num_of_bool (sall (tail_k 30 (t "uosc")))) (F 30)
             && nltb (num_of_bool (sall (tail_but_last 30 (t "uosc")))) u
          then Buy else Hold))
  | iVHF _ =>                                    (* _vertical_horizontal_filter.py:115-153 *)
      guard 3 ti (
      do a <- iat (t "vhf") 3; do b <- iat (t "vhf") 2; do d <- iat (t "vhf") 1;
      let fc := col "close" (fill_missing inp) in
      if lt3 a b d
      then if Nat.ltb (length (rows inp)) 5 then Ok Hold else dema_signal fc (dema 5 fc)
      else if gt3 a b d
      then if Nat.ltb (length (rows inp)) 12 then Ok Hold else mom_signal (mom 12 fc)
      else Ok Hold)
  | iVCH _ _ => guard 3 ti (three Sell Buy (t "vch"))                          (* :123-151 *)
  | iVOSC _ _ =>                                 (* _volume_oscillator.py:118-148 *)
      guard 3 ti (
      do a <- iat (t "vosc") 3; do b <- iat (t "vosc") 2; do d <- iat (t "vosc") 1;
      case2 (nltb (F 0) a && lt3 a b d) Buy (gt3 a b d && ngtb d (F 0)) Sell)
  | iVRC _ => guard 3 ti (three Buy Sell (t "vrc"))                            (* :98-132 *)
  | iWC => guard 2 ti (line_cross Buy Sell c (t "wc"))                         (* :70-96 *)
  | iWS _ => guard 2 ti (line_cross Buy Sell c (t "ws"))                       (* :102-128 *)
  | iWAD =>                                      (* _williams_accumulation_distribution.py:88-115 *)
      if Nat.ltb (length (rows inp)) 30 then Ok Hold
      else
      do c1 <- iat c 1; do w <- iat (t "wad") 1;
      case2 (neqb (min_skip (tail_k 30 c)) c1 && negb (neqb (min_skip (tail_k 30 (t "wad"))) w)) Buy
            (neqb (max_skip (tail_k 30 c)) c1 && negb (neqb (max_skip (tail_k 30 (t "wad"))) w)) Sell
  | iWR _ =>                                     (* _williams_r.py:104-146 *)
      guard 2 ti (
      let w := t "wr" in
      let sold := last_index (map (fun x => nleb x (F (-80))) (removelast w)) in
      let bought := last_index (map (fun x => ngeb x (F (-20))) (removelast w)) in
      do a <- iat w 2; do b <- iat w 1;
      Ok (if Z.eqb sold (-1) && Z.eqb bought (-1) then Hold
          else if Z.ltb bought sold && lt3 a (F (-50)) b then Buy
          else if Z.ltb sold bought && gt3 a (F (-50)) b then Sell
          else Hold))
  end.
End Signals.
