(** * FloatSignal: getTiSignal in IEEE-754 binary64.

    The same rules as in Signal.v, on tables of binary64 numbers (Flocq's floats with one
    NaN), for the 37 indicators whose rule only compares cells with cells and with whole
    numbers.  The other 20 rules compute before they compare; for them [fsignal_of] is
    None.  A line range without a file name refers to the indicator's own file in
    tti/indicators. *)
From Coq Require Import ZArith Bool List String PeanoNat.
From Flocq Require Import IEEE754.BinarySingleNaN.
From Verif Require Import Num Pandas Sim Frame Ind Signal FloatSim.
Import ListNotations.
Open Scope list_scope. Open Scope string_scope.

Definition fleb : f64 -> f64 -> bool := Bleb.
Definition fgtb (x y : f64) : bool := fltb y x.
Definition fgeb (x y : f64) : bool := fleb y x.
(** an integer of the program, compared with a float *)
Definition fint (z : Z) : f64 := fz z 0.

(** a table of floats: number of rows, and the cell of a column and row *)
Record ftable := mkTable { f_rows : nat; f_cell : string -> nat -> f64 }.
(** df[c].iat[-k] *)
Definition fiat (t : ftable) (c : string) (k : nat) : res f64 :=
  if (1 <=? k)%nat && (k <=? f_rows t)%nat then Ok (f_cell t c (f_rows t - k)) else Err IndexErr.
Definition flt3 (a b c : f64) : bool := fltb a b && fltb b c.
Definition fgt3 (a b c : f64) : bool := fgtb a b && fgtb b c.
Definition fguard (k : nat) (ti : ftable) (s : res signal) : option (res signal) :=
  Some (if Nat.ltb (f_rows ti) k then Ok Hold else s).

(** s.iat[-2] < up < s.iat[-1]  /  s.iat[-2] > down > s.iat[-1] *)
Definition flevel_cross (up : Z) (su : signal) (down : Z) (sd : signal) (t : ftable) (c : string) : res signal :=
  do a <- fiat t c 2; do b <- fiat t c 1;
  case2 (flt3 a (fint up) b) su (fgt3 a (fint down) b) sd.
(** the close crosses a line: from above to below / from below to above *)
Definition fline_cross (below above : signal) (inp ti : ftable) (c : string) : res signal :=
  do x2 <- fiat inp "close" 2; do y2 <- fiat ti c 2; do x1 <- fiat inp "close" 1; do y1 <- fiat ti c 1;
  case2 (fgtb x2 y2 && fltb x1 y1) below (fltb x2 y2 && fgtb x1 y1) above.
(** three falling / three rising values *)
Definition fthree (falling rising : signal) (t : ftable) (c : string) : res signal :=
  do x <- fiat t c 3; do y <- fiat t c 2; do z <- fiat t c 1;
  case2 (fgt3 x y z) falling (flt3 x y z) rising.
(** above the upper line / below the lower line *)
Definition fband (inp ti : ftable) (up low : string) : res signal :=
  do c1 <- fiat inp "close" 1; do u <- fiat ti up 1; do l <- fiat ti low 1;
  case2 (fgtb c1 u) Sell (fltb c1 l) Buy.

Definition fsignal_of (i : ind) (inp ti : ftable) : option (res signal) :=
  match i with
  | iBB _ _ | iENV _ _ => fguard 1 ti (fband inp ti "upper_band" "lower_band")         (* _bollinger_bands.py:119-142, _envelopes.py:111-134 *)
  | iPCH _ => fguard 1 ti (fband inp ti "highest_high" "lowest_low")                   (* _price_channel.py:111-134 *)
  | iCMO _ => fguard 2 ti (flevel_cross 50 Sell (-50) Buy ti "cmo")                    (* :113-135 *)
  | iCCI _ =>                                    (* _commodity_channel_index.py:110-133 *)
      fguard 1 ti (do v <- fiat ti "cci" 1; case2 (fltb v (fint (-100))) Buy (fgtb v (fint 100)) Sell)
  | iDPO _ => fguard 2 ti (flevel_cross 0 Buy 0 Sell ti "dpo")                         (* :98-120 *)
  | iDMI =>                                      (* _directional_movement_index.py:185-218 *)
      fguard 2 ti (
      do p2 <- fiat ti "+di" 2; do m2 <- fiat ti "-di" 2;
      do p1 <- fiat ti "+di" 1; do m1 <- fiat ti "-di" 1; do x <- fiat ti "adxr" 1;
      case2 (fgtb p2 m2 && fltb p1 m1 && fgeb x (fint 20)) Sell
            (fltb p2 m2 && fgtb p1 m1 && fgeb x (fint 20)) Buy)
  | iDEMA _ =>                                   (* _double_exponential_moving_average.py:99-117 *)
      fguard 1 ti (do x <- fiat inp "close" 1; do y <- fiat ti "dema" 1; Ok (if fltb x y then Buy else Hold))
  | iEMV _ => fguard 2 ti (flevel_cross 0 Buy 0 Sell ti "emv_ma")                      (* :109-131 *)
  | iFIB =>                                      (* _fibonacci_retracement.py:83-147 *)
      fguard 2 ti (
      do c2 <- fiat inp "close" 2; do c1 <- fiat inp "close" 1;
      do a2 <- fiat ti "rl_61.8" 2; do a1 <- fiat ti "rl_61.8" 1;
      do b2 <- fiat ti "rl_50.0" 2; do b1 <- fiat ti "rl_50.0" 1;
      do d2 <- fiat ti "rl_38.2" 2; do d1 <- fiat ti "rl_38.2" 1;
      do e2 <- fiat ti "rl_23.6" 2; do e1 <- fiat ti "rl_23.6" 1;
      let down x2 x1 := fgtb c2 x2 && fltb c1 x1 in
      let up x2 x1 := fltb c2 x2 && fgtb c1 x1 in
      case2 (down a2 a1 || down b2 b1 || down d2 d1 || down e2 e1) Buy
            (up a2 a1 || up b2 b1 || up d2 d1 || up e2 e1) Sell)
  | iFOSC _ => fguard 2 ti (flevel_cross 0 Sell 0 Buy ti "fosc")                       (* :105-126 *)
  | iIMI _ => fguard 2 ti (flevel_cross 70 Sell 30 Buy ti "imi")                       (* :108-130 *)
  | iKO => fguard 2 ti (flevel_cross 0 Sell 0 Buy ti "ko")                             (* :99-120 *)
  | iLRI _ => fguard 2 ti (fline_cross Buy Sell inp ti "lri")                          (* :106-134 *)
  | iLRS _ => fguard 2 ti (flevel_cross 0 Sell 0 Buy ti "lrs")                         (* :116-139 *)
  | iMFI =>                                      (* _market_facilitation_index.py:74-97 *)
      fguard 2 ti (do a <- fiat ti "mfi" 2; do b <- fiat ti "mfi" 1; case2 (fgtb a b) Buy (fltb a b) Sell)
  | iMA _ ty =>                                  (* _moving_average.py:178-196 *)
      fguard 1 ti (do c1 <- fiat inp "close" 1; do m <- fiat ti (ma_name ty) 1; Ok (if fgtb c1 m then Buy else Hold))
  | iMACD =>                                     (* _moving_average_convergence_divergence.py:90-126 *)
      fguard 2 ti (
      do a <- fiat ti "macd" 2; do b <- fiat ti "macd" 1;
      do sa <- fiat ti "signal_line" 2; do sb <- fiat ti "signal_line" 1;
      Ok (if flt3 a (fint 0) b then Buy
          else if fgt3 a (fint 0) b then Sell
          else if fgtb a sa && fltb b sb then Sell
          else if fltb a sa && fgtb b sb then Buy
          else Hold))
  | iOBV => fguard 3 ti (fthree Buy Sell ti "obv")                                     (* :75-109 *)
  | iPSAR => fguard 2 ti (fline_cross Sell Buy inp ti "sar")                           (* :208-233 *)
  | iPVT => fguard 3 ti (fthree Buy Sell ti "pvt")                                     (* :83-117 *)
  | iPOSC _ _ => fguard 2 ti (flevel_cross 0 Buy 0 Sell ti "posc")                     (* :112-133 *)
  | iPRC _ => fguard 3 ti (fthree Buy Sell ti "prc")                                   (* :99-133 *)
  | iPROJ _ =>                                   (* _projection_oscillator.py:115-153 *)
      fguard 4 ti (
      do p4 <- fiat ti "posc" 4; do p3 <- fiat ti "posc" 3; do p2 <- fiat ti "posc" 2; do p1 <- fiat ti "posc" 1;
      do g4 <- fiat ti "trigger_line" 4; do g3 <- fiat ti "trigger_line" 3;
      do g2 <- fiat ti "trigger_line" 2; do g1 <- fiat ti "trigger_line" 1;
      Ok (if flt3 p2 (fint 15) p1 then Buy
          else if fgt3 p2 (fint 85) p1 then Sell
          else if fltb p4 g4 && fltb p3 g3 && fgtb p2 g2 && fgtb p1 g1 then Buy
          else if fgtb p4 g4 && fgtb p3 g3 && fltb p2 g2 && fltb p1 g1 then Sell
          else Hold))
  | iQS _ =>                                     (* _qstick.py:96-129 *)
      fguard 4 ti (
      do q4 <- fiat ti "qstick" 4; do q3 <- fiat ti "qstick" 3;
      do q2 <- fiat ti "qstick" 2; do q1 <- fiat ti "qstick" 1;
      case2 (flt3 q4 q3 (fint 0) && flt3 (fint 0) q2 q1) Buy (fgt3 q4 q3 (fint 0) && fgt3 (fint 0) q2 q1) Sell)
  | iRMI _ _ => fguard 2 ti (flevel_cross 70 Sell 30 Buy ti "rmi")                     (* :149-171 *)
  | iRSI _ => fguard 2 ti (flevel_cross 70 Sell 30 Buy ti "rsi")                       (* :139-161 *)
  | iRVI _ => fguard 2 ti (flevel_cross 60 Sell 40 Buy ti "rvi")                       (* :181-201 *)
  | iSMI _ _ _ => fguard 2 ti (flevel_cross 40 Sell (-40) Buy ti "smi")                (* :187-209 *)
  | iSWI => fguard 2 ti (flevel_cross 0 Sell 0 Buy ti "swi")                           (* :109-131 *)
  | iTSF _ => fguard 2 ti (fline_cross Buy Sell inp ti "tsf")                          (* :111-139 *)
  | iTEMA _ =>                                   (* _triple_exponential_moving_average.py:104-126 *)
      fguard 1 ti (do c1 <- fiat inp "close" 1; do x <- fiat ti "tema" 1; case2 (fltb c1 x) Buy (fgtb c1 x) Sell)
  | iVCH _ _ => fguard 3 ti (fthree Sell Buy ti "vch")                                 (* :123-151 *)
  | iVOSC _ _ =>                                 (* _volume_oscillator.py:118-148 *)
      fguard 3 ti (
      do a <- fiat ti "vosc" 3; do b <- fiat ti "vosc" 2; do d <- fiat ti "vosc" 1;
      case2 (fltb (fint 0) a && flt3 a b d) Buy (fgt3 a b d && fgtb d (fint 0)) Sell)
  | iVRC _ => fguard 3 ti (fthree Buy Sell ti "vrc")                                   (* :98-132 *)
  | iWC => fguard 2 ti (fline_cross Buy Sell inp ti "wc")                              (* :70-96 *)
  | iWS _ => fguard 2 ti (fline_cross Buy Sell inp ti "ws")                            (* :102-128 *)
  | _ => None
  end.
