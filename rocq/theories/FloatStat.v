(** * FloatStat: the statistics of a simulation in IEEE-754 binary64.

    _calculateSimulationStatistics as in Sim.v, on the rows of FloatSim.v.  [round2] is
    round(x, 2): numpy computes rint(100 x) / 100 ([fround2]), older versions used python's
    round for some of the cells; it is left open. *)
From Coq Require Import ZArith Bool List PeanoNat.
From Flocq Require Import IEEE754.BinarySingleNaN.
From Verif Require Import Sim FloatSim FloatInd.
Import ListNotations.

Definition fround2 (x : f64) : f64 := fdiv (frint (fmul x (fz 100 0))) (fz 100 0).

Record fstats := mkFstats {
  z_trading_days : nat;
  z_buy_signals : nat;
  z_ignored_buy_signals : nat;
  z_sell_signals : nat;
  z_ignored_sell_signals : nat;
  z_stock_value : f64;
  z_exposure : f64;
  z_open_long : nat;
  z_open_short : nat;
  z_portfolio_value : f64;
  z_earnings : f64;
  z_balance : f64 }.

Section FloatStat.
Variable round2 : f64 -> f64.
Definition fhas_signal (s : signal) (r : frow) : bool := match y_signal r with Some x => sig_eqb s x | None => false end.
Definition fno_action (r : frow) : bool := match y_action r with Some ANone => true | _ => false end.

(** trading_simulation.py:283-336 *)
Definition fstatistics (st : fsim) : fstats :=
  let d := f_data st in
  let n := count (fun r => match y_signal r with Some _ => true | None => false end) d in
  let last (g : frow -> f64) : f64 := match n with O => f0 | S k => round2 (g (nth k d frow0)) end in
  mkFstats n
    (count (fhas_signal Buy) d)
    (count (fun r => fhas_signal Buy r && fno_action r) d)
    (count (fhas_signal Sell) d)
    (count (fun r => fhas_signal Sell r && fno_action r) d)
    (last y_stock) (last y_exposure)
    (count (fun s => fis_long s && fis_open s) (f_portfolio st))
    (count (fun s => fis_short s && fis_open s) (f_portfolio st))
    (last y_portfolio_value) (last y_earnings) (last y_balance).
End FloatStat.
