(** * CurrencySpec: words used in the statements about the simulation in another currency. *)
From Coq Require Import ZArith QArith Qcanon List.
From Verif Require Import Num Frame Sim.
Import ListNotations.

(** every number of the frame is a times as large *)
Definition repriced (a : Qc) (raw : rawframe) : rawframe :=
  mkRaw (r_datetime raw) (r_labels raw) (r_numeric raw) (map (fun r => (fst r, map (nmul (Fin a)) (snd r))) (r_rows raw)).
(** the exposure limit too, if there is one *)
Definition limit_in (a : Qc) (m m' : pyval) : Prop :=
  (m = VNone /\ m' = VNone) \/ exists x, number_of m = Some x /\ number_of m' = Some (nmul (Fin a) x).
(** one day of the simulation: the same signal and action, a times the money *)
Definition in_currency (a : Qc) (r r' : simrow) : Prop :=
  x_signal r' = x_signal r /\ x_action r' = x_action r /\ x_stock r' = nmul (Fin a) (x_stock r) /\ x_exposure r' = nmul (Fin a) (x_exposure r) /\
  x_portfolio_value r' = nmul (Fin a) (x_portfolio_value r) /\ x_earnings r' = nmul (Fin a) (x_earnings r) /\ x_balance r' = nmul (Fin a) (x_balance r).
Definition same_counts (s s' : stats) : Prop :=
  number_of_trading_days s' = number_of_trading_days s /\ number_of_buy_signals s' = number_of_buy_signals s /\ number_of_ignored_buy_signals s' = number_of_ignored_buy_signals s /\
  number_of_sell_signals s' = number_of_sell_signals s /\ number_of_ignored_sell_signals s' = number_of_ignored_sell_signals s /\
  last_open_long_positions s' = last_open_long_positions s /\ last_open_short_positions s' = last_open_short_positions s.
