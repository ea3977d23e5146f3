(** * PropsLimit: what max_exposure and short_exposure_factor change in a
    simulation, and what they do not (C99).

    [simulate prices m f sgs] is the simulator after its constructor and one round
    per signal (see PropsSim.v); two simulations with the same prices and signals are
    compared.  [same_but_exposure r r'] (SimLimit.v): the rows have the same signal,
    action, stock value, portfolio value, earnings and balance.  [sold_short d i]: what
    the short positions open on day i were sold for.  [looser m m']: m' lets pass
    whatever m lets pass.  [ignored_on d j]: day j has a buy or sell signal and no
    action. *)
From Coq Require Import ZArith QArith Qcanon Bool List PeanoNat Lia.
From Verif Require Import Num NumFacts Pandas Frame Sim SimSpec SimProofs SimLemmas SimLimit PropsSim.
Import ListNotations.
Open Scope Qc_scope.

(** the settings act through the trades only: two simulations that made the same
    trades up to a day agree on that day, except for the exposure, which differs by the
    difference of the factors times what the open short positions were sold for *)
Theorem C99_trades_decide ps m m' f f' sgs i : 1 <= f -> 1 <= f' -> (length sgs <= length ps)%nat -> (i < length sgs)%nat ->
  let d := data (simulate (map Fin ps) m (Fin f) sgs) in let d' := data (simulate (map Fin ps) m' (Fin f') sgs) in
  (forall j, (j <= i)%nat -> x_action (row_ d' j) = x_action (row_ d j)) ->
  same_but_exposure (row_ d i) (row_ d' i) /\ x_exposure (row_ d' i) = nadd (x_exposure (row_ d i)) (Fin ((f' - f) * sold_short d i)).
Proof. intros F1 F1' L I d d' A. exact (trades_decide ps m m' f f' sgs F1 F1' L i I A). Qed.
Print Assumptions C99_trades_decide.

(** so do the positions they hold at the end ... *)
Theorem C99_trades_decide_positions ps m m' f f' sgs j : 1 <= f -> 1 <= f' -> (length sgs <= length ps)%nat -> (j < length sgs)%nat ->
  let s := simulate (map Fin ps) m (Fin f) sgs in let s' := simulate (map Fin ps) m' (Fin f') sgs in
  (forall i, (i < length sgs)%nat -> x_action (row_ (data s') i) = x_action (row_ (data s) i)) ->
  s_pos (nth j (portfolio s') slot0) = s_pos (nth j (portfolio s) slot0) /\ s_status (nth j (portfolio s') slot0) = s_status (nth j (portfolio s) slot0).
Proof. intros F1 F1' L J s s' A. exact (slots_decide ps m m' f f' sgs F1 F1' L j J A). Qed.
Print Assumptions C99_trades_decide_positions.

(** ... and the statistics, all but the last exposure *)
Theorem C99_trades_decide_statistics ps m m' f f' sgs : 1 <= f -> 1 <= f' -> (length sgs <= length ps)%nat ->
  let s := simulate (map Fin ps) m (Fin f) sgs in let s' := simulate (map Fin ps) m' (Fin f') sgs in
  (forall i, (i < length sgs)%nat -> x_action (row_ (data s') i) = x_action (row_ (data s) i)) ->
  statistics s' = mkStats (number_of_trading_days (statistics s)) (number_of_buy_signals (statistics s)) (number_of_ignored_buy_signals (statistics s))
    (number_of_sell_signals (statistics s)) (number_of_ignored_sell_signals (statistics s)) (last_stock_value (statistics s)) (last_exposure (statistics s'))
    (last_open_long_positions (statistics s)) (last_open_short_positions (statistics s)) (last_portfolio_value (statistics s)) (last_earnings (statistics s)) (final_balance (statistics s)).
Proof. intros F1 F1' L s s' A. exact (stats_decide ps m m' f f' sgs F1 F1' L A). Qed.
Print Assumptions C99_trades_decide_statistics.

(** without a limit the factor changes nothing but the exposure *)
Theorem C99_factor_without_limit ps f f' sgs i : 1 <= f -> 1 <= f' -> (length sgs <= length ps)%nat -> (i < length sgs)%nat ->
  let d := data (simulate (map Fin ps) None (Fin f) sgs) in let d' := data (simulate (map Fin ps) None (Fin f') sgs) in
  same_but_exposure (row_ d i) (row_ d' i) /\ x_exposure (row_ d' i) = nadd (x_exposure (row_ d i)) (Fin ((f' - f) * sold_short d i)).
Proof. exact (factor_free ps f f' sgs i). Qed.
Print Assumptions C99_factor_without_limit.
Theorem C99_factor_without_limit_statistics ps f f' sgs : 1 <= f -> 1 <= f' -> (length sgs <= length ps)%nat ->
  let s := statistics (simulate (map Fin ps) None (Fin f) sgs) in let s' := statistics (simulate (map Fin ps) None (Fin f') sgs) in
  s' = mkStats (number_of_trading_days s) (number_of_buy_signals s) (number_of_ignored_buy_signals s) (number_of_sell_signals s) (number_of_ignored_sell_signals s)
         (last_stock_value s) (last_exposure s') (last_open_long_positions s) (last_open_short_positions s) (last_portfolio_value s) (last_earnings s) (final_balance s).
Proof. exact (factor_free_stats ps f f' sgs). Qed.
Print Assumptions C99_factor_without_limit_statistics.

(** a limit that the simulation without limit does not exceed on the days it trades
    changes nothing at all *)
Theorem C99_limit_not_reached ps v f sgs i : 1 <= f -> (length sgs <= length ps)%nat -> (i < length sgs)%nat ->
  let d := data (simulate (map Fin ps) None (Fin f) sgs) in
  (forall j, (0 < j <= i)%nat -> nth j sgs Hold <> Hold -> nltb v (x_exposure (row_ d j)) = false) ->
  row_ (data (simulate (map Fin ps) (Some v) (Fin f) sgs)) i = row_ d i.
Proof. exact (limit_not_reached ps v f sgs i). Qed.
Print Assumptions C99_limit_not_reached.

(** raising the limit changes nothing until a signal has been ignored *)
Theorem C99_same_until_ignored ps m m' f sgs i : 1 <= f -> (length sgs <= length ps)%nat -> looser m m' -> (i < length sgs)%nat ->
  let d := data (simulate (map Fin ps) m (Fin f) sgs) in
  (forall j, (0 < j <= i)%nat -> ignored_on d j = false) ->
  row_ (data (simulate (map Fin ps) m' (Fin f) sgs)) i = row_ d i.
Proof. intros F1 L LO I. exact (same_until_ignored ps m m' f sgs F1 L i LO I). Qed.
Print Assumptions C99_same_until_ignored.

(** the hypotheses and more than one kind of day: with a limit of 17 the third signal of
    the market of PropsSim.v is ignored, with 40 none is; no limit and 40 agree; two
    factors differ in the exposure of the short position of day 2 and 4 only *)
Definition rows_of (m : option num) (f : Qc) := data (simulate (map Fin ex_ps) m (Fin f) ex_sgs).
Definition exposures (d : list simrow) := map (fun r => shown (x_exposure r)) d.
Definition balances (d : list simrow) := map (fun r => shown (x_balance r)) d.
Example C99_case :
  map (ignored_on (rows_of (Some (F 17)) ex_f)) (seq 1 5) = [false; true; false; false; false] /\
  map (ignored_on (rows_of (Some (F 40)) ex_f)) (seq 1 5) = [false; false; false; false; false] /\
  map (fun j => nltb (F 40) (x_exposure (row_ (rows_of None ex_f) j))) (seq 1 5) = [false; false; false; false; false] /\
  exposures (rows_of None ex_f) = exposures (rows_of (Some (F 40)) ex_f) /\
  exposures (rows_of None ex_f) <> exposures (rows_of (Some (F 17)) ex_f) /\
  exposures (rows_of None ex_f) <> exposures (rows_of None (qz 2)) /\
  balances (rows_of None ex_f) = balances (rows_of None (qz 2)) /\
  map (fun i => this (sold_short (rows_of None ex_f) i)) (seq 0 6) = [0; 0; 12; 0; 11; 0]%Q.
Proof. vm_compute. repeat split; discriminate. Qed.

(** it is false that a higher limit follows more signals or earns more: with a limit of
    10 instead of 9 the purchase at 10 goes through and blocks the later, cheaper ones,
    which would have been sold at a profit *)
Theorem C99_higher_limit_refuted : exists ps sgs v v', nltb v v' = true /\
  (let s := simulate (map Fin ps) (Some v) (Fin 1) sgs in let s' := simulate (map Fin ps) (Some v') (Fin 1) sgs in
   (number_of_ignored_buy_signals (statistics s) < number_of_ignored_buy_signals (statistics s'))%nat /\
   nltb (last_earnings (statistics s')) (last_earnings (statistics s)) = true /\ nltb (final_balance (statistics s')) (final_balance (statistics s)) = true).
Proof.
  exists (map qz [10; 10; 5; 4; 10]%Z), [Hold; Buy; Buy; Buy; Hold], (F 9), (F 10). split; [vm_compute; reflexivity|]. vm_compute. repeat split; try lia.
Qed.
Print Assumptions C99_higher_limit_refuted.
(** nor that a smaller factor earns more: with the factor 1 the sale at 8 fits and keeps
    the simulation from a better purchase *)
Theorem C99_smaller_factor_refuted : exists ps sgs m f f', 1 <= f /\ nltb (Fin f) (Fin f') = true /\
  (let s := simulate (map Fin ps) m (Fin f) sgs in let s' := simulate (map Fin ps) m (Fin f') sgs in
   nltb (final_balance (statistics s)) (final_balance (statistics s')) = true).
Proof.
  exists (map qz [8; 8; 9; 20]%Z), [Hold; Sell; Buy; Hold], (Some (F 10)), 1, (qz 2). split; [discriminate|]. vm_compute. repeat split.
Qed.
Print Assumptions C99_smaller_factor_refuted.
