(** * PropsFloatSim: simulations on four-decimal prices in binary64 (C98).

    [float_sim npsum A L ks sgs] is the simulator of FloatSim.v on the floats nearest to the
    prices k / 10000 (k in ks), with factor A / 10000 and limit L / 10000; [exact_sim A L ks sgs]
    is the simulator of Sim.v on the same numbers in exact arithmetic.  [npsum] is np.sum, which
    may add in any order.  [slack n K A] is 30 n^2 / 2^53 times the largest amount one position
    costs; the words are in FloatSimSpec.v. *)
From Coq Require Import ZArith QArith Qcanon Reals Bool List PeanoNat Lia.
From Flocq Require Import Core IEEE754.BinarySingleNaN.
From Verif Require Import Num Pandas Frame Sim SimSpec FloatSim FloatFacts FloatSpec FloatAccSpec FloatStat FloatSimSpec FloatSimDays PropsFloat.
Import ListNotations.
Open Scope list_scope.

(** ** C98: the trades *)
Theorem C98_same_trades :
  forall npsum K A L ks sgs i, (forall l, added l (npsum l)) ->
  tradable K A L ks sgs -> off_limits K A L ks sgs -> (i < length sgs)%nat ->
  let x := float_sim npsum A L ks sgs in let e := exact_sim A L ks sgs in
  y_signal (nth i (f_data x) frow0) = x_signal (nth i (data e) simrow0) /\
  y_action (nth i (f_data x) frow0) = x_action (nth i (data e) simrow0) /\
  fs_pos (nth i (f_portfolio x) fslot0) = s_pos (nth i (portfolio e) slot0) /\
  fs_status (nth i (f_portfolio x) fslot0) = s_status (nth i (portfolio e) slot0).
Proof. exact trades_same. Qed.
Print Assumptions C98_same_trades.

(** ** C98: the amounts of every day *)
Theorem C98_amounts :
  forall npsum K A L ks sgs i, (forall l, added l (npsum l)) ->
  tradable K A L ks sgs -> off_limits K A L ks sgs -> (i < length sgs)%nat ->
  let r := nth i (f_data (float_sim npsum A L ks sgs)) frow0 in
  let x := nth i (data (exact_sim A L ks sgs)) simrow0 in
  let e := slack (length sgs) K A in
  near e (y_stock r) (x_stock x) /\ near e (y_exposure r) (x_exposure x) /\
  near e (y_portfolio_value r) (x_portfolio_value x) /\ near e (y_earnings r) (x_earnings x) /\
  near e (y_balance r) (x_balance x).
Proof. exact amounts_near. Qed.
Print Assumptions C98_amounts.

(** ** C98: the statistics *)
Theorem C98_statistics_counts :
  forall npsum round2 K A L ks sgs, (forall l, added l (npsum l)) ->
  tradable K A L ks sgs -> off_limits K A L ks sgs ->
  let z := fstatistics round2 (float_sim npsum A L ks sgs) in let s := statistics (exact_sim A L ks sgs) in
  z_trading_days z = number_of_trading_days s /\
  z_buy_signals z = number_of_buy_signals s /\ z_ignored_buy_signals z = number_of_ignored_buy_signals s /\
  z_sell_signals z = number_of_sell_signals s /\ z_ignored_sell_signals z = number_of_ignored_sell_signals s /\
  z_open_long z = last_open_long_positions s /\ z_open_short z = last_open_short_positions s.
Proof. exact stats_same. Qed.
Print Assumptions C98_statistics_counts.

(** at most one cent off; the same number of cents unless the exact amount is near a half cent *)
Theorem C98_statistics_amounts :
  forall npsum round2 K A L ks sgs, (forall l, added l (npsum l)) -> rounds round2 ->
  tradable K A L ks sgs -> off_limits K A L ks sgs -> (slack (length sgs) K A <= / 400)%R ->
  let z := fstatistics round2 (float_sim npsum A L ks sgs) in let s := statistics (exact_sim A L ks sgs) in
  let e := slack (length sgs) K A in
  let x k := nth k (data (exact_sim A L ks sgs)) simrow0 in
  let ok (v : f64) (a : num) (h : simrow -> num) :=
    one_cent v a /\
    (forall k c, length sgs = S k -> settled e c (h (x k)) -> val v = val (dec2 c) /\ a = Fin (Q2Qc (Qmake c 100))) in
  ok (z_stock_value z) (last_stock_value s) x_stock /\
  ok (z_exposure z) (last_exposure s) x_exposure /\
  ok (z_portfolio_value z) (last_portfolio_value s) x_portfolio_value /\
  ok (z_earnings z) (last_earnings s) x_earnings /\
  ok (z_balance z) (final_balance s) x_balance.
Proof. exact stats_near. Qed.
Print Assumptions C98_statistics_amounts.

(** numpy's round is one of those allowed *)
Theorem C98_numpy_rounds : rounds fround2.
Proof. exact fround2_rounds. Qed.
Print Assumptions C98_numpy_rounds.

(** 5000 days, prices up to 10000, a factor up to 2, no limit: always within one cent *)
Theorem C98_cents :
  forall npsum A ks sgs, (forall l, added l (npsum l)) -> (10000 <= A <= 20000)%Z -> (length sgs <= 5000)%nat ->
  (forall k, In k ks -> (0 <= k <= 10 ^ 8)%Z) -> (length sgs <= length ks)%nat ->
  let z := fstatistics fround2 (float_sim npsum A None ks sgs) in let s := statistics (exact_sim A None ks sgs) in
  one_cent (z_stock_value z) (last_stock_value s) /\ one_cent (z_exposure z) (last_exposure s) /\
  one_cent (z_portfolio_value z) (last_portfolio_value s) /\ one_cent (z_earnings z) (last_earnings s) /\
  one_cent (z_balance z) (final_balance s).
Proof. exact stats_cents. Qed.
Print Assumptions C98_cents.

(** ** a case: seven days, factor 1.5, limit 0.7; the sale of day 3 does not fit *)
Definition week : list Z := [2000; 3000; 1000; 4000; 2000; 7000; 2000]%Z.
Definition week_sgs : list signal := [Buy; Buy; Sell; Sell; Buy; Hold; Sell].
Definition week_sim (l : Z) := float_sim left_sum 15000 (Some l) week week_sgs.
Definition week_exact (l : Z) := exact_sim 15000 (Some l) week week_sgs.
Example C98_case :
  tradable 7000 15000 (Some 7000%Z) week week_sgs /\ off_limits 7000 15000 (Some 7000%Z) week week_sgs /\
  (slack (length week_sgs) 7000 15000 <= / 400)%R /\
  map x_action (data (week_exact 7000)) = map Some [ANone; ALong; AShort; ANone; ALong; ANone; AShort] /\
  (** the float amounts do differ: the exposure of the last day is above the float nearest to 0.45 *)
  fltb (dec4 4500) (y_exposure (nth 6 (f_data (week_sim 7000)) frow0)) = true /\
  (z_ignored_sell_signals (fstatistics fround2 (week_sim 7000)), z_open_short (fstatistics fround2 (week_sim 7000))) = (1, 2)%nat /\
  settled (slack (length week_sgs) 7000 15000) 45 (x_exposure (nth 6 (data (week_exact 7000)) simrow0)) /\
  bits (z_exposure (fstatistics fround2 (week_sim 7000))) = bits (dec2 45).
Proof.
  split; [apply tradable_of; vm_compute; reflexivity|]. split; [apply off_limits_of; vm_compute; reflexivity|].
  split; [apply slack_of; vm_compute; reflexivity|]. split; [vm_compute; reflexivity|]. split; [vm_compute; reflexivity|]. split; [vm_compute; reflexivity|].
  split; [apply settled_of; vm_compute; reflexivity|]. vm_compute. reflexivity.
Qed.

(** ** with a limit of 0.75, which the sale of day 3 reaches exactly, the trades differ *)
Theorem C98_at_the_limit_refuted :
  exists npsum K A L ks sgs i, (forall l, added l (npsum l)) /\ tradable K A L ks sgs /\ (i < length sgs)%nat /\
  x_action (nth i (data (exact_sim A L ks sgs)) simrow0) = Some AShort /\
  y_action (nth i (f_data (float_sim npsum A L ks sgs)) frow0) = Some ANone.
Proof.
  exists left_sum, 7000%Z, 15000%Z, (Some 7500%Z), week, week_sgs, 3%nat.
  split; [exact left_sum_adds|]. split; [apply tradable_of; vm_compute; reflexivity|]. split; [cbn; lia|]. split; vm_compute; reflexivity.
Qed.
Print Assumptions C98_at_the_limit_refuted.
