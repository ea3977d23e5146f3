(** * PropsSim: properties of the trading simulation (C17-C23, C25, C26).

    [simulate prices m f sgs] is the simulator after its constructor and one round
    per signal; [data] are the rows it returns.  The words used in the statements
    ([still_open], [closed_on], [profit], ...) are defined in SimSpec.v from the
    returned rows only.  [m] is max_exposure ([None]: no limit), [f] the short
    exposure factor; the constructor only lets f >= 1 through.  Prices are finite.
    Fewer signals than prices: the simulation has not reached the last days. *)
From Coq Require Import ZArith QArith Qcanon Bool List PeanoNat Lia.
From Verif Require Import Num NumFacts Pandas Frame Sim SimSpec SimProofs SimLemmas.
Import ListNotations.
Open Scope Qc_scope.

(** a concrete market used by the examples: six days, limit 17, factor 3/2 *)
Definition qz (n : Z) : Qc := Q2Qc (inject_Z n).
Definition ex_ps : list Qc := map qz [10; 8; 12; 9; 11; 7]%Z.
Definition ex_sgs : list signal := [Buy; Buy; Sell; Buy; Sell; Hold].
Definition ex_f : Qc := Q2Qc (3 # 2).
Definition ex_m : option num := Some (F 17).
Definition ex_st := simulate (map Fin ex_ps) ex_m (Fin ex_f) ex_sgs.
Definition ex_d := data ex_st.
Definition shown (x : num) : option Q := match x with Fin q => Some (this q) | _ => None end.

Example ex_meets_hypotheses :
  1 <= ex_f /\ (length ex_sgs <= length ex_ps)%nat /\ (forall p, In p ex_ps -> 0 < p).
Proof.
  split; [vm_compute; discriminate|]. split; [vm_compute; lia|].
  intros p H. repeat (destruct H as [<-|H]; [reflexivity|]). destruct H.
Qed.
Example ex_actions :
  map x_action ex_d = map Some [ANone; ALong; ANone; ALong; AShort; ANone].
Proof. reflexivity. Qed.

(** ** C17 *)
Theorem C17_exposure_is_sum_of_open_positions :
  forall ps m f sgs i, 1 <= f -> (length sgs <= length ps)%nat -> (i < length sgs)%nat ->
  let d := data (simulate (map Fin ps) m (Fin f) sgs) in
  x_exposure (row_ d i)
  = Fin (sum_days (S i) (fun j => if still_open d j i then opened_exposure f d j else 0)).
Proof. intros ps m f sgs i Hf Hl Hi. exact (sp_exposure ps m f sgs Hf Hl i Hi). Qed.
Print Assumptions C17_exposure_is_sum_of_open_positions.

Example C17_example :
  map (fun r => shown (x_exposure r)) ex_d = map Some [0; 8; 0; 9; 33 # 2; 0]%Q.
Proof. vm_compute. reflexivity. Qed.

(** the stock_value column repeats the close prices, so the words of SimSpec.v
    really speak about the caller's prices *)
Theorem C17_stock_value_is_close_price :
  forall ps m f sgs i, 1 <= f -> (length sgs <= length ps)%nat -> (i < length sgs)%nat ->
  x_stock (row_ (data (simulate (map Fin ps) m (Fin f) sgs)) i) = Fin (nth i ps 0).
Proof. intros ps m f sgs i Hf Hl Hi. exact (sp_stock ps m f sgs Hf Hl i Hi). Qed.
Print Assumptions C17_stock_value_is_close_price.

(** ** C18 *)
Theorem C18_open_until_first_profitable_day :
  forall ps m f sgs j, 1 <= f -> (length sgs <= length ps)%nat -> (j < length sgs)%nat ->
  let st := simulate (map Fin ps) m (Fin f) sgs in
  let d := data st in
  act d j <> ANone ->
  (s_status (nth j (portfolio st) slot0) = SOpen
     <-> forall k, (j < k < length sgs)%nat -> profitable d j k = false) /\
  (s_status (nth j (portfolio st) slot0) = SClosed
     <-> exists k, (j < k < length sgs)%nat /\ closed_on d j k = true).
Proof.
  intros ps m f sgs j Hf Hl Hj st d Ha.
  exact (conj (status_open ps m f sgs Hf Hl j Hj Ha) (status_closed ps m f sgs Hf Hl j Hj Ha)).
Qed.
Print Assumptions C18_open_until_first_profitable_day.

(** the observable side: each day exposure falls by exactly the positions closed
    that day and rises by the one opened *)
Theorem C18_exposure_released_on_closing :
  forall ps m f sgs k, 1 <= f -> (length sgs <= length ps)%nat -> (S k < length sgs)%nat ->
  let d := data (simulate (map Fin ps) m (Fin f) sgs) in
  exists before after, x_exposure (row_ d k) = Fin before /\ x_exposure (row_ d (S k)) = Fin after /\
  after = before
    - sum_days (S k) (fun j => if closed_on d j (S k) then opened_exposure f d j else 0)
    + opened_exposure f d (S k).
Proof.
  intros ps m f sgs k Hf Hl Hk d.
  exact (ex_intro _ _ (ex_intro _ _
    (conj (sp_exposure ps m f sgs Hf Hl k (Nat.lt_succ_l _ _ Hk))
    (conj (sp_exposure ps m f sgs Hf Hl (S k) Hk) (exposure_step ps m f sgs Hl k Hk))))).
Qed.
Print Assumptions C18_exposure_released_on_closing.

(** a position is closed on one day only *)
Theorem C18_closed_once :
  forall d j k k', closed_on d j k = true -> closed_on d j k' = true -> k = k'.
Proof. exact closed_on_unique. Qed.
Print Assumptions C18_closed_once.

Example C18_example :
  (closed_on ex_d 1 2, closed_on ex_d 3 4, closed_on ex_d 4 5, closed_on ex_d 1 4) = (true, true, true, false)
  /\ map s_status (portfolio ex_st) = [SNone; SClosed; SNone; SClosed; SClosed; SNone].
Proof. vm_compute. auto. Qed.

(** ** C19 *)
Theorem C19_earnings_are_realised_profits :
  forall ps m f sgs i, 1 <= f -> (length sgs <= length ps)%nat -> (i < length sgs)%nat ->
  let d := data (simulate (map Fin ps) m (Fin f) sgs) in
  x_earnings (row_ d i)
  = Fin (sum_days (S i) (fun k => sum_days k (fun j => if closed_on d j k then profit d j k else 0))).
Proof. intros ps m f sgs i Hf Hl Hi. exact (sp_earnings ps m f sgs Hf Hl i Hi). Qed.
Print Assumptions C19_earnings_are_realised_profits.

Theorem C19_every_closing_earns :
  forall d j k, closed_on d j k = true -> 0 < profit d j k.
Proof. exact closed_profit. Qed.
Print Assumptions C19_every_closing_earns.

Theorem C19_earnings_never_fall :
  forall ps m f sgs i, 1 <= f -> (length sgs <= length ps)%nat -> (S i < length sgs)%nat ->
  let d := data (simulate (map Fin ps) m (Fin f) sgs) in
  exists a b, x_earnings (row_ d i) = Fin a /\ x_earnings (row_ d (S i)) = Fin b /\ 0 <= a /\ a <= b.
Proof.
  intros ps m f sgs i Hf Hl Hi d.
  exact (ex_intro _ _ (ex_intro _ _
    (conj (sp_earnings ps m f sgs Hf Hl i (Nat.lt_succ_l _ _ Hi))
    (conj (sp_earnings ps m f sgs Hf Hl (S i) Hi)
    (conj (earnings_nonneg d i) (earnings_mono d i)))))).
Qed.
Print Assumptions C19_earnings_never_fall.

Example C19_example :
  map (fun r => shown (x_earnings r)) ex_d = map Some [0; 0; 4; 4; 6; 10]%Q.
Proof. vm_compute. reflexivity. Qed.

(** ** C20 *)
Theorem C20_portfolio_value_and_balance :
  forall ps m f sgs i, 1 <= f -> (length sgs <= length ps)%nat -> (i < length sgs)%nat ->
  let d := data (simulate (map Fin ps) m (Fin f) sgs) in
  x_portfolio_value (row_ d i)
    = Fin (nth i ps 0 * Q2Qc (inject_Z (Z.of_nat (open_longs d i) - Z.of_nat (open_shorts d i)))) /\
  x_balance (row_ d i) = nadd (x_earnings (row_ d i)) (x_portfolio_value (row_ d i)).
Proof.
  intros ps m f sgs i Hf Hl Hi d. unfold d. rewrite <- (sp_price ps m f sgs Hf Hl i Hi).
  exact (conj (sp_pv ps m f sgs Hf Hl i Hi) (sp_balance ps m f sgs Hf Hl i Hi)).
Qed.
Print Assumptions C20_portfolio_value_and_balance.

Example C20_example :
  map (fun r => (shown (x_portfolio_value r), shown (x_balance r))) ex_d
  = map (fun p => (Some (fst p), Some (snd p))) [(0, 0); (8, 8); (0, 4); (9, 13); (-11, -5); (0, 10)]%Q.
Proof. vm_compute. reflexivity. Qed.

(** ** C21: holds for non-negative prices *)
Theorem C21_exposure_never_above_limit :
  forall ps M f sgs i, 1 <= f -> (length sgs <= length ps)%nat -> (i < length sgs)%nat ->
  0 <= M -> (forall p, In p ps -> 0 <= p) ->
  exists e, x_exposure (row_ (data (simulate (map Fin ps) (Some (Fin M)) (Fin f) sgs)) i) = Fin e
            /\ 0 <= e /\ e <= M.
Proof.
  intros ps M f sgs i Hf Hl Hi HM Hp.
  exact (exposure_in_range ps (Some (Fin M)) f sgs Hf Hl M i eq_refl HM Hp Hi).
Qed.
Print Assumptions C21_exposure_never_above_limit.

(** without that hypothesis it is false: nothing stops negative prices (which do
    occur for commodities), and closing a position of negative exposure raises
    the total *)
Theorem C21_negative_prices_refuted :
  exists ps M f sgs i, 1 <= f /\ 0 < M /\ length sgs = length ps /\ (i < length sgs)%nat /\
  exists e, x_exposure (row_ (data (simulate (map Fin ps) (Some (Fin M)) (Fin f) sgs)) i) = Fin e /\ M < e.
Proof.
  exists (map qz [1; -5; 5; -6]%Z), (qz 1), ex_f, [Hold; Sell; Buy; Hold], 3%nat.
  repeat split; try (vm_compute; lia); try (vm_compute; discriminate); try reflexivity.
  eexists. split; [vm_compute; reflexivity|]. reflexivity.
Qed.
Print Assumptions C21_negative_prices_refuted.

(** and a NaN limit, which the constructor accepts, is no limit at all *)
Theorem C21_nan_limit_refuted :
  check_max_exposure (VFloat NaN) = Ok (Some NaN) /\
  forall x, fits (Some NaN) x = true.
Proof. split; reflexivity. Qed.
Print Assumptions C21_nan_limit_refuted.

Example C21_example :
  map (fun r => shown (x_exposure r)) ex_d = map Some [0; 8; 0; 9; 33 # 2; 0]%Q.
Proof. vm_compute. reflexivity. Qed.

(** ** C22 *)
Theorem C22_when_positions_are_opened :
  forall ps m f sgs i, 1 <= f -> (length sgs <= length ps)%nat -> (i < length sgs)%nat ->
  let d := data (simulate (map Fin ps) m (Fin f) sgs) in
  let after_closing := sum_days i (fun j => if still_open d j i then opened_exposure f d j else 0) in
  (x_action (row_ d i) = Some ALong
     <-> nth i sgs Hold = Buy /\ (0 < i)%nat /\ fits m (after_closing + price d i) = true) /\
  (x_action (row_ d i) = Some AShort
     <-> nth i sgs Hold = Sell /\ (0 < i)%nat /\ fits m (after_closing + f * price d i) = true) /\
  (exists a, x_action (row_ d i) = Some a).
Proof.
  intros ps m f sgs i Hf Hl Hi.
  exact (conj (opens_long ps m f sgs Hf Hl i Hi)
        (conj (opens_short ps m f sgs Hf Hl i Hi) (some_action ps m f sgs Hf Hl i Hi))).
Qed.
Print Assumptions C22_when_positions_are_opened.

Example C22_example :
  fits ex_m (qz 18) = false /\ fits ex_m (Q2Qc (33 # 2)) = true.
Proof. vm_compute. auto. Qed.

(** ** C23 *)
Theorem C23_counts :
  forall ps m f sgs, 1 <= f -> (length sgs <= length ps)%nat ->
  let s := statistics (simulate (map Fin ps) m (Fin f) sgs) in
  number_of_trading_days s = length sgs /\
  number_of_buy_signals s = count (sig_eqb Buy) sgs /\
  number_of_sell_signals s = count (sig_eqb Sell) sgs.
Proof.
  intros ps m f sgs Hf Hl.
  exact (conj (stat_days ps m f sgs Hf Hl)
        (conj (stat_signals ps m f sgs Hf Hl Buy) (stat_signals ps m f sgs Hf Hl Sell))).
Qed.
Print Assumptions C23_counts.

Theorem C23_last_values :
  forall ps m f sgs k, 1 <= f -> (length sgs <= length ps)%nat -> length sgs = S k ->
  let st := simulate (map Fin ps) m (Fin f) sgs in
  let s := statistics st in
  let d := data st in
  last_stock_value s = nround 2 (x_stock (row_ d k)) /\
  last_exposure s = nround 2 (x_exposure (row_ d k)) /\
  last_portfolio_value s = nround 2 (x_portfolio_value (row_ d k)) /\
  last_earnings s = nround 2 (x_earnings (row_ d k)) /\
  final_balance s = nround 2 (x_balance (row_ d k)) /\
  last_open_long_positions s = open_longs d k /\
  last_open_short_positions s = open_shorts d k.
Proof. intros ps m f sgs k Hf Hl Hk. exact (stat_values ps m f sgs Hf Hl k Hk). Qed.
Print Assumptions C23_last_values.

(** the "ignored" counters: signals beyond the limit, plus the signal of day 0 *)
Theorem C23_ignored_signals :
  forall ps m f sgs, 1 <= f -> (length sgs <= length ps)%nat ->
  let st := simulate (map Fin ps) m (Fin f) sgs in
  let d := data st in
  let after_closing i := sum_days i (fun j => if still_open d j i then opened_exposure f d j else 0) in
  number_of_ignored_buy_signals (statistics st)
  = count_days (length sgs) (fun i => sig_eqb Buy (nth i sgs Hold)
       && ((i =? 0)%nat || negb (fits m (after_closing i + price d i)))) /\
  number_of_ignored_sell_signals (statistics st)
  = count_days (length sgs) (fun i => sig_eqb Sell (nth i sgs Hold)
       && ((i =? 0)%nat || negb (fits m (after_closing i + f * price d i)))).
Proof.
  intros ps m f sgs Hf Hl.
  exact (conj (ignored_buys ps m f sgs Hf Hl) (ignored_sells ps m f sgs Hf Hl)).
Qed.
Print Assumptions C23_ignored_signals.

(** documented meaning ("ignored because of the max_exposure limitation") fails:
    without any limit a buy signal on the first day counts as ignored *)
Theorem C23_ignored_because_of_limit_refuted :
  exists ps sgs, length sgs = length ps /\
  number_of_ignored_buy_signals (statistics (simulate (map Fin ps) None (F 1) sgs)) = 1%nat.
Proof. exists (map qz [5; 6]%Z), [Buy; Hold]. split; reflexivity. Qed.
Print Assumptions C23_ignored_because_of_limit_refuted.

Example C23_example :
  let s := statistics ex_st in
  (number_of_trading_days s, number_of_buy_signals s, number_of_ignored_buy_signals s,
   number_of_sell_signals s, number_of_ignored_sell_signals s) = (6, 3, 1, 2, 1)%nat
  /\ shown (final_balance s) = Some 10%Q.
Proof. vm_compute. auto. Qed.

(** ** C25 (prices may also be missing or infinite here) *)
Theorem C25_simulation_is_online :
  forall c c' m f sgs sgs' n,
  (length sgs <= length c)%nat -> (length sgs' <= length c')%nat ->
  (n <= length sgs)%nat -> (n <= length sgs')%nat ->
  firstn n c = firstn n c' -> firstn n sgs = firstn n sgs' ->
  firstn n (data (simulate c m f sgs)) = firstn n (data (simulate c' m f sgs')).
Proof. exact simulate_online. Qed.
Print Assumptions C25_simulation_is_online.

Example C25_example :
  firstn 4 ex_d = firstn 4 (data (simulate (map Fin (firstn 4 ex_ps)) ex_m (Fin ex_f) (firstn 4 ex_sgs))).
Proof. reflexivity. Qed.

(** ** C26 *)
Theorem C26_exposure_nonnegative :
  forall ps m f sgs i, 1 <= f -> (length sgs <= length ps)%nat -> (i < length sgs)%nat ->
  (forall p, In p ps -> 0 <= p) ->
  exists e, x_exposure (row_ (data (simulate (map Fin ps) m (Fin f) sgs)) i) = Fin e /\ 0 <= e.
Proof.
  intros ps m f sgs i Hf Hl Hi Hp.
  exact (ex_intro _ _ (conj (sp_exposure ps m f sgs Hf Hl i Hi) (exposure_nonneg ps m f sgs Hf Hl Hp i))).
Qed.
Print Assumptions C26_exposure_nonnegative.

Theorem C26_zero_exposure_iff_nothing_open :
  forall ps m f sgs i, 1 <= f -> (length sgs <= length ps)%nat -> (i < length sgs)%nat ->
  (forall p, In p ps -> 0 < p) ->
  let d := data (simulate (map Fin ps) m (Fin f) sgs) in
  (x_exposure (row_ d i) = Fin 0 <-> (open_longs d i = 0 /\ open_shorts d i = 0)%nat).
Proof.
  intros ps m f sgs i Hf Hl Hi Hp. exact (exposure_zero_iff ps m f sgs Hf Hl i Hp Hi).
Qed.
Print Assumptions C26_zero_exposure_iff_nothing_open.

Example C26_example : open_longs ex_d 2 = 0%nat /\ open_shorts ex_d 2 = 0%nat /\ open_shorts ex_d 4 = 1%nat.
Proof. vm_compute. auto. Qed.
