(** * PropsIdle: days that bring neither a signal nor earnings may be left out of a simulation (C120).

    [leave_out k l]: the list without its k-th entry ([IdleSpec.v]). *)
From Coq Require Import ZArith QArith Qcanon Bool List String PeanoNat Lia.
From Verif Require Import Num NumFacts Pandas Sim Frame FrameSpec SimSpec Ind Signal Api IndSpec ApiSpec RangeSpec PropsApi PropsSim PropsRange ValueSpec PropsValue PropsCumul FormulaSpec PropsFormula SignalSpec PropsSignal OrderSpec PropsOrder SteadySpec PropsSteady OneWaySpec OneWay OneWayApi PropsOneWay IdleSpec IdleSim IdleApi.
Import ListNotations.
Open Scope list_scope. Open Scope string_scope. Open Scope Qc_scope.
Notation built ct o raw b ob := (snd (construct o ct (RFrame raw) (VBool b)) = Ok ob).
Notation runs ob cv me fa st sts := (snd (get_ti_simulation ob cv me fa) = Ok (st, sts)).

(** ** C120 A day without a signal and without earnings may be left out *)
(** with any limit and factor; all rows of the other days are the same, and so are the statistics but for the number of days *)
Theorem C120_idle_day ps m f sgs k : 1 <= f -> (List.length sgs <= List.length ps)%nat -> (S k < List.length sgs)%nat -> nth (S k) sgs Hold = Hold ->
  let st := simulate (map Fin ps) m (Fin f) sgs in let st' := simulate (map Fin (leave_out (S k) ps)) m (Fin f) (leave_out (S k) sgs) in
  x_earnings (row_ (data st) (S k)) = x_earnings (row_ (data st) k) ->
  (forall i, (i <= k)%nat -> row_ (data st') i = row_ (data st) i) /\ (forall i, (k < i)%nat -> row_ (data st') i = row_ (data st) (S i)) /\
  x_exposure (row_ (data st) (S k)) = x_exposure (row_ (data st) k) /\ open_longs (data st) (S k) = open_longs (data st) k /\ open_shorts (data st) (S k) = open_shorts (data st) k /\
  ((S (S k) < List.length sgs)%nat -> let s := statistics st in
    statistics st' = mkStats (number_of_trading_days s - 1) (number_of_buy_signals s) (number_of_ignored_buy_signals s) (number_of_sell_signals s) (number_of_ignored_sell_signals s)
      (last_stock_value s) (last_exposure s) (last_open_long_positions s) (last_open_short_positions s) (last_portfolio_value s) (last_earnings s) (final_balance s)).
Proof.
  exact (fun F L K HO EA => conj (fun i I => idle_earlier ps m f sgs k F L K HO EA i I) (conj (fun i I => idle_later ps m f sgs k F L K HO EA i I)
    (conj (same_exposure ps m f sgs k F L K HO EA) (conj (same_longs ps m f sgs k F L K HO EA) (conj (same_shorts ps m f sgs k F L K HO EA) (idle_statistics ps m f sgs k F L K HO EA)))))).
Qed.
Print Assumptions C120_idle_day.
(** a price that stays brings no earnings whatever the signal; with hold the row of the day before is repeated *)
Theorem C120_price_stays ps m f sgs k : 1 <= f -> (List.length sgs <= List.length ps)%nat -> (S k < List.length sgs)%nat -> nth (S k) ps 0 = nth k ps 0 ->
  let d := data (simulate (map Fin ps) m (Fin f) sgs) in
  x_earnings (row_ d (S k)) = x_earnings (row_ d k) /\
  (nth (S k) sgs Hold = Hold -> row_ d (S k) = let r := row_ d k in mkRow (Some Hold) (Some ANone) (x_stock r) (x_exposure r) (x_portfolio_value r) (x_earnings r) (x_balance r)).
Proof. exact (fun F L K P => conj (stays_earnings ps m f sgs k F L K P) (stays_row ps m f sgs k F L K P)). Qed.
Print Assumptions C120_price_stays.
(** the same for the rows getTiSimulation returns *)
Theorem C120_price_stays_reported o c raw b ob cv me fa f st sts k : wf_raw raw -> built c o raw b ob -> is_dpo (ob_ind ob) = false -> number_of fa = Some (Fin f) -> runs ob cv me fa st sts ->
  (forall k, (k < days_given ob)%nat -> isfin (x_stock (row_ (data st) k)) = true) -> (S k < days_given ob)%nat ->
  x_signal (row_ (data st) (S k)) = Some Hold -> x_stock (row_ (data st) (S k)) = x_stock (row_ (data st) k) ->
  row_ (data st) (S k) = let r := row_ (data st) k in mkRow (Some Hold) (Some ANone) (x_stock r) (x_exposure r) (x_portfolio_value r) (x_earnings r) (x_balance r).
Proof. exact (reported_stays o c raw b ob cv me fa f st sts k). Qed.
Print Assumptions C120_price_stays_reported.
(** two simulations, of the same or of different indicators, whose prices and signals are the same but for an idle day *)
Theorem C120_idle_day_reported o o' c c' raw raw' b b' ob ob' cv cv' me fa f st st' sts sts' k : wf_raw raw -> wf_raw raw' -> built c o raw b ob -> built c' o' raw' b' ob' ->
  is_dpo (ob_ind ob) = false -> is_dpo (ob_ind ob') = false -> number_of fa = Some (Fin f) -> runs ob cv me fa st sts -> runs ob' cv' me fa st' sts' ->
  days_given ob = S (days_given ob') -> (S (S k) < days_given ob)%nat -> (forall i, (i < days_given ob)%nat -> isfin (x_stock (row_ (data st) i)) = true) ->
  (forall i, (i <= k)%nat -> x_stock (row_ (data st') i) = x_stock (row_ (data st) i) /\ x_signal (row_ (data st') i) = x_signal (row_ (data st) i)) ->
  (forall i, (k < i < days_given ob')%nat -> x_stock (row_ (data st') i) = x_stock (row_ (data st) (S i)) /\ x_signal (row_ (data st') i) = x_signal (row_ (data st) (S i))) ->
  x_signal (row_ (data st) (S k)) = Some Hold -> x_earnings (row_ (data st) (S k)) = x_earnings (row_ (data st) k) ->
  (forall i, (i <= k)%nat -> row_ (data st') i = row_ (data st) i) /\ (forall i, (k < i)%nat -> row_ (data st') i = row_ (data st) (S i)) /\
  sts' = mkStats (number_of_trading_days sts - 1) (number_of_buy_signals sts) (number_of_ignored_buy_signals sts) (number_of_sell_signals sts) (number_of_ignored_sell_signals sts)
    (last_stock_value sts) (last_exposure sts) (last_open_long_positions sts) (last_open_short_positions sts) (last_portfolio_value sts) (last_earnings sts) (final_balance sts).
Proof. exact (reported_idle o o' c c' raw raw' b b' ob ob' cv cv' me fa f st st' sts sts' k). Qed.
Print Assumptions C120_idle_day_reported.

(** day 2 is idle although the price falls (the long position of day 1 loses); day 5 because the price stays *)
Definition dull := map qz [10; 8; 7; 12; 9; 9; 11]%Z.
Definition dull_s := [Hold; Buy; Hold; Sell; Buy; Hold; Hold].
Definition dull_run (g : simrow -> num) (ps : list Qc) (sgs : list signal) := map (fun r => PropsSim.shown (g r)) (data (simulate (map Fin ps) (Some (F 30)) (Fin ex_f) sgs)).
Example C120_case : 1 <= ex_f /\ nth 2 dull_s Hold = Hold /\ nth 5 dull_s Hold = Hold /\
  dull_run x_earnings dull dull_s = map Some [0; 0; 0; 4; 7; 7; 9]%Q /\ dull_run x_exposure dull dull_s = map Some [0; 8; 8; 18; 9; 9; 0]%Q /\
  dull_run x_earnings (leave_out 2 dull) (leave_out 2 dull_s) = map Some [0; 0; 4; 7; 7; 9]%Q /\ dull_run x_exposure (leave_out 2 dull) (leave_out 2 dull_s) = map Some [0; 8; 18; 9; 9; 0]%Q /\
  dull_run x_portfolio_value dull dull_s = map Some [0; 8; 7; -12; 9; 9; 0]%Q /\ dull_run x_earnings (leave_out 5 dull) (leave_out 5 dull_s) = map Some [0; 0; 0; 4; 7; 9]%Q /\
  qeqb (nth 5 dull 0) (nth 4 dull 0) = true.
Proof. split; [discriminate|]. vm_compute. repeat split; reflexivity. Qed.
(** through the API: the performance indicator over a season, with and without its fourth day *)
Definition skips (k : nat) (c : ctor) (rs : list (Z * Z * Z * Z * Z)) : bool := match sim_of c rs, sim_of c (leave_out (S k) rs) with
  | Ok (st, s), Ok (st', s') => let n := days_given (obj_of c rs) in is_made c rs && is_made c (leave_out (S k) rs) && negb (is_dpo (ob_ind (obj_of c rs))) && negb (is_dpo (ob_ind (obj_of c (leave_out (S k) rs)))) &&
      Nat.eqb n (S (days_given (obj_of c (leave_out (S k) rs)))) && (S (S k) <? n)%nat && forallb (fun i => isfin (x_stock (row_ (data st) i))) (seq 0 n) &&
      forallb (fun i => let j := if (i <=? k)%nat then i else S i in neqb (x_stock (row_ (data st') i)) (x_stock (row_ (data st) j)) &&
        match x_signal (row_ (data st) j), x_signal (row_ (data st') i) with Some s, Some s' => sig_eqb s' s | _, _ => false end) (seq 0 (n - 1)) &&
      match x_signal (row_ (data st) (S k)) with Some Hold => true | _ => false end && neqb (x_earnings (row_ (data st) (S k))) (x_earnings (row_ (data st) k)) && neqb (last_earnings s') (last_earnings s) && Nat.eqb (number_of_sell_signals s') (number_of_sell_signals s)
  | _, _ => false end.
Definition prf_season := sim_of (cPRF (VStr "LONG") (VFloat (D 20 100))) season.
Example C120_case_reported : wf_raw (bars season) /\ wf_raw (bars (leave_out 3 season)) /\ skips 2 (cPRF (VStr "LONG") (VFloat (D 20 100))) season = true /\
  match prf_season with Ok (st, s) => (PropsSim.shown (last_earnings s), number_of_sell_signals s, neqb (x_stock (row_ (data st) 3)) (x_stock (row_ (data st) 2))) | Err _ => (None, 0%nat, false) end = (Some 62%Q, 13%nat, true).
Proof. split; [apply bars_wf|]. split; [apply bars_wf|]. split; vm_compute; reflexivity. Qed.
(** a day on which something was earned cannot be left out, and neither can the first day, which is never traded *)
Theorem C120_earning_day_refuted : exists ps f sgs k i, 1 <= f /\ (List.length sgs <= List.length ps)%nat /\ (S k < List.length sgs)%nat /\ nth (S k) sgs Hold = Hold /\ (k < i)%nat /\
  neqb (x_earnings (row_ (data (simulate (map Fin (leave_out (S k) ps)) None (Fin f) (leave_out (S k) sgs))) i)) (x_earnings (row_ (data (simulate (map Fin ps) None (Fin f) sgs)) (S i))) = false.
Proof. exists (map qz [10; 8; 12; 9]%Z), 1, [Hold; Buy; Hold; Hold], 1%nat, 2%nat. split; [discriminate|]. do 2 (split; [cbn; repeat constructor|]). split; [reflexivity|]. split; [repeat constructor|]. vm_compute. reflexivity. Qed.
Print Assumptions C120_earning_day_refuted.
Theorem C120_first_day_refuted : exists ps f sgs i, 1 <= f /\ (List.length sgs <= List.length ps)%nat /\ nth 0 sgs Hold = Hold /\
  neqb (x_earnings (row_ (data (simulate (map Fin (leave_out 0 ps)) None (Fin f) (leave_out 0 sgs))) i)) (x_earnings (row_ (data (simulate (map Fin ps) None (Fin f) sgs)) (S i))) = false.
Proof. exists (map qz [10; 8; 12]%Z), 1, [Hold; Buy; Hold], 1%nat. split; [discriminate|]. split; [cbn; repeat constructor|]. split; [reflexivity|]. vm_compute. reflexivity. Qed.
Print Assumptions C120_first_day_refuted.
