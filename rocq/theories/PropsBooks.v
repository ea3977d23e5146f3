(** * PropsBooks: the books of a simulation (C116) and what a number of trades can earn (C117).

    [held d i]: stocks owned, or owed if negative, at the end of day i; [moves d i]: what they gained from each day to the next up to day i;
    [on_paper d i]: what the open positions would bring on day i; [paid d i], [received d i]: the prices at which the open long and short ones were opened;
    [trades_closed d i]: positions opened and closed again by day i.  All are read off the returned rows ([BooksSpec.v], [SimSpec.v]). *)
From Coq Require Import ZArith QArith Qcanon Bool List String PeanoNat Lia.
From Verif Require Import Num NumFacts Pandas Sim Frame FrameSpec SimSpec SimProofs SimLemmas Ind Signal Api IndSpec ApiSpec RangeSpec PropsApi PropsSim PropsRange ValueSpec PropsValue PropsCumul FormulaSpec PropsFormula SignalSpec PropsSignal MirrorSpec PropsMirror OrderSpec PropsOrder SteadySpec PropsSteady OneWaySpec OneWay OneWayApi PropsOneWay BooksSpec Books BooksApi.
Import ListNotations.
Open Scope list_scope. Open Scope string_scope. Open Scope Qc_scope.
Notation built ct o raw b ob := (snd (construct o ct (RFrame raw) (VBool b)) = Ok ob).
Notation runs ob cv me fa st sts := (snd (get_ti_simulation ob cv me fa) = Ok (st, sts)).
Notation price := SimSpec.price.

(** ** C116 Realised and unrealised profit add up to what the market moved *)
(** with any limit and factor, on every day; the open positions never show a profit *)
Theorem C116_books ps m f sgs i : 1 <= f -> (List.length sgs <= List.length ps)%nat -> (i < List.length sgs)%nat ->
  let d := data (simulate (map Fin ps) m (Fin f) sgs) in
  exists e v x, x_earnings (row_ d i) = Fin e /\ x_portfolio_value (row_ d i) = Fin v /\ x_exposure (row_ d i) = Fin x /\ x_balance (row_ d i) = Fin (e + v) /\
    e + on_paper d i = moves d i /\ on_paper d i <= 0 /\ v = price d i * held d i /\ x = paid d i + f * received d i /\ on_paper d i = v - paid d i + received d i.
Proof. exact (run_books ps m f sgs i). Qed.
Print Assumptions C116_books.
(** without sell signals this is said by the published columns alone: earnings + portfolio value - exposure *)
Theorem C116_only_buys ps m f sgs i : 1 <= f -> (List.length sgs <= List.length ps)%nat -> (i < List.length sgs)%nat -> (forall j, (j <= i)%nat -> nth j sgs Hold <> Sell) ->
  let d := data (simulate (map Fin ps) m (Fin f) sgs) in
  exists e v x, x_earnings (row_ d i) = Fin e /\ x_portfolio_value (row_ d i) = Fin v /\ x_exposure (row_ d i) = Fin x /\ e + v - x = moves d i /\ v <= x.
Proof. exact (run_only_buys ps m f sgs i). Qed.
Print Assumptions C116_only_buys.
(** without buy signals: earnings + portfolio value + exposure / factor *)
Theorem C116_only_sells ps m f sgs i : 1 <= f -> (List.length sgs <= List.length ps)%nat -> (i < List.length sgs)%nat -> (forall j, (j <= i)%nat -> nth j sgs Hold <> Buy) ->
  let d := data (simulate (map Fin ps) m (Fin f) sgs) in
  exists e v x, x_earnings (row_ d i) = Fin e /\ x_portfolio_value (row_ d i) = Fin v /\ x_exposure (row_ d i) = Fin x /\ e + v + x / f = moves d i.
Proof. exact (run_only_sells ps m f sgs i). Qed.
Print Assumptions C116_only_sells.
(** the same for the rows getTiSimulation returns, for every indicator and all arguments *)
Theorem C116_reported o c raw b ob cv me fa f st sts i : wf_raw raw -> built c o raw b ob -> is_dpo (ob_ind ob) = false -> number_of fa = Some (Fin f) -> runs ob cv me fa st sts ->
  (forall k, (k < days_given ob)%nat -> isfin (x_stock (row_ (data st) k)) = true) -> (i < days_given ob)%nat ->
  let d := data st in
  exists e v x, x_earnings (row_ d i) = Fin e /\ x_portfolio_value (row_ d i) = Fin v /\ x_exposure (row_ d i) = Fin x /\ x_balance (row_ d i) = Fin (e + v) /\
    e + on_paper d i = moves d i /\ on_paper d i <= 0 /\ v = price d i * held d i /\ x = paid d i + f * received d i /\ on_paper d i = v - paid d i + received d i.
Proof. exact (fun W H ND FA R PR => reported_books o c raw b ob cv me fa f st sts W H ND FA R PR i). Qed.
Print Assumptions C116_reported.
(** if nothing is open at the end, the reported earnings are exactly what the market moved under the positions held, to the cent *)
Theorem C116_reported_flat o c raw b ob cv me fa f st sts : wf_raw raw -> built c o raw b ob -> is_dpo (ob_ind ob) = false -> number_of fa = Some (Fin f) -> runs ob cv me fa st sts ->
  (forall k, (k < days_given ob)%nat -> isfin (x_stock (row_ (data st) k)) = true) ->
  last_open_long_positions sts = 0%nat -> last_open_short_positions sts = 0%nat -> last_earnings sts = nround 2 (Fin (moves (data st) (days_given ob - 1))).
Proof. exact (reported_flat o c raw b ob cv me fa f st sts). Qed.
Print Assumptions C116_reported_flat.

Definition ledger (g : list simrow -> nat -> Qc) (d : list simrow) (n : nat) := map (fun i => this (g d i)) (seq 0 n).
Definition wave := map qz [10; 8; 12; 9; 11; 7]%Z.
Definition wave_d := data (simulate (map Fin wave) None (Fin ex_f) [Hold; Buy; Sell; Buy; Buy; Hold]).
Example C116_case : 1 <= ex_f /\
  ledger held wave_d 6 = [0; 1; -1; 1; 1; 1]%Q /\ ledger moves wave_d 6 = [0; 0; 4; 7; 9; 5]%Q /\ ledger on_paper wave_d 6 = [0; 0; 0; 0; 0; -4]%Q /\
  map (fun r => PropsSim.shown (x_earnings r)) wave_d = map Some [0; 0; 4; 7; 9; 9]%Q /\
  let long_d := data (simulate (map Fin wave) (Some (F 22)) (Fin ex_f) [Hold; Buy; Buy; Buy; Buy; Hold]) in
  map (fun r => (PropsSim.shown (x_earnings r), PropsSim.shown (x_portfolio_value r), PropsSim.shown (x_exposure r))) long_d = map (fun t => let '(e, v, x) := t in (Some e, Some v, Some x)) [(0, 0, 0); (0, 8, 8); (4, 12, 12); (4, 18, 21); (6, 11, 12); (6, 7, 12)]%Q /\
  ledger moves long_d 6 = [0; 0; 4; 1; 5; 1]%Q.
Proof. split; [discriminate|]. vm_compute. repeat split; reflexivity. Qed.
(** through the API, on a season of bars: the price channel ends with nothing open; the envelopes report earnings of 23 while the positions held lost 7 in all *)
Definition reported (c : ctor) := match sim_of c season with
  | Ok (st, s) => let n := days_given (obj_of c season) in if forallb (fun k => isfin (x_stock (row_ (data st) k))) (seq 0 n) && is_made c season && negb (is_dpo (ob_ind (obj_of c season)))
      then Some (last_open_long_positions s, last_open_short_positions s, PropsSim.shown (last_earnings s), this (moves (data st) (n - 1)), this (on_paper (data st) (n - 1)), PropsSim.shown (final_balance s)) else None
  | Err _ => None end.
Example C116_case_reported : wf_raw (bars season) /\ number_of (VFloat (D 3 2)) = Some (Fin (Q2Qc (3 # 2))) /\
  reported (cPCH (VInt 8)) = Some (0%nat, 0%nat, Some 33, 33, 0, Some 33)%Q /\ reported (cENV (VInt 4) (VFloat (D 20 100))) = Some (0%nat, 2%nat, Some 23, -7, -30, Some (-75))%Q.
Proof. split; [apply bars_wf|]. split; [reflexivity|]. split; vm_compute; reflexivity. Qed.
(** the column called balance is not the profit: it counts the stocks bought without their cost *)
Theorem C116_balance_refuted : exists ps f sgs i, 1 <= f /\ (List.length sgs <= List.length ps)%nat /\ (i < List.length sgs)%nat /\ (forall j, nth j sgs Hold <> Sell) /\
  let d := data (simulate (map Fin ps) None (Fin f) sgs) in
  neqb (x_earnings (row_ d i)) (F 0) = true /\ qeqb (moves d i) 0 = true /\ qeqb (on_paper d i) 0 = true /\ neqb (x_balance (row_ d i)) (F 30) = true.
Proof.
  exists (map qz [10; 10; 10; 10]%Z), 1, [Hold; Buy; Buy; Buy], 3%nat. split; [discriminate|]. split; [cbn; repeat constructor|]. split; [cbn; repeat constructor|].
  split; [intro j; do 5 (destruct j as [|j]; [discriminate|]); discriminate|]. vm_compute. repeat split; reflexivity.
Qed.
Print Assumptions C116_balance_refuted.

(** ** C117 What a number of trades can earn *)
(** at most the whole range of the prices for each closed position, at least the smallest difference of two prices *)
Theorem C117_range_of_earnings ps m f sgs i : 1 <= f -> (List.length sgs <= List.length ps)%nat -> (i < List.length sgs)%nat ->
  let d := data (simulate (map Fin ps) m (Fin f) sgs) in
  exists e, x_earnings (row_ d i) = Fin e /\
    (forall lo hi, (forall j, (j <= i)%nat -> lo <= nth j ps 0 /\ nth j ps 0 <= hi) -> e <= qnat (trades_closed d i) * (hi - lo)) /\
    (forall t, (forall j k, (j <= i)%nat -> (k <= i)%nat -> nth j ps 0 < nth k ps 0 -> nth j ps 0 + t <= nth k ps 0) -> qnat (trades_closed d i) * t <= e).
Proof. exact (run_bounds ps m f sgs i). Qed.
Print Assumptions C117_range_of_earnings.
(** and the closed positions are the signals followed less the positions open *)
Theorem C117_trades ps m f sgs i : 1 <= f -> (List.length sgs <= List.length ps)%nat -> (i < List.length sgs)%nat ->
  let d := data (simulate (map Fin ps) m (Fin f) sgs) in
  (trades_closed d i + open_longs d i + open_shorts d i = count_days (S i) (fun j => match act d j with ANone => false | _ => true end))%nat /\
  (trades_closed d i + open_longs d i + open_shorts d i <= count (sig_eqb Buy) (firstn (S i) sgs) + count (sig_eqb Sell) (firstn (S i) sgs))%nat.
Proof. exact (run_trades ps m f sgs i). Qed.
Print Assumptions C117_trades.
Example C117_case : map (trades_closed wave_d) (seq 0 6) = [0; 0; 1; 2; 3; 3]%nat /\ (forall j, (j <= 5)%nat -> qz 7 <= nth j wave 0 /\ nth j wave 0 <= qz 12) /\
  (forall j k, (j <= 5)%nat -> (k <= 5)%nat -> nth j wave 0 < nth k wave 0 -> nth j wave 0 + 1 <= nth k wave 0).
Proof.
  split; [vm_compute; reflexivity|]. split.
  - intros j J. do 6 (destruct j as [|j]; [split; discriminate|]). lia.
  - intros j k J K. do 6 (destruct j as [|j]; [do 6 (destruct k as [|k]; [intro L; first [discriminate L | discriminate]|]); lia|]). lia.
Qed.
