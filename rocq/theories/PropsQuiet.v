(** * PropsQuiet: simulations with fewer signals, and bands that are wider or targets that are further away (C114, C115).

    [divided sgs a b]: on every day the signal of sgs stands in a or in b, and the other one holds on that day.
    [quieter s s']: hold, or the same signal; [quieter_days a b]: so on every day.
    [wider c c']: the same indicator as c', with a larger band width (Bollinger bands, envelopes), more days (price channel) or a target further away (projected profit).
    [within x y]: y is missing or x is present and not above it; [above x y]: x is missing or y is present and not below it ([QuietSpec.v]). *)
From Coq Require Import ZArith QArith Qcanon Bool List String PeanoNat Lia.
From Verif Require Import Num NumFacts Pandas Sim Frame FrameSpec SimSpec Ind Signal Api IndSpec ApiSpec RangeSpec PropsApi PropsSim PropsRange ValueSpec PropsValue PropsCumul FormulaSpec PropsFormula SignalSpec PropsSignal MirrorSpec PropsMirror OrderSpec PropsOrder SteadySpec PropsSteady OneWaySpec OneWay OneWayApi PropsOneWay QuietSpec QuietSim QuietApi.
Import ListNotations.
Open Scope list_scope. Open Scope string_scope. Open Scope Qc_scope.
Notation built ct o raw b ob := (snd (construct o ct (RFrame raw) (VBool b)) = Ok ob).
Notation runs ob cv me fa st sts := (snd (get_ti_simulation ob cv me fa) = Ok (st, sts)).

(** ** C114 Without a limit every trade stands for itself *)
(** the signals may be divided between two simulations in any way: the results add up, day by day *)
Theorem C114_trades_stand_alone ps f sgs a b i : 1 <= f -> (List.length sgs <= List.length ps)%nat -> (i < List.length sgs)%nat -> divided sgs a b ->
  let r s := row_ (data (simulate (map Fin ps) None (Fin f) s)) i in
  x_earnings (r sgs) = nadd (x_earnings (r a)) (x_earnings (r b)) /\
  x_exposure (r sgs) = nadd (x_exposure (r a)) (x_exposure (r b)) /\
  x_portfolio_value (r sgs) = nadd (x_portfolio_value (r a)) (x_portfolio_value (r b)) /\
  x_balance (r sgs) = nadd (x_balance (r a)) (x_balance (r b)) /\
  open_longs (data (simulate (map Fin ps) None (Fin f) sgs)) i = (open_longs (data (simulate (map Fin ps) None (Fin f) a)) i + open_longs (data (simulate (map Fin ps) None (Fin f) b)) i)%nat /\
  open_shorts (data (simulate (map Fin ps) None (Fin f) sgs)) i = (open_shorts (data (simulate (map Fin ps) None (Fin f) a)) i + open_shorts (data (simulate (map Fin ps) None (Fin f) b)) i)%nat.
Proof. exact (stand_alone ps f sgs a b i). Qed.
Print Assumptions C114_trades_stand_alone.
(** leaving out signals never raises the earnings, the number of open positions or, for prices that are not negative, the exposure *)
Theorem C114_fewer_signals ps f a b i : 1 <= f -> (List.length b <= List.length ps)%nat -> (i < List.length b)%nat -> quieter_days a b ->
  let s := simulate (map Fin ps) None (Fin f) a in let s' := simulate (map Fin ps) None (Fin f) b in
  nleb (x_earnings (row_ (data s) i)) (x_earnings (row_ (data s') i)) = true /\
  (open_longs (data s) i <= open_longs (data s') i)%nat /\ (open_shorts (data s) i <= open_shorts (data s') i)%nat /\
  ((forall p, In p ps -> 0 <= p) -> nleb (x_exposure (row_ (data s) i)) (x_exposure (row_ (data s') i)) = true).
Proof. exact (fewer_signals ps f a b i). Qed.
Print Assumptions C114_fewer_signals.
(** the same, read off the answers of getTiSimulation for two indicators, whichever they are, on the same close values *)
Theorem C114_fewer_signals_reported o o' c c' raw raw' b b' ob ob' cv fa f st st' sts sts' : wf_raw raw -> wf_raw raw' -> built c o raw b ob -> built c' o' raw' b' ob' ->
  is_dpo (ob_ind ob) = false -> is_dpo (ob_ind ob') = false -> number_of fa = Some (Fin f) -> runs ob cv VNone fa st sts -> runs ob' cv VNone fa st' sts' ->
  (forall k, (k < days_given ob)%nat -> isfin (x_stock (row_ (data st) k)) = true) ->
  (forall k, (k < days_given ob)%nat -> x_signal (row_ (data st) k) = Some Hold \/ x_signal (row_ (data st) k) = x_signal (row_ (data st') k)) ->
  (forall i, (i < days_given ob)%nat -> nleb (x_earnings (row_ (data st) i)) (x_earnings (row_ (data st') i)) = true) /\
  (number_of_buy_signals sts <= number_of_buy_signals sts')%nat /\ (number_of_sell_signals sts <= number_of_sell_signals sts')%nat /\
  (last_open_long_positions sts <= last_open_long_positions sts')%nat /\ (last_open_short_positions sts <= last_open_short_positions sts')%nat /\
  nleb (last_earnings sts) (last_earnings sts') = true.
Proof. exact (fewer_earn_less o o' c c' raw raw' b b' ob ob' cv fa f st st' sts sts'). Qed.
Print Assumptions C114_fewer_signals_reported.

Definition part_a := [Buy; Hold; Hold; Buy; Hold; Hold].
Definition part_b := [Hold; Buy; Sell; Hold; Sell; Hold].
Definition course (g : simrow -> num) (me : option num) (sgs : list signal) := map (fun r => PropsSim.shown (g r)) (data (simulate (map Fin ex_ps) me (Fin ex_f) sgs)).
Example C114_case :
  1 <= ex_f /\ (List.length ex_sgs <= List.length ex_ps)%nat /\ (forall p, In p ex_ps -> 0 <= p) /\ divided ex_sgs part_a part_b /\ quieter_days part_a ex_sgs /\ quieter_days part_b ex_sgs /\
  course x_earnings None ex_sgs = map Some [0; 0; 4; 7; 9; 13]%Q /\ course x_earnings None part_a = map Some [0; 0; 0; 0; 2; 2]%Q /\ course x_earnings None part_b = map Some [0; 0; 4; 7; 7; 11]%Q /\
  course x_balance None ex_sgs = map Some [0; 8; -8; 16; -2; 13]%Q /\ course x_balance None part_a = map Some [0; 0; 0; 9; 2; 2]%Q /\ course x_balance None part_b = map Some [0; 8; -8; 7; -4; 11]%Q.
Proof.
  split; [discriminate|]. split; [cbn; repeat constructor|]. split; [intros p P; cbn in P; repeat destruct P as [<-|P]; try contradiction; discriminate|].
  split; [split; [reflexivity|]; split; [reflexivity|]; intro i; do 7 (destruct i as [|i]; [cbn; auto|]); cbn; auto|].
  split; [split; [reflexivity|]; intro i; unfold quieter; do 7 (destruct i as [|i]; [cbn; auto|]); cbn; auto|].
  split; [split; [reflexivity|]; intro i; unfold quieter; do 7 (destruct i as [|i]; [cbn; auto|]); cbn; auto|].
  vm_compute. repeat split; reflexivity.
Qed.
(** with a limit on the exposure fewer signals can earn more: the first buy uses up what a later and cheaper one would need *)
Theorem C114_limit_refuted : exists ps f a b i, 1 <= f /\ (List.length b <= List.length ps)%nat /\ (i < List.length b)%nat /\ quieter_days a b /\
  nleb (x_earnings (row_ (data (simulate (map Fin ps) (Some (F 10)) (Fin f) a)) i)) (x_earnings (row_ (data (simulate (map Fin ps) (Some (F 10)) (Fin f) b)) i)) = false.
Proof.
  exists (map qz [10; 10; 5; 4; 10]%Z), 1, [Hold; Hold; Buy; Buy; Hold], [Hold; Buy; Buy; Buy; Hold], 4%nat.
  split; [discriminate|]. split; [cbn; repeat constructor|]. split; [cbn; repeat constructor|]. split; [|vm_compute; reflexivity].
  split; [reflexivity|]. intro i; unfold quieter; do 6 (destruct i as [|i]; [cbn; auto|]); cbn; auto.
Qed.
Print Assumptions C114_limit_refuted.
(** the balance, which also counts what is still open, can be higher with fewer signals *)
Theorem C114_balance_refuted : exists ps f a b i, 1 <= f /\ (List.length b <= List.length ps)%nat /\ (i < List.length b)%nat /\ quieter_days a b /\
  nleb (x_balance (row_ (data (simulate (map Fin ps) None (Fin f) a)) i)) (x_balance (row_ (data (simulate (map Fin ps) None (Fin f) b)) i)) = false.
Proof.
  exists (map qz [10; 10; 15]%Z), 1, [Hold; Hold; Hold], [Hold; Sell; Hold], 2%nat.
  split; [discriminate|]. split; [cbn; repeat constructor|]. split; [cbn; repeat constructor|]. split; [|vm_compute; reflexivity].
  split; [reflexivity|]. intro i; unfold quieter; do 4 (destruct i as [|i]; [cbn; auto|]); cbn; auto.
Qed.
Print Assumptions C114_balance_refuted.

(** ** C115 Wider bands and further targets only take signals away *)
(** the published bands: the wider ones lie outside the narrower ones, and where only one of them is present the wider one is missing *)
Theorem C115_wider_bands o raw b ob ob' c c' up low k : wf_raw raw -> built c o raw b ob -> built c' o raw b ob' -> wider c c' -> good_sqrt o -> sound_for c ob ->
  band_rule c = Some (up, low) -> (k < days_given ob)%nat ->
  within (shown up ob' k) (shown up ob k) /\ above (shown low ob k) (shown low ob' k) /\ present_le (shown low ob' k) (shown up ob' k).
Proof. exact (fun W H H' WD G SF => wider_bands o raw b ob ob' c c' W H H' WD G SF up low k). Qed.
Print Assumptions C115_wider_bands.
(** the signal of the wider one, as given on every day, is hold or the signal of the narrower one *)
Theorem C115_fewer_signals o raw b ob ob' c c' k s s' : wf_raw raw -> NoDup (dates raw) -> built c o raw b ob -> built c' o raw b ob' -> wider c c' -> good_sqrt o -> sound_for c ob ->
  (k < days_given ob)%nat -> get_ti_signal (limited k ob) = Ok s -> get_ti_signal (limited k ob') = Ok s' -> quieter s s'.
Proof. exact (fun W N H H' WD G SF => wider_signal o raw b ob ob' c c' W N H H' WD G SF k s s'). Qed.
Print Assumptions C115_fewer_signals.
(** and the simulation without a limit earns at most as much, on every day *)
Theorem C115_earnings o raw b ob ob' c c' cv fa f st st' sts sts' : wf_raw raw -> NoDup (dates raw) -> built c o raw b ob -> built c' o raw b ob' -> wider c c' -> good_sqrt o -> sound_for c ob ->
  number_of fa = Some (Fin f) -> runs ob cv VNone fa st sts -> runs ob' cv VNone fa st' sts' -> (forall k, (k < days_given ob)%nat -> isfin (x_stock (row_ (data st) k)) = true) ->
  (forall i, (i < days_given ob)%nat -> (x_signal (row_ (data st) i) = Some Hold \/ x_signal (row_ (data st) i) = x_signal (row_ (data st') i)) /\
     nleb (x_earnings (row_ (data st) i)) (x_earnings (row_ (data st') i)) = true) /\
  (number_of_buy_signals sts <= number_of_buy_signals sts')%nat /\ (number_of_sell_signals sts <= number_of_sell_signals sts')%nat /\ nleb (last_earnings sts) (last_earnings sts') = true.
Proof. exact (fun W N H H' WD G SF => wider_simulation o raw b ob ob' c c' W N H H' WD G SF cv fa f st st' sts sts'). Qed.
Print Assumptions C115_earnings.

(** one year of bars, four pairs of parameters: the hypotheses hold, and signals and earnings do go down *)
Definition pairs := [(cBB (VInt 4) (VFloat (D 1 5)), cBB (VInt 4) (VFloat (D 1 10))); (cENV (VInt 4) (VFloat (D 20 100)), cENV (VInt 4) (VFloat (D 10 100)));
  (cPCH (VInt 4), cPCH (VInt 2)); (cPRF (VStr "LONG") (VFloat (D 2 10)), cPRF (VStr "LONG") (VFloat (D 5 100))); (cPRF (VStr "SHORT") (VFloat (D (-2) 10)), cPRF (VStr "SHORT") (VFloat (D (-5) 100)))].
Definition tell (me : pyval) (c : ctor) := match snd (get_ti_simulation (obj_of c season) (RFrame (bars season)) me (VFloat (D 3 2))) with
  | Ok (_, s) => Some (number_of_buy_signals s, number_of_sell_signals s, PropsSim.shown (last_earnings s), PropsSim.shown (final_balance s)) | Err _ => None end.
Definition leb_or_missing (x y : num) : bool := isnan x || isnan y || nleb x y.
Lemma leb_or_missing_ok x y : leb_or_missing x y = true -> present_le x y.
Proof. unfold leb_or_missing, present_le. destruct x; cbn; auto; destruct y; cbn; auto. Qed.
Definition soundb (c : ctor) (ob : obj) : bool := match c with
  | cENV _ _ => forallb (fun j => leb_or_missing (F 0) (given "close" ob j)) (seq 0 (List.length (col "close" (ob_input ob))))
  | cPCH _ => forallb (fun j => leb_or_missing (given "low" ob j) (given "high" ob j)) (seq 0 (List.length (col "low" (ob_input ob))))
  | _ => true end.
Lemma soundb_ok c ob : soundb c ob = true -> sound_for c ob.
Proof.
  destruct c; cbn [soundb sound_for]; try (intros _; exact Logic.I); rewrite forallb_forall; intros H j.
  - destruct (Nat.lt_ge_cases j (List.length (col "close" (ob_input ob)))) as [L|L]; [apply leb_or_missing_ok, H, in_seq; lia|]. right. left. unfold given, cell_at. apply nth_overflow, L.
  - destruct (Nat.lt_ge_cases j (List.length (col "low" (ob_input ob)))) as [L|L]; [apply leb_or_missing_ok, H, in_seq; lia|]. left. unfold given, cell_at. apply nth_overflow, L.
Qed.
Definition readyb (c c' : ctor) : bool := is_made c season && is_made c' season && soundb c (obj_of c season) &&
  forallb (fun k => isfin (x_stock (row_ (sim_rows c season) k))) (seq 0 (days_given (obj_of c season))) && match tell VNone c, tell VNone c' with Some _, Some _ => true | _, _ => false end.
Example C115_hypotheses : good_sqrt ora0 /\ wf_raw (bars season) /\ NoDup (dates (bars season)) /\ number_of (VFloat (D 3 2)) = Some (Fin (Q2Qc (3 # 2))) /\
  forall c c', In (c, c') pairs -> wider c c' /\ built c ora0 (bars season) true (obj_of c season) /\ built c' ora0 (bars season) true (obj_of c' season) /\ sound_for c (obj_of c season) /\
    (forall k, (k < days_given (obj_of c season))%nat -> isfin (x_stock (row_ (sim_rows c season) k)) = true) /\ tell VNone c <> None /\ tell VNone c' <> None.
Proof.
  split; [intros q Q; exact Q|]. split; [apply bars_wf|]. split; [vm_compute; repeat constructor; cbn; intuition discriminate|]. split; [reflexivity|].
  intros c c' I. assert (WD : wider c c') by (cbn [In pairs] in I; repeat destruct I as [I|I]; try contradiction; injection I as <- <-; cbn; repeat split; auto; repeat constructor; try (left; split; [reflexivity|vm_compute; reflexivity]); try (right; split; [reflexivity|vm_compute; reflexivity])).
  split; [exact WD|]. assert (R : forallb (fun q => readyb (fst q) (snd q)) pairs = true) by (vm_compute; reflexivity).
  rewrite forallb_forall in R. specialize (R _ I). cbn [fst snd] in R. unfold readyb in R. apply andb_true_iff in R as [R T]. apply andb_true_iff in R as [R P]. apply andb_true_iff in R as [R SO]. apply andb_true_iff in R as [M M'].
  split; [apply is_made_ok, M|]. split; [apply is_made_ok, M'|]. split; [apply soundb_ok, SO|]. split; [intros k K; rewrite forallb_forall in P; apply P, in_seq; lia|].
  destruct (tell VNone c), (tell VNone c'); try discriminate T. split; discriminate.
Qed.
(** buy signals, sell signals, earnings and final balance of the wider and of the narrower one *)
Example C115_case : map (fun q => (tell VNone (fst q), tell VNone (snd q))) pairs =
  [(Some (8%nat, 9%nat, Some 59%Q, Some 59%Q), Some (15%nat, 15%nat, Some 102%Q, Some 102%Q)); (Some (2%nat, 6%nat, Some 23%Q, Some (-75)%Q), Some (10%nat, 11%nat, Some 81%Q, Some 81%Q));
   (Some (7%nat, 8%nat, Some 66%Q, Some 115%Q), Some (9%nat, 10%nat, Some 69%Q, Some 167%Q)); (Some (0%nat, 13%nat, Some 62%Q, Some 62%Q), Some (0%nat, 18%nat, Some 89%Q, Some 40%Q));
   (Some (4%nat, 0%nat, Some 20%Q, Some 20%Q), Some (13%nat, 0%nat, Some 49%Q, Some 49%Q))].
Proof. vm_compute. reflexivity. Qed.
Example C115_case_bands : let wide := obj_of (cBB (VInt 4) (VFloat (D 1 5))) season in let narrow := obj_of (cBB (VInt 4) (VFloat (D 1 10))) season in
  band_rule (cBB (VInt 4) (VFloat (D 1 5))) = Some ("upper_band", "lower_band") /\
  map (fun k => (PropsSim.shown (shown "lower_band" wide k), PropsSim.shown (shown "lower_band" narrow k), PropsSim.shown (shown "upper_band" narrow k), PropsSim.shown (shown "upper_band" wide k))) [2; 9]%nat =
    [(None, None, None, None); (Some (2537 # 80), Some (83703 # 2500), Some (92547 # 2500), Some (3103 # 80))]%Q.
Proof. vm_compute. repeat split; reflexivity. Qed.
(** with a limit on the exposure the wider band can earn more *)
Theorem C115_limit_refuted : exists c c' st st' sts sts', wider c c' /\ built c ora0 (bars season) true (obj_of c season) /\ built c' ora0 (bars season) true (obj_of c' season) /\
  runs (obj_of c season) (RFrame (bars season)) (VInt 200) (VFloat (D 3 2)) st sts /\ runs (obj_of c' season) (RFrame (bars season)) (VInt 200) (VFloat (D 3 2)) st' sts' /\
  nltb (last_earnings sts') (last_earnings sts) = true.
Proof.
  assert (X : is_made (cBB (VInt 4) (VFloat (D 1 5))) season && is_made (cBB (VInt 4) (VFloat (D 1 10))) season &&
    match snd (get_ti_simulation (obj_of (cBB (VInt 4) (VFloat (D 1 5))) season) (RFrame (bars season)) (VInt 200) (VFloat (D 3 2))), snd (get_ti_simulation (obj_of (cBB (VInt 4) (VFloat (D 1 10))) season) (RFrame (bars season)) (VInt 200) (VFloat (D 3 2))) with
    | Ok (_, sts), Ok (_, sts') => nltb (last_earnings sts') (last_earnings sts) | _, _ => false end = true) by (vm_compute; reflexivity).
  apply andb_true_iff in X as [M L]. apply andb_true_iff in M as [M M'].
  destruct (snd (get_ti_simulation (obj_of (cBB (VInt 4) (VFloat (D 1 5))) season) _ _ _)) as [[st sts]|] eqn:R; [|discriminate L].
  destruct (snd (get_ti_simulation (obj_of (cBB (VInt 4) (VFloat (D 1 10))) season) _ _ _)) as [[st' sts']|] eqn:R'; [|discriminate L].
  exists (cBB (VInt 4) (VFloat (D 1 5))), (cBB (VInt 4) (VFloat (D 1 10))), st, st', sts, sts'.
  split; [split; [reflexivity|vm_compute; reflexivity]|]. split; [apply is_made_ok, M|]. split; [apply is_made_ok, M'|]. split; [exact R|]. split; [exact R'|exact L].
Qed.
Print Assumptions C115_limit_refuted.
