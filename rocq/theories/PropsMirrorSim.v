(** * PropsMirrorSim: the simulations of one indicator on a market and on the same market turned upside down (C121).

    [turned_over c m ob ob' ...]: every price x the indicator asks for is m - x in the second input, high and low exchanged;
    [ordinary], [even_handed], [even_ticks], [twice], [opposite]: [MirrorSpec.v]; [limited k ob]: the object as the simulation
    sees it on day k ([Api.v]). *)
From Coq Require Import ZArith QArith Qcanon Bool List String PeanoNat Lia.
From Verif Require Import Num NumFacts Pandas Sim Frame FrameSpec SimSpec Ind Signal Api IndSpec ApiSpec RangeSpec PropsApi PropsSim PropsRange ValueSpec PropsValue PropsCumul FormulaSpec PropsFormula SignalSpec PropsSignal MirrorSpec PropsMirror OrderSpec PropsOrder SteadySpec PropsSteady OneWaySpec OneWay OneWayApi PropsOneWay BooksSpec TurnSpec PropsTurn MirrorSims.
Import ListNotations.
Open Scope list_scope. Open Scope string_scope. Open Scope Qc_scope.

(** ** C121 An even-handed indicator earns the same on a market turned upside down *)
(** on every day of the simulation the advice is the opposite one *)
Theorem C121_every_day o raw raw' b b' ob ob' m op h l cl v c k s : wf_raw raw -> wf_raw raw' -> NoDup (dates raw) -> NoDup (dates raw') -> even_ticks m ->
  twice c o raw raw' b b' ob ob' -> turned_over c m ob ob' op h l cl v -> (forall j, (j < days_given ob)%nat -> ordinary c (days_given ob) j op h l cl v) -> is_dpo (asked c) = false ->
  (k < days_given ob)%nat -> even_handed c (limited k ob) -> get_ti_signal (limited k ob) = Ok s -> get_ti_signal (limited k ob') = Ok (opposite s).
Proof. exact (fun W W' N N' E T TO ORD D => day_reversed o raw raw' b b' ob ob' m op h l cl v c W W' N N' E T TO ORD D k s). Qed.
Print Assumptions C121_every_day.
(** so the simulations signal the opposite on every day, whatever their limits and factors ... *)
Theorem C121_opposite o raw raw' b b' ob ob' m op h l cl v c cv cv' me me' fa fa' st st' sts sts' k s : wf_raw raw -> wf_raw raw' -> NoDup (dates raw) -> NoDup (dates raw') -> even_ticks m ->
  twice c o raw raw' b b' ob ob' -> turned_over c m ob ob' op h l cl v -> (forall j, (j < days_given ob)%nat -> ordinary c (days_given ob) j op h l cl v) -> is_dpo (asked c) = false ->
  runs ob cv me fa st sts -> runs ob' cv' me' fa' st' sts' -> (forall j, (j < days_given ob)%nat -> even_handed c (limited j ob)) ->
  (k < days_given ob)%nat -> x_signal (row_ (data st) k) = Some s -> x_signal (row_ (data st') k) = Some (opposite s).
Proof. exact (fun W W' N N' E T TO ORD D R R' EH => run_reversed o raw raw' b b' ob ob' m op h l cl v c W W' N N' E T TO ORD D cv cv' me me' fa fa' st st' sts sts' R R' EH k s). Qed.
Print Assumptions C121_opposite.
(** ... and without limit, on prices mirrored too, they earn the same on every day; buys and sells, long and short exchange their places *)
Theorem C121_same_earnings o raw raw' b b' ob ob' m op h l cl v c cv cv' me me' fa fa' f f' st st' sts sts' : wf_raw raw -> wf_raw raw' -> NoDup (dates raw) -> NoDup (dates raw') -> even_ticks m ->
  twice c o raw raw' b b' ob ob' -> turned_over c m ob ob' op h l cl v -> (forall j, (j < days_given ob)%nat -> ordinary c (days_given ob) j op h l cl v) -> is_dpo (asked c) = false ->
  runs ob cv me fa st sts -> runs ob' cv' me' fa' st' sts' -> (forall j, (j < days_given ob)%nat -> even_handed c (limited j ob)) ->
  number_of fa = Some (Fin f) -> number_of fa' = Some (Fin f') -> me = VNone -> me' = VNone ->
  (forall k, (k < days_given ob)%nat -> isfin (x_stock (row_ (data st) k)) = true /\ x_stock (row_ (data st') k) = nsub (Fin m) (x_stock (row_ (data st) k))) ->
  (forall i, (i < days_given ob)%nat -> x_earnings (row_ (data st') i) = x_earnings (row_ (data st) i)) /\
  last_earnings sts' = last_earnings sts /\ last_open_long_positions sts' = last_open_short_positions sts /\ last_open_short_positions sts' = last_open_long_positions sts /\
  number_of_buy_signals sts' = number_of_sell_signals sts /\ number_of_sell_signals sts' = number_of_buy_signals sts.
Proof. exact (fun W W' N N' E T TO ORD D R R' EH => run_earns_the_same o raw raw' b b' ob ob' m op h l cl v c W W' N N' E T TO ORD D cv cv' me me' fa fa' f f' st st' sts sts' R R' EH). Qed.
Print Assumptions C121_same_earnings.

(** a season of bars and the season mirrored at 50: indicators whose hypotheses hold on all days, and what the simulations earn *)
Definition uncrossed (up low : string) (c : ctor) (rs : list (Z * Z * Z * Z * Z)) : bool := forallb (fun k => negb (nltb (ago up (limited k (first_of c rs)) 1) (ago low (limited k (first_of c rs)) 1))) (seq 0 (days_given (first_of c rs))).
Definition mirrored_prices (m : Z) (c : ctor) : bool := match sim_of c season, sim_of c (over m season) with
  | Ok (st, _), Ok (st', _) => forallb (fun k => isfin (x_stock (row_ (data st) k)) && neqb (x_stock (row_ (data st') k)) (nsub (Fin (zq m)) (x_stock (row_ (data st) k)))) (seq 0 (days_given (first_of c season)))
  | _, _ => false end.
Definition traded (c : ctor) : bool := match sim_of c season with Ok (_, s) => negb (Nat.eqb (number_of_buy_signals s) 0) && negb (Nat.eqb (number_of_sell_signals s) 0) | _ => false end.
Definition reversing_cases := [cRSI (VInt 4); cWR (VInt 4); cCMO (VInt 4); cTEMA (VInt 3); cCCI (VInt 5); cTSF (VInt 4); cBB (VInt 4) (VFloat (D 1 5)); cPCH (VInt 4)].
Example C121_case : NoDup (dates (bars season)) /\ NoDup (dates (bars (over 100 season))) /\
  (forall c, In c reversing_cases -> pairing c 100 season (first_of c season) (second_of c 100 season) /\ is_dpo (asked c) = false /\ mirrored_prices 100 c = true /\ traded c = true) /\
  (forall k, even_handed (cRSI (VInt 4)) (limited k (first_of (cRSI (VInt 4)) season))) /\ uncrossed "upper_band" "lower_band" (cBB (VInt 4) (VFloat (D 1 5))) season = true /\
  map (fun c => match sim_of c season, sim_of c (over 100 season) with Ok (_, s), Ok (_, s') => Some (PropsSim.shown (last_earnings s), PropsSim.shown (last_earnings s')) | _, _ => None end) [cRSI (VInt 4); cBB (VInt 4) (VFloat (D 1 5)); cPCH (VInt 4)] =
    map Some [(Some 24, Some 24); (Some 59, Some 59); (Some 66, Some 66)]%Q.
Proof.
  split; [vm_compute; repeat constructor; cbn; intuition discriminate|]. split; [vm_compute; repeat constructor; cbn; intuition discriminate|]. split.
  - intros c I. assert (Q : forallb (fun c => paired c 100 season && negb (is_dpo (asked c)) && mirrored_prices 100 c && traded c) reversing_cases = true) by (vm_compute; reflexivity).
    rewrite forallb_forall in Q. specialize (Q c I). rewrite !andb_true_iff in Q. destruct Q as [[[A B] C] D]. split; [apply paired_ok; exact A|]. split; [apply negb_true_iff; exact B|]. split; assumption.
  - split; [intro; exact Logic.I|]. split; vm_compute; reflexivity.
Qed.
