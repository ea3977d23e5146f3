(** * PropsMoveSim: simulations on a market and on the same market with one amount added to all prices (C122).

    [moved c d ob ob' ...]: every price x the indicator asks for is d + x in the second input ([MoveSpec.v]); [keeps_advice]: the
    rules of C86 ([MoveDaySpec.v]); [ordinary], [even_ticks], [twice]: [MirrorSpec.v]; [limited k ob]: the object as the simulation
    sees it on day k ([Api.v]). *)
From Coq Require Import ZArith QArith Qcanon Bool List String PeanoNat Lia.
From Verif Require Import Num NumFacts Pandas Sim Frame FrameSpec SimSpec Ind Signal Api IndSpec ApiSpec RangeSpec PropsApi PropsSim PropsRange ValueSpec PropsValue PropsCumul FormulaSpec PropsFormula SignalSpec PropsSignal MirrorSpec PropsMirror MoveSpec PropsMove OrderSpec PropsOrder SteadySpec PropsSteady OneWaySpec OneWay OneWayApi PropsOneWay BooksSpec TurnSpec PropsTurn MoveDaySpec MoveSims.
Import ListNotations.
Open Scope list_scope. Open Scope string_scope. Open Scope Qc_scope.

(** ** C122 One amount added to all prices changes neither the trades nor the earnings *)
(** the same advice on every day of the simulation *)
Theorem C122_every_day o raw raw' b b' ob ob' d op h l cl v c k s : wf_raw raw -> wf_raw raw' -> NoDup (dates raw) -> NoDup (dates raw') -> even_ticks d ->
  twice c o raw raw' b b' ob ob' -> moved c d ob ob' op h l cl v -> (forall j, (j < days_given ob)%nat -> ordinary c (days_given ob) j op h l cl v) -> is_dpo (asked c) = false ->
  (k < days_given ob)%nat -> keeps_advice c (limited k ob) -> get_ti_signal (limited k ob) = Ok s -> get_ti_signal (limited k ob') = Ok s.
Proof. exact (fun W W' N N' E T M ORD D K => day_stays o raw raw' b b' ob ob' d op h l cl v c W W' N N' E T M ORD D k K s). Qed.
Print Assumptions C122_every_day.
(** given signals, without limit: the same earnings, open positions and profits on paper, whatever the amount and the two factors *)
Theorem C122_books ps d f f' sgs i : 1 <= f -> 1 <= f' -> (List.length sgs <= List.length ps)%nat -> (i < List.length sgs)%nat ->
  let r := data (simulate (map Fin ps) None (Fin f) sgs) in let r' := data (simulate (map Fin (map (fun p => d + p) ps)) None (Fin f') sgs) in
  x_earnings (row_ r' i) = x_earnings (row_ r i) /\ open_longs r' i = open_longs r i /\ open_shorts r' i = open_shorts r i /\ on_paper r' i = on_paper r i /\ BooksSpec.moves r' i = BooksSpec.moves r i.
Proof. exact (run_moved ps d f f' sgs i). Qed.
Print Assumptions C122_books.
(** so the simulations signal the same on every day, whatever their limits and factors ... *)
Theorem C122_same_signals o raw raw' b b' ob ob' d op h l cl v c cv cv' me me' fa fa' st st' sts sts' k : wf_raw raw -> wf_raw raw' -> NoDup (dates raw) -> NoDup (dates raw') -> even_ticks d ->
  twice c o raw raw' b b' ob ob' -> moved c d ob ob' op h l cl v -> (forall j, (j < days_given ob)%nat -> ordinary c (days_given ob) j op h l cl v) -> is_dpo (asked c) = false ->
  runs ob cv me fa st sts -> runs ob' cv' me' fa' st' sts' -> (forall j, (j < days_given ob)%nat -> keeps_advice c (limited j ob)) ->
  (k < days_given ob)%nat -> x_signal (row_ (data st') k) = x_signal (row_ (data st) k).
Proof. exact (fun W W' N N' E T M ORD D R R' KA => run_stays o raw raw' b b' ob ob' d op h l cl v c W W' N N' E T M ORD D cv cv' me me' fa fa' st st' sts sts' R R' KA k). Qed.
Print Assumptions C122_same_signals.
(** ... and without limit, on prices moved too, they earn the same on every day and end with the same statistics *)
Theorem C122_same_earnings o raw raw' b b' ob ob' d op h l cl v c cv cv' me me' fa fa' f f' st st' sts sts' : wf_raw raw -> wf_raw raw' -> NoDup (dates raw) -> NoDup (dates raw') -> even_ticks d ->
  twice c o raw raw' b b' ob ob' -> moved c d ob ob' op h l cl v -> (forall j, (j < days_given ob)%nat -> ordinary c (days_given ob) j op h l cl v) -> is_dpo (asked c) = false ->
  runs ob cv me fa st sts -> runs ob' cv' me' fa' st' sts' -> (forall j, (j < days_given ob)%nat -> keeps_advice c (limited j ob)) ->
  number_of fa = Some (Fin f) -> number_of fa' = Some (Fin f') -> me = VNone -> me' = VNone ->
  (forall k, (k < days_given ob)%nat -> isfin (x_stock (row_ (data st) k)) = true /\ x_stock (row_ (data st') k) = nadd (Fin d) (x_stock (row_ (data st) k))) ->
  (forall i, (i < days_given ob)%nat -> x_earnings (row_ (data st') i) = x_earnings (row_ (data st) i)) /\
  last_earnings sts' = last_earnings sts /\ last_open_long_positions sts' = last_open_long_positions sts /\ last_open_short_positions sts' = last_open_short_positions sts /\
  number_of_buy_signals sts' = number_of_buy_signals sts /\ number_of_sell_signals sts' = number_of_sell_signals sts.
Proof. exact (fun W W' N N' E T M ORD D R R' KA => run_earns_as_before o raw raw' b b' ob ob' d op h l cl v c W W' N N' E T M ORD D cv cv' me me' fa fa' f f' st st' sts sts' R R' KA). Qed.
Print Assumptions C122_same_earnings.

(** a season of bars and the same season 500 dearer *)
Definition dearer_prices (d : Z) (c : ctor) : bool := match sim_of c season, sim_of c (aside d season) with
  | Ok (st, _), Ok (st', _) => forallb (fun k => isfin (x_stock (row_ (data st) k)) && neqb (x_stock (row_ (data st') k)) (nadd (Fin (zq d)) (x_stock (row_ (data st) k)))) (seq 0 (days_given (first_of c season)))
  | _, _ => false end.
Definition bought (c : ctor) : bool := match sim_of c season with Ok (_, s) => negb (Nat.eqb (number_of_buy_signals s) 0) | _ => false end.
Definition keeping_cases := [cRSI (VInt 4); cTEMA (VInt 3); cCCI (VInt 5); cDEMA (VInt 3); cMA (VInt 4) (VStr "simple"); cBB (VInt 4) (VFloat (D 1 5)); cVCH (VInt 3) (VInt 3)].
Definition two_earnings (d : Z) (c : ctor) := match sim_of c season, sim_of c (aside d season) with Ok (_, s), Ok (_, s') => Some (PropsSim.shown (last_earnings s), PropsSim.shown (last_earnings s')) | _, _ => None end.
Example C122_case : NoDup (dates (bars season)) /\ NoDup (dates (bars (aside 500 season))) /\
  (forall c, In c keeping_cases -> placing c 500 season (first_of c season) (beside_of c 500 season) /\ is_dpo (asked c) = false /\ dearer_prices 500 c = true /\ bought c = true) /\
  (forall k, keeps_advice (cRSI (VInt 4)) (limited k (first_of (cRSI (VInt 4)) season)) /\ keeps_advice (cMA (VInt 4) (VStr "simple")) (limited k (first_of (cMA (VInt 4) (VStr "simple")) season))) /\
  map (two_earnings 500) [cRSI (VInt 4); cDEMA (VInt 3); cBB (VInt 4) (VFloat (D 1 5))] = map Some [(Some 24, Some 24); (Some 42, Some 42); (Some 59, Some 59)]%Q.
Proof.
  split; [vm_compute; repeat constructor; cbn; intuition discriminate|]. split; [vm_compute; repeat constructor; cbn; intuition discriminate|]. split.
  - intros c I. assert (Q : forallb (fun c => placed c 500 season && negb (is_dpo (asked c)) && dearer_prices 500 c && bought c) keeping_cases = true) by (vm_compute; reflexivity).
    rewrite forallb_forall in Q. specialize (Q c I). rewrite !andb_true_iff in Q. destruct Q as [[[A B] C] D]. split; [apply placed_ok; exact A|]. split; [apply negb_true_iff; exact B|]. split; assumption.
  - split; [intro k; split; [left; exact Logic.I|right; right; right; right; exists (VInt 4), "simple"; split; [reflexivity|discriminate]]|]. vm_compute; reflexivity.
Qed.
(** the envelope is a share of the price: it earns on the cheap market and holds still on the dear one *)
Theorem C122_envelope_refuted : exists c d rs st sts st' sts', c = cENV (VInt 3) (VFloat (D 1 10)) /\ placing c d rs (first_of c rs) (beside_of c d rs) /\ sim_of c rs = Ok (st, sts) /\ sim_of c (aside d rs) = Ok (st', sts') /\
  nltb (last_earnings sts') (last_earnings sts) = true.
Proof.
  exists (cENV (VInt 3) (VFloat (D 1 10))), 500%Z, season. eexists. eexists. eexists. eexists. split; [reflexivity|]. split; [apply placed_ok; vm_compute; reflexivity|]. split; [vm_compute; reflexivity|]. split; vm_compute; reflexivity.
Qed.
Print Assumptions C122_envelope_refuted.
(** a limit is an amount of money and lets fewer dear positions in *)
Theorem C122_limit_refuted : exists ps d f sgs i l, 1 <= f /\ (List.length sgs <= List.length ps)%nat /\ (i < List.length sgs)%nat /\
  neqb (x_earnings (row_ (data (simulate (map Fin (map (fun p => d + p) ps)) (Some l) (Fin f) sgs)) i)) (x_earnings (row_ (data (simulate (map Fin ps) (Some l) (Fin f) sgs)) i)) = false.
Proof. exists (map qz [10; 10; 12]%Z), (qz 30), 1, [Hold; Buy; Hold], 2%nat, (F 15). split; [discriminate|]. split; [cbn; repeat constructor|]. split; [cbn; repeat constructor|]. vm_compute. reflexivity. Qed.
Print Assumptions C122_limit_refuted.
