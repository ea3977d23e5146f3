(** * PropsTurn: simulations turned upside down (C118) and cut in two (C119).

    [upside_down m ps]: m - p for every price p; [opposite s]: sell for buy and buy for sell ([MirrorSpec.v]);
    [until k sgs]: the signals up to day k, then hold ([TurnSpec.v]); [on_paper], [moves]: [BooksSpec.v]. *)
From Coq Require Import ZArith QArith Qcanon Bool List String PeanoNat Lia.
From Verif Require Import Num NumFacts Pandas Sim Frame FrameSpec SimSpec Ind Signal Api IndSpec ApiSpec RangeSpec PropsApi PropsSim PropsRange ValueSpec PropsValue PropsCumul FormulaSpec PropsFormula SignalSpec PropsSignal MirrorSpec PropsMirror OrderSpec PropsOrder SteadySpec PropsSteady OneWaySpec OneWay OneWayApi PropsOneWay BooksSpec TurnSpec TurnSim TurnApi.
Import ListNotations.
Open Scope list_scope. Open Scope string_scope. Open Scope Qc_scope.
Notation built ct o raw b ob := (snd (construct o ct (RFrame raw) (VBool b)) = Ok ob).
Notation runs ob cv me fa st sts := (snd (get_ti_simulation ob cv me fa) = Ok (st, sts)).

(** ** C118 On a market turned upside down the opposite signals earn the same *)
(** without a limit, whatever the two factors; long positions become short ones *)
Theorem C118_turned ps m f f' sgs i : 1 <= f -> 1 <= f' -> (List.length sgs <= List.length ps)%nat -> (i < List.length sgs)%nat ->
  let d := data (simulate (map Fin ps) None (Fin f) sgs) in let d' := data (simulate (map Fin (upside_down m ps)) None (Fin f') (map opposite sgs)) in
  x_earnings (row_ d' i) = x_earnings (row_ d i) /\ open_longs d' i = open_shorts d i /\ open_shorts d' i = open_longs d i /\ on_paper d' i = on_paper d i /\ moves d' i = moves d i.
Proof. exact (run_turned ps m f f' sgs i). Qed.
Print Assumptions C118_turned.
(** the same for two indicators, whichever they are, whose signals are opposite on all days (such as those of C81) *)
Theorem C118_reported o o' c c' raw raw' b b' ob ob' cv cv' fa fa' f f' m st st' sts sts' : wf_raw raw -> wf_raw raw' -> built c o raw b ob -> built c' o' raw' b' ob' ->
  is_dpo (ob_ind ob) = false -> is_dpo (ob_ind ob') = false -> number_of fa = Some (Fin f) -> number_of fa' = Some (Fin f') -> runs ob cv VNone fa st sts -> runs ob' cv' VNone fa' st' sts' ->
  days_given ob' = days_given ob ->
  (forall k, (k < days_given ob)%nat -> isfin (x_stock (row_ (data st) k)) = true /\ x_stock (row_ (data st') k) = nsub (Fin m) (x_stock (row_ (data st) k))) ->
  (forall k s, (k < days_given ob)%nat -> x_signal (row_ (data st) k) = Some s -> x_signal (row_ (data st') k) = Some (opposite s)) ->
  (forall i, (i < days_given ob)%nat -> x_earnings (row_ (data st') i) = x_earnings (row_ (data st) i)) /\
  last_earnings sts' = last_earnings sts /\ last_open_long_positions sts' = last_open_short_positions sts /\ last_open_short_positions sts' = last_open_long_positions sts /\
  number_of_buy_signals sts' = number_of_sell_signals sts /\ number_of_sell_signals sts' = number_of_buy_signals sts.
Proof. exact (reported_turned o o' c c' raw raw' b b' ob ob' cv cv' fa fa' f f' m st st' sts sts'). Qed.
Print Assumptions C118_reported.
Definition course (g : simrow -> num) (ps : list Qc) (me : option num) (f : Qc) (sgs : list signal) := map (fun r => PropsSim.shown (g r)) (data (simulate (map Fin ps) me (Fin f) sgs)).
Example C118_case : 1 <= ex_f /\ (List.length ex_sgs <= List.length ex_ps)%nat /\
  course x_earnings ex_ps None ex_f ex_sgs = map Some [0; 0; 4; 7; 9; 13]%Q /\ course x_earnings (upside_down (qz 20) ex_ps) None (qz 2) (map opposite ex_sgs) = map Some [0; 0; 4; 7; 9; 13]%Q /\
  course x_stock (upside_down (qz 20) ex_ps) None (qz 2) (map opposite ex_sgs) = map Some [10; 12; 8; 11; 9; 13]%Q.
Proof. split; [discriminate|]. split; [cbn; repeat constructor|]. vm_compute. repeat split; reflexivity. Qed.
(** one season of bars and the same season mirrored at 50, through the API *)
Definition facing (m : Z) (c : ctor) : bool := match sim_of c season, sim_of c (over m season) with
  | Ok (st, _), Ok (st', _) => let n := days_given (obj_of c season) in is_made c season && is_made c (over m season) && negb (is_dpo (ob_ind (obj_of c season))) && negb (is_dpo (ob_ind (obj_of c (over m season)))) && Nat.eqb (days_given (obj_of c (over m season))) n &&
      forallb (fun k => isfin (x_stock (row_ (data st) k)) && neqb (x_stock (row_ (data st') k)) (nsub (Fin (zq m)) (x_stock (row_ (data st) k))) &&
        match x_signal (row_ (data st) k), x_signal (row_ (data st') k) with Some s, Some s' => sig_eqb s' (opposite s) | _, _ => false end) (seq 0 n)
  | _, _ => false end.
Example C118_case_reported : wf_raw (bars season) /\ wf_raw (bars (over 100 season)) /\
  forallb (facing 100) [cBB (VInt 4) (VFloat (D 1 5)); cPCH (VInt 4); cRSI (VInt 4); cWR (VInt 4); cCMO (VInt 4); cMACD] = true /\
  map (fun c => match sim_of c season, sim_of c (over 100 season) with Ok (_, s), Ok (_, s') => Some (PropsSim.shown (last_earnings s), PropsSim.shown (last_earnings s')) | _, _ => None end) [cBB (VInt 4) (VFloat (D 1 5)); cPCH (VInt 4); cRSI (VInt 4)] =
    map Some [(Some 59, Some 59); (Some 66, Some 66); (Some 24, Some 24)]%Q.
Proof. split; [apply bars_wf|]. split; [apply bars_wf|]. split; vm_compute; reflexivity. Qed.
(** a limit breaks it, since exposures are measured in money *)
Theorem C118_limit_refuted : exists ps m f sgs i l, 1 <= f /\ (List.length sgs <= List.length ps)%nat /\ (i < List.length sgs)%nat /\
  neqb (x_earnings (row_ (data (simulate (map Fin ps) (Some l) (Fin f) sgs)) i)) (x_earnings (row_ (data (simulate (map Fin (upside_down m ps)) (Some l) (Fin f) (map opposite sgs))) i)) = false.
Proof. exists (map qz [10; 10; 12]%Z), (qz 30), 1, [Hold; Buy; Hold], 2%nat, (F 15). split; [discriminate|]. split; [cbn; repeat constructor|]. split; [cbn; repeat constructor|]. vm_compute. reflexivity. Qed.
Print Assumptions C118_limit_refuted.

(** ** C119 A simulation may be cut in two *)
(** without a limit: what was signalled up to day k, watched to the end, and a new simulation started on day k add up to the whole *)
Theorem C119_cut ps f sgs k i : 1 <= f -> (List.length sgs <= List.length ps)%nat -> (k + i < List.length sgs)%nat ->
  let whole := data (simulate (map Fin ps) None (Fin f) sgs) in let early := data (simulate (map Fin ps) None (Fin f) (until k sgs)) in let late := data (simulate (map Fin (skipn k ps)) None (Fin f) (skipn k sgs)) in
  let r := row_ whole (k + i) in let r1 := row_ early (k + i) in let r2 := row_ late i in
  x_earnings r = nadd (x_earnings r1) (x_earnings r2) /\ x_exposure r = nadd (x_exposure r1) (x_exposure r2) /\ x_portfolio_value r = nadd (x_portfolio_value r1) (x_portfolio_value r2) /\ x_balance r = nadd (x_balance r1) (x_balance r2) /\
  open_longs whole (k + i) = (open_longs early (k + i) + open_longs late i)%nat /\ open_shorts whole (k + i) = (open_shorts early (k + i) + open_shorts late i)%nat.
Proof. exact (run_cut ps f sgs k i). Qed.
Print Assumptions C119_cut.
Example C119_case : until 2 ex_sgs = [Buy; Buy; Sell; Hold; Hold; Hold] /\ course x_earnings ex_ps None ex_f (until 2 ex_sgs) = map Some [0; 0; 4; 7; 7; 7]%Q /\
  course x_earnings (skipn 2 ex_ps) None ex_f (skipn 2 ex_sgs) = map Some [0; 0; 2; 6]%Q /\ course x_earnings ex_ps None ex_f ex_sgs = map Some [0; 0; 4; 7; 9; 13]%Q.
Proof. vm_compute. repeat split; reflexivity. Qed.
(** with a limit the early positions can keep the later ones out *)
Theorem C119_limit_refuted : exists ps f sgs k i l, 1 <= f /\ (List.length sgs <= List.length ps)%nat /\ (k + i < List.length sgs)%nat /\
  neqb (x_earnings (row_ (data (simulate (map Fin ps) (Some l) (Fin f) sgs)) (k + i)))
    (nadd (x_earnings (row_ (data (simulate (map Fin ps) (Some l) (Fin f) (until k sgs))) (k + i))) (x_earnings (row_ (data (simulate (map Fin (skipn k ps)) (Some l) (Fin f) (skipn k sgs))) i))) = false.
Proof. exists (map qz [10; 10; 5; 4; 8]%Z), 1, [Hold; Buy; Hold; Buy; Hold], 2%nat, 2%nat, (F 10). split; [discriminate|]. split; [cbn; repeat constructor|]. split; [cbn; repeat constructor|]. vm_compute. reflexivity. Qed.
Print Assumptions C119_limit_refuted.
