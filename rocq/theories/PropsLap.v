(** * PropsLap: a simulation without a limit on a market that repeats itself (C128).

    [open_longs d k], [open_shorts d k]: positions open at the end of day k, read off the rows ([SimSpec.v]); [repeats p ob]: every row of
    the indicator's data is the row p days before ([RepeatSpec.v]); [advice_reach]: [RecentSpec.v]. Nothing is said about what is open. *)
From Coq Require Import ZArith QArith Qcanon Bool List String PeanoNat Lia.
From Verif Require Import Num NumFacts Pandas Sim Frame FrameSpec SimSpec Ind Signal Api IndSpec ApiSpec RangeSpec PropsApi PropsSim PropsRange ValueSpec PropsValue PropsCumul FormulaSpec PropsFormula SignalSpec PropsSignal MemorySpec PropsMemory RecentSpec PropsRecent ResumeSim PropsResume RepeatSpec PropsRepeat CycleSim CycleRuns PropsCycleRuns LapSim LapRuns.
Import ListNotations.
Open Scope list_scope. Open Scope string_scope. Open Scope Qc_scope.
Notation built ct o raw b ob := (snd (construct o ct (RFrame raw) (VBool b)) = Ok ob).
Notation runs ob cv me fa st sts := (snd (get_ti_simulation ob cv me fa) = Ok (st, sts)).

(** ** C128 Without a limit, earnings, exposure and open positions grow by the same every cycle *)
Theorem C128_prices_and_signals ps f sgs k p t i : 1 <= f -> (List.length sgs <= List.length ps)%nat -> (1 <= p)%nat -> (1 <= k)%nat ->
  let d := data (simulate (map Fin ps) None (Fin f) sgs) in
  (forall j, (k <= j)%nat -> (j + p < List.length sgs)%nat -> nth (j + p) ps 0 = nth j ps 0) -> (forall j, (k <= j)%nat -> (j + p < List.length sgs)%nat -> nth (j + p) sgs Hold = nth j sgs Hold) ->
  (k + p <= i)%nat -> (i + t * p < List.length sgs)%nat ->
  let earned j := qv (x_earnings (row_ d j)) in let exposed j := qv (x_exposure (row_ d j)) in let longs j := nq (open_longs d j) in let shorts j := nq (open_shorts d j) in let s := (k + p)%nat in
  earned (i + t * p)%nat = earned i + nq t * (earned (s + p)%nat - earned s) /\ exposed (i + t * p)%nat = exposed i + nq t * (exposed (s + p)%nat - exposed s) /\
  longs (i + t * p)%nat = longs i + nq t * (longs (s + p)%nat - longs s) /\ shorts (i + t * p)%nat = shorts i + nq t * (shorts (s + p)%nat - shorts s).
Proof. exact (fun F L P1 K1 RP RS => run_laps ps f sgs k p F L P1 K1 RP RS t i). Qed.
Print Assumptions C128_prices_and_signals.
(** the simulation of an indicator with recent advice (C123), asked for without a limit *)
Theorem C128_market o c raw b ob n cv fa f st sts k p t i : wf_raw raw -> NoDup (dates raw) -> built c o raw b ob ->
  (nested (asked c) = true -> gapless (required (asked c)) raw) -> repeats p ob -> advice_reach (asked c) = Some n -> (n <= k)%nat ->
  number_of fa = Some (Fin f) -> runs ob cv VNone fa st sts ->
  (forall j, (j < days_given ob)%nat -> isfin (x_stock (row_ (data st) j)) = true) ->
  (forall j, (k <= j)%nat -> (j + p < days_given ob)%nat -> x_stock (row_ (data st) (j + p)) = x_stock (row_ (data st) j)) ->
  (1 <= k)%nat -> (1 <= p)%nat -> (k + p <= i)%nat -> (i + t * p < days_given ob)%nat ->
  let d := data st in let earned j := qv (x_earnings (row_ d j)) in let exposed j := qv (x_exposure (row_ d j)) in let longs j := nq (open_longs d j) in let shorts j := nq (open_shorts d j) in let s := (k + p)%nat in
  earned (i + t * p)%nat = earned i + nq t * (earned (s + p)%nat - earned s) /\ exposed (i + t * p)%nat = exposed i + nq t * (exposed (s + p)%nat - exposed s) /\
  longs (i + t * p)%nat = longs i + nq t * (longs (s + p)%nat - longs s) /\ shorts (i + t * p)%nat = shorts i + nq t * (shorts (s + p)%nat - shorts s).
Proof. exact (market_laps o c raw b ob n cv fa f st sts k p t i). Qed.
Print Assumptions C128_market.

(** the market of [stuck_ps]: every cycle earns 4 and leaves one more position of 14 open *)
Definition stuck_run := data (simulate (map Fin stuck_ps) None (Fin ex_f) stuck_sgs).
Example C128_case : forallb (fun j => qeqb (nth (j + 4) stuck_ps 0) (nth j stuck_ps 0)) (seq 0 8) = true /\
  map (fun r => PropsSim.shown (x_earnings r)) stuck_run = map Some [0; 0; 4; 4; 4; 4; 8; 8; 8; 8; 12; 12]%Q /\
  map (fun r => PropsSim.shown (x_exposure r)) stuck_run = map Some [0; 8; 0; 14; 14; 22; 14; 28; 28; 36; 28; 42]%Q /\
  map (open_longs stuck_run) (seq 0 12) = [0; 1; 0; 1; 1; 2; 1; 2; 2; 3; 2; 3]%nat.
Proof. vm_compute. repeat split; reflexivity. Qed.
Definition free_tide c := snd (get_ti_simulation (on_tide c) (RFrame (bars tide)) VNone (VFloat (D 3 2))).
Definition unbound (c : ctor) : bool := let d := rows_of (free_tide c) in match free_tide c with Ok _ => true | _ => false end &&
  Nat.leb (reach c) 8 && forallb (fun j => isfin (x_stock (row_ d j))) (seq 0 40) && forallb (fun j => neqb (x_stock (row_ d (j + 8))) (x_stock (row_ d j))) (seq 0 32).
Definition read (g : simrow -> num) c j := PropsSim.shown (g (row_ (rows_of (free_tide c)) j)).
(** every indicator of the list on the tide: earnings on days 16, 24 and 32; four of them leave positions open in every cycle *)
Definition three (g : simrow -> num) c := (read g c 16, read g c 24, read g c 32).
Definition wider c := negb (neqb (x_exposure (row_ (rows_of (free_tide c)) 24)) (x_exposure (row_ (rows_of (free_tide c)) 16))).
Definition some3 (q : Q * Q * Q) := let '(x, y, z) := q in (Some x, Some y, Some z).
Example C128_tide_case : forallb unbound recurring = true /\
  map (three x_earnings) recurring = map some3 [(0, 0, 0); (20, 30, 40); (14, 24, 34); (30, 46, 62); (20, 30, 40); (0, 0, 0); (8, 12, 16); (14, 22, 30); (12, 22, 32); (22, 36, 50); (10, 20, 30); (12, 18, 24); (18, 32, 46); (36, 58, 80); (12, 20, 28); (12, 18, 24); (22, 38, 54); (18, 30, 42); (10, 20, 30); (30, 50, 70); (26, 44, 62); (0, 0, 0); (20, 30, 40); (12, 22, 32); (0, 0, 0)]%Q /\
  map (three x_exposure) (filter wider recurring) = map some3 [(303, 405, 507); (96, 144, 192); (138, 186, 234); (174, 228, 282)]%Q.
Proof. vm_compute. repeat split; reflexivity. Qed.
(** the first cycle may earn more: positions from before close in it *)
Theorem C128_first_cycle_refuted : exists ps f sgs k p, let d := data (simulate (map Fin ps) None (Fin f) sgs) in 1 <= f /\ List.length sgs = List.length ps /\ (k + 2 * p < List.length sgs)%nat /\ (1 <= k)%nat /\ (1 <= p)%nat /\
  forallb (fun j => qeqb (nth (j + p) ps 0) (nth j ps 0)) (seq k (List.length ps - p - k)) = true /\ forallb (fun j => same_sig (Ok (nth (j + p) sgs Hold)) (Ok (nth j sgs Hold))) (seq k (List.length sgs - p - k)) = true /\
  neqb (nsub (x_earnings (row_ d (k + 2 * p))) (x_earnings (row_ d (k + p)))) (nsub (x_earnings (row_ d (k + p))) (x_earnings (row_ d k))) = false.
Proof.
  exists (map qz [20; 9; 8; 12; 8; 12; 8; 12]%Z), ex_f, [Hold; Buy; Hold; Hold; Hold; Hold; Hold; Hold], 2%nat, 2%nat.
  split; [discriminate|]. split; [reflexivity|]. do 3 (split; [cbn; repeat constructor|]). vm_compute. repeat split; reflexivity.
Qed.
Print Assumptions C128_first_cycle_refuted.
