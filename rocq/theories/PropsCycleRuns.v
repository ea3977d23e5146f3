(** * PropsCycleRuns: what a simulation earns on a market that repeats itself (C127).

    [open_longs d k], [open_shorts d k]: positions open at the end of day k, [act d k]: what was opened on day k, read off the rows
    ([SimSpec.v]); [repeats p ob]: every row of the indicator's data is the row p days before ([RepeatSpec.v]); [advice_reach]: [RecentSpec.v]. *)
From Coq Require Import ZArith QArith Qcanon Bool List String PeanoNat Lia.
From Verif Require Import Num NumFacts Pandas Sim Frame FrameSpec SimSpec Ind Signal Api IndSpec ApiSpec RangeSpec PropsApi PropsSim PropsRange ValueSpec PropsValue PropsCumul FormulaSpec PropsFormula SignalSpec PropsSignal MemorySpec PropsMemory RecentSpec PropsRecent ResumeSim PropsResume RepeatSpec PropsRepeat CycleSim CycleRuns.
Import ListNotations.
Open Scope list_scope. Open Scope string_scope. Open Scope Qc_scope.
Notation built ct o raw b ob := (snd (construct o ct (RFrame raw) (VBool b)) = Ok ob).
Notation runs ob cv me fa st sts := (snd (get_ti_simulation ob cv me fa) = Ok (st, sts)).

(** ** C127 Every cycle trades and earns the same *)
(** for every limit and factor: prices and signals repeat from day k on, and nothing is open on day k and one cycle later *)
Theorem C127_prices_and_signals ps m f sgs k p t i : 1 <= f -> (List.length sgs <= List.length ps)%nat ->
  let d := data (simulate (map Fin ps) m (Fin f) sgs) in let earned j := qv (x_earnings (row_ d j)) in
  (forall j, (k <= j)%nat -> (j + p < List.length sgs)%nat -> nth (j + p) ps 0 = nth j ps 0) -> (forall j, (k <= j)%nat -> (j + p < List.length sgs)%nat -> nth (j + p) sgs Hold = nth j sgs Hold) ->
  open_longs d k = 0%nat -> open_shorts d k = 0%nat -> open_longs d (k + p) = 0%nat -> open_shorts d (k + p) = 0%nat ->
  (k <= i)%nat -> (i + t * p < List.length sgs)%nat -> let r := row_ d (i + t * p) in let r' := row_ d i in
  act d (i + t * p) = act d i /\ x_exposure r = x_exposure r' /\ x_portfolio_value r = x_portfolio_value r' /\ open_longs d (i + t * p) = open_longs d i /\ open_shorts d (i + t * p) = open_shorts d i /\
  x_earnings r = Fin (earned i + nq t * (earned (k + p)%nat - earned k)).
Proof. exact (fun F L RP RS O1 O2 O3 O4 => all_cycles ps m f sgs k p F L RP RS O1 O2 O3 O4 t i). Qed.
Print Assumptions C127_prices_and_signals.
(** the simulation of an indicator with recent advice (C123) on a market that repeats itself, traded at closes that repeat themselves *)
Theorem C127_market o c raw b ob n cv me fa f st sts k p t i : wf_raw raw -> NoDup (dates raw) -> built c o raw b ob ->
  (nested (asked c) = true -> gapless (required (asked c)) raw) -> repeats p ob -> advice_reach (asked c) = Some n -> (n <= k)%nat ->
  number_of fa = Some (Fin f) -> runs ob cv me fa st sts ->
  (forall j, (j < days_given ob)%nat -> isfin (x_stock (row_ (data st) j)) = true) ->
  (forall j, (k <= j)%nat -> (j + p < days_given ob)%nat -> x_stock (row_ (data st) (j + p)) = x_stock (row_ (data st) j)) ->
  open_longs (data st) k = 0%nat -> open_shorts (data st) k = 0%nat -> open_longs (data st) (k + p) = 0%nat -> open_shorts (data st) (k + p) = 0%nat ->
  (k <= i)%nat -> (i + t * p < days_given ob)%nat -> let r := row_ (data st) (i + t * p) in let r' := row_ (data st) i in let earned j := qv (x_earnings (row_ (data st) j)) in
  act (data st) (i + t * p) = act (data st) i /\ x_exposure r = x_exposure r' /\ x_portfolio_value r = x_portfolio_value r' /\ open_longs (data st) (i + t * p) = open_longs (data st) i /\ open_shorts (data st) (i + t * p) = open_shorts (data st) i /\
  x_earnings r = Fin (earned i + nq t * (earned (k + p)%nat - earned k)).
Proof. exact (market_cycles o c raw b ob n cv me fa f st sts k p t i). Qed.
Print Assumptions C127_market.

(** four days, three times over, after two other days; a limit of 17; every cycle earns 4 *)
Definition wave_ps : list Qc := map qz ([20; 9] ++ [10; 8; 12; 9] ++ [10; 8; 12; 9] ++ [10; 8; 12; 9])%list%Z.
Definition wave_sgs : list signal := ([Hold; Hold] ++ [Hold; Buy; Hold; Hold] ++ [Hold; Buy; Hold; Hold] ++ [Hold; Buy; Hold; Hold])%list.
Definition wave_run := data (simulate (map Fin wave_ps) (Some (F 17)) (Fin ex_f) wave_sgs).
Example C127_case : forallb (fun j => qeqb (nth (j + 4) wave_ps 0) (nth j wave_ps 0)) (seq 2 8) = true /\ flat_b wave_run 2 = true /\ flat_b wave_run 6 = true /\
  map (act wave_run) (seq 2 12) = ([ANone; ALong; ANone; ANone] ++ [ANone; ALong; ANone; ANone] ++ [ANone; ALong; ANone; ANone])%list /\
  map (fun j => PropsSim.shown (x_earnings (row_ wave_run j))) (seq 2 12) = map Some [0; 0; 4; 4; 4; 4; 8; 8; 8; 8; 12; 12]%Q.
Proof. vm_compute. repeat split; reflexivity. Qed.
Definition sim_tide c := snd (get_ti_simulation (on_tide c) (RFrame (bars tide)) (VInt 200) (VFloat (D 3 2))).
Definition tidal (k : nat) (c : ctor) : bool := let d := rows_of (sim_tide c) in
  match sim_tide c with Ok _ => true | _ => false end && Nat.leb (reach c) k && flat_b d k && flat_b d (k + 8) && forallb (fun j => isfin (x_stock (row_ d j))) (seq 0 40) &&
  forallb (fun j => neqb (x_stock (row_ d (j + 8))) (x_stock (row_ d j))) (seq 0 32).
(** seventeen indicators on the tide: earnings on the first day with nothing open and one and two cycles later *)
Definition all_tides := filter (fun c => existsb (fun k => tidal k c) (seq 0 9)) recurring.
Definition start c := match filter (fun k => tidal k c) (seq 0 24) with k :: _ => k | [] => 0%nat end.
Definition at_ c j := PropsSim.shown (x_earnings (row_ (rows_of (sim_tide c)) j)).
Example C127_tide_case : forallb (fun c => tidal (start c) c && Nat.leb (start c) 8) all_tides = true /\ List.length all_tides = 17%nat /\
  map (fun c => (at_ c (start c), at_ c (start c + 8), at_ c (start c + 16))) all_tides = map (fun q => let '(x, y, z) := q in (Some x, Some y, Some z))
    [(0, 0, 0); (0, 10, 20); (0, 10, 20); (0, 16, 32); (0, 10, 20); (0, 0, 0); (4, 8, 12); (6, 14, 22); (0, 10, 20); (8, 22, 36); (4, 10, 16); (2, 10, 18); (4, 20, 36); (0, 10, 20); (0, 0, 0); (10, 20, 30); (0, 0, 0)]%Q.
Proof. vm_compute. repeat split; reflexivity. Qed.
(** a position that stays open takes the room of the trades of the next cycle *)
Definition stuck_ps : list Qc := map qz ([10; 8; 12; 14] ++ [10; 8; 12; 14] ++ [10; 8; 12; 14])%list%Z.
Definition stuck_sgs : list signal := ([Hold; Buy; Hold; Buy] ++ [Hold; Buy; Hold; Buy] ++ [Hold; Buy; Hold; Buy])%list.
Theorem C127_open_position_refuted : exists ps m f sgs k p, let d := data (simulate (map Fin ps) m (Fin f) sgs) in 1 <= f /\ List.length sgs = List.length ps /\ (k + 2 * p < List.length sgs)%nat /\
  forallb (fun j => qeqb (nth (j + p) ps 0) (nth j ps 0)) (seq 0 (List.length ps - p)) = true /\ forallb (fun j => same_sig (Ok (nth (j + p) sgs Hold)) (Ok (nth j sgs Hold))) (seq 0 (List.length sgs - p)) = true /\
  flat_b d k = true /\ neqb (nsub (x_earnings (row_ d (k + 2 * p))) (x_earnings (row_ d (k + p)))) (nsub (x_earnings (row_ d (k + p))) (x_earnings (row_ d k))) = false.
Proof. exists stuck_ps, (Some (F 17)), ex_f, stuck_sgs, 0%nat, 4%nat. split; [discriminate|]. split; [reflexivity|]. split; [cbn; repeat constructor|]. vm_compute. repeat split; reflexivity. Qed.
Print Assumptions C127_open_position_refuted.
