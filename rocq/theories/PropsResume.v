(** * PropsResume: a simulation that owns and owes nothing goes on like a new one (C124).

    [open_longs d k], [open_shorts d k]: positions open at the end of day k, [act d k]: what was opened on day k, read off the rows
    ([SimSpec.v]); [advice_reach]: [RecentSpec.v]; [since], [earlier], [gapless]: [MemorySpec.v]. *)
From Coq Require Import ZArith QArith Qcanon Bool List String PeanoNat Lia.
From Verif Require Import Num NumFacts Pandas Sim Frame FrameSpec SimSpec Ind Signal Api IndSpec ApiSpec RangeSpec PropsApi PropsSim PropsRange ValueSpec PropsValue PropsCumul FormulaSpec PropsFormula SignalSpec PropsSignal MemorySpec PropsMemory RecentSpec PropsRecent ResumeSim ResumeApi.
Import ListNotations.
Open Scope list_scope. Open Scope string_scope. Open Scope Qc_scope.
Notation built ct o raw b ob := (snd (construct o ct (RFrame raw) (VBool b)) = Ok ob).
Notation runs ob cv me fa st sts := (snd (get_ti_simulation ob cv me fa) = Ok (st, sts)).

(** ** C124 With nothing open, the past of a simulation is only its earnings *)
(** for every limit and factor: the days from k on are those of a new simulation of the rest, with the earnings so far added *)
Theorem C124_resume ps m f sgs k i : 1 <= f -> (List.length sgs <= List.length ps)%nat ->
  let d := data (simulate (map Fin ps) m (Fin f) sgs) in let d' := data (simulate (map Fin (skipn k ps)) m (Fin f) (skipn k sgs)) in
  open_longs d k = 0%nat -> open_shorts d k = 0%nat -> (k + i < List.length sgs)%nat -> let r := row_ d (k + i) in let r' := row_ d' i in
  x_signal r = x_signal r' /\ act d (k + i) = act d' i /\ x_stock r = x_stock r' /\ x_exposure r = x_exposure r' /\ x_portfolio_value r = x_portfolio_value r' /\
  x_earnings r = nadd (x_earnings (row_ d k)) (x_earnings r') /\ x_balance r = nadd (x_earnings (row_ d k)) (x_balance r') /\ open_longs d (k + i) = open_longs d' i /\ open_shorts d (k + i) = open_shorts d' i.
Proof. exact (fun F L OL OS => run_resumed ps m f sgs k F L OL OS i). Qed.
Print Assumptions C124_resume.
(** two reported simulations, of the same or of different indicators, that have nothing open on a day and see the same prices and signals from then on *)
Theorem C124_reported o o' c c' raw raw' b b' ob ob' cv cv' me fa f st st' sts sts' e k i : wf_raw raw -> wf_raw raw' -> built c o raw b ob -> built c' o' raw' b' ob' ->
  is_dpo (ob_ind ob) = false -> is_dpo (ob_ind ob') = false -> number_of fa = Some (Fin f) -> runs ob cv me fa st sts -> runs ob' cv' me fa st' sts' -> days_given ob = (e + days_given ob')%nat ->
  (forall j, (j < days_given ob)%nat -> isfin (x_stock (row_ (data st) j)) = true) -> (forall j, (j < days_given ob')%nat -> isfin (x_stock (row_ (data st') j)) = true) ->
  (forall j, (k <= j < days_given ob')%nat -> x_stock (row_ (data st') j) = x_stock (row_ (data st) (e + j)) /\ x_signal (row_ (data st') j) = x_signal (row_ (data st) (e + j))) ->
  open_longs (data st) (e + k) = 0%nat -> open_shorts (data st) (e + k) = 0%nat -> open_longs (data st') k = 0%nat -> open_shorts (data st') k = 0%nat ->
  (k <= i < days_given ob')%nat -> let r := row_ (data st) (e + i) in let r' := row_ (data st') i in
  act (data st) (e + i) = act (data st') i /\ x_exposure r = x_exposure r' /\ x_portfolio_value r = x_portfolio_value r' /\ open_longs (data st) (e + i) = open_longs (data st') i /\ open_shorts (data st) (e + i) = open_shorts (data st') i /\
  nsub (x_earnings r) (x_earnings (row_ (data st) (e + k))) = nsub (x_earnings r') (x_earnings (row_ (data st') k)).
Proof. exact (fun W W' H H' D D' FA R R' DG PR PR' SM O1 O2 O3 O4 => reported_resumed o o' c c' raw raw' b b' ob ob' cv cv' me fa f st st' sts sts' e k W W' H H' D D' FA R R' DG PR PR' SM O1 O2 O3 O4 i). Qed.
Print Assumptions C124_reported.
(** so for the indicators of C123 the trades and earnings of the last months can be found from the last months alone *)
Theorem C124_old_history o c raw b ob ob' t n cv cv' me fa f st st' sts sts' k i : wf_raw raw -> NoDup (dates raw) -> built c o raw b ob -> built c o (since t raw) b ob' ->
  (b = true \/ nested (ob_ind ob) = true -> gapless (required (ob_ind ob)) raw) ->
  advice_reach (asked c) = Some n -> number_of fa = Some (Fin f) -> runs ob cv me fa st sts -> runs ob' cv' me fa st' sts' ->
  (forall j, (j < days_given ob)%nat -> isfin (x_stock (row_ (data st) j)) = true) ->
  (forall j, (j < days_given ob')%nat -> x_stock (row_ (data st') j) = x_stock (row_ (data st) (earlier t raw + j))) ->
  (n <= k)%nat -> open_longs (data st) (earlier t raw + k) = 0%nat -> open_shorts (data st) (earlier t raw + k) = 0%nat -> open_longs (data st') k = 0%nat -> open_shorts (data st') k = 0%nat ->
  (k <= i < days_given ob')%nat -> let r := row_ (data st) (earlier t raw + i) in let r' := row_ (data st') i in
  act (data st) (earlier t raw + i) = act (data st') i /\ x_exposure r = x_exposure r' /\ x_portfolio_value r = x_portfolio_value r' /\ open_longs (data st) (earlier t raw + i) = open_longs (data st') i /\ open_shorts (data st) (earlier t raw + i) = open_shorts (data st') i /\
  nsub (x_earnings r) (x_earnings (row_ (data st) (earlier t raw + k))) = nsub (x_earnings r') (x_earnings (row_ (data st') k)).
Proof. exact (history_resumed o c raw b ob ob' t n cv cv' me fa f st st' sts sts' k i). Qed.
Print Assumptions C124_old_history.

(** nothing is open on day 2; a limit of 17 *)
Definition flat_ps : list Qc := map qz [10; 8; 12; 9; 11; 14; 7]%Z.
Definition flat_sgs : list signal := [Hold; Buy; Hold; Sell; Buy; Buy; Hold].
Definition flat_run (k : nat) := data (simulate (map Fin (skipn k flat_ps)) (Some (F 17)) (Fin ex_f) (skipn k flat_sgs)).
Example C124_case : 1 <= ex_f /\ (List.length flat_sgs <= List.length flat_ps)%nat /\ open_longs (flat_run 0) 2 = 0%nat /\ open_shorts (flat_run 0) 2 = 0%nat /\
  map (fun r => PropsSim.shown (x_earnings r)) (flat_run 0) = map Some [0; 0; 4; 4; 4; 4; 6]%Q /\ map (fun r => PropsSim.shown (x_earnings r)) (flat_run 2) = map Some [0; 0; 0; 0; 2]%Q /\
  map (act (flat_run 0)) (seq 0 7) = [ANone; ALong; ANone; AShort; ANone; ANone; ANone] /\ map (act (flat_run 2)) (seq 0 5) = [ANone; AShort; ANone; ANone; ANone].
Proof. split; [discriminate|]. split; [cbn; repeat constructor|]. vm_compute. repeat split; reflexivity. Qed.
(** the season and the season without its first six days *)
Definition sim_long c := snd (get_ti_simulation (whole c) (RFrame (bars season)) (VInt 200) (VFloat (D 3 2))).
Definition sim_short c := snd (get_ti_simulation (shorter 7 c) (RFrame (since 7 (bars season))) (VInt 200) (VFloat (D 3 2))).
Definition rows_of (r : res (sim * stats)) := match r with Ok (st, _) => data st | _ => [] end.
Definition flat_b d k := Nat.eqb (open_longs d k) 0 && Nat.eqb (open_shorts d k) 0.
Definition seasoned (q : ctor * nat) : bool := let '(c, k) := q in let d := rows_of (sim_long c) in let d' := rows_of (sim_short c) in
  match sim_long c, sim_short c with Ok _, Ok _ => true | _, _ => false end && Nat.leb (reach c) k && flat_b d (6 + k) && flat_b d' k &&
  forallb (fun j => isfin (x_stock (row_ d j))) (seq 0 36) && forallb (fun j => neqb (x_stock (row_ d' j)) (x_stock (row_ d (6 + j)))) (seq 0 30).
Definition pairs := [(cEMV (VInt 3), 5); (cSO (VInt 3) (VInt 1) (VInt 3) (VStr "simple"), 7); (cCMF (VInt 4), 6); (cTSF (VInt 4), 5); (cMA (VInt 4) (VStr "time_series"), 8)]%nat.
Definition gained (k : nat) (d : list simrow) (j : nat) := PropsSim.shown (nsub (x_earnings (row_ d j)) (x_earnings (row_ d k))).
Example C124_season_case : forallb seasoned pairs = true /\
  map (fun q => (gained (6 + snd q) (rows_of (sim_long (fst q))) 35, gained (snd q) (rows_of (sim_short (fst q))) 29)) pairs = map (fun x => (Some x, Some x)) [21; 29; 23; 18; 16]%Q /\
  map (fun q => PropsSim.shown (x_earnings (row_ (rows_of (sim_long (fst q))) (6 + snd q)))) pairs = map Some [10; 24; 0; 12; 32]%Q.
Proof. vm_compute. repeat split; reflexivity. Qed.
(** a position still open earns later, which the new simulation knows nothing of *)
Theorem C124_open_position_refuted : exists ps f sgs k i, 1 <= f /\ (List.length sgs <= List.length ps)%nat /\ (k + i < List.length sgs)%nat /\
  neqb (x_earnings (row_ (data (simulate (map Fin ps) None (Fin f) sgs)) (k + i)))
    (nadd (x_earnings (row_ (data (simulate (map Fin ps) None (Fin f) sgs)) k)) (x_earnings (row_ (data (simulate (map Fin (skipn k ps)) None (Fin f) (skipn k sgs))) i))) = false.
Proof. exists (map qz [10; 10; 12]%Z), 1, [Hold; Buy; Hold], 1%nat, 1%nat. split; [discriminate|]. split; [cbn; repeat constructor|]. split; [cbn; repeat constructor|]. vm_compute. reflexivity. Qed.
Print Assumptions C124_open_position_refuted.
