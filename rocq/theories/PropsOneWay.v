(** * PropsOneWay: simulations on a market that only rises or only falls (C106), and on one that moves along a straight line (C107).

    [only_rises ps i]: up to day i every price is above the one before.  [bought d j]/[sold d j]: a long/short position was opened
    on day j.  [when c x]: x if c, otherwise 0.  [own_closes ob st]: the simulation was given the closes the indicator works on.
    [on_a_line ob q d]: the close of day j is q + d j; [candles_on_a_line]: with highs u above and lows s below.  [stacked n c d]: the
    sum of the last n prices of a line that ends at c ([OneWaySpec.v]).  [simulate], [still_open] and the other words of the
    simulation: see PropsSim.v. *)
From Coq Require Import ZArith QArith Qcanon Bool List String PeanoNat Lia.
From Verif Require Import Num NumFacts Pandas Sim Frame FrameSpec SimSpec Ind Signal Api IndSpec ApiSpec RangeSpec PropsApi PropsSim PropsRange ValueSpec PropsValue PropsCumul FormulaSpec PropsFormula SignalSpec PropsSignal MirrorSpec PropsMirror OrderSpec PropsOrder SteadySpec PropsSteady OneWaySpec OneWay OneWayApi.
Import ListNotations.
Open Scope list_scope. Open Scope string_scope. Open Scope Qc_scope.
Notation built ct o raw b ob := (snd (construct o ct (RFrame raw) (VBool b)) = Ok ob).
Notation runs ob cv me fa st sts := (snd (get_ti_simulation ob cv me fa) = Ok (st, sts)).

(** ** C106 On a market that only rises or only falls *)
(** every long position earns the next day's rise and is closed, every short one stays open for ever - whatever the signals and the limit *)
Theorem C106_only_rises ps m f sgs i : 1 <= f -> (List.length sgs <= List.length ps)%nat -> (i < List.length sgs)%nat -> only_rises ps i ->
  let d := data (simulate (map Fin ps) m (Fin f) sgs) in let p j := nth j ps 0 in
  x_earnings (row_ d i) = Fin (sum_days i (fun j => when (bought d j) (p (S j) - p j))) /\
  x_exposure (row_ d i) = Fin (when (bought d i) (p i) + f * sum_days (S i) (fun j => when (sold d j) (p j))) /\
  open_longs d i = (if bought d i then 1 else 0)%nat /\ open_shorts d i = count_days (S i) (sold d).
Proof. intros F1 L I R d p. exact (up_market ps m f sgs i F1 L I R). Qed.
Print Assumptions C106_only_rises.
Theorem C106_only_falls ps m f sgs i : 1 <= f -> (List.length sgs <= List.length ps)%nat -> (i < List.length sgs)%nat -> only_falls ps i ->
  let d := data (simulate (map Fin ps) m (Fin f) sgs) in let p j := nth j ps 0 in
  x_earnings (row_ d i) = Fin (sum_days i (fun j => when (sold d j) (p j - p (S j)))) /\
  x_exposure (row_ d i) = Fin (when (sold d i) (f * p i) + sum_days (S i) (fun j => when (bought d j) (p j))) /\
  open_shorts d i = (if sold d i then 1 else 0)%nat /\ open_longs d i = count_days (S i) (bought d).
Proof. intros F1 L I R d p. exact (down_market ps m f sgs i F1 L I R). Qed.
Print Assumptions C106_only_falls.
(** no signals can earn more than the move since the second day: the first day is never traded *)
Theorem C106_most_on_a_rise ps m f sgs i : 1 <= f -> (List.length sgs <= List.length ps)%nat -> (0 < i < List.length sgs)%nat -> only_rises ps i ->
  exists e, x_earnings (row_ (data (simulate (map Fin ps) m (Fin f) sgs)) i) = Fin e /\ 0 <= e /\ e <= nth i ps 0 - nth 1 ps 0.
Proof. exact (up_most ps m f sgs i). Qed.
Print Assumptions C106_most_on_a_rise.
Theorem C106_most_on_a_fall ps m f sgs i : 1 <= f -> (List.length sgs <= List.length ps)%nat -> (0 < i < List.length sgs)%nat -> only_falls ps i ->
  exists e, x_earnings (row_ (data (simulate (map Fin ps) m (Fin f) sgs)) i) = Fin e /\ 0 <= e /\ e <= nth 1 ps 0 - nth i ps 0.
Proof. exact (down_most ps m f sgs i). Qed.
Print Assumptions C106_most_on_a_fall.
(** without a limit the trades are the signals, except the first day's *)
Theorem C106_trades_without_limit ps f sgs j : 1 <= f -> (List.length sgs <= List.length ps)%nat -> (j < List.length sgs)%nat -> let d := data (simulate (map Fin ps) None (Fin f) sgs) in
  bought d j = (0 <? j)%nat && match nth j sgs Hold with Buy => true | _ => false end /\ sold d j = (0 <? j)%nat && match nth j sgs Hold with Sell => true | _ => false end.
Proof. exact (unlimited_bought ps f sgs j). Qed.
Print Assumptions C106_trades_without_limit.

Definition up_ps : list Qc := map qz [10; 11; 14; 15; 19; 20]%Z.
Definition mixed_sgs : list signal := [Buy; Buy; Sell; Buy; Sell; Buy].
Example C106_case : let d := data (simulate (map Fin up_ps) None (Fin ex_f) mixed_sgs) in let d' := data (simulate (map Fin (rev up_ps)) (Some (F 45)) (Fin ex_f) mixed_sgs) in
  map (fun r => PropsSim.shown (x_earnings r)) d = map Some [0; 0; 3; 3; 7; 7]%Q /\ map (open_longs d) (seq 0 6) = [0; 1; 0; 1; 0; 1]%nat /\ map (open_shorts d) (seq 0 6) = [0; 0; 1; 1; 2; 2]%nat /\
  map (fun r => PropsSim.shown (x_exposure r)) d = map Some [0; 11; 21; 36; 99 # 2; 139 # 2]%Q /\
  map (fun r => PropsSim.shown (x_earnings r)) d' = map Some [0; 0; 0; 1; 1; 1]%Q /\ map (open_longs d') (seq 0 6) = [0; 1; 1; 2; 2; 3]%nat /\ map (open_shorts d') (seq 0 6) = [0; 0; 1; 0; 0; 0]%nat.
Proof. vm_compute. repeat split; reflexivity. Qed.
Lemma rises_dec ps i : forallb (fun j => qltb (nth j ps 0) (nth (S j) ps 0)) (seq 0 i) = true -> only_rises ps i.
Proof. rewrite forallb_forall. intros H j J. apply qltb_iff, H, in_seq. lia. Qed.
Lemma falls_dec ps i : forallb (fun j => qltb (nth (S j) ps 0) (nth j ps 0)) (seq 0 i) = true -> only_falls ps i.
Proof. rewrite forallb_forall. intros H j J. apply qltb_iff, H, in_seq. lia. Qed.
Example C106_hypotheses : 1 <= ex_f /\ List.length mixed_sgs = List.length up_ps /\ only_rises up_ps 5 /\ only_falls (rev up_ps) 5.
Proof. split; [discriminate|]. split; [reflexivity|]. split; [apply rises_dec|apply falls_dec]; vm_compute; reflexivity. Qed.

(** ** C107 What simulations earn on a straight line *)
(** the moving averages buy every day of a rise from the first average on, sell the position the next day and earn d each time; they hold one position and need the money for one *)
Theorem C107_average_on_a_rise o raw b ob cv fa f st sts q d i t p : wf_raw raw -> NoDup (dates raw) -> number_of fa = Some (Fin f) -> runs ob cv VNone fa st sts -> own_closes ob st -> (i < days_given ob)%nat ->
  t = "simple" \/ t = "triangular" -> built (cMA p (VStr t)) o raw b ob -> (2 <= nat_arg p)%nat -> on_a_line ob q d -> Q2Qc (1 # 10000) < d ->
  let a := first_average t p in let r := row_ (data st) i in
  x_signal r = Some (if (a <=? i)%nat then Buy else Hold) /\ x_earnings r = Fin (d * nq (i - a)) /\ x_exposure r = Fin (when (a <=? i)%nat (q + d * nq i)) /\ x_balance r = Fin (d * nq (i - a) + when (a <=? i)%nat (q + d * nq i)) /\
  open_longs (data st) i = (if (a <=? i)%nat then 1 else 0)%nat /\ open_shorts (data st) i = 0%nat.
Proof. exact (fun W N FA HS OC I => average_on_a_rise o raw b ob cv fa f st sts q d i W N FA HS OC I t p). Qed.
Print Assumptions C107_average_on_a_rise.
(** on a fall they do nothing *)
Theorem C107_average_on_a_fall o raw b ob cv fa f st sts q d i t p : wf_raw raw -> NoDup (dates raw) -> number_of fa = Some (Fin f) -> runs ob cv VNone fa st sts -> own_closes ob st -> (i < days_given ob)%nat ->
  t = "simple" \/ t = "triangular" -> built (cMA p (VStr t)) o raw b ob -> (2 <= nat_arg p)%nat -> on_a_line ob q d -> d < - Q2Qc (1 # 10000) -> let r := row_ (data st) i in
  x_signal r = Some Hold /\ x_earnings r = Fin 0 /\ x_exposure r = Fin 0 /\ x_balance r = Fin 0 /\ open_longs (data st) i = 0%nat /\ open_shorts (data st) i = 0%nat.
Proof. exact (fun W N FA HS OC I => average_on_a_fall o raw b ob cv fa f st sts q d i W N FA HS OC I t p). Qed.
Print Assumptions C107_average_on_a_fall.
(** the commodity channel index never earns anything, whichever way the market goes, and the positions pile up *)
Theorem C107_channel_on_a_rise o raw b ob cv fa f st sts q d i p u s : wf_raw raw -> NoDup (dates raw) -> number_of fa = Some (Fin f) -> runs ob cv VNone fa st sts -> own_closes ob st -> (i < days_given ob)%nat ->
  built (cCCI p) o raw b ob -> (5 <= nat_arg p)%nat -> candles_on_a_line ob q d u s -> 0 < d -> let a := (nat_arg p - 1)%nat in let r := row_ (data st) i in
  x_signal r = Some (if (a <=? i)%nat then Sell else Hold) /\ x_earnings r = Fin 0 /\ x_exposure r = Fin (f * stacked (S i - a) (q + d * nq i) d) /\ x_balance r = Fin (- nq (S i - a) * (q + d * nq i)) /\
  open_longs (data st) i = 0%nat /\ open_shorts (data st) i = (S i - a)%nat.
Proof. exact (fun W N FA HS OC I => channel_on_a_rise o raw b ob cv fa f st sts q d i W N FA HS OC I p u s). Qed.
Print Assumptions C107_channel_on_a_rise.
Theorem C107_channel_on_a_fall o raw b ob cv fa f st sts q d i p u s : wf_raw raw -> NoDup (dates raw) -> number_of fa = Some (Fin f) -> runs ob cv VNone fa st sts -> own_closes ob st -> (i < days_given ob)%nat ->
  built (cCCI p) o raw b ob -> (5 <= nat_arg p)%nat -> candles_on_a_line ob q d u s -> d < 0 -> let a := (nat_arg p - 1)%nat in let r := row_ (data st) i in
  x_signal r = Some (if (a <=? i)%nat then Buy else Hold) /\ x_earnings r = Fin 0 /\ x_exposure r = Fin (stacked (S i - a) (q + d * nq i) d) /\ x_balance r = Fin (nq (S i - a) * (q + d * nq i)) /\
  open_longs (data st) i = (S i - a)%nat /\ open_shorts (data st) i = 0%nat.
Proof. exact (fun W N FA HS OC I => channel_on_a_fall o raw b ob cv fa f st sts q d i W N FA HS OC I p u s). Qed.
Print Assumptions C107_channel_on_a_fall.

(** ten days, on the closes of the indicator itself *)
Definition sim_of (c : ctor) (rs : list (Z * Z * Z * Z * Z)) : res (sim * stats) := snd (get_ti_simulation (obj_of c rs) (RFrame (bars rs)) VNone (VFloat (D 3 2))).
Definition sim_rows (c : ctor) (rs : list (Z * Z * Z * Z * Z)) : list simrow := match sim_of c rs with Ok (st, _) => data st | _ => [] end.
Definition same_closes (c : ctor) (rs : list (Z * Z * Z * Z * Z)) : bool := is_made c rs && forallb (fun k => neqb (x_stock (row_ (sim_rows c rs) k)) (given "close" (obj_of c rs) k)) (seq 0 (days_given (obj_of c rs))) && Nat.eqb (days_given (obj_of c rs)) (List.length rs).
Definition money (g : simrow -> num) (c : ctor) (rs : list (Z * Z * Z * Z * Z)) := map (fun r => PropsSim.shown (g r)) (sim_rows c rs).
Example C107_case : let up := steady_rows 10 20 2 1 3 in let down := steady_rows 10 50 (-2) 1 3 in
  forallb (fun c => same_closes c up && same_closes c down) [cMA (VInt 3) (VStr "simple"); cMA (VInt 3) (VStr "triangular"); cCCI (VInt 5)] = true /\
  money x_earnings (cMA (VInt 3) (VStr "simple")) up = map Some [0; 0; 0; 2; 4; 6; 8; 10; 12; 14]%Q /\ money x_exposure (cMA (VInt 3) (VStr "simple")) up = map Some [0; 0; 24; 26; 28; 30; 32; 34; 36; 38]%Q /\
  money x_earnings (cMA (VInt 3) (VStr "triangular")) up = map Some [0; 0; 0; 0; 0; 2; 4; 6; 8; 10]%Q /\ money x_exposure (cMA (VInt 3) (VStr "triangular")) down = map Some [0; 0; 0; 0; 0; 0; 0; 0; 0; 0]%Q /\
  money x_earnings (cCCI (VInt 5)) up = map Some [0; 0; 0; 0; 0; 0; 0; 0; 0; 0]%Q /\ money x_exposure (cCCI (VInt 5)) up = map Some [0; 0; 0; 0; 42; 87; 135; 186; 240; 297]%Q /\
  money x_balance (cCCI (VInt 5)) up = map Some [0; 0; 0; 0; -28; -60; -96; -136; -180; -228]%Q /\ money x_balance (cCCI (VInt 5)) down = map Some [0; 0; 0; 0; 42; 80; 114; 144; 170; 192]%Q /\
  money x_earnings (cCCI (VInt 5)) down = map Some [0; 0; 0; 0; 0; 0; 0; 0; 0; 0]%Q.
Proof. vm_compute. repeat split; reflexivity. Qed.
Lemma reads_as_at x n f : reads_as x n f = true -> forall j, (j < n)%nat -> x j = Fin (f j).
Proof. intro H. destruct n as [|n]; [lia|]. intros j J. apply reads_as_known in H. apply H. lia. Qed.
Example C107_hypotheses : let c := cCCI (VInt 5) in let rs := steady_rows 10 50 (-2) 1 3 in let ob := obj_of c rs in
  wf_raw (bars rs) /\ NoDup (dates (bars rs)) /\ number_of (VFloat (D 3 2)) = Some (Fin (Q2Qc (3 # 2))) /\ built c ora0 (bars rs) true ob /\ candles_on_a_line ob (zq 50) (zq (-2)) (zq 1) (zq 3) /\
  exists st sts, runs ob (RFrame (bars rs)) VNone (VFloat (D 3 2)) st sts /\ own_closes ob st.
Proof.
  cbv zeta. set (c := cCCI (VInt 5)). set (rs := steady_rows 10 50 (-2) 1 3). set (ob := obj_of c rs).
  split; [apply bars_wf|]. split; [vm_compute; repeat constructor; cbn; intuition discriminate|]. split; [reflexivity|]. split; [apply is_made_ok; vm_compute; reflexivity|].
  assert (DG : days_given ob = 10%nat) by (vm_compute; reflexivity).
  assert (RC : reads_as (given "close" ob) 10 (fun j => zq 50 + zq (-2) * nq j) = true) by (vm_compute; reflexivity).
  split.
  - intros j J. rewrite DG in J. split; [|split].
    + apply (reads_as_at _ 10 (fun j => zq 50 + zq (-2) * nq j)); [exact RC|exact J].
    + apply (reads_as_at _ 10 (fun j => zq 50 + zq (-2) * nq j + zq 1)); [vm_compute; reflexivity|exact J].
    + apply (reads_as_at _ 10 (fun j => zq 50 + zq (-2) * nq j - zq 3)); [vm_compute; reflexivity|exact J].
  - assert (OK : match sim_of c rs with Ok (st, _) => reads_as (fun k => x_stock (row_ (data st) k)) 10 (fun j => zq 50 + zq (-2) * nq j) | Err _ => false end = true) by (vm_compute; reflexivity).
    unfold sim_of in OK. fold ob in OK. destruct (snd (get_ti_simulation ob (RFrame (bars rs)) VNone (VFloat (D 3 2)))) as [[st sts]|]; [|discriminate OK]. exists st, sts. split; [reflexivity|].
    intros k K. rewrite DG in K. pose proof (reads_as_at _ 10 _ OK k K) as X. cbv beta in X. rewrite X. symmetry. apply (reads_as_at _ 10 (fun j => zq 50 + zq (-2) * nq j) RC k K).
Qed.
