(** * PropsClimb: a market that rises every day, or falls every day, by whatever amounts (C110, C111, C112).

    [climbs_by e c k]/[sinks_by e c k]: up to row k every value is more than e above/below the one before; [tick4]: 0.0001.
    [column name st c]: the named column of the market is c; [all_up e st c]/[all_down e st c]: it climbs/sinks on all days.
    [smooth t n]: first row of the simple, triangular (n at least 2) or exponential (n at least 3) average of n days.
    [from a k v]: v, missing before row a; [when b x]: x if b, otherwise 0 ([ClimbSpec.v], [FormulaSpec.v], [OneWaySpec.v]). *)
From Coq Require Import ZArith QArith Qcanon Bool List String PeanoNat Lia.
From Verif Require Import Num NumFacts Pandas Sim Frame FrameSpec SimSpec Ind Signal Api IndSpec ApiSpec RangeSpec PropsApi PropsSim PropsRange ValueSpec PropsValue PropsCumul FormulaSpec PropsFormula SignalSpec PropsSignal MirrorSpec PropsMirror OrderSpec PropsOrder SteadySpec PropsSteady OneWaySpec OneWay OneWayApi PropsOneWay ClimbSpec ClimbFacts ClimbApi.
Import ListNotations.
Open Scope list_scope. Open Scope string_scope. Open Scope Qc_scope.
Notation built ct o raw b ob := (snd (construct o ct (RFrame raw) (VBool b)) = Ok ob).
Notation runs ob cv me fa st sts := (snd (get_ti_simulation ob cv me fa) = Ok (st, sts)).

(** ** C110 What the indicators show on a market that only rises or only falls *)
(** the averages stay on their side of the price, seen in the published decimals when the moves exceed the last of them *)
Theorem C110_averages o raw b ob k c t p a : wf_raw raw -> known (given "close" ob) k c -> built (cMA p (VStr t)) o raw b ob -> smooth t (nat_arg p) = Some a ->
  exists v, shown ("ma-" ++ t) ob k = from a k (Fin v) /\
    ((a <= k)%nat -> (climbs_by tick4 c k -> v < c k) /\ (sinks_by tick4 c k -> c k < v) /\ (climbs_by 0 c k -> v <= r4 (c k)) /\ (sinks_by 0 c k -> r4 (c k) <= v)).
Proof. exact (fun W K => average_sides o raw b ob k c W K t p a). Qed.
Print Assumptions C110_averages.
(** the oscillators of gains and losses stand at their ends *)
Theorem C110_chande_momentum o raw b ob k c p : wf_raw raw -> known (given "close" ob) k c -> built (cCMO p) o raw b ob ->
  (climbs_by 0 c k -> shown "cmo" ob k = from (nat_arg p) k (level 100)) /\ (sinks_by 0 c k -> shown "cmo" ob k = from (nat_arg p) k (level (-100))).
Proof. exact (fun W K M => conj (climb_cmo o raw b ob k c W K p M) (sink_cmo o raw b ob k c W K p M)). Qed.
Print Assumptions C110_chande_momentum.
Theorem C110_relative_strength o raw b ob k c p : wf_raw raw -> known (given "close" ob) k c -> built (cRSI p) o raw b ob ->
  (climbs_by tick4 c k -> shown "rsi" ob k = from (nat_arg p) k (level 100)) /\ (sinks_by tick4 c k -> shown "rsi" ob k = from (nat_arg p) k (level 0)).
Proof. exact (fun W K M => conj (climb_rsi o raw b ob k c W K p M) (sink_rsi o raw b ob k c W K p M)). Qed.
Print Assumptions C110_relative_strength.
(** the relative momentum index has no value at all on a rise *)
Theorem C110_relative_momentum o raw b ob k c p q : wf_raw raw -> known (given "close" ob) k c -> built (cRMI p q) o raw b ob ->
  (climbs_by 0 c k -> shown "rmi" ob k = NaN) /\ (sinks_by 0 c k -> shown "rmi" ob k = from (nat_arg p + nat_arg q - 1) k (level 0)).
Proof. exact (fun W K M => conj (climb_rmi o raw b ob k c W K p q M) (sink_rmi o raw b ob k c W K p q M)). Qed.
Print Assumptions C110_relative_momentum.
(** the vertical horizontal filter sees n-1 of the n moves *)
Theorem C110_vertical_horizontal o raw b ob k c p : wf_raw raw -> known (given "close" ob) k c -> built (cVHF p) o raw b ob -> climbs_by 0 c k \/ sinks_by 0 c k ->
  let n := nat_arg p in shown "vhf" ob k = from n k (Fin (r4 ((c k - c (S k - n)%nat) / (c k - c (k - n)%nat)))).
Proof. exact (fun W K => one_way_vhf o raw b ob k c W K p). Qed.
Print Assumptions C110_vertical_horizontal.
(** on balance volume is the volume since the second day *)
Theorem C110_on_balance_volume o raw b ob k c v : wf_raw raw -> known (given "close" ob) k c -> built cOBV o raw b ob -> known (given "volume" ob) k v ->
  (climbs_by 0 c k -> shown "obv" ob k = Fin (total (fun j => v (S j)) k)) /\ (sinks_by 0 c k -> shown "obv" ob k = Fin (- total (fun j => v (S j)) k)).
Proof. exact (fun W K => one_way_obv o raw b ob k c W K v). Qed.
Print Assumptions C110_on_balance_volume.
Theorem C110_williams_accumulation o raw b ob k c h l : wf_raw raw -> known (given "close" ob) k c -> known (given "high" ob) k h -> known (given "low" ob) k l -> built cWAD o raw b ob ->
  (climbs_by 0 c k -> shown "wad" ob k = from 1 k (Fin (r4 (c k - true_low l c k)))) /\ (sinks_by 0 c k -> shown "wad" ob k = from 1 k (Fin (r4 (c k - true_high h c k)))).
Proof. exact (fun W K H L => one_way_wad o raw b ob k c W K h l H L). Qed.
Print Assumptions C110_williams_accumulation.
(** directional movement: with rising highs and lows -DI is 0 and the trend is as strong as it can be; and the other way round *)
Theorem C110_directional_movement o raw b ob k c h l (s : bool) : wf_raw raw -> known (given "close" ob) k c -> known (given "high" ob) k h -> known (given "low" ob) k l -> built cDMI o raw b ob ->
  (forall j, (1 <= j <= k)%nat -> l j < h j) -> (if s then climbs_by 0 h k /\ climbs_by 0 l k else sinks_by 0 h k /\ sinks_by 0 l k) ->
  exists q, 0 <= q /\ shown (if s then "+di" else "-di") ob k = from 14 k (Fin q) /\ shown (if s then "-di" else "+di") ob k = from 14 k (level 0) /\
    shown "dx" ob k = from 14 k (level 100) /\ shown "adx" ob k = from 27 k (level 100) /\ shown "adxr" ob k = from 40 k (level 100).
Proof. exact (fun W K H L => dmi_one_way o raw b ob k c W K h l H L s). Qed.
Print Assumptions C110_directional_movement.

(** an uneven rise of n days, and the same days the other way round *)
Definition uneven (n : nat) : list (Z * Z * Z * Z * Z) := map (fun i => let j := Z.of_nat i in let c := (10 + 3 * j + (j * j) mod 3)%Z in (c, c + 1 + j mod 2, c - 2 - j mod 2, c, 5 + (7 * j) mod 11)%Z) (seq 0 n).
Definition climbsb (e : Qc) (c : nat -> Qc) (k : nat) : bool := forallb (fun j => qltb (c j + e) (c (S j))) (seq 0 k).
Definition sinksb (e : Qc) (c : nat -> Qc) (k : nat) : bool := forallb (fun j => qltb (c (S j) + e) (c j)) (seq 0 k).
Lemma climbsb_ok e c k : climbsb e c k = true -> climbs_by e c k. Proof. unfold climbsb. rewrite forallb_forall. intros H j J. apply qltb_iff, H, in_seq. lia. Qed.
Lemma sinksb_ok e c k : sinksb e c k = true -> sinks_by e c k. Proof. unfold sinksb. rewrite forallb_forall. intros H j J. apply qltb_iff, H, in_seq. lia. Qed.
Definition climbers := [cMA (VInt 3) (VStr "simple"); cMA (VInt 3) (VStr "triangular"); cMA (VInt 3) (VStr "exponential"); cCMO (VInt 4); cRSI (VInt 4); cRMI (VInt 4) (VInt 3); cVHF (VInt 4); cOBV; cWAD; cDMI].
Definition readable (rs : list (Z * Z * Z * Z * Z)) (c : ctor) : bool := let ob := obj_of c rs in is_made c rs && Nat.eqb (days_given ob) (List.length rs) &&
  forallb (fun nf => negb (existsb (String.eqb (fst nf)) (required (asked c))) || reads_as (given (fst nf) ob) (List.length rs) (snd nf)) [("close", cl_of rs); ("high", hi_of rs); ("low", lo_of rs); ("volume", vo_of rs)].
Example C110_case : let up := uneven 45 in let down := rev (uneven 45) in
  forallb (fun c => readable up c && readable down c) climbers = true /\
  climbsb tick4 (cl_of up) 44 && climbsb 0 (hi_of up) 44 && climbsb 0 (lo_of up) 44 && sinksb tick4 (cl_of down) 44 && sinksb 0 (hi_of down) 44 && sinksb 0 (lo_of down) 44 && forallb (fun j => qltb (lo_of up j) (hi_of up j)) (seq 0 45) = true /\
  (holds_at (cMA (VInt 3) (VStr "simple")) up "ma-simple" 9 (346667 # 10000) && holds_at (cCMO (VInt 4)) up "cmo" 9 100 && holds_at (cCMO (VInt 4)) down "cmo" 9 (-100) && holds_at (cRSI (VInt 4)) up "rsi" 9 100 && holds_at (cRSI (VInt 4)) down "rsi" 9 0 &&
   holds_at (cRMI (VInt 4) (VInt 3)) down "rmi" 9 0 && holds_at (cVHF (VInt 4)) up "vhf" 9 (8182 # 10000) && holds_at cOBV up "obv" 3 35 && holds_at cOBV down "obv" 3 (-28) && holds_at cWAD up "wad" 9 3 && holds_at cDMI up "-di" 44 0 &&
   holds_at cDMI up "+di" 44 (6441 # 100) && holds_at cDMI up "adxr" 44 100 && holds_at cDMI down "adxr" 44 100 && holds_at cDMI down "+di" 44 0) = true /\
  isnan (shown "rmi" (obj_of (cRMI (VInt 4) (VInt 3)) up) 44) = true.
Proof. vm_compute. repeat split; reflexivity. Qed.

(** ** C111 What the indicators advise on a market that only rises or only falls *)
(** the averages buy on every day of a rise from the first average on, and never on a fall *)
Theorem C111_averages o raw b st c t p a : column "close" st c -> working o (cMA p (VStr t)) raw b st -> smooth t (nat_arg p) = Some a ->
  (all_up tick4 st c -> get_ti_signal st = Ok (if (a <? days_given st)%nat then Buy else Hold)) /\ (all_down tick4 st c -> get_ti_signal st = Ok Hold).
Proof. exact (fun C => average_signals o raw b st c C t p a). Qed.
Print Assumptions C111_averages.
(** on balance volume says the opposite: sell on every day of a rise from the third on, buy on every day of a fall *)
Theorem C111_on_balance_volume o raw b st c v : column "close" st c -> working o cOBV raw b st -> column "volume" st v -> (forall j, (j < days_given st)%nat -> 0 < v j) ->
  (all_up 0 st c -> get_ti_signal st = Ok (if (2 <? days_given st)%nat then Sell else Hold)) /\ (all_down 0 st c -> get_ti_signal st = Ok (if (2 <? days_given st)%nat then Buy else Hold)).
Proof. exact (fun C => obv_signals o raw b st c C v). Qed.
Print Assumptions C111_on_balance_volume.
(** the oscillators of gains and losses and the directional movement never signal *)
Theorem C111_oscillators_hold o raw b st c p q : column "close" st c ->
  (working o (cCMO p) raw b st -> all_up 0 st c \/ all_down 0 st c -> get_ti_signal st = Ok Hold) /\
  (working o (cRSI p) raw b st -> all_up tick4 st c \/ all_down tick4 st c -> get_ti_signal st = Ok Hold) /\
  (working o (cRMI p q) raw b st -> all_up 0 st c \/ all_down 0 st c -> get_ti_signal st = Ok Hold).
Proof. exact (fun C => conj (cmo_signals o raw b st c C p) (conj (rsi_signals o raw b st c C p) (rmi_signals o raw b st c C p q))). Qed.
Print Assumptions C111_oscillators_hold.
Theorem C111_directional_movement_holds o raw b st c h l : column "close" st c -> working o cDMI raw b st -> column "high" st h -> column "low" st l -> (forall j, (j < days_given st)%nat -> l j < h j) ->
  all_up 0 st h /\ all_up 0 st l \/ all_down 0 st h /\ all_down 0 st l -> get_ti_signal st = Ok Hold.
Proof. exact (fun C => dmi_signals o raw b st c C h l). Qed.
Print Assumptions C111_directional_movement_holds.

Example C111_case : let up := uneven 45 in let down := rev (uneven 45) in
  shows (cMA (VInt 3) (VStr "simple")) up [(1, Hold); (2, Buy); (3, Buy); (44, Buy)]%nat && shows (cMA (VInt 3) (VStr "simple")) down [(1, Hold); (2, Hold); (44, Hold)]%nat &&
  shows (cMA (VInt 3) (VStr "triangular")) up [(3, Hold); (4, Buy); (44, Buy)]%nat && shows (cMA (VInt 3) (VStr "exponential")) up [(1, Hold); (2, Buy); (44, Buy)]%nat &&
  shows cOBV up [(1, Hold); (2, Sell); (3, Sell); (44, Sell)]%nat && shows cOBV down [(1, Hold); (2, Buy); (3, Buy); (44, Buy)]%nat &&
  forallb (fun c => shows c up [(5, Hold); (14, Hold); (44, Hold)]%nat && shows c down [(5, Hold); (14, Hold); (44, Hold)]%nat) [cCMO (VInt 4); cRSI (VInt 4); cRMI (VInt 4) (VInt 3); cDMI] = true.
Proof. vm_compute. reflexivity. Qed.
Lemma read_column c rs : readable rs c = true -> forall name f, In (name, f) [("close", cl_of rs); ("high", hi_of rs); ("low", lo_of rs); ("volume", vo_of rs)] -> In name (required (asked c)) -> column name (obj_of c rs) f /\ days_given (obj_of c rs) = List.length rs.
Proof.
  unfold readable. rewrite !andb_true_iff, forallb_forall. intros [[_ L] H] name f I R. apply Nat.eqb_eq in L. split; [|exact L]. specialize (H _ I). cbn [fst snd] in H. apply orb_prop in H as [H|H].
  - exfalso. apply negb_true_iff in H. assert (X : existsb (String.eqb name) (required (asked c)) = true) by (apply existsb_exists; exists name; split; [exact R|apply String.eqb_refl]). congruence.
  - intros j J. apply (reads_as_at _ _ _ H). rewrite <- L. exact J.
Qed.
Example C111_hypotheses : let up := uneven 45 in let down := rev (uneven 45) in
  (let st := obj_of cDMI up in column "close" st (cl_of up) /\ working ora0 cDMI (bars up) true st /\ column "high" st (hi_of up) /\ column "low" st (lo_of up) /\ all_up 0 st (hi_of up) /\ all_up 0 st (lo_of up)) /\
  (let st := obj_of cOBV down in column "close" st (cl_of down) /\ working ora0 cOBV (bars down) true st /\ column "volume" st (vo_of down) /\ all_down tick4 st (cl_of down) /\ forall j, (j < days_given st)%nat -> 0 < vo_of down j).
Proof.
  cbv zeta. assert (A : readable (uneven 45) cDMI = true) by (vm_compute; reflexivity). assert (B : readable (rev (uneven 45)) cOBV = true) by (vm_compute; reflexivity). pose proof (read_column _ _ A) as RA. pose proof (read_column _ _ B) as RB.
  assert (DA : days_given (obj_of cDMI (uneven 45)) = 45%nat) by (vm_compute; reflexivity). assert (DB : days_given (obj_of cOBV (rev (uneven 45))) = 45%nat) by (vm_compute; reflexivity).
  split; (split; [|split; [split; [apply bars_wf|]; eexists; split; [apply is_made_ok; vm_compute; reflexivity|left; reflexivity]|]]).
  - apply (RA "close"); cbn; auto.
  - split; [apply (RA "high"); cbn; auto|]. split; [apply (RA "low"); cbn; auto|]. unfold all_up. rewrite DA. split; apply climbsb_ok; vm_compute; reflexivity.
  - apply (RB "close"); cbn; auto.
  - split; [apply (RB "volume"); cbn; auto|]. unfold all_down. rewrite DB. split; [apply sinksb_ok; vm_compute; reflexivity|].
    assert (H : forallb (fun j => qltb 0 (vo_of (rev (uneven 45)) j)) (seq 0 45) = true) by (vm_compute; reflexivity). rewrite forallb_forall in H. intros j J. apply qltb_iff, H, in_seq. lia.
Qed.

(** ** C112 What their simulations earn on a market that only rises or only falls *)
(** the averages earn the whole rise since their first value, with one open position and the money for one; on a fall they do nothing *)
Theorem C112_averages_on_a_rise o raw b ob cv fa f st sts p i t n a : wf_raw raw -> NoDup (dates raw) -> number_of fa = Some (Fin f) -> runs ob cv VNone fa st sts -> own_closes ob st -> (i < days_given ob)%nat -> column "close" ob p ->
  built (cMA n (VStr t)) o raw b ob -> smooth t (nat_arg n) = Some a -> all_up tick4 ob p -> let r := row_ (data st) i in
  x_signal r = Some (if (a <=? i)%nat then Buy else Hold) /\ x_earnings r = Fin (when (a <=? i)%nat (p i - p a)) /\ x_exposure r = Fin (when (a <=? i)%nat (p i)) /\ x_balance r = Fin (when (a <=? i)%nat (p i - p a + p i)) /\
  open_longs (data st) i = (if (a <=? i)%nat then 1 else 0)%nat /\ open_shorts (data st) i = 0%nat.
Proof. exact (fun W N FA HS OC I CL => average_rises o raw b ob cv fa f st sts p i W N FA HS OC I CL t n a). Qed.
Print Assumptions C112_averages_on_a_rise.
Theorem C112_averages_on_a_fall o raw b ob cv fa f st sts p i t n a : wf_raw raw -> NoDup (dates raw) -> number_of fa = Some (Fin f) -> runs ob cv VNone fa st sts -> own_closes ob st -> (i < days_given ob)%nat -> column "close" ob p ->
  built (cMA n (VStr t)) o raw b ob -> smooth t (nat_arg n) = Some a -> all_down tick4 ob p -> let r := row_ (data st) i in
  x_signal r = Some Hold /\ x_earnings r = Fin 0 /\ x_exposure r = Fin 0 /\ x_balance r = Fin 0 /\ open_longs (data st) i = 0%nat /\ open_shorts (data st) i = 0%nat.
Proof. exact (fun W N FA HS OC I CL => average_falls o raw b ob cv fa f st sts p i W N FA HS OC I CL t n a). Qed.
Print Assumptions C112_averages_on_a_fall.
(** on balance volume trades against the market every day from the third on, earns nothing and closes nothing, whichever way the market goes *)
Theorem C112_volume_on_a_rise o raw b ob cv fa f st sts p i v : wf_raw raw -> NoDup (dates raw) -> number_of fa = Some (Fin f) -> runs ob cv VNone fa st sts -> own_closes ob st -> (i < days_given ob)%nat -> column "close" ob p ->
  built cOBV o raw b ob -> column "volume" ob v -> (forall j, (j < days_given ob)%nat -> 0 < v j) -> all_up 0 ob p -> let r := row_ (data st) i in
  x_signal r = Some (if (2 <=? i)%nat then Sell else Hold) /\ x_earnings r = Fin 0 /\ x_exposure r = Fin (f * sum_days (S i - 2) (fun j => p (2 + j)%nat)) /\ x_balance r = Fin (- nq (S i - 2) * p i) /\
  open_longs (data st) i = 0%nat /\ open_shorts (data st) i = (S i - 2)%nat.
Proof. exact (fun W N FA HS OC I CL => balance_rises o raw b ob cv fa f st sts p i W N FA HS OC I CL v). Qed.
Print Assumptions C112_volume_on_a_rise.
Theorem C112_volume_on_a_fall o raw b ob cv fa f st sts p i v : wf_raw raw -> NoDup (dates raw) -> number_of fa = Some (Fin f) -> runs ob cv VNone fa st sts -> own_closes ob st -> (i < days_given ob)%nat -> column "close" ob p ->
  built cOBV o raw b ob -> column "volume" ob v -> (forall j, (j < days_given ob)%nat -> 0 < v j) -> all_down 0 ob p -> let r := row_ (data st) i in
  x_signal r = Some (if (2 <=? i)%nat then Buy else Hold) /\ x_earnings r = Fin 0 /\ x_exposure r = Fin (sum_days (S i - 2) (fun j => p (2 + j)%nat)) /\ x_balance r = Fin (nq (S i - 2) * p i) /\
  open_longs (data st) i = (S i - 2)%nat /\ open_shorts (data st) i = 0%nat.
Proof. exact (fun W N FA HS OC I CL => balance_falls o raw b ob cv fa f st sts p i W N FA HS OC I CL v). Qed.
Print Assumptions C112_volume_on_a_fall.

(** eight days, on the closes of the indicator itself *)
Example C112_case : let up := uneven 8 in let down := rev (uneven 8) in let e := cMA (VInt 3) (VStr "exponential") in
  same_closes e up && same_closes e down && same_closes cOBV up && same_closes cOBV down && readable up e && readable down cOBV = true /\ smooth "exponential" 3 = Some 2%nat /\
  map (fun j => this (cl_of up j)) (seq 0 8) = [10; 14; 17; 19; 23; 26; 28; 32]%Q /\
  money x_earnings e up = map Some [0; 0; 0; 2; 6; 9; 11; 15]%Q /\ money x_exposure e up = map Some [0; 0; 17; 19; 23; 26; 28; 32]%Q /\ money x_balance e up = map Some [0; 0; 17; 21; 29; 35; 39; 47]%Q /\
  money x_balance e down = map Some [0; 0; 0; 0; 0; 0; 0; 0]%Q /\
  money x_earnings cOBV up = map Some [0; 0; 0; 0; 0; 0; 0; 0]%Q /\ money x_exposure cOBV up = map Some [0; 0; 51 # 2; 54; 177 # 2; 255 # 2; 339 # 2; 435 # 2]%Q /\
  money x_balance cOBV up = map Some [0; 0; -17; -38; -69; -104; -140; -192]%Q /\ money x_balance cOBV down = map Some [0; 0; 26; 46; 57; 68; 70; 60]%Q.
Proof. vm_compute. repeat split; reflexivity. Qed.
Example C112_hypotheses : let c := cMA (VInt 3) (VStr "exponential") in let rs := uneven 8 in let ob := obj_of c rs in
  wf_raw (bars rs) /\ NoDup (dates (bars rs)) /\ number_of (VFloat (D 3 2)) = Some (Fin (Q2Qc (3 # 2))) /\ built c ora0 (bars rs) true ob /\ column "close" ob (cl_of rs) /\ all_up tick4 ob (cl_of rs) /\
  exists st sts, runs ob (RFrame (bars rs)) VNone (VFloat (D 3 2)) st sts /\ own_closes ob st.
Proof.
  cbv zeta. set (c := cMA (VInt 3) (VStr "exponential")). set (rs := uneven 8). set (ob := obj_of c rs).
  split; [apply bars_wf|]. split; [vm_compute; repeat constructor; cbn; intuition discriminate|]. split; [reflexivity|]. split; [apply is_made_ok; vm_compute; reflexivity|].
  assert (R : readable rs c = true) by (vm_compute; reflexivity). destruct (read_column c rs R "close" (cl_of rs)) as [CL DG]; [cbn; auto|cbn; auto|]. fold ob in CL, DG. change (List.length rs) with 8%nat in DG.
  split; [exact CL|]. split; [unfold all_up; rewrite DG; apply climbsb_ok; vm_compute; reflexivity|].
  assert (OK : match sim_of c rs with Ok (st, _) => reads_as (fun k => x_stock (row_ (data st) k)) 8 (cl_of rs) | Err _ => false end = true) by (vm_compute; reflexivity).
  unfold sim_of in OK. fold ob in OK. destruct (snd (get_ti_simulation ob (RFrame (bars rs)) VNone (VFloat (D 3 2)))) as [[st sts]|]; [|discriminate OK]. exists st, sts. split; [reflexivity|].
  intros k K. rewrite (CL k K). rewrite DG in K. exact (reads_as_at _ 8 _ OK k K).
Qed.
