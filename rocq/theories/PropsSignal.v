(** * PropsSignal: theorems about getTiSignal. *)
From Coq Require Import ZArith QArith Qcanon Bool List String PeanoNat Lia.
From Verif Require Import Num NumFacts Pandas Sim Frame FrameSpec Ind Signal Api IndSpec ApiSpec ApiProofs RangeSpec ValueSpec Recur FormulaSpec Starts
  SignalSpec SignalApi SignalApi2 SignalApi3 PropsApi PropsFormula.
Import ListNotations.
Open Scope list_scope. Open Scope string_scope.

(** ** concrete markets *)
Definition season := [(40, 43, 37, 42, 93); (42, 42, 32, 36, 22); (36, 42, 36, 38, 74); (38, 38, 38, 38, 65); (38, 42, 37, 42, 21); (42, 51, 42, 48, 82); (48, 49, 34, 38, 17); (38, 44, 35, 40, 16); (40, 40, 30, 34, 27); (34, 37, 28, 29, 79); (29, 33, 17, 19, 81); (19, 24, 19, 23, 84); (23, 32, 21, 31, 22); (31, 37, 27, 37, 17); (37, 46, 34, 45, 97); (45, 54, 43, 51, 69); (51, 62, 49, 59, 48); (59, 60, 58, 59, 20); (59, 63, 55, 61, 73); (61, 64, 55, 57, 87); (57, 57, 43, 47, 63); (47, 49, 38, 39, 72); (39, 39, 37, 37, 81); (37, 41, 35, 39, 98); (39, 45, 36, 41, 84); (41, 46, 41, 46, 44); (46, 51, 46, 51, 99); (51, 56, 48, 52, 46); (52, 67, 50, 64, 12); (64, 71, 63, 69, 88); (69, 72, 59, 59, 37); (59, 60, 53, 54, 60); (54, 57, 52, 52, 31); (52, 55, 47, 51, 45); (51, 54, 39, 43, 45); (43, 52, 41, 49, 97)]%Z.
Definition signal_is (s : signal) (r : res signal) : bool :=
  match s, r with Buy, Ok Buy | Sell, Ok Sell | Hold, Ok Hold => true | _, _ => false end.
(** the object limited to row k, as the simulation sees it *)
Definition on_day (c : ctor) (rows : list (Z * Z * Z * Z * Z)) (k : nat) : obj := limited k (the (made ora0 c (bars rows) true)).
(** the object is built, and on these rows it gives these signals *)
Definition shows (c : ctor) (rows : list (Z * Z * Z * Z * Z)) (l : list (nat * signal)) : bool :=
  match made ora0 c (bars rows) true with
  | Some ob => forallb (fun p => signal_is (snd p) (get_ti_signal (limited (fst p) ob))) l
  | None => false
  end.
Lemma signal_is_eq s r : signal_is s r = true -> r = Ok s.
Proof. destruct s, r as [[]|]; try discriminate; reflexivity. Qed.
Lemma shows_working c rows l k s : shows c rows l = true -> In (k, s) l ->
  working ora0 c (bars rows) true (on_day c rows k) /\ get_ti_signal (on_day c rows k) = Ok s.
Proof.
  unfold shows, on_day. destruct (made ora0 c (bars rows) true) as [ob|] eqn:E; [|discriminate]. intros H I. cbn [the].
  split.
  - split; [apply bars_wf|]. exists ob. split; [|right; exists k; reflexivity].
    unfold made in E. destruct (snd _); [injection E as ->; reflexivity|discriminate].
  - rewrite forallb_forall in H. specialize (H _ I). apply signal_is_eq in H. exact H.
Qed.
Definition fin_of (x : num) : Qc := match x with Fin q => q | _ => 0%Qc end.
Lemma latest_of x n : forallb (fun d => isfin (x d)) (seq 1 n) = true -> latest x n (fun d => fin_of (x d)).
Proof.
  intros H d D. rewrite forallb_forall in H. specialize (H d ltac:(apply in_seq; lia)). destruct (x d); try discriminate. reflexivity.
Qed.
Lemma listed_of x n a : forallb (fun j => if (j <? a)%nat then isnan (x j) else isfin (x j)) (seq 0 n) = true -> listed x n a (fun j => fin_of (x j)).
Proof.
  intros H j J. rewrite forallb_forall in H. specialize (H j ltac:(apply in_seq; lia)). destruct (j <? a)%nat; destruct (x j); try discriminate; reflexivity.
Qed.
Lemma lowest_of x n d : (1 <= d <= n)%nat -> isfin (x d) = true ->
  forallb (fun e => match x e with Fin q => qleb (fin_of (x d)) q && (negb (d <? e)%nat || qltb (fin_of (x d)) q) | _ => true end) (seq 1 n) = true ->
  lowest_first x n d.
Proof.
  intros D N H. split; [exact D|]. exists (fin_of (x d)). split; [destruct (x d); try discriminate; reflexivity|].
  intros e q E Q. rewrite forallb_forall in H. specialize (H e ltac:(apply in_seq; lia)). rewrite Q in H. apply andb_true_iff in H as [A B].
  split; [apply qleb_iff; exact A|]. intro L. apply Nat.ltb_lt in L. rewrite L in B. apply qltb_iff. exact B.
Qed.

(** ** C54 Crossing signals *)
Theorem C54_crossing_a_level o raw b st c name up su down sd : level_rule c = Some (name, up, su, down, sd) -> working o c raw b st ->
  answers st 2 su (rose_through (ago name st) (level up)) sd (fell_through (ago name st) (level down)).
Proof. exact (@level_answers o raw b st c name up su down sd). Qed.
Print Assumptions C54_crossing_a_level.
Theorem C54_crossing_a_line o raw b st c name sa sb : line_rule c = Some (name, sa, sb) -> working o c raw b st ->
  answers st 2 sa (crossed_above (price "close" st) (ago name st)) sb (crossed_below (price "close" st) (ago name st)).
Proof. exact (@line_answers o raw b st c name sa sb). Qed.
Print Assumptions C54_crossing_a_line.
Theorem C54_directional_movement o raw b st : working o cDMI raw b st ->
  answers st 2 Buy (crossed_above (ago "+di" st) (ago "-di" st) /\ at_most (level 20) (ago "adxr" st 1))
               Sell (crossed_below (ago "+di" st) (ago "-di" st) /\ at_most (level 20) (ago "adxr" st 1)).
Proof. exact (@dmi_answers o raw b st). Qed.
Print Assumptions C54_directional_movement.
Theorem C54_macd o raw b st : working o cMACD raw b st ->
  let m := ago "macd" st in let s := ago "signal_line" st in
  answers st 2 Buy (rose_through m (level 0) \/ crossed_above m s /\ ~ fell_through m (level 0))
               Sell (fell_through m (level 0) \/ crossed_below m s /\ ~ rose_through m (level 0)).
Proof. exact (@macd_answers o raw b st). Qed.
Print Assumptions C54_macd.
Theorem C54_momentum o raw b st p a f : working o (cMOM p) raw b st -> listed (shown "mom" st) (days_shown st) a f ->
  let n := days_shown st in
  let e := fun d => from (a + 8) (n - d) (Fin (ema_from a 9 f (n - d))) in
  answers st 9 Sell (crossed_above (ago "mom" st) e) Buy (crossed_below (ago "mom" st) e).
Proof. exact (@mom_answers o raw b st p a f). Qed.
Print Assumptions C54_momentum.
Theorem C54_median_price o raw b st p : working o (cMP p) raw b st -> (2 <= nat_arg p \/ 2 <= days_shown st)%nat ->
  answers st (nat_arg p) Buy (crossed_above (price "close_ema" st) (ago "mp" st)) Sell (crossed_below (price "close_ema" st) (ago "mp" st)).
Proof. exact (@mp_answers o raw b st p). Qed.
Print Assumptions C54_median_price.
Theorem C54_positive_volume_index o raw b st a f : working o cPVI raw b st -> listed (shown "pvi" st) (days_shown st) a f ->
  let n := days_shown st in
  let e := fun d => from (a + 254) (n - d) (Fin (ema_from a 255 f (n - d))) in
  answers st 255 Buy (crossed_above (ago "pvi" st) e) Sell (crossed_below (ago "pvi" st) e).
Proof. exact (@pvi_answers o raw b st a f). Qed.
Print Assumptions C54_positive_volume_index.
(** nothing is signalled while a value is missing *)
Theorem C54_missing_level_holds o raw b st c name up su down sd : level_rule c = Some (name, up, su, down, sd) -> working o c raw b st ->
  ago name st 1 = NaN \/ ago name st 2 = NaN -> get_ti_signal st = Ok Hold.
Proof. exact (@level_missing o raw b st c name up su down sd). Qed.
Print Assumptions C54_missing_level_holds.
Theorem C54_missing_line_holds o raw b st c name sa sb : line_rule c = Some (name, sa, sb) -> working o c raw b st ->
  ago name st 1 = NaN \/ ago name st 2 = NaN \/ price "close" st 1 = NaN \/ price "close" st 2 = NaN -> get_ti_signal st = Ok Hold.
Proof. exact (@line_missing o raw b st c name sa sb). Qed.
Print Assumptions C54_missing_line_holds.
Example C54_level_case :
  shows (cCMO (VInt 5)) season [(5, Hold); (10, Buy); (15, Sell)]%nat = true /\ shows (cDPO (VInt 5)) season [(4, Buy); (10, Sell)]%nat = true /\
  shows (cEMV (VInt 4)) season [(5, Buy); (6, Sell)]%nat = true /\ shows (cFOSC (VInt 4)) season [(6, Buy); (11, Sell)]%nat = true /\
  shows (cIMI (VInt 4)) season [(9, Buy); (5, Sell)]%nat = true /\ shows (cLRS (VInt 4)) season [(7, Buy); (4, Sell)]%nat = true /\
  shows (cPOSC (VInt 5) (VInt 2)) season [(13, Buy); (7, Sell)]%nat = true /\ shows (cRMI (VInt 4) (VInt 2)) season [(9, Buy); (14, Sell)]%nat = true /\
  shows (cRSI (VInt 4)) season [(9, Buy); (14, Sell)]%nat = true /\ shows (cRVI (VInt 4)) season [(21, Buy); (13, Sell)]%nat = true /\
  shows (cSMI (VInt 3) (VInt 2) (VInt 2)) season [(8, Buy); (13, Sell)]%nat = true /\ shows cSWI season [(6, Buy); (2, Sell)]%nat = true.
Proof. repeat split; vm_compute; reflexivity. Qed.
Example C54_line_case :
  shows (cLRI (VInt 4)) season [(6, Buy); (7, Sell)]%nat = true /\ shows (cTSF (VInt 4)) season [(4, Buy); (7, Sell)]%nat = true /\
  shows cWC season [(1, Buy); (7, Sell)]%nat = true /\ shows (cWS (VInt 4)) season [(6, Buy); (4, Sell)]%nat = true /\
  shows cPSAR season [(5, Buy); (8, Sell)]%nat = true /\ shows cMACD season [(34, Sell)]%nat = true /\
  shows (cMP (VInt 4)) season [(7, Buy); (5, Sell)]%nat = true /\ shows (cMOM (VInt 3)) season [(17, Buy); (12, Sell)]%nat = true.
Proof. repeat split; vm_compute; reflexivity. Qed.
Example C54_momentum_case : let st := on_day (cMOM (VInt 3)) season 17 in
  listed (shown "mom" st) (days_shown st) 3 (fun j => fin_of (shown "mom" st j)).
Proof. apply listed_of. vm_compute. reflexivity. Qed.
(** a month and a half of rises, then a fall *)
Definition ramp := map (fun k => let x := Z.of_nat (if (k <? 43)%nat then k else 20) in (x + 20, x + 21, x + 19, x + 20, 50)%Z) (seq 1 44).
Example C54_directional_movement_case : shows cDMI ramp [(30, Hold); (42, Sell)]%nat = true.
Proof. vm_compute. reflexivity. Qed.
(** nearly a year without change, then two days with more volume *)
Definition two_busy_days := (repeat (10, 10, 10, 10, 50)%Z 254 ++ [(10, 10, 8, 8, 60); (8, 16, 8, 16, 70)]%Z)%list.
Example C54_volume_case : let st := on_day cPVI two_busy_days 255 in
  shows cPVI two_busy_days [(253, Hold); (255, Buy)]%nat = true /\ listed (shown "pvi" st) (days_shown st) 0 (fun j => fin_of (shown "pvi" st j)).
Proof. split; [vm_compute; reflexivity|]. apply listed_of. vm_compute. reflexivity. Qed.

(** ** C55 Ultimate oscillator *)
Theorem C55_buy_rule o raw b st dc du : working o cUO raw b st ->
  let c := price "close" st in let x := ago "uosc" st in
  (forall e, (1 <= e <= 30)%nat -> (c e = NaN \/ isfin (c e) = true) /\ (x e = NaN \/ isfin (x e) = true)) ->
  lowest_first c 30 dc -> lowest_first x 30 du ->
  answers1 st 30 Buy (dc <> du /\ (less (level 1) (x 1%nat) \/ less (level 0) (x 1%nat) /\ exists e, (2 <= e <= 30)%nat /\ same (x e) (level 0))).
Proof. exact (@uo_answers o raw b st dc du). Qed.
Print Assumptions C55_buy_rule.
Theorem C55_never_sells o raw b st : working o cUO raw b st -> get_ti_signal st <> Ok Sell.
Proof. exact (@uo_never_sells o raw b st). Qed.
Print Assumptions C55_never_sells.
Example C55_case : let st := on_day cUO season 29 in
  shows cUO season [(28, Hold); (29, Buy)]%nat = true /\ lowest_first (price "close" st) 30 20 /\ lowest_first (ago "uosc" st) 30 2 /\
  (forall e, (1 <= e <= 30)%nat -> (price "close" st e = NaN \/ isfin (price "close" st e) = true) /\ (ago "uosc" st e = NaN \/ isfin (ago "uosc" st e) = true)).
Proof.
  cbv zeta. split; [vm_compute; reflexivity|]. split; [apply lowest_of; [lia|vm_compute; reflexivity|vm_compute; reflexivity]|].
  split; [apply lowest_of; [lia|vm_compute; reflexivity|vm_compute; reflexivity]|].
  assert (H : forallb (fun e => (isnan (price "close" (on_day cUO season 29) e) || isfin (price "close" (on_day cUO season 29) e)) &&
    (isnan (ago "uosc" (on_day cUO season 29) e) || isfin (ago "uosc" (on_day cUO season 29) e))) (seq 1 30) = true) by (vm_compute; reflexivity).
  intros e E. rewrite forallb_forall in H. specialize (H e ltac:(apply in_seq; lia)). apply andb_true_iff in H as [A B].
  split; [destruct (price _ _ e); auto; discriminate|destruct (ago _ _ e); auto; discriminate].
Qed.
(** the documentation asks for a bottom below 30: not needed *)
Theorem C55_buy_needs_a_low_refuted : exists raw st, working ora0 cUO raw true st /\ get_ti_signal st = Ok Buy /\
  forall d, (1 <= d <= days_shown st)%nat -> ~ less (ago "uosc" st d) (level 30).
Proof.
  exists (bars season), (on_day cUO season 29). destruct (shows_working cUO season [(29, Buy)]%nat 29 Buy) as [A B]; [vm_compute; reflexivity|left; reflexivity|].
  split; [exact A|]. split; [exact B|].
  assert (H : forallb (fun e => negb (nltb (ago "uosc" (on_day cUO season 29) e) (level 30))) (seq 1 (days_shown (on_day cUO season 29))) = true) by (vm_compute; reflexivity).
  intros d D L. rewrite forallb_forall in H. specialize (H d ltac:(apply in_seq; lia)). apply negb_true_iff in H. apply less_iff in L. congruence.
Qed.
Print Assumptions C55_buy_needs_a_low_refuted.

(** ** C56 Ichimoku cloud *)
Theorem C56_cloud_rule o raw b st : working o cICH raw b st ->
  let a := ago "senkou_a" st 1 in let b' := ago "senkou_b" st 1 in let c := price "close" st 1 in
  let t := ago "tenkan_sen" st in let k := ago "kijun_sen" st in
  a <> NaN -> b' <> NaN -> c <> NaN ->
  let above v := less a v /\ less b' v in let below v := at_most v a /\ at_most v b' in
  answers st 2 Buy (crossed_above t k /\ above c /\ above (t 1%nat) /\ above (k 1%nat))
               Sell (crossed_below t k /\ below c /\ below (t 1%nat) /\ below (k 1%nat)).
Proof. exact (@ich_answers o raw b st). Qed.
Print Assumptions C56_cloud_rule.
(** n days at one price *)
Definition flat (n : nat) (p : Z) : list (Z * Z * Z * Z * Z) := repeat (p, p, p, p, 50)%Z n.
Definition climb := (flat 54 10 ++ flat 6 100 ++ [(100, 120, 100, 100, 50)]%Z ++ flat 10 100 ++ [(100, 100, 60, 100, 50)]%Z ++ flat 9 100)%list.
Definition slide := (flat 54 200 ++ flat 6 100 ++ [(100, 100, 80, 100, 50)]%Z ++ flat 10 100 ++ [(100, 140, 100, 100, 50)]%Z ++ flat 9 100)%list.
Definition cloud_shown (st : obj) : Prop := ago "senkou_a" st 1 <> NaN /\ ago "senkou_b" st 1 <> NaN /\ price "close" st 1 <> NaN.
Example C56_case : shows cICH climb [(79, Hold); (80, Buy)]%nat = true /\ shows cICH slide [(79, Hold); (80, Sell)]%nat = true /\
  cloud_shown (on_day cICH climb 80) /\ cloud_shown (on_day cICH slide 80).
Proof. repeat split; vm_compute; try reflexivity; discriminate. Qed.
(** without a cloud the price counts as above it *)
Definition short_climb := (flat 5 100 ++ [(100, 120, 100, 100, 50)]%Z ++ flat 10 100 ++ [(100, 100, 60, 100, 50)]%Z ++ flat 19 100)%list.
Theorem C56_buy_needs_a_cloud_refuted : exists raw st, working ora0 cICH raw true st /\ get_ti_signal st = Ok Buy /\
  ago "senkou_a" st 1 = NaN /\ ago "senkou_b" st 1 = NaN.
Proof.
  exists (bars short_climb), (on_day cICH short_climb 25). destruct (shows_working cICH short_climb [(25, Buy)]%nat 25 Buy) as [A B]; [vm_compute; reflexivity|left; reflexivity|].
  split; [exact A|]. split; [exact B|]. split; vm_compute; reflexivity.
Qed.
Print Assumptions C56_buy_needs_a_cloud_refuted.
(** a price on the border counts as below *)
Definition on_the_border := (flat 60 100 ++ [(100, 100, 80, 100, 50)]%Z ++ flat 10 100 ++ [(85, 120, 85, 85, 50)]%Z ++ flat 8 85 ++ [(85, 100, 85, 100, 50)]%Z)%list.
Theorem C56_sell_below_the_cloud_refuted : exists raw st, working ora0 cICH raw true st /\ get_ti_signal st = Ok Sell /\
  ~ less (price "close" st 1) (ago "senkou_a" st 1) /\ ~ less (price "close" st 1) (ago "senkou_b" st 1).
Proof.
  exists (bars on_the_border), (on_day cICH on_the_border 80). destruct (shows_working cICH on_the_border [(80, Sell)]%nat 80 Sell) as [A B]; [vm_compute; reflexivity|left; reflexivity|].
  split; [exact A|]. split; [exact B|]. split; intro L; apply less_iff in L; revert L; vm_compute; discriminate.
Qed.
Print Assumptions C56_sell_below_the_cloud_refuted.

