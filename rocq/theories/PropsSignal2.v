(** * PropsSignal2: more theorems about getTiSignal. *)
From Coq Require Import ZArith QArith Qcanon Bool List String PeanoNat Lia.
From Verif Require Import Num NumFacts Pandas Sim Frame FrameSpec Ind Signal Api IndSpec ApiSpec ApiProofs RangeSpec ValueSpec Recur FormulaSpec Starts
  SignalSpec SignalApi SignalApi2 SignalApi3 PropsApi PropsFormula PropsSignal.
Import ListNotations.
Open Scope list_scope. Open Scope string_scope.

(** ** C66 Bands, thresholds and averages *)
Theorem C66_leaving_a_band o raw b st c up low : band_rule c = Some (up, low) -> working o c raw b st ->
  answers st 1 Sell (less (ago up st 1) (price "close" st 1))
               Buy (less (price "close" st 1) (ago low st 1) /\ ~ less (ago up st 1) (price "close" st 1)).
Proof. exact (@band_answers o raw b st c up low). Qed.
Print Assumptions C66_leaving_a_band.
Theorem C66_commodity_channel o raw b st p : working o (cCCI p) raw b st ->
  answers st 1 Buy (less (ago "cci" st 1) (level (-100))) Sell (less (level 100) (ago "cci" st 1)).
Proof. exact (@cci_answers o raw b st p). Qed.
Print Assumptions C66_commodity_channel.
Theorem C66_projection_bands o raw b st p u l c : working o (cPB p) raw b st ->
  ago "upper_band" st 1 = Fin u -> ago "lower_band" st 1 = Fin l -> price "close" st 1 = Fin c ->
  let margin := (Q2Qc (15 # 100) * (u - l))%Qc in
  answers st 1 Sell (u - c < margin)%Qc Buy (c - l < margin /\ ~ u - c < margin)%Qc.
Proof. exact (@pb_answers o raw b st p u l c). Qed.
Print Assumptions C66_projection_bands.
Theorem C66_projection_bands_missing o raw b st p : working o (cPB p) raw b st ->
  ago "upper_band" st 1 = NaN \/ ago "lower_band" st 1 = NaN \/ price "close" st 1 = NaN -> get_ti_signal st = Ok Hold.
Proof. exact (@pb_missing o raw b st p). Qed.
Print Assumptions C66_projection_bands_missing.
Theorem C66_double_exponential o raw b st p : working o (cDEMA p) raw b st ->
  answers1 st 1 Buy (less (price "close" st 1) (ago "dema" st 1)).
Proof. exact (@dema_answers o raw b st p). Qed.
Print Assumptions C66_double_exponential.
Theorem C66_triple_exponential o raw b st p : working o (cTEMA p) raw b st ->
  answers st 1 Buy (less (price "close" st 1) (ago "tema" st 1)) Sell (less (ago "tema" st 1) (price "close" st 1)).
Proof. exact (@tema_answers o raw b st p). Qed.
Print Assumptions C66_triple_exponential.
Theorem C66_moving_average o raw b st p t : working o (cMA p t) raw b st ->
  answers1 st 1 Buy (less (ago ("ma-" ++ as_str t)%string st 1) (price "close" st 1)).
Proof. exact (@ma_answers o raw b st p t). Qed.
Print Assumptions C66_moving_average.
Theorem C66_performance_long o raw b st t : working o (cPRF (VStr "LONG") t) raw b st -> answers1 st 1 Sell (at_most (as_number t) (ago "prf" st 1)).
Proof. exact (@prf_answers o raw b st t). Qed.
Print Assumptions C66_performance_long.
Theorem C66_performance_short o raw b st t : working o (cPRF (VStr "SHORT") t) raw b st -> answers1 st 1 Buy (at_most (ago "prf" st 1) (as_number t)).
Proof. exact (@prf_short_answers o raw b st t). Qed.
Print Assumptions C66_performance_short.
Theorem C66_standard_deviation o raw b st p c f : working o (cSD p) raw b st -> price "close" st 1 = Fin c ->
  latest (fun d => first_column st (days_given st - d)) (nat_arg p) f -> (nat_arg p <= days_given st)%nat ->
  let average := r4 (mean_of f (nat_arg p)) in
  answers st 1 Sell (average < c /\ less (level 2) (ago "sd" st 1))%Qc Buy (c < average /\ less (level 2) (ago "sd" st 1))%Qc.
Proof. exact (@sd_answers o raw b st p c f). Qed.
Print Assumptions C66_standard_deviation.
Theorem C66_typical_price o raw b st p f : working o (cTP p) raw b st ->
  latest (fun d => first_column st (days_given st - d)) (nat_arg p) f ->
  answers1 st (nat_arg p) Buy (less (Fin (mean_of f (nat_arg p))) (ago "tp" st 1)).
Proof. exact (@tp_answers o raw b st p f). Qed.
Print Assumptions C66_typical_price.
Theorem C66_negative_volume_index o raw b st a f : working o cNVI raw b st -> listed (shown "nvi" st) (days_shown st) a f ->
  let n := days_shown st in
  answers1 st 255 Buy (less (from (a + 254) (n - 1) (Fin (ema_from a 255 f (n - 1)))) (ago "nvi" st 1)).
Proof. exact (@nvi_answers o raw b st a f). Qed.
Print Assumptions C66_negative_volume_index.
Theorem C66_average_true_range o raw b st a c f : working o cATR raw b st -> ago "atr" st 1 = Fin a -> price "close" st 1 = Fin c ->
  latest (fun d => first_column st (days_given st - d)) 10 f ->
  let volatile := (Q2Qc (1 # 100) * c < a)%Qc in
  answers st 10 Buy (volatile /\ (c < mean_of f 5 \/ mean_of f 5 < c /\ mean_of f 10 < c))%Qc
                Sell (volatile /\ mean_of f 5 < c /\ ~ mean_of f 10 < c)%Qc.
Proof. exact (@atr_answers o raw b st a c f). Qed.
Print Assumptions C66_average_true_range.
Example C66_case :
  shows (cBB (VInt 4) (VFloat (D 1 10))) season [(3, Buy); (4, Sell); (11, Hold)]%nat = true /\ shows (cENV (VInt 4) (VFloat (D 5 100))) season [(6, Buy); (4, Sell)]%nat = true /\
  shows (cPCH (VInt 4)) season [(9, Buy); (5, Sell)]%nat = true /\ shows (cCCI (VInt 4)) season [(8, Buy); (4, Sell)]%nat = true /\
  shows (cPB (VInt 4)) season [(1, Hold); (10, Buy); (4, Sell)]%nat = true /\ shows (cDEMA (VInt 4)) season [(6, Buy); (11, Hold)]%nat = true /\
  shows (cTEMA (VInt 4)) season [(9, Buy); (11, Sell)]%nat = true /\ shows (cMA (VInt 4) (VStr "simple")) season [(4, Buy); (6, Hold)]%nat = true /\
  shows (cPRF (VStr "LONG") (VFloat (D 5 100))) season [(5, Sell); (6, Hold)]%nat = true /\ shows (cPRF (VStr "SHORT") (VFloat (D (-5) 100))) season [(1, Buy); (4, Hold)]%nat = true /\
  shows (cSD (VInt 4)) season [(3, Buy); (4, Sell); (19, Hold)]%nat = true /\ shows (cTP (VInt 4)) season [(5, Buy); (6, Hold)]%nat = true /\
  shows cATR season [(14, Buy); (13, Sell)]%nat = true.
Proof. repeat split; vm_compute; reflexivity. Qed.
Example C66_hypotheses :
  (let st := on_day (cPB (VInt 4)) season 10 in isfin (ago "upper_band" st 1) && isfin (ago "lower_band" st 1) && isfin (price "close" st 1) = true) /\
  (let st := on_day (cSD (VInt 4)) season 4 in let x := fun d => first_column st (days_given st - d) in latest x 4 (fun d => fin_of (x d)) /\ (4 <= days_given st)%nat) /\
  (let st := on_day (cTP (VInt 4)) season 5 in let x := fun d => first_column st (days_given st - d) in latest x 4 (fun d => fin_of (x d))) /\
  (let st := on_day cATR season 14 in let x := fun d => first_column st (days_given st - d) in latest x 10 (fun d => fin_of (x d)) /\ isfin (ago "atr" st 1) = true).
Proof. cbv zeta. repeat split; try (apply latest_of); try (vm_compute; reflexivity). vm_compute. repeat constructor. Qed.
Definition one_quiet_day := (repeat (10, 10, 10, 10, 50)%Z 255 ++ [(10, 12, 10, 12, 40)]%Z)%list.
Example C66_volume_case : let st := on_day cNVI one_quiet_day 255 in
  shows cNVI one_quiet_day [(254, Hold); (255, Buy)]%nat = true /\ listed (shown "nvi" st) (days_shown st) 0 (fun j => fin_of (shown "nvi" st j)).
Proof. split; [vm_compute; reflexivity|]. apply listed_of. vm_compute. reflexivity. Qed.

(** ** C67 Trends of three days *)
Theorem C67_three_days o raw b st c name sa sb : three_rule c = Some (name, sa, sb) -> working o c raw b st ->
  answers st 3 sa (rising3 (ago name st)) sb (falling3 (ago name st)).
Proof. exact (@three_answers o raw b st c name sa sb). Qed.
Print Assumptions C67_three_days.
Theorem C67_volume_oscillator o raw b st l s : working o (cVOSC l s) raw b st ->
  let x := ago "vosc" st in
  answers st 3 Buy (rising3 x /\ less (level 0) (x 3%nat)) Sell (falling3 x /\ less (level 0) (x 1%nat)).
Proof. exact (@vosc_answers o raw b st l s). Qed.
Print Assumptions C67_volume_oscillator.
Theorem C67_qstick o raw b st p : working o (cQS p) raw b st ->
  let x := ago "qstick" st in
  answers st 4 Buy (less (x 4%nat) (x 3%nat) /\ less (x 3%nat) (level 0) /\ less (level 0) (x 2%nat) /\ less (x 2%nat) (x 1%nat))
               Sell (less (x 3%nat) (x 4%nat) /\ less (level 0) (x 3%nat) /\ less (x 2%nat) (level 0) /\ less (x 1%nat) (x 2%nat)).
Proof. exact (@qstick_answers o raw b st p). Qed.
Print Assumptions C67_qstick.
Theorem C67_market_facilitation o raw b st : working o cMFI raw b st ->
  answers st 2 Buy (less (ago "mfi" st 1) (ago "mfi" st 2)) Sell (less (ago "mfi" st 2) (ago "mfi" st 1)).
Proof. exact (@mfi_answers o raw b st). Qed.
Print Assumptions C67_market_facilitation.
Theorem C67_vertical_horizontal_filter o raw b st p c : working o (cVHF p) raw b st ->
  (forall j, (j < days_given st)%nat -> given "close" st j = Fin (c j)) -> (forall j, (j < days_given st)%nat -> c j <> 0%Qc) ->
  let n := days_shown st in let x := ago "vhf" st in
  let e := ema_from 0 5 c in let e2 := ema_from 4 5 e in let dema5 k := from 8 k (Fin (r4 (zq 2 * e k - e2 k))%Qc) in
  let m k := r4 (zq 100 * c k / c (k - 12)%nat)%Qc in
  let mom12 d := from 12 (n - d) (Fin (m (n - d)%nat)) in let line d := from 20 (n - d) (Fin (ema_from 12 9 m (n - d))) in
  answers st 3 Buy ((rising3 x /\ (5 <= n)%nat /\ less (price "close" st 1) (dema5 (n - 1)%nat)) \/
                    (falling3 x /\ (12 <= n)%nat /\ crossed_below mom12 line))
               Sell (falling3 x /\ (12 <= n)%nat /\ crossed_above mom12 line).
Proof. exact (@vhf_answers o raw b st p c). Qed.
Print Assumptions C67_vertical_horizontal_filter.
Example C67_case :
  shows cOBV season [(9, Buy); (5, Sell)]%nat = true /\ shows cPVT season [(9, Buy); (5, Sell)]%nat = true /\
  shows (cPRC (VInt 4)) season [(9, Buy); (12, Sell)]%nat = true /\ shows (cVRC (VInt 4)) season [(13, Buy); (8, Sell)]%nat = true /\
  shows (cVCH (VInt 3) (VInt 3)) season [(19, Buy); (8, Sell)]%nat = true /\ shows (cVOSC (VInt 5) (VInt 2)) season [(24, Buy); (21, Sell)]%nat = true /\
  shows (cQS (VInt 4)) season [(14, Buy); (21, Sell)]%nat = true /\ shows cMFI season [(2, Buy); (1, Sell)]%nat = true /\
  shows (cVHF (VInt 3)) season [(20, Buy); (33, Sell)]%nat = true.
Proof. repeat split; vm_compute; reflexivity. Qed.
Example C67_hypotheses : let st := on_day (cVHF (VInt 3)) season 33 in
  forallb (fun j => match given "close" st j with Fin q => negb (qeqb q 0) | _ => false end) (seq 0 (days_given st)) = true.
Proof. vm_compute. reflexivity. Qed.

(** ** C68 Patterns *)
Theorem C68_accumulation_distribution o raw b st : working o cADL raw b st ->
  let moved := less (price "close" st 1) (price "close" st 2) \/ less (price "close" st 2) (price "close" st 1) in
  answers st 2 Buy (less (level 0) (ago "adl" st 1) /\ moved) Sell (less (ago "adl" st 1) (level 0) /\ moved).
Proof. exact (@adl_answers o raw b st). Qed.
Print Assumptions C68_accumulation_distribution.
Theorem C68_chaikin_money_flow o raw b st p : working o (cCMF p) raw b st -> price "close" st 2 <> NaN ->
  let x := ago "cmf" st in let c := price "close" st in
  answers st 3 Sell (less (x 1%nat) (x 2%nat) /\ less (c 2%nat) (c 1%nat) /\ less (c 3%nat) (c 1%nat))
               Buy (less (x 2%nat) (x 1%nat) /\ less (c 1%nat) (c 2%nat) /\ less (c 1%nat) (c 3%nat)).
Proof. exact (@cmf_answers o raw b st p). Qed.
Print Assumptions C68_chaikin_money_flow.
Theorem C68_chaikin_oscillator o raw b st c : working o cCO raw b st -> latest (price "close" st) 90 c ->
  let x := ago "co" st in
  answers st 90 Buy (mean_of c 90 < c 1%nat /\ less (x 2%nat) (x 1%nat) /\ less (x 1%nat) (level 0))%Qc
                Sell (c 1%nat < mean_of c 90 /\ less (x 1%nat) (x 2%nat) /\ less (level 0) (x 1%nat))%Qc.
Proof. exact (@co_answers o raw b st c). Qed.
Print Assumptions C68_chaikin_oscillator.
Theorem C68_fibonacci o raw b st : working o cFIB raw b st ->
  let lines := ["rl_61.8"; "rl_50.0"; "rl_38.2"; "rl_23.6"] in
  let down := exists name, In name lines /\ crossed_below (price "close" st) (ago name st) in
  let up := exists name, In name lines /\ crossed_above (price "close" st) (ago name st) in
  answers st 2 Buy down Sell (up /\ ~ down).
Proof. exact (@fib_answers o raw b st). Qed.
Print Assumptions C68_fibonacci.
Theorem C68_mass_index o raw b st : working o cMI raw b st ->
  let x := ago "mi" st in let e := price "9_ema" st in
  let bulge := exists d, (2 <= d <= days_shown st)%nat /\ less (level 27) (x d) /\
                 forall e, (2 <= e < d)%nat -> ~ less (x e) (Fin (Q2Qc (265 # 10))) in
  answers st 2 Sell (bulge /\ less (e 2%nat) (e 1%nat)) Buy (bulge /\ less (e 1%nat) (e 2%nat)).
Proof. exact (@mi_answers o raw b st). Qed.
Print Assumptions C68_mass_index.
Theorem C68_projection_oscillator o raw b st p : working o (cPROJ p) raw b st ->
  let x := ago "posc" st in let t := ago "trigger_line" st in
  let above := less (x 4%nat) (t 4%nat) /\ less (x 3%nat) (t 3%nat) /\ less (t 2%nat) (x 2%nat) /\ less (t 1%nat) (x 1%nat) in
  let below := less (t 4%nat) (x 4%nat) /\ less (t 3%nat) (x 3%nat) /\ less (x 2%nat) (t 2%nat) /\ less (x 1%nat) (t 1%nat) in
  answers st 4 Buy (rose_through x (level 15) \/ above /\ ~ fell_through x (level 85))
               Sell ((fell_through x (level 85) \/ below) /\ ~ rose_through x (level 15)).
Proof. exact (@proj_answers o raw b st p). Qed.
Print Assumptions C68_projection_oscillator.
Theorem C68_range_indicator o raw b st r s : working o (cRI r s) raw b st ->
  let x := ago "ri" st in let c := price "close" st in let n := days_shown st in
  let low d := latest_day 1 n (fun d => less (x d) (level 20)) d in
  ((n < 2)%nat -> get_ti_signal st = Ok Hold) /\
  ((2 <= n)%nat ->
    (rose_through x (level 20) -> get_ti_signal st = Ok Buy <-> less (c 2%nat) (c 1%nat)) /\
    (rose_through x (level 20) -> get_ti_signal st = Ok Sell <-> ~ less (c 2%nat) (c 1%nat)) /\
    (~ rose_through x (level 20) -> rose_through x (level 70) -> forall d, low d ->
       get_ti_signal st = Ok Sell <-> less (c d) (c 1%nat)) /\
    (~ rose_through x (level 20) -> rose_through x (level 70) -> forall d, low d ->
       get_ti_signal st = Ok Buy <-> ~ less (c d) (c 1%nat)) /\
    (~ rose_through x (level 20) -> rose_through x (level 70) -> (forall d, ~ low d) -> get_ti_signal st = Err IndexErr) /\
    (~ rose_through x (level 20) -> ~ rose_through x (level 70) -> get_ti_signal st = Ok Hold)).
Proof. exact (@ri_answers o raw b st r s). Qed.
Print Assumptions C68_range_indicator.
Theorem C68_stochastic o raw b st k s d m : working o (cSO k s d m) raw b st ->
  let x := ago "%K" st in let y := ago "%D" st in
  let fell := fell_through x (level 80) \/ fell_through y (level 80) in
  let rose := rose_through x (level 20) \/ rose_through y (level 20) in
  let down := less (x 1%nat) (x 2%nat) /\ less (x 1%nat) (y 1%nat) /\ less (level 80) (x 1%nat) in
  let up := less (x 2%nat) (x 1%nat) /\ less (y 1%nat) (x 1%nat) /\ less (x 1%nat) (level 20) in
  answers st 2 Sell (fell \/ down /\ ~ rose) Buy ((rose \/ up) /\ ~ fell).
Proof. exact (@so_answers o raw b st k s d m). Qed.
Print Assumptions C68_stochastic.
Theorem C68_williams_accumulation o raw b st : working o cWAD raw b st ->
  let c := price "close" st in let x := ago "wad" st in
  answers st 30 Buy (lowest_now c 30 /\ ~ lowest_now x 30)
                Sell (highest_now c 30 /\ ~ highest_now x 30 /\ ~ (lowest_now c 30 /\ ~ lowest_now x 30)).
Proof. exact (@wad_answers o raw b st). Qed.
Print Assumptions C68_williams_accumulation.
Theorem C68_williams_r o raw b st p : working o (cWR p) raw b st ->
  let x := ago "wr" st in
  let sold := exists d, (2 <= d <= days_shown st)%nat /\ at_most (x d) (level (-80)) /\ forall e, (2 <= e < d)%nat -> ~ at_most (level (-20)) (x e) in
  let bought := exists d, (2 <= d <= days_shown st)%nat /\ at_most (level (-20)) (x d) /\ forall e, (2 <= e < d)%nat -> ~ at_most (x e) (level (-80)) in
  answers st 2 Buy (sold /\ rose_through x (level (-50))) Sell (bought /\ fell_through x (level (-50))).
Proof. exact (@wr_answers o raw b st p). Qed.
Print Assumptions C68_williams_r.
Example C68_case :
  shows cADL season [(1, Buy); (10, Sell); (3, Hold)]%nat = true /\ shows (cCMF (VInt 4)) season [(34, Buy); (15, Sell)]%nat = true /\
  shows cFIB season [(6, Buy); (4, Sell)]%nat = true /\ shows (cPROJ (VInt 5)) season [(11, Buy); (5, Sell)]%nat = true /\
  shows (cRI (VInt 4) (VInt 2)) season [(14, Buy); (15, Sell); (16, Hold)]%nat = true /\
  shows (cSO (VInt 3) (VInt 3) (VInt 2) (VStr "simple")) season [(11, Buy); (15, Sell)]%nat = true /\
  shows cWAD season [(29, Sell)]%nat = true /\ shows (cWR (VInt 4)) season [(12, Buy); (6, Sell)]%nat = true.
Proof. repeat split; vm_compute; reflexivity. Qed.
(** the range indicator looks for a day with a value below 20 and there is none *)
Theorem C68_range_indicator_always_answers_refuted : exists raw st, working ora0 (cRI (VInt 4) (VInt 2)) raw true st /\ get_ti_signal st = Err IndexErr.
Proof.
  exists (bars season), (on_day (cRI (VInt 4) (VInt 2)) season 6).
  destruct (shows_working (cRI (VInt 4) (VInt 2)) season [(14, Buy)]%nat 14 Buy) as [[W (ob & A & B)] _]; [vm_compute; reflexivity|left; reflexivity|].
  split; [|vm_compute; reflexivity]. split; [exact W|]. exists ob. split; [exact A|]. right. exists 6%nat. unfold on_day, made. rewrite A. reflexivity.
Qed.
Print Assumptions C68_range_indicator_always_answers_refuted.
(** ninety days around one price, then a day closing at one end of its range with much volume *)
Definition days (n : nat) (p : Z) : list (Z * Z * Z * Z * Z) := repeat (p, p + 2, p - 2, p, 50)%Z n.
Definition quarter := (days 90 10 ++ [(10, 12, 8, 8, 90)]%Z ++ days 3 20)%list.
Definition quarter' := (days 90 10 ++ [(10, 12, 8, 12, 90)]%Z ++ days 3 5)%list.
Example C68_chaikin_case : shows cCO quarter [(80, Hold); (93, Buy)]%nat = true /\ shows cCO quarter' [(93, Sell)]%nat = true /\
  let st := on_day cCO quarter' 93 in latest (price "close" st) 90 (fun d => fin_of (price "close" st d)).
Proof. split; [vm_compute; reflexivity|]. split; [vm_compute; reflexivity|]. apply latest_of. vm_compute. reflexivity. Qed.
(** forty days with one range, then one with a range a hundred times larger *)
Definition bulging (last : Z) := (repeat (10, 11, 9, 10, 50)%Z 42 ++ [(10, 110, 9, 10, 50); (10, 11, 9, last, 50)]%Z)%list.
Example C68_mass_case : shows cMI (bulging 9) [(42, Hold); (43, Buy)]%nat = true /\ shows cMI (bulging 11) [(43, Sell)]%nat = true.
Proof. split; vm_compute; reflexivity. Qed.
