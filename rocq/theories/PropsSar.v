(** * PropsSar: theorems about the parabolic stop-and-reverse. *)
From Coq Require Import ZArith QArith Qcanon Bool List String PeanoNat Lia.
From Verif Require Import Num NumFacts Pandas Sim Frame FrameSpec Ind Signal Api IndSpec ApiSpec RangeSpec ValueSpec FormulaSpec SarSpec SarFacts PropsApi PropsRange PropsValue PropsCumul PropsFormula.
Import ListNotations.
Open Scope list_scope. Open Scope string_scope. Open Scope Qc_scope.

(** ** C49 Parabolic SAR *)
Theorem C49_published_stop o raw b ob m k h l : wf_raw raw -> snd (construct o cPSAR (RFrame raw) (VBool b)) = Ok ob ->
  (1 <= m)%nat -> (k <= m)%nat -> known (given "high" ob) m h -> known (given "low" ob) m l ->
  shown "sar" ob k = Fin (r4 (stop (trend_at h l k))).
Proof. exact (fun W => sar_shown o raw b ob W m k h l). Qed.
Print Assumptions C49_published_stop.
(** at or below the last three lows, at or above the last three highs, or at the extreme of the trend that just ended *)
Theorem C49_published_side o raw b ob k h l : wf_raw raw -> snd (construct o cPSAR (RFrame raw) (VBool b)) = Ok ob ->
  known (given "high" ob) (S k) h -> known (given "low" ob) (S k) l ->
  exists s, shown "sar" ob (S k) = Fin s /\
    ((forall j, (k - 1 <= j <= S k)%nat -> s <= r4 (l j)) \/ (forall j, (k - 1 <= j <= S k)%nat -> r4 (h j) <= s) \/
     exists a, (a <= k)%nat /\ (s = r4 (lowest l a k) \/ s = r4 (highest h a k))).
Proof. exact (fun W => sar_sides o raw b ob W k h l). Qed.
Print Assumptions C49_published_side.
Theorem C49_acceleration_range h l k : Q2Qc (2 # 100) <= factor (trend_at h l k) <= Q2Qc (20 # 100).
Proof. exact (factor_range h l k). Qed.
Print Assumptions C49_acceleration_range.
Theorem C49_acceleration_steps h l k : exists m, (1 <= m <= 10)%nat /\ factor (trend_at h l k) = nq m * Q2Qc (2 # 100).
Proof. exact (factor_steps h l k). Qed.
Print Assumptions C49_acceleration_steps.
Theorem C49_side_of_the_price h l k : let t := trend_at h l (S k) in (since t <= k)%nat ->
  if rising t then stop t <= l (S k) /\ stop t <= l k /\ stop t <= l (k - 1)%nat else h (S k) <= stop t /\ h k <= stop t /\ h (k - 1)%nat <= stop t.
Proof. exact (side h l k). Qed.
Print Assumptions C49_side_of_the_price.
Theorem C49_turns_on_crossing h l k : let t := trend_at h l k in
  rising (trend_at h l (S k)) <> rising t <-> (if rising t then l (S k) < stop_for h l t k else stop_for h l t k < h (S k)).
Proof. exact (turns h l k). Qed.
Print Assumptions C49_turns_on_crossing.
Theorem C49_new_trend h l k : let t := trend_at h l k in let t' := trend_at h l (S k) in since t' = S k ->
  rising t' = negb (rising t) /\ factor t' = Q2Qc (2 # 100) /\ stop t' = (if rising t' then lowest l (since t) k else highest h (since t) k).
Proof. exact (begins h l k). Qed.
Print Assumptions C49_new_trend.
Theorem C49_extreme h l k : (1 <= k)%nat -> let t := trend_at h l k in
  extreme t = (if rising t then highest h (since t) k else lowest l (since t) k).
Proof. exact (extreme_is h l k). Qed.
Print Assumptions C49_extreme.
(** the stop moves only with the trend, from a day on which it was outside the price range *)
Theorem C49_moves_with_the_trend h l k : let t := trend_at h l k in let t' := trend_at h l (S k) in
  (forall j, (j <= k)%nat -> l j <= h j) -> (since t' <= k)%nat ->
  (if rising t then stop t <= l k /\ ((1 <= k)%nat -> stop t <= l (k - 1)%nat) else h k <= stop t /\ ((1 <= k)%nat -> h (k - 1)%nat <= stop t)) ->
  if rising t' then stop t <= stop t' else stop t' <= stop t.
Proof. exact (moves_on h l k). Qed.
Print Assumptions C49_moves_with_the_trend.

Definition wide_day := [(18, 20, 15, 16, 50); (16, 19, 14, 15, 50); (15, 25, 5, 20, 50); (20, 24, 16, 22, 50); (22, 27, 18, 25, 50); (25, 26, 1, 2, 50)]%Z.
Definition highs_wide := [20; 19; 25; 24; 27; 26]%Z. Definition lows_wide := [15; 14; 5; 16; 18; 1]%Z.
Example C49_case : let ob := the (made ora0 cPSAR (bars wide_day) true) in
  wf_raw (bars wide_day) /\ known (given "high" ob) 5 (at_of highs_wide) /\ known (given "low" ob) 5 (at_of lows_wide) /\
  map (fun k => neqb (shown "sar" ob k) (D (nth k [2000; 2000; 1400; 500; 500; 2700] 0)%Z 100)) (seq 0 6) = repeat true 6 /\
  map (fun k => rising (trend_at (at_of highs_wide) (at_of lows_wide) k)) (seq 0 6) = [false; false; true; true; true; false].
Proof. split; [apply bars_wf|]. repeat split; try (apply reads_known; [vm_compute; reflexivity|cbn; lia]); vm_compute; reflexivity. Qed.
Example C49_case_moves : let h := at_of highs_wide in let l := at_of lows_wide in let t := trend_at h l 3 in
  since (trend_at h l 4) = 2%nat /\ rising t = true /\ stop t <= l 3%nat /\ stop t <= l 2%nat /\ factor t = Q2Qc (2 # 100) /\ factor (trend_at h l 4) = Q2Qc (4 # 100).
Proof. repeat split; try (vm_compute; reflexivity); solve [apply qleb_iff; vm_compute; reflexivity|apply Qc_is_canon; vm_compute; reflexivity]. Qed.
Example C49_case_turns : let h := at_of highs_wide in let l := at_of lows_wide in let t := trend_at h l 4 in
  rising t = true /\ l 5%nat < stop_for h l t 4 /\ since (trend_at h l 5) = 5%nat /\ stop (trend_at h l 5) = zq 27.
Proof. repeat split; try (vm_compute; reflexivity); solve [apply qltb_iff; vm_compute; reflexivity|apply Qc_is_canon; vm_compute; reflexivity]. Qed.
(** on the day a rising trend begins its stop can be above the low of the day *)
Theorem C49_stop_below_the_low_refuted : exists raw ob h l k, wf_raw raw /\ snd (construct ora0 cPSAR (RFrame raw) (VBool true)) = Ok ob /\
  known (given "high" ob) k h /\ known (given "low" ob) k l /\ (forall j, (j <= k)%nat -> l j <= h j) /\
  rising (trend_at h l k) = true /\ exists s, shown "sar" ob k = Fin s /\ l k < s.
Proof.
  exists (bars wide_day), (the (made ora0 cPSAR (bars wide_day) true)), (at_of highs_wide), (at_of lows_wide), 2%nat.
  split; [apply bars_wf|]. split; [vm_compute; reflexivity|].
  split; [apply reads_known; [vm_compute; reflexivity|cbn; lia]|]. split; [apply reads_known; [vm_compute; reflexivity|cbn; lia]|].
  split; [intros j J; apply qleb_iff; assert (Q : (j = 0 \/ j = 1 \/ j = 2)%nat) by lia; destruct Q as [-> |[-> | ->]]; vm_compute; reflexivity|].
  split; [vm_compute; reflexivity|]. eexists. split; [vm_compute; reflexivity|]. apply qltb_iff. vm_compute. reflexivity.
Qed.
Print Assumptions C49_stop_below_the_low_refuted.
(** and on the next day the stop can fall although the trend is rising *)
Theorem C49_stop_never_falls_while_rising_refuted : exists h l k, (forall j, l j <= h j) /\
  rising (trend_at h l k) = true /\ rising (trend_at h l (S k)) = true /\ stop (trend_at h l (S k)) < stop (trend_at h l k).
Proof.
  exists (at_of highs_wide), (at_of lows_wide), 2%nat. split; [|repeat split; try (vm_compute; reflexivity); apply qltb_iff; vm_compute; reflexivity].
  intro j. apply qleb_iff. do 6 (destruct j as [|j]; [vm_compute; reflexivity|]). destruct j; vm_compute; reflexivity.
Qed.
Print Assumptions C49_stop_never_falls_while_rising_refuted.
