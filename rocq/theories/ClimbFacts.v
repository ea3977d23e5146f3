(** * ClimbFacts: sums, averages and sides of a series that only rises or only falls. *)
From Coq Require Import ZArith QArith Qcanon Bool List String PeanoNat Lia.
From Verif Require Import Num NumFacts RoundFacts RangeSpec RangeFacts ValueSpec ValueFacts ValueMore FormulaSpec Formula2 Formula4 Line OrderFacts SwayFacts SteadySpec SteadyFacts SteadyApi SteadySig ClimbSpec.
Open Scope Qc_scope.

Lemma climb_lt e c k i j : climbs_by e c k -> 0 <= e -> (i < j)%nat -> (j <= k)%nat -> c i + e < c j.
Proof.
  intros H E I J. induction j as [|j IH]; [lia|]. destruct (Nat.eq_dec i j) as [->|N]; [apply H; lia|]. assert (A : c i + e < c j) by (apply IH; lia). assert (B : c j + e < c (S j)) by (apply H; lia). qlra.
Qed.
Lemma climb_le e c k i j : climbs_by e c k -> 0 <= e -> (i <= j)%nat -> (j <= k)%nat -> c i <= c j.
Proof. intros H E I J. destruct (Nat.eq_dec i j) as [->|N]; [apply Qcle_refl|]. assert (A : c i + e < c j) by (apply (climb_lt e c k); auto; lia). qlra. Qed.
Lemma sinks_opp e c k : sinks_by e c k -> climbs_by e (fun j => - c j) k.
Proof. intros H j J. specialize (H j J). qlra. Qed.
Lemma climb_less e c k m : climbs_by e c k -> (m <= k)%nat -> climbs_by e c m. Proof. intros H M j J. apply H. lia. Qed.
Lemma sink_less e c k m : sinks_by e c k -> (m <= k)%nat -> sinks_by e c m. Proof. intros H M j J. apply H. lia. Qed.

Lemma total_lt f z n : (1 <= n)%nat -> (forall j, (j < n)%nat -> f j < z) -> total f n < nq n * z.
Proof.
  intros N H. induction n as [|n IH]; [lia|]. cbn [total]. rewrite nq_S. assert (A : f n < z) by (apply H; lia). destruct n as [|n]; [cbn [total]; change (nq 0) with 0; replace ((0 + 1) * z) with z by ring; replace (0 + f 0%nat) with (f 0%nat) by ring; exact A|].
  assert (B : total f (S n) < nq (S n) * z) by (apply IH; [lia|intros; apply H; lia]). replace ((nq (S n) + 1) * z) with (nq (S n) * z + z) by ring. set (a := total f (S n)) in *. set (b := nq (S n) * z) in *. clearbody a b. qlra.
Qed.
Lemma over_lt a b n : 0 < n -> a < n * b -> a / n < b.
Proof. intros N H. assert (Z : n <> 0) by (apply qc_pos_neq0, N). replace a with (n * (a / n)) in H by (field; exact Z). set (q := a / n) in *. clearbody q. destruct (Qclt_le_dec q b) as [G|G]; [exact G|]. exfalso. assert (n * b <= n * q) by (apply mul_le; [apply Qclt_le_weak, N|exact G]). qlra. Qed.
Lemma mean_lt f z p k : (1 <= p)%nat -> (p <= S k)%nat -> (forall j, (S k - p <= j <= k)%nat -> f j < z) -> mean_last f p k < z.
Proof. intros P K H. unfold mean_last. apply over_lt; [apply nq_pos; lia|]. apply total_lt; [exact P|]. intros j J. apply H. lia. Qed.

Definition half : Qc := Q2Qc (1 # 2).
Lemma half_two x : half * x + half * x = x. Proof. replace (half * x + half * x) with ((half + half) * x) by ring. replace (half + half) with 1 by (apply Qc_is_canon; reflexivity). ring. Qed.
Lemma mean_lag e c k p : climbs_by e c k -> 0 <= e -> (2 <= p)%nat -> (p <= S k)%nat -> mean_last c p k < c k - half * e.
Proof.
  intros H E P K. unfold mean_last. apply over_lt; [apply nq_pos; lia|]. unfold sum_last. destruct p as [|p]; [lia|]. cbn [total]. replace (S k - S p + p)%nat with k by lia.
  assert (A : total (fun j => c (S k - S p + j)%nat) p < nq p * (c k - e)). { apply total_lt; [lia|]. intros j J. assert (c (S k - S p + j)%nat + e < c k) by (apply (climb_lt e c k); auto; lia). qlra. }
  rewrite nq_S. assert (B : 1 <= nq p). { destruct p as [|p]; [lia|]. rewrite nq_S. pose proof (nq_nonneg p). qlra. }
  replace ((nq p + 1) * (c k - half * e)) with (nq p * (c k - e) + c k + (nq p * (e - half * e) - half * e)) by ring. pose proof (half_two e) as T.
  assert (X : half * e <= nq p * (e - half * e)). { replace (e - half * e) with (half * e) by (set (y := half * e) in *; clearbody y; rewrite <- T; ring). assert (Y : 0 <= half * e) by (replace 0 with (half * 0) by ring; apply mul_le; [discriminate|exact E]). set (y := half * e) in *. clearbody y. pose proof (mul_le y 1 (nq p) Y B) as Z. rewrite Qcmult_1_r in Z. rewrite Qcmult_comm. exact Z. }
  set (u := nq p * (c k - e)) in *. set (v := nq p * (e - half * e)) in *. set (w := half * e) in *. set (x := total _ p) in *. clearbody u v w x. qlra.
Qed.
Lemma mean_mean_lag e c k p : climbs_by e c k -> 0 <= e -> (2 <= p)%nat -> (2 * (p - 1) <= k)%nat -> mean_last (mean_last c p) p k < c k - half * e.
Proof.
  intros H E P K. apply mean_lt; [lia|lia|]. intros j J. assert (A : mean_last c p j < c j - half * e) by (apply mean_lag; [apply (climb_less _ _ k); auto; lia|exact E|exact P|lia]).
  assert (B : c j <= c k) by (apply (climb_le e c k); auto; lia). set (y := half * e) in *. clearbody y. qlra.
Qed.
Lemma ema_under e c k p : climbs_by e c k -> 0 <= e -> (1 <= p)%nat -> ema_from 0 p c k <= c k.
Proof.
  intros H E P. destruct (span_01 p P) as [X Y]. unfold ema_from. rewrite Nat.sub_0_r. induction k as [|k IH]; [cbn; apply Qcle_refl|]. cbn [ema]. rewrite Nat.add_0_l. assert (A : ema (span p) (fun j => c (0 + j)%nat) k <= c k) by (apply IH; apply (climb_less _ _ (S k)); auto).
  assert (B : c k <= c (S k)) by (apply (climb_le e c (S k)); auto; lia). set (q := ema (span p) (fun j => c (0 + j)%nat) k) in *. clearbody q. assert (Z : (1 - span p) * q <= (1 - span p) * c (S k)) by (apply mul_le; [qlra|apply (Qcle_trans _ _ _ A B)]).
  replace (c (S k)) with (span p * c (S k) + (1 - span p) * c (S k)) at 2 by ring. set (m := (1 - span p) * q) in *. set (n := (1 - span p) * c (S k)) in *. set (r := span p * c (S k)). clearbody m n r. qlra.
Qed.
Lemma span_half p : (3 <= p)%nat -> span p <= half.
Proof.
  intro P. unfold span. assert (N : 0 < nq (S p)) by (apply nq_pos; lia). assert (Z : nq (S p) <> 0) by (apply qc_pos_neq0, N).
  assert (A : zq 4 <= nq (S p)). { replace (S p) with (4 + (p - 3))%nat by lia. rewrite nq_add. pose proof (nq_nonneg (p - 3)). change (nq 4) with (zq 4). set (y := nq (p - 3)) in *. clearbody y. qlra. }
  assert (B : nq (S p) * (zq 2 / nq (S p)) = zq 2) by (field; exact Z). set (q := zq 2 / nq (S p)) in *. set (n := nq (S p)) in *. clearbody q n. destruct (Qclt_le_dec half q) as [G|G]; [|exact G]. exfalso.
  assert (C : n * half < n * q) by (rewrite !(Qcmult_comm n); apply Qcmult_lt_compat_r; assumption). assert (D : half * zq 4 <= half * n) by (apply mul_le; [discriminate|exact A]). replace (half * zq 4) with (zq 2) in D by (apply Qc_is_canon; reflexivity). rewrite B in C. rewrite (Qcmult_comm n half) in C. set (y := half * n) in *. clearbody y. qlra.
Qed.
Lemma ema_lag e c k p : climbs_by e c k -> 0 <= e -> (3 <= p)%nat -> (1 <= k)%nat -> ema_from 0 p c k < c k - half * e.
Proof.
  intros H E P K. rewrite ema_step by lia. destruct (span_01 p ltac:(lia)) as [X _]. pose proof (span_half p P) as Y. assert (A : ema_from 0 p c (k - 1) <= c (k - 1)%nat) by (apply (ema_under e); [apply (climb_less _ _ k); auto; lia|exact E|lia]).
  assert (B : c (k - 1)%nat + e < c k) by (apply (climb_lt e c k); auto; lia). set (q := ema_from 0 p c (k - 1)) in *. clearbody q. set (s := span p) in *. clearbody s. assert (Q : q < c k - e) by qlra.
  assert (S1 : 0 < 1 - s) by (apply (Qclt_le_trans _ half); [reflexivity|]; assert (half + half = 1) by (apply Qc_is_canon; reflexivity); qlra).
  assert (M : (1 - s) * q < (1 - s) * (c k - e)) by (rewrite !(Qcmult_comm (1 - s)); apply Qcmult_lt_compat_r; assumption).
  assert (N : half * e <= (1 - s) * e). { rewrite !(Qcmult_comm _ e). apply mul_le; [exact E|]. assert (half + half = 1) by (apply Qc_is_canon; reflexivity). qlra. }
  replace (s * c k + (1 - s) * q) with (s * c k + (1 - s) * q) by ring. assert (Z : s * c k + (1 - s) * (c k - e) = c k - (1 - s) * e) by ring. set (m := (1 - s) * q) in *. set (n := (1 - s) * (c k - e)) in *. set (r := s * c k) in *. set (y := half * e) in *. set (z := (1 - s) * e) in *. clearbody m n r y z. qlra.
Qed.
Lemma total_neg f n : total (fun j => - f j) n = - total f n. Proof. induction n as [|n IH]; cbn [total]; [ring|]. rewrite IH. ring. Qed.
Lemma mean_neg f p k : (1 <= p)%nat -> mean_last (fun j => - f j) p k = - mean_last f p k.
Proof. intro P. unfold mean_last, sum_last. rewrite (total_neg (fun j => f (S k - p + j)%nat)). field. apply nq_neq, P. Qed.
Lemma total_eq f g n : (forall j, (j < n)%nat -> f j = g j) -> total f n = total g n.
Proof. induction n as [|n IH]; intro H; cbn [total]; [reflexivity|]. rewrite IH, H by (intros; try apply H; lia). reflexivity. Qed.
Lemma mean_mean_neg f p k : (1 <= p)%nat -> mean_last (mean_last (fun j => - f j) p) p k = - mean_last (mean_last f p) p k.
Proof. intro P. rewrite <- mean_neg by exact P. unfold mean_last at 1 3. unfold sum_last. f_equal. apply total_eq. intros j J. apply mean_neg, P. Qed.
Lemma ema_neg p f k : ema_from 0 p (fun j => - f j) k = - ema_from 0 p f k.
Proof. unfold ema_from. rewrite Nat.sub_0_r. induction k as [|k IH]; cbn [ema]; [reflexivity|]. rewrite IH. ring. Qed.

(** the rounded average stays on its side when the moves exceed the last published decimal *)
Lemma tick_half : half * tick4 = Q2Qc (1 # 20000). Proof. apply Qc_is_canon. reflexivity. Qed.
Lemma seen_below v c : v < c - half * tick4 -> r4 v < c.
Proof. intro H. rewrite tick_half in H. replace v with (c - (c - v)) by ring. apply lag_seen. set (y := Q2Qc (1 # 20000)) in *. clearbody y. qlra. Qed.
Lemma seen_above v c : - v < - c - half * tick4 -> c < r4 v.
Proof. intro H. rewrite tick_half in H. replace v with (c + (v - c)) by ring. apply lag_seen. set (y := Q2Qc (1 # 20000)) in *. clearbody y. qlra. Qed.

(** changes *)
Lemma climb_change c k m j : climbs_by 0 c k -> (1 <= m <= j)%nat -> (j <= k)%nat -> 0 < change m c j.
Proof. intros H M J. unfold change. assert (c (j - m)%nat + 0 < c j) by (apply (climb_lt 0 c k); auto; [apply Qcle_refl|lia]). qlra. Qed.
Lemma sink_change c k m j : sinks_by 0 c k -> (1 <= m <= j)%nat -> (j <= k)%nat -> change m c j < 0.
Proof. intros H M J. unfold change. assert (- c (j - m)%nat + 0 < - c j) by (apply (climb_lt 0 (fun j => - c j) k); [apply sinks_opp, H|apply Qcle_refl|lia|lia]). qlra. Qed.
Lemma climb_weak e c k : climbs_by e c k -> 0 <= e -> climbs_by 0 c k. Proof. intros H E j J. specialize (H j J). qlra. Qed.
Lemma sink_weak e c k : sinks_by e c k -> 0 <= e -> sinks_by 0 c k. Proof. intros H E j J. specialize (H j J). qlra. Qed.
Lemma change_tick c k j : climbs_by tick4 c k -> (1 <= j <= k)%nat -> tick4 < change 1 c j.
Proof. intros H J. unfold change. assert (c (j - 1)%nat + tick4 < c j) by (apply (climb_lt tick4 c k); auto; [discriminate|lia|lia]). set (e := tick4) in *. clearbody e. qlra. Qed.
Lemma change_tick_down c k j : sinks_by tick4 c k -> (1 <= j <= k)%nat -> change 1 c j < - tick4.
Proof. intros H J. unfold change. assert (- c (j - 1)%nat + tick4 < - c j) by (apply (climb_lt tick4 (fun j => - c j) k); [apply sinks_opp, H|discriminate|lia|lia]). set (e := tick4) in *. clearbody e. qlra. Qed.

(** Wilder's smoothing stays above what all its values are above *)
Lemma wilders_lt z p a x : (1 <= p)%nat -> z < a -> z < x -> z < wilders p a x.
Proof.
  intros P A X. unfold wilders. assert (N : 0 < nq p) by (apply nq_pos; lia). assert (Z : nq p <> 0) by (apply qc_pos_neq0, N).
  assert (O1 : 1 <= nq p). { destruct p as [|p]; [lia|]. rewrite nq_S. pose proof (nq_nonneg p). qlra. }
  assert (T : (x - a) / nq p = (x - a) * / nq p) by reflexivity. rewrite T. set (t := / nq p) in *. assert (NT : nq p * t = 1) by (apply Qcmult_inv_r; exact Z). assert (T0 : 0 < t). { destruct (Qclt_le_dec 0 t) as [G|G]; [exact G|]. exfalso. assert (nq p * t <= nq p * 0) by (apply mul_le; [apply Qclt_le_weak, N|exact G]). rewrite NT, Qcmult_0_r in H. apply (Qcle_not_lt _ _ H). reflexivity. }
  assert (T1 : t <= 1). { rewrite <- NT. assert (t * 1 <= t * nq p) by (apply mul_le; [apply Qclt_le_weak, T0|exact O1]). rewrite Qcmult_1_r, Qcmult_comm in H. exact H. }
  clearbody t. clear NT T. assert (M : t * z < t * x) by (rewrite !(Qcmult_comm t); apply Qcmult_lt_compat_r; assumption). assert (K : (1 - t) * z <= (1 - t) * a) by (apply mul_le; [qlra|apply Qclt_le_weak, A]).
  replace (a + (x - a) * t) with ((1 - t) * a + t * x) by ring. replace z with ((1 - t) * z + t * z) by ring. set (u := (1 - t) * a) in *. set (v := (1 - t) * z) in *. set (y := t * x) in *. set (w := t * z) in *. clearbody u v y w. qlra.
Qed.
Lemma run_lt z step seed f n : z < seed -> (forall j, (1 <= j <= n)%nat -> z < f j) -> (forall a x, z < a -> z < x -> z < step a x) -> z < run step seed f n.
Proof. intros S0 H ST. induction n as [|n IH]; cbn [run]; [exact S0|]. apply ST; [apply IH; intros; apply H; lia|apply H; lia]. Qed.
Lemma total_gt f z n : (1 <= n)%nat -> (forall j, (j < n)%nat -> z < f j) -> nq n * z < total f n.
Proof. intros N H. assert (A : total (fun j => - f j) n < nq n * - z) by (apply total_lt; [exact N|]; intros j J; specialize (H j J); qlra). rewrite total_neg in A. replace (nq n * - z) with (- (nq n * z)) in A by ring. set (x := total f n) in *. set (y := nq n * z) in *. clearbody x y. qlra. Qed.
Lemma mean_gt f z p k : (1 <= p)%nat -> (p <= S k)%nat -> (forall j, (S k - p <= j <= k)%nat -> z < f j) -> z < mean_last f p k.
Proof. intros P K H. assert (A : mean_last (fun j => - f j) p k < - z) by (apply mean_lt; auto; intros j J; specialize (H j J); qlra). rewrite mean_neg in A by exact P. set (x := mean_last f p k) in *. clearbody x. qlra. Qed.
Lemma wilder_gt z a p f k : (1 <= p)%nat -> (a + p - 1 <= k)%nat -> (forall j, (a <= j <= k)%nat -> z < f j) -> z < wilder_from a p f k.
Proof. intros P K H. unfold wilder_from, run_from. apply run_lt; [apply mean_gt; [exact P|lia|intros j J; apply H; lia]|intros j J; apply H; lia|intros; apply wilders_lt; assumption]. Qed.
Lemma running_gt f k : (13 <= k)%nat -> (forall j, (1 <= j <= k)%nat -> 0 < f j) -> 0 < running f k.
Proof.
  intros K H. unfold running, run_from. apply run_lt; [| |].
  - pose proof (total_gt (fun j => f (1 + j)%nat) 0 13 ltac:(lia) ltac:(intros j J; apply H; lia)) as A. rewrite Qcmult_0_r in A. exact A.
  - intros j J. apply H. lia.
  - intros a x A X. replace (a - a / zq 14 + x) with (zq 13 * a / zq 14 + x) by (assert (T3 : zq 13 = zq 14 - 1) by (apply Qc_is_canon; reflexivity); rewrite T3; field; discriminate). assert (0 < zq 13 * a / zq 14). { unfold Qcdiv. replace (zq 13 * a * / zq 14) with ((zq 13 * / zq 14) * a) by ring. replace 0 with ((zq 13 * / zq 14) * 0) by ring. rewrite !(Qcmult_comm (zq 13 * / zq 14)). apply Qcmult_lt_compat_r; [reflexivity|exact A]. } set (y := zq 13 * a / zq 14) in *. clearbody y. qlra.
Qed.
Lemma running_none f k : (13 <= k)%nat -> (forall j, (1 <= j <= k)%nat -> f j = 0) -> running f k = 0.
Proof.
  intros K H. unfold running, run_from. rewrite (total_same _ 0) by (intros j J; apply H; lia). rewrite Qcmult_0_r. apply run_same; [unfold Qcdiv; ring|]. intros j J. apply H. lia.
Qed.
