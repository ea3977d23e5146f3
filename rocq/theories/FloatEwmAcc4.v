(** * FloatEwmAcc4: accuracy of the MACD and its signal line. *)
From Coq Require Import ZArith QArith Qcanon Qreals Reals Bool List PeanoNat Lia Lra Psatz Permutation.
From Flocq Require Import Core Relative IEEE754.BinarySingleNaN.
From Verif Require Import Num NumFacts Pandas SeriesFacts FloatSim FloatFacts FloatExact FloatInd FloatOrd FloatDec FloatRange FloatRange2 RangeSpec ValueSpec FormulaSpec Starts FloatSpec FloatAccSpec FloatAcc FloatAcc2 FloatAcc3 FloatAcc5 FloatEwm FloatEwmSpec FloatEwmAcc FloatEwmAcc2 FloatEwmAcc3.
Import ListNotations.
Open Scope R_scope.

Lemma int_close z d : Rabs (IZR z) <= d -> forall n, d < IZR n + 1 -> (Z.abs z <= n)%Z.
Proof. intros H n L. rewrite <- abs_IZR in H. assert (Q : IZR (Z.abs z) < IZR (n + 1)) by (rewrite plus_IZR; lra). apply lt_IZR in Q. lia. Qed.
Lemma round_whole y m : (Z.abs m <= 2 ^ 44)%Z -> ap y (IZR m / 10000) tolerance -> is_finite (fround4 y) = true /\ RV (fround4 y) = RV (dec4 m).
Proof.
  intros B A. apply IZR_le in B. rewrite abs_IZR in B. change (IZR (2 ^ 44)) with 17592186044416 in B.
  destruct (round_near y (IZR m / 10000) A) as (k & _ & F & V & D).
  - unfold Rdiv. rewrite Rabs_mult, (Rabs_pos_eq (/ 10000)) by lra. lra.
  - replace (10000 * (IZR m / 10000)) with (IZR m) in D by field. rewrite <- minus_IZR in D. pose proof (int_close _ _ D 0 ltac:(lra)). replace k with m in V by lia. auto.
Qed.
Lemma dec_near m r d : (Z.abs m <= 2 ^ 44)%Z -> Rabs (IZR m - 10000 * r) <= d -> ap (dec4 m) r (d / 10000 + / 1000000).
Proof.
  intros B D. pose proof B as B'. apply IZR_le in B'. rewrite abs_IZR in B'. change (IZR (2 ^ 44)) with 17592186044416 in B'.
  destruct (dec_ap m ltac:(lia)) as [F H]. split; [exact F|].
  assert (E : Rabs (IZR m / 10000) <= 1759218605) by (unfold Rdiv; rewrite Rabs_mult, (Rabs_pos_eq (/ 10000)) by lra; lra).
  apply Rabs_le_inv in H, D. apply Rabs_le. lra.
Qed.
Lemma tracks_fin y q : tracks y (Fin q) -> exists m, is_finite y = true /\ RV y = RV (dec4 m) /\ Rabs (IZR m - 10000 * real q) <= 3 / 5.
Proof. exact (fun H => H). Qed.
Lemma m_bound m r B : Rabs (IZR m - 10000 * r) <= 3 / 5 -> Rabs r <= B -> B <= 1000000000 -> (Z.abs m <= 2 ^ 44)%Z.
Proof.
  intros D E L. apply Rabs_le_inv in D, E. apply le_IZR. rewrite abs_IZR. change (IZR (2 ^ 44)) with 17592186044416. apply Rabs_le. lra.
Qed.

Section Macd.
Variables (c : nat -> Z) (n : nat).
Hypothesis Mo : moderate 26 c n.
Notation C := (column 1 c n).
Notation x := (prices 1 c).
Notation a12 := (ema_from 0 12 x). Notation a26 := (ema_from 0 26 x).
Lemma Mo12 : moderate 12 c n.
Proof. intros i I. specialize (Mo i I). lia. Qed.
Lemma averages k : (25 <= k < n)%nat -> exists m1 m2 : Z,
  (Z.abs m1 <= 2 ^ 44 /\ Z.abs m2 <= 2 ^ 44)%Z /\
  is_finite (nth k (fema 12 C) fnan) = true /\ RV (nth k (fema 12 C) fnan) = RV (dec4 m1) /\ Rabs (IZR m1 - 10000 * real (a12 k)) <= 3 / 5 /\
  is_finite (nth k (fema 26 C) fnan) = true /\ RV (nth k (fema 26 C) fnan) = RV (dec4 m2) /\ Rabs (IZR m2 - 10000 * real (a26 k)) <= 3 / 5 /\
  Rabs (real (a12 k)) <= 17000000 /\ Rabs (real (a26 k)) <= 8200000.
Proof.
  intro K. assert (N0 : (0 < n)%nat) by lia.
  pose proof (fema_tracks c 12 n ltac:(lia) Mo12 k ltac:(lia)) as T1. pose proof (fema_tracks c 26 n ltac:(lia) Mo k ltac:(lia)) as T2.
  rewrite from_late in T1, T2 by lia. destruct (tracks_fin _ _ T1) as (m1 & F1 & V1 & D1). destruct (tracks_fin _ _ T2) as (m2 & F2 & V2 & D2).
  pose proof (ema_ap c 12 n ltac:(lia) N0 Mo12 k ltac:(lia)) as A1. pose proof (ema_ap c 26 n ltac:(lia) N0 Mo k ltac:(lia)) as A2. cbv zeta in A1, A2.
  destruct (Nat.ltb_spec k (12 - 1)); [lia|]. destruct (Nat.ltb_spec k (26 - 1)); [lia|]. destruct A1 as [_ A1], A2 as [_ A2]. rewrite <- real_e1 in A1, A2.
  unfold M in A1, A2. rewrite INR_IZR_INZ in A1, A2. cbn [Z.of_nat Pos.of_succ_nat Pos.succ] in A1, A2.
  exists m1, m2. split; [split; eapply m_bound; eauto; lra|]. do 6 (split; [assumption|]). lra.
Qed.
Lemma fmacd_raw_length : length (fmacd_raw C) = n.
Proof. unfold fmacd_raw, fmap2. rewrite map_length, combine_length. unfold fema. rewrite !map_length, !fewm_length, column_length. lia. Qed.
Lemma raw_nth k : (k < n)%nat -> nth k (fmacd_raw C) fnan = fsub (nth k (fema 12 C) fnan) (nth k (fema 26 C) fnan).
Proof. intro K. unfold fmacd_raw. apply fmap2_nth; unfold fema; rewrite !map_length, !fewm_length, ?column_length; auto. Qed.
Lemma raw_early k : (k < n)%nat -> (k < 25)%nat -> nth k (fmacd_raw C) fnan = fnan.
Proof.
  intros K E. rewrite raw_nth by exact K. unfold fema. rewrite !round_list_nth. pose proof (ema_ap c 26 n ltac:(lia) ltac:(lia) Mo k K) as A. cbv zeta in A.
  destruct (Nat.ltb_spec k (26 - 1)); [|lia]. rewrite A, round_nan, sub_nan. reflexivity.
Qed.
Lemma raw_ap k : (25 <= k < n)%nat -> exists m1 m2 : Z,
  (Z.abs m1 <= 2 ^ 44 /\ Z.abs m2 <= 2 ^ 44)%Z /\ Rabs (IZR m1 - 10000 * real (a12 k)) <= 3 / 5 /\ Rabs (IZR m2 - 10000 * real (a26 k)) <= 3 / 5 /\
  Rabs (real (a12 k)) <= 17000000 /\ Rabs (real (a26 k)) <= 8200000 /\ (Z.abs (m1 - m2) <= 2 ^ 44)%Z /\
  ap (nth k (fmacd_raw C) fnan) (IZR (m1 - m2) / 10000) (/ 900000).
Proof.
  intro K. destruct (averages k K) as (m1 & m2 & [B1 B2] & F1 & V1 & D1 & F2 & V2 & D2 & R1 & R2). exists m1, m2. do 2 (split; [auto|]). do 3 (split; [assumption|]).
  assert (L1 : Rabs (IZR m1) <= 170000000001) by (apply Rabs_le_inv in D1, R1; apply Rabs_le; lra).
  assert (L2 : Rabs (IZR m2) <= 82000000001) by (apply Rabs_le_inv in D2, R2; apply Rabs_le; lra).
  split. { apply le_IZR. rewrite abs_IZR, minus_IZR. change (IZR (2 ^ 44)) with 17592186044416. apply Rabs_le_inv in L1, L2. apply Rabs_le; lra. }
  rewrite raw_nth by lia.
  assert (X : ap (nth k (fema 12 C) fnan) (IZR m1 / 10000) (/ 2000000)).
  { split; [exact F1|]. rewrite V1. destruct (dec_ap m1 ltac:(lia)) as [_ H]. eapply Rle_trans; [exact H|].
    assert (Rabs (IZR m1 / 10000) <= 17000001) by (apply Rabs_le_inv in L1; apply Rabs_le; lra). lra. }
  assert (Y : ap (nth k (fema 26 C) fnan) (IZR m2 / 10000) (/ 2000000)).
  { split; [exact F2|]. rewrite V2. destruct (dec_ap m2 ltac:(lia)) as [_ H]. eapply Rle_trans; [exact H|].
    assert (Rabs (IZR m2 / 10000) <= 8200001) by (apply Rabs_le_inv in L2; apply Rabs_le; lra). lra. }
  rewrite minus_IZR. replace ((IZR m1 - IZR m2) / 10000) with (IZR m1 / 10000 - IZR m2 / 10000) by field.
  apply (ap_sub _ _ _ _ _ _ 26000000 _ X Y); try lra. apply Rabs_le_inv in L1, L2. assert (Rabs (IZR m1 / 10000 - IZR m2 / 10000) <= 25500000) by (apply Rabs_le; lra). lra.
Qed.
Notation T := (fun j => a12 j - a26 j)%Qc.
Notation m_ := (fun j => r4 (a12 j) - r4 (a26 j))%Qc.
Lemma units_sub i j : (units i - units j)%Qc = units (i - j).
Proof. apply real_inj. rewrite real_sub, !real_units, minus_IZR. field. Qed.
Lemma rounded k : exists i : Z, m_ k = units i /\ Rabs (IZR i - 10000 * real (T k)) <= 1.
Proof.
  destruct (round_units (a12 k)) as (i & E & D). destruct (round_units (a26 k)) as (j & E' & D'). exists (i - j)%Z. cbv beta. unfold r4. rewrite E, E', units_sub. split; [reflexivity|].
  rewrite minus_IZR, real_sub. apply Rabs_le_inv in D, D'. apply Rabs_le. lra.
Qed.
Lemma r4_whole i : r4 (units i) = units i.
Proof.
  unfold r4. destruct (round_units (units i)) as (j & -> & D). rewrite real_units in D. replace (10000 * (IZR i / 10000)) with (IZR i) in D by field.
  rewrite <- minus_IZR in D. pose proof (int_close _ _ D 0 ltac:(lra)). f_equal. lia.
Qed.
Lemma macd_close k : (k < n)%nat -> within (6 / 5) (cell (fmacd C) k) (from 25 k (Fin (T k))) /\ apart 2 (cell (fmacd C) k) (from 25 k (Fin (r4 (m_ k)))).
Proof.
  intro K. unfold cell, fmacd. rewrite round_list_nth. destruct (Nat.lt_ge_cases k 25) as [E|E].
  { rewrite !from_early by exact E. rewrite (raw_early k K E). split; reflexivity. }
  rewrite !from_late by exact E. destruct (raw_ap k ltac:(lia)) as (m1 & m2 & _ & D1 & D2 & _ & _ & B & A).
  destruct (round_whole _ _ B (ap_weaken _ _ _ tolerance A ltac:(unfold tolerance; lra))) as [F V].
  assert (Q : Rabs (IZR (m1 - m2) - 10000 * real (T k)) <= 6 / 5) by (rewrite minus_IZR, real_sub; apply Rabs_le_inv in D1, D2; apply Rabs_le; lra).
  split; [exists (m1 - m2)%Z; auto|]. destruct (rounded k) as (i & Ei & Di). exists (m1 - m2)%Z, i. rewrite Ei, r4_whole. split; [reflexivity|]. split; [|auto].
  assert (G : Rabs (IZR (m1 - m2 - i)) <= 22 / 10) by (rewrite (minus_IZR (m1 - m2)); cbv beta in Q, Di; apply Rabs_le_inv in Q, Di; apply Rabs_le; lra). exact (int_close _ _ G 2 ltac:(lra)).
Qed.
Lemma line_near p r s f g d j : (0 < p)%nat -> Rabs (r - s) <= d -> (forall i, (i < j)%nat -> Rabs (f i - g i) <= d) -> Rabs (line p r f j - line p s g j) <= d.
Proof.
  intros P R. destruct (weight_range p P) as ([W1 W2] & _ & _). induction j as [|j IH]; intro G; [exact R|]. cbn [line].
  replace (_ - _) with (weight p * (f j - g j) + (1 - weight p) * (line p r f j - line p s g j)) by ring.
  eapply Rle_trans; [apply Rabs_triang|]. rewrite !Rabs_mult, (Rabs_pos_eq (weight p)), (Rabs_pos_eq (1 - weight p)) by lra.
  specialize (IH ltac:(intros; apply G; lia)). specialize (G j ltac:(lia)).
  assert (weight p * Rabs (f j - g j) <= weight p * d) by (apply Rmult_le_compat_l; lra).
  assert ((1 - weight p) * Rabs (line p r f j - line p s g j) <= (1 - weight p) * d) by (apply Rmult_le_compat_l; lra). lra.
Qed.
Lemma signal_close k : (k < n)%nat -> within 2 (cell (fmacd_signal C) k) (from 33 k (Fin (ema_from 25 9 T k))) /\ apart 3 (cell (fmacd_signal C) k) (from 33 k (Fin (r4 (ema_from 25 9 m_ k)))).
Proof.
  intro K. unfold cell, fmacd_signal. rewrite round_list_nth. destruct (weight_range 9 ltac:(lia)) as ([W1 W2] & W3 & _).
  assert (W : weight 9 = / 5) by (unfold weight; rewrite INR_IZR_INZ; cbn; lra).
  destruct (Nat.lt_ge_cases k 25) as [E|E].
  { rewrite !from_early by lia. pose proof (lead 9 ltac:(lia) 9 (Nat.min n 25) (fmacd_raw C) k) as [X _].
    - rewrite fmacd_raw_length. lia.
    - intros i I. rewrite raw_early by lia. reflexivity.
    - unfold fewm. rewrite X by lia. split; reflexivity. }
  assert (A : forall i, (25 <= i < n)%nat -> ap (nth i (fmacd_raw C) fnan) (real (T i)) (13 / 100000) /\ Rabs (real (T i)) <= 50000000).
  { intros i I. destruct (raw_ap i I) as (m1 & m2 & _ & D1 & D2 & R1 & R2 & B & A). split.
    - destruct A as [F H]. split; [exact F|]. rewrite real_sub. rewrite minus_IZR in H. apply Rabs_le_inv in D1, D2, H. apply Rabs_le. lra.
    - rewrite real_sub. apply Rabs_le_inv in R1, R2. apply Rabs_le. lra. }
  pose proof (ewm_ap 9 50000000 ltac:(lia) ltac:(lia) ltac:(lra) (13 / 100000) (132 / 1000000) 9 ltac:(lra) ltac:(rewrite W; lra) 25 (fmacd_raw C) (fun i => real (T i)) n
    ltac:(rewrite fmacd_raw_length; lia) ltac:(lia) ltac:(intros i I; rewrite raw_early by lia; reflexivity) A k K) as Y. cbv zeta in Y. fold (fewm 9 9 (fmacd_raw C)) in Y.
  destruct (Nat.ltb_spec k (25 + (9 - 1))).
  { rewrite !from_early by lia. rewrite Y. split; reflexivity. }
  rewrite !from_late by lia. destruct Y as [[F H0] B].
  rewrite <- (real_ema_from 25 9 T k) in H0, B. set (y := nth k (fewm 9 9 (fmacd_raw C)) fnan) in *.
  assert (YB : Rabs (RV y) <= 4294967296) by (apply Rabs_le_inv in H0, B; apply Rabs_le; lra).
  destruct (round_near y (RV y)) as (m & _ & Fm & Vm & Dm); [split; [exact F|]; rewrite Rminus_eq_0, Rabs_R0; unfold tolerance; lra|exact YB|].
  assert (Q : Rabs (IZR m - 10000 * real (ema_from 25 9 T k)) <= 2) by (apply Rabs_le_inv in H0, Dm; apply Rabs_le; lra).
  split; [exists m; auto|]. destruct (round_units (ema_from 25 9 m_ k)) as (i & Ei & Di). exists m, i. split; [exact Ei|]. split; [|auto].
  assert (NR : Rabs (real (ema_from 25 9 m_ k) - real (ema_from 25 9 T k)) <= / 10000).
  { rewrite (real_ema_from 25 9 m_ k), (real_ema_from 25 9 T k). unfold rema.
    assert (G : forall i, Rabs (real (m_ i) - real (T i)) <= / 10000).
    { intro j. destruct (rounded j) as (z & -> & Dz). rewrite real_units. apply Rabs_le_inv in Dz. apply Rabs_le. lra. }
    apply line_near; [lia|apply G|intros; apply G]. }
  assert (G : Rabs (IZR (m - i)) <= 36 / 10) by (rewrite minus_IZR; apply Rabs_le_inv in Q, Di, NR; apply Rabs_le; lra).
  exact (int_close _ _ G 3 ltac:(lra)).
Qed.
End Macd.
