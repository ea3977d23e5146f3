(** * FloatRollAcc3: accuracy of rolling means and sums as published. *)
From Coq Require Import ZArith QArith Qcanon Qreals Reals Bool List PeanoNat Lia Lra Psatz.
From Flocq Require Import Core Relative IEEE754.BinarySingleNaN.
From Verif Require Import Num NumFacts Pandas SeriesFacts FloatSim FloatFacts FloatExact FloatInd FloatOrd FloatDec FloatRange FloatRange2 RangeSpec ValueSpec FormulaSpec Starts FloatSpec FloatAccSpec FloatAcc FloatAcc2 FloatAcc3 FloatAcc5 FloatEwm FloatEwmAcc FloatEwmAcc2 FloatEwmAcc3 FloatRoll FloatRollSpec FloatRollAcc FloatRollAcc2.
Import ListNotations.
Open Scope R_scope.
Notation u := (/ 9007199254740992).
Notation K1 := (8796093022208 / 10000).
Notation lam := (K1 * u).

Lemma real_sum_last f w k : real (sum_last f w k) = rsums (fun i => real (f i)) (S k - w) w.
Proof.
  unfold sum_last. generalize w at 2 4. intro m. generalize (S k - w)%nat. intro a. induction m as [|m IH]; [apply real_0|]. cbn [total rsums]. rewrite real_add, IH. reflexivity.
Qed.
Lemma real_mean_last f w k : (0 < w)%nat -> real (mean_last f w k) = rmean (fun i => real (f i)) w k.
Proof.
  intro W. unfold mean_last, rmean. rewrite real_div, real_sum_last, real_nq; [reflexivity|]. apply real_neq. rewrite real_nq. apply not_0_INR. lia.
Qed.
Lemma rsums_ext h g a m : (forall i, h i = g i) -> rsums h a m = rsums g a m.
Proof. intro E. induction m as [|m IH]; [reflexivity|]. cbn [rsums]. rewrite IH, E. reflexivity. Qed.
Lemma rmean_ext h g w k : (forall i, h i = g i) -> rmean h w k = rmean g w k.
Proof. intro E. unfold rmean. rewrite (rsums_ext h g) by exact E. reflexivity. Qed.
Lemma count_val w : INR w <= 10000000000000 -> is_finite (fz (Z.of_nat w) 0) = true /\ RV (fz (Z.of_nat w) 0) = INR w.
Proof.
  intro H. rewrite INR_IZR_INZ in *. apply le_IZR in H. destruct (fz_val (Z.of_nat w)) as [F V]; [lia|]. split; [exact F|exact V].
Qed.

Section Prices.
Variable n : nat.
Hypothesis N0 : (0 < n)%nat.
Notation N := (INR n).
Definition top : R := K1 / N.
Notation M := top.
Section Column.
Variable c : nat -> Z.
Hypothesis St : steady c n.
Notation g := (fun i => IZR (c i) / 10000).
Lemma rows_bound : (Z.of_nat n <= 2 ^ 43)%Z. Proof. specialize (St O N0). nia. Qed.
Lemma tops : / 10000 <= M <= K1 /\ N * M = K1 /\ 1 <= N <= 8796093022208.
Proof.
  pose proof rows_bound as B. assert (N1 : 1 <= N) by (apply (le_INR 1); exact N0).
  assert (N2 : N <= 8796093022208) by (rewrite INR_IZR_INZ; apply (IZR_le _ (2 ^ 43)); exact B).
  assert (E : N * M = K1) by (unfold top; field; lra). split; [|split; [exact E|lra]].
  split; apply Rnot_lt_le; intro L; nra.
Qed.
Lemma price_top i : (i < n)%nat -> Rabs (g i) <= M.
Proof.
  intro I. destruct tops as (_ & E & N1). specialize (St i I). apply IZR_le in St. rewrite mult_IZR, !plus_IZR, abs_IZR, <- INR_IZR_INZ in St. change (IZR (2 ^ 43)) with 8796093022208 in St.
  unfold Rdiv. rewrite Rabs_mult, (Rabs_pos_eq (/ 10000)) by lra. apply Rmult_le_reg_l with N; [lra|]. rewrite E. pose proof (Rabs_pos (IZR (c i))). nra.
Qed.
Lemma price_near i : (i < n)%nat -> ap (nth i (column 1 c n) fnan) (g i) (101 / 100 * (M * u)).
Proof.
  intro I. rewrite column_nth by exact I. rewrite Z.mul_1_l. pose proof (price_top i I) as B. destruct tops as ([M0 M1] & E & N1). eapply ap_weaken; [apply dec_ap|].
  - specialize (St i I). nia.
  - nra.
Qed.
Lemma small_top : M * u <= lam. Proof. destruct tops as ([M0 M1] & _). lra. Qed.
Lemma all_top : N * (M * u) = lam. Proof. destruct tops as (_ & E & _). rewrite <- Rmult_assoc, E. lra. Qed.

Variables (w : nat).
Hypothesis W : (0 < w)%nat.
Lemma column_row k : (k < n)%nat -> let y := nth k (froll_mean w (column 1 c n)) fnan in
  if (k <? w - 1)%nat then y = fnan else ap y (rmean g w k) (17 * lam) /\ Rabs (rmean g w k) <= M.
Proof.
  intro K. destruct tops as ([M0 M1] & E & N1). pose proof small_top as S1. pose proof all_top as S2. set (t := M * u) in *.
  assert (T0 : 0 < t) by (unfold t; lra).
  pose proof (mean_row w 0 n (column 1 c n) g M (101 / 100 * t) W (column_length _ _ _)) as X.
  assert (Y : forall i, (0 <= i < n)%nat -> ap (nth i (column 1 c n) fnan) (g i) (101 / 100 * t) /\ Rabs (g i) <= M) by (intros i I; split; [apply price_near|apply price_top]; lia).
  specialize (X ltac:(intros; lia) Y ltac:(lra) M0 ltac:(lra)).
  assert (NT : N * (M + 101 / 100 * t) <= 100000000000000000000000) by (rewrite Rmult_plus_distr_l, E; nra).
  specialize (X NT k K). cbv zeta in X |- *. cbn [Nat.add] in X. destruct (k <? w - 1)%nat; [exact X|]. destruct X as [X B]. split; [|exact B].
  eapply ap_weaken; [exact X|].
  replace (125 / 10 * N * ((M + 101 / 100 * t) * u)) with (125 / 10 * (N * t) * (1 + 101 / 100 * u)) by (unfold t; ring).
  replace (2 * (M + 101 / 100 * t) * u) with (2 * t * (1 + 101 / 100 * u)) by (unfold t; ring). rewrite S2. nra.
Qed.
Lemma twice_row k : (k < n)%nat -> let y := nth k (froll_mean w (froll_mean w (column 1 c n))) fnan in
  if (k <? 2 * (w - 1))%nat then y = fnan else ap y (rmean (rmean g w) w k) (33 * lam) /\ Rabs (rmean (rmean g w) w k) <= M.
Proof.
  intro K. destruct tops as ([M0 M1] & E & N1). pose proof small_top as S1. pose proof all_top as S2. set (t := M * u) in *.
  assert (T0 : 0 < t) by (unfold t; lra).
  pose proof (mean_row w (w - 1) n (froll_mean w (column 1 c n)) (rmean g w) M (17 * lam) W) as X. rewrite froll_mean_length, column_length in X. specialize (X eq_refl).
  assert (Bf : forall i, (i < w - 1)%nat -> is_finite (nth i (froll_mean w (column 1 c n)) fnan) = false).
  { intros i I. destruct (Nat.lt_ge_cases i n) as [L|L]; [|rewrite nth_overflow by (rewrite froll_mean_length, column_length; exact L); reflexivity].
    pose proof (column_row i L) as Y. cbv zeta in Y. destruct (Nat.ltb_spec i (w - 1)); [rewrite Y; reflexivity|lia]. }
  assert (Y : forall i, (w - 1 <= i < n)%nat -> ap (nth i (froll_mean w (column 1 c n)) fnan) (rmean g w i) (17 * lam) /\ Rabs (rmean g w i) <= M).
  { intros i I. pose proof (column_row i ltac:(lia)) as Y. cbv zeta in Y. destruct (Nat.ltb_spec i (w - 1)); [lia|exact Y]. }
  specialize (X Bf Y ltac:(lra) M0 ltac:(lra)).
  assert (NT : N * (M + 17 * lam) <= 100000000000000000000000) by (rewrite Rmult_plus_distr_l, E; nra).
  specialize (X NT k K). cbv zeta in X |- *. replace (w - 1 + (w - 1))%nat with (2 * (w - 1))%nat in X by lia. destruct (k <? 2 * (w - 1))%nat; [exact X|]. destruct X as [X B]. split; [|exact B].
  eapply ap_weaken; [exact X|].
  replace (125 / 10 * N * ((M + 17 * lam) * u)) with (125 / 10 * (N * t) + 125 / 10 * (N * (17 * lam * u))) by (unfold t; ring).
  replace (2 * (M + 17 * lam) * u) with (2 * t + 34 * lam * u) by (unfold t; ring). rewrite S2. nra.
Qed.
End Column.

Section Published.
Variables (c : nat -> Z) (w k : nat).
Hypothesis (St : steady c n) (W : (0 < w)%nat) (K : (k < n)%nat).
Notation C := (column 1 c n).
Notation x := (prices 1 c).
Notation g := (fun i => IZR (c i) / 10000).
Lemma real_m1 j : real (mean_last x w j) = rmean g w j.
Proof. rewrite real_mean_last by exact W. apply rmean_ext, real_price. Qed.
Lemma real_m2 j : real (mean_last (mean_last x w) w j) = rmean (rmean g w) w j.
Proof. rewrite real_mean_last by exact W. apply rmean_ext, real_m1. Qed.
Lemma fsma_tracks : tracks (cell (fsma w C) k) (from (w - 1) k (Fin (mean_last x w k))).
Proof.
  unfold cell, fsma. rewrite round_list_nth. apply tracks_from. pose proof (column_row c St w W k K) as A. cbv zeta in A.
  destruct (tops c St) as ([_ M1] & _). destruct (k <? w - 1)%nat; [rewrite A; reflexivity|]. destruct A as [A B]. rewrite <- real_m1 in A, B.
  apply tracks_round; [|lra]. eapply ap_weaken; [exact A|]. unfold tolerance. lra.
Qed.
Lemma ftma_tracks : tracks (cell (ftma w C) k) (from (2 * (w - 1)) k (Fin (mean_last (mean_last x w) w k))).
Proof.
  unfold cell, ftma. rewrite round_list_nth. apply tracks_from. pose proof (twice_row c St w W k K) as A. cbv zeta in A.
  destruct (tops c St) as ([_ M1] & _). destruct (k <? 2 * (w - 1))%nat; [rewrite A; reflexivity|]. destruct A as [A B]. rewrite <- real_m2 in A, B.
  apply tracks_round; [|lra]. eapply ap_weaken; [exact A|]. unfold tolerance. lra.
Qed.
End Published.
End Prices.
