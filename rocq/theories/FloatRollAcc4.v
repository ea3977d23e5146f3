(** * FloatRollAcc4: accuracy of the detrended price, the qstick and the volume oscillator. *)
From Coq Require Import ZArith QArith Qcanon Qreals Reals Bool List PeanoNat Lia Lra Psatz.
From Flocq Require Import Core Relative IEEE754.BinarySingleNaN.
From Verif Require Import Num NumFacts Pandas SeriesFacts FloatSim FloatFacts FloatExact FloatInd FloatOrd FloatDec FloatRange FloatRange2 RangeSpec ValueSpec FormulaSpec Starts FloatSpec FloatAccSpec FloatAcc FloatAcc2 FloatAcc3 FloatAcc5 FloatEwm FloatEwmAcc FloatEwmAcc2 FloatEwmAcc3 FloatRoll FloatRollSpec FloatRollAcc FloatRollAcc2 FloatRollAcc3.
Import ListNotations.
Open Scope R_scope.
Notation u := (/ 9007199254740992).
Notation K1 := (8796093022208 / 10000).
Notation lam := (K1 * u).

Lemma fshift_back_length k s : length (fshift_back k s) = length s.
Proof. unfold fshift_back. rewrite firstn_length, app_length, repeat_length. lia. Qed.
Lemma fshift_back_nth k s i : (i < length s)%nat -> nth i (fshift_back k s) fnan = nth (k + i) s fnan.
Proof.
  intro I. unfold fshift_back. rewrite nth_firstn by exact I. destruct (Nat.lt_ge_cases i (length (skipn k s))) as [L|L].
  - rewrite app_nth1 by exact L. apply nth_skipn.
  - rewrite app_nth2 by exact L. rewrite nth_repeat. rewrite skipn_length in L. symmetry. apply nth_overflow. lia.
Qed.
Lemma fmap2_length f a b : length b = length a -> length (fmap2 f a b) = length a.
Proof. intro L. unfold fmap2. rewrite map_length, combine_length. lia. Qed.
Lemma fdiv_nan x : fdiv fnan x = fnan. Proof. destruct x as [[]|[]| |[] ? ? ?]; reflexivity. Qed.
Lemma fsub_nan x : fsub x fnan = fnan. Proof. destruct x as [[]|[]| |[] ? ? ?]; reflexivity. Qed.

Section Prices.
Variables (c : nat -> Z) (n w k : nat).
Hypothesis (St : steady c n) (W : (0 < w)%nat) (K : (k < n)%nat).
Notation C := (column 1 c n).
Notation x := (prices 1 c).
Notation g := (fun i => IZR (c i) / 10000).
Lemma rows_pos : (0 < n)%nat. Proof. lia. Qed.
Lemma fdpo_tracks : let d := S (w / 2) in (d <= k)%nat -> tracks (cell (fdpo w C) (k - d)) (from (w - 1 - d) (k - d) (Fin (x (k - d)%nat - mean_last x w k)%Qc)).
Proof.
  intros d D. unfold cell, fdpo. fold d.
  rewrite fmap2_nth; [|rewrite column_length; lia|rewrite fshift_back_length, froll_mean_length; reflexivity].
  rewrite fshift_back_nth by (rewrite froll_mean_length, column_length; lia). replace (d + (k - d))%nat with k by lia.
  apply tracks_from. pose proof (column_row n rows_pos c St w W k K) as A. cbv zeta in A.
  destruct (tops n rows_pos c St) as ([M0 M1] & _). pose proof (small_top n rows_pos c St) as S1.
  assert (DW : (w / 2 <= w)%nat) by (apply Nat.div_le_upper_bound; lia). assert (E1 : (2 * (w / 2) <= w)%nat) by (apply Nat.mul_div_le; lia). assert (E2 : (w < 2 * d)%nat) by (pose proof (Nat.div_mod w 2 ltac:(lia)); pose proof (Nat.mod_upper_bound w 2 ltac:(lia)); unfold d; lia).
  destruct (Nat.ltb_spec (k - d) (w - 1 - d)) as [L|L].
  - destruct (Nat.ltb_spec k (w - 1)); [|lia]. rewrite A, fsub_nan. apply round_nan.
  - destruct (Nat.ltb_spec k (w - 1)); [lia|]. destruct A as [A B]. rewrite <- real_m1 in A, B by exact W.
    pose proof (price_near n rows_pos c St (k - d) ltac:(lia)) as P. pose proof (price_top n rows_pos c St (k - d) ltac:(lia)) as Q. cbv beta in P, Q. rewrite <- real_price in P, Q.
    set (M := top n) in *. assert (Dif : Rabs (real (x (k - d)%nat) - real (mean_last x w k)) <= 2 * M) by (apply Rabs_le_inv in B, Q; apply Rabs_le; lra).
    apply tracks_round; rewrite real_sub; [|lra]. apply (ap_sub _ _ _ _ _ _ (21 / 10 * K1) _ P A); unfold tolerance; lra.
Qed.
Variable op : nat -> Z.
Hypothesis So : steady op n.
Notation O := (column 1 op n).
Notation y := (prices 1 op).
Notation D := (fmap2 fsub C O).
Notation h := (fun i => IZR (c i) / 10000 - IZR (op i) / 10000).
Lemma body_row i : (i < n)%nat -> ap (nth i D fnan) (h i) (43 / 10 * (top n * u)) /\ Rabs (h i) <= 2 * top n.
Proof.
  intro I. pose proof (price_near n rows_pos c St i I) as P1. pose proof (price_top n rows_pos c St i I) as Q1. pose proof (price_near n rows_pos op So i I) as P2. pose proof (price_top n rows_pos op So i I) as Q2.
  cbv beta in P1, P2, Q1, Q2. cbv beta. destruct (tops n rows_pos c St) as ([M0 M1] & _). set (M := top n) in *.
  assert (B : Rabs (IZR (c i) / 10000 - IZR (op i) / 10000) <= 2 * M) by (apply Rabs_le_inv in Q1, Q2; apply Rabs_le; lra). split; [|exact B].
  rewrite fmap2_nth by (rewrite ?column_length; auto). apply (ap_sub _ _ _ _ _ _ (21 / 10 * M) _ P1 P2); lra.
Qed.
Lemma real_body j : real (mean_last (fun i => (x i - y i)%Qc) w j) = rmean h w j.
Proof. rewrite real_mean_last by exact W. apply rmean_ext. intro i. rewrite real_sub, !real_price. reflexivity. Qed.
Lemma fqstick_tracks : tracks (cell (fqstick w O C) k) (from (w - 1) k (Fin (mean_last (fun i => (x i - y i)%Qc) w k))).
Proof.
  assert (LD : length D = n) by (rewrite fmap2_length by (rewrite !column_length; reflexivity); apply column_length).
  unfold cell, fqstick. set (f := fun t => fround4 (fdiv t (fz (Z.of_nat w) 0))).
  assert (FN : f fnan = fnan) by (unfold f; rewrite fdiv_nan; apply round_nan).
  rewrite (nth_indep _ fnan (f fnan)) by (rewrite map_length, froll_sum_length, LD; exact K). rewrite map_nth.
  apply tracks_from. destruct (tops n rows_pos c St) as ([M0 M1] & E & N1). pose proof (small_top n rows_pos c St) as S1. pose proof (all_top n rows_pos c St) as S2. set (t := top n * u) in *.
  assert (T0 : 0 < t) by (unfold t; lra).
  pose proof (sum_row w 0 n D h (2 * top n) (43 / 10 * t) W LD ltac:(intros; lia) ltac:(intros i I; apply body_row; lia) ltac:(lra) ltac:(lra) ltac:(lra)) as X.
  assert (NT : INR n * (2 * top n + 43 / 10 * t) <= 100000000000000000000000).
  { replace (INR n * (2 * top n + 43 / 10 * t)) with (2 * (INR n * top n) + 43 / 10 * (INR n * t)) by ring. rewrite E, S2. lra. }
  specialize (X NT k K). cbv zeta in X. cbn [Nat.add] in X. destruct (Nat.ltb_spec k (w - 1)) as [L|L]; [rewrite X; exact FN|]. destruct X as [X B]. unfold f.
  assert (W1 : 1 <= INR w) by (apply (le_INR 1); exact W). assert (WN : INR w <= INR n) by (apply le_INR; lia).
  destruct (count_val w ltac:(lra)) as [Fw Vw].
  assert (RB : Rabs (rsums h (S k - w) w) / INR w <= 2 * top n) by (apply Rmult_le_reg_r with (INR w); [lra|]; unfold Rdiv; rewrite Rmult_assoc, Rinv_l by lra; lra).
  set (e := 43 / 10 * t + 125 / 10 * INR n * ((2 * top n + 43 / 10 * t) * u)) in *.
  assert (Ee : e <= 305 / 10 * lam).
  { unfold e. replace (125 / 10 * INR n * ((2 * top n + 43 / 10 * t) * u)) with (25 * (INR n * t) + 125 / 10 * (43 / 10) * u * (INR n * t)) by (unfold t; field). rewrite S2. lra. }
  assert (RW : INR w * e / INR w = e) by (field; lra).
  apply tracks_round; rewrite real_body; unfold rmean.
  - apply (ap_divc _ _ _ _ _ (21 / 10 * K1) _ Fw Vw ltac:(lra) X); rewrite ?RW; unfold tolerance; lra.
  - unfold Rdiv at 1. rewrite Rabs_mult, Rabs_inv, (Rabs_pos_eq (INR w)) by lra. unfold Rdiv in RB at 1. lra.
Qed.
End Prices.
