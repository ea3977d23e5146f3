(** * FloatEwmAcc3: accuracy of the exponential averages as published. *)
From Coq Require Import ZArith QArith Qcanon Qreals Reals Bool List PeanoNat Lia Lra Psatz Permutation.
From Flocq Require Import Core Relative IEEE754.BinarySingleNaN.
From Verif Require Import Num NumFacts Pandas SeriesFacts FloatSim FloatFacts FloatExact FloatInd FloatOrd FloatDec FloatRange FloatRange2 RangeSpec ValueSpec FormulaSpec Starts FloatSpec FloatAccSpec FloatAcc FloatAcc2 FloatAcc3 FloatAcc5 FloatEwm FloatEwmSpec FloatEwmAcc FloatEwmAcc2.
Import ListNotations.
Open Scope R_scope.

Lemma tracks_from a k y q : (if (k <? a)%nat then y = fnan else tracks y (Fin q)) -> tracks y (from a k (Fin q)).
Proof. unfold from. destruct (k <? a)%nat; [intros ->; reflexivity|auto]. Qed.
Lemma real_price c i : real (prices 1 c i) = IZR (c i) / 10000.
Proof. rewrite real_prices. unfold unit. field. Qed.
Lemma line_ext p r f g n : (forall i, f i = g i) -> line p r f n = line p r g n.
Proof. intro E. induction n as [|n IH]; cbn [line]; [reflexivity|]. rewrite E, IH. reflexivity. Qed.
Lemma rema_ext p b f g k : (forall i, f i = g i) -> rema p b f k = rema p b g k.
Proof. intro E. unfold rema. rewrite E. apply line_ext. intro i. apply E. Qed.
Lemma round_list_nth s k : nth k (map fround4 s) fnan = fround4 (nth k s fnan).
Proof. rewrite <- round_nan at 1. apply map_nth. Qed.
Lemma const_val z : (Z.abs z < 2 ^ 53)%Z -> is_finite (fz z 0) = true /\ RV (fz z 0) = IZR z.
Proof. intro H. apply fz_val. lia. Qed.

Section Published.
Variables (c : nat -> Z) (p n : nat).
Hypothesis (P : (0 < p)%nat) (Mo : moderate p c n).
Notation C := (column 1 c n).
Notation x := (prices 1 c).
Lemma real_e1 k : real (ema_from 0 p x k) = rema p 0 (fun i => IZR (c i) / 10000) k.
Proof. rewrite real_ema_from. apply rema_ext. apply real_price. Qed.
Lemma real_e2 k : real (ema_from (p - 1) p (ema_from 0 p x) k) = rema p (p - 1) (rema p 0 (fun i => IZR (c i) / 10000)) k.
Proof. rewrite real_ema_from. apply rema_ext. apply real_e1. Qed.
Lemma real_e3 k : real (ema_from (2 * (p - 1)) p (ema_from (p - 1) p (ema_from 0 p x)) k) = rema p (2 * (p - 1)) (rema p (p - 1) (rema p 0 (fun i => IZR (c i) / 10000))) k.
Proof. rewrite real_ema_from. apply rema_ext. apply real_e2. Qed.
Variable k : nat.
Hypothesis K : (k < n)%nat.
Lemma Npos : (0 < n)%nat. Proof. lia. Qed.
Lemma fema_tracks : tracks (cell (fema p C) k) (from (p - 1) k (Fin (ema_from 0 p x k))).
Proof.
  unfold cell, fema. rewrite round_list_nth. apply tracks_from. pose proof (ema_ap c p n P Npos Mo k K) as A. cbv zeta in A.
  destruct (sizes c p n P Npos Mo) as ([_ M1] & _). destruct (k <? p - 1)%nat; [rewrite A; reflexivity|]. destruct A as [A B]. rewrite <- real_e1 in A, B.
  apply tracks_round; [|lra]. eapply ap_weaken; [exact A|]. unfold tolerance. lra.
Qed.
Lemma fdema_tracks : tracks (cell (fdema p C) k) (from (2 * (p - 1)) k (Fin (zq 2 * ema_from 0 p x k - ema_from (p - 1) p (ema_from 0 p x) k)%Qc)).
Proof.
  unfold cell, fdema. cbv zeta. rewrite fmap2_nth by (rewrite ?fewm_length, ?column_length; auto). apply tracks_from.
  pose proof (ema_ap c p n P Npos Mo k K) as A. pose proof (ema2_ap c p n P Npos Mo k K) as B. cbv zeta in A, B. destruct (sizes c p n P Npos Mo) as ([_ M1] & _).
  destruct (Nat.ltb_spec k (2 * (p - 1))); [rewrite B, sub_nan; reflexivity|]. destruct (Nat.ltb_spec k (p - 1)); [lia|].
  destruct A as [A1 A2], B as [B1 B2]. rewrite <- real_e1 in A1, A2. rewrite <- real_e2 in B1, B2. destruct (const_val 2 ltac:(lia)) as [F2 V2]. fold ftwo in F2, V2. unfold tolerance.
  assert (V : Rabs 2 = 2) by (apply Rabs_pos_eq; lra). set (a := ema_from 0 p x k) in *. set (b := ema_from (p - 1) p (ema_from 0 p x) k) in *. set (m := M p) in *.
  assert (X : ap (fmul ftwo (nth k (fewm p p C) fnan)) (2 * real a) (/ 1000000)).
  { apply (ap_mul _ _ _ _ _ (220000010) _ F2 V2 A1); rewrite ?V; lra. }
  assert (Q : Rabs (2 * real a - real b) <= 3 * m).
  { apply Rabs_le_inv in A2, B2. apply Rabs_le; lra. }
  apply tracks_round; rewrite real_sub, real_mul, real_zq; [|lra]. apply (ap_sub _ _ _ _ _ _ 330000010 _ X B1); unfold tolerance; lra.
Qed.
Lemma ftema_tracks : tracks (cell (ftema p C) k)
  (from (3 * (p - 1)) k (Fin (zq 3 * ema_from 0 p x k - zq 3 * ema_from (p - 1) p (ema_from 0 p x) k + ema_from (2 * (p - 1)) p (ema_from (p - 1) p (ema_from 0 p x)) k)%Qc)).
Proof.
  unfold cell, ftema. cbv zeta. rewrite fmap3_nth by (rewrite ?fewm_length, ?column_length; auto). apply tracks_from.
  pose proof (ema_ap c p n P Npos Mo k K) as A. pose proof (ema2_ap c p n P Npos Mo k K) as B. pose proof (ema3_ap c p n P Npos Mo k K) as D. cbv zeta in A, B, D. destruct (sizes c p n P Npos Mo) as ([_ M1] & _).
  destruct (Nat.ltb_spec k (3 * (p - 1))). { rewrite D. destruct (fsub _ _); reflexivity. }
  destruct (Nat.ltb_spec k (2 * (p - 1))); [lia|]. destruct (Nat.ltb_spec k (p - 1)); [lia|].
  destruct A as [A1 A2], B as [B1 B2], D as [D1 D2]. rewrite <- real_e1 in A1, A2. rewrite <- real_e2 in B1, B2. rewrite <- real_e3 in D1, D2. destruct (const_val 3 ltac:(lia)) as [F3 V3]. fold fthree in F3, V3. 
  assert (V : Rabs 3 = 3) by (apply Rabs_pos_eq; lra). set (a := ema_from 0 p x k) in *. set (b := ema_from (p - 1) p (ema_from 0 p x) k) in *. set (d := ema_from (2 * (p - 1)) p _ k) in *. set (m := M p) in *.
  apply Rabs_le_inv in A2 as A3. apply Rabs_le_inv in B2 as B3. apply Rabs_le_inv in D2 as D3.
  assert (X : ap (fmul fthree (nth k (fewm p p C) fnan)) (3 * real a) (48 * kap + 330000010 * u + / 1000000000000)) by (apply (ap_mul _ _ _ _ _ 330000010 _ F3 V3 A1); rewrite ?V; lra).
  assert (Y : ap (fmul fthree (nth k (fewm p p (fewm p p C)) fnan)) (3 * real b) (93 * kap + 330000010 * u + / 1000000000000)) by (apply (ap_mul _ _ _ _ _ 330000010 _ F3 V3 B1); rewrite ?V; lra).
  assert (Z : ap (fsub (fmul fthree (nth k (fewm p p C) fnan)) (fmul fthree (nth k (fewm p p (fewm p p C)) fnan))) (3 * real a - 3 * real b) (141 * kap + 1400000000 * u + / 100000000000)).
  { apply (ap_sub _ _ _ _ _ _ 660000010 _ X Y); try lra. assert (Rabs (3 * real a - 3 * real b) <= 6 * m) by (apply Rabs_le; lra). lra. }
  assert (Q : Rabs (3 * real a - 3 * real b + real d) <= 7 * m) by (apply Rabs_le; lra).
  apply tracks_round; rewrite real_add, real_sub, !real_mul, real_zq; [|lra]. apply (ap_add _ _ _ _ _ _ 770000010 _ Z D1); unfold tolerance; lra.
Qed.
End Published.
