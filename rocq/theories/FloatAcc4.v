(** * FloatAcc4: ratios to an earlier price in binary64. *)
From Coq Require Import ZArith Reals Bool List PeanoNat Lia Lra Psatz.
From Flocq Require Import Core Relative IEEE754.BinarySingleNaN.
From Verif Require Import Pandas FloatSim FloatFacts FloatInd FloatOrd FloatDec FloatRange FloatRange2 FloatSpec FloatAcc FloatAcc2.
Import ListNotations.
Open Scope R_scope.

Section Ratio.
Variables v w : Z.
Hypothesis (W : (1 <= w <= 2 ^ 50)%Z) (V : (Z.abs v <= 2 ^ 50)%Z) (R : (Z.abs v <= 2 ^ 24 * w)%Z).
Let a := IZR v / 10000.
Let b := IZR w / 10000.
Let q := IZR v / IZR w.
Lemma ratio_facts : / 10000 <= b <= 112589990685 /\ Rabs a <= 16777216 * b /\ a = q * b /\ Rabs q <= 16777216.
Proof.
  assert (B1 : 1 <= IZR w <= 1125899906842624) by (split; [apply (IZR_le 1)|apply (IZR_le _ (2 ^ 50))]; lia).
  assert (A1 : Rabs (IZR v) <= 16777216 * IZR w) by (rewrite <- abs_IZR, <- mult_IZR; apply IZR_le; exact R).
  assert (Q1 : a = q * b) by (unfold a, q, b; field; lra).
  assert (A2 : Rabs a <= 16777216 * b).
  { unfold a, b, Rdiv. rewrite Rabs_mult, (Rabs_pos_eq (/ 10000)) by lra. lra. }
  split; [unfold b; lra|]. split; [exact A2|]. split; [exact Q1|].
  apply Rmult_le_reg_r with (IZR w); [lra|]. rewrite <- (Rabs_pos_eq (IZR w)) at 1 by lra. rewrite <- Rabs_mult.
  replace (q * IZR w) with (IZR v) by (unfold q; field; lra). exact A1.
Qed.
Lemma now_ap : ap (dec4 v) a (b * (3 / 1600000000)).
Proof. destruct ratio_facts as (B & A & _). eapply ap_weaken; [apply dec_ap; exact V|]. fold a. lra. Qed.
Lemma then_ap : ap (dec4 w) b (b / 9000000000000000).
Proof. destruct ratio_facts as (B & A & _). eapply ap_weaken; [apply dec_ap; lia|]. fold b. rewrite Rabs_pos_eq by lra. lra. Qed.
Lemma change_ap : ap (fsub (dec4 v) (dec4 w)) (a - b) (b * (3 / 800000000)).
Proof.
  destruct ratio_facts as (B & A & _). assert (Rabs (a - b) <= 16777217 * b) by (apply Rabs_le_inv in A; apply Rabs_le; lra).
  apply (ap_sub _ _ _ _ _ _ (b * 16777218) _ now_ap then_ap); lra.
Qed.
Lemma mom_near : ap (fdiv (fmul p100 (dec4 v)) (dec4 w)) (100 * q) tolerance.
Proof.
  destruct ratio_facts as (B & A & E & Q). destruct p100_val as [Fp Vp]. assert (P : Rabs 100 = 100) by (apply Rabs_pos_eq; lra).
  assert (X : ap (fmul p100 (dec4 v)) (100 * a) (b * (3 / 8000000))).
  { apply (ap_mul _ _ _ _ _ (b * 1677721700) _ Fp Vp now_ap); rewrite ?P; lra. }
  replace (100 * a) with (100 * q * b) in X by (rewrite E; ring).
  assert (Q2 : Rabs (100 * q) <= 1677721600) by (rewrite Rabs_mult, P; lra).
  apply (ap_quot _ _ _ _ _ _ (7 / 10000000) (b * (1 - / 9000000000000000)) 1677721700 _ X then_ap); unfold tolerance; try lra.
  assert (Rabs (100 * q) * (b / 9000000000000000) <= 1677721600 * (b / 9000000000000000)) by (apply Rmult_le_compat_r; lra). lra.
Qed.
Lemma change_q : a - b = (q - 1) * b /\ Rabs (q - 1) <= 16777217.
Proof. destruct ratio_facts as (B & A & E & Q). split; [rewrite E; ring|]. apply Rabs_le_inv in Q. apply Rabs_le. lra. Qed.
Lemma prc_near : ap (fdiv (fmul p100 (fsub (dec4 v) (dec4 w))) (dec4 w)) (100 * (q - 1)) tolerance.
Proof.
  destruct ratio_facts as (B & A & _ & _). destruct change_q as [E Q]. destruct p100_val as [Fp Vp]. assert (P : Rabs 100 = 100) by (apply Rabs_pos_eq; lra).
  assert (Rabs (a - b) <= 16777217 * b) by (apply Rabs_le_inv in A; apply Rabs_le; lra).
  assert (X : ap (fmul p100 (fsub (dec4 v) (dec4 w))) (100 * (a - b)) (b * (6 / 10000000))).
  { apply (ap_mul _ _ _ _ _ (b * 1677721900) _ Fp Vp change_ap); rewrite ?P; lra. }
  replace (100 * (a - b)) with (100 * (q - 1) * b) in X by (rewrite E; ring).
  assert (Q2 : Rabs (100 * (q - 1)) <= 1677721700) by (rewrite Rabs_mult, P; lra).
  apply (ap_quot _ _ _ _ _ _ (/ 1000000) (b * (1 - / 9000000000000000)) 1677721900 _ X then_ap); unfold tolerance; try lra.
  assert (Rabs (100 * (q - 1)) * (b / 9000000000000000) <= 1677721700 * (b / 9000000000000000)) by (apply Rmult_le_compat_r; lra). lra.
Qed.
Lemma prf_near : ap (fdiv (fsub (dec4 v) (dec4 w)) (dec4 w)) (q - 1) (/ 90000000).
Proof.
  destruct ratio_facts as (B & A & _ & _). destruct change_q as [E Q]. pose proof change_ap as X. rewrite E in X.
  apply (ap_quot _ _ _ _ _ _ (6 / 1000000000) (b * (1 - / 9000000000000000)) 16777219 _ X then_ap); unfold tolerance; try lra.
  assert (Rabs (q - 1) * (b / 9000000000000000) <= 16777217 * (b / 9000000000000000)) by (apply Rmult_le_compat_r; lra). lra.
Qed.
Lemma vrc_near : ap (fmul p100 (fdiv (fsub (dec4 v) (dec4 w)) (dec4 w))) (100 * (q - 1)) tolerance.
Proof.
  destruct change_q as [E Q]. destruct p100_val as [Fp Vp]. assert (P : Rabs 100 = 100) by (apply Rabs_pos_eq; lra).
  apply (ap_mul _ _ _ _ _ 1677721900 _ Fp Vp prf_near); rewrite ?P; unfold tolerance; lra.
Qed.
End Ratio.

(** ** the earlier price is zero *)
Lemma dec4_zero : dec4 0 = f0. Proof. apply B2SF_inj. vm_compute. reflexivity. Qed.
Lemma dec4_pos v : (1 <= v <= 2 ^ 50)%Z -> is_finite (dec4 v) = true /\ 0 < RV (dec4 v).
Proof.
  intro H. destruct (dec_ap v) as [F E]; [lia|]. split; [exact F|]. assert (1 <= IZR v <= 1125899906842624) by (split; [apply (IZR_le 1)|apply (IZR_le _ (2 ^ 50))]; lia).
  rewrite (Rabs_pos_eq (IZR v / 10000)) in E by lra. apply Rabs_le_inv in E. lra.
Qed.
Lemma over_zero (x : f64) : is_finite x = true -> 0 < RV x -> fdiv x f0 = B754_infinity false.
Proof. destruct x as [s|s| |s m e B]; intros F P; try discriminate; try (simpl in P; lra). destruct s; [|reflexivity].
  exfalso. assert (RV (B754_finite true m e B) < 0) by (apply F2R_lt_0; reflexivity). lra. Qed.
Lemma pos_times (x : f64) : is_finite x = true -> 0 < RV x <= 1267650600228229401496703205376 / 100 -> / 10000000 <= RV x -> is_finite (fmul p100 x) = true /\ 0 < RV (fmul p100 x).
Proof.
  intros F P L. destruct p100_val as [Fp Vp]. assert (A : ap (fmul p100 x) (100 * RV x) (50 * RV x)).
  { assert (X : ap x (RV x) 0) by (split; [exact F|rewrite Rminus_eq_0, Rabs_R0; lra]).
    apply (ap_mul _ _ _ _ _ (100 * RV x) _ Fp Vp X); rewrite ?(Rabs_pos_eq 100), ?(Rabs_pos_eq (RV x)) by lra; lra. }
  destruct A as [A E]. split; [exact A|]. apply Rabs_le_inv in E. lra.
Qed.
Lemma minus_zero (x : f64) : is_finite x = true -> 0 < RV x -> fsub x f0 = x.
Proof. destruct x as [s|s| |s m e B]; intros F P; try discriminate; try (simpl in P; lra). reflexivity. Qed.
