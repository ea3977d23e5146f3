(** * FloatAcc2: the accuracy of one cell of the indicators in binary64. *)
From Coq Require Import ZArith Reals Bool List PeanoNat Lia Lra Psatz.
From Flocq Require Import Core Relative IEEE754.BinarySingleNaN.
From Verif Require Import Pandas FloatSim FloatFacts FloatInd FloatOrd FloatDec FloatRange FloatRange2 FloatSpec FloatAcc.
Import ListNotations.
Open Scope R_scope.

Lemma ap_fin x r e : ap x r e -> is_finite x = true. Proof. exact (fun H => proj1 H). Qed.
Lemma abs_in a b : - b <= a <= b -> Rabs a <= b. Proof. exact (Rabs_le a b). Qed.
Lemma ap_quot x y q s ea eb e g B f : ap x (q * s) ea -> ap y s eb -> 0 < g <= s - eb -> ea + Rabs q * eb <= e * g ->
  Rabs q + e <= B -> B <= 1267650600228229401496703205376 ->
  e + B / 9007199254740992 + / 1267650600228229401496703205376 <= f -> ap (fdiv x y) q f.
Proof.
  intros [Fx Hx] [Fy Hy] G H HB M D. apply (ap_div x y q e g B f); auto.
  - apply Rabs_le_inv in Hy. lra.
  - replace (RV x - q * RV y) with ((RV x - q * s) + - (q * (RV y - s))) by ring. eapply Rle_trans; [apply Rabs_triang|].
    rewrite Rabs_Ropp, Rabs_mult. assert (Rabs q * Rabs (RV y - s) <= Rabs q * eb) by (apply Rmult_le_compat_l; [apply Rabs_pos|exact Hy]). lra.
Qed.
Lemma ap_divc c v x r e B f : is_finite c = true -> RV c = v -> 0 < v -> ap x r e -> Rabs r / v + e / v <= B -> B <= 1267650600228229401496703205376 ->
  e / v + B / 9007199254740992 + / 1267650600228229401496703205376 <= f -> ap (fdiv x c) (r / v) f.
Proof.
  intros Fc Vc V A HB M D. apply (ap_quot x c (r / v) v e 0 (e / v) v B f); auto.
  - replace (r / v * v) with r by (field; lra). exact A.
  - split; [exact Fc|]. rewrite Vc, Rminus_eq_0, Rabs_R0. lra.
  - lra.
  - replace (e / v * v) with e by (field; lra). lra.
  - unfold Rdiv at 1. rewrite Rabs_mult, Rabs_inv, (Rabs_pos_eq v) by lra. exact HB.
Qed.

Section Tick.
Variables (t h l c : Z).
Hypothesis (T : (1 <= t <= 2 ^ 20)%Z) (Bh : (Z.abs h <= 2 ^ 24)%Z) (Bl : (Z.abs l <= 2 ^ 24)%Z) (Bc : (Z.abs c <= 2 ^ 24)%Z).
Let U := unit t.
Lemma tick_box j : (Z.abs j <= 2 ^ 24)%Z -> ap (dec4 (t * j)) (U * IZR j) (U / 268435456) /\ - (U * 16777216) <= U * IZR j <= U * 16777216 /\ / 10000 <= U <= 105.
Proof.
  intro J. destruct (tick_ap t j T J) as (A & B & C). fold U in A, C. split; [exact A|]. split; [|exact C]. apply Rabs_le_inv in B. nra.
Qed.
Lemma tick_diff a b : (Z.abs a <= 2 ^ 24)%Z -> (Z.abs b <= 2 ^ 24)%Z -> ap (fsub (dec4 (t * a)) (dec4 (t * b))) (U * (IZR a - IZR b)) (U / 67108864).
Proof.
  intros A B. destruct (tick_box a A) as (Aa & Ba & Bu). destruct (tick_box b B) as (Ab & Bb & _).
  replace (U * (IZR a - IZR b)) with (U * IZR a - U * IZR b) by ring.
  apply (ap_sub _ _ _ _ (U / 268435456) (U / 268435456) (U * 33554433)); auto; try lra.
  assert (Rabs (U * IZR a - U * IZR b) <= U * 33554432) by (apply Rabs_le; lra). lra.
Qed.
Lemma place : (l <= c <= h)%Z -> (l < h)%Z -> 0 <= (IZR h - IZR c) / (IZR h - IZR l) <= 1 /\ 0 <= (IZR c - IZR l) / (IZR h - IZR l) <= 1 /\ 1 <= IZR h - IZR l.
Proof.
  intros [A B] C. apply IZR_le in A, B. assert (D : 1 <= IZR h - IZR l) by (rewrite <- minus_IZR; apply (IZR_le 1); lia).
  assert (I : 0 < / (IZR h - IZR l)) by (apply Rinv_0_lt_compat; lra). assert (J : (IZR h - IZR l) * / (IZR h - IZR l) = 1) by (apply Rinv_r; lra).
  unfold Rdiv. repeat split; try lra; nra.
Qed.
(** %R *)
Lemma wr_near : (l <= c <= h)%Z -> (l < h)%Z ->
  ap (fmul m100 (fdiv (fsub (dec4 (t * h)) (dec4 (t * c))) (fsub (dec4 (t * h)) (dec4 (t * l))))) (-100 * ((IZR h - IZR c) / (IZR h - IZR l))) tolerance.
Proof.
  intros O L. destruct (place O L) as (Q & _ & D). set (q := (IZR h - IZR c) / (IZR h - IZR l)) in *.
  destruct (tick_box h Bh) as (_ & _ & Bu). pose proof (tick_diff h c Bh Bc) as X. pose proof (tick_diff h l Bh Bl) as Y.
  destruct m100_val as [Fm Vm]. assert (Qa : Rabs q <= 1) by (apply Rabs_le; lra).
  assert (R : ap (fdiv (fsub (dec4 (t * h)) (dec4 (t * c))) (fsub (dec4 (t * h)) (dec4 (t * l)))) q (/ 32000000)).
  { replace (U * (IZR h - IZR c)) with (q * (U * (IZR h - IZR l))) in X by (unfold q; field; lra).
    apply (ap_quot _ _ _ _ _ _ (/ 33000000) (U * (1 - / 67108864)) 2 _ X Y); try lra.
    - assert (U * 1 <= U * (IZR h - IZR l)) by (apply Rmult_le_compat_l; lra). lra.
    - assert (Rabs q * (U / 67108864) <= 1 * (U / 67108864)) by (apply Rmult_le_compat_r; lra). lra. }
  assert (V : Rabs (-100) = 100) by (rewrite Rabs_left; lra).
  apply (ap_mul _ _ _ _ _ 200 _ Fm Vm R); rewrite ?V; unfold tolerance; lra.
Qed.
(** %K *)
Lemma so_near : (l <= c <= h)%Z -> (l < h)%Z ->
  ap (fdiv (fmul p100 (fsub (dec4 (t * c)) (dec4 (t * l)))) (fsub (dec4 (t * h)) (dec4 (t * l)))) (100 * ((IZR c - IZR l) / (IZR h - IZR l))) tolerance.
Proof.
  intros O L. destruct (place O L) as (_ & Q & D). set (q := (IZR c - IZR l) / (IZR h - IZR l)) in *.
  destruct (tick_box c Bc) as (_ & Bcc & Bu). destruct (tick_box l Bl) as (_ & Bll & _).
  pose proof (tick_diff c l Bc Bl) as X. pose proof (tick_diff h l Bh Bl) as Y.
  destruct p100_val as [Fm Vm]. assert (Qa : Rabs (100 * q) <= 100) by (apply Rabs_le; lra).
  assert (V : Rabs 100 = 100) by (apply Rabs_pos_eq; lra).
  assert (R : ap (fmul p100 (fsub (dec4 (t * c)) (dec4 (t * l)))) (100 * (U * (IZR c - IZR l))) (U * (100 / 67108864 + / 2000000))).
  { apply (ap_mul _ _ _ _ _ (U * 3355443300) _ Fm Vm X); rewrite ?V; try lra.
    assert (Rabs (U * (IZR c - IZR l)) <= U * 33554432) by (apply Rabs_le; lra). lra. }
  replace (100 * (U * (IZR c - IZR l))) with (100 * q * (U * (IZR h - IZR l))) in R by (unfold q; field; lra).
  apply (ap_quot _ _ _ _ _ _ (/ 230000) (U * (1 - / 67108864)) 101 _ R Y); unfold tolerance; try lra.
  - assert (U * 1 <= U * (IZR h - IZR l)) by (apply Rmult_le_compat_l; lra). lra.
  - assert (Rabs (100 * q) * (U / 67108864) <= 100 * (U / 67108864)) by (apply Rmult_le_compat_r; lra). lra.
Qed.
(** sums and averages of prices *)
Lemma tick_add a b : (Z.abs a <= 2 ^ 24)%Z -> (Z.abs b <= 2 ^ 24)%Z -> ap (fadd (dec4 (t * a)) (dec4 (t * b))) (U * (IZR a + IZR b)) (U / 67108864).
Proof.
  intros A B. destruct (tick_box a A) as (Aa & Ba & Bu). destruct (tick_box b B) as (Ab & Bb & _).
  replace (U * (IZR a + IZR b)) with (U * IZR a + U * IZR b) by ring.
  apply (ap_add _ _ _ _ (U / 268435456) (U / 268435456) (U * 33554433)); auto; try lra.
  assert (Rabs (U * IZR a + U * IZR b) <= U * 33554432) by (apply Rabs_le; lra). lra.
Qed.
Lemma mid_near : ap (fmul (fz 1 (-1)) (fadd (dec4 (t * h)) (dec4 (t * l)))) (/ 2 * (U * (IZR h + IZR l))) tolerance.
Proof.
  destruct (tick_box h Bh) as (_ & B1 & Bu). destruct (tick_box l Bl) as (_ & B2 & _). pose proof (tick_add h l Bh Bl) as X.
  destruct fhalf_val as [Fm Vm]. assert (V : Rabs (/ 2) = / 2) by (apply Rabs_pos_eq; lra).
  assert (Rabs (U * (IZR h + IZR l)) <= U * 33554432) by (apply Rabs_le; lra).
  apply (ap_mul _ _ _ _ _ (U * 33554432) _ Fm Vm X); rewrite ?V; unfold tolerance; lra.
Qed.
Lemma mid_half : ap (fdiv (fadd (dec4 (t * h)) (dec4 (t * l))) (fz 2 0)) (U * (IZR h + IZR l) / 2) (U / 67108864) /\ - (U * 16777216) <= U * (IZR h + IZR l) / 2 <= U * 16777216.
Proof.
  destruct (tick_box h Bh) as (_ & B1 & Bu). destruct (tick_box l Bl) as (_ & B2 & _). pose proof (tick_add h l Bh Bl) as X.
  destruct (fz_val 2) as [Fm Vm]; [lia|]. assert (Rabs (U * (IZR h + IZR l)) <= U * 33554432) by (apply Rabs_le; lra).
  split; [|lra]. apply (ap_divc _ _ _ _ _ (U * 33554432) _ Fm Vm ltac:(lra) X); lra.
Qed.
Lemma wc_near : ap (fdiv (fadd (fadd (fmul (fz 2 0) (dec4 (t * c))) (dec4 (t * h))) (dec4 (t * l))) (fz 4 0)) (U * (2 * IZR c + IZR h + IZR l) / 4) tolerance.
Proof.
  destruct (tick_box h Bh) as (Ah & B1 & Bu). destruct (tick_box l Bl) as (Al & B2 & _). destruct (tick_box c Bc) as (Ac & B3 & _).
  destruct (fz_val 2) as [F2 V2]; [lia|]. destruct (fz_val 4) as [F4 V4]; [lia|]. assert (V : Rabs 2 = 2) by (apply Rabs_pos_eq; lra).
  assert (N3 : Rabs (U * IZR c) <= U * 16777216) by (apply Rabs_le; lra).
  assert (X1 : ap (fmul (fz 2 0) (dec4 (t * c))) (2 * (U * IZR c)) (U / 67108864)).
  { apply (ap_mul _ _ _ _ _ (U * 33554434) _ F2 V2 Ac); rewrite ?V; lra. }
  assert (X2 : ap (fadd (fmul (fz 2 0) (dec4 (t * c))) (dec4 (t * h))) (2 * (U * IZR c) + U * IZR h) (U / 33000000)).
  { assert (Rabs (2 * (U * IZR c) + U * IZR h) <= U * 50331648) by (apply Rabs_le; lra).
    apply (ap_add _ _ _ _ _ _ (U * 50331650) _ X1 Ah); lra. }
  assert (X3 : ap (fadd (fadd (fmul (fz 2 0) (dec4 (t * c))) (dec4 (t * h))) (dec4 (t * l))) (2 * (U * IZR c) + U * IZR h + U * IZR l) (U / 22000000)).
  { assert (Rabs (2 * (U * IZR c) + U * IZR h + U * IZR l) <= U * 67108864) by (apply Rabs_le; lra).
    apply (ap_add _ _ _ _ _ _ (U * 67108866) _ X2 Al); lra. }
  replace (U * (2 * IZR c + IZR h + IZR l) / 4) with ((2 * (U * IZR c) + U * IZR h + U * IZR l) / 4) by field.
  assert (Rabs (2 * (U * IZR c) + U * IZR h + U * IZR l) <= U * 67108864) by (apply Rabs_le; lra).
  apply (ap_divc _ _ _ _ _ (U * 16777218) _ F4 V4 ltac:(lra) X3); unfold tolerance; lra.
Qed.
Lemma tp_near : ap (fdiv (fadd (fadd (dec4 (t * h)) (dec4 (t * l))) (dec4 (t * c))) (fz 3 0)) (U * (IZR h + IZR l + IZR c) / 3) tolerance.
Proof.
  destruct (tick_box h Bh) as (Ah & B1 & Bu). destruct (tick_box l Bl) as (Al & B2 & _). destruct (tick_box c Bc) as (Ac & B3 & _).
  destruct (fz_val 3) as [F4 V4]; [lia|]. pose proof (tick_add h l Bh Bl) as X1.
  assert (Rabs (U * (IZR h + IZR l) + U * IZR c) <= U * 50331648) by (apply Rabs_le; lra).
  assert (X2 : ap (fadd (fadd (dec4 (t * h)) (dec4 (t * l))) (dec4 (t * c))) (U * (IZR h + IZR l) + U * IZR c) (U / 33000000)).
  { apply (ap_add _ _ _ _ _ _ (U * 50331650) _ X1 Ac); lra. }
  replace (U * (IZR h + IZR l + IZR c) / 3) with ((U * (IZR h + IZR l) + U * IZR c) / 3) by field.
  apply (ap_divc _ _ _ _ _ (U * 16777218) _ F4 V4 ltac:(lra) X2); unfold tolerance; lra.
Qed.
(** a level between the largest and the smallest close *)
Lemma thousandth_ap z : (0 <= z <= 1000)%Z -> ap (thousandth z) (IZR z / 1000) (/ 9000000000000000).
Proof.
  intros [A B]. assert (Z1 : 0 <= IZR z <= 1000) by (split; [apply (IZR_le 0)|apply (IZR_le _ 1000)]; lia).
  destruct (fz_val z) as [Fz Vz]; [lia|]. destruct (fz_val 1000) as [F1 V1]; [lia|]. unfold thousandth.
  assert (X : ap (fz z 0) (IZR z) 0) by (split; [exact Fz|rewrite Vz, Rminus_eq_0, Rabs_R0; lra]).
  assert (Rabs (IZR z) <= 1000) by (apply Rabs_le; lra).
  apply (ap_divc _ _ _ _ _ 1 _ F1 V1 ltac:(lra) X); try lra.
Qed.
Lemma fib_near z : (0 <= z <= 1000)%Z -> (l <= h)%Z ->
  ap (fsub (dec4 (t * h)) (fmul (thousandth z) (fsub (dec4 (t * h)) (dec4 (t * l))))) (U * IZR h - IZR z / 1000 * (U * (IZR h - IZR l))) tolerance /\
  Rabs (U * IZR h - IZR z / 1000 * (U * (IZR h - IZR l))) <= U * 16777216.
Proof.
  intros Z0 O. destruct (tick_box h Bh) as (Ah & B1 & Bu). destruct (tick_box l Bl) as (_ & B2 & _). pose proof (tick_diff h l Bh Bl) as X.
  pose proof (thousandth_ap z Z0) as Y. set (v := IZR z / 1000) in *. set (r := U * (IZR h - IZR l)) in *.
  assert (Hv : 0 <= v <= 1) by (unfold v; destruct Z0 as [A B]; apply IZR_le in A, B; lra).
  assert (Hr : 0 <= r <= U * 33554432) by (apply IZR_le in O; unfold r; split; [apply Rmult_le_pos; lra|lra]).
  assert (P : ap (fmul (thousandth z) (fsub (dec4 (t * h)) (dec4 (t * l)))) (v * r) (U / 30000000)).
  { destruct X as [Fx Hx], Y as [Fy Hy]. apply Rabs_le_inv in Hx, Hy.
    apply (comes_ap (RV (thousandth z) * RV (fsub (dec4 (t * h)) (dec4 (t * l)))) _ _ (U / 40000000) (U * 33554440)); [apply fmul_comes; auto| | |lra|lra].
    - replace (RV (thousandth z) * RV (fsub (dec4 (t * h)) (dec4 (t * l))) - v * r)
        with ((RV (thousandth z) - v) * RV (fsub (dec4 (t * h)) (dec4 (t * l))) + v * (RV (fsub (dec4 (t * h)) (dec4 (t * l))) - r)) by ring.
      eapply Rle_trans; [apply Rabs_triang|]. rewrite !Rabs_mult.
      assert (Rabs (RV (thousandth z) - v) * Rabs (RV (fsub (dec4 (t * h)) (dec4 (t * l)))) <= / 9000000000000000 * (U * 33554434)).
      { apply Rmult_le_compat; try apply Rabs_pos; apply Rabs_le; lra. }
      assert (Rabs v * Rabs (RV (fsub (dec4 (t * h)) (dec4 (t * l))) - r) <= 1 * (U / 67108864)).
      { apply Rmult_le_compat; try apply Rabs_pos; apply Rabs_le; lra. }
      lra.
    - rewrite Rabs_mult. assert (Rabs (RV (thousandth z)) * Rabs (RV (fsub (dec4 (t * h)) (dec4 (t * l)))) <= (1 + / 9000000000000000) * (U * 33554434)).
      { apply Rmult_le_compat; try apply Rabs_pos; apply Rabs_le; lra. } lra. }
  assert (Hvr : 0 <= v * r <= r). { split; [apply Rmult_le_pos; lra|]. assert (v * r <= 1 * r) by (apply Rmult_le_compat_r; lra). lra. }
  assert (Rv : r = U * IZR h - U * IZR l) by (unfold r; ring).
  assert (W : Rabs (U * IZR h - v * r) <= U * 16777216) by (apply Rabs_le; lra).
  split; [|exact W]. apply (ap_sub _ _ _ _ _ _ (U * 50331650) _ Ah P); unfold tolerance; lra.
Qed.
End Tick.
