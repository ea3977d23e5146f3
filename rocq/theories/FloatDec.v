(** * FloatDec: rounding errors of binary64, and rounding to four decimals. *)
From Coq Require Import ZArith Reals Bool List PeanoNat Lia Lra Psatz.
From Flocq Require Import Core Relative IEEE754.BinarySingleNaN.
From Verif Require Import Sim FloatSim FloatFacts FloatInd FloatOrd.
Open Scope R_scope.

Lemma rnd_err x : Rabs (rnd x - x) <= bpow radix2 (-53) * Rabs x + bpow radix2 (-1075).
Proof.
  destruct (error_N_FLT radix2 (-1074) 53 ltac:(reflexivity) (fun n => negb (Z.even n)) x) as (eps & eta & E1 & E2 & _ & E).
  change (round radix2 (FLT_exp (-1074) 53) (Znearest (fun n => negb (Z.even n))) x) with (rnd x) in E. rewrite E.
  replace (x * (1 + eps) + eta - x) with (x * eps + eta) by ring.
  assert (B1 : / 2 * bpow radix2 (-53 + 1) = bpow radix2 (-53)) by (rewrite bpow_plus_1; simpl IZR; lra).
  assert (B2 : / 2 * bpow radix2 (-1074) = bpow radix2 (-1075)) by (change (-1074)%Z with (-1075 + 1)%Z; rewrite bpow_plus_1; simpl IZR; lra).
  change (- (53) + 1)%Z with (-53 + 1)%Z in E1. rewrite B1 in E1. rewrite B2 in E2. eapply Rle_trans; [apply Rabs_triang|]. rewrite Rabs_mult. pose proof (Rabs_pos x). nra.
Qed.
(** an integer multiple of a float has no underflow *)
Lemma rnd_multiple k (x : f64) : Rabs (rnd (IZR k * RV x) - IZR k * RV x) <= bpow radix2 (-53) * Rabs (IZR k * RV x).
Proof.
  destruct (Rle_or_lt (bpow radix2 (-1022)) (Rabs (IZR k * RV x))) as [H|H].
  - destruct (relative_error_N_FLT_ex radix2 (-1074) 53 ltac:(reflexivity) (fun n => negb (Z.even n)) (IZR k * RV x) H) as (eps & E1 & E).
    change (round radix2 (FLT_exp (-1074) 53) (Znearest (fun n => negb (Z.even n))) (IZR k * RV x)) with (rnd (IZR k * RV x)) in E. rewrite E.
    replace (IZR k * RV x * (1 + eps) - IZR k * RV x) with (eps * (IZR k * RV x)) by ring. rewrite Rabs_mult.
    assert (B1 : / 2 * bpow radix2 (-53 + 1) = bpow radix2 (-53)) by (rewrite bpow_plus_1; simpl IZR; lra). change (- (53) + 1)%Z with (-53 + 1)%Z in E1. rewrite B1 in E1.
    pose proof (Rabs_pos (IZR k * RV x)). nra.
  - pose proof (generic_format_B2R 53 1024 x) as G. change (SpecFloat.fexp 53 1024) with (FLT_exp (-1074) 53) in G.
    apply generic_format_FIX_FLT in G. apply FIX_format_generic in G. destruct G as [f E1 E2].
    assert (E : IZR k * RV x = F2R (Float radix2 (k * Fnum f) (-1074))).
    { rewrite E1. unfold F2R. simpl Fnum. simpl Fexp. rewrite E2, mult_IZR. ring. }
    assert (GG : rnd (IZR k * RV x) = IZR k * RV x).
    { apply round_generic; auto with typeclass_instances. change (SpecFloat.fexp 53 1024) with (FLT_exp (-1074) 53).
      rewrite E in H |- *. apply generic_format_FLT. exists (Float radix2 (k * Fnum f) (-1074)); [reflexivity| |simpl; lia].
      simpl Fnum. revert H. unfold F2R. simpl Fnum. simpl Fexp. rewrite Rabs_mult, (Rabs_pos_eq (bpow radix2 (-1074))) by apply bpow_ge_0.
      intro H. apply lt_IZR. rewrite abs_IZR. apply Rmult_lt_reg_r with (bpow radix2 (-1074)); [apply bpow_gt_0|].
      eapply Rlt_trans; [exact H|]. change (IZR (radix2 ^ 53)) with (IZR (Zpower radix2 53)). rewrite IZR_Zpower by lia. rewrite <- bpow_plus. apply bpow_lt. lia. }
    rewrite GG, Rminus_diag_eq, Rabs_R0 by reflexivity. apply Rmult_le_pos; [apply bpow_ge_0|apply Rabs_pos].
Qed.
Lemma fz_val2 z e : (Z.abs z < 2 ^ 53)%Z -> (-1074 <= e <= 970)%Z -> is_finite (fz z e) = true /\ RV (fz z e) = IZR z * bpow radix2 e.
Proof.
  intros S [E1 E2]. unfold fz. pose proof (@binary_normalize_correct 53 1024 prec_pos prec_lt mode_NE z e false) as H. cbn [round_mode] in H.
  assert (E : F2R (Float radix2 z e) = IZR z * bpow radix2 e) by reflexivity. rewrite E in H.
  assert (G : rnd (IZR z * bpow radix2 e) = IZR z * bpow radix2 e).
  { apply round_generic; auto with typeclass_instances. rewrite <- E. apply (generic_format_FLT radix2 (-1074) 53).
    exists (Float radix2 z e); simpl; auto; lia. }
  rewrite G, Rlt_bool_true in H; [tauto|]. rewrite Rabs_mult, (Rabs_pos_eq (bpow radix2 e)) by apply bpow_ge_0.
  apply Rlt_le_trans with (bpow radix2 53 * bpow radix2 e).
  - apply Rmult_lt_compat_r; [apply bpow_gt_0|]. rewrite <- abs_IZR. rewrite <- IZR_Zpower by lia. apply IZR_lt. exact S.
  - rewrite <- bpow_plus. apply bpow_le. lia.
Qed.
(** the float nearest to k / 10000 *)
Definition decimal (k : Z) : f64 := fdiv (fz k 0) ften4.
Lemma b50 : bpow radix2 50 = IZR (2 ^ 50). Proof. reflexivity. Qed.
Lemma decimal_val k : (Z.abs k <= 2 ^ 50)%Z -> is_finite (decimal k) = true /\ RV (decimal k) = rnd (IZR k / 10000).
Proof.
  intro S. destruct (fz_val k) as [F V]; [lia|]. destruct ften4_val as [FT VT]. unfold decimal.
  pose proof (fdiv_comes (fz k 0) ften4 F FT ltac:(rewrite VT; lra)) as C. rewrite V, VT in C.
  destruct (fz_val (2 ^ 50)) as [FU VU]; [lia|]. destruct (fz_val (- 2 ^ 50)) as [FL VL]; [lia|].
  edestruct (fun H => comes_fin (fz (- 2 ^ 50) 0) (fz (2 ^ 50) 0) _ _ FL FU H C) as (A & B & _); [|split; assumption].
  rewrite VL, VU. assert (IZR (- 2 ^ 50) <= IZR k <= IZR (2 ^ 50)) by (split; apply IZR_le; lia). simpl IZR in *. lra.
Qed.
Lemma fix0 x : round radix2 (FIX_exp 0) ZnearestE x = IZR (ZnearestE x).
Proof. unfold round, scaled_mantissa, cexp, FIX_exp, F2R. simpl. rewrite !Rmult_1_r. reflexivity. Qed.
(** y within a quarter of a unit of the fourth decimal of k / 10000 rounds to it *)
Lemma fround4_near y k : is_finite y = true -> (Z.abs k <= 2 ^ 50)%Z -> Rabs (RV y - IZR k / 10000) <= / 40000 ->
  is_finite (fround4 y) = true /\ RV (fround4 y) = RV (decimal k).
Proof.
  intros F S H. destruct ften4_val as [FT VT]. unfold fround4.
  pose proof (fmul_comes y ften4 F FT) as C. rewrite VT in C.
  assert (K : IZR (- 2 ^ 50) <= IZR k <= IZR (2 ^ 50)) by (split; apply IZR_le; lia).
  apply Rabs_le_inv in H. set (z := RV y * 10000) in *.
  assert (Z1 : IZR k - / 4 <= z <= IZR k + / 4) by (unfold z; lra).
  destruct (fz_val (2 ^ 51)) as [FU VU]; [lia|]. destruct (fz_val (- 2 ^ 51)) as [FL VL]; [lia|].
  edestruct (fun H => comes_fin (fz (- 2 ^ 51) 0) (fz (2 ^ 51) 0) _ _ FL FU H C) as (A & B & _).
  { rewrite VL, VU. simpl IZR in *. lra. }
  destruct (frint_fin _ A) as [A2 B2]. rewrite fix0 in B2.
  assert (N : ZnearestE (RV (fmul y ften4)) = k).
  { apply Znearest_imp. rewrite B. pose proof (rnd_err z) as R. assert (Rabs z <= IZR (2 ^ 50) + / 4) by (apply Rabs_le; simpl IZR in *; lra).
    assert (T : bpow radix2 (-1075) <= / 16) by (apply Rle_trans with (bpow radix2 (-4)); [apply bpow_le; lia|simpl; lra]).
    assert (U : bpow radix2 (-53) * Rabs z <= / 8 + / 32).
    { assert (bpow radix2 (-53) = / 9007199254740992) by reflexivity. rewrite H1. simpl IZR in H0. lra. }
    apply Rabs_le_inv in R. apply Rabs_lt. lra. }
  rewrite N in B2. destruct (fz_val k) as [Fk Vk]; [lia|].
  pose proof (fdiv_comes _ ften4 A2 FT ltac:(rewrite VT; lra)) as C2. rewrite B2, VT in C2.
  destruct (decimal_val k S) as [Fd Vd]. rewrite Vd.
  edestruct (fun H => comes_fin (fz (- 2 ^ 51) 0) (fz (2 ^ 51) 0) _ _ FL FU H C2) as (A3 & B3 & _); [|split; assumption].
  rewrite VL, VU. simpl IZR in *. lra.
Qed.
Lemma decimal_err k : (Z.abs k <= 2 ^ 50)%Z -> Rabs (RV (decimal k) - IZR k / 10000) <= bpow radix2 (-53) * Rabs (IZR k / 10000) + bpow radix2 (-1075).
Proof. intro S. destruct (decimal_val k S) as [_ ->]. apply rnd_err. Qed.
(** prices with at most four decimals are left alone *)
Lemma fround4_decimal k : (Z.abs k <= 2 ^ 50)%Z -> is_finite (fround4 (decimal k)) = true /\ RV (fround4 (decimal k)) = RV (decimal k).
Proof.
  intro S. destruct (decimal_val k S) as [F V]. apply fround4_near; auto. eapply Rle_trans; [apply decimal_err; auto|].
  assert (K : IZR (- 2 ^ 50) <= IZR k <= IZR (2 ^ 50)) by (split; apply IZR_le; lia).
  assert (Rabs (IZR k / 10000) <= IZR (2 ^ 50) / 10000) by (apply Rabs_le; simpl IZR in *; lra).
  assert (T : bpow radix2 (-1075) <= / 1048576) by (apply Rle_trans with (bpow radix2 (-20)); [apply bpow_le; lia|simpl; lra]).
  assert (bpow radix2 (-53) = / 9007199254740992) by reflexivity. rewrite H0. simpl IZR in H. lra.
Qed.
