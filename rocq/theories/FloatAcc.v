(** * FloatAcc: how far binary64 arithmetic is from exact arithmetic. *)
From Coq Require Import ZArith Reals Bool List PeanoNat Lia Lra Psatz.
From Flocq Require Import Core Relative IEEE754.BinarySingleNaN.
From Verif Require Import Pandas FloatSim FloatFacts FloatInd FloatOrd FloatDec FloatRange FloatSpec.
Import ListNotations.
Open Scope R_scope.

(** x is a finite number within e of r *)
Definition ap (x : f64) (r e : R) : Prop := is_finite x = true /\ Rabs (RV x - r) <= e.
Lemma ulp53 : bpow radix2 (-53) = / 9007199254740992. Proof. reflexivity. Qed.
Lemma tiny : 0 <= bpow radix2 (-1075) <= / 1267650600228229401496703205376.
Proof. split; [apply bpow_ge_0|]. apply Rle_trans with (bpow radix2 (-100)); [apply bpow_le; lia|]. simpl. lra. Qed.
Lemma big_fz : exists z, is_finite z = true /\ RV z = 1267650600228229401496703205376.
Proof.
  destruct (fz_val2 1 100) as [F V]; [lia|lia|]. exists (fz 1 100). split; [exact F|]. rewrite V. simpl. lra.
Qed.
Lemma small_fz : exists z, is_finite z = true /\ RV z = -1267650600228229401496703205376.
Proof.
  destruct (fz_val2 (-1) 100) as [F V]; [lia|lia|]. exists (fz (-1) 100). split; [exact F|]. rewrite V. simpl. lra.
Qed.
(** one operation: the result r before rounding is within e of s and no larger than B *)
Lemma comes_ap r z s e B d : comes r z -> Rabs (r - s) <= e -> Rabs r <= B -> B <= 1267650600228229401496703205376 ->
  e + B / 9007199254740992 + / 1267650600228229401496703205376 <= d -> ap z s d.
Proof.
  intros C E HB M D. destruct big_fz as (hi & Fh & Vh). destruct small_fz as (lo & Fl & Vl).
  apply Rabs_le_inv in HB as HB'.
  edestruct (fun H => comes_fin lo hi _ _ Fl Fh H C) as (G1 & G2 & G3); [lra|].
  split; [exact G1|]. rewrite G2. pose proof (rnd_err r) as R. rewrite ulp53 in R. pose proof tiny as T.
  replace (rnd r - s) with ((rnd r - r) + (r - s)) by ring. eapply Rle_trans; [apply Rabs_triang|]. lra.
Qed.
Lemma ap_bound x r e B : ap x r e -> Rabs r + e <= B -> Rabs (RV x) <= B.
Proof. intros [_ H] L. replace (RV x) with ((RV x - r) + r) by ring. eapply Rle_trans; [apply Rabs_triang|]. lra. Qed.
Lemma ap_weaken x r e d : ap x r e -> e <= d -> ap x r d.
Proof. intros [F H] L. split; [exact F|lra]. Qed.
Lemma ap_sub x y r s e d B f : ap x r e -> ap y s d -> Rabs (r - s) + e + d <= B -> B <= 1267650600228229401496703205376 ->
  e + d + B / 9007199254740992 + / 1267650600228229401496703205376 <= f -> ap (fsub x y) (r - s) f.
Proof.
  intros [Fx Hx] [Fy Hy] HB M D.
  assert (E : Rabs (RV x - RV y - (r - s)) <= e + d).
  { replace (RV x - RV y - (r - s)) with ((RV x - r) + - (RV y - s)) by ring. eapply Rle_trans; [apply Rabs_triang|]. rewrite Rabs_Ropp. lra. }
  apply (comes_ap (RV x - RV y) _ _ (e + d) B); auto using fsub_comes.
  replace (RV x - RV y) with ((RV x - RV y - (r - s)) + (r - s)) by ring. eapply Rle_trans; [apply Rabs_triang|]. lra.
Qed.
Lemma ap_add x y r s e d B f : ap x r e -> ap y s d -> Rabs (r + s) + e + d <= B -> B <= 1267650600228229401496703205376 ->
  e + d + B / 9007199254740992 + / 1267650600228229401496703205376 <= f -> ap (fadd x y) (r + s) f.
Proof.
  intros [Fx Hx] [Fy Hy] HB M D.
  assert (E : Rabs (RV x + RV y - (r + s)) <= e + d).
  { replace (RV x + RV y - (r + s)) with ((RV x - r) + (RV y - s)) by ring. eapply Rle_trans; [apply Rabs_triang|]. lra. }
  apply (comes_ap (RV x + RV y) _ _ (e + d) B); auto using fadd_comes.
  replace (RV x + RV y) with ((RV x + RV y - (r + s)) + (r + s)) by ring. eapply Rle_trans; [apply Rabs_triang|]. lra.
Qed.
(** times a constant *)
Lemma ap_mul c v x r e B f : is_finite c = true -> RV c = v -> ap x r e -> Rabs v * (Rabs r + e) <= B -> B <= 1267650600228229401496703205376 ->
  Rabs v * e + B / 9007199254740992 + / 1267650600228229401496703205376 <= f -> ap (fmul c x) (v * r) f.
Proof.
  intros Fc Vc A HB M D. pose proof A as [Fx Hx].
  assert (V0 : 0 <= Rabs v) by apply Rabs_pos.
  assert (E : Rabs (v * RV x - v * r) <= Rabs v * e).
  { rewrite <- Rmult_minus_distr_l, Rabs_mult. apply Rmult_le_compat_l; auto. }
  apply (comes_ap (v * RV x) _ _ (Rabs v * e) B); auto.
  - rewrite <- Vc. apply fmul_comes; auto.
  - rewrite Rabs_mult. eapply Rle_trans; [|exact HB]. apply Rmult_le_compat_l; auto. apply (ap_bound _ _ _ _ A). lra.
Qed.
(** a quotient whose numerator is close to q times its denominator *)
Lemma ap_div x y q e g B f : is_finite x = true -> is_finite y = true -> 0 < g <= RV y -> Rabs (RV x - q * RV y) <= e * g ->
  Rabs q + e <= B -> B <= 1267650600228229401496703205376 ->
  e + B / 9007199254740992 + / 1267650600228229401496703205376 <= f -> ap (fdiv x y) q f.
Proof.
  intros Fx Fy [G1 G2] H HB M D. assert (N : RV y <> 0) by lra.
  assert (E : Rabs (RV x / RV y - q) <= e).
  { replace (RV x / RV y - q) with ((RV x - q * RV y) / RV y) by (field; exact N). unfold Rdiv. rewrite Rabs_mult, Rabs_inv, (Rabs_pos_eq (RV y)) by lra.
    apply Rmult_le_reg_r with (RV y); [lra|]. rewrite Rmult_assoc, Rinv_l, Rmult_1_r by exact N.
    assert (0 <= e). { apply Rmult_le_reg_r with g; [exact G1|]. rewrite Rmult_0_l. pose proof (Rabs_pos (RV x - q * RV y)). lra. }
    eapply Rle_trans; [exact H|]. apply Rmult_le_compat_l; auto. }
  apply (comes_ap (RV x / RV y) _ _ e B); auto using fdiv_comes.
  replace (RV x / RV y) with ((RV x / RV y - q) + q) by ring. eapply Rle_trans; [apply Rabs_triang|]. lra.
Qed.

(** ** decimals *)
Lemma dec4_decimal k : dec4 k = decimal k. Proof. reflexivity. Qed.
Lemma dec_ap k : (Z.abs k <= 2 ^ 50)%Z -> ap (dec4 k) (IZR k / 10000) (Rabs (IZR k / 10000) / 9007199254740992 + / 1267650600228229401496703205376).
Proof.
  intro S. rewrite dec4_decimal. destruct (decimal_val k S) as [F _]. split; [exact F|]. eapply Rle_trans; [apply decimal_err; exact S|]. rewrite ulp53. pose proof tiny. lra.
Qed.
(** prices as j ticks of t ten-thousandths *)
Definition unit (t : Z) : R := IZR t / 10000.
Lemma tick_ap t j : (1 <= t <= 2 ^ 20)%Z -> (Z.abs j <= 2 ^ 24)%Z ->
  ap (dec4 (t * j)) (unit t * IZR j) (unit t / 268435456) /\ Rabs (IZR j) <= 16777216 /\ / 10000 <= unit t <= 105.
Proof.
  intros T J. assert (J1 : Rabs (IZR j) <= 16777216) by (rewrite <- abs_IZR; apply (IZR_le _ (2 ^ 24)); exact J).
  assert (T1 : 1 <= IZR t <= 1048576) by (split; [apply (IZR_le 1)|apply (IZR_le _ (2 ^ 20))]; lia).
  split; [|split; [exact J1|unfold unit; lra]].
  eapply ap_weaken.
  - replace (unit t * IZR j) with (IZR (t * j) / 10000) by (rewrite mult_IZR; unfold unit; field). apply dec_ap. rewrite Z.abs_mul, (Z.abs_eq t) by lia. nia.
  - replace (IZR (t * j) / 10000) with (unit t * IZR j) by (rewrite mult_IZR; unfold unit; field).
    rewrite Rabs_mult, (Rabs_pos_eq (unit t)) by (unfold unit; lra).
    assert (unit t * Rabs (IZR j) <= unit t * 16777216) by (apply Rmult_le_compat_l; [unfold unit; lra|exact J1]). unfold unit in *. lra.
Qed.

(** ** rounding to four decimals *)
Definition tolerance : R := / 200000.
Lemma round_near y u : ap y u tolerance -> Rabs u <= 4294967296 ->
  exists m, (Z.abs m <= 2 ^ 50)%Z /\ is_finite (fround4 y) = true /\ RV (fround4 y) = RV (dec4 m) /\ Rabs (IZR m - 10000 * u) <= 3 / 5.
Proof.
  intros [F H] U. destruct ften4_val as [FT VT]. unfold fround4, tolerance in *.
  pose proof (fmul_comes y ften4 F FT) as C. rewrite VT in C.
  apply Rabs_le_inv in H. apply Rabs_le_inv in U.
  assert (A : ap (fmul y ften4) (10000 * u) (/ 20 + / 100)).
  { apply (comes_ap (RV y * 10000) _ (10000 * u) (/ 20) 43000000000000); [exact C| | |lra|lra]; apply Rabs_le; lra. }
  destruct A as [A E]. apply Rabs_le_inv in E.
  destruct (frint_fin _ A) as [A2 B2]. rewrite fix0 in B2. set (m := ZnearestE (RV (fmul y ften4))) in *.
  pose proof (Znearest_half (fun x => negb (Z.even x)) (RV (fmul y ften4))) as N. change (Znearest _ _) with m in N. apply Rabs_le_inv in N.
  assert (M : (Z.abs m <= 2 ^ 50)%Z).
  { apply le_IZR. rewrite abs_IZR. apply Rabs_le. change (IZR (2 ^ 50)) with 1125899906842624. lra. }
  exists m. split; [exact M|].
  destruct (fz_val (2 ^ 51)) as [FU VU]; [lia|]. destruct (fz_val (- 2 ^ 51)) as [FL VL]; [lia|].
  pose proof (fdiv_comes _ ften4 A2 FT ltac:(rewrite VT; lra)) as C2. rewrite B2, VT in C2.
  destruct (decimal_val m M) as [Fd Vd]. rewrite dec4_decimal, Vd.
  edestruct (fun H => comes_fin (fz (- 2 ^ 51) 0) (fz (2 ^ 51) 0) _ _ FL FU H C2) as (A3 & B3 & _).
  { rewrite VL, VU. simpl IZR. lra. }
  split; [exact A3|]. split; [exact B3|]. apply Rabs_le. lra.
Qed.
