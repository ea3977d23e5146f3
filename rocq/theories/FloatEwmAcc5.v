(** * FloatEwmAcc5: accuracy of Wilder's smoothing; averages stay among the prices. *)
From Coq Require Import ZArith QArith Qcanon Qreals Reals Bool List PeanoNat Lia Lra Psatz Permutation.
From Flocq Require Import Core Relative IEEE754.BinarySingleNaN.
From Verif Require Import Num NumFacts Pandas SeriesFacts FloatSim FloatFacts FloatExact FloatInd FloatOrd FloatDec FloatRange FloatRange2 RangeSpec ValueSpec FormulaSpec Starts FloatSpec FloatAccSpec FloatAcc FloatAcc2 FloatAcc3 FloatAcc5 FloatEwm FloatEwmSpec FloatEwmAcc FloatEwmAcc2 FloatEwmAcc3.
Import ListNotations.
Open Scope R_scope.

(** ** a sum in any order *)
Definition rsum (l : list f64) : R := fold_right (fun y a => RV y + a) 0 l.
Lemma rsum_app a b : rsum (a ++ b) = rsum a + rsum b.
Proof. unfold rsum. induction a as [|x a IH]; cbn [fold_right app]; [lra|]. rewrite IH. lra. Qed.
Lemma rsum_perm a b : Permutation a b -> rsum a = rsum b.
Proof. unfold rsum. induction 1; cbn [fold_right]; lra. Qed.
Lemma rsum_bound l B : (forall y, In y l -> Rabs (RV y) <= B) -> Rabs (rsum l) <= INR (length l) * B.
Proof.
  induction l as [|x l IH]; intro H; [cbn; rewrite Rabs_R0; lra|]. cbn [rsum fold_right length]. rewrite S_INR. fold (rsum l).
  specialize (IH (fun y I => H y (or_intror I))). specialize (H x (or_introl eq_refl)). eapply Rle_trans; [apply Rabs_triang|]. lra.
Qed.
Lemma added_ap B l x : / 10000 <= B <= 1000000000 -> added l x -> INR (length l) <= 2199023255552 ->
  (forall y, In y l -> is_finite y = true /\ Rabs (RV y) <= B) ->
  ap x (rsum l) (11 / 10 * (INR (length l) * INR (length l)) * (B * u)).
Proof.
  intros HB A. induction A as [|x|a b x y A1 I1 A2 I2|a b x Pm A1 I1]; intros L F.
  - cbn [length INR rsum fold_right]. split; [reflexivity|]. change (RV f0) with 0. rewrite Rminus_eq_0, Rabs_R0. lra.
  - destruct (F x (or_introl eq_refl)) as [Fx _]. cbn [rsum fold_right length]. rewrite Rplus_0_r. split; [exact Fx|]. rewrite Rminus_eq_0, Rabs_R0. cbn. nra.
  - rewrite app_length, plus_INR in *. pose proof (pos_INR (length a)) as Pa. pose proof (pos_INR (length b)) as Pb.
    assert (Fa : forall z, In z a -> is_finite z = true /\ Rabs (RV z) <= B) by (intros z I; apply F, in_or_app; auto).
    assert (Fb : forall z, In z b -> is_finite z = true /\ Rabs (RV z) <= B) by (intros z I; apply F, in_or_app; auto).
    specialize (I1 ltac:(lra) Fa). specialize (I2 ltac:(lra) Fb). rewrite rsum_app.
    pose proof (rsum_bound a B (fun z I => proj2 (Fa z I))) as Sa. pose proof (rsum_bound b B (fun z I => proj2 (Fb z I))) as Sb.
    destruct a as [|a0 a].
    { cbn [length INR] in I1. rewrite Rmult_0_l, Rmult_0_r, Rmult_0_l in I1. destruct I1 as [Fx Hx]. destruct I2 as [Fy Hy].
      assert (X0 : RV x = 0). { cbn in Hx. pose proof (Rabs_pos (RV x - 0)). apply Rabs_le_inv in Hx. lra. }
      pose proof (fadd_comes x y Fx Fy) as Cm. rewrite X0, Rplus_0_l in Cm. destruct (comes_fin y y _ _ Fy Fy (conj (Rle_refl _) (Rle_refl _)) Cm) as (G1 & G2 & _).
      split; [exact G1|]. rewrite G2, rnd_id. cbn [rsum fold_right length INR]. fold (rsum b). rewrite !Rplus_0_l. exact Hy. }
    destruct b as [|b0 b].
    { cbn [length INR] in I2. rewrite Rmult_0_l, Rmult_0_r, Rmult_0_l in I2. destruct I1 as [Fx Hx]. destruct I2 as [Fy Hy].
      assert (X0 : RV y = 0). { cbn in Hy. pose proof (Rabs_pos (RV y - 0)). apply Rabs_le_inv in Hy. lra. }
      pose proof (fadd_comes x y Fx Fy) as Cm. rewrite X0, Rplus_0_r in Cm. destruct (comes_fin x x _ _ Fx Fx (conj (Rle_refl _) (Rle_refl _)) Cm) as (G1 & G2 & _).
      split; [exact G1|]. rewrite G2, rnd_id. cbn [rsum fold_right length INR]. fold (rsum a). rewrite !Rplus_0_r. exact Hx. }
    assert (A1' : 1 <= INR (length (a0 :: a))) by (apply (le_INR 1); cbn; lia). assert (B1' : 1 <= INR (length (b0 :: b))) by (apply (le_INR 1); cbn; lia).
    set (na := INR (length (a0 :: a))) in *. set (nb := INR (length (b0 :: b))) in *. set (w := B * u) in *.
    change (Rabs (rsum (a0 :: a)) <= na * B) in Sa. change (Rabs (rsum (b0 :: b)) <= nb * B) in Sb.
    assert (W0 : 0 < w) by (unfold w; lra).
    assert (PA : 0 <= na * na * w <= na * (B / 4000)).
    { split; [nra|]. unfold w. replace (na * na * (B * u)) with (na * B * (na * u)) by ring. replace (na * (B / 4000)) with (na * B * / 4000) by field. apply Rmult_le_compat_l; [nra|lra]. }
    assert (PB : 0 <= nb * nb * w <= nb * (B / 4000)).
    { split; [nra|]. unfold w. replace (nb * nb * (B * u)) with (nb * B * (nb * u)) by ring. replace (nb * (B / 4000)) with (nb * B * / 4000) by field. apply Rmult_le_compat_l; [nra|lra]. }
    assert (AB : (na + nb) / 2 * w <= na * nb * w) by (apply Rmult_le_compat_r; nra).
    assert (NB : (na + nb) * B <= 5000000000000000000000) by nra.
    apply (ap_add _ _ _ _ _ _ ((na + nb) * B * (101 / 100)) _ I1 I2).
    + assert (Rabs (rsum (a0 :: a) + rsum (b0 :: b)) <= (na + nb) * B) by (eapply Rle_trans; [apply Rabs_triang|]; lra). lra.
    + lra.
    + replace ((na + nb) * B * (101 / 100) / 9007199254740992) with ((na + nb) * w * (101 / 100)) by (unfold w; field).
      assert (T1 : 1 * w <= (na + nb) * w) by (apply Rmult_le_compat_r; lra). assert (T2 : / 1267650600228229401496703205376 <= w / 1000) by (unfold w; lra).
      replace (11 / 10 * ((na + nb) * (na + nb)) * w) with (11 / 10 * (na * na) * w + 11 / 10 * (nb * nb) * w + 22 / 10 * (na * nb * w)) by field. lra.
  - rewrite <- (rsum_perm a b Pm). assert (E : length b = length a) by (symmetry; apply Permutation_length, Pm). rewrite E in *. apply I1; [exact L|]. intros y I. apply F. eapply Permutation_in; eauto.
Qed.

(** ** Wilder's smoothing *)
Section Wilder.
Variables (npsum : list f64 -> f64) (c : nat -> Z) (p n : nat).
Hypothesis (A : forall l, added l (npsum l)) (P : (0 < p)%nat) (N0 : (0 < n)%nat) (Mo : moderate p c n).
Notation C := (column 1 c n).
Notation g := (fun i => IZR (c i) / 10000).
Notation M := (M p).
Notation N := (INR p).
Lemma first_nth i : (i < p)%nat -> nth i (firstn p C) fnan = nth i C fnan.
Proof. intro I. apply nth_firstn. exact I. Qed.
Fixpoint rtotal (h : nat -> R) (j : nat) : R := match j with O => 0 | S i => rtotal h i + h i end.
Lemma rsum_first h d j : (j <= length C)%nat -> (forall i, (i < j)%nat -> Rabs (RV (nth i C fnan) - h i) <= d) -> Rabs (rsum (firstn j C) - rtotal h j) <= INR j * d.
Proof.
  induction j as [|j IH]; intros L H; [cbn; rewrite Rminus_0_r, Rabs_R0; lra|].
  assert (E : firstn (S j) C = firstn j C ++ [nth j C fnan]).
  { clear - L. revert L. generalize C. intro l. revert j. induction l as [|x l IH]; intros j L; [cbn in L; lia|]. destruct j as [|j]; [reflexivity|]. cbn [firstn app nth]. f_equal. apply IH. cbn in L. lia. }
  rewrite E, rsum_app, S_INR. cbn [rtotal]. specialize (IH ltac:(lia) ltac:(intros; apply H; lia)). specialize (H j ltac:(lia)).
  replace (_ - _) with ((rsum (firstn j C) - rtotal h j) + (RV (nth j C fnan) - h j)) by (unfold rsum; cbn [fold_right]; ring). eapply Rle_trans; [apply Rabs_triang|]. lra.
Qed.
Lemma rtotal_M h j : (forall i, (i < j)%nat -> Rabs (h i) <= M) -> Rabs (rtotal h j) <= INR j * M.
Proof.
  induction j as [|j IH]; intro H; [cbn; rewrite Rabs_R0; lra|]. rewrite S_INR. cbn [rtotal]. eapply Rle_trans; [apply Rabs_triang|].
  specialize (IH ltac:(intros; apply H; lia)). specialize (H j ltac:(lia)). lra.
Qed.
Lemma p_const : is_finite (fz (Z.of_nat p) 0) = true /\ RV (fz (Z.of_nat p) 0) = N.
Proof. pose proof (p_bound c p n P N0 Mo). destruct (fz_val (Z.of_nat p)) as [F V]; [lia|]. split; [exact F|]. rewrite V, <- INR_IZR_INZ. reflexivity. Qed.
Lemma seed_ap : (p <= n)%nat -> ap (fmean npsum (firstn p C)) (rtotal g p / N) (4 * kap) /\ Rabs (rtotal g p / N) <= M.
Proof.
  intro L. destruct (sizes c p n P N0 Mo) as ([Ma Mb] & E & N1 & N2).
  assert (FC : forall y, In y (firstn p C) -> is_finite y = true /\ Rabs (RV y) <= M * (101 / 100)).
  { intros y I. apply (In_nth _ _ fnan) in I. destruct I as (i & I & <-). rewrite firstn_length, column_length in I. rewrite first_nth by lia.
    pose proof (price_ap c p n P N0 Mo i ltac:(lia)) as X. split; [apply X|]. apply (ap_bound _ _ _ _ X). pose proof (price_M c p n P N0 Mo i ltac:(lia)). cbv beta in *. lra. }
  assert (V : filter (fun x => negb (is_nan x)) (firstn p C) = firstn p C).
  { revert FC. generalize (firstn p C). intro l. induction l as [|x l IH]; intro FC; [reflexivity|]. cbn [filter]. destruct (FC x (or_introl eq_refl)) as [F _].
    rewrite (fin_not_nan x F). cbn [negb]. f_equal. apply IH. intros y I. apply FC. right. exact I. }
  assert (Len : length (firstn p C) = p) by (rewrite firstn_length, column_length; lia).
  assert (FM : fmean npsum (firstn p C) = fdiv (npsum (firstn p C)) (fz (Z.of_nat p) 0)).
  { unfold fmean. rewrite V. cbv zeta. change (fdiv (npsum (firstn p C)) (fz (Z.of_nat (length (firstn p C))) 0) = fdiv (npsum (firstn p C)) (fz (Z.of_nat p) 0)). rewrite Len. reflexivity. }
  rewrite FM.
  pose proof (added_ap (M * (101 / 100)) _ _ ltac:(lra) (A (firstn p C)) ltac:(rewrite Len; lra) FC) as S. rewrite Len in S.
  pose proof (rsum_first g kap p ltac:(rewrite column_length; exact L) ltac:(intros i I; apply (price_ap c p n P N0 Mo i ltac:(lia)))) as D.
  pose proof (rtotal_M g p ltac:(intros i I; apply (price_M c p n P N0 Mo i ltac:(lia)))) as B.
  assert (NM : N * M <= K0) by lra.
  assert (Q : 11 / 10 * (N * N) * (M * (101 / 100) * u) <= 12 / 10 * (N * kap)).
  { replace (11 / 10 * (N * N) * (M * (101 / 100) * u)) with (1111 / 1000 * (N * (N * M)) * u) by field. assert (N * (N * M) <= N * K0) by (apply Rmult_le_compat_l; lra). lra. }
  assert (X : ap (npsum (firstn p C)) (rtotal g p) (23 / 10 * (N * kap))).
  { destruct S as [F H]. split; [exact F|]. replace (RV (npsum (firstn p C)) - rtotal g p) with ((RV (npsum (firstn p C)) - rsum (firstn p C)) + (rsum (firstn p C) - rtotal g p)) by ring.
    eapply Rle_trans; [apply Rabs_triang|]. assert (0 <= N * kap) by (apply Rmult_le_pos; lra). lra. }
  destruct p_const as [Fp Vp].
  assert (B' : Rabs (rtotal g p) / N <= M).
  { apply Rmult_le_reg_r with N; [lra|]. unfold Rdiv. rewrite Rmult_assoc, Rinv_l by lra. lra. }
  assert (B2 : Rabs (rtotal g p / N) <= M) by (unfold Rdiv; rewrite Rabs_mult, Rabs_inv, (Rabs_pos_eq N) by lra; exact B').
  split; [|exact B2]. assert (R : 23 / 10 * (N * kap) / N = 23 / 10 * kap) by (field; lra).
  apply (ap_divc _ _ _ _ _ (M * (101 / 100)) _ Fp Vp ltac:(lra) X); rewrite ?R; lra.
Qed.
Fixpoint wline (h : nat -> R) (s : R) (j : nat) : R := match j with O => s | S i => wline h s i + (h (p + i)%nat - wline h s i) / N end.
Lemma smooth_step w x r y e d : ap w r e -> ap x y d -> Rabs r <= M -> Rabs y <= M -> e <= M / 50 -> d <= M / 50 ->
  ap (fadd w (fdiv (fsub x w) (fz (Z.of_nat p) 0))) (r + (y - r) / N) (e - (e - d) / N + 6 * M * u).
Proof.
  intros Hw Hx Br By Be Bd. destruct (sizes c p n P N0 Mo) as ([Ma Mb] & E & N1 & N2). destruct p_const as [Fp Vp].
  pose proof (ap_bound _ _ _ (M * (51 / 50)) Hw ltac:(lra)) as Bw. pose proof (ap_bound _ _ _ (M * (51 / 50)) Hx ltac:(lra)) as Bx. destruct Hw as [Fw Hw], Hx as [Fx Hx].
  assert (I : 0 < / N <= 1) by (split; [apply Rinv_0_lt_compat; lra|]; rewrite <- Rinv_1; apply Rinv_le_contravar; lra).
  set (W := RV w) in *. set (X := RV x) in *. apply Rabs_le_inv in Bw as Bw'. apply Rabs_le_inv in Bx as Bx'.
  assert (D1 : ap (fsub x w) (X - W) (21 / 10 * M * u)).
  { apply (ap_sub _ _ _ _ 0 0 (M * (102 / 50)) _ (ap_exact x X Fx eq_refl) (ap_exact w W Fw eq_refl)); try lra. assert (Rabs (X - W) <= M * (102 / 50)) by (apply Rabs_le; lra). lra. }
  assert (XW : Rabs (X - W) / N <= M * (102 / 50)).
  { assert (Rabs (X - W) <= M * (102 / 50)) by (apply Rabs_le; lra). assert (Rabs (X - W) * / N <= M * (102 / 50) * 1) by (apply Rmult_le_compat; try apply Rabs_pos; lra). unfold Rdiv at 1. lra. }
  assert (DN : 21 / 10 * M * u / N <= 21 / 10 * M * u).
  { assert (21 / 10 * M * u * / N <= 21 / 10 * M * u * 1) by (apply Rmult_le_compat_l; lra). unfold Rdiv at 1. lra. }
  assert (D2 : ap (fdiv (fsub x w) (fz (Z.of_nat p) 0)) ((X - W) / N) (43 / 10 * M * u)).
  { apply (ap_divc _ _ _ _ _ (M * (105 / 50)) _ Fp Vp ltac:(lra) D1); lra. }
  assert (Cx : W + (X - W) / N = (1 - / N) * W + / N * X) by (field; lra).
  assert (Bc : Rabs ((1 - / N) * W + / N * X) <= M * (51 / 50)).
  { eapply Rle_trans; [apply Rabs_triang|]. rewrite !Rabs_mult, (Rabs_pos_eq (/ N)), (Rabs_pos_eq (1 - / N)) by lra.
    assert ((1 - / N) * Rabs W <= (1 - / N) * (M * (51 / 50))) by (apply Rmult_le_compat_l; lra). assert (/ N * Rabs X <= / N * (M * (51 / 50))) by (apply Rmult_le_compat_l; lra). lra. }
  assert (D3 : ap (fadd w (fdiv (fsub x w) (fz (Z.of_nat p) 0))) (W + (X - W) / N) (6 * M * u)).
  { apply (ap_add _ _ _ _ _ _ (M * (11 / 10)) _ (ap_exact w W Fw eq_refl) D2); try lra. rewrite Cx. lra. }
  destruct D3 as [F3 H3]. split; [exact F3|].
  replace (RV (fadd w (fdiv (fsub x w) (fz (Z.of_nat p) 0))) - (r + (y - r) / N)) with
    ((RV (fadd w (fdiv (fsub x w) (fz (Z.of_nat p) 0))) - (W + (X - W) / N)) + ((1 - / N) * (W - r) + / N * (X - y))) by (field; lra).
  eapply Rle_trans; [apply Rabs_triang|]. pose proof (Rabs_triang ((1 - / N) * (W - r)) (/ N * (X - y))) as TR.
  rewrite !Rabs_mult, (Rabs_pos_eq (/ N)), (Rabs_pos_eq (1 - / N)) in TR by lra.
  assert ((1 - / N) * Rabs (W - r) <= (1 - / N) * e) by (apply Rmult_le_compat_l; lra). assert (/ N * Rabs (X - y) <= / N * d) by (apply Rmult_le_compat_l; lra).
  unfold Rdiv in *. lra.
Qed.
Lemma smooth_ap j : (p + j <= n)%nat -> ap (fws_line npsum p j C) (wline g (rtotal g p / N) j) (13 * kap) /\ Rabs (wline g (rtotal g p / N) j) <= M.
Proof.
  destruct (sizes c p n P N0 Mo) as ([Ma Mb] & E & N1 & N2). induction j as [|j IH]; intro L.
  - destruct (seed_ap ltac:(lia)) as [S B]. split; [|exact B]. eapply ap_weaken; [exact S|]. lra.
  - destruct (IH ltac:(lia)) as [A1 B1]. cbn [fws_line wline].
    pose proof (price_ap c p n P N0 Mo (p + j) ltac:(lia)) as A2. pose proof (price_M c p n P N0 Mo (p + j) ltac:(lia)) as B2. cbv beta in A2, B2. cbv beta.
    pose proof (smooth_step _ _ _ _ _ _ A1 A2 B1 B2 ltac:(lra) ltac:(lra)) as X. split.
    + eapply ap_weaken; [exact X|]. assert (NM : N * M <= K0) by lra.
      assert (Q : 6 * M * u <= (13 * kap - kap) / N). { apply Rmult_le_reg_r with N; [lra|]. unfold Rdiv. rewrite (Rmult_assoc (13 * kap - kap)), Rinv_l by lra. lra. }
      lra.
    + set (w := wline g (rtotal g p / N) j) in *. assert (I : 0 < / N <= 1) by (split; [apply Rinv_0_lt_compat; lra|]; rewrite <- Rinv_1; apply Rinv_le_contravar; lra).
      replace (w + (IZR (c (p + j)%nat) / 10000 - w) / N) with ((1 - / N) * w + / N * (IZR (c (p + j)%nat) / 10000)) by (field; lra).
      eapply Rle_trans; [apply Rabs_triang|]. rewrite !Rabs_mult, (Rabs_pos_eq (/ N)), (Rabs_pos_eq (1 - / N)) by lra.
      assert ((1 - / N) * Rabs w <= (1 - / N) * M) by (apply Rmult_le_compat_l; lra). assert (/ N * Rabs (IZR (c (p + j)%nat) / 10000) <= / N * M) by (apply Rmult_le_compat_l; lra). lra.
Qed.
Lemma real_total f j : real (total f j) = rtotal (fun i => real (f i)) j.
Proof. induction j as [|j IH]; [apply real_0|]. cbn [total rtotal]. rewrite real_add, IH. reflexivity. Qed.
Lemma rtotal_ext h h' j : (forall i, h i = h' i) -> rtotal h j = rtotal h' j.
Proof. intro X. induction j as [|j IH]; [reflexivity|]. cbn [rtotal]. rewrite IH, X. reflexivity. Qed.
Lemma nq_pos : nq p <> 0%Qc.
Proof. apply real_neq. rewrite real_nq. apply not_0_INR. lia. Qed.
Lemma real_seed : real (mean_last (prices 1 c) p (p - 1)) = rtotal g p / N.
Proof.
  unfold mean_last, sum_last. rewrite real_div, real_total, real_nq by apply nq_pos. f_equal. apply rtotal_ext. intro i. rewrite real_price. replace (S (p - 1) - p + i)%nat with i by lia. reflexivity.
Qed.
Lemma real_run j : real (run (wilders p) (mean_last (prices 1 c) p (p - 1)) (fun i => prices 1 c (p - 1 + i)%nat) j) = wline g (rtotal g p / N) j.
Proof.
  induction j as [|j IH]; [apply real_seed|]. cbn [run wline]. unfold wilders at 1. rewrite real_add, real_div, real_sub, real_nq, IH, real_price by apply nq_pos.
  replace (p - 1 + S j)%nat with (p + j)%nat by lia. reflexivity.
Qed.
Lemma fws_tracks k : (k < n)%nat -> tracks (fws npsum p C k) (from (p - 1) k (Fin (run_from (p - 1) (wilders p) (mean_last (prices 1 c) p (p - 1)) (prices 1 c) k))).
Proof.
  intro K. unfold fws. destruct (Nat.ltb_spec (S k) p); [rewrite from_early by lia; reflexivity|]. rewrite from_late by lia.
  destruct (sizes c p n P N0 Mo) as ([Ma Mb] & _). destruct (smooth_ap (S k - p) ltac:(lia)) as [X B]. unfold run_from. rewrite <- real_run in X, B.
  replace (k - (p - 1))%nat with (S k - p)%nat by lia. apply tracks_round; [|lra]. eapply ap_weaken; [exact X|]. unfold tolerance. lra.
Qed.
End Wilder.
