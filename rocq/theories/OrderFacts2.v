(** * OrderFacts2: the pieces of particular indicators when the last price is higher. *)
From Coq Require Import ZArith QArith Qcanon Bool List String PeanoNat Lia.
From Verif Require Import Num NumFacts RoundFacts Pandas Frame Ind SeriesFacts Lengths Cells RangeSpec RangeFacts RangeMore Signal Api ApiSpec IndSpec ValueSpec ValueFacts ValueMore Recur FormulaSpec Starts Formula Formula2 Formula3 Line MirrorSpec OrderSpec OrderFacts.
Import ListNotations.
Open Scope list_scope. Open Scope Qc_scope.

Lemma ratio_cross a b a' b' : 0 <= b -> 0 <= b' -> (b = 0 -> a = 0) -> (b' = 0 -> a' = 0) -> a * b' <= a' * b -> present_le (ratio a b) (ratio a' b').
Proof.
  intros B B' Z Z' H. unfold ratio, ndiv. destruct (qeqb b 0) eqn:X.
  - apply qeqb_iff in X. rewrite (Z X). left. reflexivity.
  - destruct (qeqb b' 0) eqn:Y.
    + apply qeqb_iff in Y. rewrite (Z' Y). right. left. reflexivity.
    + apply qeqb_false in X. apply qeqb_false in Y. apply ple_fin, cross_le; [apply qc_nonneg_neq0_pos; auto|apply qc_nonneg_neq0_pos; auto|exact H].
Qed.

(** ** the distance from the mean *)
Section Distance.
  Variables (p : nat) (t : nat -> Qc).
  Hypothesis P : (1 <= p)%nat.
  Let m := total t p / nq p.
  Definition low_side := total (fun j => above0 (m - t j)) p.
  Definition high_side := total (fun j => above0 (t j - m)) p.
  Lemma sides_sum : total (fun j => abs (m - t j)) p = low_side + high_side.
  Proof.
    unfold low_side, high_side. rewrite <- total_add. apply total_ext. intros j _. rewrite abs_parts. f_equal. f_equal. ring.
  Qed.
  Lemma sides_same : low_side = high_side.
  Proof.
    assert (Z : total (fun j => m - t j) p = 0).
    { rewrite (total_ext _ (fun j => m + (- (1)) * t j)) by (intros; ring). rewrite total_add, total_const, total_mul. unfold m. field. apply qc_pos_neq0, nq_pos. lia. }
    rewrite (total_ext _ (fun j => above0 (m - t j) + (- (1)) * above0 (t j - m))) in Z.
    - rewrite total_add, total_mul in Z. unfold low_side, high_side. rewrite <- (Qcplus_0_r (total (fun j => above0 (t j - m)) p)), <- Z. ring.
    - intros j _. rewrite (self_parts (m - t j)) at 1. replace (- (m - t j)) with (t j - m) by ring. ring.
  Qed.
End Distance.
Section Closer.
  Variables (q : nat) (t t' : nat -> Qc).
  Hypothesis S : forall j, (j < q)%nat -> t' j = t j.
  Hypothesis R : t q <= t' q.
  Let p := Datatypes.S q.
  Let m := total t p / nq p. Let m' := total t' p / nq p.
  Let e := (t' q - t q) / nq p.
  Let PQ : 0 < nq p := nq_pos p (Nat.lt_0_succ q).
  Lemma step_nonneg : 0 <= e. Proof. apply div_nonneg; [exact PQ|]. qlra. Qed.
  Lemma mean_step : m' = m + e.
  Proof.
    unfold m, m', e, p. cbn [total]. rewrite (total_ext t' t) by exact S. field. apply qc_pos_neq0. exact PQ.
  Qed.
  Lemma own_step : t' q - m' = (t q - m) + nq q * e.
  Proof.
    rewrite mean_step. assert (X : t' q = t q + nq p * e) by (unfold e; field; apply qc_pos_neq0; exact PQ). rewrite X. unfold p. rewrite nq_S. ring.
  Qed.
  Lemma low_step : total (fun j => above0 (m' - t' j)) q <= total (fun j => above0 (m - t j)) q + nq q * e.
  Proof.
    rewrite <- total_const, <- total_add. apply total_le. intros j J. rewrite (S j J), mean_step. replace (m + e - t j) with (m - t j + e) by ring. apply above_add, step_nonneg.
  Qed.
  Lemma high_step : total (fun j => above0 (t j - m)) q <= total (fun j => above0 (t' j - m')) q + nq q * e.
  Proof.
    rewrite <- total_const, <- total_add. apply total_le. intros j J. rewrite (S j J), mean_step. replace (t j - m) with (t j - (m + e) + e) by ring. apply above_add, step_nonneg.
  Qed.
  Lemma above_0 a : a <= 0 -> above0 a = 0.
  Proof. intro H. unfold above0. destruct (qltb_spec 0 a); [exfalso; apply (Qclt_not_le _ _ q0); exact H|reflexivity]. Qed.
  Lemma above_self a : a <= above0 a. Proof. unfold above0. destruct (qltb_spec 0 a); [apply Qcle_refl|apply Qcnot_lt_le; exact n]. Qed.
  Lemma side_nonneg f n : 0 <= total (fun j => above0 (f j)) n. Proof. apply total_nonneg. intros. apply above_nonneg. Qed.
  Lemma closer : let D := total (fun j => abs (m - t j)) p in let D' := total (fun j => abs (m' - t' j)) p in
    0 <= D /\ 0 <= D' /\ (D = 0 -> t q - m = 0) /\ (D' = 0 -> t' q - m' = 0) /\ (t q - m) * D' <= (t' q - m') * D.
  Proof.
    intros D D'. assert (P1 : (1 <= p)%nat) by (unfold p; lia).
    pose proof (sides_sum p t) as E. pose proof (sides_sum p t') as E'. pose proof (sides_same p t P1) as Q. pose proof (sides_same p t' P1) as Q'.
    fold m in E. fold m' in E'. fold D in E. fold D' in E'.
    pose proof step_nonneg as EN. pose proof own_step as OS. pose proof low_step as LS. pose proof high_step as HS.
    set (x := t q - m) in *. set (x' := t' q - m') in *.
    assert (LX : low_side p t = total (fun j => above0 (m - t j)) q + above0 (- x)).
    { unfold low_side. fold m. unfold p at 1. cbn [total]. f_equal. f_equal. unfold x. ring. }
    assert (HX : high_side p t = total (fun j => above0 (t j - m)) q + above0 x) by reflexivity.
    assert (LX' : low_side p t' = total (fun j => above0 (m' - t' j)) q + above0 (- x')).
    { unfold low_side. fold m'. unfold p at 1. cbn [total]. f_equal. f_equal. unfold x'. ring. }
    assert (HX' : high_side p t' = total (fun j => above0 (t' j - m')) q + above0 x') by reflexivity.
    assert (NQ : 0 <= nq q * e). { pose proof (qnat_nonneg q) as Z. change (qnat q) with (nq q) in Z. pose proof (mul_le _ _ _ Z EN) as Z1. replace (nq q * 0) with 0 in Z1 by ring. exact Z1. }
    pose proof (side_nonneg (fun j => m - t j) q) as N1. pose proof (side_nonneg (fun j => t j - m) q) as N2. pose proof (side_nonneg (fun j => m' - t' j) q) as N3. pose proof (side_nonneg (fun j => t' j - m') q) as N4.
    pose proof (above_nonneg x) as B1. pose proof (above_nonneg (- x)) as B2. pose proof (above_nonneg x') as B3. pose proof (above_nonneg (- x')) as B4.
    pose proof (above_self x) as A1. pose proof (above_self (- x)) as A2. pose proof (above_self x') as A3. pose proof (above_self (- x')) as A4.
    cbv beta in N1, N2, N3, N4.
    set (l0 := total (fun j => above0 (m - t j)) q) in *. set (h0 := total (fun j => above0 (t j - m)) q) in *.
    set (l1 := total (fun j => above0 (m' - t' j)) q) in *. set (h1 := total (fun j => above0 (t' j - m')) q) in *.
    set (L := low_side p t) in *. set (H := high_side p t) in *. set (L' := low_side p t') in *. set (H' := high_side p t') in *.
    clearbody l0 h0 l1 h1 L H L' H' D D' x x'. set (g := nq q * e) in *. clearbody g.
    split; [qlra|]. split; [qlra|].
    split; [intro Z; apply Qcle_antisym; qlra|]. split; [intro Z; apply Qcle_antisym; qlra|].
    destruct (Qclt_le_dec x 0) as [X|X].
    - destruct (Qclt_le_dec x' 0) as [X'|X'].
      + (* both below *) pose proof (above_0 x (Qclt_le_weak _ _ X)) as Z1. pose proof (above_0 x' (Qclt_le_weak _ _ X')) as Z2.
        assert (ED : D = h0 + h0) by qlra. assert (ED' : D' = h1 + h1) by qlra. rewrite ED, ED'.
        assert (K1 : (- x') * h0 <= (- x') * (h1 + g)) by (apply mul_le; [qlra|qlra]).
        assert (K2 : g * (- x') <= g * h1) by (apply mul_le; [qlra|qlra]).
        clear - K1 K2 OS. subst x'.
        replace (x * (h1 + h1)) with (x * h1 + x * h1) by ring. replace ((x + g) * (h0 + h0)) with (x * h0 + x * h0 + g * h0 + g * h0) by ring.
        replace (- (x + g) * h0) with (- (x * h0) - g * h0) in K1 by ring. replace (- (x + g) * (h1 + g)) with (- (x * h1) - g * h1 - x * g - g * g) in K1 by ring.
        replace (g * - (x + g)) with (- (x * g) - g * g) in K2 by ring. qlra.
      + assert (K1 : 0 <= (- x) * D') by (replace 0 with ((- x) * 0) by ring; apply mul_le; qlra). assert (K2 : 0 <= x' * D) by (replace 0 with (x' * 0) by ring; apply mul_le; qlra).
        replace (- x * D') with (- (x * D')) in K1 by ring. qlra.
    - assert (X' : 0 <= x') by qlra. assert (Z1 : above0 (- x) = 0) by (apply above_0; qlra). assert (Z2 : above0 (- x') = 0) by (apply above_0; qlra).
      assert (ED : D = l0 + l0) by qlra. assert (ED' : D' = l1 + l1) by qlra. rewrite ED, ED'.
      assert (K1 : x * l1 <= x * (l0 + g)) by (apply mul_le; [qlra|qlra]).
      assert (K2 : g * x <= g * l0) by (apply mul_le; [qlra|qlra]).
      clear - K1 K2 OS. subst x'.
      replace (x * (l1 + l1)) with (x * l1 + x * l1) by ring. replace ((x + g) * (l0 + l0)) with (x * l0 + x * l0 + g * l0 + g * l0) by ring.
      replace (x * (l0 + g)) with (x * l0 + x * g) in K1 by ring. replace (g * x) with (x * g) in K2 by ring. qlra.
  Qed.
End Closer.

(** ** straight lines *)
Section Steeper.
  Variables (q : nat) (y y' : nat -> Qc).
  Hypothesis S : forall j, (j < q)%nat -> y' j = y j.
  Hypothesis R : y q <= y' q.
  Hypothesis Q1 : (1 <= q)%nat.
  Let p := Datatypes.S q.
  Let d := y' q - y q.
  Lemma total_up : total y' p = total y p + d.
  Proof. unfold p, d. cbn [total]. rewrite (total_ext y' y) by exact S. ring. Qed.
  Lemma moment_up : total (fun i => nq i * y' i) p = total (fun i => nq i * y i) p + nq q * d.
  Proof. unfold p, d. cbn [total]. rewrite (total_ext (fun i => nq i * y' i) (fun i => nq i * y i)) by (intros j J; rewrite S by exact J; reflexivity). ring. Qed.
  Lemma index_sum : total nq p = nq p * nq q / zq 2.
  Proof. pose proof (sum_i p) as E. replace (nq p - 1) with (nq q) in E by (unfold p; rewrite nq_S; ring). rewrite <- E. field. discriminate. Qed.
  Lemma slope_up : exists w, 0 <= w /\ fit_slope y' p = fit_slope y p + w.
  Proof.
    exists ((nq p * nq q * d - total nq p * d) / (nq p * total (fun i => nq i * nq i) p - total nq p * total nq p)).
    assert (B : 0 < nq p * total (fun i => nq i * nq i) p - total nq p * total nq p) by (apply spread_pos; unfold p; lia). split.
    - apply div_nonneg; [exact B|]. rewrite index_sum. replace (nq p * nq q * d - nq p * nq q / zq 2 * d) with (nq p * nq q * d / zq 2) by (change (zq 2) with (1 + 1); field; discriminate).
      apply div_nonneg; [reflexivity|]. assert (D0 : 0 <= d) by (unfold d; qlra). pose proof (nq_pos p ltac:(unfold p; lia)) as X. pose proof (nq_pos q ltac:(lia)) as X2.
      assert (0 <= nq p * nq q) by qnra. pose proof (mul_le _ _ _ H D0) as Z. replace (nq p * nq q * 0) with 0 in Z by ring. exact Z.
    - unfold fit_slope. rewrite total_up, moment_up. generalize dependent (nq p * total (fun i => nq i * nq i) p - total nq p * total nq p). intros B H. field. apply qc_pos_neq0. exact H.
  Qed.
  Lemma end_up : fit_start y p + fit_slope y p * nq (p - 1) <= fit_start y' p + fit_slope y' p * nq (p - 1).
  Proof.
    destruct slope_up as (w & W & EW). unfold fit_start. rewrite EW, total_up, index_sum. replace (p - 1)%nat with q by (unfold p; lia).
    assert (X : 0 < nq p) by (apply nq_pos; unfold p; lia). assert (X2 : 0 < nq q) by (apply nq_pos; lia). assert (D0 : 0 <= d) by (unfold d; qlra).
    assert (E : (total y p + d - (fit_slope y p + w) * (nq p * nq q / zq 2)) / nq p + (fit_slope y p + w) * nq q =
      ((total y p - fit_slope y p * (nq p * nq q / zq 2)) / nq p + fit_slope y p * nq q) + (d / nq p + w * nq q / zq 2)).
    { change (zq 2) with (1 + 1). field. split; [discriminate|apply qc_pos_neq0; exact X]. }
    rewrite E. assert (A : 0 <= d / nq p) by (apply div_nonneg; auto). assert (B : 0 <= w * nq q / zq 2) by (apply div_nonneg; [reflexivity|qnra]). qlra.
  Qed.
End Steeper.
Section Lines.
  Variables (k : nat) (c d : nat -> Qc).
  Hypothesis O : only k c d.
  Lemma slope_last_le p : (2 <= p)%nat -> (p <= S k)%nat -> slope_last c p k <= slope_last d p k.
  Proof.
    intros P K. destruct p as [|q]; [lia|]. unfold slope_last.
    destruct (slope_up q (last_rows c (S q) k) (last_rows d (S q) k)) as (w & W & E).
    - intros j J. unfold last_rows. apply (proj1 O). lia.
    - unfold last_rows. apply (only_le k c d O).
    - lia.
    - rewrite E. qlra.
  Qed.
  Lemma end_last_le p : (2 <= p)%nat -> (p <= S k)%nat -> end_last c p k <= end_last d p k.
  Proof.
    intros P K. destruct p as [|q]; [lia|]. unfold end_last, slope_last. apply end_up; [intros j J; unfold last_rows; apply (proj1 O); lia|unfold last_rows; apply (only_le k c d O)|lia].
  Qed.
  Lemma forecast_le p : (2 <= p)%nat -> (p <= S k)%nat -> forecast c p k <= forecast d p k.
  Proof. intros P K. unfold forecast. pose proof (r4_le _ _ (slope_last_le p P K)). pose proof (r4_le _ _ (end_last_le p P K)). qlra. Qed.
End Lines.

(** ** averages of averages *)
Lemma mul_nonneg a b : 0 <= a -> 0 <= b -> 0 <= a * b.
Proof. intros A B. pose proof (mul_le a _ _ A B) as H. replace (a * 0) with 0 in H by ring. exact H. Qed.
Lemma ema_same_rows a p f g n : (forall j, (j <= n)%nat -> g (a + j)%nat = f (a + j)%nat) -> ema (span p) (fun j => g (a + j)%nat) n = ema (span p) (fun j => f (a + j)%nat) n.
Proof. induction n as [|n IH]; intro H; cbn [ema]; [apply H; lia|]. rewrite IH by (intros; apply H; lia). rewrite H by lia. reflexivity. Qed.
(** the weight of the last value *)
Lemma last_weight a p k : (1 <= p)%nat -> exists w, 0 < w /\ w <= 1 /\
  forall f g, (a <= k)%nat -> (forall j, (a <= j < k)%nat -> g j = f j) -> ema_from a p g k = ema_from a p f k + w * (g k - f k).
Proof.
  intro P. destruct (span_01 p P) as [X Y]. destruct (Nat.lt_ge_cases a k) as [A|A].
  - exists (span p). split; [exact X|]. split; [exact Y|]. intros f g _ SM. unfold ema_from. destruct (k - a)%nat as [|m] eqn:M; [lia|]. cbn [ema].
    replace (a + S m)%nat with k by lia. rewrite (ema_same_rows a p f g m) by (intros; apply SM; lia). ring.
  - exists 1. split; [reflexivity|]. split; [discriminate|]. intros f g A' _. assert (a = k) by lia. subst a. unfold ema_from. rewrite Nat.sub_diag. cbn [ema]. rewrite Nat.add_0_r. ring.
Qed.
Lemma ema_from_same a p f g k : (a <= k)%nat -> (forall j, (a <= j <= k)%nat -> g j = f j) -> ema_from a p g k = ema_from a p f k.
Proof. intros K S. apply ema_same_rows. intros. apply S. lia. Qed.
Lemma double_le k c d p : only k c d -> (1 <= p)%nat -> (2 * (p - 1) <= k)%nat ->
  let e := ema_from 0 p in let e2 x := ema_from (p - 1) p (e x) in zq 2 * e c k - e2 c k <= zq 2 * e d k - e2 d k.
Proof.
  intros O P K e e2. assert (G : 0 <= d k - c k) by (pose proof (only_le k c d O k); qlra).
  destruct (last_weight 0 p k P) as (w & W0 & W1 & E). specialize (E c d ltac:(lia) ltac:(intros; apply (proj1 O); lia)). fold e in E.
  assert (B : forall j, (j < k)%nat -> e d j = e c j) by (intros j J; apply ema_from_same; [lia|]; intros; apply (proj1 O); lia).
  destruct (last_weight (p - 1) p k P) as (u & U0 & U1 & E2). specialize (E2 (e c) (e d) ltac:(lia) ltac:(intros; apply B; lia)).
  assert (X : e2 d k = e2 c k + u * (e d k - e c k)) by exact E2. rewrite X, E. pose proof (mul_nonneg w (d k - c k) (Qclt_le_weak _ _ W0) G) as N.
  set (g := w * (d k - c k)) in *. assert (H : 0 <= (zq 2 - u) * g) by (apply mul_nonneg; [apply Qcle_trans with (zq 2 - 1); [discriminate|qlra]|exact N]).
  replace (zq 2 * (e c k + g) - (e2 c k + u * (e c k + g - e c k))) with (zq 2 * e c k - e2 c k + (zq 2 - u) * g) by ring. qlra.
Qed.
Lemma triple_le k c d p : only k c d -> (1 <= p)%nat -> (3 * (p - 1) <= k)%nat ->
  let e := ema_from 0 p in let e2 x := ema_from (p - 1) p (e x) in let e3 x := ema_from (2 * (p - 1)) p (e2 x) in
  zq 3 * e c k - zq 3 * e2 c k + e3 c k <= zq 3 * e d k - zq 3 * e2 d k + e3 d k.
Proof.
  intros O P K e e2 e3. assert (G : 0 <= d k - c k) by (pose proof (only_le k c d O k); qlra).
  destruct (last_weight 0 p k P) as (w & W0 & W1 & E). specialize (E c d ltac:(lia) ltac:(intros; apply (proj1 O); lia)). fold e in E.
  assert (B : forall j, (j < k)%nat -> e d j = e c j) by (intros j J; apply ema_from_same; [lia|]; intros; apply (proj1 O); lia).
  destruct (last_weight (p - 1) p k P) as (u & U0 & U1 & E2). specialize (E2 (e c) (e d) ltac:(lia) ltac:(intros; apply B; lia)).
  assert (X : e2 d k = e2 c k + u * (e d k - e c k)) by exact E2.
  assert (B2 : forall j, (p - 1 <= j < k)%nat -> e2 d j = e2 c j) by (intros j J; apply ema_from_same; [lia|]; intros; apply B; lia).
  destruct (last_weight (2 * (p - 1)) p k P) as (t & T0 & T1 & E3). specialize (E3 (e2 c) (e2 d) ltac:(lia) ltac:(intros; apply B2; lia)).
  assert (Y : e3 d k = e3 c k + t * (e2 d k - e2 c k)) by exact E3. rewrite Y, X, E.
  pose proof (mul_nonneg w (d k - c k) (Qclt_le_weak _ _ W0) G) as N. set (g := w * (d k - c k)) in *.
  assert (H : 0 <= zq 3 * (1 - u) * g) by (apply mul_nonneg; [apply mul_nonneg; [discriminate|qlra]|exact N]).
  assert (H2 : 0 <= t * u * g) by (apply mul_nonneg; [apply mul_nonneg; apply Qclt_le_weak; auto|exact N]).
  replace (zq 3 * (e c k + g) - zq 3 * (e2 c k + u * (e c k + g - e c k)) + (e3 c k + t * (e2 c k + u * (e c k + g - e c k) - e2 c k)))
    with (zq 3 * e c k - zq 3 * e2 c k + e3 c k + zq 3 * (1 - u) * g + t * u * g) by ring. qlra.
Qed.
