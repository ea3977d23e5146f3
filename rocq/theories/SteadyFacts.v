(** * SteadyFacts: averages, extremes and sums of a straight line. *)
From Coq Require Import ZArith QArith Qcanon Bool List String PeanoNat Lia.
From Verif Require Import Num NumFacts Pandas Sim Frame FrameSpec Ind Signal Api IndSpec ApiSpec RangeSpec Cells RangeFacts ValueSpec ValueFacts FormulaSpec Formula2 Line IdentFacts OrderFacts SwaySpec SwayFacts BasketSpec BasketFacts SteadySpec.
Import ListNotations.
Open Scope list_scope. Open Scope string_scope. Open Scope Qc_scope.

Lemma nq_sub a b : (b <= a)%nat -> nq (a - b) = nq a - nq b.
Proof. intro H. replace (nq a) with (nq (a - b + b)) by (f_equal; lia). rewrite nq_add. ring. Qed.
Lemma two_neq : zq 2 <> 0. Proof. discriminate. Qed.
Lemma line_at f k d i j : straight f k d -> (i <= j)%nat -> (j <= k)%nat -> f j = f i + d * nq (j - i).
Proof. intros S0 I J. rewrite (S0 j J), (S0 i) by lia. rewrite nq_sub by exact I. ring. Qed.
Lemma straight_less f k d n : straight f k d -> (n <= k)%nat -> straight f n d. Proof. intros S0 N j J. apply S0. lia. Qed.
Lemma straight_add f g k d q : straight f k d -> (forall j, (j <= k)%nat -> g j = f j + q) -> straight g k d.
Proof. intros S0 G j J. rewrite !G by lia. rewrite (S0 j J). ring. Qed.
Lemma change_line f k d m j : straight f k d -> (m <= j)%nat -> (j <= k)%nat -> change m f j = d * nq m.
Proof. intros S0 M J. unfold change. rewrite (line_at f k d (j - m) j S0) by lia. replace (j - (j - m))%nat with m by lia. ring. Qed.
Lemma step_line f k d j : straight f k d -> (1 <= j)%nat -> (j <= k)%nat -> f j = f (j - 1)%nat + d.
Proof. intros S0 M J. rewrite (line_at f k d (j - 1) j S0) by lia. replace (j - (j - 1))%nat with 1%nat by lia. change (nq 1) with 1. ring. Qed.
Lemma total_same f q n : (forall j, (j < n)%nat -> f j = q) -> total f n = nq n * q.
Proof. intro H. rewrite <- total_const. induction n as [|n IH]; [reflexivity|]. cbn [total]. rewrite IH by (intros; apply H; lia). rewrite H by lia. reflexivity. Qed.
Lemma sum_same f q p k : (p <= S k)%nat -> (forall j, (S k - p <= j <= k)%nat -> f j = q) -> sum_last f p k = nq p * q.
Proof. intros P H. apply total_same. intros j J. apply H. lia. Qed.
Lemma nq_neq p : (1 <= p)%nat -> nq p <> 0. Proof. intro P. apply qc_pos_neq0, nq_pos. lia. Qed.
Lemma mean_same f q p k : (1 <= p)%nat -> (p <= S k)%nat -> (forall j, (S k - p <= j <= k)%nat -> f j = q) -> mean_last f p k = q.
Proof. intros P K H. unfold mean_last. rewrite (sum_same f q) by assumption. field. apply nq_neq, P. Qed.
Lemma mean_line f k d p : straight f k d -> (1 <= p)%nat -> (p <= S k)%nat -> mean_last f p k = f k - d * ((nq p - 1) / zq 2).
Proof.
  intros S0 P K. unfold mean_last, sum_last. assert (E : total (fun j => f (S k - p + j)%nat) p = total (fun j => (f k - d * (nq p - 1)) + d * nq j) p).
  { apply total_ext. intros j J. rewrite (line_at f k d (S k - p + j) k S0) by lia. replace (k - (S k - p + j))%nat with (p - 1 - j)%nat by lia. rewrite !nq_sub by lia. change (nq 1) with 1. ring. }
  rewrite E, total_add, total_const, total_mul. assert (Q : total nq p = nq p * (nq p - 1) / zq 2) by (rewrite <- sum_i; field; exact two_neq). rewrite Q. replace (zq 2) with (1 + 1) by (apply Qc_is_canon; reflexivity). field. split; [discriminate|apply nq_neq, P].
Qed.
Lemma late_span p : (1 <= p)%nat -> span p * ((nq p - 1) / zq 2) = 1 - span p.
Proof. intro P. unfold span. rewrite nq_S. assert (N : nq p + 1 <> 0) by (rewrite <- nq_S; apply nq_neq; lia). replace (zq 2) with (1 + 1) by (apply Qc_is_canon; reflexivity). field. split; [exact N|discriminate]. Qed.
Lemma ema_line f k d a p : straight f k d -> (1 <= p)%nat -> (a <= k)%nat -> ema_from a p f k = f k - d * ((nq p - 1) / zq 2 * (1 - (1 - span p) ^ (k - a))).
Proof.
  intros S0 P A. unfold ema_from. pose proof (late_span p P) as Q. set (L := (nq p - 1) / zq 2) in *. set (al := span p) in *. clearbody L al.
  assert (H : forall m, (a + m <= k)%nat -> ema al (fun j => f (a + j)%nat) m = f (a + m)%nat - d * (L * (1 - (1 - al) ^ m))).
  { induction m as [|m IH]; intro M; cbn [ema Qcpower]; [replace (a + 0)%nat with a by lia; ring|]. rewrite IH by lia. rewrite (step_line f k d (a + S m) S0) by lia. replace (a + S m - 1)%nat with (a + m)%nat by lia.
    set (x := f (a + m)%nat). set (r := (1 - al) ^ m). transitivity (x + d - d * (1 - al) - d * (1 - al) * L + d * (1 - al) * L * r); [ring|]. rewrite <- Q at 1. ring. }
  rewrite H by lia. replace (a + (k - a))%nat with k by lia. reflexivity.
Qed.
Lemma ema_pow p a m : ema_from a p (fun j => (1 - span p) ^ j) (a + m) = (1 + span p * nq m) * (1 - span p) ^ (a + m).
Proof.
  unfold ema_from. replace (a + m - a)%nat with m by lia. set (al := span p). clearbody al. induction m as [|m IH]; cbn [ema].
  - replace (a + 0)%nat with a by lia. change (nq 0) with 0. ring.
  - rewrite IH, nq_S. replace (a + S m)%nat with (S (a + m)) by lia. cbn [Qcpower]. ring.
Qed.
Lemma dema_line f k d p : straight f k d -> (1 <= p)%nat -> (p - 1 <= k)%nat -> let r := 1 - span p in let m := (k - (p - 1))%nat in
  zq 2 * ema_from 0 p f k - ema_from (p - 1) p (ema_from 0 p f) k = f k - d * ((nq p - 1) / zq 2 * (r ^ m - (1 - span p * nq m) * r ^ k)).
Proof.
  intros S0 P K r m. set (L := (nq p - 1) / zq 2). set (g := fun j => f j - d * L).
  assert (G : straight g k d) by (apply (straight_add f g k d (- (d * L)) S0); intros; unfold g; ring).
  assert (E : forall j, (j <= k)%nat -> ema_from 0 p f j = mix 1 (d * L) (g j) (r ^ j)).
  { intros j J. rewrite (ema_line f j d 0 p (straight_less f k d j S0 J) P (Nat.le_0_l j)). rewrite Nat.sub_0_r. unfold mix, g. fold L r. ring. }
  rewrite (ema_from_mix 1 (d * L) (p - 1) p (ema_from 0 p f) g (fun j => r ^ j) k K) by (intros j J; apply E; lia).
  rewrite (ema_line g k d (p - 1) p G P K). rewrite E by lia. fold L r m. assert (Q : ema_from (p - 1) p (fun j => r ^ j) k = (1 + span p * nq m) * r ^ k).
  { replace k with (p - 1 + m)%nat by (unfold m; lia). apply ema_pow. } rewrite Q. unfold mix, g. replace (zq 2) with (1 + 1) by (apply Qc_is_canon; reflexivity). ring.
Qed.
Lemma ws_line f k d p : straight f k d -> (1 <= p)%nat -> (p - 1 <= k)%nat ->
  run_from (p - 1) (wilders p) (mean_last f p (p - 1)) f k = f k - d * ((nq p - 1) * (1 - (1 - 1 / nq p) ^ (k - (p - 1)) / zq 2)).
Proof.
  intros S0 P K. unfold run_from. rewrite (mean_line f (p - 1) d p (straight_less f k d _ S0 K) P) by lia. pose proof (nq_neq p P) as N.
  assert (H : forall m, (p - 1 + m <= k)%nat -> run (wilders p) (f (p - 1)%nat - d * ((nq p - 1) / zq 2)) (fun j => f (p - 1 + j)%nat) m = f (p - 1 + m)%nat - d * ((nq p - 1) * (1 - (1 - 1 / nq p) ^ m / zq 2))).
  { induction m as [|m IH]; intro M; cbn [run Qcpower].
    - replace (p - 1 + 0)%nat with (p - 1)%nat by lia. replace (zq 2) with (1 + 1) by (apply Qc_is_canon; reflexivity). field. discriminate.
    - rewrite IH by lia. rewrite (step_line f k d (p - 1 + S m) S0) by lia. replace (p - 1 + S m - 1)%nat with (p - 1 + m)%nat by lia. unfold wilders. set (r := (1 - 1 / nq p) ^ m). replace (zq 2) with (1 + 1) by (apply Qc_is_canon; reflexivity). field. split; [exact N|discriminate]. }
  rewrite H by lia. replace (p - 1 + (k - (p - 1)))%nat with k by lia. reflexivity.
Qed.
(** ** extremes *)
Lemma max_up f a n : (forall j, (a < j <= a + n)%nat -> f (j - 1)%nat <= f j) -> max_to f a n = f (a + n)%nat /\ min_to f a n = f a.
Proof.
  induction n as [|n IH]; intro H; cbn [max_to min_to]; [rewrite Nat.add_0_r; auto|]. destruct IH as [I1 I2]; [intros; apply H; lia|]. rewrite I1, I2.
  assert (U : f (a + n)%nat <= f (a + S n)%nat) by (replace (a + n)%nat with (a + S n - 1)%nat by lia; apply H; lia).
  assert (V : f a <= f (a + S n)%nat).
  { clear - H. induction n as [|n IH]; [replace a with (a + 1 - 1)%nat at 1 by lia; apply H; lia|]. apply Qcle_trans with (f (a + S n)%nat); [apply IH; intros; apply H; lia|]. replace (a + S n)%nat with (a + S (S n) - 1)%nat by lia. apply H. lia. }
  split; [unfold larger; destruct (qltb_spec (f (a + n)%nat) (f (a + S n)%nat)) as [Q|Q]; [reflexivity|apply Qcnot_lt_le in Q; apply Qcle_antisym; assumption]|].
  unfold smaller. destruct (qltb_spec (f (a + S n)%nat) (f a)) as [Q|Q]; [|reflexivity]. exfalso. exact (Qclt_not_le _ _ Q V).
Qed.
Lemma max_down f a n : (forall j, (a < j <= a + n)%nat -> f j <= f (j - 1)%nat) -> max_to f a n = f a /\ min_to f a n = f (a + n)%nat.
Proof.
  induction n as [|n IH]; intro H; cbn [max_to min_to]; [rewrite Nat.add_0_r; auto|]. destruct IH as [I1 I2]; [intros; apply H; lia|]. rewrite I1, I2.
  assert (U : f (a + S n)%nat <= f (a + n)%nat) by (replace (a + n)%nat with (a + S n - 1)%nat by lia; apply H; lia).
  assert (V : f (a + S n)%nat <= f a).
  { clear - H. induction n as [|n IH]; [replace a with (a + 1 - 1)%nat at 2 by lia; apply H; lia|]. apply Qcle_trans with (f (a + S n)%nat); [|apply IH; intros; apply H; lia]. replace (a + S n)%nat with (a + S (S n) - 1)%nat by lia. apply H. lia. }
  split; [unfold larger; destruct (qltb_spec (f a) (f (a + S n)%nat)) as [Q|Q]; [exfalso; exact (Qclt_not_le _ _ Q V)|reflexivity]|].
  unfold smaller. destruct (qltb_spec (f (a + S n)%nat) (f (a + n)%nat)) as [Q|Q]; [reflexivity|]. apply Qcnot_lt_le in Q. apply Qcle_antisym; assumption.
Qed.
Lemma max_rise f k d p : straight f k d -> 0 <= d -> (1 <= p)%nat -> (p <= S k)%nat -> max_last f p k = f k /\ min_last f p k = f k - d * (nq p - 1).
Proof.
  intros S0 D P K. unfold max_last, min_last. destruct (max_up f (S k - p) (p - 1)) as [A B].
  - intros j J. rewrite (step_line f k d j S0) by lia. qlra.
  - rewrite A, B. split; [f_equal; lia|]. rewrite (line_at f k d (S k - p) k S0) by lia. replace (k - (S k - p))%nat with (p - 1)%nat by lia. rewrite nq_sub by lia. change (nq 1) with 1. ring.
Qed.
Lemma max_fall f k d p : straight f k d -> d <= 0 -> (1 <= p)%nat -> (p <= S k)%nat -> max_last f p k = f k - d * (nq p - 1) /\ min_last f p k = f k.
Proof.
  intros S0 D P K. unfold max_last, min_last. destruct (max_down f (S k - p) (p - 1)) as [A B].
  - intros j J. rewrite (step_line f k d j S0) by lia. qlra.
  - rewrite A, B. split; [|f_equal; lia]. rewrite (line_at f k d (S k - p) k S0) by lia. replace (k - (S k - p))%nat with (p - 1)%nat by lia. rewrite nq_sub by lia. change (nq 1) with 1. ring.
Qed.
(** ** the mean distance from the mean *)
Lemma total_front f n : total f (S n) = f O + total (fun j => f (S j)) n.
Proof. induction n as [|n IH]; [cbn [total]; ring|]. cbn [total] in *. rewrite IH. ring. Qed.
Lemma abs_pos x : 0 <= x -> abs x = x. Proof. intro H. unfold abs. destruct (qltb_spec x 0) as [Q|Q]; [exfalso; exact (Qclt_not_le _ _ Q H)|reflexivity]. Qed.
Lemma abs_neg x : x <= 0 -> abs x = - x. Proof. intro H. unfold abs. destruct (qltb_spec x 0) as [Q|Q]; [reflexivity|]. apply Qcnot_lt_le in Q. assert (E : x = 0) by (apply Qcle_antisym; assumption). rewrite E. reflexivity. Qed.
Lemma nq_nonneg n : 0 <= nq n. Proof. destruct n; [discriminate|apply Qclt_le_weak, nq_pos; lia]. Qed.
Lemma spread_step p : total (fun i => abs ((nq (S (S p)) - 1) / zq 2 - nq i)) (S (S p)) = total (fun i => abs ((nq p - 1) / zq 2 - nq i)) p + nq p + 1.
Proof.
  rewrite total_front. cbn [total]. pose proof (nq_nonneg p) as N. change (nq 0) with 0. rewrite !nq_S.
  assert (Z2 : zq 2 = 1 + 1) by (apply Qc_is_canon; reflexivity).
  assert (A : abs ((nq p + 1 + 1 - 1) / zq 2 - 0) = (nq p + 1) / zq 2) by (rewrite abs_pos; [field; exact two_neq|]; replace ((nq p + 1 + 1 - 1) / zq 2 - 0) with ((nq p + 1) / zq 2) by (field; exact two_neq); apply div_nonneg; [reflexivity|qlra]).
  assert (B : abs ((nq p + 1 + 1 - 1) / zq 2 - (nq p + 1)) = (nq p + 1) / zq 2).
  { replace ((nq p + 1 + 1 - 1) / zq 2 - (nq p + 1)) with (- ((nq p + 1) / zq 2)) by (rewrite Z2; field; discriminate). rewrite abs_neg; [ring|]. assert (0 <= (nq p + 1) / zq 2) by (apply div_nonneg; [reflexivity|qlra]). set (z := (nq p + 1) / zq 2) in *. clearbody z. qlra. }
  rewrite A, B. assert (E : total (fun j => abs ((nq p + 1 + 1 - 1) / zq 2 - nq (S j))) p = total (fun i => abs ((nq p - 1) / zq 2 - nq i)) p).
  { apply total_ext. intros j _. f_equal. rewrite nq_S, Z2. field. discriminate. }
  rewrite E. rewrite Z2. field. discriminate.
Qed.
Lemma spread_line p : let e := nq (2 * (S p / 2)) in zq 4 * total (fun i => abs ((nq p - 1) / zq 2 - nq i)) p = if Nat.even p then nq p * nq p else nq p * nq p - 1.
Proof.
  cbv zeta. assert (H : forall m q, (q <= 1)%nat -> zq 4 * total (fun i => abs ((nq (2 * m + q) - 1) / zq 2 - nq i)) (2 * m + q) = nq (2 * m + q) * nq (2 * m + q) - nq q * nq q).
  { induction m as [|m IH]; intros q Q.
    - destruct q as [|[|q]]; [apply Qc_is_canon; reflexivity|apply Qc_is_canon; reflexivity|lia].
    - replace (2 * S m + q)%nat with (S (S (2 * m + q))) by lia. rewrite spread_step. rewrite !Qcmult_plus_distr_r, IH by exact Q. rewrite !nq_S. change (zq 4) with (nq 4). rewrite !nq_S. change (nq 0) with 0. ring. }
  destruct (Nat.even p) eqn:E.
  - apply Nat.even_spec in E as [m ->]. specialize (H m 0%nat ltac:(lia)). rewrite Nat.add_0_r in H. rewrite H. change (nq 0) with 0. ring.
  - assert (O : Nat.Odd p) by (apply Nat.odd_spec; unfold Nat.odd; rewrite E; reflexivity). destruct O as [m ->]. rewrite (H m 1%nat ltac:(lia)). change (nq 1) with 1. ring.
Qed.
