(** * Line: the least squares line is the best and the only best line. *)
From Coq Require Import ZArith QArith Qcanon Bool List PeanoNat Lia.
From Verif Require Import Num NumFacts Pandas Cells RangeSpec RangeFacts ValueSpec ValueFacts FormulaSpec Starts.
Import ListNotations.
Open Scope Qc_scope.

Lemma total_add f g n : total (fun j => f j + g j) n = total f n + total g n.
Proof. induction n; cbn [total]; [ring|]. rewrite IHn. ring. Qed.
Lemma total_mul q f n : total (fun j => q * f j) n = q * total f n.
Proof. induction n; cbn [total]; [ring|]. rewrite IHn. ring. Qed.
Lemma total_const q n : total (fun _ => q) n = nq n * q.
Proof.
  induction n; cbn [total]; [unfold nq; cbn; apply Qc_is_canon; reflexivity|].
  rewrite IHn. change (nq (S n)) with (qnat (S n)). rewrite qnat_S. change (qnat n) with (nq n). ring.
Qed.
Lemma nq_S n : nq (S n) = nq n + 1. Proof. change (nq (S n)) with (qnat (S n)). rewrite qnat_S. change (qnat n) with (nq n). ring. Qed.
Lemma nq_0 : nq 0 = 0. Proof. apply Qc_is_canon. reflexivity. Qed.
Lemma sum_i n : zq 2 * total nq n = nq n * (nq n - 1).
Proof. induction n; cbn [total]; [rewrite nq_0; ring|]. rewrite nq_S. replace (zq 2 * (total nq n + nq n)) with (zq 2 * total nq n + zq 2 * nq n) by ring. rewrite IHn. replace (zq 2) with (1 + 1) by (apply Qc_is_canon; reflexivity). ring. Qed.
Lemma sum_ii n : zq 6 * total (fun i => nq i * nq i) n = nq n * (nq n - 1) * (zq 2 * nq n - 1).
Proof.
  induction n; cbn [total]; [rewrite nq_0; ring|]. rewrite nq_S.
  replace (zq 6 * (total (fun i => nq i * nq i) n + nq n * nq n)) with (zq 6 * total (fun i => nq i * nq i) n + zq 6 * nq n * nq n) by ring. rewrite IHn.
  replace (zq 2) with (1 + 1) by (apply Qc_is_canon; reflexivity). replace (zq 6) with ((1 + 1) * (1 + 1 + 1)) by (apply Qc_is_canon; reflexivity). ring.
Qed.
Lemma spread_pos p : (2 <= p)%nat -> 0 < nq p * total (fun i => nq i * nq i) p - total nq p * total nq p.
Proof.
  intro P. pose proof (sum_i p) as A. pose proof (sum_ii p) as B. set (s := total nq p) in *. set (q := total (fun i => nq i * nq i) p) in *.
  replace (zq 2) with (1 + 1) in A, B by (apply Qc_is_canon; reflexivity). replace (zq 6) with ((1 + 1) * (1 + 1 + 1)) in B by (apply Qc_is_canon; reflexivity).
  assert (E : (1 + 1) * (1 + 1) * (1 + 1 + 1) * (nq p * q - s * s) = nq p * nq p * (nq p - 1) * (nq p + 1)).
  { replace ((1 + 1) * (1 + 1) * (1 + 1 + 1) * (nq p * q - s * s)) with
      (nq p * (1 + 1) * ((1 + 1) * (1 + 1 + 1) * q) - (1 + 1 + 1) * ((1 + 1) * s) * ((1 + 1) * s)) by ring. rewrite A, B. ring. }
  assert (G : 0 < nq p * nq p * (nq p - 1) * (nq p + 1)).
  { destruct p as [|[|p]]; [lia|lia|]. rewrite !nq_S. pose proof (qnat_nonneg p) as N. change (qnat p) with (nq p) in N.
    assert (0 < nq p + 1 + 1) by qlra. assert (0 < nq p + 1 + 1 - 1) by qlra. assert (0 < nq p + 1 + 1 + 1) by qlra.
    assert (M : forall u w : Qc, 0 < u -> 0 < w -> 0 < u * w) by (intros; qnra). repeat apply M; auto. }
  rewrite <- E in G. clear E A B. generalize dependent (nq p * q - s * s). intros d G. replace ((1 + 1) * (1 + 1) * (1 + 1 + 1)) with (zq 12) in G by (apply Qc_is_canon; reflexivity). apply Qcnot_le_lt. intro X. assert (0 < zq 12) by reflexivity. qnra.
Qed.
Lemma nq_pos p : (0 < p)%nat -> 0 < nq p. Proof. intro P. apply qnat_pos. exact P. Qed.

  Lemma sq_nonneg q : 0 <= q * q.
  Proof. qnra. Qed.
  Lemma total_ge f m i : (forall j, (j < m)%nat -> 0 <= f j) -> (i < m)%nat -> f i <= total f m.
  Proof.
    induction m; intros H I; [lia|]. cbn [total]. destruct (Nat.eq_dec i m) as [->|N].
    - assert (0 <= total f m) by (apply total_nonneg; intros; apply H; lia). qlra.
    - assert (f i <= total f m) by (apply IHm; [intros; apply H; lia|lia]). assert (0 <= f m) by (apply H; lia). qlra.
  Qed.

Section Fit.
  Variables (y : nat -> Qc) (p : nat).
  Hypothesis P : (2 <= p)%nat.
  Notation a := (fit_start y p). Notation b := (fit_slope y p).
  Let r (i : nat) : Qc := y i - (a + b * nq i).
  Lemma NP : nq p <> 0. Proof. apply nn_pos. lia. Qed.
  Lemma DP : nq p * total (fun i => nq i * nq i) p - total nq p * total nq p <> 0.
  Proof. apply qc_pos_neq0, spread_pos. exact P. Qed.
  (** the normal equations *)
  Lemma resid : total r p = 0.
  Proof.
    unfold r. rewrite (total_ext _ (fun i => y i + (- (1)) * (a + b * nq i))) by (intros; ring).
    rewrite total_add, total_mul, (total_add (fun _ => a)), total_const, total_mul. unfold fit_start. field. apply NP.
  Qed.
  Lemma resid_x : total (fun i => nq i * r i) p = 0.
  Proof.
    unfold r. rewrite (total_ext _ (fun i => nq i * y i + ((- a) * nq i + (- b) * (nq i * nq i)))) by (intros; ring).
    rewrite !total_add, !total_mul. unfold fit_start, fit_slope. pose proof NP. pose proof DP.
    set (xy := total (fun i => nq i * y i) p). set (xx := total (fun i => nq i * nq i) p) in *. set (x := total nq p) in *. set (yy := total y p).
    field. split; auto.
  Qed.
  Lemma misfit_split a' b' : misfit y p a' b' = misfit y p a b + total (fun i => (a - a' + (b - b') * nq i) * (a - a' + (b - b') * nq i)) p.
  Proof.
    unfold misfit.
    rewrite (total_ext _ (fun i => (y i - (a + b * nq i)) * (y i - (a + b * nq i)) + ((a - a' + (b - b') * nq i) * (a - a' + (b - b') * nq i)
      + (zq 2 * (a - a') * r i + zq 2 * (b - b') * (nq i * r i))))).
    - rewrite !total_add, !total_mul, resid, resid_x. ring.
    - intros i I. unfold r. replace (zq 2) with (1 + 1) by (apply Qc_is_canon; reflexivity). ring.
  Qed.
  Lemma fit_best : best_line y p a b.
  Proof.
    intros a' b'. rewrite (misfit_split a' b'). set (d := fun i => (a - a' + (b - b') * nq i) * (a - a' + (b - b') * nq i)).
    assert (D : forall i, 0 <= d i) by (intro i; apply sq_nonneg). assert (T : 0 <= total d p) by (apply total_nonneg; auto).
    assert (G : forall m t : Qc, 0 <= t -> m <= m + t) by (intros; qlra). assert (G' : forall m t : Qc, m + t = m -> t = 0) by (intros; qlra).
    split; [apply G; auto|]. intro E. assert (Z : total d p = 0) by (eapply G'; exact E). clear G G'.
    assert (Z0 : d 0%nat = 0) by (apply Qcle_antisym; [rewrite <- Z; apply total_ge; auto; lia|auto]).
    assert (Z1 : d 1%nat = 0) by (apply Qcle_antisym; [rewrite <- Z; apply total_ge; auto; lia|auto]).
    unfold d in Z0, Z1. rewrite nq_0 in Z0. change (nq 1) with 1 in Z1.
    assert (X : forall q, q * q = 0 -> q = 0) by (intros q Q; destruct (Qcmult_integral _ _ Q); auto).
    apply X in Z0. apply X in Z1. assert (A : a' = a) by qlra. split; [exact A|]. rewrite A in Z1. qlra.
  Qed.
End Fit.
(** the only best line *)
Lemma best_line_unique y p a b a' b' : best_line y p a b -> best_line y p a' b' -> a' = a /\ b' = b.
Proof. intros H H'. apply (H a' b'). apply Qcle_antisym; [apply H'|apply H]. Qed.
(** moving the x axis does not change the slope *)
Lemma slope_shift x0 y p : (2 <= p)%nat ->
  (nq p * total (fun i => (x0 + nq i) * y i) p - total (fun i => x0 + nq i) p * total y p)
  / (nq p * total (fun i => (x0 + nq i) * (x0 + nq i)) p - total (fun i => x0 + nq i) p * total (fun i => x0 + nq i) p) = fit_slope y p.
Proof.
  intro P.
  rewrite (total_ext (fun i => (x0 + nq i) * y i) (fun i => x0 * y i + nq i * y i)) by (intros; ring).
  rewrite (total_ext (fun i => (x0 + nq i) * (x0 + nq i)) (fun i => x0 * x0 + (zq 2 * x0 * nq i + nq i * nq i))).
  2:{ intros. replace (zq 2) with (1 + 1) by (apply Qc_is_canon; reflexivity). ring. }
  rewrite !total_add, !total_mul, !total_const. unfold fit_slope. f_equal; [ring|]. replace (zq 2) with (1 + 1) by (apply Qc_is_canon; reflexivity). ring.
Qed.
Lemma spread_shift x0 p : (2 <= p)%nat ->
  nq p * total (fun i => (x0 + nq i) * (x0 + nq i)) p - total (fun i => x0 + nq i) p * total (fun i => x0 + nq i) p <> 0.
Proof.
  intro P.
  rewrite (total_ext (fun i => (x0 + nq i) * (x0 + nq i)) (fun i => x0 * x0 + (zq 2 * x0 * nq i + nq i * nq i))).
  2:{ intros. replace (zq 2) with (1 + 1) by (apply Qc_is_canon; reflexivity). ring. }
  rewrite !total_add, !total_mul, !total_const. intro E. apply (DP p P). rewrite <- E. replace (zq 2) with (1 + 1) by (apply Qc_is_canon; reflexivity). ring.
Qed.
(** an exact line is reproduced *)
Lemma fit_exact y p a b : (2 <= p)%nat -> (forall i, (i < p)%nat -> y i = a + b * nq i) -> fit_start y p = a /\ fit_slope y p = b.
Proof.
  intros P E. assert (M : forall a' b', misfit y p a' b' = total (fun i => (a - a' + (b - b') * nq i) * (a - a' + (b - b') * nq i)) p).
  { intros. unfold misfit. apply total_ext. intros i I. rewrite E by auto. ring. }
  destruct (fit_best y p P a b) as [L U].
  assert (Z : misfit y p a b = 0).
  { rewrite M. rewrite (total_ext _ (fun _ => 0)) by (intros; ring). rewrite total_const. ring. }
  assert (N : 0 <= misfit y p (fit_start y p) (fit_slope y p)) by (apply total_nonneg; intros; apply sq_nonneg).
  destruct U as [-> ->]; [apply Qcle_antisym; [rewrite Z; auto|auto]|]. split; reflexivity.
Qed.
