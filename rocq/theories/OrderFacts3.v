(** * OrderFacts3: more pieces of indicators when the last close is higher. *)
From Coq Require Import ZArith QArith Qcanon Bool List String PeanoNat Lia Qround.
From Verif Require Import Num NumFacts RoundFacts Pandas Frame Ind SeriesFacts Lengths Cells RangeSpec RangeFacts RangeMore Signal Api ApiSpec IndSpec ValueSpec ValueFacts ValueMore Recur FormulaSpec Starts Formula Formula2 Formula3 Line MirrorSpec OrderSpec OrderFacts OrderFacts2.
Import ListNotations.
Open Scope list_scope. Open Scope Qc_scope.

Ltac cases := repeat match goal with |- context [qltb ?x ?y] => destruct (qltb_spec x y) end; repeat match goal with N : ~ _ < _ |- _ => apply Qcnot_lt_le in N end.

Lemma trunc_le a b : a <= b -> qtrunc a <= qtrunc b.
Proof.
  intro H. unfold qtrunc, Qcle. rewrite !this_Q2Qc. rewrite <- Zle_Qle. unfold Qcle in H. destruct a as [a ca], b as [b cb]. cbn [this] in *. unfold Qle in H.
  destruct a as [x p], b as [y q]. cbn [Qnum Qden] in *.
  replace (x ÷ Z.pos p)%Z with ((x * Z.pos q) ÷ (Z.pos p * Z.pos q))%Z by (apply Z.quot_mul_cancel_r; discriminate).
  replace (y ÷ Z.pos q)%Z with ((y * Z.pos p) ÷ (Z.pos p * Z.pos q))%Z by (rewrite (Z.mul_comm (Z.pos p)); apply Z.quot_mul_cancel_r; discriminate).
  apply Z.quot_le_mono; [lia|exact H].
Qed.
Lemma adl_move_le h l c c' v : 0 <= v -> c <= c' -> adl_move h l c v <= adl_move h l c' v.
Proof.
  intros V C. unfold adl_move. destruct (qltb_spec l h) as [G|G]; [|apply Qcle_refl]. apply mul_le; [exact V|]. apply div_le; [qlra|qlra].
Qed.
Lemma obv_le k c c' v : only k c c' -> 0 <= v k -> obv_line c v k <= obv_line c' v k.
Proof.
  intros O V. destruct k as [|k]; cbn [obv_line]; [apply Qcle_refl|].
  assert (E : forall j, (j <= k)%nat -> obv_line c' v j = obv_line c v j).
  { induction j as [|j IH]; intro J; cbn [obv_line]; [reflexivity|]. rewrite IH by lia. rewrite !(proj1 O) by lia. reflexivity. }
  rewrite E by lia. rewrite (proj1 O k) by lia. pose proof (proj2 O) as R. cases; qlra.
Qed.
Lemma pvt_le k c c' v : only k c c' -> 0 <= v k -> (forall j, (j < k)%nat -> 0 < c j) -> pvt_line c v k <= pvt_line c' v k.
Proof.
  intros O V P. destruct k as [|k]; cbn [pvt_line]; [apply Qcle_refl|].
  assert (E : forall j, (j <= k)%nat -> pvt_line c' v j = pvt_line c v j).
  { induction j as [|j IH]; intro J; cbn [pvt_line]; [reflexivity|]. rewrite IH by lia. rewrite !(proj1 O) by lia. reflexivity. }
  rewrite E by lia. rewrite (proj1 O k) by lia. pose proof (proj2 O) as R.
  assert (Q : (c (S k) - c k) / c k <= (c' (S k) - c k) / c k) by (apply div_le; [apply P; lia|qlra]). pose proof (mul_le _ _ _ V Q). qlra.
Qed.
Lemma index_le counts k c c' v : only k c c' -> (forall j, (j <= k)%nat -> 0 < c j) -> index_line counts c v k <= index_line counts c' v k.
Proof.
  intros O P. destruct k as [|k]; cbn [index_line]; [apply Qcle_refl|].
  assert (E : forall j, (j <= k)%nat -> index_line counts c' v j = index_line counts c v j).
  { induction j as [|j IH]; intro J; cbn [index_line]; [reflexivity|]. rewrite IH by lia. rewrite !(proj1 O) by lia. reflexivity. }
  assert (N : forall j, (j <= k)%nat -> 0 <= index_line counts c v j).
  { induction j as [|j IH]; intro J; cbn [index_line]; [discriminate|]. destruct (counts _ _); [|apply IH; lia]. apply mul_nonneg; [apply IH; lia|].
    replace (1 + (c (S j) - c j) / c j) with (c (S j) / c j) by (field; apply qc_pos_neq0, P; lia). apply div_nonneg; [apply P; lia|apply Qclt_le_weak, P; lia]. }
  rewrite E by lia. destruct (counts (v k) (v (S k))); [|apply Qcle_refl]. apply mul_le; [apply N; lia|]. rewrite (proj1 O k) by lia. pose proof (proj2 O) as R.
  assert (Q : (c (S k) - c k) / c k <= (c' (S k) - c k) / c k) by (apply div_le; [apply P; lia|qlra]). qlra.
Qed.
(** share of the sum of the last s in the sum of the last l values *)
Lemma share_up a b d : 0 < b -> a <= b -> 0 <= d -> zq 100 * (a / b) <= zq 100 * ((a + d) / (b + d)).
Proof.
  intros B A D. apply mul_le; [discriminate|]. apply cross_le; [exact B|qlra|]. replace (a * (b + d)) with (a * b + d * a) by ring. replace ((a + d) * b) with (a * b + d * b) by ring. pose proof (mul_le _ _ _ D A). qlra.
Qed.
Lemma clip_le a b : a <= b -> clip a <= clip b.
Proof. intro H. unfold clip. assert (zq (-100) <= zq 100) by discriminate. cases; try qlra. Qed.
Lemma abs_nonneg a : 0 <= abs a. Proof. unfold abs. cases; qlra. Qed.
Lemma larger_ge_l a b : a <= larger a b. Proof. unfold larger. cases; qlra. Qed.
Lemma larger_ge_r a b : b <= larger a b. Proof. unfold larger. cases; qlra. Qed.
Lemma smaller_le_l a b : smaller a b <= a. Proof. unfold smaller. cases; qlra. Qed.
Lemma smaller_le_r a b : smaller a b <= b. Proof. unfold smaller. cases; qlra. Qed.
Lemma max_to_ge f a n j : (a <= j <= a + n)%nat -> f j <= max_to f a n.
Proof.
  induction n as [|n IH]; intro J; cbn [max_to]; [replace j with a by lia; apply Qcle_refl|].
  destruct (Nat.eq_dec j (a + S n)) as [->|N]; [apply larger_ge_r|]. apply Qcle_trans with (max_to f a n); [apply IH; lia|apply larger_ge_l].
Qed.
Lemma min_to_le f a n j : (a <= j <= a + n)%nat -> min_to f a n <= f j.
Proof.
  induction n as [|n IH]; intro J; cbn [min_to]; [replace j with a by lia; apply Qcle_refl|].
  destruct (Nat.eq_dec j (a + S n)) as [->|N]; [apply smaller_le_r|]. apply Qcle_trans with (min_to f a n); [apply smaller_le_l|apply IH; lia].
Qed.
Lemma projection_order h l p k : (1 <= p)%nat -> l k <= h k -> r4 (lowest_projection l p k) <= r4 (highest_projection h p k).
Proof.
  intros P H. apply r4_le. unfold lowest_projection, highest_projection.
  apply Qcle_trans with (nq 0 * slope_last l p k + l (k - 0)%nat); [apply (min_to_le (fun j => nq j * slope_last l p k + l (k - j)%nat)); lia|].
  apply Qcle_trans with (nq 0 * slope_last h p k + h (k - 0)%nat); [|apply (max_to_ge (fun j => nq j * slope_last h p k + h (k - j)%nat)); lia].
  rewrite Nat.sub_0_r, nq_0. qlra.
Qed.
