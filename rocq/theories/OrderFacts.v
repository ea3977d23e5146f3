(** * OrderFacts: sums, averages and ratios of larger numbers. *)
From Coq Require Import ZArith QArith Qcanon Bool List String PeanoNat Lia.
From Verif Require Import Num NumFacts RoundFacts Pandas Frame Ind SeriesFacts Lengths Cells RangeSpec RangeFacts RangeMore Signal Api ApiSpec IndSpec ValueSpec ValueFacts ValueMore Recur FormulaSpec Starts Formula Formula2 Formula3 Line MirrorSpec OrderSpec.
Import ListNotations.
Open Scope list_scope. Open Scope Qc_scope.

Lemma r4_le a b : a <= b -> r4 a <= r4 b. Proof. apply qround_mono. Qed.
Lemma mul_le q a b : 0 <= q -> a <= b -> q * a <= q * b. Proof. intros Q H. qnra. Qed.
Lemma inv_pos q : 0 < q -> 0 < / q.
Proof. intro Q. destruct (Qclt_le_dec 0 (/ q)) as [H|H]; [exact H|]. exfalso. assert (E : q * / q = 1) by (apply Qcmult_inv_r; apply qc_pos_neq0; exact Q). assert (q * / q <= 0) by qnra. rewrite E in H0. exact (Qclt_not_le 0 1 eq_refl H0). Qed.
Lemma div_le a b q : 0 < q -> a <= b -> a / q <= b / q.
Proof. intros Q H. unfold Qcdiv. rewrite !(Qcmult_comm _ (/ q)). apply mul_le; [apply Qclt_le_weak, inv_pos, Q|exact H]. Qed.
Lemma div_nonneg a q : 0 < q -> 0 <= a -> 0 <= a / q.
Proof. intros Q H. replace 0 with (0 / q) by (unfold Qcdiv; ring). apply div_le; auto. Qed.
(** a / b <= c / d by cross multiplication *)
Lemma cross_le a b c d : 0 < b -> 0 < d -> a * d <= c * b -> a / b <= c / d.
Proof.
  intros B D H. assert (X : a / b = (a * d) / (b * d)) by (field; split; apply qc_pos_neq0; auto). assert (Y : c / d = (c * b) / (b * d)) by (field; split; apply qc_pos_neq0; auto).
  rewrite X, Y. apply div_le; [|exact H]. assert (0 < b * d) by qnra. exact H0.
Qed.

(** ** present numbers *)
Lemma ple_refl x : present_le x x.
Proof. destruct x; [left; reflexivity|right; right; reflexivity|right; right; reflexivity|]. right. right. apply nleb_fin. apply Qcle_refl. Qed.
Lemma ple_fin a b : a <= b -> present_le (Fin a) (Fin b). Proof. intro H. right. right. apply nleb_fin. exact H. Qed.
Lemma ple_eq x y : x = y -> present_le x y. Proof. intros ->. apply ple_refl. Qed.
Lemma ple_from a k x y : ((a <= k)%nat -> present_le x y) -> present_le (from a k x) (from a k y).
Proof. intro H. unfold from. destruct (Nat.ltb_spec k a); [left; reflexivity|apply H; lia]. Qed.
Lemma ple_rn x y : present_le x y -> present_le (rn x) (rn y).
Proof.
  intros [->|[->|H]]; [left; reflexivity|right; left; reflexivity|].
  destruct x as [| | |a], y as [| | |b]; try discriminate H; try (left; reflexivity); try (right; right; reflexivity).
  apply ple_fin, r4_le. apply nleb_fin in H. exact H.
Qed.
Lemma ple_ratio a a' b : a <= a' -> 0 <= b -> present_le (ratio a b) (ratio a' b).
Proof.
  intros H B. unfold ratio, ndiv. destruct (qeqb b 0) eqn:E.
  - destruct (qeqb a 0) eqn:A; [left; reflexivity|]. destruct (qeqb a' 0) eqn:A'; [right; left; reflexivity|].
    destruct (qltb_spec 0 a), (qltb_spec 0 a'); try (right; right; reflexivity). exfalso. apply n. qlra.
  - apply ple_fin, div_le; [|exact H]. apply qc_nonneg_neq0_pos; [exact B|apply qeqb_false; exact E].
Qed.
Lemma nl_fin a b : a <= b -> no_lower (Fin a) (Fin b). Proof. intro H. right. eauto. Qed.
Lemma nl_from a k x y : ((a <= k)%nat -> no_lower x y) -> no_lower (from a k x) (from a k y).
Proof. intro H. unfold from. destruct (Nat.ltb_spec k a); [left; auto|apply H; lia]. Qed.
Lemma nl_ple x y : no_lower x y -> present_le x y.
Proof. intros [[-> ->]|(a & b & -> & -> & H)]; [left; reflexivity|apply ple_fin; exact H]. Qed.

(** ** sums and averages *)
Lemma total_le f g n : (forall j, (j < n)%nat -> f j <= g j) -> total f n <= total g n.
Proof. induction n as [|n IH]; intro H; cbn [total]; [apply Qcle_refl|]. specialize (IH ltac:(intros; apply H; lia)). specialize (H n ltac:(lia)). qlra. Qed.
Lemma sum_le f g p k : (p <= S k)%nat -> (forall j, (j <= k)%nat -> f j <= g j) -> sum_last f p k <= sum_last g p k.
Proof. intros P H. apply total_le. intros j J. apply H. lia. Qed.
Lemma sum_nonneg f p k : (p <= S k)%nat -> (forall j, (j <= k)%nat -> 0 <= f j) -> 0 <= sum_last f p k.
Proof. intros P H. apply total_nonneg. intros j J. apply H. lia. Qed.
Lemma sum_ext f g p k : (p <= S k)%nat -> (forall j, (j <= k)%nat -> f j = g j) -> sum_last f p k = sum_last g p k.
Proof. intros P H. apply total_ext. intros j J. apply H. lia. Qed.
Lemma mean_le f g p k : (1 <= p)%nat -> (p <= S k)%nat -> (forall j, (j <= k)%nat -> f j <= g j) -> mean_last f p k <= mean_last g p k.
Proof. intros P K H. apply div_le; [apply nq_pos; lia|]. apply sum_le; auto. Qed.
Lemma ema_le al f g n : 0 <= al -> al <= 1 -> (forall j, (j <= n)%nat -> f j <= g j) -> ema al f n <= ema al g n.
Proof.
  intros A B. induction n as [|n IH]; intro H; cbn [ema]; [apply H; lia|]. specialize (IH ltac:(intros; apply H; lia)).
  pose proof (mul_le al _ _ A (H (S n) (le_n _))). assert (Q : 0 <= 1 - al) by qlra. pose proof (mul_le (1 - al) _ _ Q IH). qlra.
Qed.
Lemma ema_from_le a p f g k : (1 <= p)%nat -> (a <= k)%nat -> (forall j, (a <= j <= k)%nat -> f j <= g j) -> ema_from a p f k <= ema_from a p g k.
Proof. intros P K H. destruct (span_01 p P) as [X Y]. apply ema_le; [apply Qclt_le_weak; exact X|exact Y|]. intros j J. apply H. lia. Qed.
Lemma ema_nonneg a p f k : (1 <= p)%nat -> (a <= k)%nat -> (forall j, (a <= j <= k)%nat -> 0 <= f j) -> 0 <= ema_from a p f k.
Proof.
  intros P K H. apply Qcle_trans with (ema_from a p (fun _ => 0) k); [|apply ema_from_le; auto].
  unfold ema_from. induction (k - a)%nat as [|n IH]; cbn [ema]; [apply Qcle_refl|]. destruct (span_01 p P) as [X Y]. assert (Q : 0 <= 1 - span p) by qlra. pose proof (mul_le _ _ _ Q IH). qlra.
Qed.
Lemma run_le step s t f g n : (forall x y u w, x <= y -> u <= w -> step x u <= step y w) -> s <= t -> (forall j, (1 <= j <= n)%nat -> f j <= g j) -> run step s f n <= run step t g n.
Proof. intros M S. induction n as [|n IH]; intro H; cbn [run]; [exact S|]. apply M; [apply IH; intros; apply H; lia|apply H; lia]. Qed.
Lemma run_from_le a step s t f g k : (forall x y u w, x <= y -> u <= w -> step x u <= step y w) -> s <= t -> (forall j, (a <= j <= k)%nat -> f j <= g j) -> run_from a step s f k <= run_from a step t g k.
Proof. intros M S H. apply run_le; auto. intros j J. apply H. lia. Qed.
Lemma wilders_le p x y u w : (1 <= p)%nat -> x <= y -> u <= w -> wilders p x u <= wilders p y w.
Proof.
  intros P X U. unfold wilders. assert (N : 1 <= nq p). { destruct p; [lia|]. rewrite nq_S. pose proof (qnat_nonneg p) as Q. change (qnat p) with (nq p) in Q. qlra. }
  assert (N0 : 0 < nq p) by (apply nq_pos; lia).
  replace (x + (u - x) / nq p) with (((nq p - 1) * x + u) / nq p) by (field; apply qc_pos_neq0; exact N0).
  replace (y + (w - y) / nq p) with (((nq p - 1) * y + w) / nq p) by (field; apply qc_pos_neq0; exact N0).
  apply div_le; [exact N0|]. assert (Q : 0 <= nq p - 1) by qlra. pose proof (mul_le (nq p - 1) _ _ Q X). qlra.
Qed.
Lemma wilder_from_le a p f g k : (1 <= p)%nat -> (a + p - 1 <= k)%nat -> (forall j, (a <= j <= k)%nat -> f j <= g j) -> wilder_from a p f k <= wilder_from a p g k.
Proof.
  intros P K H. unfold wilder_from. apply run_from_le; [intros; apply wilders_le; auto| |intros; apply H; lia].
  unfold mean_last. apply div_le; [apply nq_pos; lia|]. apply total_le. intros j J. apply H. lia.
Qed.
Lemma larger_le a b c d : a <= c -> b <= d -> larger a b <= larger c d.
Proof. intros. unfold larger. destruct (qltb_spec a b), (qltb_spec c d); repeat match goal with N : ~ _ < _ |- _ => apply Qcnot_lt_le in N end; qlra. Qed.
Lemma smaller_le a b c d : a <= c -> b <= d -> smaller a b <= smaller c d.
Proof. intros. unfold smaller. destruct (qltb_spec b a), (qltb_spec d c); repeat match goal with N : ~ _ < _ |- _ => apply Qcnot_lt_le in N end; qlra. Qed.
Lemma min_max_le f g a n : (forall j, (a <= j <= a + n)%nat -> f j <= g j) -> min_to f a n <= max_to g a n.
Proof.
  induction n as [|n IH]; intro H; cbn [min_to max_to]; [apply H; lia|]. specialize (IH ltac:(intros; apply H; lia)). specialize (H (a + S n)%nat ltac:(lia)).
  unfold smaller, larger. repeat match goal with |- context [qltb ?x ?y] => destruct (qltb_spec x y) end; repeat match goal with N : ~ _ < _ |- _ => apply Qcnot_lt_le in N end; qlra.
Qed.
Lemma width_nonneg h l p k : (1 <= p)%nat -> (p <= S k)%nat -> (forall j, (j <= k)%nat -> l j <= h j) -> 0 <= max_last h p k - min_last l p k.
Proof. intros P K H. pose proof (min_max_le l h (S k - p) (p - 1) ltac:(intros; apply H; lia)). unfold max_last, min_last. qlra. Qed.

(** ** one value that is higher *)
Definition only (k : nat) (c d : nat -> Qc) : Prop := (forall j, j <> k -> d j = c j) /\ c k <= d k.
Section Only.
  Variables (k : nat) (c d : nat -> Qc).
  Hypothesis O : only k c d.
  Lemma only_le j : c j <= d j.
  Proof. destruct O as [S R]. destruct (Nat.eq_dec j k) as [->|N]; [exact R|rewrite S by exact N; apply Qcle_refl]. Qed.
  Lemma only_sum p : (1 <= p)%nat -> (p <= S k)%nat -> sum_last d p k = sum_last c p k + (d k - c k).
  Proof.
    intros P K. destruct p as [|p]; [lia|]. unfold sum_last. cbn [total]. replace (S k - S p + p)%nat with k by lia.
    rewrite (total_ext (fun j => d (S k - S p + j)%nat) (fun j => c (S k - S p + j)%nat)); [ring|]. intros j J. apply (proj1 O). lia.
  Qed.
  Lemma gain_up m j : (j <= k)%nat -> (1 <= m)%nat -> (m <= j)%nat -> gain (change m c j) <= gain (change m d j) /\ loss (change m d j) <= loss (change m c j).
  Proof.
    intros J M MJ. unfold change. rewrite (proj1 O (j - m)%nat) by lia. pose proof (only_le j) as L. unfold gain, loss.
    repeat match goal with |- context [qltb ?x ?y] => destruct (qltb_spec x y) end; repeat match goal with N : ~ _ < _ |- _ => apply Qcnot_lt_le in N end; split; qlra.
  Qed.
End Only.

(** ** shares *)
Lemma share_le u e u' e' : 0 <= u -> 0 <= e' -> u <= u' -> e' <= e -> present_le (ratio (zq 100 * u) (u + e)) (ratio (zq 100 * u') (u' + e')).
Proof.
  intros U E A B. unfold ratio, ndiv. destruct (qeqb (u + e) 0) eqn:X.
  - apply qeqb_iff in X. assert (u = 0) by (apply Qcle_antisym; qlra). subst u. replace (zq 100 * 0) with 0 by ring. left. reflexivity.
  - destruct (qeqb (u' + e') 0) eqn:Y.
    + apply qeqb_iff in Y. assert (u' = 0) by (apply Qcle_antisym; qlra). subst u'. replace (zq 100 * 0) with 0 by ring. right. left. reflexivity.
    + apply qeqb_false in X. apply qeqb_false in Y. apply ple_fin. apply cross_le.
      * apply qc_nonneg_neq0_pos; [qlra|exact X].
      * apply qc_nonneg_neq0_pos; [qlra|exact Y].
      * assert (H : u * e' <= u' * e) by (apply Qcle_trans with (u * e); [apply mul_le; auto|]; rewrite !(Qcmult_comm _ e); apply mul_le; auto; qlra).
        assert (Z : 0 <= zq 100) by discriminate. pose proof (mul_le _ _ _ Z H). replace (zq 100 * u * (u' + e')) with (zq 100 * (u * e') + zq 100 * (u * u')) by ring.
        replace (zq 100 * u' * (u + e)) with (zq 100 * (u' * e) + zq 100 * (u * u')) by ring. qlra.
Qed.
Lemma balance_le u e u' e' : 0 <= u -> 0 <= e' -> u <= u' -> e' <= e -> present_le (ratio (zq 100 * (u - e)) (u + e)) (ratio (zq 100 * (u' - e')) (u' + e')).
Proof.
  intros U E A B. unfold ratio, ndiv. destruct (qeqb (u + e) 0) eqn:X.
  - apply qeqb_iff in X. assert (u = 0) by (apply Qcle_antisym; qlra). assert (e = 0) by (apply Qcle_antisym; qlra). subst u e. replace (zq 100 * (0 - 0)) with 0 by ring. left. reflexivity.
  - destruct (qeqb (u' + e') 0) eqn:Y.
    + apply qeqb_iff in Y. assert (u' = 0) by (apply Qcle_antisym; qlra). assert (e' = 0) by (apply Qcle_antisym; qlra). subst u' e'. replace (zq 100 * (0 - 0)) with 0 by ring. right. left. reflexivity.
    + apply qeqb_false in X. apply qeqb_false in Y. apply ple_fin. apply cross_le.
      * apply qc_nonneg_neq0_pos; [qlra|exact X].
      * apply qc_nonneg_neq0_pos; [qlra|exact Y].
      * assert (H : u * e' <= u' * e) by (apply Qcle_trans with (u * e); [apply mul_le; auto|]; rewrite !(Qcmult_comm _ e); apply mul_le; auto; qlra).
        assert (Z : 0 <= zq 200) by discriminate. pose proof (mul_le _ _ _ Z H) as H1. replace (zq 200) with (zq 100 + zq 100) in H1 by (apply Qc_is_canon; reflexivity).
        replace (zq 100 * (u - e) * (u' + e')) with (zq 100 * (u * u') - zq 100 * (u' * e) + zq 100 * (u * e') - zq 100 * (e * e')) by ring.
        replace (zq 100 * (u' - e') * (u + e)) with (zq 100 * (u * u') + zq 100 * (u' * e) - zq 100 * (u * e') - zq 100 * (e * e')) by ring. 
        replace ((zq 100 + zq 100) * (u * e')) with (zq 100 * (u * e') + zq 100 * (u * e')) in H1 by ring. replace ((zq 100 + zq 100) * (u' * e)) with (zq 100 * (u' * e) + zq 100 * (u' * e)) in H1 by ring.
        qlra.
Qed.

(** ** the distance from the mean in units of the mean distance *)
Definition above0 (a : Qc) : Qc := if qltb 0 a then a else 0.
Lemma abs_parts a : abs a = above0 a + above0 (- a).
Proof. unfold abs, above0. destruct (qltb_spec a 0), (qltb_spec 0 a), (qltb_spec 0 (- a)); repeat match goal with N : ~ _ < _ |- _ => apply Qcnot_lt_le in N end; try qlra. Qed.
Lemma self_parts a : a = above0 a - above0 (- a).
Proof. unfold above0. destruct (qltb_spec 0 a), (qltb_spec 0 (- a)); repeat match goal with N : ~ _ < _ |- _ => apply Qcnot_lt_le in N end; try qlra. Qed.
Lemma above_nonneg a : 0 <= above0 a. Proof. unfold above0. destruct (qltb_spec 0 a); [qlra|apply Qcle_refl]. Qed.
Lemma above_le a b : a <= b -> above0 a <= above0 b.
Proof. intro. unfold above0. destruct (qltb_spec 0 a), (qltb_spec 0 b); repeat match goal with N : ~ _ < _ |- _ => apply Qcnot_lt_le in N end; qlra. Qed.
Lemma above_add a e : 0 <= e -> above0 (a + e) <= above0 a + e.
Proof. intro. unfold above0. destruct (qltb_spec 0 a), (qltb_spec 0 (a + e)); repeat match goal with N : ~ _ < _ |- _ => apply Qcnot_lt_le in N end; qlra. Qed.
