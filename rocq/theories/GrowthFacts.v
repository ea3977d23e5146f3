(** * GrowthFacts: the formulas on values that grow by the same factor every day. *)
From Coq Require Import ZArith QArith Qcanon Bool List String PeanoNat Lia.
From Verif Require Import Num NumFacts Pandas Sim Frame FrameSpec Ind Signal Api IndSpec ApiSpec RangeSpec RangeFacts ValueSpec FormulaSpec Starts Formula Line IdentFacts OrderFacts SwayFacts BasketFacts SteadySpec SteadyFacts GrowthSpec.
Import ListNotations.
Open Scope list_scope. Open Scope string_scope. Open Scope Qc_scope.

(** from row a to row k every value is g times the one before *)
Definition steps (a k : nat) (g : Qc) (f : nat -> Qc) : Prop := forall j, (a <= j)%nat -> (S j <= k)%nat -> f (S j) = g * f j.
Lemma grows_steps f k g : grows f k g -> steps 0 k g f.
Proof. intros H j _ J. rewrite (H (S j)), (H j) by lia. cbn [Qcpower]. ring. Qed.
Lemma grows_less f k g m : grows f k g -> (m <= k)%nat -> grows f m g.
Proof. intros H M j J. apply H. lia. Qed.
Lemma grows_two f k g i n : grows f k g -> (i + n <= k)%nat -> f (i + n)%nat = f i * g ^ n.
Proof.
  intros H J. induction n as [|n IH]; [rewrite Nat.add_0_r; cbn [Qcpower]; ring|]. rewrite Nat.add_succ_r, (grows_steps f k g H (i + n)%nat) by lia. rewrite IH by lia. cbn [Qcpower]. ring.
Qed.
Lemma steps_less a b k m g f : steps a k g f -> (a <= b)%nat -> (m <= k)%nat -> steps b m g f.
Proof. intros H A M j J K. apply H; lia. Qed.

Section Steps.
  Variables (k : nat) (g : Qc).
  Hypothesis G : 0 < g.
  Lemma lt_grow x y : qltb (g * x) (g * y) = qltb x y.
  Proof.
    destruct (qltb_spec x y) as [A|A], (qltb_spec (g * x) (g * y)) as [B|B]; try reflexivity; exfalso.
    - apply B. rewrite (Qcmult_comm g x), (Qcmult_comm g y). apply Qcmult_lt_compat_r; assumption.
    - apply A. apply Qcnot_le_lt. intro C. apply (Qclt_not_le _ _ B). rewrite (Qcmult_comm g x), (Qcmult_comm g y). apply Qcmult_le_compat_r; [exact C|apply Qclt_le_weak, G].
  Qed.
  Lemma larger_grow x y : larger (g * x) (g * y) = g * larger x y.
  Proof. unfold larger. rewrite lt_grow. destruct (qltb x y); reflexivity. Qed.
  Lemma smaller_grow x y : smaller (g * x) (g * y) = g * smaller x y.
  Proof. unfold smaller. rewrite lt_grow. destruct (qltb y x); reflexivity. Qed.
  Lemma gain_grow x : gain (g * x) = g * gain x.
  Proof. unfold gain. replace 0 with (g * 0) at 1 by ring. rewrite lt_grow. destruct (qltb 0 x); ring. Qed.
  Lemma loss_grow x : loss (g * x) = g * loss x.
  Proof. unfold loss. replace 0 with (g * 0) at 1 by ring. rewrite lt_grow. destruct (qltb x 0); ring. Qed.
  Lemma abs_grow x : abs (g * x) = g * abs x.
  Proof. unfold abs. replace 0 with (g * 0) at 1 by ring. rewrite lt_grow. destruct (qltb x 0); ring. Qed.
  Lemma total_grow f f' n : (forall j, (j < n)%nat -> f' j = g * f j) -> total f' n = g * total f n.
  Proof. intro H. induction n as [|n IH]; cbn [total]; [ring|]. rewrite IH by (intros; apply H; lia). rewrite H by lia. ring. Qed.
  Lemma ratio_grow x y : ratio (g * x) (g * y) = ratio x y.
  Proof.
    assert (N : g <> 0) by (intros ->; discriminate G). unfold ratio, ndiv. assert (E : forall z, qeqb (g * z) 0 = qeqb z 0).
    { intro z. destruct (qeqb z 0) eqn:Q; [apply qeqb_iff in Q; subst z; apply qeqb_iff; ring|]. destruct (qeqb (g * z) 0) eqn:Q2; [|reflexivity]. apply qeqb_iff in Q2. apply Qcmult_integral in Q2 as [Q2|Q2]; [contradiction|]. apply qeqb_iff in Q2. congruence. }
    assert (P : qltb 0 (g * x) = qltb 0 x) by (replace 0 with (g * 0) at 1 by ring; apply lt_grow).
    rewrite !E, P. destruct (qeqb y 0) eqn:Q; [reflexivity|]. f_equal. field. split; [|exact N]. intro Y. apply qeqb_iff in Y. congruence.
  Qed.

  Variable f : nat -> Qc.
  Variables (a : nat).
  Hypothesis H : steps a k g f.
  Lemma steps_change m : steps (a + m) k g (change m f).
  Proof. intros j J K. unfold change. rewrite (H j) by lia. replace (S j - m)%nat with (S (j - m)) by lia. rewrite (H (j - m)%nat) by lia. ring. Qed.
  Lemma steps_abs : steps a k g (fun j => abs (f j)). Proof. intros j J K. rewrite (H j J K). apply abs_grow. Qed.
  Lemma steps_gain : steps a k g (fun j => gain (f j)). Proof. intros j J K. rewrite (H j J K). apply gain_grow. Qed.
  Lemma steps_loss : steps a k g (fun j => loss (f j)). Proof. intros j J K. rewrite (H j J K). apply loss_grow. Qed.
  Lemma steps_sum n : (1 <= n)%nat -> steps (a + (n - 1)) k g (sum_last f n).
  Proof. intros P j J K. unfold sum_last. apply total_grow. intros i I. replace (S (S j) - n + i)%nat with (S (S j - n + i)) by lia. apply H; lia. Qed.
  Lemma steps_mean n : (1 <= n)%nat -> steps (a + (n - 1)) k g (mean_last f n).
  Proof. intros P j J K. unfold mean_last. rewrite (steps_sum n P j J K). unfold Qcdiv. ring. Qed.
  Lemma steps_max n : (1 <= n)%nat -> steps (a + (n - 1)) k g (max_last f n).
  Proof.
    intros P j J K. unfold max_last. replace (S (S j) - n)%nat with (S (S j - n)) by lia. assert (L : (a <= S j - n)%nat) by lia. assert (B : (S j - n + (n - 1) <= j)%nat) by lia.
    revert B. generalize (n - 1)%nat as m. generalize dependent (S j - n)%nat. intros s L m. induction m as [|m IH]; intro B; cbn [max_to]; [apply H; lia|].
    rewrite IH by lia. change (S s + S m)%nat with (S (s + S m)). rewrite (H (s + S m)%nat) by lia. apply larger_grow.
  Qed.
  Lemma steps_min n : (1 <= n)%nat -> steps (a + (n - 1)) k g (min_last f n).
  Proof.
    intros P j J K. unfold min_last. replace (S (S j) - n)%nat with (S (S j - n)) by lia. assert (L : (a <= S j - n)%nat) by lia. assert (B : (S j - n + (n - 1) <= j)%nat) by lia.
    revert B. generalize (n - 1)%nat as m. generalize dependent (S j - n)%nat. intros s L m. induction m as [|m IH]; intro B; cbn [min_to]; [apply H; lia|].
    rewrite IH by lia. change (S s + S m)%nat with (S (s + S m)). rewrite (H (s + S m)%nat) by lia. apply smaller_grow.
  Qed.
  Lemma steps_scale x : steps a k g (fun j => x * f j). Proof. intros j J K. rewrite (H j J K). ring. Qed.
  Variable f' : nat -> Qc.
  Hypothesis H' : steps a k g f'.
  Lemma steps_add : steps a k g (fun j => f j + f' j). Proof. intros j J K. rewrite (H j J K), (H' j J K). ring. Qed.
  Lemma steps_sub : steps a k g (fun j => f j - f' j). Proof. intros j J K. rewrite (H j J K), (H' j J K). ring. Qed.
  Lemma steps_ratio j : (a <= j)%nat -> (S j <= k)%nat -> ratio (f (S j)) (f' (S j)) = ratio (f j) (f' j).
  Proof. intros J K. rewrite (H j J K), (H' j J K). apply ratio_grow. Qed.
End Steps.
Lemma settles {A} (V : nat -> A) a k : (forall j, (a <= j)%nat -> (S j <= k)%nat -> V (S j) = V j) -> (a <= k)%nat -> V k = V a.
Proof. intros H L. induction k as [|k IH]; [replace a with O by lia; reflexivity|]. destruct (Nat.eq_dec a (S k)) as [->|N]; [reflexivity|]. rewrite H by lia. apply IH; [intros; apply H; lia|lia]. Qed.
