(** * SwayFacts: averages and extremes of numbers that are slightly off. *)
From Coq Require Import ZArith QArith Qcanon Bool List String PeanoNat Lia.
From Verif Require Import Num NumFacts RoundFacts Pandas Frame Ind SeriesFacts Lengths Cells RangeSpec RangeFacts RangeMore Signal Api ApiSpec IndSpec ValueSpec ValueFacts ValueMore Recur FormulaSpec Starts Formula Formula2 Formula3 Line IdentFacts MirrorSpec OrderFacts SwaySpec.
Import ListNotations.
Open Scope list_scope. Open Scope Qc_scope.

Lemma le_of x y z : x <= y -> y = z -> x <= z. Proof. intros H <-. exact H. Qed.
Lemma nr_fin e a b : a <= b + e -> b <= a + e -> near e (Fin a) (Fin b). Proof. intros. right. exists a, b. auto. Qed.
Lemma nr_from e a k x y : ((a <= k)%nat -> near e x y) -> near e (from a k x) (from a k y).
Proof. intro H. unfold from. destruct (Nat.ltb_spec k a); [left; auto|apply H; lia]. Qed.
Lemma half_unit : Q2Qc (5 # 100000) + Q2Qc (5 # 100000) = units4 1. Proof. apply Qc_is_canon. reflexivity. Qed.
Lemma r4_up a b e : a <= b + e -> r4 a <= r4 b + (e + units4 1).
Proof.
  intro H. rewrite <- half_unit. pose proof (r4_err a) as A. pose proof (r4_err b) as B. pose proof (qabs_ge (r4 a - a)).
  assert (b - r4 b <= qabs (r4 b - b)) by (unfold qabs; destruct (qltb_spec (r4 b - b) 0); qlra). qlra.
Qed.
Lemma nr_r4 e a b : a <= b + e -> b <= a + e -> near (e + units4 1) (Fin (r4 a)) (Fin (r4 b)).
Proof. intros. apply nr_fin; apply r4_up; assumption. Qed.
Lemma near_eq e e' x y : e = e' -> near e x y -> near e' x y. Proof. intros ->. auto. Qed.

Lemma total_up f g n e : (forall j, (j < n)%nat -> f j <= g j + e) -> total f n <= total g n + nq n * e.
Proof.
  induction n as [|n IH]; intro H; cbn [total]; [replace (nq 0) with 0 by (apply Qc_is_canon; reflexivity); rewrite Qcmult_0_l, Qcplus_0_r; apply Qcle_refl|].
  specialize (IH ltac:(intros; apply H; lia)). specialize (H n ltac:(lia)). rewrite nq_S. replace ((nq n + 1) * e) with (nq n * e + e) by ring. qlra.
Qed.
Lemma avg_up x y n e : (1 <= n)%nat -> x <= y + nq n * e -> x / nq n <= y / nq n + e.
Proof.
  intros N H. assert (P : 0 < nq n) by (apply nq_pos; lia). replace (y / nq n + e) with ((y + nq n * e) / nq n) by (field; apply qc_pos_neq0, P). apply div_le; assumption.
Qed.
Lemma mean_up f g p k e : (1 <= p)%nat -> (p <= S k)%nat -> (forall j, (S k - p <= j <= k)%nat -> f j <= g j + e) -> mean_last f p k <= mean_last g p k + e.
Proof. intros P K H. apply avg_up; [exact P|]. apply total_up. intros j J. apply H. lia. Qed.
Lemma ema_up al f g n e : 0 <= al -> al <= 1 -> (forall j, (j <= n)%nat -> f j <= g j + e) -> ema al f n <= ema al g n + e.
Proof.
  intros A B. induction n as [|n IH]; intro H; cbn [ema]; [apply H; lia|]. specialize (IH ltac:(intros; apply H; lia)).
  pose proof (mul_le al _ _ A (H (S n) (le_n _))) as X. assert (Q : 0 <= 1 - al) by qlra. pose proof (mul_le (1 - al) _ _ Q IH) as Y.
  eapply le_of; [exact (Qcplus_le_compat _ _ _ _ X Y)|ring].
Qed.
Lemma ema_from_up a p f g k e : (1 <= p)%nat -> (a <= k)%nat -> (forall j, (a <= j <= k)%nat -> f j <= g j + e) -> ema_from a p f k <= ema_from a p g k + e.
Proof. intros P K H. destruct (span_01 p P) as [X Y]. apply ema_up; [apply Qclt_le_weak; exact X|exact Y|]. intros j J. apply H. lia. Qed.
Lemma wilders_shift p x u e : (1 <= p)%nat -> wilders p (x + e) (u + e) = wilders p x u + e.
Proof. intro P. unfold wilders. assert (N0 : 0 < nq p) by (apply nq_pos; lia). field. apply qc_pos_neq0, N0. Qed.
Lemma run_up p s t f g n e : (1 <= p)%nat -> s <= t + e -> (forall j, (1 <= j <= n)%nat -> f j <= g j + e) -> run (wilders p) s f n <= run (wilders p) t g n + e.
Proof.
  intros P S0. induction n as [|n IH]; intro H; cbn [run]; [exact S0|]. rewrite <- wilders_shift by exact P. apply wilders_le; [exact P|apply IH; intros; apply H; lia|apply H; lia].
Qed.
Lemma run_from_up a p s t f g k e : (1 <= p)%nat -> s <= t + e -> (forall j, (a <= j <= k)%nat -> f j <= g j + e) -> (a <= k)%nat -> run_from a (wilders p) s f k <= run_from a (wilders p) t g k + e.
Proof. intros P S0 H K. apply run_up; auto. intros j J. apply H. lia. Qed.
Lemma highest_up x y k f g a b M M' e : known x k f -> known y k g -> (forall j, (j <= k)%nat -> f j <= g j + e) -> (b <= k)%nat -> highest x a b M -> highest y a b M' -> M <= M' + e.
Proof.
  intros X Y L B [(j & J & E) _] [_ U]. rewrite X in E by lia. injection E as <-. specialize (U j (g j) J (Y j ltac:(lia))). specialize (L j ltac:(lia)). qlra.
Qed.
Lemma lowest_up x y k f g a b M M' e : known x k f -> known y k g -> (forall j, (j <= k)%nat -> f j <= g j + e) -> (b <= k)%nat -> lowest x a b M -> lowest y a b M' -> M <= M' + e.
Proof.
  intros X Y L B [_ U] [(j & J & E) _]. rewrite Y in E by lia. injection E as <-. specialize (U j (f j) J (X j ltac:(lia))). specialize (L j ltac:(lia)). qlra.
Qed.

Lemma larger_up a b a' b' e : a <= a' + e -> b <= b' + e -> larger a b <= larger a' b' + e.
Proof. intros. unfold larger. destruct (qltb_spec a b), (qltb_spec a' b'); repeat match goal with N : ~ _ < _ |- _ => apply Qcnot_lt_le in N end; qlra. Qed.

(** ** two histories that end alike: what is left of the difference after m common days *)
Lemma ema_step a p f k : (a < k)%nat -> ema_from a p f k = span p * f k + (1 - span p) * ema_from a p f (k - 1).
Proof. intro K. unfold ema_from. destruct k as [|k]; [lia|]. replace (S k - a)%nat with (S (k - a)) by lia. cbn [ema]. replace (S k - 1 - a)%nat with (k - a)%nat by lia. replace (a + S (k - a))%nat with (S k) by lia. reflexivity. Qed.
Lemma ema_inside a p f k lo w : (1 <= p)%nat -> (a <= k)%nat -> inside lo w k f -> lo <= ema_from a p f k /\ ema_from a p f k <= lo + w.
Proof.
  intros P K I. assert (C : forall v, ema_from a p (fun _ => v) k = v) by (intro v; unfold ema_from; induction (k - a)%nat as [|n IH]; cbn [ema]; [reflexivity|rewrite IH; ring]).
  split; [rewrite <- (C lo) at 1|rewrite <- (C (lo + w))]; (apply ema_from_le; [exact P|exact K|]; intros j J; apply I; lia).
Qed.
Lemma nq_add a b : nq (a + b) = nq a + nq b. Proof. induction a as [|a IH]; [change (nq (0 + b)) with (nq b); change (nq 0) with 0; ring|]. cbn [Nat.add]. rewrite !nq_S, IH. ring. Qed.
(** at most d apart *)
Definition apart_by (d x y : Qc) : Prop := x <= y + d /\ y <= x + d.
(** what is left after m days of a difference s, when the day i adds d i *)
Fixpoint left_over (al s : Qc) (d : nat -> Qc) (m : nat) : Qc := match m with O => s | S i => al * d m + (1 - al) * left_over al s d i end.
Lemma apart_mix al x y u v d e : 0 <= al -> al <= 1 -> apart_by d u v -> apart_by e x y -> apart_by (al * d + (1 - al) * e) (al * u + (1 - al) * x) (al * v + (1 - al) * y).
Proof.
  intros A B [U V] [X Y]. assert (Q : 0 <= 1 - al) by qlra.
  split; (eapply le_of; [apply Qcplus_le_compat; [apply mul_le; [exact A|eassumption]|apply mul_le; [exact Q|eassumption]]|ring]).
Qed.
Lemma apart_weaken d e x y : apart_by d x y -> d <= e -> apart_by e x y. Proof. intros [A B] H. split; qlra. Qed.
Lemma apart_refl x : apart_by 0 x x. Proof. split; rewrite Qcplus_0_r; apply Qcle_refl. Qed.
Lemma apart_inside lo w x y : lo <= x /\ x <= lo + w -> lo <= y /\ y <= lo + w -> apart_by w x y. Proof. intros [] []. split; qlra. Qed.
Lemma ema_left a a' p u v k k' s d m : (1 <= p)%nat -> (a <= k)%nat -> (a' <= k')%nat -> apart_by s (ema_from a p u k) (ema_from a' p v k') ->
  (forall i, (1 <= i <= m)%nat -> apart_by (d i) (u (k + i)%nat) (v (k' + i)%nat)) -> apart_by (left_over (span p) s d m) (ema_from a p u (k + m)) (ema_from a' p v (k' + m)).
Proof.
  intros P K K' S0. induction m as [|m IH]; intro D; [rewrite !Nat.add_0_r; exact S0|]. cbn [left_over]. rewrite (ema_step a p u (k + S m)), (ema_step a' p v (k' + S m)) by lia.
  destruct (span_01 p P) as [X Y]. replace (k + S m - 1)%nat with (k + m)%nat by lia. replace (k' + S m - 1)%nat with (k' + m)%nat by lia.
  apply apart_mix; [apply Qclt_le_weak, X|exact Y|apply D; lia|apply IH; intros; apply D; lia].
Qed.
Lemma left_0 al s m : left_over al s (fun _ => 0) m = (1 - al) ^ m * s.
Proof. induction m as [|m IH]; cbn [left_over Qcpower]; [ring|rewrite IH; ring]. Qed.
Lemma left_1 al w m : left_over al w (fun i => (1 - al) ^ i * w) m = (1 + nq m * al) * (1 - al) ^ m * w.
Proof. induction m as [|m IH]; cbn [left_over]; [change (nq 0) with 0; cbn; ring|]. rewrite IH, nq_S. cbn [Qcpower]. ring. Qed.
Lemma two_half x : zq 2 * (x / zq 2) = x. Proof. field. discriminate. Qed.
Lemma left_2 al w m : left_over al w (fun i => (1 + nq i * al) * (1 - al) ^ i * w) m = (1 + nq m * al + nq m * nq (S m) * al * al / zq 2) * (1 - al) ^ m * w.
Proof.
  induction m as [|m IH]; cbn [left_over]; [change (nq 0) with 0; cbn [Qcpower]; unfold Qcdiv; ring|]. rewrite IH, !nq_S. cbn [Qcpower]. replace (zq 2) with (1 + 1) by (apply Qc_is_canon; reflexivity). field. discriminate.
Qed.
(** Wilder's average *)
Lemma wilders_mix p x u : (1 <= p)%nat -> wilders p x u = 1 / nq p * u + (1 - 1 / nq p) * x.
Proof. intro P. unfold wilders. field. apply qc_pos_neq0, nq_pos. lia. Qed.
Lemma inv_01 p : (1 <= p)%nat -> 0 <= 1 / nq p /\ 1 / nq p <= 1.
Proof.
  intro P. assert (N : 0 < nq p) by (apply nq_pos; lia). split; [apply div_nonneg; [exact N|discriminate]|].
  replace 1 with (nq p / nq p) at 2 by (field; apply qc_pos_neq0, N). apply div_le; [exact N|]. destruct p as [|p]; [lia|]. rewrite nq_S. pose proof (qnat_nonneg p) as Q. change (qnat p) with (nq p) in Q. qlra.
Qed.
Lemma run_fades p s t f g k k' a a' m w : (1 <= p)%nat -> (a <= k)%nat -> (a' <= k')%nat -> apart_by w (run_from a (wilders p) s f k) (run_from a' (wilders p) t g k') ->
  (forall i, (1 <= i <= m)%nat -> f (k + i)%nat = g (k' + i)%nat) -> apart_by ((1 - 1 / nq p) ^ m * w) (run_from a (wilders p) s f (k + m)) (run_from a' (wilders p) t g (k' + m)).
Proof.
  intros P K K' S0. rewrite <- left_0. induction m as [|m IH]; intro D; [rewrite !Nat.add_0_r; exact S0|]. cbn [left_over]. specialize (IH ltac:(intros; apply D; lia)).
  assert (R : forall b r q n, (b <= n)%nat -> run_from b (wilders p) r q (n + S m) = wilders p (run_from b (wilders p) r q (n + m)) (q (n + S m)%nat)).
  { intros b0 r q n N. unfold run_from. replace (n + S m - b0)%nat with (S (n + m - b0)) by lia. cbn [run]. f_equal. f_equal. lia. }
  rewrite !R by assumption. rewrite !wilders_mix by exact P. destruct (inv_01 p P). apply apart_mix; auto. rewrite D by lia. apply apart_refl.
Qed.
Lemma run_inside p s f k a lo w : (1 <= p)%nat -> lo <= s /\ s <= lo + w -> inside lo w k f -> (a <= k)%nat -> lo <= run_from a (wilders p) s f k /\ run_from a (wilders p) s f k <= lo + w.
Proof.
  intros P [A B] I K. assert (C : forall v n, run (wilders p) v (fun _ => v) n = v) by (intros v n; induction n as [|n IH]; cbn [run]; [reflexivity|rewrite IH; unfold wilders; replace (v - v) with 0 by ring; unfold Qcdiv; ring]).
  assert (N : 1 <= nq p) by (destruct p as [|p]; [lia|]; rewrite nq_S; pose proof (qnat_nonneg p) as Q; change (qnat p) with (nq p) in Q; qlra). clear N.
  unfold run_from. split; [rewrite <- (C lo (k - a)%nat) at 1|rewrite <- (C (lo + w) (k - a)%nat)]; (apply run_le; [intros; apply wilders_le; auto|assumption|intros j J; apply I; lia]).
Qed.
Lemma mean_inside f p k lo w : (1 <= p)%nat -> (p <= S k)%nat -> inside lo w k f -> lo <= mean_last f p k /\ mean_last f p k <= lo + w.
Proof.
  intros P K I. assert (C : forall v n, total (fun _ => v) n = nq n * v) by (intros v n; induction n as [|n IH]; cbn [total]; [change (nq 0) with 0; ring|rewrite IH, nq_S; ring]).
  assert (E : forall v, mean_last (fun _ => v) p k = v) by (intro v; unfold mean_last, sum_last; rewrite C; field; apply qc_pos_neq0, nq_pos; lia).
  split; [rewrite <- (E lo)|rewrite <- (E (lo + w))]; (apply mean_le; [exact P|exact K|intros j J; apply I; lia]).
Qed.
(** the powers *)
Lemma pow_nonneg r m : 0 <= r -> 0 <= r ^ m.
Proof. intro R. induction m as [|m IH]; cbn [Qcpower]; [discriminate|]. replace 0 with (r * 0) by ring. apply mul_le; assumption. Qed.
Lemma pow_le r q m : 0 <= r -> r <= q -> r ^ m <= q ^ m.
Proof.
  intros R Q. induction m as [|m IH]; cbn [Qcpower]; [apply Qcle_refl|]. apply Qcle_trans with (r * q ^ m); [apply mul_le; assumption|].
  rewrite !(Qcmult_comm _ (q ^ m)). apply mul_le; [apply pow_nonneg; qlra|exact Q].
Qed.
Lemma pow_mul r m n : r ^ (m * n) = (r ^ m) ^ n.
Proof.
  assert (A : forall a c, r ^ (a + c) = r ^ a * r ^ c) by (intros a c; induction a as [|a IH]; cbn [Nat.add Qcpower]; [ring|rewrite IH; ring]).
  induction n as [|n IH]; [rewrite Nat.mul_0_r; reflexivity|]. rewrite Nat.mul_succ_r, Nat.add_comm, A, IH. reflexivity.
Qed.
Lemma bernoulli al m : 0 <= al -> al <= 1 -> (1 - al) ^ m * (1 + nq m * al) <= 1.
Proof.
  intros A B. assert (Q : 0 <= 1 - al) by qlra. induction m as [|m IH]; [change (nq 0) with 0; cbn [Qcpower]; rewrite Qcmult_0_l; discriminate|].
  apply Qcle_trans with ((1 - al) ^ m * (1 + nq m * al)); [|exact IH]. cbn [Qcpower]. rewrite nq_S.
  replace ((1 - al) * (1 - al) ^ m * (1 + (nq m + 1) * al)) with ((1 - al) ^ m * ((1 - al) * (1 + (nq m + 1) * al))) by ring. apply mul_le; [apply pow_nonneg, Q|].
  replace ((1 - al) * (1 + (nq m + 1) * al)) with (1 + nq m * al - (nq m + 1) * (al * al)) by ring.
  pose proof (qnat_nonneg m) as N. change (qnat m) with (nq m) in N. assert (0 <= (nq m + 1) * (al * al)) by (replace 0 with ((nq m + 1) * 0) by ring; apply mul_le; [qlra|replace 0 with (al * 0) by ring; apply mul_le; assumption]). qlra.
Qed.
(** an average of p days loses half of it every (p + 1) / 2 days *)
Lemma halves p n q : (1 <= p)%nat -> (S p <= 2 * n)%nat -> (1 - span p) ^ (n * q) <= Q2Qc (1 # 2) ^ q.
Proof.
  intros P N. destruct (span_01 p P) as [X Y]. rewrite pow_mul. apply pow_le; [apply pow_nonneg; qlra|]. pose proof (bernoulli (span p) n (Qclt_le_weak _ _ X) Y) as B.
  assert (H : 1 <= nq n * span p).
  { unfold span. assert (NP : 0 < nq (S p)) by (apply nq_pos; lia). replace 1 with (nq (S p) / nq (S p)) by (field; apply qc_pos_neq0, NP). replace (nq n * (zq 2 / nq (S p))) with (nq n * zq 2 / nq (S p)) by (unfold Qcdiv; ring).
    apply div_le; [exact NP|]. replace (nq n * zq 2) with (nq (2 * n)); [|replace (2 * n)%nat with (n + n)%nat by lia; rewrite nq_add; replace (zq 2) with (1 + 1) by (apply Qc_is_canon; reflexivity); ring].
    replace (2 * n)%nat with (S p + (2 * n - S p))%nat by lia. rewrite nq_add. pose proof (qnat_nonneg (2 * n - S p)) as Q. change (qnat (2 * n - S p)) with (nq (2 * n - S p)) in Q. qlra. }
  assert (R : 0 <= (1 - span p) ^ n) by (apply pow_nonneg; qlra). pose proof (mul_le _ _ _ R H) as M. set (r := (1 - span p) ^ n) in *. replace (r * (1 + nq n * span p)) with (r + r * (nq n * span p)) in B by ring. rewrite Qcmult_1_r in M. qlra.
Qed.
