(** * BasketFacts: sums, averages and straight lines of w f + w' g. *)
From Coq Require Import ZArith QArith Qcanon Bool List String PeanoNat Lia.
From Verif Require Import Num NumFacts RoundFacts Pandas Frame Ind SeriesFacts Lengths Cells RangeSpec RangeFacts RangeMore Signal Api ApiSpec IndSpec ValueSpec ValueFacts ValueMore Recur FormulaSpec Starts Formula Formula2 Formula3 Line IdentFacts MirrorSpec OrderFacts SwaySpec SwayFacts BasketSpec.
Import ListNotations.
Open Scope list_scope. Open Scope Qc_scope.

Section Mix.
  Variables w w' : Qc.
  Notation mx := (mix w w').
  Lemma total_mix z f g n : (forall j, (j < n)%nat -> z j = mx (f j) (g j)) -> total z n = mx (total f n) (total g n).
  Proof. induction n as [|n IH]; intro H; cbn [total]; [unfold mix; ring|]. rewrite IH by (intros; apply H; lia). rewrite H by lia. unfold mix. ring. Qed.
  Lemma div_mix x y d : mx x y / d = mx (x / d) (y / d). Proof. unfold mix, Qcdiv. ring. Qed.
  Lemma sum_mix z f g p k : (p <= S k)%nat -> (forall j, (S k - p <= j <= k)%nat -> z j = mx (f j) (g j)) -> sum_last z p k = mx (sum_last f p k) (sum_last g p k).
  Proof. intros P H. apply total_mix. intros j J. apply H. lia. Qed.
  Lemma mean_mix z f g p k : (p <= S k)%nat -> (forall j, (S k - p <= j <= k)%nat -> z j = mx (f j) (g j)) -> mean_last z p k = mx (mean_last f p k) (mean_last g p k).
  Proof. intros P H. unfold mean_last. rewrite (sum_mix z f g p k P H). apply div_mix. Qed.
  Lemma ema_mix al z f g n : (forall j, (j <= n)%nat -> z j = mx (f j) (g j)) -> ema al z n = mx (ema al f n) (ema al g n).
  Proof. induction n as [|n IH]; intro H; cbn [ema]; [apply H; lia|]. rewrite IH by (intros; apply H; lia). rewrite H by lia. unfold mix. ring. Qed.
  Lemma ema_from_mix a p z f g k : (a <= k)%nat -> (forall j, (a <= j <= k)%nat -> z j = mx (f j) (g j)) -> ema_from a p z k = mx (ema_from a p f k) (ema_from a p g k).
  Proof. intros K H. apply ema_mix. intros j J. apply H. lia. Qed.
  Lemma run_from_mix a p s t r z f g k : (a <= k)%nat -> r = mx s t -> (forall j, (a <= j <= k)%nat -> z j = mx (f j) (g j)) ->
    run_from a (wilders p) r z k = mx (run_from a (wilders p) s f k) (run_from a (wilders p) t g k).
  Proof.
    intros K S0 H. unfold run_from. assert (Q : forall n, (n <= k - a)%nat -> run (wilders p) r (fun j => z (a + j)%nat) n = mx (run (wilders p) s (fun j => f (a + j)%nat) n) (run (wilders p) t (fun j => g (a + j)%nat) n)).
    { induction n as [|n IH]; intro N; cbn [run]; [exact S0|]. rewrite IH by lia. rewrite H by lia. unfold wilders, mix, Qcdiv. ring. }
    apply Q. lia.
  Qed.
  Lemma slope_mix z f g p k : (p <= S k)%nat -> (forall j, (S k - p <= j <= k)%nat -> z j = mx (f j) (g j)) -> slope_last z p k = mx (slope_last f p k) (slope_last g p k).
  Proof.
    intros P H. unfold slope_last, fit_slope. rewrite <- div_mix. f_equal.
    rewrite (total_mix (last_rows z p k) (last_rows f p k) (last_rows g p k)) by (intros j J; apply H; lia).
    rewrite (total_mix (fun i => nq i * last_rows z p k i) (fun i => nq i * last_rows f p k i) (fun i => nq i * last_rows g p k i))
      by (intros j J; unfold last_rows; rewrite H by lia; unfold mix; ring). unfold mix. ring.
  Qed.
  Lemma end_mix z f g p k : (p <= S k)%nat -> (forall j, (S k - p <= j <= k)%nat -> z j = mx (f j) (g j)) -> end_last z p k = mx (end_last f p k) (end_last g p k).
  Proof.
    intros P H. unfold end_last, fit_start. fold (slope_last z p k) (slope_last f p k) (slope_last g p k). rewrite (slope_mix z f g p k P H).
    rewrite (total_mix (last_rows z p k) (last_rows f p k) (last_rows g p k)) by (intros j J; apply H; lia). unfold mix, Qcdiv. ring.
  Qed.

  (** ** rounding *)
  Lemma apart_scale a d x y : apart_by d x y -> apart_by (abs a * d) (a * x) (a * y).
  Proof.
    intros [X Y]. unfold abs. destruct (qltb_spec a 0) as [N|N].
    - assert (P : 0 <= - a) by (pose proof (Qclt_le_weak _ _ N); qlra). pose proof (mul_le _ _ _ P X) as A. pose proof (mul_le _ _ _ P Y) as B.
      replace (- a * (y + d)) with (- (a * y) + - a * d) in A by ring. replace (- a * (x + d)) with (- (a * x) + - a * d) in B by ring.
      replace (- a * x) with (- (a * x)) in A by ring. replace (- a * y) with (- (a * y)) in B by ring.
      set (u := a * x) in *. set (v := a * y) in *. set (t := - a * d) in *. clearbody u v t. split; qlra.
    - apply Qcnot_lt_le in N. split; (eapply le_of; [apply mul_le; [exact N|eassumption]|ring]).
  Qed.
  Lemma apart_add d e x y u v : apart_by d x y -> apart_by e u v -> apart_by (d + e) (x + u) (y + v). Proof. intros [] []. split; qlra. Qed.
  Lemma apart_sub d e x y u v : apart_by d x y -> apart_by e u v -> apart_by (d + e) (x - u) (y - v). Proof. intros [] []. split; qlra. Qed.
  Lemma apart_trans d e x y z : apart_by d x y -> apart_by e y z -> apart_by (d + e) x z. Proof. intros [] []. split; qlra. Qed.
  Lemma apart_sym d x y : apart_by d x y -> apart_by d y x. Proof. intros []. split; assumption. Qed.
  Lemma apart_eq d e x y : apart_by d x y -> d = e -> apart_by e x y. Proof. intros H <-. exact H. Qed.
  Lemma half_tick : Q2Qc (5 # 100000) = tick4 / zq 2. Proof. apply Qc_is_canon. reflexivity. Qed.
  Lemma r4_apart x : apart_by (tick4 / zq 2) (r4 x) x.
  Proof.
    rewrite <- half_tick. pose proof (r4_err x) as A. pose proof (qabs_ge (r4 x - x)). assert (x - r4 x <= qabs (r4 x - x)) by (unfold qabs; destruct (qltb_spec (r4 x - x) 0); qlra).
    split; qlra.
  Qed.
  Notation sl n := (slack tick4 n w w').
  (** one more rounding *)
  Lemma mix_apart d x y x' y' : apart_by d x y -> apart_by d x' y' -> apart_by (abs w * d + abs w' * d) (mx x x') (mx y y').
  Proof. intros A B. unfold mix. apply apart_add; apply apart_scale; assumption. Qed.
  Lemma r4_mix e x y z : apart_by e z (mx x y) -> apart_by (e + sl 1) (r4 z) (mx (r4 x) (r4 y)).
  Proof.
    intro H. eapply apart_eq; [eapply apart_trans; [eapply apart_trans; [apply r4_apart|exact H]|]; apply apart_sym, mix_apart; apply r4_apart|].
    unfold slack. change (zq 1) with 1. ring.
  Qed.
  Lemma r4_mix0 x y z : z = mx x y -> apart_by (sl 1) (r4 z) (mx (r4 x) (r4 y)).
  Proof. intros ->. eapply apart_eq; [apply (r4_mix 0), apart_refl|ring]. Qed.
  Lemma slack_add u m n : slack u (m + n) w w' = slack u m w w' + slack u n w w'.
  Proof. unfold slack. replace (zq (m + n)) with (zq m + zq n); [ring|]. apply Qc_is_canon. unfold zq, Qcplus. cbn [this Q2Qc]. rewrite !Qred_correct. rewrite inject_Z_plus. reflexivity. Qed.
  Lemma au_fin e a a' d : apart_by e d (mx a a') -> adds_up e w w' (Fin a) (Fin a') (Fin d).
  Proof. intros [A B]. right. exists a, a', d. auto. Qed.
  Lemma au_r4 x y z : z = mx x y -> adds_up (sl 1) w w' (Fin (r4 x)) (Fin (r4 y)) (Fin (r4 z)).
  Proof. intro H. apply au_fin, r4_mix0, H. Qed.
  Lemma au_from e a k x y z : ((a <= k)%nat -> adds_up e w w' x y z) -> adds_up e w w' (from a k x) (from a k y) (from a k z).
  Proof. intro H. unfold from. destruct (Nat.ltb_spec k a); [left; auto|apply H; lia]. Qed.
End Mix.
