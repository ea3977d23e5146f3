(** * OrderApi2: the day's value when the day's close is higher. *)
From Coq Require Import ZArith QArith Qcanon Bool List String PeanoNat Lia Sorted Permutation.
From Verif Require Import Num NumFacts RoundFacts Pandas Sim Frame FrameSpec FrameProofs Ind Signal Api IndSpec SeriesFacts Lengths Causal IndFacts Shape ApiSpec ApiCheck ApiProofs ApiLemmas RangeSpec Cells RangeFacts RangeMore Publish RangeApi ValueSpec ValueFacts ValueMore Recur ValueApi CumulApi.
From Verif Require Import FormulaSpec Starts Formula Formula2 Formula3 Formula4 Line Formula5 Formula6 FormulaApi IdentFacts MirrorSpec MirrorApi3 MirrorAll OrderSpec OrderFacts OrderFacts2 OrderFacts3.
Import ListNotations.
Open Scope list_scope. Open Scope string_scope. Open Scope Qc_scope.

Lemma ple_r4 a b : a <= b -> present_le (Fin (r4 a)) (Fin (r4 b)). Proof. intro H. apply ple_fin, r4_le, H. Qed.
Lemma change0 m f k : (k < m)%nat -> change m f k = f k - f 0%nat.
Proof. intro. unfold change. replace (k - m)%nat with 0%nat by lia. reflexivity. Qed.

Lemma span_last p f g n : (1 <= n)%nat -> (forall j, (j < n)%nat -> g j = f j) -> ema_from 0 p g n = ema_from 0 p f n + span p * (g n - f n).
Proof.
  intros N S1. unfold ema_from. rewrite Nat.sub_0_r. destruct n as [|m]; [lia|]. cbn [ema]. pose proof (ema_same_rows 0 p f g m ltac:(intros; apply S1; lia)) as Q. cbn [plus] in *. rewrite Q. ring.
Qed.

Lemma trend_same k h l c d : (forall j, j <> k -> d j = c j) -> forall j, (j < k)%nat -> trend h l d j = trend h l c j.
Proof. intros S1 j J. unfold trend. rewrite !S1 by lia. reflexivity. Qed.
Lemma measure_same k h l c d : (forall j, j <> k -> d j = c j) -> forall j, (j < k)%nat -> measure h l d j = measure h l c j.
Proof.
  intros S1 j. induction j as [|i IH]; intro J; [reflexivity|]. cbn [measure]. rewrite (trend_same k h l c d S1 (S i) J). rewrite (trend_same k h l c d S1 i) by lia. rewrite IH by lia. reflexivity.
Qed.
Lemma force_le k h l c d v : only k c d -> 0 <= v k -> force h l c v k <= force h l d v k.
Proof.
  intros O V. assert (T : trend h l d k = trend h l c k \/ trend h l c k = - (1) /\ trend h l d k = 1).
  { unfold trend. destruct k as [|m].
    - cbn [Nat.sub]. left. destruct (qltb (h 0%nat + l 0%nat + d 0%nat) _) eqn:X; [apply qltb_iff in X; exfalso; exact (Qclt_not_le _ _ X (Qcle_refl _))|]. destruct (qltb (h 0%nat + l 0%nat + c 0%nat) _) eqn:Y; [apply qltb_iff in Y; exfalso; exact (Qclt_not_le _ _ Y (Qcle_refl _))|]. reflexivity.
    - replace (S m - 1)%nat with m by lia. rewrite (proj1 O m) by lia. pose proof (proj2 O) as R. cbn beta in R. destruct (qltb _ (h (S m) + l (S m) + d (S m))) eqn:X; destruct (qltb _ (h (S m) + l (S m) + c (S m))) eqn:Y; auto.
      apply qltb_iff in Y. apply qltb_false in X. exfalso. revert X Y R. generalize (h m + l m + c m). intros. qlra. }
  unfold force. destruct T as [T|[T T']].
  - assert (M : measure h l d k = measure h l c k).
    { destruct k as [|m]; [reflexivity|]. cbn [measure]. rewrite T, (trend_same (S m) h l c d (proj1 O) m), (measure_same (S m) h l c d (proj1 O) m) by lia. reflexivity. }
    rewrite T, M. apply Qcle_refl.
  - rewrite T, T'. set (x := abs (zq 2 * ((h k - l k) / measure h l c k) - 1)). set (y := abs (zq 2 * ((h k - l k) / measure h l d k) - 1)).
    assert (X : 0 <= v k * x) by (apply mul_nonneg; [exact V|apply abs_nonneg]). assert (Y : 0 <= v k * y) by (apply mul_nonneg; [exact V|apply abs_nonneg]).
    assert (H0 : 0 <= zq 100) by discriminate. pose proof (mul_nonneg _ _ H0 X). pose proof (mul_nonneg _ _ H0 Y).
    replace (v k * x * - (1) * zq 100) with (- (zq 100 * (v k * x))) by ring. replace (v k * y * 1 * zq 100) with (zq 100 * (v k * y)) by ring. qlra.
Qed.
Lemma span_last_from a p f g n : (a < n)%nat -> (forall j, (j < n)%nat -> g j = f j) -> ema_from a p g n = ema_from a p f n + span p * (g n - f n).
Proof.
  intros N S1. unfold ema_from. destruct (n - a)%nat as [|m] eqn:X; [lia|]. cbn [ema]. pose proof (ema_same_rows a p f g m ltac:(intros; apply S1; lia)) as Q. cbn [plus] in *. rewrite Q. replace (a + S m)%nat with n by lia. ring.
Qed.

(** differences of rounded values *)
Lemma r4_tick x : exists z, r4 x * zq 10000 = zq z.
Proof. exists (rhe (this (x * zq 10000))). unfold r4, qround. change (Q2Qc (inject_Z (pow10 4))) with (zq 10000). fold (zq (rhe (this (x * zq 10000)))). assert (N : zq 10000 <> 0) by discriminate. revert N. generalize (zq 10000) (zq (rhe (this (x * zq 10000)))). intros a b N. field. exact N. Qed.
Lemma zq_plus a b : zq (a + b) = zq a + zq b. Proof. apply Qc_is_canon. unfold zq, Qcplus. cbn [this Q2Qc]. rewrite !Qred_correct. rewrite inject_Z_plus. reflexivity. Qed.
Lemma zq_opp a : zq (- a) = - zq a. Proof. apply Qc_is_canon. unfold zq, Qcopp. cbn [this Q2Qc]. rewrite !Qred_correct. reflexivity. Qed.
Lemma zq_above a b : zq a < zq b -> (a < b)%Z. Proof. unfold zq, Qclt. cbn [this Q2Qc]. rewrite !Qred_correct. unfold Qlt. cbn. lia. Qed.
Lemma zq_le a b : (a <= b)%Z -> zq a <= zq b. Proof. intro H. unfold zq, Qcle. cbn [this Q2Qc]. rewrite !Qred_correct. unfold Qle. cbn. lia. Qed.
Lemma near x : r4 x * zq 10000 - x * zq 10000 <= Q2Qc (1 # 2) /\ x * zq 10000 - r4 x * zq 10000 <= Q2Qc (1 # 2).
Proof.
  pose proof (r4_err x) as E. assert (E2 : r4 x - x <= Q2Qc (5 # 100000)) by (revert E; unfold qabs; destruct (qltb (r4 x - x) 0) eqn:Q; [apply qltb_iff in Q; intro; assert (0 <= Q2Qc (5 # 100000)) by discriminate; qlra|auto]).
  assert (E1 : - Q2Qc (5 # 100000) <= r4 x - x) by (revert E; unfold qabs; destruct (qltb (r4 x - x) 0) eqn:Q; [intro; qlra|apply qltb_false in Q; intro; assert (0 <= Q2Qc (5 # 100000)) by discriminate; qlra]). assert (P : 0 <= zq 10000) by discriminate. pose proof (mul_le _ _ _ P E1) as A. pose proof (mul_le _ _ _ P E2) as B.
  replace (zq 10000 * (r4 x - x)) with (r4 x * zq 10000 - x * zq 10000) in A, B by ring. assert (H : zq 10000 * Q2Qc (5 # 100000) = Q2Qc (1 # 2)) by (apply Qc_is_canon; reflexivity).
  replace (zq 10000 * - Q2Qc (5 # 100000)) with (- (zq 10000 * Q2Qc (5 # 100000))) in A by ring. rewrite H in *. split; qlra.
Qed.
Lemma rounded_gap a a' e e' : 0 <= e' - e -> e' - e < a' - a -> r4 a - r4 e - Q2Qc (1 # 10000) <= r4 a' - r4 e'.
Proof.
  intros E0 E. destruct (r4_tick a) as (z1 & Z1). destruct (r4_tick a') as (z2 & Z2). destruct (r4_tick e) as (z3 & Z3). destruct (r4_tick e') as (z4 & Z4).
  destruct (near a) as [A1 A2]. destruct (near a') as [B1 B2]. destruct (near e) as [C1 C2]. destruct (near e') as [D1 D2]. rewrite Z1, Z2, Z3, Z4 in *.
  assert (X : zq (-2) < zq (z2 - z1 - (z4 - z3))).
  { replace (z2 - z1 - (z4 - z3))%Z with (z2 + - z1 + - (z4 + - z3))%Z by ring. rewrite !zq_plus, !zq_opp, !zq_plus, !zq_opp. assert (T : zq (-2) = - Q2Qc (1 # 2) - Q2Qc (1 # 2) - Q2Qc (1 # 2) - Q2Qc (1 # 2)) by (apply Qc_is_canon; reflexivity). rewrite T. clear T Z1 Z2 Z3 Z4.
    assert (E1 : e' * zq 10000 - e * zq 10000 < a' * zq 10000 - a * zq 10000). { replace (e' * zq 10000 - e * zq 10000) with ((e' - e) * zq 10000) by ring. replace (a' * zq 10000 - a * zq 10000) with ((a' - a) * zq 10000) by ring. apply Qcmult_lt_compat_r; [reflexivity|exact E]. }
    set (h := Q2Qc (1 # 2)) in *. clearbody h. qlra. }
  apply zq_above in X. assert (Y : zq (-1) <= zq (z2 - z1 - (z4 - z3))) by (apply zq_le; lia).
  replace (z2 - z1 - (z4 - z3))%Z with (z2 + - z1 + - (z4 + - z3))%Z in Y by ring. rewrite !zq_plus, !zq_opp, !zq_plus, !zq_opp, <- Z1, <- Z2, <- Z3, <- Z4 in Y.
  assert (U : 0 <= Q2Qc (1 # 10000)) by discriminate. pose proof (mul_le _ _ _ U Y) as Q.
  assert (U1 : Q2Qc (1 # 10000) * zq (-1) = - Q2Qc (1 # 10000)) by (apply Qc_is_canon; reflexivity). assert (U2 : forall x, Q2Qc (1 # 10000) * (x * zq 10000) = x). { intro x. replace (Q2Qc (1 # 10000) * (x * zq 10000)) with (x * (Q2Qc (1 # 10000) * zq 10000)) by ring. replace (Q2Qc (1 # 10000) * zq 10000) with 1 by (apply Qc_is_canon; reflexivity). ring. }
  rewrite U1 in Q. replace (Q2Qc (1 # 10000) * (r4 a' * zq 10000 + - (r4 a * zq 10000) + - (r4 e' * zq 10000 + - (r4 e * zq 10000))))
    with (Q2Qc (1 # 10000) * (r4 a' * zq 10000) - Q2Qc (1 # 10000) * (r4 a * zq 10000) - (Q2Qc (1 # 10000) * (r4 e' * zq 10000) - Q2Qc (1 # 10000) * (r4 e * zq 10000))) in Q by ring. rewrite !U2 in Q. qlra.
Qed.

Section Raised.
  Variables (o : oracle) (raw raw' : rawframe) (b b' : bool) (ob ob' : obj) (k : nat) (op h l c c' v : nat -> Qc).
  Hypothesis W : wf_raw raw. Hypothesis W' : wf_raw raw'.
  Hypothesis O : only k c c'.
  Notation both c := (twice c o raw raw' b b' ob ob').
  Notation same n f := (known (given n ob) k f /\ known (given n ob') k f).
  Notation closes := (known (given "close" ob) k c /\ known (given "close" ob') k c').
  Notation kept n := (present_le (shown n ob k) (shown n ob' k)).
  Ltac start := let A := fresh "A" in let B := fresh "B" in intros [A B].
  Ltac period p := assert (P : (1 <= nat_arg p)%nat) by (let fr := fresh in let V := fresh in let VV := fresh in look fr V VV; lia).
  Let SM : forall j, j <> k -> c' j = c j := proj1 O.
  Let R : c k <= c' k := proj2 O.

  (** gains and losses over m days *)
  Lemma ups m : (1 <= m)%nat -> forall j, (m <= j <= k)%nat -> gain (change m c j) <= gain (change m c' j).
  Proof. intros M j J. apply (gain_up k c c' O); lia. Qed.
  Lemma downs m : (1 <= m)%nat -> forall j, (m <= j <= k)%nat -> loss (change m c' j) <= loss (change m c j).
  Proof. intros M j J. apply (gain_up k c c' O); lia. Qed.

  Lemma up_cmo p : both (cCMO p) -> closes -> kept "cmo".
  Proof.
    start. intros [K K']. period p. rewrite (chande_momentum_shown o raw b ob W p k c A K), (chande_momentum_shown o raw' b' ob' W' p k c' B K'). cbv zeta.
    apply ple_from. intro G. apply ple_rn, balance_le.
    - apply total_nonneg. intros. apply gain_nonneg.
    - apply total_nonneg. intros. apply loss_nonneg.
    - apply total_le. intros j J. apply ups; lia.
    - apply total_le. intros j J. apply downs; lia.
  Qed.
  Lemma smooth_le p f g : (1 <= p)%nat -> (p <= k)%nat -> (forall j, (1 <= j <= k)%nat -> f j <= g j) ->
    run_from p (fun prev y => r4 (wilders p prev y)) (mean_last f p p) f k <= run_from p (fun prev y => r4 (wilders p prev y)) (mean_last g p p) g k.
  Proof.
    intros P K H. apply run_from_le; [intros; apply r4_le, wilders_le; auto| |intros; apply H; lia]. apply div_le; [apply nq_pos; lia|]. apply total_le. intros j J. apply H. lia.
  Qed.
  Lemma smooth_nonneg p f : (1 <= p)%nat -> (p <= k)%nat -> (forall j, 0 <= f j) -> 0 <= run_from p (fun prev y => r4 (wilders p prev y)) (mean_last f p p) f k.
  Proof.
    intros P K H. unfold run_from. apply run_nonneg.
    - apply div_nonneg; [apply nq_pos; lia|]. apply total_nonneg. auto.
    - intros x j J X. apply Qcle_trans with (r4 (wilders p 0 0)); [|apply r4_le, wilders_le; auto]. unfold wilders. replace (0 + (0 - 0) / nq p) with 0 by (unfold Qcdiv; ring). rewrite r4_0. apply Qcle_refl.
  Qed.
  Lemma r4_nonneg a : 0 <= a -> 0 <= r4 a. Proof. intro H. rewrite <- r4_0. apply r4_le, H. Qed.
  Lemma up_rsi p : both (cRSI p) -> closes -> kept "rsi".
  Proof.
    start. intros [K K']. period p. rewrite (relative_strength_shown o raw b ob W p k c A K), (relative_strength_shown o raw' b' ob' W' p k c' B K'). cbv zeta.
    apply ple_from. intro G. apply ple_rn, share_le.
    - apply smooth_nonneg; auto. intro. apply r4_nonneg, gain_nonneg.
    - apply smooth_nonneg; auto. intro. apply r4_nonneg, loss_nonneg.
    - apply smooth_le; auto. intros j J. apply r4_le, ups; lia.
    - apply smooth_le; auto. intros j J. apply r4_le, downs; lia.
  Qed.
  Lemma wilder_nonneg a p f : (1 <= p)%nat -> (forall j, 0 <= f j) -> 0 <= wilder_from a p f k.
  Proof.
    intros P H. unfold wilder_from, run_from. apply run_nonneg.
    - apply div_nonneg; [apply nq_pos; lia|]. apply total_nonneg. auto.
    - intros x j J X. apply Qcle_trans with (wilders p 0 0); [|apply wilders_le; auto]. unfold wilders. replace (0 + (0 - 0) / nq p) with 0 by (unfold Qcdiv; ring). apply Qcle_refl.
  Qed.
  Lemma up_rmi p q : both (cRMI p q) -> closes -> kept "rmi".
  Proof.
    start. intros [K K']. period p. assert (Q : (1 <= nat_arg q)%nat) by (look fr V VV; lia).
    rewrite (relative_momentum_shown o raw b ob W p q k c A K), (relative_momentum_shown o raw' b' ob' W' p q k c' B K'). cbv zeta.
    apply ple_from. intro G. set (n := nat_arg p) in *. set (m := nat_arg q) in *.
    assert (U0 : 0 <= wilder_from m n (fun j => gain (change m c j)) k) by (apply wilder_nonneg; auto; intro; apply gain_nonneg).
    assert (D0 : 0 <= wilder_from m n (fun j => loss (change m c' j)) k) by (apply wilder_nonneg; auto; intro; apply loss_nonneg).
    assert (U : wilder_from m n (fun j => gain (change m c j)) k <= wilder_from m n (fun j => gain (change m c' j)) k) by (apply wilder_from_le; [auto|lia|intros; apply ups; auto]).
    assert (DD : wilder_from m n (fun j => loss (change m c' j)) k <= wilder_from m n (fun j => loss (change m c j)) k) by (apply wilder_from_le; [auto|lia|intros; apply downs; auto]).
    destruct (qeqb (wilder_from m n (fun j => loss (change m c j)) k) 0) eqn:X; [left; reflexivity|]. destruct (qeqb (wilder_from m n (fun j => loss (change m c' j)) k) 0) eqn:Y; [right; left; reflexivity|].
    apply qeqb_false in X. apply qeqb_false in Y. pose proof (share_le _ _ _ _ U0 D0 U DD) as Z. unfold ratio, ndiv in Z.
    assert (X1 : 0 < wilder_from m n (fun j => loss (change m c j)) k) by (apply qc_nonneg_neq0_pos; [qlra|exact X]). assert (Y1 : 0 < wilder_from m n (fun j => loss (change m c' j)) k) by (apply qc_nonneg_neq0_pos; auto).
    rewrite (proj2 (qeqb_false _ _) (qc_pos_neq0 (wilder_from m n (fun j => gain (change m c j)) k + wilder_from m n (fun j => loss (change m c j)) k) ltac:(qlra))) in Z.
    rewrite (proj2 (qeqb_false _ _) (qc_pos_neq0 (wilder_from m n (fun j => gain (change m c' j)) k + wilder_from m n (fun j => loss (change m c' j)) k) ltac:(qlra))) in Z.
    apply (ple_rn _ _ Z).
  Qed.
  Lemma up_imi p : both (cIMI p) -> same "open" op -> closes -> kept "imi".
  Proof.
    start. intros [Q Q'] [K K']. period p. rewrite (intraday_momentum_shown o raw b ob W p k op c A Q K), (intraday_momentum_shown o raw' b' ob' W' p k op c' B Q' K'). cbv zeta.
    apply ple_from. intro G. pose proof (only_le k c c' O) as L. apply ple_rn, share_le.
    - apply total_nonneg. intros. apply gain_nonneg.
    - apply total_nonneg. intros. apply gain_nonneg.
    - apply total_le. intros j J. specialize (L (S k - nat_arg p + j)%nat). unfold gain. cases; qlra.
    - apply total_le. intros j J. specialize (L (S k - nat_arg p + j)%nat). unfold gain. cases; qlra.
  Qed.
  Lemma up_qstick p : both (cQS p) -> same "open" op -> closes -> kept "qstick".
  Proof.
    start. intros [Q Q'] [K K']. period p. rewrite (qstick_shown o raw b ob W p k op c A Q K), (qstick_shown o raw' b' ob' W' p k op c' B Q' K'). cbv zeta.
    apply ple_from. intro G. apply ple_r4, mean_le; [exact P|lia|]. intros j J. pose proof (only_le k c c' O j). qlra.
  Qed.
  Lemma up_mom p : both (cMOM p) -> (forall j, (j <= k)%nat -> 0 < c j) -> closes -> kept "mom".
  Proof.
    start. intros PS [K K']. period p. destruct (Nat.lt_ge_cases k (nat_arg p)) as [G|G].
    - rewrite (mom_shown_early o raw b ob W p k A G). left. reflexivity.
    - rewrite (mom_shown o raw b ob W p k (c k) (c (k - nat_arg p)%nat) A) by (auto; apply K; lia). rewrite (mom_shown o raw' b' ob' W' p k (c' k) (c' (k - nat_arg p)%nat) B) by (auto; apply K'; lia).
      rewrite (SM (k - nat_arg p)%nat) by lia. apply (ple_rn (ratio _ _) (ratio _ _)), ple_ratio; [apply mul_le; [discriminate|exact R]|]. apply Qclt_le_weak, PS. lia.
  Qed.
  Lemma up_prc p : both (cPRC p) -> (forall j, (j <= k)%nat -> 0 < c j) -> closes -> kept "prc".
  Proof.
    start. intros PS [K K']. period p. destruct (Nat.lt_ge_cases k (nat_arg p)) as [G|G].
    - rewrite (prc_shown_early o raw b ob W p k A G). left. reflexivity.
    - rewrite (prc_shown o raw b ob W p k (c k) (c (k - nat_arg p)%nat) A) by (auto; apply K; lia). rewrite (prc_shown o raw' b' ob' W' p k (c' k) (c' (k - nat_arg p)%nat) B) by (auto; apply K'; lia).
      rewrite (SM (k - nat_arg p)%nat) by lia. apply (ple_rn (ratio _ _) (ratio _ _)), ple_ratio; [apply mul_le; [discriminate|qlra]|]. apply Qclt_le_weak, PS. lia.
  Qed.
  Lemma up_prf p q : both (cPRF p q) -> (forall j, (j <= k)%nat -> 0 < c j) -> closes -> kept "prf".
  Proof.
    start. intros PS [K K']. rewrite (performance_shown o raw b ob W p q k c A K), (performance_shown o raw' b' ob' W' p q k c' B K'). apply ple_rn.
    destruct (Nat.eq_dec k 0) as [->|N].
    - apply ratio_cross; [apply Qclt_le_weak, PS; lia|apply Qcle_trans with (c 0%nat); [apply Qclt_le_weak, PS; lia|exact R]|intros _; ring|intros _; ring|].
      replace (c 0%nat - c 0%nat) with 0 by ring. replace (c' 0%nat - c' 0%nat) with 0 by ring. replace (0 * c' 0%nat) with 0 by ring. replace (0 * c 0%nat) with 0 by ring. apply Qcle_refl.
    - rewrite (SM 0%nat) by lia. apply ple_ratio; [qlra|]. apply Qclt_le_weak, PS. lia.
  Qed.
  Lemma up_wr p : both (cWR p) -> (forall j, (j <= k)%nat -> l j <= h j) -> same "high" h -> same "low" l -> closes -> kept "wr".
  Proof.
    start. intros HL [H H'] [L L'] [K K']. period p. rewrite (williams_r_shown o raw b ob W p k h l c A H L K), (williams_r_shown o raw' b' ob' W' p k h l c' B H' L' K'). cbv zeta.
    apply ple_from. intro G. apply ple_rn. set (t := max_last h (nat_arg p) k). set (u := min_last l (nat_arg p) k).
    assert (WN : 0 <= t - u) by (apply width_nonneg; auto; lia).
    assert (E : forall x, nmul (Fin (- zq 100)) (ratio (t - x) (t - u)) = ratio (zq 100 * (x - t)) (t - u)).
    { intro x. replace (ratio (t - x) (t - u)) with (nneg (ratio (x - t) (t - u))).
      - rewrite <- ratio_scale by reflexivity. destruct (ratio (x - t) (t - u)) as [| | |q]; cbn; try reflexivity. f_equal. ring.
      - rewrite <- MirrorFacts.ndiv_opp. f_equal. ring. }
    rewrite !E. apply ple_ratio; [apply mul_le; [discriminate|qlra]|exact WN].
  Qed.
  Lemma width_sum n s j : (1 <= n)%nat -> (1 <= s)%nat -> (n + s - 2 <= j <= k)%nat -> (forall j, (j <= k)%nat -> l j <= h j) -> 0 <= sum_last (fun i => max_last h n i - min_last l n i) s j.
  Proof. intros N N1 J HL. apply total_nonneg. intros i I. apply width_nonneg; [auto|lia|]. intros. apply HL. lia. Qed.
  Lemma place_sum n s j : (1 <= n)%nat -> (1 <= s)%nat -> sum_last (fun i => c i - min_last l n i) s j <= sum_last (fun i => c' i - min_last l n i) s j.
  Proof. intros N N1. apply total_le. intros i I. pose proof (only_le k c c' O (S j - s + i)%nat). qlra. Qed.
  Lemma so_args p q r m rw bb ob0 : wf_raw rw -> snd (construct o (cSO p q r m) (RFrame rw) (VBool bb)) = Ok ob0 -> (1 <= nat_arg p /\ 1 <= nat_arg q /\ 1 <= nat_arg r)%nat.
  Proof. intros WW A. look fr V VV. lia. Qed.
  Lemma up_so p q r m : both (cSO p q r m) -> (forall j, (j <= k)%nat -> l j <= h j) -> same "high" h -> same "low" l -> closes -> kept "%K".
  Proof.
    start. intros HL [H H'] [L L'] [K K']. destruct (so_args p q r m raw b ob W A) as (P & Q & _).
    rewrite (stochastic_shown o raw b ob W p q r m k h l c A H L K), (stochastic_shown o raw' b' ob' W' p q r m k h l c' B H' L' K'). cbv zeta.
    apply ple_from. intro G. apply ple_rn, ple_ratio; [apply mul_le; [discriminate|apply place_sum; auto]|apply width_sum; auto; lia].
  Qed.
  Lemma up_so_d p q r : both (cSO p q r (VStr "simple")) -> (forall j, (j <= k)%nat -> l j <= h j) ->
    (forall j, (nat_arg p + nat_arg q - 2 <= j <= k)%nat -> sum_last (fun i => max_last h (nat_arg p) i - min_last l (nat_arg p) i) (nat_arg q) j <> 0) ->
    same "high" h -> same "low" l -> closes -> kept "%D".
  Proof.
    start. intros HL NZ [H H'] [L L'] [K K']. destruct (so_args p q r _ raw b ob W A) as (P & Q & RR).
    rewrite (stochastic_signal_shown o raw b ob W p q r k h l c A NZ H L K), (stochastic_signal_shown o raw' b' ob' W' p q r k h l c' B NZ H' L' K'). cbv zeta.
    apply ple_from. intro G. apply ple_r4. apply div_le; [apply nq_pos; lia|]. apply total_le. intros j J. apply r4_le, div_le.
    - apply qc_nonneg_neq0_pos; [apply width_sum; auto; lia|apply NZ; lia].
    - apply mul_le; [discriminate|apply place_sum; auto].
  Qed.
  Lemma up_smi p q r : both (cSMI p q r) -> (forall j, (j <= k)%nat -> l j <= h j) -> same "high" h -> same "low" l -> closes -> kept "smi".
  Proof.
    start. intros HL [H H'] [L L'] [K K']. assert (P : (1 <= nat_arg p /\ 1 <= nat_arg q /\ 1 <= nat_arg r)%nat) by (look fr V VV; lia). destruct P as (P & Q & RR).
    rewrite (stochastic_momentum_shown o raw b ob W p q r k h l c A H L K), (stochastic_momentum_shown o raw' b' ob' W' p q r k h l c' B H' L' K'). cbv zeta.
    apply ple_from. intro G. apply ple_rn, ple_ratio.
    - apply mul_le; [discriminate|]. apply ema_from_le; [auto|lia|]. intros j J. apply ema_from_le; [auto|lia|]. intros i I. pose proof (only_le k c c' O i). qlra.
    - apply div_nonneg; [reflexivity|]. apply ema_nonneg; [auto|lia|]. intros j J. apply ema_nonneg; [auto|lia|]. intros i I. apply width_nonneg; [auto|lia|]. intros. apply HL. lia.
  Qed.
  Lemma up_cci p : both (cCCI p) -> same "high" h -> same "low" l -> closes -> kept "cci".
  Proof.
    start. intros [H H'] [L L'] [K K']. period p.
    rewrite (commodity_channel_shown o raw b ob W p k h l c A H L K), (commodity_channel_shown o raw' b' ob' W' p k h l c' B H' L' K'). cbv zeta.
    apply ple_from. intro G. apply ple_rn. set (t := typical h l c). set (t' := typical h l c').
    destruct (nat_arg p) as [|q]; [lia|]. set (s := (S k - S q)%nat).
    assert (E : (s + q)%nat = k) by lia.
    assert (S1 : forall j, (j < q)%nat -> t' (s + j)%nat = t (s + j)%nat) by (intros j J; unfold t, t', typical; rewrite SM by lia; reflexivity).
    assert (S2 : t (s + q)%nat <= t' (s + q)%nat) by (rewrite E; apply div_le; [reflexivity|]; qlra).
    destruct (closer q (fun j => t (s + j)%nat) (fun j => t' (s + j)%nat) S1 S2) as (D0 & D1 & Z0 & Z1 & X). cbv beta in *. rewrite E in *.
    change (mean_last t (S q) k) with (total (fun j => t (s + j)%nat) (S q) / nq (S q)). change (mean_last t' (S q) k) with (total (fun j => t' (s + j)%nat) (S q) / nq (S q)).
    unfold mean_last, sum_last. fold s.
    set (M := total (fun j => t (s + j)%nat) (S q) / nq (S q)) in *. set (M' := total (fun j => t' (s + j)%nat) (S q) / nq (S q)) in *.
    set (DD := total (fun j => abs (M - t (s + j)%nat)) (S q)) in *. set (DD' := total (fun j => abs (M' - t' (s + j)%nat)) (S q)) in *.
    assert (N : 0 < nq (S q)) by (apply nq_pos; lia). assert (F : 0 < Q2Qc (15 # 1000)) by reflexivity.
    assert (T : forall x, Q2Qc (15 # 1000) * (x / nq (S q)) = 0 -> x = 0).
    { intros x Y. apply Qcmult_integral in Y as [Y|Y]; [exfalso; exact (qc_pos_neq0 _ F Y)|]. replace x with (x / nq (S q) * nq (S q)) by (field; apply qc_pos_neq0; exact N). rewrite Y. ring. }
    apply ratio_cross.
    - apply mul_nonneg; [apply Qclt_le_weak; exact F|apply div_nonneg; auto].
    - apply mul_nonneg; [apply Qclt_le_weak; exact F|apply div_nonneg; auto].
    - intro Y. apply Z0, T, Y.
    - intro Y. apply Z1, T, Y.
    - assert (FN : 0 <= Q2Qc (15 # 1000) / nq (S q)) by (apply div_nonneg; [exact N|apply Qclt_le_weak; exact F]). pose proof (mul_le _ _ _ FN X) as Y.
      replace ((t k - M) * (Q2Qc (15 # 1000) * (DD' / nq (S q)))) with (Q2Qc (15 # 1000) / nq (S q) * ((t k - M) * DD')) by (unfold Qcdiv; ring).
      replace ((t' k - M') * (Q2Qc (15 # 1000) * (DD / nq (S q)))) with (Q2Qc (15 # 1000) / nq (S q) * ((t' k - M') * DD)) by (unfold Qcdiv; ring). exact Y.
  Qed.
  Lemma reach_same j : (1 <= j <= k)%nat -> reach h l c' j = reach h l c j /\ pressure l c j <= pressure l c' j.
  Proof. intro J. unfold reach, pressure, true_high, true_low. rewrite (SM (j - 1)%nat) by lia. split; [reflexivity|]. pose proof (only_le k c c' O j). qlra. Qed.
  Lemma reach_nonneg x j : l j <= h j -> 0 <= reach h l x j.
  Proof. intro. unfold reach, true_high, true_low, larger, smaller. cases; qlra. Qed.
  Lemma up_uo : both cUO -> (forall j, (j <= k)%nat -> l j <= h j) -> (forall w, In w [7; 14; 28]%nat -> (28 <= k)%nat -> sum_last (reach h l c) w k <> 0) ->
    same "high" h -> same "low" l -> closes -> kept "uosc".
  Proof.
    start. intros HL NZ [H H'] [L L'] [K K'].
    assert (E : forall w, (w <= 28)%nat -> (28 <= k)%nat -> sum_last (reach h l c') w k = sum_last (reach h l c) w k) by (intros w X G; apply total_ext; intros j J; apply reach_same; lia).
    assert (NZ' : forall w, In w [7; 14; 28]%nat -> (28 <= k)%nat -> sum_last (reach h l c') w k <> 0) by (intros w I G; rewrite E; [apply NZ; auto|cbn in I; lia|exact G]).
    rewrite (ultimate_oscillator_shown o raw b ob W k h l c A NZ H L K), (ultimate_oscillator_shown o raw' b' ob' W' k h l c' B NZ' H' L' K'). cbv zeta.
    apply ple_from. intro G. apply ple_r4, div_le; [reflexivity|]. apply mul_le; [discriminate|].
    assert (S1 : forall w, In w [7; 14; 28]%nat -> sum_last (pressure l c) w k / sum_last (reach h l c) w k <= sum_last (pressure l c') w k / sum_last (reach h l c') w k).
    { intros w I. assert (W28 : (w <= 28)%nat) by (cbn in I; lia). rewrite E by auto. apply div_le.
      - apply qc_nonneg_neq0_pos; [|apply NZ; auto]. apply total_nonneg. intros j J. apply reach_nonneg, HL. lia.
      - apply total_le. intros j J. apply reach_same. lia. }
    pose proof (S1 7%nat ltac:(cbn; auto)) as X1. pose proof (S1 14%nat ltac:(cbn; auto)) as X2. pose proof (S1 28%nat ltac:(cbn; auto)) as X3.
    assert (F4 : 0 <= zq 4) by discriminate. assert (F2 : 0 <= zq 2) by discriminate. pose proof (mul_le _ _ _ F4 X1). pose proof (mul_le _ _ _ F2 X2). qlra.
  Qed.
  Lemma up_posc p q : both (cPOSC p q) -> (forall j, (j <= k)%nat -> 0 < c j) -> closes -> kept "posc".
  Proof.
    start. intros PS [K K']. assert (P : (1 <= nat_arg q /\ nat_arg q < nat_arg p)%nat) by (look fr V VV; lia). destruct P as [Q PQ].
    rewrite (price_oscillator_shown o raw b ob W p q k c A K), (price_oscillator_shown o raw' b' ob' W' p q k c' B K'). cbv zeta.
    apply ple_from. intro G. set (L := nat_arg p) in *. set (s := nat_arg q) in *.
    assert (EL : sum_last c' L k = sum_last c L k + (c' k - c k)) by (apply (only_sum k c c' O); lia). assert (ES : sum_last c' s k = sum_last c s k + (c' k - c k)) by (apply (only_sum k c c' O); lia).
    assert (NL : 0 < nq L) by (apply nq_pos; lia). assert (NS : 0 < nq s) by (apply nq_pos; lia). assert (D0 : 0 <= c' k - c k) by qlra.
    assert (SP : forall n, (1 <= n <= S k)%nat -> 0 < sum_last c n k).
    { intros n N. destruct n as [|n]; [lia|]. unfold sum_last. cbn [total]. assert (0 <= total (fun j => c (S k - S n + j)%nat) n) by (apply total_nonneg; intros; apply Qclt_le_weak, PS; lia). pose proof (PS (S k - S n + n)%nat ltac:(lia)). qlra. }
    assert (SL : sum_last c s k <= sum_last c L k).
    { replace L with ((L - s) + s)%nat by lia. unfold sum_last. rewrite (total_ext (fun j => c (S k - s + j)%nat) (fun j => c (S k - (L - s + s) + ((L - s) + j))%nat)) by (intros j J; f_equal; lia).
      set (f := fun j => c (S k - (L - s + s) + j)%nat). assert (PF : forall j, (j < L)%nat -> 0 < f j) by (intros j J; apply PS; lia). change (total (fun j => f j) s) with (total f s). change (total (fun j => c (S k - (L - s + s) + (L - s + j))%nat) s) with (total (fun j => f (L - s + j)%nat) s). clearbody f.
      assert (SPL : forall a n, total f (a + n) = total f a + total (fun j => f (a + j)%nat) n) by (intros a n; induction n as [|n IH]; [rewrite Nat.add_0_r; cbn; ring|rewrite Nat.add_succ_r; cbn [total]; rewrite IH; ring]).
      rewrite SPL. cbv beta. assert (0 <= total f (L - s)) by (apply total_nonneg; intros j J; apply Qclt_le_weak; apply PF; lia). qlra. }
    pose proof (SP L ltac:(lia)) as LP. unfold mean_last. rewrite EL, ES. set (a := sum_last c s k) in *. set (e := sum_last c L k) in *. set (d := c' k - c k) in *. apply ple_rn.
    assert (E : forall x y, 0 < y -> ratio (zq 100 * (x / nq s - y / nq L)) (y / nq L) = Fin (nq L / nq s * (zq 100 * (x / y)) - zq 100)).
    { intros x y Y. unfold ratio, ndiv. assert (Z : y / nq L <> 0). { intro Z. apply (qc_pos_neq0 _ Y). replace y with (y / nq L * nq L) by (field; apply qc_pos_neq0; exact NL). rewrite Z. ring. }
      rewrite (proj2 (qeqb_false _ _) Z). f_equal. field. repeat split; apply qc_pos_neq0; auto. }
    rewrite !E by (try qlra). apply ple_fin. assert (LS : 0 <= nq L / nq s) by (apply div_nonneg; [exact NS|apply Qclt_le_weak; exact NL]). pose proof (mul_le _ _ _ LS (share_up a e d LP SL D0)). qlra.
  Qed.
  Lemma up_lrs p : both (cLRS p) -> (2 <= nat_arg p)%nat -> closes -> kept "lrs".
  Proof.
    start. intros P [K K']. rewrite (regression_slope_shown o raw b ob W p k c A P K), (regression_slope_shown o raw' b' ob' W' p k c' B P K'). cbv zeta.
    apply ple_from. intro G. apply ple_r4, (slope_last_le k c c' O); lia.
  Qed.
  Lemma up_lri p : both (cLRI p) -> closes -> kept "lri".
  Proof.
    start. intros [K K']. assert (P : (2 <= nat_arg p)%nat) by (look fr V VV; lia). rewrite (regression_indicator_shown o raw b ob W p k c A K), (regression_indicator_shown o raw' b' ob' W' p k c' B K'). cbv zeta.
    apply ple_from. intro G. apply ple_r4, (end_last_le k c c' O); lia.
  Qed.
  Lemma up_tsf p : both (cTSF p) -> closes -> kept "tsf".
  Proof.
    start. intros [K K']. assert (P : (2 <= nat_arg p)%nat) by (look fr V VV; lia). rewrite (time_series_forecast_shown o raw b ob W p k c A K), (time_series_forecast_shown o raw' b' ob' W' p k c' B K'). cbv zeta.
    apply ple_from. intro G. apply ple_fin, (forecast_le k c c' O); lia.
  Qed.
  Lemma up_time_series p : both (cMA p (VStr "time_series")) -> (2 <= nat_arg p)%nat -> closes -> kept "ma-time_series".
  Proof.
    start. intros P [K K']. rewrite (time_series_moving_average_shown o raw b ob W p k c A P K), (time_series_moving_average_shown o raw' b' ob' W' p k c' B P K'). cbv zeta.
    apply ple_from. intro G. apply ple_fin, (forecast_le k c c' O); lia.
  Qed.
  Lemma up_fosc p : both (cFOSC p) -> 0 < c k -> 0 <= forecast c (nat_arg p) (k - 1) -> closes -> kept "fosc".
  Proof.
    start. intros CP FP [K K']. assert (P : (2 <= nat_arg p)%nat) by (look fr V VV; lia). rewrite (forecast_oscillator_shown o raw b ob W p k c A K), (forecast_oscillator_shown o raw' b' ob' W' p k c' B K'). cbv zeta.
    apply ple_from. intro G. apply ple_rn.
    assert (E : forecast c' (nat_arg p) (k - 1) = forecast c (nat_arg p) (k - 1)).
    { unfold forecast, end_last, slope_last, fit_start, fit_slope. rewrite !(total_ext (fun i => nq i * last_rows c' (nat_arg p) (k - 1) i) (fun i => nq i * last_rows c (nat_arg p) (k - 1) i)) by (intros j J; unfold last_rows; rewrite SM by lia; reflexivity).
      rewrite !(total_ext (last_rows c' (nat_arg p) (k - 1)) (last_rows c (nat_arg p) (k - 1))) by (intros j J; unfold last_rows; rewrite SM by lia; reflexivity). reflexivity. }
    rewrite E. set (f := forecast c (nat_arg p) (k - 1)) in *. assert (CP' : 0 < c' k) by qlra.
    apply ratio_cross; [apply Qclt_le_weak; exact CP|apply Qclt_le_weak; exact CP'|intro Z; exfalso; exact (qc_pos_neq0 _ CP Z)|intro Z; exfalso; exact (qc_pos_neq0 _ CP' Z)|].
    assert (F : 0 <= zq 100 * f) by (apply mul_nonneg; [discriminate|exact FP]). pose proof (mul_le _ _ _ F R) as X.
    replace (zq 100 * (c k - f) * c' k) with (zq 100 * (c k * c' k) - zq 100 * f * c' k) by ring. replace (zq 100 * (c' k - f) * c k) with (zq 100 * (c k * c' k) - zq 100 * f * c k) by ring. qlra.
  Qed.
  Lemma up_dema p : both (cDEMA p) -> closes -> kept "dema".
  Proof.
    start. intros [K K']. period p. rewrite (double_exponential_shown o raw b ob W p k c A K), (double_exponential_shown o raw' b' ob' W' p k c' B K'). cbv zeta.
    apply ple_from. intro G. apply ple_r4. exact (double_le k c c' (nat_arg p) O P G).
  Qed.
  Lemma up_tema p : both (cTEMA p) -> closes -> kept "tema".
  Proof.
    start. intros [K K']. period p. rewrite (triple_exponential_shown o raw b ob W p k c A K), (triple_exponential_shown o raw' b' ob' W' p k c' B K'). cbv zeta.
    apply ple_from. intro G. apply ple_r4. exact (triple_le k c c' (nat_arg p) O P G).
  Qed.
  Lemma up_obv : both cOBV -> 0 <= v k -> same "volume" v -> closes -> kept "obv".
  Proof. start. intros VN [V V'] [K K']. rewrite (obv_shown_line o raw b ob W k c v A K V), (obv_shown_line o raw' b' ob' W' k c' v B K' V'). apply ple_fin, obv_le; auto. Qed.
  Section Positive.
    Hypothesis PS : forall j, (j <= k)%nat -> 0 < c j.
    Let N1 : forall j, (j < k)%nat -> c j <> 0. Proof. intros j J. apply qc_pos_neq0, PS. lia. Qed.
    Let N2 : forall j, (j < k)%nat -> c' j <> 0. Proof. intros j J. rewrite SM by lia. apply N1, J. Qed.
    Lemma up_pvt : both cPVT -> 0 <= v k -> same "volume" v -> closes -> kept "pvt".
    Proof. start. intros VN [V V'] [K K']. rewrite (pvt_shown_line o raw b ob W k c v A K V N1), (pvt_shown_line o raw' b' ob' W' k c' v B K' V' N2). apply ple_r4, pvt_le; auto. intros. apply PS. lia. Qed.
    Lemma up_nvi : both cNVI -> same "volume" v -> closes -> kept "nvi".
    Proof. start. intros [V V'] [K K']. rewrite (nvi_shown_line o raw b ob W k c v A K V N1), (nvi_shown_line o raw' b' ob' W' k c' v B K' V' N2). apply ple_r4, index_le; auto. Qed.
    Lemma up_pvi : both cPVI -> same "volume" v -> closes -> kept "pvi".
    Proof. start. intros [V V'] [K K']. rewrite (pvi_shown_line o raw b ob W k c v A K V N1), (pvi_shown_line o raw' b' ob' W' k c' v B K' V' N2). apply ple_r4, index_le; auto. Qed.
  End Positive.
  Lemma up_cmf p : both (cCMF p) -> (forall j, (j <= k)%nat -> 0 <= v j) -> (forall j, (j <= k)%nat -> l j <= c j /\ c j <= h j /\ l j < h j) -> (forall j, (j <= k)%nat -> l j <= c' j /\ c' j <= h j /\ l j < h j) ->
    same "high" h -> same "low" l -> same "volume" v -> closes -> kept "cmf".
  Proof.
    start. intros VN I I' [H H'] [L L'] [V V'] [K K']. period p. rewrite (chaikin_money_flow_shown o raw b ob W p k c v h l A I K V H L), (chaikin_money_flow_shown o raw' b' ob' W' p k c' v h l B I' K' V' H' L'). cbv zeta.
    apply ple_from. intro G. apply ple_rn, ple_ratio.
    - apply total_le. intros j J. apply adl_move_le; [apply VN; lia|apply (only_le k c c' O)].
    - apply total_nonneg. intros j J. apply VN. lia.
  Qed.
  Lemma up_swi : both cSWI -> (forall j, (j <= k)%nat -> l j <= h j) -> swing_span op h l c k <> 0 -> swing_span op h l c' k <> 0 -> same "open" op -> same "high" h -> same "low" l -> closes -> kept "swi".
  Proof.
    start. intros HL N N' [Q Q'] [H H'] [L L'] [K K']. rewrite (swing_index_shown o raw b ob W k op h l c A N Q H L K), (swing_index_shown o raw' b' ob' W' k op h l c' B N' Q' H' L' K').
    apply ple_from. intro G. apply ple_r4, clip_le. unfold swing.
    assert (ES : swing_span op h l c' k = swing_span op h l c k) by (unfold swing_span; rewrite (SM (k - 1)%nat) by lia; reflexivity). rewrite ES. rewrite !(SM (k - 1)%nat) by lia.
    set (S1 := swing_span op h l c k) in *. assert (SP : 0 < S1).
    { apply qc_nonneg_neq0_pos; [|exact N]. unfold S1, swing_span, larger3. set (x := abs (h k - c (k - 1)%nat)). set (y := abs (l k - c (k - 1)%nat)).
      assert (0 <= larger (larger x y) (h k - l k)) by (apply Qcle_trans with (larger x y); [|apply larger_ge_l]; apply Qcle_trans with x; [apply abs_nonneg|apply larger_ge_l]).
      assert (0 <= abs (c (k - 1)%nat - op (k - 1)%nat) / zq 4) by (apply div_nonneg; [reflexivity|apply abs_nonneg]). qlra. }
    set (x := abs (h k - c (k - 1)%nat)). set (y := abs (l k - c (k - 1)%nat)). assert (KN : 0 <= larger x y / zq 3) by (apply div_nonneg; [reflexivity|]; apply Qcle_trans with x; [apply abs_nonneg|apply larger_ge_l]).
    rewrite !(Qcmult_comm _ (larger x y / zq 3)). apply mul_le; [exact KN|]. apply mul_le; [discriminate|]. apply div_le; [exact SP|].
    assert (XX : (c k - op k) / zq 2 <= (c' k - op k) / zq 2) by (apply div_le; [reflexivity|qlra]). qlra.
  Qed.
  Lemma up_wad : both cWAD -> (forall j, (j <= k)%nat -> l j <= c j /\ c j <= h j) -> (forall j, (j <= k)%nat -> l j <= c' j /\ c' j <= h j) -> same "high" h -> same "low" l -> closes -> kept "wad".
  Proof.
    start. intros I I' [H H'] [L L'] [K K']. rewrite (williams_accumulation_shown o raw b ob W k h l c A H L K), (williams_accumulation_shown o raw' b' ob' W' k h l c' B H' L' K').
    apply ple_from. intro G. apply ple_r4. unfold true_low, true_high. rewrite (SM (k - 1)%nat) by lia. destruct (I k (le_n k)). destruct (I' k (le_n k)). unfold larger, smaller. cases; qlra.
  Qed.
  Lemma up_proj p : both (cPROJ p) -> (forall j, (j <= k)%nat -> l j <= h j) -> same "high" h -> same "low" l -> closes -> kept "posc".
  Proof.
    start. intros HL [H H'] [L L'] [K K']. assert (P : (2 <= nat_arg p)%nat) by (look fr V VV; lia). rewrite (projection_oscillator_shown o raw b ob W p k h l c A H L K), (projection_oscillator_shown o raw' b' ob' W' p k h l c' B H' L' K'). cbv zeta.
    apply ple_from. intro G. apply ple_rn, ple_ratio; [apply mul_le; [discriminate|qlra]|]. pose proof (projection_order h l (nat_arg p) k ltac:(lia) (HL k (le_n k))). qlra.
  Qed.
  Lemma up_trigger p : both (cPROJ p) -> (forall j, (j <= k)%nat -> l j <= h j) -> (forall j, (nat_arg p - 1 <= j <= k)%nat -> r4 (highest_projection h (nat_arg p) j) <> r4 (lowest_projection l (nat_arg p) j)) ->
    same "high" h -> same "low" l -> closes -> kept "trigger_line".
  Proof.
    start. intros HL NZ [H H'] [L L'] [K K']. assert (P : (2 <= nat_arg p)%nat) by (look fr V VV; lia). rewrite (projection_trigger_shown o raw b ob W p k h l c A NZ H L K), (projection_trigger_shown o raw' b' ob' W' p k h l c' B NZ H' L' K'). cbv zeta.
    apply ple_from. intro G. apply ple_r4, ema_from_le; [lia|lia|]. intros j J. apply div_le.
    - pose proof (projection_order h l (nat_arg p) j ltac:(lia) (HL j ltac:(lia))) as X. apply qc_nonneg_neq0_pos; [qlra|]. intro Z. apply (NZ j); [lia|]. apply Qcle_antisym; qlra.
    - apply mul_le; [discriminate|]. pose proof (only_le k c c' O j). qlra.
  Qed.

  Lemma up_ko : both cKO -> 0 <= v k -> (forall j, (1 <= j <= k)%nat -> measure h l c j <> 0) -> (forall j, (1 <= j <= k)%nat -> measure h l c' j <> 0) ->
    same "high" h -> same "low" l -> same "volume" v -> closes -> kept "ko".
  Proof.
    start. intros VN N N' [H H'] [L L'] [V V'] [K K']. rewrite (klinger_shown o raw b ob W k h l c v A N H L K V), (klinger_shown o raw' b' ob' W' k h l c' v B N' H' L' K' V').
    apply ple_from. intro G. apply ple_r4. set (f := force h l c v). set (g := force h l c' v).
    assert (SF : forall j, (j < k)%nat -> g j = f j) by (intros j J; unfold f, g, force; rewrite (trend_same k h l c c' SM j J), (measure_same k h l c c' SM j J); reflexivity).
    assert (FG : f k <= g k) by (apply force_le; auto).
    rewrite (span_last_from 1 34 f g k), (span_last_from 1 55 f g k) by (auto; lia). assert (D0 : 0 <= g k - f k) by qlra. assert (X : 0 <= span 34 - span 55) by discriminate. pose proof (mul_nonneg _ _ X D0) as Y.
    replace ((span 34 - span 55) * (g k - f k)) with (span 34 * (g k - f k) - span 55 * (g k - f k)) in Y by ring. qlra.
  Qed.
  Lemma up_macd : both cMACD -> closes -> present_le (nsub (shown "macd" ob k) (D 1 10000)) (shown "macd" ob' k).
  Proof.
    start. intros [K K']. destruct (macd_shown o raw b ob W k c A K) as [-> _]. destruct (macd_shown o raw' b' ob' W' k c' B K') as [-> _]. cbv zeta.
    destruct (Nat.le_gt_cases 25 k) as [G|G]; [|left; unfold from; rewrite (proj2 (Nat.ltb_lt _ _) G); reflexivity].
    unfold from. rewrite (proj2 (Nat.ltb_ge _ _) G). assert (SB : forall x y, r4 (r4 x - r4 y) = r4 x - r4 y) by (intros x y; replace (r4 x - r4 y) with (r4 x + r4 (- y)) by (rewrite MirrorFacts.r4_opp; ring); apply r4_sum).
    rewrite !SB. unfold D, nsub. apply ple_fin. assert (S1 : forall j, (j < k)%nat -> c' j = c j) by (intros; apply SM; lia).
    assert (E0 : 0 <= c' k - c k) by qlra. destruct (Qcle_lt_or_eq _ _ E0) as [E|E].
    - apply rounded_gap; rewrite ?(span_last 12 c c' k), ?(span_last 26 c c' k) by (auto; lia).
      + pose proof (mul_nonneg (span 26) _ ltac:(discriminate) E0). qlra.
      + assert (X : 0 < span 12 - span 26) by reflexivity. pose proof (Qcmult_lt_compat_r 0 _ _ E X) as Y. replace ((span 12 - span 26) * (c' k - c k)) with (span 12 * (c' k - c k) - span 26 * (c' k - c k)) in Y by ring. replace (0 * (c' k - c k)) with 0 in Y by ring. qlra.
    - rewrite (span_last 12 c c' k), (span_last 26 c c' k) by (auto; lia). rewrite <- E. replace (ema_from 0 12 c k + span 12 * 0) with (ema_from 0 12 c k) by ring. replace (ema_from 0 26 c k + span 26 * 0) with (ema_from 0 26 c k) by ring.
      assert (0 <= Q2Qc (1 # 10000)) by discriminate. qlra.
  Qed.
  (** the accumulation line is truncated when every day has a range *)
  Section Accumulated.
    Let n := days_given ob.
    Hypothesis DD : days_given ob' = n.
    Hypothesis KN : (k < n)%nat.
    Hypothesis VN : 0 <= v k.
    Hypothesis I : forall j, (j < n)%nat -> l j <= c j /\ c j <= h j.
    Hypothesis I' : forall j, (j < n)%nat -> l j <= c' j /\ c' j <= h j.
    Hypothesis H : known (given "high" ob) (n - 1) h /\ known (given "high" ob') (n - 1) h.
    Hypothesis L : known (given "low" ob) (n - 1) l /\ known (given "low" ob') (n - 1) l.
    Hypothesis V : known (given "volume" ob) (n - 1) v /\ known (given "volume" ob') (n - 1) v.
    Hypothesis C : known (given "close" ob) (n - 1) c /\ known (given "close" ob') (n - 1) c'.
    Let line (x : nat -> Qc) := total (fun j => adl_move (h j) (l j) (x j) (v j)) (S k).
    Lemma line_le : line c <= line c'.
    Proof.
      unfold line. cbn [total]. rewrite (total_ext (fun j => adl_move (h j) (l j) (c' j) (v j)) (fun j => adl_move (h j) (l j) (c j) (v j)) k) by (intros j J; rewrite SM by lia; reflexivity).
      pose proof (adl_move_le (h k) (l k) (c k) (c' k) (v k) VN R). qlra.
    Qed.
    Lemma up_adl : both cADL -> kept "adl".
    Proof.
      start. destruct (adl_shown_line o raw b ob W k c v h l A KN (proj1 C) (proj1 V) (proj1 H) (proj1 L) I) as [X1 X2].
      destruct (adl_shown_line o raw' b' ob' W' k c' v h l B) as [Y1 Y2]; rewrite ?DD; try (apply C || apply V || apply H || apply L || exact KN || exact I'). rewrite DD in *.
      destruct (List.forallb (fun j => qltb (l j) (h j)) (seq 0 n)) eqn:T.
      - assert (Z : forall j, (j < n)%nat -> l j < h j) by (intros j J; apply qltb_iff; rewrite forallb_forall in T; apply T, in_seq; lia).
        rewrite X1, Y1 by exact Z. apply ple_fin, trunc_le, line_le.
      - assert (Z : exists j, (j < n)%nat /\ h j = l j).
        { assert (X : existsb (fun j => negb (qltb (l j) (h j))) (seq 0 n) = true).
          { clear - T. induction (seq 0 n) as [|a s IH]; [discriminate|]. cbn in T |- *. destruct (qltb (l a) (h a)); [cbn in T |- *; apply IH; exact T|reflexivity]. }
          apply existsb_exists in X as (j & J & Q). apply in_seq in J. exists j. split; [lia|]. apply negb_true_iff, qltb_false in Q. destruct (I j) as [I1 I2]; [lia|]. apply Qcle_antisym; qlra. }
        rewrite X2, Y2 by exact Z. destruct (qltb (l k) (h k)); [apply ple_fin, line_le|left; reflexivity].
    Qed.
    Lemma up_co : both cCO -> (forall j, (j < n)%nat -> l j < h j) -> kept "co".
    Proof.
      start. intro ST. rewrite (chaikin_oscillator_shown o raw b ob W k h l c v A KN I ST (proj1 H) (proj1 L) (proj1 C) (proj1 V)).
      rewrite (chaikin_oscillator_shown o raw' b' ob' W' k h l c' v B) by (rewrite ?DD; try (apply C || apply V || apply H || apply L || exact KN || exact I' || exact ST)). cbv zeta.
      apply ple_from. intro G. apply ple_r4.
      set (f := fun j => qtrunc (total (fun i => adl_move (h i) (l i) (c i) (v i)) (S j))). set (g := fun j => qtrunc (total (fun i => adl_move (h i) (l i) (c' i) (v i)) (S j))).
      assert (SF : forall j, (j < k)%nat -> g j = f j) by (intros j J; unfold f, g; f_equal; apply total_ext; intros i X; rewrite SM by lia; reflexivity).
      assert (FG : f k <= g k) by (apply trunc_le, line_le).
      rewrite (span_last 3 f g k), (span_last 10 f g k) by (auto; lia). assert (D0 : 0 <= g k - f k) by qlra. assert (X : 0 <= span 3 - span 10) by discriminate. pose proof (mul_nonneg _ _ X D0) as Y.
      replace ((span 3 - span 10) * (g k - f k)) with (span 3 * (g k - f k) - span 10 * (g k - f k)) in Y by ring. qlra.
    Qed.
  End Accumulated.
End Raised.

Lemma closes_follow o raw raw' b b' ob ob' ct k op h l c c' v name :
  wf_raw raw -> wf_raw raw' -> twice ct o raw raw' b b' ob ob' -> close_raised ct k ob ob' op h l c c' v ->
  sound_days (days_given ob) h l c v -> sound_days (days_given ob) h l c' v ->
  ordinary ct (days_given ob) k op h l c v -> ordinary ct (days_given ob) k op h l c' v ->
  In name (follows_close ct) -> present_le (shown name ob k) (shown name ob' k).
Proof.
  intros W W' T (D & K & O & H & L & V & C & SM & R) S1 S2 R1 R2 I.
  assert (U : only k c c') by (split; [exact SM|exact R]).
  assert (KK : (k <= days_given ob - 1)%nat) by lia.
  assert (HL : forall j, (j <= k)%nat -> l j <= h j) by (intros j J; destruct (S1 j ltac:(lia)) as (_ & X1 & X2 & _); exact (Qcle_trans _ _ _ X1 X2)).
  assert (PS : forall j, (j <= k)%nat -> 0 < c j) by (intros j J; destruct (S1 j ltac:(lia)) as (X0 & X1 & _); exact (Qclt_le_trans _ _ _ X0 X1)).
  assert (VN : forall j, (j <= k)%nat -> 0 <= v j) by (intros j J; apply (S1 j ltac:(lia))).
  assert (IN : forall j, (j < days_given ob)%nat -> l j <= c j /\ c j <= h j) by (intros j J; destruct (S1 j J) as (_ & X1 & X2 & _); auto).
  assert (IN' : forall j, (j < days_given ob)%nat -> l j <= c' j /\ c' j <= h j) by (intros j J; destruct (S2 j J) as (_ & X1 & X2 & _); auto).
  assert (INk : forall j, (j <= k)%nat -> l j <= c j /\ c j <= h j) by (intros; apply IN; lia). assert (INk' : forall j, (j <= k)%nat -> l j <= c' j /\ c' j <= h j) by (intros; apply IN'; lia).
  assert (less : forall x y f g, known x (days_given ob - 1) f /\ known y (days_given ob - 1) g -> known x k f /\ known y k g) by (intros x y f g [X Y]; split; eapply known_less; eauto).
  destruct ct; cbn [follows_close] in I; try contradiction; cbn [required asked] in O, H, L, C, V; cbn [ordinary] in R1, R2.
  all: try (specialize (O ltac:(cbn; tauto)); pose proof (less _ _ _ _ O) as O1); try (specialize (H ltac:(cbn; tauto)); pose proof (less _ _ _ _ H) as H1);
       try (specialize (L ltac:(cbn; tauto)); pose proof (less _ _ _ _ L) as L1); try (specialize (C ltac:(cbn; tauto)); pose proof (less _ _ _ _ C) as C1);
       try (specialize (V ltac:(cbn; tauto)); pose proof (less _ _ _ _ V) as V1).
  Ltac one I := destruct I as [<-|[]].
  - one I. exact (up_adl o raw raw' b b' ob ob' k h l c c' v W W' U D K (VN k (le_n k)) IN IN' H L V C T).
  - one I. refine (up_cmf o raw raw' b b' ob ob' k h l c c' v W W' U period T VN _ _ H1 L1 V1 C1); intros; [apply R1|apply R2]; lia.
  - one I. refine (up_co o raw raw' b b' ob ob' k h l c c' v W W' U D K (VN k (le_n k)) IN IN' H L V C T _). intros; apply R1; lia.
  - one I. exact (up_cmo o raw raw' b b' ob ob' k c c' W W' U period T C1).
  - one I. exact (up_cci o raw raw' b b' ob ob' k h l c c' W W' U period T H1 L1 C1).
  - one I. exact (up_dema o raw raw' b b' ob ob' k c c' W W' U period T C1).
  - one I. exact (up_imi o raw raw' b b' ob ob' k op c c' W W' U period T O1 C1).
  - one I. refine (up_ko o raw raw' b b' ob ob' k h l c c' v W W' U T (VN k (le_n k)) _ _ H1 L1 V1 C1); intros; [apply R1|apply R2]; lia.
  - one I. exact (up_lri o raw raw' b b' ob ob' k c c' W W' U period T C1).
  - one I. exact (up_lrs o raw raw' b b' ob ob' k c c' W W' U period T R1 C1).
  - one I. exact (up_mom o raw raw' b b' ob ob' k c c' W W' U period T PS C1).
  - destruct ma_type as [| | |t| |]; try contradiction. destruct (String.eqb t "time_series") eqn:Q; [apply String.eqb_eq in Q; subst t|contradiction]. one I. exact (up_time_series o raw raw' b b' ob ob' k c c' W W' U period T R1 C1).
  - one I. exact (up_nvi o raw raw' b b' ob ob' k c c' v W W' U PS T V1 C1).
  - one I. exact (up_obv o raw raw' b b' ob ob' k c c' v W W' U T (VN k (le_n k)) V1 C1).
  - one I. exact (up_prf o raw raw' b b' ob ob' k c c' W W' U _ _ T PS C1).
  - one I. exact (up_pvi o raw raw' b b' ob ob' k c c' v W W' U PS T V1 C1).
  - one I. exact (up_pvt o raw raw' b b' ob ob' k c c' v W W' U PS T (VN k (le_n k)) V1 C1).
  - one I. exact (up_posc o raw raw' b b' ob ob' k c c' W W' U _ _ T PS C1).
  - one I. exact (up_prc o raw raw' b b' ob ob' k c c' W W' U _ T PS C1).
  - destruct I as [<-|[<-|[]]]; [exact (up_proj o raw raw' b b' ob ob' k h l c c' W W' U period T HL H1 L1 C1)|exact (up_trigger o raw raw' b b' ob ob' k h l c c' W W' U period T HL R1 H1 L1 C1)].
  - one I. exact (up_qstick o raw raw' b b' ob ob' k op c c' W W' U period T O1 C1).
  - one I. exact (up_rmi o raw raw' b b' ob ob' k c c' W W' U _ _ T C1).
  - one I. exact (up_rsi o raw raw' b b' ob ob' k c c' W W' U period T C1).
  - one I. exact (up_smi o raw raw' b b' ob ob' k h l c c' W W' U _ _ _ T HL H1 L1 C1).
  - destruct d_method as [| | |t| |]; try contradiction. destruct (String.eqb t "simple") eqn:Q; [apply String.eqb_eq in Q; subst t; destruct I as [<-|[<-|[]]]|one I].
    + exact (up_so o raw raw' b b' ob ob' k h l c c' W W' U _ _ _ _ T HL H1 L1 C1).
    + exact (up_so_d o raw raw' b b' ob ob' k h l c c' W W' U _ _ _ T HL R1 H1 L1 C1).
    + exact (up_so o raw raw' b b' ob ob' k h l c c' W W' U _ _ _ _ T HL H1 L1 C1).
  - one I. exact (up_swi o raw raw' b b' ob ob' k op h l c c' W W' U T HL R1 R2 O1 H1 L1 C1).
  - one I. exact (up_tsf o raw raw' b b' ob ob' k c c' W W' U period T C1).
  - one I. exact (up_tema o raw raw' b b' ob ob' k c c' W W' U period T C1).
  - one I. exact (up_uo o raw raw' b b' ob ob' k h l c c' W W' U T HL R1 H1 L1 C1).
  - one I. exact (up_wad o raw raw' b b' ob ob' k h l c c' W W' U T INk INk' H1 L1 C1).
  - one I. exact (up_wr o raw raw' b b' ob ob' k h l c c' W W' U period T HL H1 L1 C1).
Qed.
