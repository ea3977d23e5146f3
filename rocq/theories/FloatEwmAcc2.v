(** * FloatEwmAcc2: the published columns of the recursive averages. *)
From Coq Require Import ZArith QArith Qcanon Qreals Reals Bool List PeanoNat Lia Lra Psatz Permutation.
From Flocq Require Import Core Relative IEEE754.BinarySingleNaN.
From Verif Require Import Num NumFacts Pandas SeriesFacts FloatSim FloatFacts FloatExact FloatInd FloatOrd FloatDec FloatRange FloatRange2 RangeSpec ValueSpec FormulaSpec Starts FloatSpec FloatAccSpec FloatAcc FloatAcc2 FloatAcc3 FloatAcc5 FloatEwm FloatEwmSpec FloatEwmAcc.
Import ListNotations.
Open Scope R_scope.
Notation u := (/ 9007199254740992).
Notation K0 := (2199023255552 / 10000).
Notation kap := (K0 * u).

Lemma real_nq n : real (nq n) = INR n. Proof. unfold nq. rewrite real_zq, INR_IZR_INZ. reflexivity. Qed.
Lemma real_span p : real (span p) = weight p.
Proof.
  unfold span, weight. assert (N : INR (S p) <> 0) by (apply not_0_INR; discriminate). rewrite real_div, real_zq, real_nq by (apply real_neq; rewrite real_nq; exact N). rewrite S_INR. reflexivity.
Qed.
Lemma real_ema_from b p f k : real (ema_from b p f k) = rema p b (fun i => real (f i)) k.
Proof.
  unfold ema_from, rema. induction (k - b)%nat as [|n IH]; [cbn; rewrite Nat.add_0_r; reflexivity|].
  cbn [ema line]. rewrite real_add, !real_mul, real_sub, real_1, IH, real_span. replace (b + S n)%nat with (S b + n)%nat by lia. reflexivity.
Qed.

Section Moderate.
Variables (c : nat -> Z) (p n : nat).
Hypothesis (P : (0 < p)%nat) (N0 : (0 < n)%nat) (Mo : moderate p c n).
Notation N := (INR p).
Definition M : R := K0 / (N + 1).
Notation g := (fun i => IZR (c i) / 10000).
Lemma p_bound : (Z.of_nat p + 1 <= 2 ^ 41)%Z. Proof. specialize (Mo O N0). nia. Qed.
Lemma sizes : / 10000 <= M <= 110000000 /\ M * (N + 1) = K0 /\ 1 <= N <= 2199023255551.
Proof.
  pose proof p_bound as B. assert (N1 : 1 <= N) by (apply (le_INR 1); exact P).
  assert (N2 : N + 1 <= 2199023255552) by (rewrite INR_IZR_INZ, <- plus_IZR; apply (IZR_le _ (2 ^ 41)); exact B).
  assert (E : M * (N + 1) = K0) by (unfold M; field; lra). assert (M1 : 0 < M) by (unfold M; apply Rdiv_lt_0_compat; lra).
  split; [|split; [exact E|lra]]. split; apply Rnot_lt_le; intro L; nra.
Qed.
Lemma price_M i : (i < n)%nat -> Rabs (g i) <= M.
Proof.
  intro I. destruct sizes as (_ & E & N1). specialize (Mo i I). apply IZR_le in Mo. rewrite mult_IZR, !plus_IZR, abs_IZR, <- INR_IZR_INZ in Mo. change (IZR (2 ^ 41)) with 2199023255552 in Mo.
  unfold Rdiv. rewrite Rabs_mult, (Rabs_pos_eq (/ 10000)) by lra. apply Rmult_le_reg_r with (N + 1); [lra|]. rewrite E. pose proof (Rabs_pos (IZR (c i))). nra.
Qed.
Lemma price_ap i : (i < n)%nat -> ap (nth i (column 1 c n) fnan) (g i) kap.
Proof.
  intro I. rewrite column_nth by exact I. rewrite Z.mul_1_l. pose proof (price_M i I) as B. destruct sizes as ([M0 M1] & E & N1). eapply ap_weaken; [apply dec_ap|].
  - specialize (Mo i I). nia.
  - nra.
Qed.
Lemma level_ap m b s h j : (0 < m)%nat -> (b <= length s)%nat -> (forall i, (i < b)%nat -> is_finite (nth i s fnan) = false) -> 0 <= j <= 9000 ->
  (forall i, (b <= i < n)%nat -> ap (nth i s fnan) (h i) (j * kap) /\ Rabs (h i) <= M) -> (j + 15) * kap <= M / 50 -> forall k, (k < n)%nat ->
  let y := nth k (fewm p m s) fnan in
  if (k <? b + (m - 1))%nat then y = fnan else ap y (rema p b h k) ((j + 15) * kap) /\ Rabs (rema p b h k) <= M.
Proof.
  intros M1 L Lo J G Sm k K. destruct sizes as ([Ma Mb] & E & N1). destruct (weight_range p P) as ([W1 W2] & W3 & _). pose proof p_bound.
  apply (ewm_ap p M P ltac:(lia) ltac:(lra) (j * kap) ((j + 15) * kap) m ltac:(lra)) with (n := n); auto.
  assert (W : weight p * K0 = 2 * M) by (rewrite <- E; replace (weight p * (M * (N + 1))) with (weight p * (N + 1) * M) by ring; rewrite W3; ring).
  replace ((1 - weight p) * ((j + 15) * kap) + weight p * (j * kap) + 29 * M * u) with ((j + 15) * kap - 15 * (weight p * K0) * u + 29 * M * u) by ring.
  rewrite W. lra.
Qed.
Lemma tiny_ok j : 0 <= j <= 35 -> (j + 15) * kap <= M / 50.
Proof. intro J. destruct sizes as ([Ma Mb] & _). lra. Qed.
(** the three averages *)
Notation C := (column 1 c n).
Notation e1 := (rema p 0 g). Notation e2 := (rema p (p - 1) e1). Notation e3 := (rema p (2 * (p - 1)) e2).
Lemma ema_ap k : (k < n)%nat -> let y := nth k (fewm p p C) fnan in
  if (k <? p - 1)%nat then y = fnan else ap y (e1 k) (16 * kap) /\ Rabs (e1 k) <= M.
Proof.
  intro K. pose proof (fun X => level_ap p 0 C g 1 P ltac:(lia) ltac:(intros; lia) ltac:(lra) X (tiny_ok 1 ltac:(lra)) k K) as Y. replace (1 + 15) with 16 in Y by lra.
  apply Y. intros i I. split; [rewrite Rmult_1_l; apply price_ap; lia|apply price_M; lia].
Qed.
Lemma fewm_from_length al m : forall s w ow nobs, length (fewm_from al m w ow nobs s) = length s.
Proof. induction s as [|x s IH]; intros; [reflexivity|]. cbn [fewm_from length]. rewrite IH. reflexivity. Qed.
Lemma fewm_length q m s : length (fewm q m s) = length s. Proof. apply fewm_from_length. Qed.
Lemma ema2_ap k : (k < n)%nat -> let y := nth k (fewm p p (fewm p p C)) fnan in
  if (k <? 2 * (p - 1))%nat then y = fnan else ap y (e2 k) (31 * kap) /\ Rabs (e2 k) <= M.
Proof.
  intro K. cbv zeta. destruct (Nat.lt_ge_cases n (p - 1)) as [L|L].
  { destruct (Nat.ltb_spec k (2 * (p - 1))); [|lia]. 
    pose proof (lead p P p n (fewm p p C) k) as [X _]; [rewrite fewm_length, column_length; lia| |apply X; exact K].
    intros i I. pose proof (ema_ap i I) as Y. cbv zeta in Y. destruct (Nat.ltb_spec i (p - 1)); [rewrite Y; reflexivity|lia]. }
  pose proof (fun X Y => level_ap p (p - 1) (fewm p p C) e1 16 P X Y ltac:(lra)) as Z. replace (16 + 15) with 31 in Z by lra.
  assert (T : (31 * kap) <= M / 50) by (pose proof (tiny_ok 16 ltac:(lra)); lra).
  replace (2 * (p - 1))%nat with (p - 1 + (p - 1))%nat by lia. apply Z; auto.
  - rewrite fewm_length, column_length. exact L.
  - intros i I. pose proof (ema_ap i ltac:(lia)) as Y. cbv zeta in Y. destruct (Nat.ltb_spec i (p - 1)); [rewrite Y; reflexivity|lia].
  - intros i I. pose proof (ema_ap i ltac:(lia)) as Y. cbv zeta in Y. destruct (Nat.ltb_spec i (p - 1)); [lia|exact Y].
Qed.
Lemma ema3_ap k : (k < n)%nat -> let y := nth k (fewm p p (fewm p p (fewm p p C))) fnan in
  if (k <? 3 * (p - 1))%nat then y = fnan else ap y (e3 k) (46 * kap) /\ Rabs (e3 k) <= M.
Proof.
  intro K. cbv zeta. destruct (Nat.lt_ge_cases n (2 * (p - 1))) as [L|L].
  { destruct (Nat.ltb_spec k (3 * (p - 1))); [|lia]. 
    pose proof (lead p P p n (fewm p p (fewm p p C)) k) as [X _]; [rewrite !fewm_length, column_length; lia| |apply X; exact K].
    intros i I. pose proof (ema2_ap i I) as Y. cbv zeta in Y. destruct (Nat.ltb_spec i (2 * (p - 1))); [rewrite Y; reflexivity|lia]. }
  pose proof (fun X Y => level_ap p (2 * (p - 1)) (fewm p p (fewm p p C)) e2 31 P X Y ltac:(lra)) as Z. replace (31 + 15) with 46 in Z by lra.
  assert (T : (46 * kap) <= M / 50) by (pose proof (tiny_ok 31 ltac:(lra)); lra).
  replace (3 * (p - 1))%nat with (2 * (p - 1) + (p - 1))%nat by lia. apply Z; auto.
  - rewrite !fewm_length, column_length. exact L.
  - intros i I. pose proof (ema2_ap i ltac:(lia)) as Y. cbv zeta in Y. destruct (Nat.ltb_spec i (2 * (p - 1))); [rewrite Y; reflexivity|lia].
  - intros i I. pose proof (ema2_ap i ltac:(lia)) as Y. cbv zeta in Y. destruct (Nat.ltb_spec i (2 * (p - 1))); [lia|exact Y].
Qed.
End Moderate.
