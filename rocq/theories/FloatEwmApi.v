(** * FloatEwmApi: the recursive averages of a constructed indicator, exact and in binary64. *)
From Coq Require Import ZArith QArith Qcanon Qreals Reals Bool List String PeanoNat Lia Lra Psatz.
From Flocq Require Import Core Relative IEEE754.BinarySingleNaN.
From Verif Require Import FloatSim FloatFacts FloatExact FloatInd FloatOrd FloatDec FloatRange FloatRange2.
From Verif Require Import Num NumFacts RoundFacts Pandas Sim Frame FrameSpec FrameProofs Ind Signal Api IndSpec SeriesFacts Lengths Causal IndFacts Shape ApiSpec ApiCheck ApiProofs ApiLemmas RangeSpec Cells RangeFacts RangeMore Publish RangeApi ValueSpec ValueFacts ValueMore Recur ValueApi CumulApi.
From Verif Require Import FormulaSpec Starts FormulaApi.
From Verif Require Import FloatSpec FloatAccSpec FloatAcc FloatAcc2 FloatAcc3 FloatAcc5 FloatAccApi FloatEwm FloatEwmSpec FloatEwmAcc FloatEwmAcc2 FloatEwmAcc3 FloatEwmAcc4 FloatEwmAcc5.
Import ListNotations.
Open Scope list_scope. Open Scope string_scope. Open Scope R_scope.

Section Ewm.
  Variables (o : oracle) (raw : rawframe) (b : bool) (ob : obj).
  Hypothesis W : wf_raw raw.
  Notation constructed c := (snd (construct o c (RFrame raw) (VBool b)) = Ok ob).
  Lemma ma_period p : constructed (cMA p (VStr "exponential")) -> (0 < nat_arg p)%nat.
  Proof. intro H. look fr V VV. cbn in VV. lia. Qed.
  Lemma dema_period p : constructed (cDEMA p) -> (0 < nat_arg p)%nat.
  Proof. intro H. look fr V VV. cbn in VV. lia. Qed.
  Lemma tema_period p : constructed (cTEMA p) -> (0 < nat_arg p)%nat.
  Proof. intro H. look fr V VV. cbn in VV. lia. Qed.
  Lemma ws_period p : constructed (cWS p) -> (0 < nat_arg p)%nat.
  Proof. intro H. look fr V VV. cbn in VV. lia. Qed.
  Variables (c : nat -> Z) (n k : nat).
  Hypothesis (K : (k < n)%nat) (KN : known (given "close" ob) k (prices 1 c)).
  Notation C := (column 1 c n).
  Notation x := (prices 1 c).
  Lemma ema_accuracy p : constructed (cMA p (VStr "exponential")) -> let w := nat_arg p in moderate w c n ->
    let v := from (w - 1) k (Fin (ema_from 0 w x k)) in shown "ma-exponential" ob k = rn v /\ tracks (cell (fema w C) k) v.
  Proof.
    intros H w Mo v. split.
    - unfold v. rewrite rn_from. apply (exponential_moving_average_shown o raw b ob W p k _ H KN).
    - apply fema_tracks; auto. apply ma_period; exact H.
  Qed.
  Lemma dema_accuracy p : constructed (cDEMA p) -> let w := nat_arg p in moderate w c n -> let e := ema_from 0 w x in let e2 := ema_from (w - 1) w e in
    let v := from (2 * (w - 1)) k (Fin (zq 2 * e k - e2 k)%Qc) in shown "dema" ob k = rn v /\ tracks (cell (fdema w C) k) v.
  Proof.
    intros H w Mo e e2 v. split.
    - unfold v. rewrite rn_from. apply (double_exponential_shown o raw b ob W p k _ H KN).
    - apply fdema_tracks; auto. apply dema_period; exact H.
  Qed.
  Lemma tema_accuracy p : constructed (cTEMA p) -> let w := nat_arg p in moderate w c n -> let e := ema_from 0 w x in let e2 := ema_from (w - 1) w e in let e3 := ema_from (2 * (w - 1)) w e2 in
    let v := from (3 * (w - 1)) k (Fin (zq 3 * e k - zq 3 * e2 k + e3 k)%Qc) in shown "tema" ob k = rn v /\ tracks (cell (ftema w C) k) v.
  Proof.
    intros H w Mo e e2 e3 v. split.
    - unfold v. rewrite rn_from. apply (triple_exponential_shown o raw b ob W p k _ H KN).
    - apply ftema_tracks; auto. apply tema_period; exact H.
  Qed.
  Lemma ws_accuracy npsum p : (forall l, added l (npsum l)) -> constructed (cWS p) -> let w := nat_arg p in moderate w c n ->
    let v := from (w - 1) k (Fin (run_from (w - 1) (wilders w) (mean_last x w (w - 1)) x k)) in shown "ws" ob k = rn v /\ tracks (fws npsum w C k) v.
  Proof.
    intros A H w Mo v. split.
    - unfold v. rewrite rn_from. apply (wilders_smoothing_shown o raw b ob W p k _ H KN).
    - apply (fws_tracks npsum c w n A); auto; try lia. apply ws_period; exact H.
  Qed.
  Lemma macd_accuracy : constructed cMACD -> moderate 26 c n ->
    let d j := (ema_from 0 12 x j - ema_from 0 26 x j)%Qc in
    within (6 / 5) (cell (fmacd C) k) (from 25 k (Fin (d k))) /\ apart 2 (cell (fmacd C) k) (shown "macd" ob k) /\
    within 2 (cell (fmacd_signal C) k) (from 33 k (Fin (ema_from 25 9 d k))) /\ apart 3 (cell (fmacd_signal C) k) (shown "signal_line" ob k).
  Proof.
    intros H Mo d. destruct (macd_shown o raw b ob W k _ H KN) as [E1 E2]. rewrite E1, E2.
    destruct (macd_close c n Mo k K) as [A1 A2]. destruct (signal_close c n Mo k K) as [B1 B2]. auto.
  Qed.
End Ewm.

(** ** the averages stay among the prices *)
Lemma tracks_between y q lo hi : tracks y (Fin q) -> (Z.abs lo <= 2 ^ 50)%Z -> (Z.abs hi <= 2 ^ 50)%Z -> IZR lo <= 10000 * real q <= IZR hi -> between (val (dec4 lo)) (val (dec4 hi)) y.
Proof.
  intros (m & F & V & D) Bl Bh [L U]. change (Q2R q) with (real q) in D. apply Rabs_le_inv in D.
  assert (M1 : (lo <= m)%Z) by (assert (X : IZR lo < IZR (m + 1)) by (rewrite plus_IZR; lra); apply lt_IZR in X; lia).
  assert (M2 : (m <= hi)%Z) by (assert (X : IZR m < IZR (hi + 1)) by (rewrite plus_IZR; lra); apply lt_IZR in X; lia).
  assert (E : forall z, (Z.abs z <= 2 ^ 50)%Z -> val (dec4 z) = rnd (IZR z / 10000)) by (intros z Z0; apply (decimal_val z Z0)).
  split; [exact F|]. rewrite V, !E by lia.
  split; apply rnd_le; apply Rmult_le_compat_r; try lra; apply IZR_le; assumption.
Qed.
Lemma line_between p r f j lo hi : (0 < p)%nat -> lo <= r <= hi -> (forall i, (i < j)%nat -> lo <= f i <= hi) -> lo <= line p r f j <= hi.
Proof.
  intros P R. destruct (weight_range p P) as ([W1 W2] & _ & _). induction j as [|j IH]; intro G; [exact R|]. cbn [line].
  specialize (IH ltac:(intros; apply G; lia)). specialize (G j ltac:(lia)). nra.
Qed.
Lemma moderate_abs p f n i : moderate p f n -> (i < n)%nat -> (Z.abs (f i) <= 2 ^ 50)%Z.
Proof. intros H I. specialize (H i I). nia. Qed.
Lemma ema_among p c n k lo hi : (0 < p)%nat -> moderate p c n -> (p - 1 <= k < n)%nat -> (lo <= k)%nat -> (hi <= k)%nat -> (forall i, (i <= k)%nat -> (c lo <= c i <= c hi)%Z) ->
  between (val (dec4 (c lo))) (val (dec4 (c hi))) (cell (fema p (column 1 c n)) k).
Proof.
  intros P Mo K Lo Hi B. pose proof (fema_tracks c p n P Mo k ltac:(lia)) as T. rewrite from_late in T by lia.
  apply (tracks_between _ _ _ _ T); try (apply (moderate_abs p c n); auto; lia).
  rewrite real_e1. assert (X : IZR (c lo) / 10000 <= rema p 0 (fun i => IZR (c i) / 10000) k <= IZR (c hi) / 10000); [|lra].
  assert (Y : forall i, (i <= k)%nat -> IZR (c lo) / 10000 <= IZR (c i) / 10000 <= IZR (c hi) / 10000).
  { intros i I. destruct (B i I) as [B1 B2]. apply IZR_le in B1, B2. lra. }
  apply line_between; [exact P|apply Y; lia|]. intros i I. apply Y. lia.
Qed.
Lemma wline_between p h s j lo hi : (0 < p)%nat -> lo <= s <= hi -> (forall i, (i < p + j)%nat -> lo <= h i <= hi) -> lo <= wline p h s j <= hi.
Proof.
  intros P R. assert (N1 : 1 <= INR p) by (apply (le_INR 1); exact P). assert (I : 0 < / INR p <= 1) by (split; [apply Rinv_0_lt_compat; lra|]; rewrite <- Rinv_1; apply Rinv_le_contravar; lra).
  induction j as [|j IH]; intro G; [exact R|]. cbn [wline]. specialize (IH ltac:(intros; apply G; lia)). specialize (G (p + j)%nat ltac:(lia)). unfold Rdiv. nra.
Qed.
Lemma rtotal_between h j lo hi : (forall i, (i < j)%nat -> lo <= h i <= hi) -> INR j * lo <= rtotal h j <= INR j * hi.
Proof.
  induction j as [|j IH]; intro G; [cbn; lra|]. rewrite S_INR. cbn [rtotal]. specialize (IH ltac:(intros; apply G; lia)). specialize (G j ltac:(lia)). lra.
Qed.
Lemma ws_among npsum p c n k lo hi : (forall l, added l (npsum l)) -> (0 < p)%nat -> moderate p c n -> (p - 1 <= k < n)%nat -> (lo <= k)%nat -> (hi <= k)%nat -> (forall i, (i <= k)%nat -> (c lo <= c i <= c hi)%Z) ->
  between (val (dec4 (c lo))) (val (dec4 (c hi))) (fws npsum p (column 1 c n) k).
Proof.
  intros A P Mo K Lo Hi B. pose proof (fws_tracks npsum c p n A P ltac:(lia) Mo k ltac:(lia)) as T. rewrite from_late in T by lia.
  apply (tracks_between _ _ _ _ T); try (apply (moderate_abs p c n); auto; lia).
  unfold run_from. rewrite (real_run c p n P ltac:(lia)). set (s := _ / _).
  assert (Y : forall i, (i <= k)%nat -> IZR (c lo) / 10000 <= IZR (c i) / 10000 <= IZR (c hi) / 10000).
  { intros i I. destruct (B i I) as [B1 B2]. apply IZR_le in B1, B2. lra. }
  assert (N1 : 1 <= INR p) by (apply (le_INR 1); exact P).
  assert (Sd : IZR (c lo) / 10000 <= s <= IZR (c hi) / 10000).
  { destruct (rtotal_between (fun i => IZR (c i) / 10000) p (IZR (c lo) / 10000) (IZR (c hi) / 10000)) as [T1 T2]; [intros; apply Y; lia|]. cbv beta in T1, T2.
    unfold s. split; apply Rmult_le_reg_r with (INR p); try lra; replace (rtotal (fun i => IZR (c i) / 10000) p / INR p * INR p) with (rtotal (fun i => IZR (c i) / 10000) p) by (field; lra); lra. }
  assert (X : IZR (c lo) / 10000 <= wline p (fun i => IZR (c i) / 10000) s (k - (p - 1)) <= IZR (c hi) / 10000); [|lra].
  apply wline_between; [exact P|exact Sd|]. intros i I. apply Y. lia.
Qed.
