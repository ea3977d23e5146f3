(** * FloatRollApi: the rolling averages of a constructed indicator, exact and in binary64. *)
From Coq Require Import ZArith QArith Qcanon Qreals Reals Bool List String PeanoNat Lia Lra Psatz.
From Flocq Require Import Core Relative IEEE754.BinarySingleNaN.
From Verif Require Import FloatSim FloatFacts FloatExact FloatInd FloatOrd FloatDec FloatRange FloatRange2.
From Verif Require Import Num NumFacts RoundFacts Pandas Sim Frame FrameSpec FrameProofs Ind Signal Api IndSpec SeriesFacts Lengths Causal IndFacts Shape ApiSpec ApiCheck ApiProofs ApiLemmas RangeSpec Cells RangeFacts RangeMore Publish RangeApi ValueSpec ValueFacts ValueMore Recur ValueApi CumulApi.
From Verif Require Import FormulaSpec Starts Formula FormulaApi.
From Verif Require Import FloatSpec FloatAccSpec FloatAcc FloatAcc2 FloatAcc3 FloatAcc5 FloatAccApi FloatEwm FloatEwmAcc FloatEwmAcc2 FloatEwmAcc3 FloatEwmApi FloatRoll FloatRollSpec FloatRollAcc FloatRollAcc2 FloatRollAcc3 FloatRollAcc4 FloatRollAcc5.
Import ListNotations.
Open Scope list_scope. Open Scope string_scope. Open Scope R_scope.

Section Roll.
  Variables (o : oracle) (raw : rawframe) (b : bool) (ob : obj).
  Hypothesis W : wf_raw raw.
  Notation constructed c := (snd (construct o c (RFrame raw) (VBool b)) = Ok ob).
  Lemma sma_period p : constructed (cMA p (VStr "simple")) -> (0 < nat_arg p)%nat.
  Proof. intro H. look fr V VV. cbn in VV. lia. Qed.
  Lemma tma_period p : constructed (cMA p (VStr "triangular")) -> (0 < nat_arg p)%nat.
  Proof. intro H. look fr V VV. cbn in VV. lia. Qed.
  Lemma bb_period p sd : constructed (cBB p sd) -> (0 < nat_arg p)%nat.
  Proof. intro H. look fr V VV. cbn in VV. lia. Qed.
  Lemma qs_period p : constructed (cQS p) -> (0 < nat_arg p)%nat.
  Proof. intro H. look fr V VV. cbn in VV. lia. Qed.
  Lemma dpo_period p : constructed (cDPO p) -> (0 < nat_arg p)%nat.
  Proof. intro H. look fr V VV. cbn in VV. lia. Qed.
  Lemma vosc_periods p q : constructed (cVOSC p q) -> (0 < nat_arg q /\ nat_arg q <= nat_arg p)%nat.
  Proof. intro H. look fr V VV. cbn in VV. lia. Qed.
  Lemma middle_band_shown p sd k c : constructed (cBB p sd) -> known (given "close" ob) k c ->
    shown "middle_band" ob k = from (nat_arg p - 1) k (Fin (r4 (mean_last c (nat_arg p) k))).
  Proof. intros H KC. look fr V VV. cbn in V, VV. unfold shown. erewrite (view_cell V) by reflexivity. cbv beta iota zeta. rewrite row_cut, <- bb_middle_firstn. unfold bb_middle. feed V roll_mean_at k. Qed.
  Variables (c : nat -> Z) (n k : nat).
  Hypothesis (K : (k < n)%nat) (KN : known (given "close" ob) k (prices 1 c)).
  Notation C := (column 1 c n).
  Notation x := (prices 1 c).
  Lemma sma_accuracy p : constructed (cMA p (VStr "simple")) -> let w := nat_arg p in steady c n ->
    let v := from (w - 1) k (Fin (mean_last x w k)) in shown "ma-simple" ob k = rn v /\ tracks (cell (fsma w C) k) v.
  Proof.
    intros H w Mo v. split.
    - unfold v. rewrite rn_from. apply (simple_moving_average_shown o raw b ob W p k _ H KN).
    - apply fsma_tracks; auto; [lia|]. apply sma_period; exact H.
  Qed.
  Lemma middle_accuracy p sd : constructed (cBB p sd) -> let w := nat_arg p in steady c n ->
    let v := from (w - 1) k (Fin (mean_last x w k)) in shown "middle_band" ob k = rn v /\ tracks (cell (fsma w C) k) v.
  Proof.
    intros H w Mo v. split.
    - unfold v. rewrite rn_from. apply (middle_band_shown p sd k _ H KN).
    - apply fsma_tracks; auto; [lia|]. eapply bb_period; exact H.
  Qed.
  Lemma tma_accuracy p : constructed (cMA p (VStr "triangular")) -> let w := nat_arg p in steady c n ->
    let v := from (2 * (w - 1)) k (Fin (mean_last (mean_last x w) w k)) in shown "ma-triangular" ob k = rn v /\ tracks (cell (ftma w C) k) v.
  Proof.
    intros H w Mo v. split.
    - unfold v. rewrite rn_from. apply (triangular_moving_average_shown o raw b ob W p k _ H KN).
    - apply ftma_tracks; auto; [lia|]. apply tma_period; exact H.
  Qed.
  Lemma dpo_accuracy p : constructed (cDPO p) -> let w := nat_arg p in let d := S (w / 2) in (d <= k)%nat -> steady c n ->
    let v := from (w - 1 - d) (k - d) (Fin (x (k - d)%nat - mean_last x w k)%Qc) in shown "dpo" ob (k - d) = rn v /\ tracks (cell (fdpo w C) (k - d)) v.
  Proof.
    intros H w d D Mo v. split.
    - unfold v. rewrite rn_from. apply (detrended_price_shown o raw b ob W p k _ H KN D).
    - apply fdpo_tracks; auto. apply dpo_period; exact H.
  Qed.
  Lemma qstick_accuracy op p : known (given "open" ob) k (prices 1 op) -> constructed (cQS p) -> let w := nat_arg p in steady c n -> steady op n ->
    let v := from (w - 1) k (Fin (mean_last (fun i => (prices 1 c i - prices 1 op i)%Qc) w k)) in shown "qstick" ob k = rn v /\ tracks (cell (fqstick w (column 1 op n) C) k) v.
  Proof.
    intros KO H w Mc Mo v. split.
    - unfold v. rewrite rn_from. apply (qstick_shown o raw b ob W p k _ _ H KO KN).
    - apply fqstick_tracks; auto. apply qs_period; exact H.
  Qed.
End Roll.
Lemma vosc_accuracy o raw b ob : wf_raw raw -> forall v n k, (k < n)%nat -> known (given "volume" ob) k (fun i => zq (v i)) ->
  forall p q, snd (construct o (cVOSC p q) (RFrame raw) (VBool b)) = Ok ob -> let long := nat_arg p in let short := nat_arg q in
  (Z.of_nat long <= 2 ^ 20)%Z -> (forall i, (i < n)%nat -> (0 <= v i <= 2 ^ 32)%Z) ->
  let e := from (long - 1) k (Fin (mean_last (fun i => zq (v i)) short k - mean_last (fun i => zq (v i)) long k)%Qc) in
  shown "vosc" ob k = rn e /\ tracks (cell (fvosc long short (whole v n)) k) e.
Proof.
  intros W v n k K KN p q H long short L V e. destruct (vosc_periods o raw b ob W p q H) as [S0 S1]. split.
  - unfold e. rewrite rn_from. apply (volume_oscillator_shown o raw b ob W p q k _ H KN).
  - apply fvosc_tracks; auto.
Qed.

(** ** the averages stay among the prices of the window *)
Lemma rsums_between h a m lo hi : (forall i, (a <= i < a + m)%nat -> lo <= h i <= hi) -> INR m * lo <= rsums h a m <= INR m * hi.
Proof.
  induction m as [|m IH]; intro G; [cbn; lra|]. rewrite S_INR. cbn [rsums]. specialize (IH ltac:(intros; apply G; lia)). specialize (G (a + m)%nat ltac:(lia)). lra.
Qed.
Lemma steady_abs f n i : steady f n -> (i < n)%nat -> (Z.abs (f i) <= 2 ^ 50)%Z.
Proof. intros H I. specialize (H i I). nia. Qed.
Lemma sma_among w c n k lo hi : (0 < w)%nat -> steady c n -> (w - 1 <= k < n)%nat -> recent w k lo -> recent w k hi -> (forall i, recent w k i -> (c lo <= c i <= c hi)%Z) ->
  between (val (dec4 (c lo))) (val (dec4 (c hi))) (cell (fsma w (column 1 c n)) k).
Proof.
  intros P Mo K Lo Hi B. pose proof (fsma_tracks n ltac:(lia) c w k Mo P ltac:(lia)) as T. rewrite from_late in T by lia. unfold recent in Lo, Hi.
  apply (tracks_between _ _ _ _ T); try (apply (steady_abs c n); auto; lia).
  rewrite real_m1 by exact P. assert (N1 : 1 <= INR w) by (apply (le_INR 1); exact P).
  destruct (rsums_between (fun i => IZR (c i) / 10000) (S k - w) w (IZR (c lo) / 10000) (IZR (c hi) / 10000)) as [T1 T2].
  { intros i I. destruct (B i ltac:(unfold recent; lia)) as [B1 B2]. apply IZR_le in B1, B2. lra. }
  assert (X : IZR (c lo) / 10000 <= rmean (fun i => IZR (c i) / 10000) w k <= IZR (c hi) / 10000); [|lra].
  unfold rmean. set (z := rsums _ _ _) in *. split; apply Rmult_le_reg_r with (INR w); try lra; replace (z / INR w * INR w) with z by (field; lra); lra.
Qed.
(** ** histories of any size *)
Lemma roll_flat w s k : (0 < w)%nat -> (w - 1 <= k < List.length s)%nat -> (forall i, (i < List.length s)%nat -> is_finite (cell s i) = true) ->
  (forall i, recent w k i -> val (cell s i) = val (cell s k)) -> cell (froll_mean w s) k = cell s k.
Proof.
  intros P K F E. unfold cell at 1. rewrite froll_mean_nth by lia. apply (flat_mean w s (List.length s) k P F); [lia|lia|exact E].
Qed.
Lemma roll_not_below w s k : (0 < w)%nat -> (w - 1 <= k < List.length s)%nat -> (forall i, (i < List.length s)%nat -> is_finite (cell s i) = true) ->
  (forall i, recent w k i -> Bsign (cell s i) = false) -> fltb (cell (froll_mean w s) k) f0 = false.
Proof.
  intros P K F E. unfold cell at 1. rewrite froll_mean_nth by lia. apply (not_below w s (List.length s) k P F); [lia|lia|exact E].
Qed.
