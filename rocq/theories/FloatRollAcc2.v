(** * FloatRollAcc2: rolling means and sums of columns with missing cells in front. *)
From Coq Require Import ZArith QArith Qcanon Qreals Reals Bool List PeanoNat Lia Lra Psatz.
From Flocq Require Import Core Relative IEEE754.BinarySingleNaN.
From Verif Require Import Num NumFacts Pandas SeriesFacts FloatSim FloatFacts FloatExact FloatInd FloatOrd FloatDec FloatRange FloatRange2 RangeSpec ValueSpec FormulaSpec Starts FloatSpec FloatAccSpec FloatAcc FloatAcc2 FloatAcc3 FloatAcc5 FloatEwm FloatEwmAcc FloatEwmAcc2 FloatEwmAcc3 FloatRoll FloatRollAcc.
Import ListNotations.
Open Scope R_scope.
Notation u := (/ 9007199254740992).

Definition ro_none : roll := mkRoll f0 f0 f0 fnan 0 0 0.
Section Lead.
Variables (w b : nat) (s : fseries).
Hypothesis B : forall i, (i < b)%nat -> is_finite (nth i s fnan) = false.
Lemma enter_none x st : is_finite x = false -> ro_enter x st = st. Proof. intro H. unfold ro_enter. rewrite H. reflexivity. Qed.
Lemma leave_none x st : is_finite x = false -> ro_leave x st = st. Proof. intro H. unfold ro_leave. rewrite H. reflexivity. Qed.
Lemma fresh_none x : is_finite x = false -> ro_fresh x = ro_none. Proof. intro H. unfold ro_fresh, seen. rewrite H. reflexivity. Qed.
Lemma lead_none k : (k < b)%nat -> ro_at w s k = ro_none.
Proof.
  induction k as [|k IH]; intro K.
  - cbn [ro_at]. rewrite enter_none, fresh_none by (apply B; exact K). reflexivity.
  - cbn [ro_at]. destruct (w <=? 1)%nat; rewrite enter_none by (apply B; exact K); [apply fresh_none, B, K|].
    rewrite IH by lia. destruct (w <=? S k)%nat; [apply leave_none, B; lia|reflexivity].
Qed.
Lemma enter_fresh x : ro_enter x (ro_fresh x) = ro_enter x ro_none.
Proof.
  destruct (is_finite x) eqn:F; [|rewrite (fresh_none x F); reflexivity].
  unfold ro_enter, ro_fresh, ro_none, seen. rewrite F. cbn [ro_sum ro_add ro_rem ro_prev ro_nobs ro_neg ro_same]. destruct (kahan f0 f0 x) as [t c]. f_equal.
  unfold feqb. destruct x; try discriminate F; destruct (Beqb _ _); reflexivity.
Qed.
End Lead.
Lemma lead_at w b s k : (0 < w)%nat -> (forall i, (i < b)%nat -> is_finite (nth i s fnan) = false) -> ro_at w s (b + k) = ro_at w (skipn b s) k.
Proof.
  intros W B. assert (SK : forall i, nth i (skipn b s) fnan = nth (b + i) s fnan) by (intro i; apply nth_skipn).
  induction k as [|k IH].
  - rewrite Nat.add_0_r. cbn [ro_at]. rewrite SK, Nat.add_0_r. destruct b as [|a]; [reflexivity|]. cbn [ro_at]. destruct (w <=? 1)%nat; [reflexivity|].
    rewrite (lead_none w (S a) s B a) by lia. rewrite enter_fresh. f_equal. destruct (Nat.leb_spec w (S a)); [|reflexivity]. apply leave_none, B. lia.
  - rewrite Nat.add_succ_r. cbn [ro_at]. rewrite <- Nat.add_succ_r, !SK. destruct (w <=? 1)%nat; [reflexivity|]. rewrite IH. f_equal.
    destruct (Nat.leb_spec w (S k)) as [L|L].
    + destruct (Nat.leb_spec w (b + S k)); [|lia]. replace (b + S k - w)%nat with (b + (S k - w))%nat by lia. reflexivity.
    + destruct (Nat.leb_spec w (b + S k)); [|reflexivity]. apply leave_none, B. lia.
Qed.
Lemma froll_mean_length w s : length (froll_mean w s) = length s. Proof. unfold froll_mean. rewrite map_length, seq_length. reflexivity. Qed.
Lemma froll_sum_length w s : length (froll_sum w s) = length s. Proof. unfold froll_sum. rewrite map_length, seq_length. reflexivity. Qed.
Lemma seq_map_nth {A} (f : nat -> A) n k d : (k < n)%nat -> nth k (map f (seq 0 n)) d = f k.
Proof. intro K. rewrite (nth_indep _ d (f O)) by (rewrite map_length, seq_length; exact K). rewrite map_nth, seq_nth by exact K. reflexivity. Qed.
Lemma froll_mean_nth w s k : (k < length s)%nat -> nth k (froll_mean w s) fnan = ro_mean w (ro_at w s k).
Proof. apply (seq_map_nth (fun i => ro_mean w (ro_at w s i))). Qed.
Lemma froll_sum_nth w s k : (k < length s)%nat -> nth k (froll_sum w s) fnan = ro_total w (ro_at w s k).
Proof. apply (seq_map_nth (fun i => ro_total w (ro_at w s i))). Qed.
Lemma rsums_shift h b lo m : rsums (fun i => h (b + i)%nat) lo m = rsums h (b + lo) m.
Proof. induction m as [|m IH]; [reflexivity|]. cbn [rsums]. rewrite IH, Nat.add_assoc. reflexivity. Qed.
Definition rmean (h : nat -> R) (w k : nat) : R := rsums h (S k - w) w / INR w.

Section Rows.
Variables (w b n : nat) (s : fseries) (h : nat -> R) (Q d : R).
Hypothesis (W : (0 < w)%nat) (Len : length s = n).
Hypothesis B : forall i, (i < b)%nat -> is_finite (nth i s fnan) = false.
Hypothesis G : forall i, (b <= i < n)%nat -> ap (nth i s fnan) (h i) d /\ Rabs (h i) <= Q.
Hypothesis (D0 : 0 <= d) (Q0 : / 10000 <= Q) (N : INR n <= 10000000000000) (NQ : INR n * (Q + d) <= 100000000000000000000000).
Lemma early k : (k < n)%nat -> (k < b + (w - 1))%nat -> ro_mean w (ro_at w s k) = fnan /\ ro_total w (ro_at w s k) = fnan.
Proof.
  intros K L. assert (E : (ro_nobs (ro_at w s k) < w)%nat).
  { destruct (Nat.lt_ge_cases k b) as [C|C]; [rewrite (lead_none w b s B k C); exact W|].
    replace k with (b + (k - b))%nat by lia. rewrite lead_at by assumption.
    assert (F : forall i, (i < n - b)%nat -> is_finite (nth i (skipn b s) fnan) = true) by (intros i I; rewrite nth_skipn; apply (G (b + i)); lia).
    rewrite (cn_nobs _ _ _ _ (counted_at w (skipn b s) (n - b) W F (k - b) ltac:(lia))). unfold size, lo. lia. }
  unfold ro_mean, ro_total. destruct (Nat.leb_spec w (ro_nobs (ro_at w s k))); [lia|]. destruct (Nat.eqb_spec w 0); [lia|]. rewrite andb_false_r. auto.
Qed.
Section Late.
Variable k : nat.
Hypothesis (K : (k < n)%nat) (L : (b + (w - 1) <= k)%nat).
Notation s' := (skipn b s).
Notation P := (Q + d).
Lemma cells i : (i < n - b)%nat -> is_finite (nth i s' fnan) = true /\ Rabs (RV (nth i s' fnan)) <= P.
Proof.
  intro I. rewrite nth_skipn. destruct (G (b + i) ltac:(lia)) as [A C]. split; [apply A|]. apply (ap_bound _ _ _ _ A). lra.
Qed.
Lemma lo_eq : (b + lo w (k - b) = S k - w)%nat. Proof. unfold lo. lia. Qed.
Lemma wn : INR w <= INR n. Proof. apply le_INR. lia. Qed.
Lemma wP : INR w * P <= 100000000000000000000000.
Proof. pose proof wn. assert (INR w * P <= INR n * P) by (apply Rmult_le_compat_r; lra). lra. Qed.
Lemma nb : INR (n - b) <= 10000000000000. Proof. assert (INR (n - b) <= INR n) by (apply le_INR; lia). lra. Qed.
Lemma cell_sum : Rabs (rsums (fun i => RV (nth i s' fnan)) (lo w (k - b)) w - rsums h (S k - w) w) <= INR w * d.
Proof.
  rewrite <- lo_eq, <- rsums_shift. apply rsums_near. intros i I. cbv beta. rewrite nth_skipn. apply (G (b + i)). unfold lo in I. lia.
Qed.
Lemma spread_n : spread (Q + d) (k - b) <= 125 / 10 * INR n * (P * u).
Proof. unfold spread. assert (INR (S (k - b)) <= INR n) by (apply le_INR; lia). assert (INR (S (k - b)) * (P * u) <= INR n * (P * u)) by (apply Rmult_le_compat_r; lra). lra. Qed.
Lemma sum_late : ap (ro_total w (ro_at w s k)) (rsums h (S k - w) w) (INR w * (d + 125 / 10 * INR n * (P * u))) /\ Rabs (rsums h (S k - w) w) <= INR w * Q.
Proof.
  split; [|apply rsums_bound; intros i I; apply G; lia].
  replace (ro_at w s k) with (ro_at w s (b + (k - b))) by (f_equal; lia). rewrite lead_at by assumption.
  destruct (roll_total_ap w s' (n - b) P W ltac:(lra) wP nb cells (k - b) ltac:(lia) ltac:(lia)) as [[F H] _]. split; [exact F|]. pose proof cell_sum as C. pose proof spread_n as SN.
  assert (W0 : 0 <= INR w) by apply pos_INR. assert (S1 : INR w * spread (Q + d) (k - b) <= INR w * (125 / 10 * INR n * (P * u))) by (apply Rmult_le_compat_l; assumption).
  rewrite Rmult_plus_distr_l. apply Rabs_le_inv in H, C. apply Rabs_le. lra.
Qed.
Lemma mean_late : ap (ro_mean w (ro_at w s k)) (rmean h w k) (d + 125 / 10 * INR n * (P * u) + 2 * P * u) /\ Rabs (rmean h w k) <= Q.
Proof.
  assert (W1 : 1 <= INR w) by (apply (le_INR 1); exact W).
  assert (I : forall a c, Rabs a <= INR w * c -> Rabs (a / INR w) <= c).
  { intros a c H. unfold Rdiv. rewrite Rabs_mult, Rabs_inv, (Rabs_pos_eq (INR w)) by lra. apply Rmult_le_reg_r with (INR w); [lra|]. rewrite Rmult_assoc, Rinv_l by lra. lra. }
  split; [|apply I; apply rsums_bound; intros i J; apply G; lia].
  replace (ro_at w s k) with (ro_at w s (b + (k - b))) by (f_equal; lia). rewrite lead_at by assumption.
  destruct (roll_mean_ap w s' (n - b) P W ltac:(lra) wP nb cells (k - b) ltac:(lia) ltac:(lia)) as [[F H] _]. split; [exact F|]. pose proof (I _ _ cell_sum) as C. pose proof spread_n as SN.
  unfold rmean. rewrite Rdiv_minus_distr in C. apply Rabs_le_inv in H, C. apply Rabs_le. lra.
Qed.
End Late.
Lemma mean_row k : (k < n)%nat -> let y := nth k (froll_mean w s) fnan in
  if (k <? b + (w - 1))%nat then y = fnan else ap y (rmean h w k) (d + 125 / 10 * INR n * ((Q + d) * u) + 2 * (Q + d) * u) /\ Rabs (rmean h w k) <= Q.
Proof.
  intro K. cbv zeta. rewrite froll_mean_nth by lia. destruct (Nat.ltb_spec k (b + (w - 1))); [apply early; assumption|apply mean_late; assumption].
Qed.
Lemma sum_row k : (k < n)%nat -> let y := nth k (froll_sum w s) fnan in
  if (k <? b + (w - 1))%nat then y = fnan else ap y (rsums h (S k - w) w) (INR w * (d + 125 / 10 * INR n * ((Q + d) * u))) /\ Rabs (rsums h (S k - w) w) <= INR w * Q.
Proof.
  intro K. cbv zeta. rewrite froll_sum_nth by lia. destruct (Nat.ltb_spec k (b + (w - 1))); [apply early; assumption|apply sum_late; assumption].
Qed.
End Rows.
