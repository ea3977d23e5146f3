(** * Formula5: regression lines, projections, and the remaining averages. *)
From Coq Require Import ZArith QArith Qcanon Bool List String PeanoNat Lia.
From Verif Require Import Num NumFacts RoundFacts Pandas Frame Ind SeriesFacts Lengths Cells RangeSpec RangeFacts RangeMore Signal Api ApiSpec IndSpec ValueSpec ValueFacts ValueMore Recur FormulaSpec Starts Formula Formula2 Formula3 Line.
Import ListNotations.
Open Scope list_scope. Open Scope Qc_scope.

Lemma fins_fin l : fins (map Fin l) = l.
Proof. induction l; cbn; congruence. Qed.
Lemma szip_seq {A B D} (g : A -> B -> D) (f1 : nat -> A) (f2 : nat -> B) a m : szip g (map f1 (seq a m)) (map f2 (seq a m)) = map (fun j => g (f1 j) (f2 j)) (seq a m).
Proof. revert a; induction m; intro a; [reflexivity|]. cbn. f_equal. apply IHm. Qed.
Lemma qdot_seq f g a m : qdot (map f (seq a m)) (map g (seq a m)) = total (fun j => f (a + j)%nat * g (a + j)%nat) m.
Proof. unfold qdot. rewrite szip_seq, qsum_seq. reflexivity. Qed.
Lemma qnat_add a j : qnat (a + j) = nq a + nq j.
Proof.
  induction j as [|j IH]; [rewrite Nat.add_0_r, nq_0; change (qnat a) with (nq a); ring|].
  rewrite Nat.add_succ_r, qnat_S, IH, nq_S. ring.
Qed.
Lemma complete_window n s x p i : complete_as n s x -> (i < n)%nat -> (p <= S i)%nat -> window p i s = map Fin (map x (seq (S i - p) p)).
Proof.
  intros [L H] I P. apply (list_nth_eq _ _ NaN); [rewrite window_len, !map_length, seq_length by lia; lia|].
  intros j J. rewrite window_len in J by lia. rewrite nth_window by lia. rewrite map_map, (nth_map _ 0%nat) by (rewrite seq_length; lia).
  rewrite seq_nth by lia. apply H. lia.
Qed.
Lemma complete_fill0 n s x : complete_as n s x -> complete_as n (fill0 s) x.
Proof. intros [L H]. split; [unfold fill0, smap; rewrite map_length; auto|]. intros j J. unfold fill0. cell. rewrite H by auto. reflexivity. Qed.

Section Line1.
  Variables (n k p : nat) (c : series) (x : nat -> Qc).
  Hypothesis C : complete_as n c x.
  Hypothesis K : (k < n)%nat.
  Hypothesis P : (2 <= p)%nat.
  Let C0 : starts n 0 c x := st_complete n c x C.
  Let LC := st_len _ _ _ _ C0.

  Lemma ols_cell i : (i < n)%nat -> nth i (rolling_ols p c) (NaN, NaN) =
    if (p <=? S i)%nat then (Fin (fit_start (last_rows x p i) p - slope_last x p i * nq (S i - p)), Fin (slope_last x p i)) else (NaN, NaN).
  Proof.
    intro I. unfold rolling_ols. rewrite LC. rewrite (nth_map _ 0%nat) by (rewrite seq_length; auto). rewrite seq_nth by auto. cbn [Nat.add].
    destruct (Nat.leb_spec p (S i)) as [A|A].
    - rewrite (complete_window n _ x) by (auto; apply complete_fill0; auto). rewrite fins_fin, map_length, seq_length, Nat.leb_refl.
      assert (E : ols_slope (ols_xs (S i - p) p) (map x (seq (S i - p) p)) = slope_last x p i).
      { unfold ols_slope, ols_xs. rewrite !qdot_seq, !qsum_seq, map_length, seq_length. change (qnat p) with (nq p).
        rewrite (total_ext _ (fun j => (nq (S i - p) + nq j) * last_rows x p i j)) by (intros; rewrite qnat_add; reflexivity).
        rewrite (total_ext (fun j => qnat (S i - p + j) * qnat (S i - p + j)) (fun j => (nq (S i - p) + nq j) * (nq (S i - p) + nq j))) by (intros; rewrite qnat_add; reflexivity).
        rewrite (total_ext (fun j => qnat (S i - p + j)) (fun j => nq (S i - p) + nq j)) by (intros; rewrite qnat_add; reflexivity).
        apply slope_shift. exact P. }
      unfold ols_intercept. rewrite E. do 2 f_equal. unfold ols_xs. rewrite !qsum_seq, map_length, seq_length. change (qnat p) with (nq p).
      rewrite (total_ext (fun j => qnat (S i - p + j)) (fun j => nq (S i - p) + nq j)) by (intros; rewrite qnat_add; reflexivity).
      rewrite total_add, total_const. unfold fit_start. fold (slope_last x p i).
      change (total (fun j => x (S i - p + j)%nat) p) with (total (last_rows x p i) p). field. apply nn_pos. lia.
    - assert (W : (length (window p i (fill0 c)) < p)%nat).
      { rewrite window_len; [lia|]. unfold fill0, smap. rewrite map_length, LC. auto. }
      pose proof (fins_len (window p i (fill0 c))). destruct (Nat.leb_spec p (length (fins (window p i (fill0 c))))); [lia|reflexivity].
  Qed.
  Lemma lri_st : starts n (p - 1) (lri p c) (fun i => r4 (end_last x p i)).
  Proof.
    assert (LN : length (lri p c) = n) by lens. split; [exact LN|]. intros i I. unfold lri.
    rewrite (nth_szip _ _ _ i 0%nat (NaN, NaN)) by (rewrite ?seq_length; unfold rolling_ols; rewrite ?map_length, ?seq_length; lia).
    rewrite seq_nth by lia. rewrite ols_cell by auto. cbn [Nat.add]. unfold from.
    destruct (Nat.leb_spec p (S i)) as [A|A], (Nat.ltb_spec i (p - 1)) as [B|B]; try lia; [|reflexivity].
    cbn [fst snd]. change (nn i) with (Fin (qnat i)). cbn [nmul nadd nround]. unfold r4. do 2 f_equal. unfold end_last.
    assert (E : qnat i = nq (S i - p) + nq (p - 1)) by (rewrite <- qnat_add; f_equal; lia). rewrite E. ring.
  Qed.
  Lemma lri_at : nth k (lri p c) NaN = from (p - 1) k (Fin (r4 (end_last x p k))).
  Proof. eapply st_end; [apply lri_st|auto|auto|auto]. Qed.
  Lemma days_st : starts n 0 (days n) (fun j => nq (S j)).
  Proof.
    split; [unfold days; rewrite map_length, seq_length; auto|]. intros j J. rewrite from_ge by lia. unfold days.
    rewrite (nth_map _ 0%nat) by (rewrite seq_length; auto). rewrite seq_nth by auto. reflexivity.
  Qed.
  Lemma lrs_st : starts n (p - 1) (lrs p c) (fun i => r4 (slope_last x p i)).
  Proof.
    unfold lrs. rewrite LC. change (nn p) with (Fin (nq p)). pose proof days_st as D.
    assert (XY : starts n (p - 1) (roll_sum p (smul c (days n))) (sum_last (fun j => x j * nq (S j)) p)) by (apply (st_roll_sum n 0); [apply (st_mul n 0 0); auto|lia]).
    assert (XX : starts n (p - 1) (roll_sum p (smul (days n) (days n))) (sum_last (fun j => nq (S j) * nq (S j)) p)) by (apply (st_roll_sum n 0); [apply (st_mul n 0 0); auto|lia]).
    assert (X : starts n (p - 1) (roll_sum p (days n)) (sum_last (fun j => nq (S j)) p)) by (apply (st_roll_sum n 0); auto; lia).
    assert (Y : starts n (p - 1) (roll_sum p c) (sum_last x p)) by (apply (st_roll_sum n 0); auto; lia).
    assert (EQ : forall i, (p - 1 <= i)%nat -> 
      nq p * sum_last (fun j => x j * nq (S j)) p i - sum_last (fun j => nq (S j)) p i * sum_last x p i
      = nq p * total (fun j => (nq (S (S i - p)) + nq j) * last_rows x p i j) p - total (fun j => nq (S (S i - p)) + nq j) p * total (last_rows x p i) p
      /\ nq p * sum_last (fun j => nq (S j) * nq (S j)) p i - sum_last (fun j => nq (S j)) p i * sum_last (fun j => nq (S j)) p i
      = nq p * total (fun j => (nq (S (S i - p)) + nq j) * (nq (S (S i - p)) + nq j)) p - total (fun j => nq (S (S i - p)) + nq j) p * total (fun j => nq (S (S i - p)) + nq j) p).
    { intros i I. unfold sum_last.
      assert (A : forall j, nq (S (S i - p + j)) = nq (S (S i - p)) + nq j) by (intro j; rewrite <- qnat_add; reflexivity).
      rewrite (total_ext (fun j => x (S i - p + j)%nat * nq (S (S i - p + j))) (fun j => (nq (S (S i - p)) + nq j) * last_rows x p i j)) by (intros; rewrite A; unfold last_rows; ring).
      rewrite (total_ext (fun j => nq (S (S i - p + j)) * nq (S (S i - p + j))) (fun j => (nq (S (S i - p)) + nq j) * (nq (S (S i - p)) + nq j))) by (intros; rewrite A; ring).
      rewrite (total_ext (fun j => nq (S (S i - p + j))) (fun j => nq (S (S i - p)) + nq j)) by (intros; rewrite A; ring).
      split; reflexivity. }
    assert (NUM : starts n (p - 1) (ssub (scale (Fin (nq p)) (roll_sum p (smul c (days n)))) (smul (roll_sum p (days n)) (roll_sum p c)))
      (fun i => nq p * sum_last (fun j => x j * nq (S j)) p i - sum_last (fun j => nq (S j)) p i * sum_last x p i)).
    { eapply st_at; [eapply st_sub; [apply st_scale, XY|eapply st_mul; [exact X|exact Y]]|lia]. }
    assert (DEN : starts n (p - 1) (ssub (scale (Fin (nq p)) (roll_sum p (smul (days n) (days n)))) (smul (roll_sum p (days n)) (roll_sum p (days n))))
      (fun i => nq p * sum_last (fun j => nq (S j) * nq (S j)) p i - sum_last (fun j => nq (S j)) p i * sum_last (fun j => nq (S j)) p i)).
    { eapply st_at; [eapply st_sub; [apply st_scale, XX|eapply st_mul; [exact X|exact X]]|lia]. }
    eapply st_ext; [apply st_round; eapply st_at; [eapply st_div; [exact NUM|exact DEN|]|]|].
    - intros j A B. cbv beta. rewrite (proj2 (EQ j ltac:(lia))). apply spread_shift. exact P.
    - lia.
    - intros j A B. cbv beta. destruct (EQ j A) as [-> ->]. f_equal. apply slope_shift. exact P.
  Qed.
  Lemma lrs_at : nth k (lrs p c) NaN = from (p - 1) k (Fin (r4 (slope_last x p k))).
  Proof. eapply st_end; [apply lrs_st|auto|auto|auto]. Qed.
  Lemma tsf_st : starts n (p - 1) (tsf_raw p c) (forecast x p).
  Proof.
    unfold tsf_raw. pose proof lrs_st as S0. pose proof lri_st as I0. pose proof (st_len _ _ _ _ S0). pose proof (st_len _ _ _ _ I0).
    set (s := lrs p c) in *. set (i := lri p c) in *. split; [lens|]. intros j J. unfold row2. cell. unfold from.
    destruct (Nat.ltb_spec j (p - 1)); auto. rewrite (st_cell _ _ _ _ j S0 J), (st_cell _ _ _ _ j I0 J), !from_ge by lia. cbn. f_equal. unfold forecast. ring.
  Qed.
  Lemma r4_sum a b : r4 (r4 a + r4 b) = r4 a + r4 b.
  Proof.
    unfold r4. apply qround_fix. destruct (qround_decimals 4 a) as [z Z]. destruct (qround_decimals 4 b) as [w W].
    exists (z + w)%Z. rewrite Q2Qc_add, <- Z, <- W. ring.
  Qed.
  Lemma tsf_at : nth k (tsf p c) NaN = from (p - 1) k (Fin (forecast x p k)).
  Proof. unfold tsf. eapply st_end; [apply st_round, tsf_st|auto|auto|]. intros _. apply r4_sum. Qed.
  Lemma tsf_published : starts n (p - 1) (tsf p c) (forecast x p).
  Proof. unfold tsf. eapply st_ext; [apply st_round, tsf_st|]. intros j _ _. apply r4_sum. Qed.
  Lemma pb_best best pick : (forall a b, best (Fin a) (Fin b) = Fin (pick a b)) ->
    forall a f m, fold_left best (map (fun j => Fin (f j)) (seq 1 m)) (Fin a) = Fin (fold_left pick (map f (seq 1 m)) a).
  Proof.
    intros B a f m. generalize 1%nat as z. revert a. induction m as [|m IH]; intros a z; [reflexivity|]. cbn. rewrite B. apply IH.
  Qed.
  Lemma fold_max f m : fold_left larger (map f (seq 1 m)) (f 0%nat) = max_to f 0 m.
  Proof. induction m; [reflexivity|]. rewrite seq_S, map_app, fold_left_app, IHm. reflexivity. Qed.
  Lemma fold_min f m : fold_left smaller (map f (seq 1 m)) (f 0%nat) = min_to f 0 m.
  Proof. induction m; [reflexivity|]. rewrite seq_S, map_app, fold_left_app, IHm. reflexivity. Qed.
  Lemma pb_slope_cell i : (i < n)%nat -> (p <= S i)%nat -> nth i (pb_slope p c) NaN = Fin (slope_last x p i).
  Proof.
    intros I A. unfold pb_slope. rewrite (nth_map _ (NaN, NaN)) by (unfold rolling_ols; rewrite map_length, seq_length; lia).
    rewrite ols_cell by auto. destruct (Nat.leb_spec p (S i)); [reflexivity|lia].
  Qed.
  Lemma pb_upper_st : starts n (p - 1) (pb_upper p c) (fun i => r4 (highest_projection x p i)).
  Proof.
    unfold pb_upper, pb_band. apply st_round. rewrite LC. split; [rewrite map_length, seq_length; auto|]. intros i I.
    rewrite (nth_map _ 0%nat) by (rewrite seq_length; auto). rewrite seq_nth by auto. cbn [Nat.add]. unfold from.
    destruct (Nat.leb_spec p (S i)) as [A|A], (Nat.ltb_spec i (p - 1)) as [B|B]; try lia; [|reflexivity].
    rewrite pb_slope_cell by auto. rewrite (map_ext_in _ (fun j => Fin (nq j * slope_last x p i + x (i - j)%nat))).
    - rewrite (proj2 C) by auto. unfold pymax_list. rewrite (pb_best pymax larger) by (intros; unfold pymax, larger; cbn; destruct (qltb a b); reflexivity).
      unfold highest_projection. rewrite <- fold_max. do 2 f_equal. rewrite nq_0, Nat.sub_0_r. ring.
    - intros j J. apply in_seq in J. rewrite (proj2 C) by lia. reflexivity.
  Qed.
  Lemma pb_lower_st : starts n (p - 1) (pb_lower p c) (fun i => r4 (lowest_projection x p i)).
  Proof.
    unfold pb_lower, pb_band. apply st_round. rewrite LC. split; [rewrite map_length, seq_length; auto|]. intros i I.
    rewrite (nth_map _ 0%nat) by (rewrite seq_length; auto). rewrite seq_nth by auto. cbn [Nat.add]. unfold from.
    destruct (Nat.leb_spec p (S i)) as [A|A], (Nat.ltb_spec i (p - 1)) as [B|B]; try lia; [|reflexivity].
    rewrite pb_slope_cell by auto. rewrite (map_ext_in _ (fun j => Fin (nq j * slope_last x p i + x (i - j)%nat))).
    - rewrite (proj2 C) by auto. unfold pymin_list. rewrite (pb_best pymin smaller) by (intros; unfold pymin, smaller; cbn; destruct (qltb b a); reflexivity).
      unfold lowest_projection. rewrite <- fold_min. do 2 f_equal. rewrite nq_0, Nat.sub_0_r. ring.
    - intros j J. apply in_seq in J. rewrite (proj2 C) by lia. reflexivity.
  Qed.
  Lemma pb_upper_at : nth k (pb_upper p c) NaN = from (p - 1) k (Fin (r4 (highest_projection x p k))).
  Proof. eapply st_end; [apply pb_upper_st|auto|auto|auto]. Qed.
  Lemma pb_lower_at : nth k (pb_lower p c) NaN = from (p - 1) k (Fin (r4 (lowest_projection x p k))).
  Proof. eapply st_end; [apply pb_lower_st|auto|auto|auto]. Qed.
End Line1.
