(** * FormulaApi: the formulas, for every object a constructor returns. *)
From Coq Require Import ZArith QArith Qcanon Bool List String PeanoNat Lia Sorted Permutation.
From Verif Require Import Num NumFacts RoundFacts Pandas Sim Frame FrameSpec FrameProofs Ind Signal Api IndSpec SeriesFacts Lengths Causal IndFacts Shape ApiSpec ApiCheck ApiProofs ApiLemmas RangeSpec Cells RangeFacts RangeMore Publish RangeApi ValueSpec ValueFacts ValueMore Recur ValueApi CumulApi.
From Verif Require Import FormulaSpec Starts Formula Formula2 Formula3 Formula4 Line Formula5 Formula6.
Import ListNotations.
Open Scope list_scope. Open Scope string_scope.

(** cells that are known are not changed by filling *)
Lemma view_filled_known {o i raw b ob f} (V : view o i raw b ob f) c k x : In c (required i) -> known (given c ob) k x ->
  firstn (S k) (col c (fill_missing f)) = firstn (S k) (col c f).
Proof.
  intros I H. pose proof (v_good _ _ _ _ _ _ V) as (G1 & G2 & G3). rewrite (fill_col f c G2 G3).
  assert (A : forall j, (j <= k)%nat -> nth j (col c f) NaN = Fin (x j)) by (intros j J; rewrite <- (view_given V c j I); apply H, J).
  assert (L : (k < List.length (col c f))%nat).
  { destruct (Nat.lt_ge_cases k (List.length (col c f))) as [L|L]; auto. specialize (A k (le_n k)). rewrite nth_overflow in A by exact L. discriminate. }
  apply nth_ext with (d := NaN) (d' := NaN); [rewrite !firstn_length, map_length, seq_length; reflexivity|].
  intros j J. rewrite firstn_length, map_length, seq_length in J. rewrite !nth_firstn by lia.
  rewrite nth_map_seq by lia. apply nearest_present; [|lia]. rewrite A by lia. reflexivity.
Qed.

Lemma dpo_published o raw b ob p : wf_raw raw -> snd (construct o (cDPO p) (RFrame raw) (VBool b)) = Ok ob ->
  exists f, view o (iDPO (nat_arg p)) raw b ob f /\
    col "dpo" (get_ti_data ob) = firstn (List.length (rows f) - S (nat_arg p / 2)) (dpo (nat_arg p) (col "close" f)).
Proof.
  intros W H. destruct (construct_view _ _ _ _ _ W H) as (f & V). cbn [asked] in V. exists f. split; [exact V|].
  apply construct_inv in H as (i & raw0 & b0 & g & CK & Q & B & VA & K & EI). injection Q as <-. injection B as <-.
  pose proof (check_asked _ _ CK) as EA. cbn [asked] in EA. rewrite EA in *.
  assert (EQ : f = g) by (pose proof (v_val _ _ _ _ _ _ V) as X; cbn [required] in X, VA; rewrite X in VA; injection VA as ->; reflexivity). subst g.
  apply calc_ok in K as [K _]. apply (f_equal snd) in K. cbn [snd ti_index ti_cols] in K. unfold get_ti_data. rewrite K.
  assert (LI : List.length (firstn (List.length (rows f) - S (nat_arg p / 2)) (index f)) = (List.length (rows f) - S (nat_arg p / 2))%nat)
    by (rewrite firstn_length, len_index; lia).
  rewrite (col_mk_ti _ _ _ (dpo (nat_arg p) (col "close" f))); [rewrite LI; reflexivity|reflexivity|]. rewrite LI.
  unfold dpo, sround, ssub, smap. rewrite map_length, len_szip, len_shift_back. unfold roll_mean. rewrite len_rolling, (view_length V) by req. lia.
Qed.

Ltac feeds1 V k :=
  first [ lia
        | apply (view_known V); [req|assumption]
        | assumption
        | eapply (view_known V "close" k); [req|eassumption]
        | match goal with N : forall _, _ |- _ => let j := fresh in intros; apply N; (lia || assumption) end ].
Ltac feeds V k := repeat match goal with X : _ /\ _ |- _ => destruct X end; try (feeds1 V k).
Ltac feed V lem k := eapply lem with (n := S k); feeds V k.

Section Formulas.
  Variables (o : oracle) (raw : rawframe) (b : bool) (ob : obj).
  Hypothesis W : wf_raw raw.
  Notation constructed c := (snd (construct o c (RFrame raw) (VBool b)) = Ok ob).
  Local Open Scope Qc_scope.
  Lemma simple_moving_average_shown p k c : constructed (cMA p (VStr "simple")) ->
  known (given "close" ob) k c ->
  let n := nat_arg p in
  shown "ma-simple" ob k = from (n - 1) k (Fin (r4 (mean_last c n k))).
  Proof. intros H KC. look f V VV. cbn in V, VV. unfold shown. erewrite (view_cell V) by reflexivity. cbv beta iota zeta. rewrite row_cut, <- ma_firstn. unfold ma. feed V roll_mean_at k. Qed.
  Lemma exponential_moving_average_shown p k c : constructed (cMA p (VStr "exponential")) ->
  known (given "close" ob) k c ->
  let n := nat_arg p in
  shown "ma-exponential" ob k = from (n - 1) k (Fin (r4 (ema_from 0 n c k))).
  Proof. intros H KC. look f V VV. cbn in V, VV. unfold shown. erewrite (view_cell V) by reflexivity. cbv beta iota zeta. rewrite row_cut, <- ma_firstn. unfold ma. feed V ewm_at k. Qed.
  Lemma triangular_moving_average_shown p k c : constructed (cMA p (VStr "triangular")) ->
  known (given "close" ob) k c ->
  let n := nat_arg p in
  shown "ma-triangular" ob k = from (2 * (n - 1)) k (Fin (r4 (mean_last (mean_last c n) n k))).
  Proof. intros H KC. look f V VV. cbn in V, VV. unfold shown. erewrite (view_cell V) by reflexivity. cbv beta iota zeta. rewrite row_cut, <- ma_firstn. unfold ma. feed V triangular_at k. Qed.
  Lemma time_series_moving_average_shown p k c : constructed (cMA p (VStr "time_series")) ->
  (2 <= nat_arg p)%nat ->
  known (given "close" ob) k c ->
  let n := nat_arg p in
  shown "ma-time_series" ob k = from (n - 1) k (Fin (forecast c n k)).
  Proof. intros H P2 KC. look f V VV. cbn in V, VV. unfold shown. erewrite (view_cell V) by reflexivity. cbv beta iota zeta. rewrite row_cut, <- ma_firstn. rewrite (view_filled_known V "close" k c) by (auto; req). feed V ma_time_series_at k. Qed.
  Lemma variable_moving_average_shown p k c : constructed (cMA p (VStr "variable")) ->
  (forall j, (22 <= j <= k)%nat -> exists i, (j - 9 < i <= j)%nat /\ c i <> c (i - 1)%nat) ->
  known (given "close" ob) k c ->
  let n := nat_arg p in
  shown "ma-variable" ob k = from 21 k (Fin (r4 (variable_line n c k))).
  Proof. intros H MV KC. look f V VV. cbn in V, VV. unfold shown. erewrite (view_cell V) by reflexivity. cbv beta iota zeta. rewrite row_cut, <- ma_firstn. rewrite ?(view_filled_known V "close" k c) by (auto; req). feed V ma_variable_at k. Qed.
  Lemma double_exponential_shown p k c : constructed (cDEMA p) ->
  known (given "close" ob) k c ->
  let n := nat_arg p in let e := ema_from 0 n c in let e2 := ema_from (n - 1) n e in
  shown "dema" ob k = from (2 * (n - 1)) k (Fin (r4 (zq 2 * e k - e2 k))).
  Proof. intros H KC. look f V VV. cbv zeta. unfold shown. shown V. rewrite row_cut, <- dema_firstn. feed V dema_at k. Qed.
  Lemma triple_exponential_shown p k c : constructed (cTEMA p) ->
  known (given "close" ob) k c ->
  let n := nat_arg p in let e := ema_from 0 n c in let e2 := ema_from (n - 1) n e in let e3 := ema_from (2 * (n - 1)) n e2 in
  shown "tema" ob k = from (3 * (n - 1)) k (Fin (r4 (zq 3 * e k - zq 3 * e2 k + e3 k))).
  Proof. intros H KC. look f V VV. cbv zeta. unfold shown. shown V. rewrite row_cut, <- tema_firstn. feed V tema_at k. Qed.
  Lemma wilders_smoothing_shown p k c : constructed (cWS p) ->
  known (given "close" ob) k c ->
  let n := nat_arg p in
  shown "ws" ob k = from (n - 1) k (Fin (r4 (run_from (n - 1) (wilders n) (mean_last c n (n - 1)) c k))).
  Proof. intros H KC. look f V VV. cbv zeta. unfold shown. shown V. rewrite row_cut, <- ws_firstn by lia. feed V ws_at k. Qed.
  Lemma macd_shown k c : constructed cMACD ->
  known (given "close" ob) k c ->
  let m j := r4 (ema_from 0 12 c j) - r4 (ema_from 0 26 c j) in
  shown "macd" ob k = from 25 k (Fin (r4 (m k))) /\ shown "signal_line" ob k = from 33 k (Fin (r4 (ema_from 25 9 m k))).
  Proof. intros H KC. look f V VV. cbv zeta. unfold shown. shown V. erewrite (view_cell V "signal_line") by (cbn; reflexivity). rewrite (row_cut (macd _)), (row_cut (macd_signal _)), <- macd_firstn, <- macd_signal_firstn. destruct (macd_at (S k) k _ c (view_known V "close" k c ltac:(req) KC) ltac:(lia)) as [A B]. split; [exact A|exact B]. Qed.
  Lemma price_oscillator_shown p q k c : constructed (cPOSC p q) ->
  known (given "close" ob) k c ->
  let long := nat_arg p in let short := nat_arg q in
  shown "posc" ob k = from (long - 1) k (rn (ratio (zq 100 * (mean_last c short k - mean_last c long k)) (mean_last c long k))).
  Proof. intros H KC. look f V VV. cbv zeta. unfold shown. shown V. rewrite row_cut, <- price_osc_firstn. replace (nat_arg p - 1)%nat with (Nat.max (nat_arg p) (nat_arg q) - 1)%nat by lia. feed V posc_at k. Qed.
  Lemma volume_oscillator_shown p q k v : constructed (cVOSC p q) ->
  known (given "volume" ob) k v ->
  let long := nat_arg p in let short := nat_arg q in
  shown "vosc" ob k = from (long - 1) k (Fin (r4 (mean_last v short k - mean_last v long k))).
  Proof. intros H KC. look f V VV. cbv zeta. unfold shown. shown V. rewrite row_cut, <- vosc_firstn. replace (nat_arg p - 1)%nat with (Nat.max (nat_arg p) (nat_arg q) - 1)%nat by lia. feed V vosc_at k. Qed.
  Lemma volume_rate_of_change_shown p k v : constructed (cVRC p) ->
  known (given "volume" ob) k v ->
  let n := nat_arg p in
  shown "vrc" ob k = from n k (rn (ratio (zq 100 * change n v k) (v (k - n)%nat))).
  Proof. intros H KV. look f V VV. cbv zeta. unfold shown. shown V. rewrite row_cut, <- vrc_firstn. feed V vrc_at k. Qed.
  Lemma standard_deviation_shown p k c : constructed (cSD p) ->
  known (given "close" ob) k c ->
  let n := nat_arg p in
  shown "sd" ob k = from (n - 1) k (Fin (r4 (o_sqrt o (variance (last_rows c n k) n)))).
  Proof. intros H KC. look f V VV. cbv zeta. unfold shown. shown V. rewrite row_cut, <- sd_firstn. feed V sd_at k. Qed.
  Lemma vertical_horizontal_filter_shown p k c : constructed (cVHF p) ->
  known (given "close" ob) k c ->
  let n := nat_arg p in
  shown "vhf" ob k = from n k (rn (ratio (max_last c n k - min_last c n k) (sum_last (fun j => abs (change 1 c j)) n k))).
  Proof. intros H KC. look f V VV. cbv zeta. unfold shown. shown V. rewrite row_cut, <- vhf_firstn. feed V vhf_at k. Qed.
  Lemma performance_shown p q k c : constructed (cPRF p q) ->
  known (given "close" ob) k c ->
  shown "prf" ob k = rn (ratio (c k - c O) (c O)).
  Proof. intros H KC. look f V VV. cbv zeta. unfold shown. shown V. rewrite row_cut, <- prf_firstn. feed V prf_at k. Qed.
  Lemma chande_momentum_shown p k c : constructed (cCMO p) ->
  known (given "close" ob) k c ->
  let n := nat_arg p in
  let up := sum_last (fun j => gain (change 1 c j)) n k in let down := sum_last (fun j => loss (change 1 c j)) n k in
  shown "cmo" ob k = from n k (rn (ratio (zq 100 * (up - down)) (up + down))).
  Proof. intros H KC. look f V VV. cbv zeta. unfold shown. shown V. rewrite row_cut, <- cmo_firstn. feed V cmo_at k. Qed.
  Lemma relative_strength_shown p k c : constructed (cRSI p) ->
  known (given "close" ob) k c ->
  let n := nat_arg p in
  let average f := run_from n (fun prev y => r4 (wilders n prev y)) (mean_last f n n) f k in
  let up := average (fun j => r4 (gain (change 1 c j))) in let down := average (fun j => r4 (loss (change 1 c j))) in
  shown "rsi" ob k = from n k (rn (ratio (zq 100 * up) (up + down))).
  Proof. intros H KC. look f V VV. cbv zeta. unfold shown. shown V. rewrite row_cut, <- rsi_firstn. feed V rsi_at k. Qed.
  Lemma relative_momentum_shown p q k c : constructed (cRMI p q) ->
  known (given "close" ob) k c ->
  let n := nat_arg p in let m := nat_arg q in
  let up := wilder_from m n (fun j => gain (change m c j)) k in let down := wilder_from m n (fun j => loss (change m c j)) k in
  shown "rmi" ob k = from (n + m - 1) k (if qeqb down 0 then NaN else Fin (r4 (zq 100 * up / (up + down)))).
  Proof. intros H KC. look f V VV. cbv zeta. unfold shown. shown V. rewrite row_cut, <- rmi_firstn. feed V rmi_at k. Qed.
  Lemma intraday_momentum_shown p k op c : constructed (cIMI p) ->
  known (given "open" ob) k op -> known (given "close" ob) k c ->
  let n := nat_arg p in
  let up := sum_last (fun j => gain (c j - op j)) n k in let down := sum_last (fun j => gain (op j - c j)) n k in
  shown "imi" ob k = from (n - 1) k (rn (ratio (zq 100 * up) (up + down))).
  Proof. intros H KOP KC. look f V VV. cbv zeta. unfold shown. shown V. rewrite row_cut, <- imi_firstn. feed V imi_at k. Qed.
  Lemma qstick_shown p k op c : constructed (cQS p) ->
  known (given "open" ob) k op -> known (given "close" ob) k c ->
  let n := nat_arg p in
  shown "qstick" ob k = from (n - 1) k (Fin (r4 (mean_last (fun j => c j - op j) n k))).
  Proof. intros H KOP KC. look f V VV. cbv zeta. unfold shown. shown V. rewrite row_cut, <- qstick_firstn. feed V qstick_at k. Qed.
  Lemma williams_r_shown p k h l c : constructed (cWR p) ->
  known (given "high" ob) k h -> known (given "low" ob) k l -> known (given "close" ob) k c ->
  let n := nat_arg p in let top := max_last h n k in let bottom := min_last l n k in
  shown "wr" ob k = from (n - 1) k (rn (nmul (Fin (- zq 100)) (ratio (top - c k) (top - bottom)))).
  Proof. intros H KH KL KC. look f V VV. cbv zeta. unfold shown. shown V. rewrite row_cut, <- wr_firstn. feed V wr_at k. Qed.
  Lemma stochastic_shown p q r m k h l c : constructed (cSO p q r m) ->
  known (given "high" ob) k h -> known (given "low" ob) k l -> known (given "close" ob) k c ->
  let n := nat_arg p in let s := nat_arg q in
  shown "%K" ob k = from (n + s - 2) k (rn (ratio (zq 100 * sum_last (fun j => c j - min_last l n j) s k) (sum_last (fun j => max_last h n j - min_last l n j) s k))).
  Proof. intros H KH KL KC. look f V VV. cbv zeta. unfold shown. shown V. rewrite row_cut, <- so_k_firstn. eapply so_k_at with (n := S k) (k := k); feeds V k. Qed.
  Lemma stochastic_signal_shown p q r k h l c : constructed (cSO p q r (VStr "simple")) ->
  (forall j, (nat_arg p + nat_arg q - 2 <= j <= k)%nat -> sum_last (fun i => max_last h (nat_arg p) i - min_last l (nat_arg p) i) (nat_arg q) j <> 0) ->
  known (given "high" ob) k h -> known (given "low" ob) k l -> known (given "close" ob) k c ->
  let n := nat_arg p in let s := nat_arg q in let d := nat_arg r in
  let fast j := r4 (zq 100 * sum_last (fun i => c i - min_last l n i) s j / sum_last (fun i => max_last h n i - min_last l n i) s j) in
  shown "%D" ob k = from (n + s + d - 3) k (Fin (r4 (mean_last fast d k))).
  Proof. intros H NZ KH KL KC. look f V VV. cbv zeta. cbn in V, VV. unfold shown. erewrite (view_cell V) by reflexivity. cbv beta iota zeta. rewrite row_cut, <- so_d_firstn. feed V so_d_simple_at k. Qed.
  Lemma stochastic_momentum_shown p q r k h l c : constructed (cSMI p q r) ->
  known (given "high" ob) k h -> known (given "low" ob) k l -> known (given "close" ob) k c ->
  let n := nat_arg p in let s := nat_arg q in let d := nat_arg r in
  let distance j := c j - (max_last h n j + min_last l n j) / zq 2 in let width j := max_last h n j - min_last l n j in
  let twice f := ema_from (n + s - 2) d (ema_from (n - 1) s f) in
  shown "smi" ob k = from (n + s + d - 3) k (rn (ratio (zq 100 * twice distance k) (twice width k / zq 2))).
  Proof. intros H KH KL KC. look f V VV. cbv zeta. unfold shown. shown V. rewrite row_cut, <- smi_firstn. feed V smi_at k. Qed.
  Lemma commodity_channel_shown p k h l c : constructed (cCCI p) ->
  known (given "high" ob) k h -> known (given "low" ob) k l -> known (given "close" ob) k c ->
  let n := nat_arg p in let tp := typical h l c in let mean := mean_last tp n k in
  let spread := mean_last (fun j => abs (mean - tp j)) n k in
  shown "cci" ob k = from (n - 1) k (rn (ratio (tp k - mean) (Q2Qc (15 # 1000) * spread))).
  Proof. intros H KH KL KC. look f V VV. cbv zeta. unfold shown. shown V. rewrite row_cut, <- cci_firstn. feed V cci_at k. Qed.
  Lemma ultimate_oscillator_shown k h l c : constructed cUO ->
  (forall w, In w [7; 14; 28]%nat -> (28 <= k)%nat -> sum_last (reach h l c) w k <> 0) ->
  known (given "high" ob) k h -> known (given "low" ob) k l -> known (given "close" ob) k c ->
  let share w := sum_last (pressure l c) w k / sum_last (reach h l c) w k in
  shown "uosc" ob k = from 28 k (Fin (r4 (zq 100 * (zq 4 * share 7%nat + zq 2 * share 14%nat + share 28%nat) / zq 7))).
  Proof. intros H N0 KH KL KC. look f V VV. cbv zeta. unfold shown. shown V. rewrite row_cut, <- uo_firstn. feed V uo_at k. Qed.
  Lemma range_indicator_shown p q k h l c : constructed (cRI p q) ->
  known (given "high" ob) k h -> known (given "low" ob) k l -> known (given "close" ob) k c ->
  let n := nat_arg p in let s := nat_arg q in
  shown "ri" ob k = from (n + s - 1) k (Fin (r4 (ema_from n s (place n (strain h l c)) k))).
  Proof. intros H KH KL KC. look f V VV. cbv zeta. unfold shown. shown V. rewrite row_cut, <- ri_firstn. feed V ri_at k. Qed.
  Lemma average_true_range_shown k h l c : constructed cATR ->
  (13 <= k)%nat ->
  known (given "high" ob) k h -> known (given "low" ob) k l -> known (given "close" ob) k c ->
  let tr := true_range h l c in
  shown "atr" ob k = Fin (r4 (run_from 13 (wilders 14) (mean_last tr 14 13) tr k)).
  Proof. intros H K KH KL KC. look f V VV. cbv zeta. unfold shown. erewrite (view_cell V "atr") by reflexivity. cbv zeta. rewrite row_cut, <- atr_firstn by lia. rewrite <- (from_ge 13 k (Fin _)) by lia. feed V atr_at k. Qed.
  Lemma mass_index_shown k h l : constructed cMI ->
  (forall j, (j <= k)%nat -> l j < h j) ->
  known (given "high" ob) k h -> known (given "low" ob) k l ->
  let e := ema_from 0 9 (fun j => h j - l j) in let e2 := ema_from 8 9 e in
  shown "mi" ob k = from 40 k (Fin (r4 (sum_last (fun j => e j / e2 j) 25 k))).
  Proof. intros H N0 KH KL. look f V VV. cbv zeta. unfold shown. shown V. rewrite row_cut, <- mi_firstn. feed V mi_at k. Qed.
  Lemma chaikin_volatility_shown p q k h l : constructed (cVCH p q) ->
  known (given "high" ob) k h -> known (given "low" ob) k l ->
  let n := nat_arg p in let m := nat_arg q in let e := ema_from 0 n (fun j => h j - l j) in
  shown "vch" ob k = from (n - 1 + m) k (rn (ratio (zq 100 * (e k - e (k - m)%nat)) (e (k - m)%nat))).
  Proof. intros H KH KL. look f V VV. cbv zeta. unfold shown. shown V. rewrite row_cut, <- vch_firstn. feed V vch_at k. Qed.
  Lemma relative_volatility_shown p k h l : constructed (cRVI p) ->
  known (given "high" ob) k h -> known (given "low" ob) k l ->
  let n := nat_arg p in
  let up f := wilder_from 9 n (rising (o_sqrt o) f) k in let down f := wilder_from 9 n (falling (o_sqrt o) f) k in
  shown "rvi" ob k = from (n + 8) k (rn (ndiv (nadd (ratio (zq 100 * up h) (up h + down h)) (ratio (zq 100 * up l) (up l + down l))) (Fin (zq 2)))).
  Proof. intros H KH KL. look f V VV. cbv zeta. unfold shown. shown V. rewrite row_cut, <- rvi_firstn. feed V rvi_at k. Qed.
  Lemma directional_lines_shown k h l c : constructed cDMI ->
  (forall j, (14 <= j <= k)%nat -> running (true_range h l c) j <> 0) ->
  known (given "high" ob) k h -> known (given "low" ob) k l -> known (given "close" ob) k c ->
  shown "+di" ob k = from 14 k (Fin (r4 (plus_di h l c k))) /\ shown "-di" ob k = from 14 k (Fin (r4 (minus_di h l c k))).
  Proof. intros H NZ KH KL KC. look f V VV. cbv zeta. unfold shown. shown V. erewrite (view_cell V "-di") by (cbn; reflexivity). rewrite (row_cut (sround 4 (dmi_di (plus_dm _ _) _))), (row_cut (sround 4 (dmi_di (minus_dm _ _) _))). unfold sround, smap. rewrite !firstn_map, <- !dmi_di_firstn, <- plus_dm_firstn, <- minus_dm_firstn, <- !true_range_nan_firstn. split. - change (map (nround 4)) with (sround 4). eapply di_at with (n := S k); feeds V k. eapply plus_st with (n := S k) (k := k); feeds V k. - change (map (nround 4)) with (sround 4). eapply di_at with (n := S k); feeds V k. eapply minus_st with (n := S k) (k := k); feeds V k. Qed.
  Lemma directional_index_shown k h l c : constructed cDMI ->
  (forall j, (14 <= j <= k)%nat -> running (true_range h l c) j <> 0) ->
  (forall j, (14 <= j <= k)%nat -> plus_di h l c j + minus_di h l c j <> 0) ->
  known (given "high" ob) k h -> known (given "low" ob) k l -> known (given "close" ob) k c ->
  shown "dx" ob k = from 14 k (Fin (r4 (dx_line h l c k))).
  Proof. intros H NZ NS KH KL KC. look f V VV. cbv zeta. unfold shown. shown V. rewrite row_cut. unfold sround, smap. rewrite firstn_map, <- dmi_dx_firstn, <- !dmi_di_firstn, <- plus_dm_firstn, <- minus_dm_firstn, <- !true_range_nan_firstn. feed V dx_at k. Qed.
  Lemma average_directional_index_shown k h l c : constructed cDMI ->
  (forall j, (14 <= j <= k)%nat -> running (true_range h l c) j <> 0) ->
  (forall j, (14 <= j <= k)%nat -> plus_di h l c j + minus_di h l c j <> 0) ->
  known (given "high" ob) k h -> known (given "low" ob) k l -> known (given "close" ob) k c ->
  shown "adx" ob k = from 27 k (Fin (r4 (adx_line h l c k))).
  Proof. intros H NZ NS KH KL KC. look f V VV. cbv zeta. unfold shown. shown V. rewrite row_cut. unfold sround, smap. rewrite firstn_map, <- dmi_adx_firstn, <- dmi_dx_firstn, <- !dmi_di_firstn, <- plus_dm_firstn, <- minus_dm_firstn, <- !true_range_nan_firstn. feed V adx_at k. Qed.
  Lemma directional_rating_shown k h l c : constructed cDMI ->
  (forall j, (14 <= j <= k)%nat -> running (true_range h l c) j <> 0) ->
  (forall j, (14 <= j <= k)%nat -> plus_di h l c j + minus_di h l c j <> 0) ->
  known (given "high" ob) k h -> known (given "low" ob) k l -> known (given "close" ob) k c ->
  shown "adxr" ob k = from 40 k (Fin (r4 ((adx_line h l c k + adx_line h l c (k - 13)%nat) / zq 2))).
  Proof. intros H NZ NS KH KL KC. look f V VV. cbv zeta. unfold shown. shown V. rewrite row_cut. unfold sround, smap. rewrite firstn_map, <- dmi_adxr_firstn, <- dmi_adx_firstn, <- dmi_dx_firstn, <- !dmi_di_firstn, <- plus_dm_firstn, <- minus_dm_firstn, <- !true_range_nan_firstn. feed V adxr_at k. Qed.
  Lemma swing_index_shown k op h l c : constructed cSWI ->
  swing_span op h l c k <> 0 ->
  known (given "open" ob) k op -> known (given "high" ob) k h -> known (given "low" ob) k l -> known (given "close" ob) k c ->
  shown "swi" ob k = from 1 k (Fin (r4 (clip (swing op h l c k)))).
  Proof. intros H N0 KOP KH KL KC. look f V VV. cbv zeta. unfold shown. shown V. rewrite row_cut, <- swi_firstn. feed V swi_at k. Qed.
  Lemma chaikin_money_flow_shown p k c v h l : constructed (cCMF p) ->
  (forall j, (j <= k)%nat -> l j <= c j /\ c j <= h j /\ l j < h j) ->
  known (given "close" ob) k c -> known (given "volume" ob) k v -> known (given "high" ob) k h -> known (given "low" ob) k l ->
  let n := nat_arg p in
  shown "cmf" ob k = from (n - 1) k (rn (ratio (sum_last (fun j => adl_move (h j) (l j) (c j) (v j)) n k) (sum_last v n k))).
  Proof. intros H N0 KC KV KH KL. look f V VV. cbv zeta. unfold shown. shown V. rewrite row_cut, <- cmf_firstn. feed V cmf_at k. Qed.
  Lemma market_facilitation_shown k h l v : constructed cMFI ->
  known (given "high" ob) k h -> known (given "low" ob) k l -> known (given "volume" ob) k v ->
  shown "mfi" ob k = nround 10 (ratio (h k - l k) (v k)).
  Proof. intros H KH KL KV. look f V VV. cbv zeta. unfold shown. shown V. rewrite row_cut, <- mfi_firstn. feed V mfi_at k. Qed.
  Lemma ease_of_movement_shown p k h l v : constructed (cEMV p) ->
  (forall j, (j <= k)%nat -> l j <> h j /\ v j <> 0) ->
  known (given "high" ob) k h -> known (given "low" ob) k l -> known (given "volume" ob) k v ->
  let n := nat_arg p in
  shown "emv" ob k = from 1 k (Fin (r4 (ease h l v k))) /\
  shown "emv_ma" ob k = from n k (Fin (r4 (mean_last (ease h l v) n k))).
  Proof. intros H NZ KH KL KV. look f V VV. cbv zeta. unfold shown. shown V. erewrite (view_cell V "emv_ma") by (cbn; reflexivity). rewrite (row_cut (emv _ _ _)), (row_cut (emv_ma _ _ _ _)), <- emv_firstn, <- emv_ma_firstn. feed V emv_at k. Qed.
  Lemma klinger_shown k h l c v : constructed cKO ->
  (forall j, (1 <= j <= k)%nat -> measure h l c j <> 0) ->
  known (given "high" ob) k h -> known (given "low" ob) k l -> known (given "close" ob) k c -> known (given "volume" ob) k v ->
  shown "ko" ob k = from 55 k (Fin (r4 (ema_from 1 34 (force h l c v) k - ema_from 1 55 (force h l c v) k))).
  Proof. intros H N0 KH KL KC KV. look f V VV. cbv zeta. unfold shown. shown V. rewrite row_cut, <- ko_firstn. feed V ko_at k. Qed.
  Lemma williams_accumulation_shown k h l c : constructed cWAD ->
  known (given "high" ob) k h -> known (given "low" ob) k l -> known (given "close" ob) k c ->
  shown "wad" ob k = from 1 k (Fin (r4 (if qltb (c (k - 1)%nat) (c k) then c k - true_low l c k else if qltb (c k) (c (k - 1)%nat) then c k - true_high h c k else 0))).
  Proof. intros H KH KL KC. look f V VV. cbv zeta. unfold shown. shown V. rewrite row_cut, <- wad_firstn. feed V wad_at k. Qed.
  Lemma chaikin_oscillator_shown k h l c v : constructed cCO ->
  (k < days_given ob)%nat ->
  (forall j, (j < days_given ob)%nat -> l j <= c j /\ c j <= h j) ->
  (forall j, (j < days_given ob)%nat -> l j < h j) ->
  known (given "high" ob) (days_given ob - 1) h -> known (given "low" ob) (days_given ob - 1) l -> known (given "close" ob) (days_given ob - 1) c -> known (given "volume" ob) (days_given ob - 1) v ->
  let line j := qtrunc (total (fun i => adl_move (h i) (l i) (c i) (v i)) (S j)) in
  shown "co" ob k = from 9 k (Fin (r4 (ema_from 0 3 line k - ema_from 0 10 line k))).
  Proof. intros H K P1 P2 KH KL KC KV. look f V VV. cbv zeta. rewrite (view_days V) in *. unfold shown. shown V. unfold adl_of. assert (A : forall c x, In c (required iCO) -> known (given c ob) (List.length (rows f) - 1) x -> complete_as (List.length (rows f)) (col c (fill_missing f)) x). { intros c0 x I X. pose proof (view_filled_known V c0 _ x I X) as E. rewrite <- (view_days V) in X. pose proof (view_all V c0 x I X) as Y. destruct (List.length (rows f)) as [|m] eqn:LR; [lia|]. cbn [Nat.sub] in E. rewrite Nat.sub_0_r in E. pose proof (proj1 Y) as LY. pose proof (v_good _ _ _ _ _ _ V) as (G1 & G2 & G3). rewrite (fill_col f c0 G2 G3) in *. rewrite !firstn_all2 in E by (rewrite ?map_length, ?seq_length; lia). rewrite E. exact Y. } eapply co_at with (n := List.length (rows f)); auto; apply A; auto; req. Qed.
  Lemma projection_bands_shown p k h l : constructed (cPB p) ->
  known (given "high" ob) k h -> known (given "low" ob) k l ->
  let n := nat_arg p in
  shown "upper_band" ob k = from (n - 1) k (Fin (r4 (highest_projection h n k))) /\
  shown "lower_band" ob k = from (n - 1) k (Fin (r4 (lowest_projection l n k))).
  Proof. intros H KH KL. look f V VV. cbv zeta. unfold shown. shown V. erewrite (view_cell V "lower_band") by (cbn; reflexivity). rewrite (row_cut (pb_upper _ _)), (row_cut (pb_lower _ _)). unfold pb_upper, pb_lower. rewrite <- !pb_band_firstn. split; [feed V pb_upper_at k|feed V pb_lower_at k]. Qed.
  Lemma projection_oscillator_shown p k h l c : constructed (cPROJ p) ->
  known (given "high" ob) k h -> known (given "low" ob) k l -> known (given "close" ob) k c ->
  let n := nat_arg p in let top := r4 (highest_projection h n k) in let bottom := r4 (lowest_projection l n k) in
  shown "posc" ob k = from (n - 1) k (rn (ratio (zq 100 * (c k - bottom)) (top - bottom))).
  Proof. intros H KH KL KC. look f V VV. cbv zeta. unfold shown. shown V. rewrite row_cut, <- proj_firstn. unfold pb_upper, pb_lower. rewrite <- !pb_band_firstn, (view_filled_known V "high" k h), (view_filled_known V "low" k l) by (auto; req). feed V proj_at k. Qed.
  Lemma projection_trigger_shown p k h l c : constructed (cPROJ p) ->
  (forall j, (nat_arg p - 1 <= j <= k)%nat -> r4 (highest_projection h (nat_arg p) j) <> r4 (lowest_projection l (nat_arg p) j)) ->
  known (given "high" ob) k h -> known (given "low" ob) k l -> known (given "close" ob) k c ->
  let n := nat_arg p in
  let place j := zq 100 * (c j - r4 (lowest_projection l n j)) / (r4 (highest_projection h n j) - r4 (lowest_projection l n j)) in
  shown "trigger_line" ob k = from (n + 1) k (Fin (r4 (ema_from (n - 1) 3 place k))).
  Proof. intros H NZ KH KL KC. look f V VV. cbv zeta. unfold shown. shown V. rewrite row_cut, <- proj_trigger_firstn. unfold pb_upper, pb_lower. rewrite <- !pb_band_firstn, (view_filled_known V "high" k h), (view_filled_known V "low" k l) by (auto; req). feed V proj_trigger_at k. Qed.
  Lemma forecast_oscillator_shown p k c : constructed (cFOSC p) ->
  known (given "close" ob) k c ->
  let n := nat_arg p in
  shown "fosc" ob k = from n k (rn (ratio (zq 100 * (c k - forecast c n (k - 1))) (c k))).
  Proof. intros H KC. look f V VV. cbv zeta. unfold shown. shown V. rewrite row_cut, <- fosc_firstn, <- tsf_firstn, (view_filled_known V "close" k c) by (auto; req). feed V fosc_at k. Qed.
  Lemma detrended_price_shown p k c : constructed (cDPO p) ->
  known (given "close" ob) k c ->
  let n := nat_arg p in let d := S (n / 2) in
  (d <= k)%nat -> shown "dpo" ob (k - d) = from (n - 1 - d) (k - d) (Fin (r4 (c (k - d)%nat - mean_last c n k))).
  Proof. intros H KC. cbv zeta. intro D. destruct (dpo_published _ _ _ _ _ W H) as (f & V & E). pose proof (v_valid _ _ _ _ _ _ V) as VV; cbn [valid] in VV. pose proof (view_known V "close" k c ltac:(req) KC) as CC. assert (R : (k < List.length (rows f))%nat) by (rewrite <- (view_length V "close") by req; pose proof (proj1 CC) as L; rewrite firstn_length in L; lia). unfold shown, cell_at. rewrite E, nth_firstn by lia. rewrite <- (nth_firstn (S k - S (nat_arg p / 2)) _ (k - S (nat_arg p / 2)) NaN) by lia. rewrite <- dpo_prefix by (rewrite (view_length V) by req; lia). rewrite nth_firstn by lia. rewrite (dpo_at (S k) (k - S (nat_arg p / 2)) (nat_arg p) _ c); auto; try lia. replace (k - S (nat_arg p / 2) + S (nat_arg p / 2))%nat with k by lia. reflexivity. Qed.
  Lemma regression_indicator_shown p k c : constructed (cLRI p) ->
  known (given "close" ob) k c ->
  let n := nat_arg p in
  shown "lri" ob k = from (n - 1) k (Fin (r4 (end_last c n k))).
  Proof. intros H KC. look f V VV. cbv zeta. unfold shown. shown V. rewrite row_cut, <- lri_firstn. feed V lri_at k. Qed.
  Lemma regression_slope_shown p k c : constructed (cLRS p) ->
  (2 <= nat_arg p)%nat ->
  known (given "close" ob) k c ->
  let n := nat_arg p in
  shown "lrs" ob k = from (n - 1) k (Fin (r4 (slope_last c n k))).
  Proof. intros H N0 KC. look f V VV. cbv zeta. unfold shown. shown V. rewrite row_cut, <- lrs_firstn. feed V lrs_at k. Qed.
  Lemma time_series_forecast_shown p k c : constructed (cTSF p) ->
  known (given "close" ob) k c ->
  let n := nat_arg p in
  shown "tsf" ob k = from (n - 1) k (Fin (forecast c n k)).
  Proof. intros H KC. look f V VV. cbv zeta. unfold shown. shown V. rewrite row_cut, <- tsf_firstn, (view_filled_known V "close" k c) by (auto; req). feed V tsf_at k. Qed.
End Formulas.

(** the three regression indicators see the same closes *)
Lemma same_close o o' c c' raw b ob ob' j : wf_raw raw ->
  snd (construct o c (RFrame raw) (VBool b)) = Ok ob -> snd (construct o' c' (RFrame raw) (VBool b)) = Ok ob' ->
  required (asked c) = ["close"] -> required (asked c') = ["close"] -> given "close" ob j = given "close" ob' j.
Proof.
  intros W H H' R R'. destruct (construct_view _ _ _ _ _ W H) as (f & V). destruct (construct_view _ _ _ _ _ W H') as (f' & V').
  rewrite (view_given V), (view_given V') by (rewrite ?R, ?R'; left; reflexivity).
  pose proof (v_val _ _ _ _ _ _ V) as A. pose proof (v_val _ _ _ _ _ _ V') as A'. rewrite R in A. rewrite R' in A'. rewrite A in A'.
  injection A' as ->. reflexivity.
Qed.
Section Regression.
  Variables (o : oracle) (raw : rawframe) (b : bool) (ob ob' ob'' : obj) (p : pyval) (k : nat) (c : nat -> Qc).
  Local Open Scope Qc_scope.
  Lemma regression_shown : wf_raw raw -> (2 <= nat_arg p)%nat ->
    snd (construct o (cLRI p) (RFrame raw) (VBool b)) = Ok ob ->
    snd (construct o (cLRS p) (RFrame raw) (VBool b)) = Ok ob' ->
    snd (construct o (cTSF p) (RFrame raw) (VBool b)) = Ok ob'' ->
    known (given "close" ob) k c -> (nat_arg p - 1 <= k)%nat ->
    shown "lri" ob k = Fin (r4 (end_last c (nat_arg p) k)) /\ shown "lrs" ob' k = Fin (r4 (slope_last c (nat_arg p) k)) /\
    shown "tsf" ob'' k = Fin (forecast c (nat_arg p) k).
  Proof.
    intros W P A B D K Q.
    assert (K' : known (given "close" ob') k c) by (intros j J; rewrite <- (same_close _ _ _ _ _ _ _ _ j W A B) by reflexivity; auto).
    assert (K'' : known (given "close" ob'') k c) by (intros j J; rewrite <- (same_close _ _ _ _ _ _ _ _ j W A D) by reflexivity; auto).
    pose proof (regression_indicator_shown _ _ _ _ W p k c A K) as X. pose proof (regression_slope_shown _ _ _ _ W p k c B P K') as Y.
    pose proof (time_series_forecast_shown _ _ _ _ W p k c D K'') as Z. cbv zeta in X, Y, Z. rewrite from_ge in X, Y, Z by lia. auto.
  Qed.
  Lemma least_squares_shown : wf_raw raw -> (2 <= nat_arg p)%nat ->
    snd (construct o (cLRI p) (RFrame raw) (VBool b)) = Ok ob ->
    snd (construct o (cLRS p) (RFrame raw) (VBool b)) = Ok ob' ->
    snd (construct o (cTSF p) (RFrame raw) (VBool b)) = Ok ob'' ->
    known (given "close" ob) k c -> (nat_arg p - 1 <= k)%nat ->
    let n := nat_arg p in
    exists first slope, best_line (last_rows c n k) n first slope /\
      let end_point := first + slope * nq (n - 1) in
      shown "lri" ob k = Fin (r4 end_point) /\ shown "lrs" ob' k = Fin (r4 slope) /\ shown "tsf" ob'' k = Fin (r4 slope + r4 end_point).
  Proof.
    intros W P A B D K Q. cbv zeta. exists (fit_start (last_rows c (nat_arg p) k) (nat_arg p)), (fit_slope (last_rows c (nat_arg p) k) (nat_arg p)).
    split; [apply fit_best; auto|]. exact (regression_shown W P A B D K Q).
  Qed.
  Lemma straight_price_shown first slope : wf_raw raw -> (2 <= nat_arg p)%nat ->
    snd (construct o (cLRI p) (RFrame raw) (VBool b)) = Ok ob ->
    snd (construct o (cLRS p) (RFrame raw) (VBool b)) = Ok ob' ->
    snd (construct o (cTSF p) (RFrame raw) (VBool b)) = Ok ob'' ->
    known (given "close" ob) k c -> (nat_arg p - 1 <= k)%nat ->
    (forall i, (i < nat_arg p)%nat -> c (S k - nat_arg p + i)%nat = first + slope * nq i) ->
    shown "lri" ob k = Fin (r4 (c k)) /\ shown "lrs" ob' k = Fin (r4 slope) /\ shown "tsf" ob'' k = Fin (r4 slope + r4 (c k)).
  Proof.
    intros W P A B D K Q E. destruct (regression_shown W P A B D K Q) as (X & Y & Z).
    destruct (fit_exact (last_rows c (nat_arg p) k) (nat_arg p) first slope P E) as [F1 F2].
    unfold forecast in Z. unfold end_last, slope_last in *. rewrite F1, F2 in *.
    replace (c k) with (first + slope * nq (nat_arg p - 1)); auto.
    rewrite <- E by lia. f_equal. lia.
  Qed.
End Regression.
