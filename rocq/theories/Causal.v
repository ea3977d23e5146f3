(** * Causal: every indicator column of a prefix is the prefix of the column. *)
From Coq Require Import ZArith QArith Qcanon Bool List String PeanoNat Lia Sorted.
From Verif Require Import Num NumFacts Pandas Frame FrameSpec FrameProofs Ind SeriesFacts.
Import ListNotations.
Open Scope list_scope.

#[local] Hint Rewrite @smap_firstn @szip_firstn @szip3_firstn @combine_firstn_r @repeat_firstn @seq_firstn
  shift_firstn from_row_firstn rolling_firstn ewm_firstn ewm_alpha_firstn cumsum_firstn
  rolling_ols_firstn fill0_firstn @map_firstn : causal.

Ltac causal :=
  cbv zeta; unfold sdiff, saddc, sround, sadd, ssub, smul, sdiv, scale, sdivc, sabs, drop_neg, drop_pos, row2, row3,
    assign, assign_const, roll_sum, roll_mean, roll_max, roll_min, roll_std, roll_wmean in *;
  autorewrite with causal; try reflexivity.

Lemma money_flow_firstn n c v h l :
  money_flow (firstn n c) (firstn n v) (firstn n h) (firstn n l) = firstn n (money_flow c v h l).
Proof. unfold money_flow. causal. Qed.
Lemma true_range_skip_firstn n h l c :
  true_range_skip (firstn n h) (firstn n l) (firstn n c) = firstn n (true_range_skip h l c).
Proof. unfold true_range_skip. causal. Qed.
Lemma true_range_nan_firstn n h l c :
  true_range_nan (firstn n h) (firstn n l) (firstn n c) = firstn n (true_range_nan h l c).
Proof. unfold true_range_nan. causal. Qed.
Lemma len_true_range_skip h l c : length h = length l -> length c = length l ->
  length (true_range_skip h l c) = length l.
Proof.
  intros. unfold true_range_skip, row3, ssub. rewrite len_szip3, !len_szip, !len_shift. lia.
Qed.
Lemma atr_firstn n h l c : (14 <= n)%nat ->
  atr (firstn n h) (firstn n l) (firstn n c) = firstn n (atr h l c).
Proof.
  intro H. unfold atr. rewrite true_range_skip_firstn. set (tr := true_range_skip h l c).
  rewrite firstn_seed by auto.
  rewrite skipn_firstn_comm. unfold sround. rewrite <- smap_firstn. f_equal.
  rewrite firstn_app, repeat_length.
  replace (firstn n (repeat NaN 13)) with (repeat NaN 13) by (symmetry; apply firstn_all2; rewrite repeat_length; lia).
  f_equal. replace (n - 13)%nat with (S (n - 14)) by lia.
  rewrite <- ewm_alpha_firstn. reflexivity.
Qed.
Lemma bb_middle_firstn n p c : bb_middle p (firstn n c) = firstn n (bb_middle p c).
Proof. unfold bb_middle. causal. Qed.
Lemma bb_upper_firstn n o p k c : bb_upper o p k (firstn n c) = firstn n (bb_upper o p k c).
Proof. unfold bb_upper. rewrite bb_middle_firstn. causal. Qed.
Lemma bb_lower_firstn n o p k c : bb_lower o p k (firstn n c) = firstn n (bb_lower o p k c).
Proof. unfold bb_lower. rewrite bb_middle_firstn. causal. Qed.
Lemma cmf_firstn n p c v h l : cmf p (firstn n c) (firstn n v) (firstn n h) (firstn n l) = firstn n (cmf p c v h l).
Proof. unfold cmf. rewrite money_flow_firstn. causal. Qed.
Lemma co_firstn n a : co (firstn n a) = firstn n (co a).
Proof. unfold co. causal. Qed.
Lemma cmo_firstn n p c : cmo p (firstn n c) = firstn n (cmo p c).
Proof. unfold cmo. causal. Qed.
Lemma len_cci_tp h l c : length h = length l -> length c = length l -> length (cci_tp h l c) = length l.
Proof. intros. unfold cci_tp, sdivc, row3. rewrite len_smap, len_szip3. lia. Qed.
Lemma cci_diff_firstn n p tp sma : cci_diff p (firstn n tp) (firstn n sma) = firstn n (cci_diff p tp sma).
Proof.
  unfold cci_diff. apply seq_map_firstn. intros i Hi _. cbn [Nat.add].
  rewrite window_firstn, nth_firstn by auto. reflexivity.
Qed.
Lemma cci_firstn n p h l c : cci p (firstn n h) (firstn n l) (firstn n c) = firstn n (cci p h l c).
Proof. unfold cci, cci_tp. causal. rewrite cci_diff_firstn. causal. Qed.
Lemma plus_dm_firstn n h l : plus_dm (firstn n h) (firstn n l) = firstn n (plus_dm h l).
Proof. unfold plus_dm, dm_first. causal. Qed.
Lemma minus_dm_firstn n h l : minus_dm (firstn n h) (firstn n l) = firstn n (minus_dm h l).
Proof. unfold minus_dm, dm_first. causal. Qed.
Lemma dmi_smooth_firstn n s : dmi_smooth (firstn n s) = firstn n (dmi_smooth s).
Proof. unfold dmi_smooth. apply seeded_firstn. intros. rewrite firstn_seed by lia. reflexivity. Qed.
Lemma dmi_di_firstn n a b : dmi_di (firstn n a) (firstn n b) = firstn n (dmi_di a b).
Proof. unfold dmi_di. rewrite !dmi_smooth_firstn. causal. Qed.
Lemma dmi_dx_firstn n a b : dmi_dx (firstn n a) (firstn n b) = firstn n (dmi_dx a b).
Proof. unfold dmi_dx. causal. Qed.
Lemma dmi_adx_firstn n s : dmi_adx (firstn n s) = firstn n (dmi_adx s).
Proof. unfold dmi_adx. apply seeded_firstn. intros. rewrite firstn_seed by lia. reflexivity. Qed.
Lemma dmi_adxr_firstn n s : dmi_adxr (firstn n s) = firstn n (dmi_adxr s).
Proof. unfold dmi_adxr. causal. Qed.
Lemma dema_firstn n p c : dema p (firstn n c) = firstn n (dema p c).
Proof. unfold dema. causal. Qed.
Lemma emv_firstn n h l v : emv (firstn n h) (firstn n l) (firstn n v) = firstn n (emv h l v).
Proof. unfold emv, emv_raw. causal. Qed.
Lemma emv_ma_firstn n p h l v : emv_ma p (firstn n h) (firstn n l) (firstn n v) = firstn n (emv_ma p h l v).
Proof. unfold emv_ma, emv_raw. causal. Qed.
Lemma env_upper_firstn n p s c : env_upper p s (firstn n c) = firstn n (env_upper p s c).
Proof. unfold env_upper. causal. Qed.
Lemma env_lower_firstn n p s c : env_lower p s (firstn n c) = firstn n (env_lower p s c).
Proof. unfold env_lower. causal. Qed.
Lemma ich_mid_firstn n w h l : ich_mid w (firstn n h) (firstn n l) = firstn n (ich_mid w h l).
Proof. unfold ich_mid. causal. Qed.
Lemma ich_tenkan_firstn n h l : ich_tenkan (firstn n h) (firstn n l) = firstn n (ich_tenkan h l).
Proof. unfold ich_tenkan. rewrite !ich_mid_firstn. causal. Qed.
Lemma ich_kijun_firstn n h l : ich_kijun (firstn n h) (firstn n l) = firstn n (ich_kijun h l).
Proof. unfold ich_kijun. rewrite !ich_mid_firstn. causal. Qed.
Lemma ich_senkou_a_firstn n h l : ich_senkou_a (firstn n h) (firstn n l) = firstn n (ich_senkou_a h l).
Proof. unfold ich_senkou_a. rewrite !ich_mid_firstn. causal. Qed.
Lemma ich_senkou_b_firstn n h l : ich_senkou_b (firstn n h) (firstn n l) = firstn n (ich_senkou_b h l).
Proof. unfold ich_senkou_b. rewrite !ich_mid_firstn. causal. Qed.
Lemma imi_firstn n p a c : imi p (firstn n a) (firstn n c) = firstn n (imi p a c).
Proof. unfold imi. causal. Qed.
Lemma ko_trend_firstn n h l c : ko_trend (firstn n h) (firstn n l) (firstn n c) = firstn n (ko_trend h l c).
Proof. unfold ko_trend. causal. Qed.
Lemma ko_cm_firstn n t d : ko_cm (firstn n t) (firstn n d) = firstn n (ko_cm t d).
Proof. unfold ko_cm. causal. apply seeded_firstn. reflexivity. Qed.
Lemma ko_firstn n h l c v : ko (firstn n h) (firstn n l) (firstn n c) (firstn n v) = firstn n (ko h l c v).
Proof. unfold ko, ko_force. rewrite ko_trend_firstn. causal. rewrite ko_cm_firstn. causal. Qed.
Lemma lri_firstn n p c : lri p (firstn n c) = firstn n (lri p c).
Proof. unfold lri. causal. Qed.
Lemma days_firstn {A} n (s : list A) : days (length (firstn n s)) = firstn n (days (length s)).
Proof. unfold days. causal. Qed.
Lemma lrs_firstn n p c : lrs p (firstn n c) = firstn n (lrs p c).
Proof. unfold lrs. rewrite days_firstn. causal. Qed.
Lemma mfi_firstn n h l v : mfi (firstn n h) (firstn n l) (firstn n v) = firstn n (mfi h l v).
Proof. unfold mfi. causal. Qed.
Lemma mi_firstn n h l : mi (firstn n h) (firstn n l) = firstn n (mi h l).
Proof. unfold mi. causal. Qed.
Lemma mp_firstn n h l : mp (firstn n h) (firstn n l) = firstn n (mp h l).
Proof. unfold mp. causal. Qed.
Lemma mom_firstn n p c : mom p (firstn n c) = firstn n (mom p c).
Proof. unfold mom. causal. Qed.
Lemma tsf_raw_firstn n p c : tsf_raw p (firstn n c) = firstn n (tsf_raw p c).
Proof. unfold tsf_raw. rewrite lrs_firstn, lri_firstn. causal. Qed.
Lemma ma_variable_firstn n p c m : ma_variable p (firstn n c) (firstn n m) = firstn n (ma_variable p c m).
Proof.
  unfold ma_variable. causal. apply seeded_firstn. intros. rewrite nth_firstn by auto. reflexivity.
Qed.
Lemma ma_firstn n p t c g : ma p t (firstn n c) (firstn n g) = firstn n (ma p t c g).
Proof.
  unfold ma. destruct t; rewrite ?cmo_firstn, ?tsf_raw_firstn, ?ma_variable_firstn; causal.
Qed.
Lemma macd_raw_firstn n c : macd_raw (firstn n c) = firstn n (macd_raw c).
Proof. unfold macd_raw. causal. Qed.
Lemma macd_firstn n c : macd (firstn n c) = firstn n (macd c).
Proof. unfold macd. rewrite macd_raw_firstn. causal. Qed.
Lemma macd_signal_firstn n c : macd_signal (firstn n c) = firstn n (macd_signal c).
Proof. unfold macd_signal. rewrite macd_raw_firstn. causal. Qed.
Lemma vi_firstn n m c v : vi m (firstn n c) (firstn n v) = firstn n (vi m c v).
Proof. unfold vi. causal. rewrite (seeded_firstn _ _ (F 1000)) by reflexivity. causal. Qed.
Lemma obv_firstn n c v : obv (firstn n c) (firstn n v) = firstn n (obv c v).
Proof. unfold obv. causal. Qed.
Lemma prf_firstn n c : prf (firstn n c) = firstn n (prf c).
Proof.
  unfold prf. destruct n; [reflexivity|]. rewrite nth_firstn by lia. causal.
Qed.
Lemma pvt_firstn n c v : pvt (firstn n c) (firstn n v) = firstn n (pvt c v).
Proof. unfold pvt. causal. rewrite (seeded_firstn _ _ (F 0)) by reflexivity. causal. Qed.
Lemma pch_high_firstn n p h : pch_high p (firstn n h) = firstn n (pch_high p h).
Proof. unfold pch_high. causal. Qed.
Lemma pch_low_firstn n p h : pch_low p (firstn n h) = firstn n (pch_low p h).
Proof. unfold pch_low. causal. Qed.
Lemma price_osc_firstn n a b c : price_osc a b (firstn n c) = firstn n (price_osc a b c).
Proof. unfold price_osc. causal. Qed.
Lemma prc_firstn n p c : prc p (firstn n c) = firstn n (prc p c).
Proof. unfold prc. causal. Qed.
Lemma pb_slope_firstn n p s : pb_slope p (firstn n s) = firstn n (pb_slope p s).
Proof. unfold pb_slope. causal. Qed.
Lemma pb_band_firstn n b p s : pb_band b p (firstn n s) = firstn n (pb_band b p s).
Proof.
  unfold pb_band, sround. rewrite <- smap_firstn. f_equal. apply seq_map_firstn. intros i Hi _. cbn [Nat.add].
  rewrite pb_slope_firstn, !nth_firstn by auto. destruct (p <=? S i)%nat; [|reflexivity].
  f_equal. apply map_ext. intros j. rewrite nth_firstn by lia. reflexivity.
Qed.
Lemma proj_firstn n c u l : proj (firstn n c) (firstn n u) (firstn n l) = firstn n (proj c u l).
Proof. unfold proj, proj_raw. causal. Qed.
Lemma proj_trigger_firstn n c u l : proj_trigger (firstn n c) (firstn n u) (firstn n l) = firstn n (proj_trigger c u l).
Proof. unfold proj_trigger, proj_raw. causal. Qed.
Lemma qstick_firstn n p a c : qstick p (firstn n a) (firstn n c) = firstn n (qstick p a c).
Proof. unfold qstick. causal. Qed.
Lemma ri_text_firstn n h l c : ri_text (firstn n h) (firstn n l) (firstn n c) = firstn n (ri_text h l c).
Proof. unfold ri_text. rewrite true_range_nan_firstn. causal. Qed.
Lemma ri_range_firstn n r s : ri_range r (firstn n s) = firstn n (ri_range r s).
Proof. unfold ri_range. causal. Qed.
Lemma ri_firstn n r s h l c : ri r s (firstn n h) (firstn n l) (firstn n c) = firstn n (ri r s h l c).
Proof. unfold ri. rewrite ri_text_firstn, ri_range_firstn. causal. Qed.
Lemma rmi_up_firstn n m c : rmi_up m (firstn n c) = firstn n (rmi_up m c).
Proof. unfold rmi_up. causal. Qed.
Lemma rmi_dn_firstn n m c : rmi_dn m (firstn n c) = firstn n (rmi_dn m c).
Proof. unfold rmi_dn. causal. Qed.
Lemma rmi_smooth_firstn n p m s : rmi_smooth p m (firstn n s) = firstn n (rmi_smooth p m s).
Proof.
  unfold rmi_smooth. apply seeded_firstn. intros. rewrite slice_firstn by lia. reflexivity.
Qed.
Lemma rmi_firstn n p m c : rmi p m (firstn n c) = firstn n (rmi p m c).
Proof. unfold rmi. rewrite rmi_up_firstn, rmi_dn_firstn, !rmi_smooth_firstn. causal. Qed.
Lemma rsi_up_firstn n c : rsi_up (firstn n c) = firstn n (rsi_up c).
Proof. unfold rsi_up. causal. Qed.
Lemma rsi_dn_firstn n c : rsi_dn (firstn n c) = firstn n (rsi_dn c).
Proof. unfold rsi_dn. causal. Qed.
Lemma rsi_smooth_firstn n p s : rsi_smooth p (firstn n s) = firstn n (rsi_smooth p s).
Proof. unfold rsi_smooth. apply seeded_firstn. intros. rewrite firstn_seed by lia. reflexivity. Qed.
Lemma rsi_firstn n p c : rsi p (firstn n c) = firstn n (rsi p c).
Proof. unfold rsi. rewrite rsi_up_firstn, rsi_dn_firstn, !rsi_smooth_firstn. causal. Qed.
Lemma rvi_up_firstn n o c : rvi_up o (firstn n c) = firstn n (rvi_up o c).
Proof. unfold rvi_up. causal. Qed.
Lemma rvi_dn_firstn n o c : rvi_dn o (firstn n c) = firstn n (rvi_dn o c).
Proof. unfold rvi_dn. causal. Qed.
Lemma rvi_smooth_firstn n p s : rvi_smooth p (firstn n s) = firstn n (rvi_smooth p s).
Proof. unfold rvi_smooth. apply seeded_firstn. intros. rewrite slice_firstn by lia. reflexivity. Qed.
Lemma rvi_firstn n o p h l : rvi o p (firstn n h) (firstn n l) = firstn n (rvi o p h l).
Proof. unfold rvi, rvi_half. rewrite !rvi_up_firstn, !rvi_dn_firstn, !rvi_smooth_firstn. causal. Qed.
Lemma sd_firstn n o p c : sd o p (firstn n c) = firstn n (sd o p c).
Proof. unfold sd. causal. Qed.
Lemma smi_firstn n p s d h l c : smi p s d (firstn n h) (firstn n l) (firstn n c) = firstn n (smi p s d h l c).
Proof. unfold smi. causal. Qed.
Lemma so_k_firstn n k s h l c : so_k k s (firstn n h) (firstn n l) (firstn n c) = firstn n (so_k k s h l c).
Proof. unfold so_k. causal. Qed.
Lemma so_d_firstn n o k s d m h l c :
  so_d o k s d m (firstn n h) (firstn n l) (firstn n c) = firstn n (so_d o k s d m h l c).
Proof. unfold so_d. rewrite so_k_firstn. destruct m; causal. Qed.
Lemma swi_firstn n a h l c : swi (firstn n a) (firstn n h) (firstn n l) (firstn n c) = firstn n (swi a h l c).
Proof. unfold swi. causal. Qed.
Lemma tsf_firstn n p c : tsf p (firstn n c) = firstn n (tsf p c).
Proof. unfold tsf. rewrite tsf_raw_firstn. causal. Qed.
Lemma tema_firstn n p c : tema p (firstn n c) = firstn n (tema p c).
Proof. unfold tema. causal. Qed.
Lemma tp_firstn n h l c : tp (firstn n h) (firstn n l) (firstn n c) = firstn n (tp h l c).
Proof. unfold tp. causal. Qed.
Lemma fosc_firstn n c t : fosc (firstn n c) (firstn n t) = firstn n (fosc c t).
Proof. unfold fosc. causal. Qed.
Lemma uo_firstn n h l c : uo (firstn n h) (firstn n l) (firstn n c) = firstn n (uo h l c).
Proof. unfold uo, uo_ratio, uo_high, uo_low. causal. Qed.
Lemma vhf_firstn n p c : vhf p (firstn n c) = firstn n (vhf p c).
Proof. unfold vhf. causal. Qed.
Lemma vch_firstn n e c h l : vch e c (firstn n h) (firstn n l) = firstn n (vch e c h l).
Proof. unfold vch. causal. Qed.
Lemma vosc_firstn n a b v : vosc a b (firstn n v) = firstn n (vosc a b v).
Proof. unfold vosc. causal. Qed.
Lemma vrc_firstn n p v : vrc p (firstn n v) = firstn n (vrc p v).
Proof. unfold vrc. causal. Qed.
Lemma wc_firstn n c h l : wc (firstn n c) (firstn n h) (firstn n l) = firstn n (wc c h l).
Proof. unfold wc. causal. Qed.
Lemma ws_firstn n p c : (0 < p)%nat -> ws p (firstn n c) = firstn n (ws p c).
Proof.
  intro P. unfold ws, sround. rewrite <- smap_firstn. f_equal. apply seeded_firstn. intros.
  rewrite firstn_seed by lia. reflexivity.
Qed.
Lemma wad_firstn n c h l : wad (firstn n c) (firstn n h) (firstn n l) = firstn n (wad c h l).
Proof. unfold wad. causal. Qed.
Lemma wr_firstn n p h l c : wr p (firstn n h) (firstn n l) (firstn n c) = firstn n (wr p h l c).
Proof. unfold wr. causal. Qed.

(** the parabolic sar reads two rows to start *)
Lemma sar_next_firstn n h l i st : (i < n)%nat ->
  sar_next (firstn n h) (firstn n l) i st = sar_next h l i st.
Proof.
  intro H. unfold sar_next. rewrite !slice_firstn by lia. rewrite !nth_firstn by auto. reflexivity.
Qed.
Lemma sar_go_firstn n h l k i st : (i + k <= n)%nat ->
  sar_go (firstn n h) (firstn n l) k i st = sar_go h l k i st.
Proof.
  revert i st; induction k; intros i st H; [reflexivity|].
  cbn [sar_go]. rewrite sar_next_firstn by lia. f_equal. apply IHk. lia.
Qed.
Lemma sar_go_prefix h l k m i st : (m <= k)%nat -> sar_go h l m i st = firstn m (sar_go h l k i st).
Proof.
  revert m i st; induction k; intros [|m] i st H; cbn; try lia; auto. f_equal. apply IHk. lia.
Qed.
Lemma sar_states_firstn n h l : (2 <= n)%nat ->
  sar_states (firstn n h) (firstn n l) = firstn n (sar_states h l).
Proof.
  intro H. unfold sar_states. rewrite firstn_length.
  destruct (length h) as [|k] eqn:E.
  - rewrite Nat.min_0_r. destruct n; reflexivity.
  - destruct n as [|n]; [lia|]. cbn [Nat.min firstn].
    assert (F : sar_first (firstn (S n) h) (firstn (S n) l) = sar_first h l)
      by (unfold sar_first; rewrite !nth_firstn by lia; reflexivity).
    change (match h with [] => [] | a :: l0 => a :: firstn n l0 end) with (firstn (S n) h).
    change (match l with [] => [] | a :: l0 => a :: firstn n l0 end) with (firstn (S n) l).
    rewrite F. f_equal. rewrite sar_go_firstn by lia.
    rewrite (sar_go_prefix h l k (Nat.min n k)) by lia.
    destruct (Nat.le_gt_cases n k).
    + rewrite Nat.min_l by auto. reflexivity.
    + rewrite Nat.min_r by lia.
      assert (L : forall m i st, length (sar_go h l m i st) = m) by (induction m; intros; cbn; auto).
      rewrite !firstn_all2; rewrite ?L; auto; lia.
Qed.
Lemma psar_firstn n h l : (2 <= n)%nat -> psar (firstn n h) (firstn n l) = firstn n (psar h l).
Proof. intro. unfold psar, sround. rewrite sar_states_firstn, map_firstn, smap_firstn by auto. reflexivity. Qed.

(** AccumulationDistributionLine: causal as long as everything is finite *)
Lemma adl_firstn n c v h l : Forall (fun x => isfin x = true) (adl c v h l) ->
  adl (firstn n c) (firstn n v) (firstn n h) (firstn n l) = firstn n (adl c v h l).
Proof.
  unfold adl, astype_int. rewrite money_flow_firstn, cumsum_firstn. set (s := cumsum (money_flow c v h l)).
  intro H.
  assert (A : forallb isfin s = true).
  { destruct (forallb isfin s) eqn:E; auto.
    rewrite <- E. apply forallb_forall. rewrite Forall_forall in H. exact H. }
  rewrite A. assert (B : forallb isfin (firstn n s) = true).
  { rewrite forallb_forall in *. intros x Hx. apply A. rewrite <- (firstn_skipn n s). apply in_or_app; auto. }
  rewrite B. apply smap_firstn.
Qed.
