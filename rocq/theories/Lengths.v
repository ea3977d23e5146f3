(** * Lengths: every series function keeps the number of rows. *)
From Coq Require Import ZArith QArith Qcanon Bool List String PeanoNat Lia Sorted.
From Verif Require Import Num NumFacts Pandas Frame Ind SeriesFacts.
Import ListNotations.
Open Scope list_scope.

Create HintDb len discriminated.
#[export] Hint Constants Opaque : len.
#[export] Hint Variables Opaque : len.
Lemma l_smap f s n : length s = n -> length (smap f s) = n.
Proof. intros <-. apply len_smap. Qed.
Lemma l_map {A B} (f : A -> B) s n : length s = n -> length (map f s) = n.
Proof. intros <-. apply map_length. Qed.
Lemma l_combine {A B} (a : list A) (b : list B) n : length a = n -> length b = n -> length (combine a b) = n.
Proof. intros. rewrite combine_length. lia. Qed.
Lemma l_szip {A B C} (f : A -> B -> C) a b n : length a = n -> length b = n -> length (szip f a b) = n.
Proof. intros. rewrite len_szip. lia. Qed.
Lemma l_szip3 {A B C E} (f : A -> B -> C -> E) a b c n :
  length a = n -> length b = n -> length c = n -> length (szip3 f a b c) = n.
Proof. intros. rewrite len_szip3. lia. Qed.
Lemma l_assign m a b n : length m = n -> length a = n -> length b = n -> length (assign m a b) = n.
Proof. intros. unfold assign. apply l_szip3; auto. Qed.
Lemma l_shift k s n : length s = n -> length (shift k s) = n.
Proof. intros <-. apply len_shift. Qed.
Lemma l_shift_back k s n : length s = n -> length (shift_back k s) = n.
Proof. intros <-. apply len_shift_back. Qed.
Lemma l_from_row k s n : length s = n -> length (from_row k s) = n.
Proof. intros <-. apply len_from_row. Qed.
Lemma l_rolling w m g s n : length s = n -> length (rolling w m g s) = n.
Proof. intros <-. apply len_rolling. Qed.
Lemma l_ewm p m s n : length s = n -> length (ewm p m s) = n.
Proof. intros <-. apply len_ewm. Qed.
Lemma l_cumsum s n : length s = n -> length (cumsum s) = n.
Proof. intros <-. apply len_cumsum. Qed.
Lemma l_astype s n : length s = n -> length (astype_int s) = n.
Proof. intros <-. apply len_astype_int. Qed.
Lemma l_seeded {A} k z f (s : list A) n : length s = n -> length (seeded k z f s) = n.
Proof. intros <-. apply len_seeded. Qed.
Lemma l_ols p s n : length s = n -> length (rolling_ols p s) = n.
Proof. intros <-. apply len_rolling_ols. Qed.
Lemma l_repeat {A B} (x : A) (s : list B) n : length s = n -> length (repeat x (length s)) = n.
Proof. intros <-. apply repeat_length. Qed.
Lemma l_seq {B} k (s : list B) n : length s = n -> length (seq k (length s)) = n.
Proof. intros <-. apply seq_length. Qed.
Lemma l_days {B} (s : list B) n : length s = n -> length (days (length s)) = n.
Proof. intros <-. unfold days. rewrite map_length. apply seq_length. Qed.
#[export] Hint Resolve l_smap l_map l_combine l_szip l_szip3 l_assign l_shift l_shift_back l_from_row l_rolling l_ewm
  l_cumsum l_astype l_seeded l_ols l_repeat l_seq l_days : len.

Lemma ln_sround k s1 n : length s1 = n -> length (sround k s1) = n.
Proof. intros. unfold sround; cbv zeta; auto 40 with len. Qed.
#[export] Hint Resolve ln_sround : len.
Lemma ln_sadd s1 s2 n : length s1 = n -> length s2 = n -> length (sadd s1 s2) = n.
Proof. intros. unfold sadd; cbv zeta; auto 40 with len. Qed.
#[export] Hint Resolve ln_sadd : len.
Lemma ln_ssub s1 s2 n : length s1 = n -> length s2 = n -> length (ssub s1 s2) = n.
Proof. intros. unfold ssub; cbv zeta; auto 40 with len. Qed.
#[export] Hint Resolve ln_ssub : len.
Lemma ln_smul s1 s2 n : length s1 = n -> length s2 = n -> length (smul s1 s2) = n.
Proof. intros. unfold smul; cbv zeta; auto 40 with len. Qed.
#[export] Hint Resolve ln_smul : len.
Lemma ln_sdiv s1 s2 n : length s1 = n -> length s2 = n -> length (sdiv s1 s2) = n.
Proof. intros. unfold sdiv; cbv zeta; auto 40 with len. Qed.
#[export] Hint Resolve ln_sdiv : len.
Lemma ln_scale k s1 n : length s1 = n -> length (scale k s1) = n.
Proof. intros. unfold scale; cbv zeta; auto 40 with len. Qed.
#[export] Hint Resolve ln_scale : len.
Lemma ln_sdivc s1 k n : length s1 = n -> length (sdivc s1 k) = n.
Proof. intros. unfold sdivc; cbv zeta; auto 40 with len. Qed.
#[export] Hint Resolve ln_sdivc : len.
Lemma ln_saddc s1 k n : length s1 = n -> length (saddc s1 k) = n.
Proof. intros. unfold saddc; cbv zeta; auto 40 with len. Qed.
#[export] Hint Resolve ln_saddc : len.
Lemma ln_sabs s1 n : length s1 = n -> length (sabs s1) = n.
Proof. intros. unfold sabs; cbv zeta; auto 40 with len. Qed.
#[export] Hint Resolve ln_sabs : len.
Lemma ln_drop_neg s1 n : length s1 = n -> length (drop_neg s1) = n.
Proof. intros. unfold drop_neg; cbv zeta; auto 40 with len. Qed.
#[export] Hint Resolve ln_drop_neg : len.
Lemma ln_drop_pos s1 n : length s1 = n -> length (drop_pos s1) = n.
Proof. intros. unfold drop_pos; cbv zeta; auto 40 with len. Qed.
#[export] Hint Resolve ln_drop_pos : len.
Lemma ln_row2 k s1 s2 n : length s1 = n -> length s2 = n -> length (row2 k s1 s2) = n.
Proof. intros. unfold row2; cbv zeta; auto 40 with len. Qed.
#[export] Hint Resolve ln_row2 : len.
Lemma ln_row3 k s1 s2 s3 n : length s1 = n -> length s2 = n -> length s3 = n -> length (row3 k s1 s2 s3) = n.
Proof. intros. unfold row3; cbv zeta; auto 40 with len. Qed.
#[export] Hint Resolve ln_row3 : len.
Lemma ln_sdiff s1 n : length s1 = n -> length (sdiff s1) = n.
Proof. intros. unfold sdiff; cbv zeta; auto 40 with len. Qed.
#[export] Hint Resolve ln_sdiff : len.
Lemma ln_roll_sum k s1 n : length s1 = n -> length (roll_sum k s1) = n.
Proof. intros. unfold roll_sum; cbv zeta; auto 40 with len. Qed.
#[export] Hint Resolve ln_roll_sum : len.
Lemma ln_roll_mean k s1 n : length s1 = n -> length (roll_mean k s1) = n.
Proof. intros. unfold roll_mean; cbv zeta; auto 40 with len. Qed.
#[export] Hint Resolve ln_roll_mean : len.
Lemma ln_roll_max k k2 s1 n : length s1 = n -> length (roll_max k k2 s1) = n.
Proof. intros. unfold roll_max; cbv zeta; auto 40 with len. Qed.
#[export] Hint Resolve ln_roll_max : len.
Lemma ln_roll_min k k2 s1 n : length s1 = n -> length (roll_min k k2 s1) = n.
Proof. intros. unfold roll_min; cbv zeta; auto 40 with len. Qed.
#[export] Hint Resolve ln_roll_min : len.
Lemma ln_roll_std k k2 s1 n : length s1 = n -> length (roll_std k k2 s1) = n.
Proof. intros. unfold roll_std; cbv zeta; auto 40 with len. Qed.
#[export] Hint Resolve ln_roll_std : len.
Lemma ln_roll_wmean k k2 s1 n : length s1 = n -> length (roll_wmean k k2 s1) = n.
Proof. intros. unfold roll_wmean; cbv zeta; auto 40 with len. Qed.
#[export] Hint Resolve ln_roll_wmean : len.
Lemma ln_money_flow s1 s2 s3 s4 n : length s1 = n -> length s2 = n -> length s3 = n -> length s4 = n -> length (money_flow s1 s2 s3 s4) = n.
Proof. intros. unfold money_flow; cbv zeta; auto 40 with len. Qed.
#[export] Hint Resolve ln_money_flow : len.
Lemma ln_adl s1 s2 s3 s4 n : length s1 = n -> length s2 = n -> length s3 = n -> length s4 = n -> length (adl s1 s2 s3 s4) = n.
Proof. intros. unfold adl; cbv zeta; auto 40 with len. Qed.
#[export] Hint Resolve ln_adl : len.
Lemma ln_bb_middle k s1 n : length s1 = n -> length (bb_middle k s1) = n.
Proof. intros. unfold bb_middle; cbv zeta; auto 40 with len. Qed.
#[export] Hint Resolve ln_bb_middle : len.
Lemma ln_bb_upper k k2 k3 s1 n : length s1 = n -> length (bb_upper k k2 k3 s1) = n.
Proof. intros. unfold bb_upper; cbv zeta; auto 40 with len. Qed.
#[export] Hint Resolve ln_bb_upper : len.
Lemma ln_bb_lower k k2 k3 s1 n : length s1 = n -> length (bb_lower k k2 k3 s1) = n.
Proof. intros. unfold bb_lower; cbv zeta; auto 40 with len. Qed.
#[export] Hint Resolve ln_bb_lower : len.
Lemma ln_cmf k s1 s2 s3 s4 n : length s1 = n -> length s2 = n -> length s3 = n -> length s4 = n -> length (cmf k s1 s2 s3 s4) = n.
Proof. intros. unfold cmf; cbv zeta; auto 40 with len. Qed.
#[export] Hint Resolve ln_cmf : len.
Lemma ln_co s1 n : length s1 = n -> length (co s1) = n.
Proof. intros. unfold co; cbv zeta; auto 40 with len. Qed.
#[export] Hint Resolve ln_co : len.
Lemma ln_cmo k s1 n : length s1 = n -> length (cmo k s1) = n.
Proof. intros. unfold cmo; cbv zeta; auto 40 with len. Qed.
#[export] Hint Resolve ln_cmo : len.
Lemma ln_cci_tp s1 s2 s3 n : length s1 = n -> length s2 = n -> length s3 = n -> length (cci_tp s1 s2 s3) = n.
Proof. intros. unfold cci_tp; cbv zeta; auto 40 with len. Qed.
#[export] Hint Resolve ln_cci_tp : len.
Lemma ln_cci_diff k s1 k2 n : length s1 = n -> length (cci_diff k s1 k2) = n.
Proof. intros. unfold cci_diff; cbv zeta; auto 40 with len. Qed.
#[export] Hint Resolve ln_cci_diff : len.
Lemma ln_cci k s1 s2 s3 n : length s1 = n -> length s2 = n -> length s3 = n -> length (cci k s1 s2 s3) = n.
Proof. intros. unfold cci; cbv zeta; auto 40 with len. Qed.
#[export] Hint Resolve ln_cci : len.
Lemma ln_dpo k s1 n : length s1 = n -> length (dpo k s1) = n.
Proof. intros. unfold dpo; cbv zeta; auto 40 with len. Qed.
#[export] Hint Resolve ln_dpo : len.
Lemma ln_true_range_nan s1 s2 s3 n : length s1 = n -> length s2 = n -> length s3 = n -> length (true_range_nan s1 s2 s3) = n.
Proof. intros. unfold true_range_nan; cbv zeta; auto 40 with len. Qed.
#[export] Hint Resolve ln_true_range_nan : len.
Lemma ln_dm_first s1 n : length s1 = n -> length (dm_first s1) = n.
Proof. intros. unfold dm_first; cbv zeta; auto 40 with len. Qed.
#[export] Hint Resolve ln_dm_first : len.
Lemma ln_plus_dm s1 s2 n : length s1 = n -> length s2 = n -> length (plus_dm s1 s2) = n.
Proof. intros. unfold plus_dm; cbv zeta; auto 40 with len. Qed.
#[export] Hint Resolve ln_plus_dm : len.
Lemma ln_minus_dm s1 s2 n : length s1 = n -> length s2 = n -> length (minus_dm s1 s2) = n.
Proof. intros. unfold minus_dm; cbv zeta; auto 40 with len. Qed.
#[export] Hint Resolve ln_minus_dm : len.
Lemma ln_dmi_smooth s1 n : length s1 = n -> length (dmi_smooth s1) = n.
Proof. intros. unfold dmi_smooth; cbv zeta; auto 40 with len. Qed.
#[export] Hint Resolve ln_dmi_smooth : len.
Lemma ln_dmi_di s1 s2 n : length s1 = n -> length s2 = n -> length (dmi_di s1 s2) = n.
Proof. intros. unfold dmi_di; cbv zeta; auto 40 with len. Qed.
#[export] Hint Resolve ln_dmi_di : len.
Lemma ln_dmi_dx s1 s2 n : length s1 = n -> length s2 = n -> length (dmi_dx s1 s2) = n.
Proof. intros. unfold dmi_dx; cbv zeta; auto 40 with len. Qed.
#[export] Hint Resolve ln_dmi_dx : len.
Lemma ln_dmi_adx s1 n : length s1 = n -> length (dmi_adx s1) = n.
Proof. intros. unfold dmi_adx; cbv zeta; auto 40 with len. Qed.
#[export] Hint Resolve ln_dmi_adx : len.
Lemma ln_dmi_adxr s1 n : length s1 = n -> length (dmi_adxr s1) = n.
Proof. intros. unfold dmi_adxr; cbv zeta; auto 40 with len. Qed.
#[export] Hint Resolve ln_dmi_adxr : len.
Lemma ln_dema k s1 n : length s1 = n -> length (dema k s1) = n.
Proof. intros. unfold dema; cbv zeta; auto 40 with len. Qed.
#[export] Hint Resolve ln_dema : len.
Lemma ln_emv_raw s1 s2 s3 n : length s1 = n -> length s2 = n -> length s3 = n -> length (emv_raw s1 s2 s3) = n.
Proof. intros. unfold emv_raw; cbv zeta; auto 40 with len. Qed.
#[export] Hint Resolve ln_emv_raw : len.
Lemma ln_emv s1 s2 s3 n : length s1 = n -> length s2 = n -> length s3 = n -> length (emv s1 s2 s3) = n.
Proof. intros. unfold emv; cbv zeta; auto 40 with len. Qed.
#[export] Hint Resolve ln_emv : len.
Lemma ln_emv_ma k s1 s2 s3 n : length s1 = n -> length s2 = n -> length s3 = n -> length (emv_ma k s1 s2 s3) = n.
Proof. intros. unfold emv_ma; cbv zeta; auto 40 with len. Qed.
#[export] Hint Resolve ln_emv_ma : len.
Lemma ln_env_upper k k2 s1 n : length s1 = n -> length (env_upper k k2 s1) = n.
Proof. intros. unfold env_upper; cbv zeta; auto 40 with len. Qed.
#[export] Hint Resolve ln_env_upper : len.
Lemma ln_env_lower k k2 s1 n : length s1 = n -> length (env_lower k k2 s1) = n.
Proof. intros. unfold env_lower; cbv zeta; auto 40 with len. Qed.
#[export] Hint Resolve ln_env_lower : len.
Lemma ln_fib_level k s1 n : length s1 = n -> length (fib_level k s1) = n.
Proof. intros. unfold fib_level; cbv zeta; auto 40 with len. Qed.
#[export] Hint Resolve ln_fib_level : len.
Lemma ln_ich_mid k s1 s2 n : length s1 = n -> length s2 = n -> length (ich_mid k s1 s2) = n.
Proof. intros. unfold ich_mid; cbv zeta; auto 40 with len. Qed.
#[export] Hint Resolve ln_ich_mid : len.
Lemma ln_ich_tenkan s1 s2 n : length s1 = n -> length s2 = n -> length (ich_tenkan s1 s2) = n.
Proof. intros. unfold ich_tenkan; cbv zeta; auto 40 with len. Qed.
#[export] Hint Resolve ln_ich_tenkan : len.
Lemma ln_ich_kijun s1 s2 n : length s1 = n -> length s2 = n -> length (ich_kijun s1 s2) = n.
Proof. intros. unfold ich_kijun; cbv zeta; auto 40 with len. Qed.
#[export] Hint Resolve ln_ich_kijun : len.
Lemma ln_ich_senkou_a s1 s2 n : length s1 = n -> length s2 = n -> length (ich_senkou_a s1 s2) = n.
Proof. intros. unfold ich_senkou_a; cbv zeta; auto 40 with len. Qed.
#[export] Hint Resolve ln_ich_senkou_a : len.
Lemma ln_ich_senkou_b s1 s2 n : length s1 = n -> length s2 = n -> length (ich_senkou_b s1 s2) = n.
Proof. intros. unfold ich_senkou_b; cbv zeta; auto 40 with len. Qed.
#[export] Hint Resolve ln_ich_senkou_b : len.
Lemma ln_imi k s1 s2 n : length s1 = n -> length s2 = n -> length (imi k s1 s2) = n.
Proof. intros. unfold imi; cbv zeta; auto 40 with len. Qed.
#[export] Hint Resolve ln_imi : len.
Lemma ln_ko_trend s1 s2 s3 n : length s1 = n -> length s2 = n -> length s3 = n -> length (ko_trend s1 s2 s3) = n.
Proof. intros. unfold ko_trend; cbv zeta; auto 40 with len. Qed.
#[export] Hint Resolve ln_ko_trend : len.
Lemma ln_ko_cm s1 s2 n : length s1 = n -> length s2 = n -> length (ko_cm s1 s2) = n.
Proof. intros. unfold ko_cm; cbv zeta; auto 40 with len. Qed.
#[export] Hint Resolve ln_ko_cm : len.
Lemma ln_ko_force s1 s2 s3 s4 n : length s1 = n -> length s2 = n -> length s3 = n -> length s4 = n -> length (ko_force s1 s2 s3 s4) = n.
Proof. intros. unfold ko_force; cbv zeta; auto 40 with len. Qed.
#[export] Hint Resolve ln_ko_force : len.
Lemma ln_ko s1 s2 s3 s4 n : length s1 = n -> length s2 = n -> length s3 = n -> length s4 = n -> length (ko s1 s2 s3 s4) = n.
Proof. intros. unfold ko; cbv zeta; auto 40 with len. Qed.
#[export] Hint Resolve ln_ko : len.
Lemma ln_lri k s1 n : length s1 = n -> length (lri k s1) = n.
Proof. intros. unfold lri; cbv zeta; auto 40 with len. Qed.
#[export] Hint Resolve ln_lri : len.
Lemma ln_lrs k s1 n : length s1 = n -> length (lrs k s1) = n.
Proof. intros. unfold lrs; cbv zeta; auto 40 with len. Qed.
#[export] Hint Resolve ln_lrs : len.
Lemma ln_mfi s1 s2 s3 n : length s1 = n -> length s2 = n -> length s3 = n -> length (mfi s1 s2 s3) = n.
Proof. intros. unfold mfi; cbv zeta; auto 40 with len. Qed.
#[export] Hint Resolve ln_mfi : len.
Lemma ln_mi s1 s2 n : length s1 = n -> length s2 = n -> length (mi s1 s2) = n.
Proof. intros. unfold mi; cbv zeta; auto 40 with len. Qed.
#[export] Hint Resolve ln_mi : len.
Lemma ln_mp s1 s2 n : length s1 = n -> length s2 = n -> length (mp s1 s2) = n.
Proof. intros. unfold mp; cbv zeta; auto 40 with len. Qed.
#[export] Hint Resolve ln_mp : len.
Lemma ln_mom k s1 n : length s1 = n -> length (mom k s1) = n.
Proof. intros. unfold mom; cbv zeta; auto 40 with len. Qed.
#[export] Hint Resolve ln_mom : len.
Lemma ln_tsf_raw k s1 n : length s1 = n -> length (tsf_raw k s1) = n.
Proof. intros. unfold tsf_raw; cbv zeta; auto 40 with len. Qed.
#[export] Hint Resolve ln_tsf_raw : len.
Lemma ln_ma_variable k s1 s2 n : length s1 = n -> length s2 = n -> length (ma_variable k s1 s2) = n.
Proof. intros. unfold ma_variable; cbv zeta; auto 40 with len. Qed.
#[export] Hint Resolve ln_ma_variable : len.
Lemma ln_ma k k2 s1 s2 n : length s1 = n -> length s2 = n -> length (ma k k2 s1 s2) = n.
Proof. intros. unfold ma; cbv zeta; destruct k2; auto 40 with len. Qed.
#[export] Hint Resolve ln_ma : len.
Lemma ln_macd_raw s1 n : length s1 = n -> length (macd_raw s1) = n.
Proof. intros. unfold macd_raw; cbv zeta; auto 40 with len. Qed.
#[export] Hint Resolve ln_macd_raw : len.
Lemma ln_macd s1 n : length s1 = n -> length (macd s1) = n.
Proof. intros. unfold macd; cbv zeta; auto 40 with len. Qed.
#[export] Hint Resolve ln_macd : len.
Lemma ln_macd_signal s1 n : length s1 = n -> length (macd_signal s1) = n.
Proof. intros. unfold macd_signal; cbv zeta; auto 40 with len. Qed.
#[export] Hint Resolve ln_macd_signal : len.
Lemma ln_vi k s1 s2 n : length s1 = n -> length s2 = n -> length (vi k s1 s2) = n.
Proof. intros. unfold vi; cbv zeta; auto 40 with len. Qed.
#[export] Hint Resolve ln_vi : len.
Lemma ln_nvi s1 s2 n : length s1 = n -> length s2 = n -> length (nvi s1 s2) = n.
Proof. intros. unfold nvi; cbv zeta; auto 40 with len. Qed.
#[export] Hint Resolve ln_nvi : len.
Lemma ln_pvi s1 s2 n : length s1 = n -> length s2 = n -> length (pvi s1 s2) = n.
Proof. intros. unfold pvi; cbv zeta; auto 40 with len. Qed.
#[export] Hint Resolve ln_pvi : len.
Lemma ln_obv s1 s2 n : length s1 = n -> length s2 = n -> length (obv s1 s2) = n.
Proof. intros. unfold obv; cbv zeta; auto 40 with len. Qed.
#[export] Hint Resolve ln_obv : len.
Lemma ln_prf s1 n : length s1 = n -> length (prf s1) = n.
Proof. intros. unfold prf; cbv zeta; auto 40 with len. Qed.
#[export] Hint Resolve ln_prf : len.
Lemma ln_pvt s1 s2 n : length s1 = n -> length s2 = n -> length (pvt s1 s2) = n.
Proof. intros. unfold pvt; cbv zeta; auto 40 with len. Qed.
#[export] Hint Resolve ln_pvt : len.
Lemma ln_pch_high k s1 n : length s1 = n -> length (pch_high k s1) = n.
Proof. intros. unfold pch_high; cbv zeta; auto 40 with len. Qed.
#[export] Hint Resolve ln_pch_high : len.
Lemma ln_pch_low k s1 n : length s1 = n -> length (pch_low k s1) = n.
Proof. intros. unfold pch_low; cbv zeta; auto 40 with len. Qed.
#[export] Hint Resolve ln_pch_low : len.
Lemma ln_price_osc k k2 s1 n : length s1 = n -> length (price_osc k k2 s1) = n.
Proof. intros. unfold price_osc; cbv zeta; auto 40 with len. Qed.
#[export] Hint Resolve ln_price_osc : len.
Lemma ln_prc k s1 n : length s1 = n -> length (prc k s1) = n.
Proof. intros. unfold prc; cbv zeta; auto 40 with len. Qed.
#[export] Hint Resolve ln_prc : len.
Lemma ln_pb_slope k s1 n : length s1 = n -> length (pb_slope k s1) = n.
Proof. intros. unfold pb_slope; cbv zeta; auto 40 with len. Qed.
#[export] Hint Resolve ln_pb_slope : len.
Lemma ln_pb_band k k2 s1 n : length s1 = n -> length (pb_band k k2 s1) = n.
Proof. intros. unfold pb_band; cbv zeta; auto 40 with len. Qed.
#[export] Hint Resolve ln_pb_band : len.
Lemma ln_pb_upper k s1 n : length s1 = n -> length (pb_upper k s1) = n.
Proof. intros. unfold pb_upper; cbv zeta; auto 40 with len. Qed.
#[export] Hint Resolve ln_pb_upper : len.
Lemma ln_pb_lower k s1 n : length s1 = n -> length (pb_lower k s1) = n.
Proof. intros. unfold pb_lower; cbv zeta; auto 40 with len. Qed.
#[export] Hint Resolve ln_pb_lower : len.
Lemma ln_proj_raw s1 s2 s3 n : length s1 = n -> length s2 = n -> length s3 = n -> length (proj_raw s1 s2 s3) = n.
Proof. intros. unfold proj_raw; cbv zeta; auto 40 with len. Qed.
#[export] Hint Resolve ln_proj_raw : len.
Lemma ln_proj s1 s2 s3 n : length s1 = n -> length s2 = n -> length s3 = n -> length (proj s1 s2 s3) = n.
Proof. intros. unfold proj; cbv zeta; auto 40 with len. Qed.
#[export] Hint Resolve ln_proj : len.
Lemma ln_proj_trigger s1 s2 s3 n : length s1 = n -> length s2 = n -> length s3 = n -> length (proj_trigger s1 s2 s3) = n.
Proof. intros. unfold proj_trigger; cbv zeta; auto 40 with len. Qed.
#[export] Hint Resolve ln_proj_trigger : len.
Lemma ln_qstick k s1 s2 n : length s1 = n -> length s2 = n -> length (qstick k s1 s2) = n.
Proof. intros. unfold qstick; cbv zeta; auto 40 with len. Qed.
#[export] Hint Resolve ln_qstick : len.
Lemma ln_ri_text s1 s2 s3 n : length s1 = n -> length s2 = n -> length s3 = n -> length (ri_text s1 s2 s3) = n.
Proof. intros. unfold ri_text; cbv zeta; auto 40 with len. Qed.
#[export] Hint Resolve ln_ri_text : len.
Lemma ln_ri_range k s1 n : length s1 = n -> length (ri_range k s1) = n.
Proof. intros. unfold ri_range; cbv zeta; auto 40 with len. Qed.
#[export] Hint Resolve ln_ri_range : len.
Lemma ln_ri k k2 s1 s2 s3 n : length s1 = n -> length s2 = n -> length s3 = n -> length (ri k k2 s1 s2 s3) = n.
Proof. intros. unfold ri; cbv zeta; auto 40 with len. Qed.
#[export] Hint Resolve ln_ri : len.
Lemma ln_rmi_up k s1 n : length s1 = n -> length (rmi_up k s1) = n.
Proof. intros. unfold rmi_up; cbv zeta; auto 40 with len. Qed.
#[export] Hint Resolve ln_rmi_up : len.
Lemma ln_rmi_dn k s1 n : length s1 = n -> length (rmi_dn k s1) = n.
Proof. intros. unfold rmi_dn; cbv zeta; auto 40 with len. Qed.
#[export] Hint Resolve ln_rmi_dn : len.
Lemma ln_rmi_smooth k k2 s1 n : length s1 = n -> length (rmi_smooth k k2 s1) = n.
Proof. intros. unfold rmi_smooth; cbv zeta; auto 40 with len. Qed.
#[export] Hint Resolve ln_rmi_smooth : len.
Lemma ln_rmi k k2 s1 n : length s1 = n -> length (rmi k k2 s1) = n.
Proof. intros. unfold rmi; cbv zeta; auto 40 with len. Qed.
#[export] Hint Resolve ln_rmi : len.
Lemma ln_rsi_up s1 n : length s1 = n -> length (rsi_up s1) = n.
Proof. intros. unfold rsi_up; cbv zeta; auto 40 with len. Qed.
#[export] Hint Resolve ln_rsi_up : len.
Lemma ln_rsi_dn s1 n : length s1 = n -> length (rsi_dn s1) = n.
Proof. intros. unfold rsi_dn; cbv zeta; auto 40 with len. Qed.
#[export] Hint Resolve ln_rsi_dn : len.
Lemma ln_rsi_smooth k s1 n : length s1 = n -> length (rsi_smooth k s1) = n.
Proof. intros. unfold rsi_smooth; cbv zeta; auto 40 with len. Qed.
#[export] Hint Resolve ln_rsi_smooth : len.
Lemma ln_rsi k s1 n : length s1 = n -> length (rsi k s1) = n.
Proof. intros. unfold rsi; cbv zeta; auto 40 with len. Qed.
#[export] Hint Resolve ln_rsi : len.
Lemma ln_rvi_up k s1 n : length s1 = n -> length (rvi_up k s1) = n.
Proof. intros. unfold rvi_up; cbv zeta; auto 40 with len. Qed.
#[export] Hint Resolve ln_rvi_up : len.
Lemma ln_rvi_dn k s1 n : length s1 = n -> length (rvi_dn k s1) = n.
Proof. intros. unfold rvi_dn; cbv zeta; auto 40 with len. Qed.
#[export] Hint Resolve ln_rvi_dn : len.
Lemma ln_rvi_smooth k s1 n : length s1 = n -> length (rvi_smooth k s1) = n.
Proof. intros. unfold rvi_smooth; cbv zeta; auto 40 with len. Qed.
#[export] Hint Resolve ln_rvi_smooth : len.
Lemma ln_rvi_half k k2 s1 n : length s1 = n -> length (rvi_half k k2 s1) = n.
Proof. intros. unfold rvi_half; cbv zeta; auto 40 with len. Qed.
#[export] Hint Resolve ln_rvi_half : len.
Lemma ln_rvi k k2 s1 s2 n : length s1 = n -> length s2 = n -> length (rvi k k2 s1 s2) = n.
Proof. intros. unfold rvi; cbv zeta; auto 40 with len. Qed.
#[export] Hint Resolve ln_rvi : len.
Lemma ln_sd k k2 s1 n : length s1 = n -> length (sd k k2 s1) = n.
Proof. intros. unfold sd; cbv zeta; auto 40 with len. Qed.
#[export] Hint Resolve ln_sd : len.
Lemma ln_smi k k2 k3 s1 s2 s3 n : length s1 = n -> length s2 = n -> length s3 = n -> length (smi k k2 k3 s1 s2 s3) = n.
Proof. intros. unfold smi; cbv zeta; auto 40 with len. Qed.
#[export] Hint Resolve ln_smi : len.
Lemma ln_so_k k k2 s1 s2 s3 n : length s1 = n -> length s2 = n -> length s3 = n -> length (so_k k k2 s1 s2 s3) = n.
Proof. intros. unfold so_k; cbv zeta; auto 40 with len. Qed.
#[export] Hint Resolve ln_so_k : len.
Lemma ln_so_d k k2 k3 k4 k5 s1 s2 s3 n : length s1 = n -> length s2 = n -> length s3 = n -> length (so_d k k2 k3 k4 k5 s1 s2 s3) = n.
Proof. intros. unfold so_d; cbv zeta; destruct k5; auto 40 with len. Qed.
#[export] Hint Resolve ln_so_d : len.
Lemma ln_swi s1 s2 s3 s4 n : length s1 = n -> length s2 = n -> length s3 = n -> length s4 = n -> length (swi s1 s2 s3 s4) = n.
Proof. intros. unfold swi; cbv zeta; auto 40 with len. Qed.
#[export] Hint Resolve ln_swi : len.
Lemma ln_tsf k s1 n : length s1 = n -> length (tsf k s1) = n.
Proof. intros. unfold tsf; cbv zeta; auto 40 with len. Qed.
#[export] Hint Resolve ln_tsf : len.
Lemma ln_tema k s1 n : length s1 = n -> length (tema k s1) = n.
Proof. intros. unfold tema; cbv zeta; auto 40 with len. Qed.
#[export] Hint Resolve ln_tema : len.
Lemma ln_tp s1 s2 s3 n : length s1 = n -> length s2 = n -> length s3 = n -> length (tp s1 s2 s3) = n.
Proof. intros. unfold tp; cbv zeta; auto 40 with len. Qed.
#[export] Hint Resolve ln_tp : len.
Lemma ln_fosc s1 s2 n : length s1 = n -> length s2 = n -> length (fosc s1 s2) = n.
Proof. intros. unfold fosc; cbv zeta; auto 40 with len. Qed.
#[export] Hint Resolve ln_fosc : len.
Lemma ln_uo_high s1 s2 n : length s1 = n -> length s2 = n -> length (uo_high s1 s2) = n.
Proof. intros. unfold uo_high; cbv zeta; auto 40 with len. Qed.
#[export] Hint Resolve ln_uo_high : len.
Lemma ln_uo_low s1 s2 n : length s1 = n -> length s2 = n -> length (uo_low s1 s2) = n.
Proof. intros. unfold uo_low; cbv zeta; auto 40 with len. Qed.
#[export] Hint Resolve ln_uo_low : len.
Lemma ln_uo_ratio k s1 s2 s3 n : length s1 = n -> length s2 = n -> length s3 = n -> length (uo_ratio k s1 s2 s3) = n.
Proof. intros. unfold uo_ratio; cbv zeta; auto 40 with len. Qed.
#[export] Hint Resolve ln_uo_ratio : len.
Lemma ln_uo s1 s2 s3 n : length s1 = n -> length s2 = n -> length s3 = n -> length (uo s1 s2 s3) = n.
Proof. intros. unfold uo; cbv zeta; auto 40 with len. Qed.
#[export] Hint Resolve ln_uo : len.
Lemma ln_vhf k s1 n : length s1 = n -> length (vhf k s1) = n.
Proof. intros. unfold vhf; cbv zeta; auto 40 with len. Qed.
#[export] Hint Resolve ln_vhf : len.
Lemma ln_vch k k2 s1 s2 n : length s1 = n -> length s2 = n -> length (vch k k2 s1 s2) = n.
Proof. intros. unfold vch; cbv zeta; auto 40 with len. Qed.
#[export] Hint Resolve ln_vch : len.
Lemma ln_vosc k k2 s1 n : length s1 = n -> length (vosc k k2 s1) = n.
Proof. intros. unfold vosc; cbv zeta; auto 40 with len. Qed.
#[export] Hint Resolve ln_vosc : len.
Lemma ln_vrc k s1 n : length s1 = n -> length (vrc k s1) = n.
Proof. intros. unfold vrc; cbv zeta; auto 40 with len. Qed.
#[export] Hint Resolve ln_vrc : len.
Lemma ln_wc s1 s2 s3 n : length s1 = n -> length s2 = n -> length s3 = n -> length (wc s1 s2 s3) = n.
Proof. intros. unfold wc; cbv zeta; auto 40 with len. Qed.
#[export] Hint Resolve ln_wc : len.
Lemma ln_ws k s1 n : length s1 = n -> length (ws k s1) = n.
Proof. intros. unfold ws; cbv zeta; auto 40 with len. Qed.
#[export] Hint Resolve ln_ws : len.
Lemma ln_wad s1 s2 s3 n : length s1 = n -> length s2 = n -> length s3 = n -> length (wad s1 s2 s3) = n.
Proof. intros. unfold wad; cbv zeta; auto 40 with len. Qed.
#[export] Hint Resolve ln_wad : len.
Lemma ln_wr k s1 s2 s3 n : length s1 = n -> length s2 = n -> length s3 = n -> length (wr k s1 s2 s3) = n.
Proof. intros. unfold wr; cbv zeta; auto 40 with len. Qed.
#[export] Hint Resolve ln_wr : len.

Lemma len_sar_go h l k i st : length (sar_go h l k i st) = k.
Proof. revert i st; induction k; intros; cbn; auto. Qed.
Lemma len_sar_states h l : length (sar_states h l) = length h.
Proof. unfold sar_states. destruct (length h) eqn:E; [reflexivity|]. cbn. rewrite len_sar_go. reflexivity. Qed.
Lemma ln_psar h l n : length h = n -> length (psar h l) = n.
Proof. intros <-. unfold psar, sround. rewrite len_smap, map_length. apply len_sar_states. Qed.
Lemma ln_true_range_skip h l c n : length h = n -> length l = n -> length c = n -> length (true_range_skip h l c) = n.
Proof. intros. unfold true_range_skip. auto 40 with len. Qed.
Lemma ln_atr h l c n : (14 <= n)%nat -> length h = n -> length l = n -> length c = n -> length (atr h l c) = n.
Proof.
  intros. unfold atr. cbv zeta. apply ln_sround. rewrite app_length, repeat_length, len_ewm_alpha. cbn [length].
  rewrite skipn_length, (ln_true_range_skip h l c n) by auto. lia.
Qed.
#[export] Hint Resolve ln_psar : len.
