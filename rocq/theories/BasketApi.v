(** * BasketApi: published values for a basket of two securities. *)
From Coq Require Import ZArith QArith Qcanon Bool List String PeanoNat Lia.
From Verif Require Import Num NumFacts RoundFacts Pandas Sim Frame FrameSpec FrameProofs Ind Signal Api IndSpec SeriesFacts Lengths Causal IndFacts Shape ApiSpec ApiCheck ApiProofs ApiLemmas RangeSpec Cells RangeFacts RangeMore Publish RangeApi ValueSpec ValueFacts ValueMore Recur ValueApi CumulApi.
From Verif Require Import FormulaSpec Starts Formula Formula2 Formula3 Formula4 Line Formula5 Formula6 FormulaApi IdentFacts MirrorSpec MirrorApi3 OrderFacts OrderApi SwaySpec SwayFacts BasketSpec BasketFacts.
Import ListNotations.
Open Scope list_scope. Open Scope string_scope. Open Scope Qc_scope.

Section Basket.
  Variables (o : oracle) (raw raw' raw2 : rawframe) (b b' b2 : bool) (ob ob' ob2 : obj) (k : nat) (w w' : Qc) (op op' h h' l l' c c' v v' : nat -> Qc).
  Hypothesis W : wf_raw raw. Hypothesis W' : wf_raw raw'. Hypothesis W2 : wf_raw raw2.
  Notation all ct := (thrice ct o raw raw' raw2 b b' b2 ob ob' ob2).
  Notation mixd n f g := (mixed w w' k ob ob' ob2 n f%function g%function).
  Notation mx := (mix w w').
  Notation sums n u := (adds_up (slack tick4 u w w') w w' (shown n ob k) (shown n ob' k) (shown n ob2 k)).
  Ltac start := let A := fresh "A" in let A' := fresh "A'" in let A2 := fresh "A2" in intros (A & A' & A2).
  Ltac period p := assert (P : (1 <= nat_arg p)%nat) by (let fr := fresh in let V := fresh in let VV := fresh in look fr V VV; lia).

  Lemma mix_simple p : all (cMA p (VStr "simple")) -> mixd "close" c c' -> sums "ma-simple" 1%Z.
  Proof.
    start. intros (K & K' & K2). period p. rewrite (simple_moving_average_shown o raw b ob W p k c A K), (simple_moving_average_shown o raw' b' ob' W' p k c' A' K'), (simple_moving_average_shown o raw2 b2 ob2 W2 p k _ A2 K2). cbv zeta.
    apply au_from. intro G. apply au_r4, mean_mix; [lia|reflexivity].
  Qed.
  Lemma mix_exponential p : all (cMA p (VStr "exponential")) -> mixd "close" c c' -> sums "ma-exponential" 1%Z.
  Proof.
    start. intros (K & K' & K2). period p. rewrite (exponential_moving_average_shown o raw b ob W p k c A K), (exponential_moving_average_shown o raw' b' ob' W' p k c' A' K'), (exponential_moving_average_shown o raw2 b2 ob2 W2 p k _ A2 K2). cbv zeta.
    apply au_from. intro G. apply au_r4, ema_from_mix; [lia|reflexivity].
  Qed.
  Lemma mix_triangular p : all (cMA p (VStr "triangular")) -> mixd "close" c c' -> sums "ma-triangular" 1%Z.
  Proof.
    start. intros (K & K' & K2). period p. rewrite (triangular_moving_average_shown o raw b ob W p k c A K), (triangular_moving_average_shown o raw' b' ob' W' p k c' A' K'), (triangular_moving_average_shown o raw2 b2 ob2 W2 p k _ A2 K2). cbv zeta.
    apply au_from. intro G. apply au_r4, mean_mix; [lia|]. intros j J. apply mean_mix; [lia|reflexivity].
  Qed.
  Lemma mix_forecast p : (1 <= p)%nat -> (p - 1 <= k)%nat -> apart_by (slack tick4 2 w w') (forecast (fun j => mx (c j) (c' j)) p k) (mx (forecast c p k) (forecast c' p k)).
  Proof.
    intros P G. unfold forecast. eapply apart_eq; [|symmetry; exact (slack_add w w' tick4 1 1)].
    replace (mx (r4 (slope_last c p k) + r4 (end_last c p k)) (r4 (slope_last c' p k) + r4 (end_last c' p k))) with (mx (r4 (slope_last c p k)) (r4 (slope_last c' p k)) + mx (r4 (end_last c p k)) (r4 (end_last c' p k))) by (unfold mix; ring).
    apply apart_add; apply r4_mix0; [apply slope_mix|apply end_mix]; (lia || reflexivity).
  Qed.
  Lemma mix_tsma p : all (cMA p (VStr "time_series")) -> (2 <= nat_arg p)%nat -> mixd "close" c c' -> sums "ma-time_series" 2%Z.
  Proof.
    start. intros P (K & K' & K2). rewrite (time_series_moving_average_shown o raw b ob W p k c A P K), (time_series_moving_average_shown o raw' b' ob' W' p k c' A' P K'), (time_series_moving_average_shown o raw2 b2 ob2 W2 p k _ A2 P K2). cbv zeta.
    apply au_from. intro G. apply au_fin, mix_forecast; [lia|exact G].
  Qed.
  Lemma mix_tsf p : all (cTSF p) -> mixd "close" c c' -> sums "tsf" 2%Z.
  Proof.
    start. intros (K & K' & K2). period p. rewrite (time_series_forecast_shown o raw b ob W p k c A K), (time_series_forecast_shown o raw' b' ob' W' p k c' A' K'), (time_series_forecast_shown o raw2 b2 ob2 W2 p k _ A2 K2). cbv zeta.
    apply au_from. intro G. apply au_fin, mix_forecast; [lia|exact G].
  Qed.
  Lemma mix_lri p : all (cLRI p) -> mixd "close" c c' -> sums "lri" 1%Z.
  Proof.
    start. intros (K & K' & K2). period p. rewrite (regression_indicator_shown o raw b ob W p k c A K), (regression_indicator_shown o raw' b' ob' W' p k c' A' K'), (regression_indicator_shown o raw2 b2 ob2 W2 p k _ A2 K2). cbv zeta.
    apply au_from. intro G. apply au_r4, end_mix; [lia|reflexivity].
  Qed.
  Lemma mix_lrs p : all (cLRS p) -> (2 <= nat_arg p)%nat -> mixd "close" c c' -> sums "lrs" 1%Z.
  Proof.
    start. intros P (K & K' & K2). rewrite (regression_slope_shown o raw b ob W p k c A P K), (regression_slope_shown o raw' b' ob' W' p k c' A' P K'), (regression_slope_shown o raw2 b2 ob2 W2 p k _ A2 P K2). cbv zeta.
    apply au_from. intro G. apply au_r4, slope_mix; [lia|reflexivity].
  Qed.
  Lemma mix_ws p : all (cWS p) -> mixd "close" c c' -> sums "ws" 1%Z.
  Proof.
    start. intros (K & K' & K2). period p. rewrite (wilders_smoothing_shown o raw b ob W p k c A K), (wilders_smoothing_shown o raw' b' ob' W' p k c' A' K'), (wilders_smoothing_shown o raw2 b2 ob2 W2 p k _ A2 K2). cbv zeta.
    apply au_from. intro G. apply au_r4, run_from_mix; [exact G|apply mean_mix; [lia|reflexivity]|reflexivity].
  Qed.
  Lemma mix_dema p : all (cDEMA p) -> mixd "close" c c' -> sums "dema" 1%Z.
  Proof.
    start. intros (K & K' & K2). period p. rewrite (double_exponential_shown o raw b ob W p k c A K), (double_exponential_shown o raw' b' ob' W' p k c' A' K'), (double_exponential_shown o raw2 b2 ob2 W2 p k _ A2 K2). cbv zeta.
    apply au_from. intro G. apply au_r4. set (n := nat_arg p) in *.
    assert (E1 : forall j, ema_from 0 n (fun i => mx (c i) (c' i)) j = mx (ema_from 0 n c j) (ema_from 0 n c' j)) by (intro j; apply ema_from_mix; [lia|reflexivity]).
    rewrite (ema_from_mix w w' (n - 1) n _ (ema_from 0 n c) (ema_from 0 n c') k) by (lia || (intros j _; apply E1)). rewrite E1. unfold mix. ring.
  Qed.
  Lemma mix_tema p : all (cTEMA p) -> mixd "close" c c' -> sums "tema" 1%Z.
  Proof.
    start. intros (K & K' & K2). period p. rewrite (triple_exponential_shown o raw b ob W p k c A K), (triple_exponential_shown o raw' b' ob' W' p k c' A' K'), (triple_exponential_shown o raw2 b2 ob2 W2 p k _ A2 K2). cbv zeta.
    apply au_from. intro G. apply au_r4. set (n := nat_arg p) in *.
    set (f1 := ema_from 0 n c). set (g1 := ema_from 0 n c'). set (z1 := ema_from 0 n (fun i => mx (c i) (c' i))).
    assert (E1 : forall j, z1 j = mx (f1 j) (g1 j)) by (intro j; apply ema_from_mix; [lia|reflexivity]).
    set (f2 := ema_from (n - 1) n f1). set (g2 := ema_from (n - 1) n g1). set (z2 := ema_from (n - 1) n z1).
    assert (E2 : forall j, (n - 1 <= j)%nat -> z2 j = mx (f2 j) (g2 j)) by (intros j J; apply ema_from_mix; [lia|intros; apply E1]).
    rewrite (ema_from_mix w w' (2 * (n - 1)) n z2 f2 g2 k) by (lia || (intros j J; apply E2; lia)). rewrite E1, E2 by lia. unfold mix. ring.
  Qed.
  Lemma mix_macd : all cMACD -> mixd "close" c c' -> sums "macd" 2%Z /\ sums "signal_line" 3%Z.
  Proof.
    start. intros (K & K' & K2). destruct (macd_shown o raw b ob W k c A K) as [-> ->]. destruct (macd_shown o raw' b' ob' W' k c' A' K') as [-> ->]. destruct (macd_shown o raw2 b2 ob2 W2 k _ A2 K2) as [-> ->].
    set (m := fun j => r4 (ema_from 0 12 c j) - r4 (ema_from 0 26 c j)). set (m' := fun j => r4 (ema_from 0 12 c' j) - r4 (ema_from 0 26 c' j)).
    set (z := fun j => r4 (ema_from 0 12 (fun i => mx (c i) (c' i)) j) - r4 (ema_from 0 26 (fun i => mx (c i) (c' i)) j)).
    assert (D : forall j, apart_by (slack tick4 2 w w') (z j) (mx (m j) (m' j))).
    { intro j. unfold z, m, m'. eapply apart_eq; [|symmetry; exact (slack_add w w' tick4 1 1)].
      replace (mx (r4 (ema_from 0 12 c j) - r4 (ema_from 0 26 c j)) (r4 (ema_from 0 12 c' j) - r4 (ema_from 0 26 c' j))) with (mx (r4 (ema_from 0 12 c j)) (r4 (ema_from 0 12 c' j)) - mx (r4 (ema_from 0 26 c j)) (r4 (ema_from 0 26 c' j))) by (unfold mix; ring).
      apply apart_sub; apply r4_mix0, ema_from_mix; (lia || reflexivity). }
    split.
    - apply au_from. intro G. assert (R : forall x y, r4 (r4 x - r4 y) = r4 x - r4 y).
      { intros x y. replace (r4 x - r4 y) with (r4 x + r4 (- y)) by (rewrite MirrorFacts.r4_opp; ring). apply r4_sum. }
      unfold m, m', z. rewrite !R. apply au_fin, (D k).
    - apply au_from. intro G. apply au_fin. eapply apart_eq; [|symmetry; exact (slack_add w w' tick4 2 1)]. apply r4_mix.
      assert (G25 : (25 <= k)%nat) by (exact (Nat.le_trans 25 33 k ltac:(lia) G)).
      rewrite <- (ema_from_mix w w' 25 9 (fun j => mx (m j) (m' j)) m m' k G25 (fun j _ => eq_refl)).
      split; [apply (ema_from_up 25 9 z (fun j => mx (m j) (m' j)) k)|apply (ema_from_up 25 9 (fun j => mx (m j) (m' j)) z k)]; try exact G25; try lia; intros j _; apply (D j).
  Qed.
  Lemma mix_qs p : all (cQS p) -> mixd "open" op op' -> mixd "close" c c' -> sums "qstick" 1%Z.
  Proof.
    start. intros (O & O' & O2) (K & K' & K2). period p. rewrite (qstick_shown o raw b ob W p k op c A O K), (qstick_shown o raw' b' ob' W' p k op' c' A' O' K'), (qstick_shown o raw2 b2 ob2 W2 p k _ _ A2 O2 K2). cbv zeta.
    apply au_from. intro G. apply au_r4, mean_mix; [lia|]. intros j _. unfold mix. ring.
  Qed.
  Lemma mix_vosc p q : all (cVOSC p q) -> mixd "volume" v v' -> sums "vosc" 1%Z.
  Proof.
    start. intros (K & K' & K2). assert (P : (1 <= nat_arg p)%nat /\ (nat_arg q <= nat_arg p)%nat) by (look fr V VV; lia). rewrite (volume_oscillator_shown o raw b ob W p q k v A K), (volume_oscillator_shown o raw' b' ob' W' p q k v' A' K'), (volume_oscillator_shown o raw2 b2 ob2 W2 p q k _ A2 K2). cbv zeta.
    apply au_from. intro G. apply au_r4. rewrite (mean_mix w w' _ v v' (nat_arg q) k), (mean_mix w w' _ v v' (nat_arg p) k) by (lia || reflexivity). unfold mix. ring.
  Qed.
  Lemma mix_mp p : all (cMP p) -> mixd "high" h h' -> mixd "low" l l' -> sums "mp" 1%Z.
  Proof.
    start. intros (H & H' & H2) (L & L' & L2). rewrite (mp_shown o raw b ob W p k (h k) (l k) A), (mp_shown o raw' b' ob' W' p k (h' k) (l' k) A'), (mp_shown o raw2 b2 ob2 W2 p k _ _ A2 (H2 k (le_n _)) (L2 k (le_n _))) by auto.
    apply au_r4. unfold mix, Qcdiv. ring.
  Qed.
  Lemma mix_tp p : all (cTP p) -> mixd "high" h h' -> mixd "low" l l' -> mixd "close" c c' -> sums "tp" 1%Z.
  Proof.
    start. intros (H & H' & H2) (L & L' & L2) (C & C' & C2). rewrite (tp_shown o raw b ob W p k (h k) (l k) (c k) A), (tp_shown o raw' b' ob' W' p k (h' k) (l' k) (c' k) A'), (tp_shown o raw2 b2 ob2 W2 p k _ _ _ A2 (H2 k (le_n _)) (L2 k (le_n _)) (C2 k (le_n _))) by auto.
    apply au_r4. unfold mix, Qcdiv. ring.
  Qed.
  Lemma mix_wc : all cWC -> mixd "high" h h' -> mixd "low" l l' -> mixd "close" c c' -> sums "wc" 1%Z.
  Proof.
    start. intros (H & H' & H2) (L & L' & L2) (C & C' & C2). rewrite (wc_shown o raw b ob W k (h k) (l k) (c k) A), (wc_shown o raw' b' ob' W' k (h' k) (l' k) (c' k) A'), (wc_shown o raw2 b2 ob2 W2 k _ _ _ A2 (H2 k (le_n _)) (L2 k (le_n _)) (C2 k (le_n _))) by auto.
    apply au_r4. unfold mix, Qcdiv. ring.
  Qed.
  Lemma mean_of_mix n i : mean (fun j => mx (c (i + j)%nat) (c' (i + j)%nat)) n = mx (mean (fun j => c (i + j)%nat) n) (mean (fun j => c' (i + j)%nat) n).
  Proof. unfold mean. rewrite (total_mix w w' _ (fun j => c (i + j)%nat) (fun j => c' (i + j)%nat)) by reflexivity. apply div_mix. Qed.
  Lemma mix_bb p q : all (cBB p q) -> mixd "close" c c' -> sums "middle_band" 1%Z.
  Proof.
    start. intros (K & K' & K2). period p.
    destruct (bb_shown_values o raw b ob W p q k A) as ([M1 M0] & _). destruct (bb_shown_values o raw' b' ob' W' p q k A') as ([M1' M0'] & _). destruct (bb_shown_values o raw2 b2 ob2 W2 p q k A2) as ([M12 M02] & _). set (n := nat_arg p) in *.
    destruct (Nat.le_gt_cases n (S k)) as [G|G].
    - rewrite (M1 (fun j => c (S k - n + j)%nat)) by (split; [exact G|intros j J; apply K; lia]). rewrite (M1' (fun j => c' (S k - n + j)%nat)) by (split; [exact G|intros j J; apply K'; lia]).
      rewrite (M12 (fun j => mx (c (S k - n + j)%nat) (c' (S k - n + j)%nat))) by (split; [exact G|intros j J; apply K2; lia]). apply au_r4, mean_of_mix.
    - rewrite M0 by (intros f [F _]; lia). rewrite M0' by (intros f [F _]; lia). rewrite M02 by (intros f [F _]; lia). left. auto.
  Qed.
  Lemma mix_env p q : all (cENV p q) -> mixd "close" c c' -> sums "upper_band" 1%Z /\ sums "lower_band" 1%Z.
  Proof.
    start. intros (K & K' & K2). period p. destruct (shift_within o raw b ob p q A) as (s & E & S0 & S1).
    destruct (env_shown_values o raw b ob W p q k A) as ([M1 M0] & [N1 N0]). destruct (env_shown_values o raw' b' ob' W' p q k A') as ([M1' M0'] & [N1' N0']). destruct (env_shown_values o raw2 b2 ob2 W2 p q k A2) as ([M12 M02] & [N12 N02]).
    set (n := nat_arg p) in *. rewrite E in *.
    destruct (Nat.le_gt_cases n (S k)) as [G|G].
    - set (x := fun j => c (S k - n + j)%nat). set (x' := fun j => c' (S k - n + j)%nat). set (x2 := fun j => mx (c (S k - n + j)%nat) (c' (S k - n + j)%nat)).
      assert (X : win (given "close" ob) n k x) by (split; [exact G|intros j J; apply K; lia]). assert (X' : win (given "close" ob') n k x') by (split; [exact G|intros j J; apply K'; lia]).
      assert (X2 : win (given "close" ob2) n k x2) by (split; [exact G|intros j J; apply K2; lia]).
      rewrite (M1 _ X), (N1 _ X), (M1' _ X'), (N1' _ X'), (M12 _ X2), (N12 _ X2). assert (Q : mean x2 n = mx (mean x n) (mean x' n)) by (apply mean_of_mix).
      split; apply au_r4; rewrite Q; unfold mix; ring.
    - rewrite M0, N0 by (intros f [F _]; lia). rewrite M0', N0' by (intros f [F _]; lia). rewrite M02, N02 by (intros f [F _]; lia). split; left; auto.
  Qed.
  Lemma lines_add ct name u : all ct -> basket ct w w' k ob ob' ob2 op op' h h' l l' c c' v v' -> In (name, u) (linear ct) -> sums name u.
  Proof.
    intros T (O & H & L & C & VO) I. destruct ct; cbn [linear] in I; try contradiction; cbn [required asked] in O, H, L, C, VO.
    all: try specialize (O ltac:(cbn; tauto)); try specialize (H ltac:(cbn; tauto)); try specialize (L ltac:(cbn; tauto)); try specialize (C ltac:(cbn; tauto)); try specialize (VO ltac:(cbn; tauto)).
    - destruct I as [I|[]]; injection I as <- <-. exact (mix_bb _ _ T C).
    - destruct I as [I|[]]; injection I as <- <-. exact (mix_dema _ T C).
    - destruct (mix_env _ _ T C). destruct I as [I|[I|[]]]; injection I as <- <-; assumption.
    - destruct I as [I|[]]; injection I as <- <-. exact (mix_lri _ T C).
    - match type of I with context [(2 <=? ?n)%nat] => destruct (Nat.leb_spec 2 n) as [G|G]; [|contradiction] end. destruct I as [I|[]]; injection I as <- <-. exact (mix_lrs _ T G C).
    - destruct I as [I|[]]; injection I as <- <-. exact (mix_mp _ T H L).
    - destruct ma_type as [| | |t| |]; try contradiction. destruct (existsb (String.eqb t) _) eqn:X.
      + apply existsb_exists in X. destruct X as (t' & X & Q). apply String.eqb_eq in Q. subst t'.
        destruct I as [I|[]]; injection I as <- <-. repeat (destruct X as [<-|X]); [..|contradiction]; [exact (mix_simple _ T C)|exact (mix_exponential _ T C)|exact (mix_triangular _ T C)].
      + destruct (String.eqb t "time_series") eqn:Q; cbn [andb] in I; [|contradiction]. apply String.eqb_eq in Q. subst t.
        match type of I with context [(2 <=? ?n)%nat] => destruct (Nat.leb_spec 2 n) as [G|G]; [|contradiction] end. destruct I as [I|[]]; injection I as <- <-. exact (mix_tsma _ T G C).
    - destruct (mix_macd T C). destruct I as [I|[I|[]]]; injection I as <- <-; assumption.
    - destruct I as [I|[]]; injection I as <- <-. exact (mix_qs _ T O C).
    - destruct I as [I|[]]; injection I as <- <-. exact (mix_tsf _ T C).
    - destruct I as [I|[]]; injection I as <- <-. exact (mix_tema _ T C).
    - destruct I as [I|[]]; injection I as <- <-. exact (mix_tp _ T H L C).
    - destruct I as [I|[]]; injection I as <- <-. exact (mix_vosc _ _ T VO).
    - destruct I as [I|[]]; injection I as <- <-. exact (mix_wc T H L C).
    - destruct I as [I|[]]; injection I as <- <-. exact (mix_ws _ T C).
  Qed.
  Lemma mix_dpo p : all (cDPO p) -> mixd "close" c c' -> let d := S (nat_arg p / 2) in (d <= k)%nat ->
    adds_up (slack tick4 1 w w') w w' (shown "dpo" ob (k - d)) (shown "dpo" ob' (k - d)) (shown "dpo" ob2 (k - d)).
  Proof.
    start. intros (K & K' & K2). cbv zeta. intro D. period p. rewrite (detrended_price_shown o raw b ob W p k c A K D), (detrended_price_shown o raw' b' ob' W' p k c' A' K' D), (detrended_price_shown o raw2 b2 ob2 W2 p k _ A2 K2 D).
    apply au_from. intro G. apply au_r4. rewrite (mean_mix w w' _ c c' (nat_arg p) k) by (lia || reflexivity). unfold mix. ring.
  Qed.
End Basket.
