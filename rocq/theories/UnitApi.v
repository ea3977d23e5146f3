(** * UnitApi: the published columns in other units of money and volume. *)
From Coq Require Import ZArith QArith Qcanon Bool List String PeanoNat Lia Sorted Permutation.
From Verif Require Import Num NumFacts RoundFacts Pandas Sim Frame FrameSpec FrameProofs Ind Signal Api IndSpec SeriesFacts Lengths Causal IndFacts Shape ApiSpec ApiCheck ApiProofs ApiLemmas RangeSpec Cells RangeFacts RangeMore Publish RangeApi ValueSpec ValueFacts ValueMore Recur ValueApi CumulApi.
From Verif Require Import FormulaSpec Starts Formula Formula2 Formula3 Formula4 Line Formula5 Formula6 FormulaApi FlatFacts ScaleFacts MirrorSpec MirrorApi3 OrderFacts SarFacts UnitSpec UnitFacts.
Import ListNotations.
Open Scope list_scope. Open Scope string_scope. Open Scope Qc_scope.

Section Units.
  Variables (o : oracle) (raw raw' : rawframe) (b b' : bool) (ob ob' : obj) (a u : Qc) (k : nat) (op h l c v : nat -> Qc).
  Hypothesis W : wf_raw raw. Hypothesis W' : wf_raw raw'. Hypothesis A0 : 0 < a. Hypothesis U0 : 0 < u.
  Notation both c := (twice c o raw raw' b b' ob ob').
  Notation priced n f := (times a k ob ob' n f).
  Notation traded := (times u k ob ob' "volume" v).
  Notation agree n := (shown n ob' k = shown n ob k).
  Notation conv c r n := (converted c r (shown n ob k) (shown n ob' k)).
  Let op' j := a * op j. Let h' j := a * h j. Let l' j := a * l j. Let c' j := a * c j. Let v' j := u * v j.
  Let UO : unit_of a op op' := fun j => eq_refl. Let UH : unit_of a h h' := fun j => eq_refl. Let UL : unit_of a l l' := fun j => eq_refl.
  Let UC : unit_of a c c' := fun j => eq_refl. Let UV : unit_of u v v' := fun j => eq_refl.
  Notation NA := (s_nonzero a A0). Notation NU := (s_nonzero u U0).
  Ltac start := let A := fresh "A" in let B := fresh "B" in intros [A B].
  Ltac r := apply conv_r4 || apply conv_r4'; [reflexivity|].

  (** ** ratios with volumes *)
  Lemma unit_vrc p : both (cVRC p) -> traded -> agree "vrc".
  Proof.
    start. intros [K K']. rewrite (volume_rate_of_change_shown o raw b ob W p k v A K), (volume_rate_of_change_shown o raw' b' ob' W' p k v' B K'). cbv zeta.
    rewrite (change_scale u (nat_arg p) v v' UV k). do 2 f_equal. apply (ratio_same u U0); [ring|reflexivity].
  Qed.
  Lemma move_unit j : adl_move (h' j) (l' j) (c' j) (v' j) = u * adl_move (h j) (l j) (c j) (v j).
  Proof. unfold adl_move, h', l', c', v'. rewrite (lt_scale a A0). destruct qltb; [|ring]. rewrite <- Qcmult_assoc. do 2 f_equal. apply (quotient_same a A0); ring. Qed.
  Lemma within_unit x y z : x <= y /\ y <= z /\ x < z -> a * x <= a * y /\ a * y <= a * z /\ a * x < a * z.
  Proof. intros (X & Y & Z). rewrite <- !qltb_false, <- qltb_iff, !(lt_scale a A0), !qltb_false, qltb_iff. auto. Qed.
  Lemma unit_cmf p : both (cCMF p) -> (forall j, (j <= k)%nat -> l j <= c j /\ c j <= h j /\ l j < h j) -> priced "high" h -> priced "low" l -> priced "close" c -> traded -> agree "cmf".
  Proof.
    start. intros HL [H H'] [L L'] [K K'] [V V'].
    assert (HL' : forall j, (j <= k)%nat -> l' j <= c' j /\ c' j <= h' j /\ l' j < h' j) by (intros j J; apply within_unit, HL, J).
    rewrite (chaikin_money_flow_shown o raw b ob W p k c v h l A HL K V H L), (chaikin_money_flow_shown o raw' b' ob' W' p k c' v' h' l' B HL' K' V' H' L'). cbv zeta.
    assert (M : unit_of u (fun j => adl_move (h j) (l j) (c j) (v j)) (fun j => adl_move (h' j) (l' j) (c' j) (v' j))) by exact move_unit.
    rewrite (sum_scale u _ _ _ M k), (sum_scale u _ _ _ UV k). do 2 f_equal. apply (ratio_same u U0); reflexivity.
  Qed.
  Lemma index_unit counts j : (forall x y, counts (u * x) (u * y) = counts x y) -> index_line counts c' v' j = index_line counts c v j.
  Proof.
    intro E. induction j; cbn [index_line]; [reflexivity|]. rewrite IHj. unfold v'. rewrite E. destruct counts; [|reflexivity]. do 2 f_equal. unfold c'. apply (quotient_same a A0); ring.
  Qed.
  Lemma nonzero_unit x : x <> 0 -> a * x <> 0.
  Proof. intros N E. apply Qcmult_integral in E as [E|E]; [exact (NA E)|exact (N E)]. Qed.
  Lemma unit_nvi : both cNVI -> (forall j, (j <= k)%nat -> c j <> 0) -> priced "close" c -> traded -> agree "nvi".
  Proof.
    start. intros N [K K'] [V V']. rewrite (nvi_shown_line o raw b ob W k c v A K V) by (intros; apply N; lia).
    rewrite (nvi_shown_line o raw' b' ob' W' k c' v' B K' V') by (intros; apply nonzero_unit, N; lia). rewrite index_unit; [reflexivity|]. intros. apply (lt_scale u U0).
  Qed.
  Lemma unit_pvi : both cPVI -> (forall j, (j <= k)%nat -> c j <> 0) -> priced "close" c -> traded -> agree "pvi".
  Proof.
    start. intros N [K K'] [V V']. rewrite (pvi_shown_line o raw b ob W k c v A K V) by (intros; apply N; lia).
    rewrite (pvi_shown_line o raw' b' ob' W' k c' v' B K' V') by (intros; apply nonzero_unit, N; lia). rewrite index_unit; [reflexivity|]. intros. apply (lt_scale u U0).
  Qed.
  Lemma unit_uo : both cUO -> (forall w, In w [7; 14; 28]%nat -> (28 <= k)%nat -> sum_last (reach h l c) w k <> 0) -> priced "high" h -> priced "low" l -> priced "close" c -> agree "uosc".
  Proof.
    start. intros N [H H'] [L L'] [K K'].
    assert (R : unit_of a (reach h l c) (reach h' l' c')) by (intro j; unfold reach; rewrite (true_high_scale a A0 h h' c c' UH UC j), (true_low_scale a A0 l l' c c' UL UC j); ring).
    assert (P : unit_of a (pressure l c) (pressure l' c')) by (intro j; unfold pressure; rewrite (true_low_scale a A0 l l' c c' UL UC j), UC; ring).
    assert (N' : forall w, In w [7; 14; 28]%nat -> (28 <= k)%nat -> sum_last (reach h' l' c') w k <> 0).
    { intros w I G. rewrite (sum_scale a _ _ w R k). apply nonzero_unit, N; auto. }
    rewrite (ultimate_oscillator_shown o raw b ob W k h l c A N H L K), (ultimate_oscillator_shown o raw' b' ob' W' k h' l' c' B N' H' L' K'). cbv zeta.
    rewrite !(fun w => sum_scale a _ _ w R k), !(fun w => sum_scale a _ _ w P k), !(quotient_unit a A0). reflexivity.
  Qed.

  (** ** amounts of money *)
  Lemma unit_ma_simple p : let ct := cMA p (VStr "simple") in both ct -> priced "close" c -> conv ct a "ma-simple".
  Proof. cbv zeta. start. intros [K K']. rewrite (simple_moving_average_shown o raw b ob W p k c A K), (simple_moving_average_shown o raw' b' ob' W' p k c' B K'). cbv zeta. r. apply mean_scale, UC. Qed.
  Lemma unit_ma_exponential p : let ct := cMA p (VStr "exponential") in both ct -> priced "close" c -> conv ct a "ma-exponential".
  Proof. cbv zeta. start. intros [K K']. rewrite (exponential_moving_average_shown o raw b ob W p k c A K), (exponential_moving_average_shown o raw' b' ob' W' p k c' B K'). cbv zeta. r. apply ema_scale, UC. Qed.
  Lemma unit_ma_triangular p : let ct := cMA p (VStr "triangular") in both ct -> priced "close" c -> conv ct a "ma-triangular".
  Proof. cbv zeta. start. intros [K K']. rewrite (triangular_moving_average_shown o raw b ob W p k c A K), (triangular_moving_average_shown o raw' b' ob' W' p k c' B K'). cbv zeta. r. apply mean_scale, mean_scale, UC. Qed.
  Lemma unit_ma_variable p : let ct := cMA p (VStr "variable") in both ct -> (forall j, (22 <= j <= k)%nat -> exists i, (j - 9 < i <= j)%nat /\ c i <> c (i - 1)%nat) -> priced "close" c -> conv ct a "ma-variable".
  Proof.
    cbv zeta. start. intros N [K K'].
    assert (N' : forall j, (22 <= j <= k)%nat -> exists i, (j - 9 < i <= j)%nat /\ c' i <> c' (i - 1)%nat).
    { intros j J. destruct (N j J) as (i & I & Q). exists i. split; [exact I|]. unfold c'. intro E. apply Q. rewrite <- (Qcmult_1_l (c i)), <- (Qcmult_1_l (c (i - 1)%nat)), <- (Qcmult_inv_l a NA), <- !Qcmult_assoc, E. reflexivity. }
    rewrite (variable_moving_average_shown o raw b ob W p k c A N K), (variable_moving_average_shown o raw' b' ob' W' p k c' B N' K'). cbv zeta. r. apply variable_scale; [exact A0|exact UC].
  Qed.
  Lemma unit_dema p : both (cDEMA p) -> priced "close" c -> conv (cDEMA p) a "dema".
  Proof.
    start. intros [K K']. rewrite (double_exponential_shown o raw b ob W p k c A K), (double_exponential_shown o raw' b' ob' W' p k c' B K'). cbv zeta. r.
    pose proof (ema_scale a 0 (nat_arg p) c c' UC) as E. pose proof (ema_scale a (nat_arg p - 1) (nat_arg p) _ _ E) as E2. rewrite (E k), (E2 k). ring.
  Qed.
  Lemma unit_tema p : both (cTEMA p) -> priced "close" c -> conv (cTEMA p) a "tema".
  Proof.
    start. intros [K K']. rewrite (triple_exponential_shown o raw b ob W p k c A K), (triple_exponential_shown o raw' b' ob' W' p k c' B K'). cbv zeta. r.
    pose proof (ema_scale a 0 (nat_arg p) c c' UC) as E. pose proof (ema_scale a (nat_arg p - 1) (nat_arg p) _ _ E) as E2. pose proof (ema_scale a (2 * (nat_arg p - 1)) (nat_arg p) _ _ E2) as E3.
    rewrite (E k), (E2 k), (E3 k). ring.
  Qed.
  Lemma unit_ws p : both (cWS p) -> priced "close" c -> conv (cWS p) a "ws".
  Proof.
    start. intros [K K']. rewrite (wilders_smoothing_shown o raw b ob W p k c A K), (wilders_smoothing_shown o raw' b' ob' W' p k c' B K'). cbv zeta. r.
    rewrite (mean_scale a c c' (nat_arg p) UC). apply run_scale; [exact UC|apply wilders_scale].
  Qed.
  Lemma unit_mp p : both (cMP p) -> priced "high" h -> priced "low" l -> conv (cMP p) a "mp".
  Proof. start. intros [H H'] [L L']. rewrite (mp_shown o raw b ob W p k (h k) (l k) A), (mp_shown o raw' b' ob' W' p k (h' k) (l' k) B) by (first [apply H|apply L|apply H'|apply L']; lia). r. unfold h', l', Qcdiv. ring. Qed.
  Lemma unit_tp p : both (cTP p) -> priced "high" h -> priced "low" l -> priced "close" c -> conv (cTP p) a "tp".
  Proof.
    start. intros [H H'] [L L'] [K K']. rewrite (tp_shown o raw b ob W p k (h k) (l k) (c k) A), (tp_shown o raw' b' ob' W' p k (h' k) (l' k) (c' k) B) by (first [apply H|apply L|apply H'|apply L'|apply K|apply K']; lia).
    r. unfold h', l', c', Qcdiv. ring.
  Qed.
  Lemma unit_wc : both cWC -> priced "high" h -> priced "low" l -> priced "close" c -> conv cWC a "wc".
  Proof.
    start. intros [H H'] [L L'] [K K']. rewrite (wc_shown o raw b ob W k (h k) (l k) (c k) A), (wc_shown o raw' b' ob' W' k (h' k) (l' k) (c' k) B) by (first [apply H|apply L|apply H'|apply L'|apply K|apply K']; lia).
    r. unfold h', l', c', Qcdiv. ring.
  Qed.
  Lemma unit_lri p : both (cLRI p) -> priced "close" c -> conv (cLRI p) a "lri".
  Proof. start. intros [K K']. rewrite (regression_indicator_shown o raw b ob W p k c A K), (regression_indicator_shown o raw' b' ob' W' p k c' B K'). cbv zeta. r. apply end_scale, UC. Qed.
  Lemma unit_lrs p : both (cLRS p) -> (2 <= nat_arg p)%nat -> priced "close" c -> conv (cLRS p) a "lrs".
  Proof. start. intros N [K K']. rewrite (regression_slope_shown o raw b ob W p k c A N K), (regression_slope_shown o raw' b' ob' W' p k c' B N K'). cbv zeta. r. apply slope_scale, UC. Qed.
  Lemma unit_atr : both cATR -> (13 <= k)%nat -> priced "high" h -> priced "low" l -> priced "close" c -> conv cATR a "atr".
  Proof.
    start. intros G [H H'] [L L'] [K K']. rewrite (average_true_range_shown o raw b ob W k h l c A G H L K), (average_true_range_shown o raw' b' ob' W' k h' l' c' B G H' L' K'). cbv zeta. r.
    pose proof (unit_true_range a A0 h l c) as T. fold h' l' c' in T. rewrite (mean_scale a _ _ 14 T). apply run_scale; [exact T|apply wilders_scale].
  Qed.
  Lemma unit_qs p : both (cQS p) -> priced "open" op -> priced "close" c -> conv (cQS p) a "qstick".
  Proof. start. intros [J J'] [K K']. rewrite (qstick_shown o raw b ob W p k op c A J K), (qstick_shown o raw' b' ob' W' p k op' c' B J' K'). cbv zeta. r. apply mean_scale. intro. unfold c', op'. ring. Qed.
  Lemma unit_wad : both cWAD -> priced "high" h -> priced "low" l -> priced "close" c -> conv cWAD a "wad".
  Proof.
    start. intros [H H'] [L L'] [K K']. rewrite (williams_accumulation_shown o raw b ob W k h l c A H L K), (williams_accumulation_shown o raw' b' ob' W' k h' l' c' B H' L' K'). r.
    rewrite !UC, !(lt_scale a A0), (true_low_scale a A0 l l' c c' UL UC k), (true_high_scale a A0 h h' c c' UH UC k). destruct (qltb (c (k - 1)%nat) (c k)); [ring|]. destruct (qltb (c k) (c (k - 1)%nat)); ring.
  Qed.
  Lemma unit_pb p : both (cPB p) -> priced "high" h -> priced "low" l -> conv (cPB p) a "upper_band" /\ conv (cPB p) a "lower_band".
  Proof.
    start. intros [H H'] [L L']. destruct (projection_bands_shown o raw b ob W p k h l A H L) as [-> ->]. destruct (projection_bands_shown o raw' b' ob' W' p k h' l' B H' L') as [-> ->].
    split; r; [apply highest_projection_scale|apply lowest_projection_scale]; auto.
  Qed.
  Lemma unit_bb p w : both (cBB p w) -> priced "close" c -> conv (cBB p w) a "middle_band".
  Proof.
    start. intros [K K']. destruct (bb_shown_values o raw b ob W p w k A) as ([M1 M0] & _). destruct (bb_shown_values o raw' b' ob' W' p w k B) as ([M1' M0'] & _). set (n := nat_arg p) in *.
    destruct (Nat.le_gt_cases n (S k)) as [G|G].
    - assert (P : (1 <= n)%nat) by (subst n; look fr V VV; lia).
      rewrite (M1 (fun j => c (S k - n + j)%nat)) by (split; [exact G|intros j J; apply K; lia]). rewrite (M1' (fun j => c' (S k - n + j)%nat)) by (split; [exact G|intros j J; apply K'; lia]).
      r. exact (mean_scale a c c' n UC k).
    - rewrite M0 by (intros f [F _]; lia). rewrite M0' by (intros f [F _]; lia). apply conv_nan. reflexivity.
  Qed.
  Lemma unit_env p w : both (cENV p w) -> priced "close" c -> conv (cENV p w) a "upper_band" /\ conv (cENV p w) a "lower_band".
  Proof.
    start. intros [K K']. destruct (construct_params _ _ _ _ _ A (mkParam "shift" (is_float w) (nltb (F 0) (as_number w) && nltb (as_number w) (F 1)))) as [_ Z]; [cbn; auto|].
    cbn in Z. apply andb_true_iff in Z as [Z1 Z2]. destruct (as_number w) as [| | |s] eqn:E; try discriminate. clear Z1 Z2.
    destruct (env_shown_values o raw b ob W p w k A) as ([M1 M0] & [N1 N0]). destruct (env_shown_values o raw' b' ob' W' p w k B) as ([M1' M0'] & [N1' N0']). set (n := nat_arg p) in *. rewrite E in *.
    destruct (Nat.le_gt_cases n (S k)) as [G|G].
    - assert (X : win (given "close" ob) n k (fun j => c (S k - n + j)%nat)) by (split; [exact G|intros j J; apply K; lia]). assert (X' : win (given "close" ob') n k (fun j => c' (S k - n + j)%nat)) by (split; [exact G|intros j J; apply K'; lia]).
      pose proof (mean_scale a c c' n UC k) as Q. unfold mean_last, sum_last in Q. fold (mean (fun j => c (S k - n + j)%nat) n) (mean (fun j => c' (S k - n + j)%nat) n) in Q.
      rewrite (M1 _ X), (N1 _ X), (M1' _ X'), (N1' _ X'), Q. split; apply conv_r4'; [reflexivity|ring|reflexivity|ring].
    - rewrite M0, N0 by (intros f [F _]; lia). rewrite M0', N0' by (intros f [F _]; lia). split; apply conv_nan; reflexivity.
  Qed.
  Lemma unit_pch p : both (cPCH p) -> priced "high" h -> priced "low" l -> conv (cPCH p) a "highest_high" /\ conv (cPCH p) a "lowest_low".
  Proof.
    start. intros (H & H') (L & L'). pose proof (known_days _ _ _ _ H) as D. pose proof (known_days _ _ _ _ H') as D'. split.
    - destruct (pch_shown_high o raw b ob W p k A D) as [(M & N & FU & HI & ->)|[[N|(j & J & G)] ->]]; [| |rewrite H in G by lia; discriminate].
      + destruct (pch_shown_high o raw' b' ob' W' p k B D') as [(M3 & _ & _ & HI' & ->)|[[N2|(j & J & G)] _]]; [|lia|rewrite H' in G by lia; discriminate].
        r. exact (highest_times a _ _ k h _ _ _ _ A0 H H' (Nat.le_sub_l k 1) HI HI').
      + destruct (pch_shown_high o raw' b' ob' W' p k B D') as [(M2 & N2 & _)|[_ ->]]; [lia|]. apply conv_nan. reflexivity.
    - destruct (pch_shown_low o raw b ob W p k A D) as [(M & N & FU & HI & ->)|[[N|(j & J & G)] ->]]; [| |rewrite L in G by lia; discriminate].
      + destruct (pch_shown_low o raw' b' ob' W' p k B D') as [(M3 & _ & _ & HI' & ->)|[[N2|(j & J & G)] _]]; [|lia|rewrite L' in G by lia; discriminate].
        r. exact (lowest_times a _ _ k l _ _ _ _ A0 L L' (Nat.le_sub_l k 1) HI HI').
      + destruct (pch_shown_low o raw' b' ob' W' p k B D') as [(M2 & N2 & _)|[_ ->]]; [lia|]. apply conv_nan. reflexivity.
  Qed.
  Lemma unit_ich name : both cICH -> In name ["tenkan_sen"; "kijun_sen"; "senkou_a"; "senkou_b"] -> priced "high" h -> priced "low" l -> conv cICH a name.
  Proof.
    start. intros I (H & H') (L & L'). pose proof (known_days _ _ _ _ H) as D. pose proof (known_days _ _ _ _ H') as D'.
    assert (MID : forall i z x x', (i <= z <= k)%nat -> midpoint (given "high" ob) (given "low" ob) i z x -> midpoint (given "high" ob') (given "low" ob') i z x' -> exists q, x = Fin q /\ x' = Fin (a * q))
      by (intros i z x x' R; exact (midpoint_times a _ _ _ _ k h l i z x x' A0 H L H' L' R)).
    destruct I as [<-|[<-|I]].
    - destruct (ich_shown_lines o raw b ob W k A D) as [(x & X & ->) _]. destruct (ich_shown_lines o raw' b' ob' W' k B D') as [(y & Y & ->) _].
      destruct (MID _ _ _ _ (conj (Nat.le_sub_l _ _) (le_n _)) X Y) as (q & -> & ->). apply (conv_r4' cICH a q); reflexivity.
    - destruct (ich_shown_lines o raw b ob W k A D) as [_ (x & X & ->)]. destruct (ich_shown_lines o raw' b' ob' W' k B D') as [_ (y & Y & ->)].
      destruct (MID _ _ _ _ (conj (Nat.le_sub_l _ _) (le_n _)) X Y) as (q & -> & ->). apply (conv_r4' cICH a q); reflexivity.
    - destruct (ich_shown_cloud o raw b ob W k A D) as [Y1 O1]. destruct (ich_shown_cloud o raw' b' ob' W' k B D') as [Y2 O2].
      destruct (Nat.lt_ge_cases k 26) as [G|G]; [specialize (Y1 G) as [Ya Yb]; specialize (Y2 G) as [Yc Yd]; destruct I as [<-|[<-|[]]]; rewrite ?Ya, ?Yb, ?Yc, ?Yd; apply conv_nan; reflexivity|].
      specialize (O1 G) as [(x1 & w & X1 & V & SA) (x & X & SB)]. specialize (O2 G) as [(x1' & w' & X1' & V' & SA') (x' & X' & SB')].
      destruct (MID _ _ _ _ (conj (Nat.le_sub_l _ _) (Nat.le_sub_l _ _)) X1 X1') as (q1 & -> & ->). destruct (MID _ _ _ _ (conj (Nat.le_sub_l _ _) (Nat.le_sub_l _ _)) V V') as (q2 & -> & ->).
      destruct (MID _ _ _ _ (conj (Nat.le_sub_l _ _) (Nat.le_sub_l _ _)) X X') as (q3 & -> & ->).
      destruct I as [<-|[<-|[]]].
      + rewrite SA, SA'. change (F 2) with (Fin (zq 2)). cbn [nadd ndiv]. replace (qeqb (zq 2) 0) with false by reflexivity. apply (conv_r4' cICH a ((q1 + q2) / zq 2)); [reflexivity|]. unfold Qcdiv. ring.
      + rewrite SB, SB'. apply (conv_r4' cICH a q3); reflexivity.
  Qed.
  Lemma unit_sar m : both cPSAR -> (1 <= m)%nat -> (k <= m)%nat -> times a m ob ob' "high" h -> times a m ob ob' "low" l -> conv cPSAR a "sar".
  Proof.
    start. intros M KM [H H'] [L L']. rewrite (sar_shown o raw b ob W m k h l A M KM H L), (sar_shown o raw' b' ob' W' m k h' l' B M KM H' L').
    apply (conv_r4' cPSAR a). { reflexivity. } rewrite (trend_scale a A0 h l h' l' UH UL k). reflexivity.
  Qed.
  Lemma unit_dpo p : both (cDPO p) -> (S (nat_arg p / 2) <= k)%nat -> priced "close" c ->
    converted (cDPO p) a (shown "dpo" ob (k - S (nat_arg p / 2))) (shown "dpo" ob' (k - S (nat_arg p / 2))).
  Proof.
    start. intros D [K K']. rewrite (detrended_price_shown o raw b ob W p k c A K D), (detrended_price_shown o raw' b' ob' W' p k c' B K' D). r.
    rewrite (mean_scale a c c' (nat_arg p) UC k), UC. ring.
  Qed.

  (** ** amounts of shares *)
  Lemma unit_vosc p q : both (cVOSC p q) -> traded -> conv (cVOSC p q) u "vosc".
  Proof.
    start. intros [K K']. rewrite (volume_oscillator_shown o raw b ob W p q k v A K), (volume_oscillator_shown o raw' b' ob' W' p q k v' B K'). cbv zeta. r.
    rewrite !(fun n => mean_scale u v v' n UV k). ring.
  Qed.
  Lemma obv_unit j : obv_line c' v' j = u * obv_line c v j.
  Proof.
    induction j; cbn [obv_line]; [ring|]. rewrite IHj. unfold c', v'. rewrite !(lt_scale a A0). destruct (qltb (c j) (c (S j))); [ring|]. destruct (qltb (c (S j)) (c j)); ring.
  Qed.
  Lemma unit_obv : both cOBV -> priced "close" c -> traded -> conv cOBV u "obv".
  Proof.
    start. intros [K K'] [V V']. rewrite (obv_shown_line o raw b ob W k c v A K V), (obv_shown_line o raw' b' ob' W' k c' v' B K' V'), obv_unit. exists (Fin (obv_line c v k)). split; reflexivity.
  Qed.
  Lemma pvt_unit j : pvt_line c' v' j = u * pvt_line c v j.
  Proof.
    induction j; cbn [pvt_line]; [ring|]. rewrite IHj. replace ((c' (S j) - c' j) / c' j) with ((c (S j) - c j) / c j); [unfold v'; ring|]. symmetry. apply (quotient_same a A0); unfold c'; ring.
  Qed.
  Lemma unit_pvt : both cPVT -> (forall j, (j <= k)%nat -> c j <> 0) -> priced "close" c -> traded -> conv cPVT u "pvt".
  Proof.
    start. intros N [K K'] [V V']. rewrite (pvt_shown_line o raw b ob W k c v A K V) by (intros; apply N; lia).
    rewrite (pvt_shown_line o raw' b' ob' W' k c' v' B K' V') by (intros; apply nonzero_unit, N; lia). r. apply pvt_unit.
  Qed.
  Lemma trend_unit j : trend h' l' c' j = trend h l c j.
  Proof.
    unfold trend, h', l', c'. replace (a * h (j - 1)%nat + a * l (j - 1)%nat + a * c (j - 1)%nat) with (a * (h (j - 1)%nat + l (j - 1)%nat + c (j - 1)%nat)) by ring.
    replace (a * h j + a * l j + a * c j) with (a * (h j + l j + c j)) by ring. rewrite (lt_scale a A0). reflexivity.
  Qed.
  Lemma measure_unit j : measure h' l' c' j = a * measure h l c j.
  Proof.
    induction j; cbn [measure]; [ring|]. rewrite !trend_unit, IHj. unfold h', l'. destruct ((2 <=? S j)%nat && qeqb (trend h l c (S j)) (trend h l c j))%bool; ring.
  Qed.
  Lemma force_unit : unit_of u (force h l c v) (force h' l' c' v').
  Proof.
    intro j. unfold force. rewrite trend_unit, measure_unit. replace ((h' j - l' j) / (a * measure h l c j)) with ((h j - l j) / measure h l c j); [unfold v'; ring|].
    symmetry. apply (quotient_same a A0); unfold h', l'; ring.
  Qed.
  Lemma unit_ko : both cKO -> (forall j, (1 <= j <= k)%nat -> measure h l c j <> 0) -> priced "high" h -> priced "low" l -> priced "close" c -> traded -> conv cKO u "ko".
  Proof.
    start. intros N [H H'] [L L'] [K K'] [V V']. assert (N' : forall j, (1 <= j <= k)%nat -> measure h' l' c' j <> 0) by (intros; rewrite measure_unit; apply nonzero_unit, N; auto).
    rewrite (klinger_shown o raw b ob W k h l c v A N H L K V), (klinger_shown o raw' b' ob' W' k h' l' c' v' B N' H' L' K' V'). r.
    rewrite !(fun n => ema_scale u 1 n _ _ force_unit k). ring.
  Qed.
  Lemma unit_adl n : both cADL -> days_given ob = n -> days_given ob' = n -> (k < n)%nat -> (forall j, (j < n)%nat -> l j <= c j /\ c j <= h j /\ l j < h j) ->
    times a (n - 1) ob ob' "high" h -> times a (n - 1) ob ob' "low" l -> times a (n - 1) ob ob' "close" c -> times u (n - 1) ob ob' "volume" v -> conv cADL u "adl".
  Proof.
    start. intros D D' KN N [H H'] [L L'] [K K'] [V V']. assert (N' : forall j, (j < n)%nat -> l' j <= c' j /\ c' j <= h' j /\ l' j < h' j) by (intros j J; apply within_unit, N, J).
    destruct (adl_shown_line o raw b ob W k c v h l A) as [E _]; rewrite ?D; auto. { intros j J. destruct (N j J) as (X & Y & _). auto. }
    destruct (adl_shown_line o raw' b' ob' W' k c' v' h' l' B) as [E' _]; rewrite ?D'; auto. { intros j J. destruct (N' j J) as (X & Y & _). auto. }
    rewrite E by (intros j J; apply N; rewrite <- D; exact J). rewrite E' by (intros j J; apply N'; rewrite <- D'; exact J).
    exists (Fin (total (fun j => adl_move (h j) (l j) (c j) (v j)) (S k))). split; [reflexivity|]. cbn [published nmul]. do 2 f_equal. apply total_scale. exact move_unit.
  Qed.

  (** ** money per share *)
  Lemma ratio_convert x y : ratio (a * x) (u * y) = nmul (Fin (a / u)) (ratio x y).
  Proof.
    assert (R0 : qltb 0 (a / u) = true) by (apply qltb_iff; pose proof (inv_pos u U0); unfold Qcdiv; qnra).
    assert (R1 : qeqb (a / u) 0 = false) by (apply qeqb_false; intro E; rewrite E in R0; discriminate).
    unfold ratio, ndiv. rewrite (eq_scale0 u U0). destruct (qeqb y 0) eqn:E.
    - rewrite (eq_scale0 a A0), (lt_scale0' a A0). destruct (qeqb x 0); [reflexivity|]. destruct (qltb 0 x); cbn [nmul]; unfold infmul; rewrite R1, R0; reflexivity.
    - cbn [nmul]. f_equal. field. split; [apply qeqb_false, E|exact NU].
  Qed.
  Lemma unit_mfi : both cMFI -> priced "high" h -> priced "low" l -> traded -> conv cMFI (a / u) "mfi".
  Proof.
    start. intros [H H'] [L L'] [V V']. rewrite (market_facilitation_shown o raw b ob W k h l v A H L V), (market_facilitation_shown o raw' b' ob' W' k h' l' v' B H' L' V').
    exists (ratio (h k - l k) (v k)). split; [reflexivity|]. cbn [published]. f_equal. rewrite <- ratio_convert. f_equal. unfold h', l'. ring.
  Qed.
  Lemma ease_unit j : l j <> h j -> v j <> 0 -> ease h' l' v' j = (a * a / u) * ease h l v j.
  Proof.
    intros N M. unfold ease, box, middle, h', l', v'. assert (Q : h j - l j <> 0) by (intro E; apply N; replace (l j) with (h j - (h j - l j)) by ring; rewrite E; ring).
    replace (a * h j - a * l j) with (a * (h j - l j)) by ring. field. repeat split; auto; try exact NA; try exact NU; discriminate.
  Qed.
  Lemma mean_ext f g n j : (forall i, (i <= j)%nat -> g i = f i) -> (n <= S j)%nat -> mean_last g n j = mean_last f n j.
  Proof. intros E N. unfold mean_last, sum_last. f_equal. apply total_ext. intros i I. apply E. lia. Qed.
  Lemma unit_emv p : both (cEMV p) -> (forall j, (j <= k)%nat -> l j <> h j /\ v j <> 0) -> priced "high" h -> priced "low" l -> traded ->
    conv (cEMV p) (a * a / u) "emv" /\ conv (cEMV p) (a * a / u) "emv_ma".
  Proof.
    start. intros N [H H'] [L L'] [V V'].
    assert (N' : forall j, (j <= k)%nat -> l' j <> h' j /\ v' j <> 0).
    { intros j J. destruct (N j J) as [X Y]. split; [|unfold v'; intro E; apply Qcmult_integral in E as [E|E]; [exact (NU E)|exact (Y E)]].
      unfold l', h'. intro E. apply X. rewrite <- (Qcmult_1_l (l j)), <- (Qcmult_1_l (h j)), <- (Qcmult_inv_l a NA), <- !Qcmult_assoc, E. reflexivity. }
    destruct (ease_of_movement_shown o raw b ob W p k h l v A N H L V) as [-> ->]. destruct (ease_of_movement_shown o raw' b' ob' W' p k h' l' v' B N' H' L' V') as [-> ->].
    split; [r; apply ease_unit; apply N; lia|]. destruct (Nat.lt_ge_cases k (nat_arg p)) as [G|G].
    - unfold from. rewrite (proj2 (Nat.ltb_lt _ _) G). apply conv_nan. reflexivity.
    - r. rewrite (mean_ext (fun j => (a * a / u) * ease h l v j) (ease h' l' v') (nat_arg p) k); [|intros i I; apply ease_unit; apply N; exact I|lia].
      apply mean_scale. intro. reflexivity.
  Qed.
End Units.
Lemma unit_fib o raw raw' b b' ob ob' a k c name x : wf_raw raw -> wf_raw raw' -> 0 < a -> twice cFIB o raw raw' b b' ob ob' -> days_given ob' = days_given ob ->
  times a (days_given ob - 1) ob ob' "close" c -> In (name, x) levels -> (k < days_given ob)%nat -> converted cFIB a (shown name ob k) (shown name ob' k).
Proof.
  intros W W' A0 [A B] DD (K & K') I D.
  assert (Z : forall j, given "close" ob j = NaN \/ isfin (given "close" ob j) = true) by
    (intro j; destruct (Nat.lt_ge_cases j (days_given ob)); [right; rewrite K by lia; reflexivity|left; apply given_out; assumption]).
  assert (Z' : forall j, given "close" ob' j = NaN \/ isfin (given "close" ob' j) = true) by
    (intro j; destruct (Nat.lt_ge_cases j (days_given ob)); [right; rewrite K' by lia; reflexivity|left; apply given_out; rewrite DD; assumption]).
  destruct (fib_shown_values o raw b ob W A Z) as [(M & q & HI & LO & U)|[N _]]; [|exfalso; exact (known_some _ _ _ _ _ K (conj (Nat.le_0_l _) (le_n _)) N)].
  destruct (fib_shown_values o raw' b' ob' W' B Z') as [(M' & q' & HI' & LO' & U')|[N _]]; rewrite DD in *; [|exfalso; exact (known_some _ _ _ _ _ K' (conj (Nat.le_0_l _) (le_n _)) N)].
  rewrite (U' name x k I D), (U name x k I D). apply conv_r4'. { reflexivity. }
  rewrite (highest_times a _ _ _ c _ _ _ _ A0 K K' (le_n _) HI HI'), (lowest_times a _ _ _ c _ _ _ _ A0 K K' (le_n _) LO LO'). ring.
Qed.

Section Tables.
  Variables (o : oracle) (raw raw' : rawframe) (b b' : bool) (ob ob' : obj) (a u : Qc) (k : nat) (op h l c v : nat -> Qc) (ct : ctor).
  Hypothesis W : wf_raw raw. Hypothesis W' : wf_raw raw'. Hypothesis A0 : 0 < a. Hypothesis U0 : 0 < u.
  Lemma times_weaken s n name f : times s (n - 1) ob ob' name f -> (k < n)%nat -> times s k ob ob' name f.
  Proof. intros [X Y] K. split; intros j J; [apply X|apply Y]; lia. Qed.
  Ltac here H := try (specialize (H ltac:(cbn; tauto)); pose proof (times_weaken _ _ _ _ H ltac:(assumption))).
  Lemma ratios_same name : twice ct o raw raw' b b' ob ob' -> exchanged ct a u ob ob' op h l c v -> (k < days_given ob)%nat -> workable ct (days_given ob) k h l c v ->
    In name (ratios ct) -> shown name ob' k = shown name ob k.
  Proof.
    intros T (D & EO & EH & EL & EC & EV) K R I. pose proof T as [A B].
    destruct ct; cbn [ratios] in I; try contradiction; cbn [required asked] in EO, EH, EL, EC, EV; here EO; here EH; here EL; here EC; here EV; cbn [workable] in R.
    - destruct I as [<-|[]]. apply (unit_cmf o raw raw' b b' ob ob' a u k h l c v W W' A0 U0 period T); auto. intros j J. apply R. lia.
    - destruct I as [<-|[]]. eapply scaled_cmo with (o := o) (o' := o) (raw := raw) (raw' := raw') (b := b) (b' := b') (s := a); eauto.
    - destruct I as [<-|[]]. eapply scaled_cci with (o := o) (o' := o) (raw := raw) (raw' := raw') (b := b) (b' := b') (s := a); eauto.
    - eapply scaled_dmi with (o := o) (o' := o) (raw := raw) (raw' := raw') (b := b) (b' := b') (s := a) (h := h) (l := l) (c := c); eauto; intros j J; apply R; lia.
    - destruct I as [<-|[]]. eapply scaled_imi with (o := o) (o' := o) (raw := raw) (raw' := raw') (b := b) (b' := b') (s := a); eauto.
    - destruct I as [<-|[]]. eapply scaled_mi with (o := o) (o' := o) (raw := raw) (raw' := raw') (b := b) (b' := b') (s := a); eauto; intros j J; apply R; lia.
    - destruct I as [<-|[]]. eapply scaled_mom with (o := o) (o' := o) (raw := raw) (raw' := raw') (b := b) (b' := b') (s := a); eauto.
    - destruct I as [<-|[]]. eapply unit_nvi with (o := o) (raw := raw) (raw' := raw') (b := b) (b' := b') (a := a) (u := u); eauto; intros j J; apply R; lia.
    - destruct I as [<-|[]]. eapply scaled_prf with (o := o) (o' := o) (raw := raw) (raw' := raw') (b := b) (b' := b') (s := a); eauto.
    - destruct I as [<-|[]]. eapply unit_pvi with (o := o) (raw := raw) (raw' := raw') (b := b) (b' := b') (a := a) (u := u); eauto; intros j J; apply R; lia.
    - destruct I as [<-|[]]. eapply scaled_posc with (o := o) (o' := o) (raw := raw) (raw' := raw') (b := b) (b' := b') (s := a); eauto.
    - destruct I as [<-|[]]. eapply scaled_prc with (o := o) (o' := o) (raw := raw) (raw' := raw') (b := b) (b' := b') (s := a); eauto.
    - destruct I as [<-|[]]. eapply scaled_rmi with (o := o) (o' := o) (raw := raw) (raw' := raw') (b := b) (b' := b') (s := a); eauto.
    - destruct I as [<-|[]]. eapply scaled_smi with (o := o) (o' := o) (raw := raw) (raw' := raw') (b := b) (b' := b') (s := a); eauto.
    - match type of T with twice (cSO _ _ _ ?z) _ _ _ _ _ _ _ => destruct z as [| | |t| |] end; try contradiction. destruct (String.eqb t "simple") eqn:E.
      + apply String.eqb_eq in E. subst t. destruct I as [<-|[<-|[]]]; [eapply scaled_so with (o := o) (o' := o) (raw := raw) (raw' := raw') (b := b) (b' := b') (s := a); eauto|eapply scaled_stochastic_d with (o := o) (o' := o) (raw := raw) (raw' := raw') (b := b) (b' := b') (s := a); eauto].
      + destruct I as [<-|[]]. eapply scaled_so with (o := o) (o' := o) (raw := raw) (raw' := raw') (b := b) (b' := b') (s := a); eauto.
    - destruct I as [<-|[]]. eapply unit_uo with (o := o) (raw := raw) (raw' := raw') (b := b) (b' := b') (a := a); eauto.
    - destruct I as [<-|[]]. eapply scaled_vhf with (o := o) (o' := o) (raw := raw) (raw' := raw') (b := b) (b' := b') (s := a); eauto.
    - destruct I as [<-|[]]. eapply scaled_vch with (o := o) (o' := o) (raw := raw) (raw' := raw') (b := b) (b' := b') (s := a); eauto.
    - destruct I as [<-|[]]. eapply unit_vrc with (o := o) (raw := raw) (raw' := raw') (b := b) (b' := b') (u := u); eauto.
    - destruct I as [<-|[]]. eapply scaled_wr with (o := o) (o' := o) (raw := raw) (raw' := raw') (b := b) (b' := b') (s := a); eauto.
  Qed.
  Lemma dimensions_follow name d : twice ct o raw raw' b b' ob ob' -> exchanged ct a u ob ob' op h l c v -> (k < days_given ob)%nat -> workable ct (days_given ob) k h l c v ->
    In (name, d) (dimensions ct) -> converted ct (rate a u d) (shown name ob k) (shown name ob' k).
  Proof.
    intros T (D & EO & EH & EL & EC & EV) K R I. pose proof T as [A B].
    destruct ct; cbn [dimensions] in I; try contradiction; cbn [required asked] in EO, EH, EL, EC, EV; here EO; here EH; here EL; here EC; here EV; cbn [workable] in R.
    all: try (destruct I as [I|[]]; injection I as <- <-; cbn [rate]).
    - eapply unit_adl with (o := o) (raw := raw) (raw' := raw') (b := b) (b' := b') (a := a) (u := u) (n := days_given ob); eauto.
    - eapply unit_atr with (o := o) (raw := raw) (raw' := raw') (b := b) (b' := b') ; eauto.
    - eapply unit_bb with (o := o) (raw := raw) (raw' := raw') (b := b) (b' := b') ; eauto.
    - pose proof (unit_dpo o raw raw' b b' ob ob' a (k + S (nat_arg period / 2)) c W W' period T) as Q. replace (k + S (nat_arg period / 2) - S (nat_arg period / 2))%nat with k in Q by lia.
      apply Q; [lia|]. destruct EC as [X Y]. split; intros j J; [apply X|apply Y]; lia.
    - eapply unit_dema with (o := o) (raw := raw) (raw' := raw') (b := b) (b' := b') ; eauto.
    - assert (Q : converted (cEMV period) (a * a / u) (shown "emv" ob k) (shown "emv" ob' k) /\ converted (cEMV period) (a * a / u) (shown "emv_ma" ob k) (shown "emv_ma" ob' k)) by (eapply unit_emv with (o := o) (raw := raw) (raw' := raw') (b := b) (b' := b') (a := a) (u := u); eauto; intros j J; apply R; lia).
      destruct Q as [Q1 Q2]. destruct I as [I|[I|[]]]; injection I as <- <-; assumption.
    - assert (Q : converted (cENV period shift) a (shown "upper_band" ob k) (shown "upper_band" ob' k) /\ converted (cENV period shift) a (shown "lower_band" ob k) (shown "lower_band" ob' k)) by (eapply unit_env with (o := o) (raw := raw) (raw' := raw') (b := b) (b' := b') ; eauto).
      destruct Q as [Q1 Q2]. destruct I as [I|[I|[]]]; injection I as <- <-; assumption.
    - assert (Q : exists x, In (name, x) levels /\ d = Money) by (repeat (destruct I as [I|I]; [injection I as <- <-; eexists; split; [cbn; eauto 8|reflexivity]|]); contradiction).
      destruct Q as (x & Q & ->). exact (unit_fib o raw raw' b b' ob ob' a k c name x W W' A0 T D EC Q K).
    - assert (Q : In name ["tenkan_sen"; "kijun_sen"; "senkou_a"; "senkou_b"] /\ d = Money) by (repeat (destruct I as [I|I]; [injection I as <- <-; split; [cbn; tauto|reflexivity]|]); contradiction).
      destruct Q as (Q & ->). eapply unit_ich with (o := o) (raw := raw) (raw' := raw') (b := b) (b' := b') ; eauto.
    - eapply unit_ko with (o := o) (raw := raw) (raw' := raw') (b := b) (b' := b') (a := a) (u := u); eauto. intros j J. apply R. lia.
    - eapply unit_lri with (o := o) (raw := raw) (raw' := raw') (b := b) (b' := b') ; eauto.
    - eapply unit_lrs with (o := o) (raw := raw) (raw' := raw') (b := b) (b' := b') ; eauto.
    - eapply unit_mfi with (o := o) (raw := raw) (raw' := raw') (b := b) (b' := b') (a := a) (u := u); eauto.
    - eapply unit_mp with (o := o) (raw := raw) (raw' := raw') (b := b) (b' := b') ; eauto.
    - destruct ma_type as [| | |t| |]; try contradiction. destruct (existsb (String.eqb t) _) eqn:X; [|contradiction]. apply existsb_exists in X. destruct X as (t' & X & Q). apply String.eqb_eq in Q. subst t'.
      destruct I as [I|[]]; injection I as <- <-. repeat (destruct X as [<-|X]); [..|contradiction]; [eapply unit_ma_simple with (o := o) (raw := raw) (raw' := raw') (b := b) (b' := b') ; eauto|eapply unit_ma_exponential with (o := o) (raw := raw) (raw' := raw') (b := b) (b' := b') ; eauto|eapply unit_ma_triangular with (o := o) (raw := raw) (raw' := raw') (b := b) (b' := b') ; eauto|eapply unit_ma_variable with (o := o) (raw := raw) (raw' := raw') (b := b) (b' := b') ; eauto].
    - eapply unit_obv with (o := o) (raw := raw) (raw' := raw') (b := b) (b' := b') (a := a) (u := u); eauto.
    - eapply unit_sar with (o := o) (raw := raw) (raw' := raw') (b := b) (b' := b') (a := a) (m := (days_given ob - 1)%nat); eauto; lia.
    - eapply unit_pvt with (o := o) (raw := raw) (raw' := raw') (b := b) (b' := b') (a := a) (u := u); eauto. intros j J. apply R. lia.
    - assert (Q : converted (cPCH period) a (shown "highest_high" ob k) (shown "highest_high" ob' k) /\ converted (cPCH period) a (shown "lowest_low" ob k) (shown "lowest_low" ob' k)) by (eapply unit_pch with (o := o) (raw := raw) (raw' := raw') (b := b) (b' := b') ; eauto).
      destruct Q as [Q1 Q2]. destruct I as [I|[I|[]]]; injection I as <- <-; assumption.
    - assert (Q : converted (cPB period) a (shown "upper_band" ob k) (shown "upper_band" ob' k) /\ converted (cPB period) a (shown "lower_band" ob k) (shown "lower_band" ob' k)) by (eapply unit_pb with (o := o) (raw := raw) (raw' := raw') (b := b) (b' := b') ; eauto).
      destruct Q as [Q1 Q2]. destruct I as [I|[I|[]]]; injection I as <- <-; assumption.
    - eapply unit_qs with (o := o) (raw := raw) (raw' := raw') (b := b) (b' := b') ; eauto.
    - eapply unit_tema with (o := o) (raw := raw) (raw' := raw') (b := b) (b' := b') ; eauto.
    - eapply unit_tp with (o := o) (raw := raw) (raw' := raw') (b := b) (b' := b') ; eauto.
    - eapply unit_vosc with (o := o) (raw := raw) (raw' := raw') (b := b) (b' := b') ; eauto.
    - eapply unit_wc with (o := o) (raw := raw) (raw' := raw') (b := b) (b' := b') ; eauto.
    - eapply unit_ws with (o := o) (raw := raw) (raw' := raw') (b := b) (b' := b') ; eauto.
    - eapply unit_wad with (o := o) (raw := raw) (raw' := raw') (b := b) (b' := b') ; eauto.
  Qed.
End Tables.
