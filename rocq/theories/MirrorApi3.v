(** * MirrorApi3: mirrored prices, continued: averages, lines and channels. *)
From Coq Require Import ZArith QArith Qcanon Bool List String PeanoNat Lia Sorted Permutation.
From Verif Require Import Num NumFacts RoundFacts Pandas Sim Frame FrameSpec FrameProofs Ind Signal Api IndSpec SeriesFacts Lengths Causal IndFacts Shape ApiSpec ApiCheck ApiProofs ApiLemmas RangeSpec Cells RangeFacts RangeMore Publish RangeApi ValueSpec ValueFacts ValueMore Recur ValueApi CumulApi.
From Verif Require Import FormulaSpec Starts Formula Formula2 Formula3 Formula4 Line Formula5 Formula6 FormulaApi FlatFacts IdentFacts MirrorSpec MirrorFacts MirrorApi MirrorApi2.
Import ListNotations.
Open Scope list_scope. Open Scope string_scope. Open Scope Qc_scope.

(** ** the largest and the smallest of mirrored rows *)
Lemma highest_faces x y m k f a b q : known x k f -> known y k (fun j => m - f j) -> (b <= k)%nat -> lowest x a b q -> highest y a b (m - q).
Proof.
  intros X Y B [(j & J & E) U]. split.
  - exists j. split; [exact J|]. rewrite Y by lia. rewrite X in E by lia. injection E as <-. reflexivity.
  - intros i r I R. rewrite Y in R by lia. injection R as <-. specialize (U i (f i) I (X i ltac:(lia))). qlra.
Qed.
Lemma lowest_faces x y m k f a b q : known x k f -> known y k (fun j => m - f j) -> (b <= k)%nat -> highest x a b q -> lowest y a b (m - q).
Proof.
  intros X Y B [(j & J & E) U]. split.
  - exists j. split; [exact J|]. rewrite Y by lia. rewrite X in E by lia. injection E as <-. reflexivity.
  - intros i r I R. rewrite Y in R by lia. injection R as <-. specialize (U i (f i) I (X i ltac:(lia))). qlra.
Qed.
Lemma highest_once x a b q r : highest x a b q -> highest x a b r -> q = r.
Proof. intros [(i & I & E) U] [(j & J & G) V]. apply Qcle_antisym; [exact (V i q I E)|exact (U j r J G)]. Qed.
Lemma lowest_once x a b q r : lowest x a b q -> lowest x a b r -> q = r.
Proof. intros [(i & I & E) U] [(j & J & G) V]. apply Qcle_antisym; [exact (U j r J G)|exact (V i q I E)]. Qed.
Lemma known_some x k f a b : known x k f -> (a <= b <= k)%nat -> ~ none_finite x a b.
Proof. intros X I N. specialize (N a ltac:(lia)). rewrite X in N by lia. discriminate. Qed.
Lemma midpoint_faces x y x' y' m k f g a b v v' : known x k f -> known y k g -> known x' k (fun j => m - g j) -> known y' k (fun j => m - f j) ->
  (a <= b <= k)%nat -> midpoint x y a b v -> midpoint x' y' a b v' -> exists q, v = Fin q /\ v' = Fin (m - q).
Proof.
  intros X Y X' Y' I [(M & n & A & B & ->)|[[N|N] _]] P; [|exfalso; exact (known_some _ _ _ _ _ X I N)|exfalso; exact (known_some _ _ _ _ _ Y I N)].
  destruct P as [(M' & n' & A' & B' & ->)|[[N|N] _]]; [|exfalso; exact (known_some _ _ _ _ _ X' I N)|exfalso; exact (known_some _ _ _ _ _ Y' I N)].
  exists ((M + n) / zq 2). split; [reflexivity|]. f_equal.
  rewrite (highest_once _ _ _ _ _ A' (highest_faces y x' m k g a b n Y X' ltac:(lia) B)), (lowest_once _ _ _ _ _ B' (lowest_faces x y' m k f a b M X Y' ltac:(lia) A)).
  change (zq 2) with (1 + 1). field. discriminate.
Qed.
Lemma known_days name ob k f : known (given name ob) k f -> (k < days_given ob)%nat.
Proof.
  intro K. specialize (K k (le_n k)). unfold given, cell_at in K. destruct (Nat.lt_ge_cases k (days_given ob)) as [G|G]; [exact G|].
  rewrite nth_overflow in K; [discriminate|]. unfold col. destruct position; [rewrite map_length; exact G|cbn; lia].
Qed.
Lemma given_out name ob k : (days_given ob <= k)%nat -> given name ob k = NaN.
Proof.
  intro G. unfold given, cell_at. rewrite nth_overflow; [reflexivity|]. unfold col. destruct position; [rewrite map_length; exact G|cbn; lia].
Qed.
Lemma trunc_opp q : qtrunc (- q) = - qtrunc q.
Proof.
  unfold qtrunc. apply Qc_is_canon. unfold Qcopp. cbn [this Q2Qc]. rewrite !Qred_correct.
  assert (E : Qred (- this q) = (- this q)%Q). { rewrite Qred_opp, (canon q). reflexivity. }
  rewrite E. cbn [Qnum Qden Qopp]. rewrite Z.quot_opp_l by discriminate. rewrite (Qred_correct (- Qred (inject_Z _))), (Qred_correct (inject_Z _)). reflexivity.
Qed.
Lemma momentum9_mir m f g : mir m f g -> neg_f (momentum9 f) (momentum9 g).
Proof.
  intros U j. unfold momentum9. cbv zeta. pose proof (change_mir m 1 f g U) as D.
  rewrite (sum_same _ _ 9 (gain_neg _ _ D) j), (sum_same _ _ 9 (loss_neg _ _ D) j), <- r4_opp. f_equal.
  rewrite (Qcplus_comm (sum_last _ 9 j)). unfold Qcdiv. ring.
Qed.
Lemma variable_mir m n f g : mir m f g -> mir m (variable_line n f) (variable_line n g).
Proof.
  intros U j. unfold variable_line. induction (j - 21)%nat as [|i IH]; cbn [weighted]; [apply U|]. rewrite IH, U, (momentum9_mir m f g U).
  replace (- momentum9 f (21 + S i)%nat / zq 100) with (- (momentum9 f (21 + S i)%nat / zq 100)) by (unfold Qcdiv; ring). rewrite abs_opp.
  generalize (span n * abs (momentum9 f (21 + S i)%nat / zq 100)), (f (21 + S i)%nat), (weighted (fun j0 => span n * abs (momentum9 f j0 / zq 100)) f i). intros. ring.
Qed.

Section Runs.
  Variables (o : oracle) (raw raw' : rawframe) (b b' : bool) (ob ob' : obj) (m : Qc) (k : nat).
  Hypothesis W : wf_raw raw. Hypothesis W' : wf_raw raw'.
  Notation both c := (twice c o raw raw' b b' ob ob').
  Notation turns n f := (faces m k ob ob' n n f%function).
  Notation swaps n n' f := (faces m k ob ob' n n' f%function).
  Notation opposed n := (shown n ob' k = nneg (shown n ob k)).
  Notation rest n := (shown n ob' k = nsub (F 100) (shown n ob k)).
  Notation agree n := (shown n ob' k = shown n ob k).
  Notation across n := (shown n ob' k = nsub (Fin m) (shown n ob k)).
  Ltac ua := let j := fresh in intro j; reflexivity.
  Ltac bt L := erewrite (L o raw b ob), (L o raw' b' ob') by eauto.
  Ltac start := let A := fresh "A" in let B := fresh "B" in intros [A B].

  Variables (op h l c v : nat -> Qc).
  Notation op' := (fun j => m - op j). Notation h' := (fun j => m - l j). Notation l' := (fun j => m - h j). Notation c' := (fun j => m - c j).
  Let MO : mir m op op' := fun j => eq_refl. Let MH : mir m l h' := fun j => eq_refl. Let ML : mir m h l' := fun j => eq_refl. Let MC : mir m c c' := fun j => eq_refl.
  Notation days := (swaps "high" "low" h /\ swaps "low" "high" l).
  Notation bars := (swaps "high" "low" h /\ swaps "low" "high" l /\ turns "close" c).
  Notation traded := (known (given "volume" ob) k v /\ known (given "volume" ob') k v).
  Ltac one L := start; let K := fresh "K" in let K' := fresh "K'" in intros [K K']; rewrite (L K), (L K').

  (** ** differences of averages: any m *)
  Lemma mir_lrs p : both (cLRS p) -> (2 <= nat_arg p)%nat -> turns "close" c -> opposed "lrs".
  Proof. start. intros P [K K']. rewrite (regression_slope_shown o raw b ob W p k c A P K), (regression_slope_shown o raw' b' ob' W' p k c' B P K'). cbv zeta. rewrite opposed_from, (slope_mir m c c' (nat_arg p) MC). reflexivity. Qed.
  Lemma mir_dpo p : both (cDPO p) -> (S (nat_arg p / 2) <= k)%nat -> turns "close" c ->
    shown "dpo" ob' (k - S (nat_arg p / 2)) = nneg (shown "dpo" ob (k - S (nat_arg p / 2))).
  Proof.
    start. intros D [K K']. assert (P : (1 <= nat_arg p)%nat) by (look fr V VV; lia).
    rewrite (detrended_price_shown o raw b ob W p k c A K D), (detrended_price_shown o raw' b' ob' W' p k c' B K' D). rewrite opposed_from, (mean_mir m c c' (nat_arg p) P MC k).
    cbv beta. replace (m - c (k - S (nat_arg p / 2))%nat - (m - mean_last c (nat_arg p) k)) with (- (c (k - S (nat_arg p / 2))%nat - mean_last c (nat_arg p) k)) by ring. reflexivity.
  Qed.

  (** ** the rest needs m to be a multiple of 0.0002 *)
  Hypothesis E : even_ticks m.
  Lemma mir_macd : both cMACD -> turns "close" c -> opposed "macd" /\ opposed "signal_line".
  Proof.
    start. intros [K K']. destruct (macd_shown o raw b ob W k c A K) as [-> ->]. destruct (macd_shown o raw' b' ob' W' k c' B K') as [-> ->].
    assert (N : neg_f (fun j => r4 (ema_from 0 12 c j) - r4 (ema_from 0 26 c j)) (fun j => r4 (ema_from 0 12 c' j) - r4 (ema_from 0 26 c' j)))
      by (intro j; rewrite !(ema_mir m 0 _ c c' MC), !r4_even_sub by exact E; ring).
    rewrite !opposed_from, (ema_neg 25 9 _ _ N k). pose proof (N k) as Q. cbv beta in Q. rewrite Q. auto.
  Qed.
  Lemma mir_simple p : both (cMA p (VStr "simple")) -> turns "close" c -> across "ma-simple".
  Proof.
    start. intros [K K']. assert (P : (1 <= nat_arg p)%nat) by (look fr V VV; lia).
    rewrite (simple_moving_average_shown o raw b ob W p k c A K), (simple_moving_average_shown o raw' b' ob' W' p k c' B K'). cbv zeta. rewrite (across_from m _ _ _ E), (mean_mir m c c' _ P MC). reflexivity.
  Qed.
  Lemma mir_exponential p : both (cMA p (VStr "exponential")) -> turns "close" c -> across "ma-exponential".
  Proof.
    start. intros [K K']. rewrite (exponential_moving_average_shown o raw b ob W p k c A K), (exponential_moving_average_shown o raw' b' ob' W' p k c' B K'). cbv zeta.
    rewrite (across_from m _ _ _ E), (ema_mir m 0 _ c c' MC). reflexivity.
  Qed.
  Lemma mir_triangular p : both (cMA p (VStr "triangular")) -> turns "close" c -> across "ma-triangular".
  Proof.
    start. intros [K K']. assert (P : (1 <= nat_arg p)%nat) by (look fr V VV; lia).
    rewrite (triangular_moving_average_shown o raw b ob W p k c A K), (triangular_moving_average_shown o raw' b' ob' W' p k c' B K'). cbv zeta.
    rewrite (across_from m _ _ _ E), (mean_mir m _ _ _ P (mean_mir m c c' _ P MC)). reflexivity.
  Qed.
  Lemma mir_time_series p : both (cMA p (VStr "time_series")) -> (2 <= nat_arg p)%nat -> turns "close" c -> across "ma-time_series".
  Proof.
    start. intros P [K K']. rewrite (time_series_moving_average_shown o raw b ob W p k c A P K), (time_series_moving_average_shown o raw' b' ob' W' p k c' B P K'). cbv zeta.
    rewrite from_sub, fin_sub, (forecast_mir m c c' (nat_arg p) E (Nat.le_trans 1 2 _ (le_S _ _ (le_n 1)) P) MC). reflexivity.
  Qed.
  Lemma mir_variable p : both (cMA p (VStr "variable")) -> (forall j, (22 <= j <= k)%nat -> exists i, (j - 9 < i <= j)%nat /\ c i <> c (i - 1)%nat) ->
    turns "close" c -> across "ma-variable".
  Proof.
    start. intros N [K K']. assert (N' : forall j, (22 <= j <= k)%nat -> exists i, (j - 9 < i <= j)%nat /\ c' i <> c' (i - 1)%nat)
      by (intros j J; destruct (N j J) as (i & I & X); exists i; split; [exact I|]; cbv beta; intro Q; apply X, Qcle_antisym; qlra).
    rewrite (variable_moving_average_shown o raw b ob W p k c A N K), (variable_moving_average_shown o raw' b' ob' W' p k c' B N' K').
    cbv zeta. rewrite (across_from m _ _ _ E), (variable_mir m _ c c' MC). reflexivity.
  Qed.
  Lemma mir_dema p : both (cDEMA p) -> turns "close" c -> across "dema".
  Proof.
    start. intros [K K']. rewrite (double_exponential_shown o raw b ob W p k c A K), (double_exponential_shown o raw' b' ob' W' p k c' B K'). cbv zeta. set (n := nat_arg p).
    rewrite (across_from m _ _ _ E). pose proof (ema_mir m 0 n c c' MC) as X. pose proof (ema_mir m (n - 1) n _ _ X) as Y. rewrite X, Y. do 3 f_equal. change (zq 2) with (1 + 1). ring.
  Qed.
  Lemma mir_tema p : both (cTEMA p) -> turns "close" c -> across "tema".
  Proof.
    start. intros [K K']. rewrite (triple_exponential_shown o raw b ob W p k c A K), (triple_exponential_shown o raw' b' ob' W' p k c' B K'). cbv zeta. set (n := nat_arg p).
    rewrite (across_from m _ _ _ E). pose proof (ema_mir m 0 n c c' MC) as X. pose proof (ema_mir m (n - 1) n _ _ X) as Y. pose proof (ema_mir m (2 * (n - 1)) n _ _ Y) as Z.
    rewrite X, Y, Z. do 3 f_equal. change (zq 3) with (1 + 1 + 1). ring.
  Qed.
  Lemma mir_ws p : both (cWS p) -> turns "close" c -> across "ws".
  Proof.
    start. intros [K K']. assert (P : (1 <= nat_arg p)%nat) by (look fr V VV; lia).
    rewrite (wilders_smoothing_shown o raw b ob W p k c A K), (wilders_smoothing_shown o raw' b' ob' W' p k c' B K'). cbv zeta.
    rewrite (across_from m _ _ _ E), (mean_mir m c c' _ P MC), (run_mir m _ _ _ c c' P MC). reflexivity.
  Qed.
  Lemma mir_lri p : both (cLRI p) -> turns "close" c -> across "lri".
  Proof.
    start. intros [K K']. assert (P : (1 <= nat_arg p)%nat) by (look fr V VV; lia).
    rewrite (regression_indicator_shown o raw b ob W p k c A K), (regression_indicator_shown o raw' b' ob' W' p k c' B K'). cbv zeta.
    rewrite (across_from m _ _ _ E), (end_mir m c c' _ P MC). reflexivity.
  Qed.
  Lemma mir_tsf p : both (cTSF p) -> turns "close" c -> across "tsf".
  Proof.
    start. intros [K K']. assert (P : (1 <= nat_arg p)%nat) by (look fr V VV; lia).
    rewrite (time_series_forecast_shown o raw b ob W p k c A K), (time_series_forecast_shown o raw' b' ob' W' p k c' B K'). cbv zeta.
    rewrite from_sub, fin_sub, (forecast_mir m c c' _ E P MC). reflexivity.
  Qed.
  Lemma mir_pb p : both (cPB p) -> days ->
    shown "upper_band" ob' k = nsub (Fin m) (shown "lower_band" ob k) /\ shown "lower_band" ob' k = nsub (Fin m) (shown "upper_band" ob k).
  Proof.
    start. intros ([H H'] & [L L']). destruct (projection_bands_shown o raw b ob W p k h l A H L) as [-> ->]. destruct (projection_bands_shown o raw' b' ob' W' p k h' l' B L' H') as [-> ->].
    rewrite !(across_from m _ _ _ E), (highest_mir m l h' _ MH), (lowest_mir m h l' _ ML). auto.
  Qed.
  Lemma proj_place n j : let t := r4 (highest_projection h n j) in let u := r4 (lowest_projection l n j) in
    r4 (highest_projection h' n j) = m - u /\ r4 (lowest_projection l' n j) = m - t.
  Proof. cbv zeta. rewrite (highest_mir m l h' n MH), (lowest_mir m h l' n ML), !r4_even_sub by exact E. auto. Qed.
  Lemma mir_posc p : both (cPROJ p) -> bars -> rest "posc".
  Proof.
    start. intros ([H H'] & [L L'] & [K K']). rewrite (projection_oscillator_shown o raw b ob W p k h l c A H L K), (projection_oscillator_shown o raw' b' ob' W' p k h' l' c' B L' H' K').
    cbv zeta. destruct (proj_place (nat_arg p) k) as [-> ->]. rewrite rest_from. unfold from. destruct (k <? _)%nat; [reflexivity|]. apply (f_equal rn).
    generalize (r4 (highest_projection h (nat_arg p) k)), (r4 (lowest_projection l (nat_arg p) k)). intros t u. cbv beta.
    rewrite <- (ratio_rest (c k - u) (t - c k) (t - u)) by ring. f_equal; ring.
  Qed.
  Lemma mir_trigger p : both (cPROJ p) ->
    (forall j, (nat_arg p - 1 <= j <= k)%nat -> r4 (highest_projection h (nat_arg p) j) <> r4 (lowest_projection l (nat_arg p) j)) -> bars -> rest "trigger_line".
  Proof.
    start. intros N ([H H'] & [L L'] & [K K']). set (n := nat_arg p) in *.
    assert (N' : forall j, (n - 1 <= j <= k)%nat -> r4 (highest_projection h' n j) <> r4 (lowest_projection l' n j)).
    { intros j J. destruct (proj_place n j) as [-> ->]. intro Q. apply (N j J), Qcle_antisym; qlra. }
    rewrite (projection_trigger_shown o raw b ob W p k h l c A N H L K), (projection_trigger_shown o raw' b' ob' W' p k h' l' c' B N' L' H' K'). fold n. cbv zeta.
    change (F 100) with (Fin (zq 100)). rewrite (across_from (zq 100) _ _ _ even_100). unfold from. destruct (k <? n + 1)%nat eqn:KN; [reflexivity|]. apply Nat.ltb_ge in KN. do 2 f_equal.
    unfold ema_from. assert (G : forall i, (i <= k - (n - 1))%nat ->
      ema (span 3) (fun j => zq 100 * (c' (n - 1 + j)%nat - r4 (lowest_projection l' n (n - 1 + j))) / (r4 (highest_projection h' n (n - 1 + j)) - r4 (lowest_projection l' n (n - 1 + j)))) i =
      zq 100 - ema (span 3) (fun j => zq 100 * (c (n - 1 + j)%nat - r4 (lowest_projection l n (n - 1 + j))) / (r4 (highest_projection h n (n - 1 + j)) - r4 (lowest_projection l n (n - 1 + j)))) i); [|apply G; lia].
    assert (S : forall i, (i <= k - (n - 1))%nat -> zq 100 * (c' (n - 1 + i)%nat - r4 (lowest_projection l' n (n - 1 + i))) / (r4 (highest_projection h' n (n - 1 + i)) - r4 (lowest_projection l' n (n - 1 + i))) =
      zq 100 - zq 100 * (c (n - 1 + i)%nat - r4 (lowest_projection l n (n - 1 + i))) / (r4 (highest_projection h n (n - 1 + i)) - r4 (lowest_projection l n (n - 1 + i)))).
    { intros i I. destruct (proj_place n (n - 1 + i)) as [-> ->]. specialize (N (n - 1 + i)%nat ltac:(lia)). revert N.
      generalize (r4 (highest_projection h n (n - 1 + i))), (r4 (lowest_projection l n (n - 1 + i))). intros t u N. cbv beta.
      replace (m - u - (m - t)) with (t - u) by ring. field. intro Q. apply N. rewrite <- (Qcplus_0_r u), <- Q. ring. }
    induction i as [|i IH]; intro I; cbn [ema]; rewrite S by lia; [reflexivity|]. rewrite IH by lia. ring.
  Qed.
  Lemma mir_mp p : both (cMP p) -> days -> across "mp".
  Proof.
    start. intros ([H H'] & [L L']). rewrite (mp_shown o raw b ob W p k (h k) (l k) A) by auto. rewrite (mp_shown o raw' b' ob' W' p k (h' k) (l' k) B) by auto.
    rewrite fin_sub, <- r4_even_sub by exact E. do 2 f_equal. change (zq 2) with (1 + 1). field. discriminate.
  Qed.
  Lemma mir_tp p : both (cTP p) -> bars -> across "tp".
  Proof.
    start. intros ([H H'] & [L L'] & [K K']). rewrite (tp_shown o raw b ob W p k (h k) (l k) (c k) A) by auto. rewrite (tp_shown o raw' b' ob' W' p k (h' k) (l' k) (c' k) B) by auto.
    rewrite fin_sub, <- r4_even_sub by exact E. do 2 f_equal. change (zq 3) with (1 + 1 + 1). field. discriminate.
  Qed.
  Lemma mir_wc : both cWC -> bars -> across "wc".
  Proof.
    start. intros ([H H'] & [L L'] & [K K']). rewrite (wc_shown o raw b ob W k (h k) (l k) (c k) A) by auto. rewrite (wc_shown o raw' b' ob' W' k (h' k) (l' k) (c' k) B) by auto.
    rewrite fin_sub, <- r4_even_sub by exact E. do 2 f_equal. change (zq 4) with (1 + 1 + 1 + 1). change (zq 2) with (1 + 1). field. discriminate.
  Qed.
  Lemma mir_pch p : both (cPCH p) -> days ->
    shown "highest_high" ob' k = nsub (Fin m) (shown "lowest_low" ob k) /\ shown "lowest_low" ob' k = nsub (Fin m) (shown "highest_high" ob k).
  Proof.
    start. intros ([H H'] & [L L']). assert (P : (1 <= nat_arg p)%nat) by (look fr V VV; lia). pose proof (known_days _ _ _ _ H) as D. pose proof (known_days _ _ _ _ H') as D'.
    destruct (pch_shown_high o raw b ob W p k A D) as [(M & N & FU & HI & ->)|[[N|(j & J & G)] ->]]; [| |rewrite H in G by lia; discriminate].
    - destruct (pch_shown_low o raw b ob W p k A D) as [(M2 & _ & _ & LO & ->)|[[N2|(j & J & G)] _]]; [|lia|rewrite L in G by lia; discriminate].
      destruct (pch_shown_high o raw' b' ob' W' p k B D') as [(M3 & _ & _ & HI' & ->)|[[N2|(j & J & G)] _]]; [|lia|rewrite L' in G by lia; discriminate].
      destruct (pch_shown_low o raw' b' ob' W' p k B D') as [(M4 & _ & _ & LO' & ->)|[[N2|(j & J & G)] _]]; [|lia|rewrite H' in G by lia; discriminate].
      rewrite (highest_once _ _ _ _ _ HI' (highest_faces _ _ m k l _ _ _ L L' (Nat.le_sub_l k 1) LO)), (lowest_once _ _ _ _ _ LO' (lowest_faces _ _ m k h _ _ _ H H' (Nat.le_sub_l k 1) HI)).
      rewrite !fin_sub, !r4_even_sub by exact E. auto.
    - destruct (pch_shown_low o raw b ob W p k A D) as [(M2 & N2 & _)|[_ ->]]; [lia|].
      destruct (pch_shown_high o raw' b' ob' W' p k B D') as [(M2 & N2 & _)|[_ ->]]; [lia|].
      destruct (pch_shown_low o raw' b' ob' W' p k B D') as [(M2 & N2 & _)|[_ ->]]; [lia|]. auto.
  Qed.
  Lemma mir_ich name : both cICH -> In name ["tenkan_sen"; "kijun_sen"; "senkou_a"; "senkou_b"] -> days -> across name.
  Proof.
    start. intros I ([H H'] & [L L']). pose proof (known_days _ _ _ _ H) as D. pose proof (known_days _ _ _ _ H') as D'.
    assert (MID : forall a z v v', (a <= z <= k)%nat -> midpoint (given "high" ob) (given "low" ob) a z v -> midpoint (given "high" ob') (given "low" ob') a z v' -> exists q, v = Fin q /\ v' = Fin (m - q))
      by (intros a z v0 v' R; exact (midpoint_faces _ _ _ _ m k h l a z v0 v' H L L' H' R)).
    destruct I as [<-|[<-|I]].
    - destruct (ich_shown_lines o raw b ob W k A D) as [(x & X & ->) _]. destruct (ich_shown_lines o raw' b' ob' W' k B D') as [(y & Y & ->) _].
      destruct (MID _ _ _ _ (conj (Nat.le_sub_l _ _) (le_n _)) X Y) as (q & -> & ->). cbn [nround]. rewrite fin_sub. f_equal. apply (r4_even_sub m q E).
    - destruct (ich_shown_lines o raw b ob W k A D) as [_ (x & X & ->)]. destruct (ich_shown_lines o raw' b' ob' W' k B D') as [_ (y & Y & ->)].
      destruct (MID _ _ _ _ (conj (Nat.le_sub_l _ _) (le_n _)) X Y) as (q & -> & ->). cbn [nround]. rewrite fin_sub. f_equal. apply (r4_even_sub m q E).
    - destruct (ich_shown_cloud o raw b ob W k A D) as [Y1 O1]. destruct (ich_shown_cloud o raw' b' ob' W' k B D') as [Y2 O2].
      destruct (Nat.lt_ge_cases k 26) as [G|G]; [specialize (Y1 G) as [Ya Yb]; specialize (Y2 G) as [Yc Yd]; destruct I as [<-|[<-|[]]]; rewrite ?Ya, ?Yb, ?Yc, ?Yd; reflexivity|].
      specialize (O1 G) as [(u & w & U & V & SA) (x & X & SB)]. specialize (O2 G) as [(u' & w' & U' & V' & SA') (x' & X' & SB')].
      destruct (MID _ _ _ _ (conj (Nat.le_sub_l _ _) (Nat.le_sub_l _ _)) U U') as (a & -> & ->). destruct (MID _ _ _ _ (conj (Nat.le_sub_l _ _) (Nat.le_sub_l _ _)) V V') as (d & -> & ->). destruct (MID _ _ _ _ (conj (Nat.le_sub_l _ _) (Nat.le_sub_l _ _)) X X') as (e & -> & ->).
      destruct I as [<-|[<-|[]]].
      + rewrite SA, SA'. change (F 2) with (Fin (zq 2)). cbn [nadd ndiv]. replace (qeqb (zq 2) 0) with false by reflexivity. cbn [nround]. rewrite fin_sub. f_equal. fold (r4 ((a + d) / zq 2)). rewrite <- (r4_even_sub m _ E). unfold r4. f_equal.
        change (zq 2) with (1 + 1). field. discriminate.
      + rewrite SB, SB'. cbn [nround]. rewrite fin_sub. f_equal. apply (r4_even_sub m e E).
  Qed.
  Lemma mir_bb p w : both (cBB p w) -> turns "close" c ->
    across "middle_band" /\ shown "upper_band" ob' k = nsub (Fin m) (shown "lower_band" ob k) /\ shown "lower_band" ob' k = nsub (Fin m) (shown "upper_band" ob k).
  Proof.
    start. intros [K K']. assert (P : (1 <= nat_arg p)%nat) by (look fr V VV; lia).
    destruct (bb_shown_values o raw b ob W p w k A) as ([M1 M0] & [U1 U0] & [L1 L0]). destruct (bb_shown_values o raw' b' ob' W' p w k B) as ([M1' M0'] & [U1' U0'] & [L1' L0']). set (n := nat_arg p) in *.
    destruct (Nat.le_gt_cases n (S k)) as [G|G].
    - set (x := fun j => c (S k - n + j)%nat). assert (X : win (given "close" ob) n k x) by (split; [exact G|intros j J; apply K; lia]).
      assert (X' : win (given "close" ob') n k (fun j => m - x j)) by (split; [exact G|intros j J; apply K'; lia]).
      rewrite (M1 _ X), (U1 _ X), (L1 _ X), (M1' _ X'), (U1' _ X'), (L1' _ X').
      assert (ME : mean (fun j => m - x j) n = m - mean x n) by (unfold mean; rewrite (total_mir m x _ n) by (intro; reflexivity); field; apply nq_nonzero, P).
      rewrite ME, (variance_mir m x (fun j => m - x j) n P) by (intro; reflexivity). rewrite r4_even_sub by exact E.
      generalize (r4 (mean x n)), (nmul (Fin (o_sqrt o (variance x n))) (as_number w)). intros a s.
      destruct s; unfold nsub; cbn [nneg nadd nround]; repeat split; auto; f_equal; fold (r4 (a + - q)) (r4 (a + q)).
      + change (m + - r4 (a + - q)) with (m - r4 (a + - q)). rewrite <- r4_even_sub by exact E. unfold r4. f_equal. ring.
      + change (m + - r4 (a + q)) with (m - r4 (a + q)). rewrite <- r4_even_sub by exact E. unfold r4. f_equal. ring.
    - assert (N : forall f, ~ win (given "close" ob) n k f) by (intros f [Q _]; lia). assert (N' : forall f, ~ win (given "close" ob') n k f) by (intros f [Q _]; lia).
      rewrite (M0 N), (U0 N), (L0 N), (M0' N'), (U0' N'), (L0' N'). auto.
  Qed.
End Runs.

(** ** lines that look at every row that was given *)
Section Whole.
  Variables (o : oracle) (raw raw' : rawframe) (b b' : bool) (ob ob' : obj) (m : Qc).
  Hypothesis W : wf_raw raw. Hypothesis W' : wf_raw raw'.
  Hypothesis DD : days_given ob' = days_given ob.
  Notation both c := (twice c o raw raw' b b' ob ob').
  Notation turns n f := (faces m (days_given ob - 1) ob ob' n n f%function).
  Notation swaps n n' f := (faces m (days_given ob - 1) ob ob' n n' f%function).
  Ltac start := let A := fresh "A" in let B := fresh "B" in intros [A B].
  Variables (h l c v : nat -> Qc).
  Notation h' := (fun j => m - l j). Notation l' := (fun j => m - h j). Notation c' := (fun j => m - c j).
  Let MH : mir m l h' := fun j => eq_refl. Let ML : mir m h l' := fun j => eq_refl. Let MC : mir m c c' := fun j => eq_refl.
  Notation bars := (swaps "high" "low" h /\ swaps "low" "high" l /\ turns "close" c).
  Notation traded := (known (given "volume" ob) (days_given ob - 1) v /\ known (given "volume" ob') (days_given ob - 1) v).
  Notation inside := (forall j, (j < days_given ob)%nat -> l j <= c j /\ c j <= h j).
  Lemma inside_mir : inside -> forall j, (j < days_given ob)%nat -> l' j <= c' j /\ c' j <= h' j.
  Proof. intros I j J. specialize (I j J) as [X Y]. split; qlra. Qed.
  Lemma ranges n : (forall j, (j < n)%nat -> l j <= c j /\ c j <= h j) -> (forall j, (j < n)%nat -> l j < h j) \/ exists j, (j < n)%nat /\ h j = l j.
  Proof.
    induction n as [|n IH]; intro I; [left; intros; lia|]. destruct IH as [ALL|(j & J & E)]; [intros; apply I; lia| |right; exists j; split; [lia|exact E]].
    destruct (I n ltac:(lia)) as [X Y]. destruct (qltb (l n) (h n)) eqn:Q.
    - apply qltb_iff in Q. left. intros j J. destruct (Nat.eq_dec j n) as [->|]; [exact Q|apply ALL; lia].
    - apply qltb_false in Q. right. exists n. split; [lia|]. apply Qcle_antisym; [exact Q|]. qlra.
  Qed.
  Lemma line_mir k : total (fun j => adl_move (h' j) (l' j) (c' j) (v j)) k = - total (fun j => adl_move (h j) (l j) (c j) (v j)) k.
  Proof. apply total_neg. intro j. apply (adl_mir m h l c h' l' c' v MH ML MC). Qed.
  Lemma mir_adl k : both cADL -> (k < days_given ob)%nat -> inside -> bars -> traded -> shown "adl" ob' k = nneg (shown "adl" ob k).
  Proof.
    start. intros D I ([H H'] & [L L'] & [K K']) [V V']. destruct (adl_shown_line o raw b ob W k c v h l A D K V H L I) as [P F].
    destruct (adl_shown_line o raw' b' ob' W' k c' v h' l' B) as [P' F']; rewrite ?DD; auto using inside_mir. rewrite DD in P', F'. cbv beta in P', F'.
    destruct (ranges (days_given ob) I) as [ALL|(j & J & E)].
    - rewrite (P ALL), P' by (intros j J; specialize (ALL j J); qlra). rewrite line_mir, trunc_opp. reflexivity.
    - rewrite F, F' by (exists j; split; [exact J|]; rewrite ?E; auto). rewrite ltb_mir, line_mir. destruct qltb; reflexivity.
  Qed.
  Lemma mir_co k : both cCO -> (k < days_given ob)%nat -> inside -> (forall j, (j < days_given ob)%nat -> l j < h j) -> bars -> traded ->
    shown "co" ob' k = nneg (shown "co" ob k).
  Proof.
    start. intros D I R ([H H'] & [L L'] & [K K']) [V V']. rewrite (chaikin_oscillator_shown o raw b ob W k h l c v A D I R H L K V).
    assert (R' : forall j, (j < days_given ob)%nat -> l' j < h' j) by (intros j J; specialize (R j J); cbv beta; qlra).
    rewrite (chaikin_oscillator_shown o raw' b' ob' W' k h' l' c' v B) by (rewrite ?DD; first [exact (inside_mir I) | exact R' | assumption]).
    cbv zeta. rewrite opposed_from. assert (N : neg_f (fun j => qtrunc (total (fun i => adl_move (h i) (l i) (c i) (v i)) (S j))) (fun j => qtrunc (total (fun i => adl_move (h' i) (l' i) (c' i) (v i)) (S j))))
      by (intro j; rewrite line_mir, trunc_opp; reflexivity).
    rewrite (ema_neg 0 3 _ _ N k), (ema_neg 0 10 _ _ N k). do 3 f_equal. ring.
  Qed.
  (** the level a fraction x of the way down faces the level the fraction 1 - x *)
  Lemma mir_fib n1 x n2 k : both cFIB -> even_ticks m -> In (n1, x) levels -> In (n2, 1 - x) levels -> (k < days_given ob)%nat -> turns "close" c ->
    shown n1 ob' k = nsub (Fin m) (shown n2 ob k).
  Proof.
    start. intros E I J D [K K'].
    assert (Z : forall j, given "close" ob j = NaN \/ isfin (given "close" ob j) = true) by
      (intro j; destruct (Nat.lt_ge_cases j (days_given ob)); [right; rewrite K by lia; reflexivity|left; apply given_out; assumption]).
    assert (Z' : forall j, given "close" ob' j = NaN \/ isfin (given "close" ob' j) = true) by
      (intro j; destruct (Nat.lt_ge_cases j (days_given ob)); [right; rewrite K' by lia; reflexivity|left; apply given_out; rewrite DD; assumption]).
    destruct (fib_shown_values o raw b ob W A Z) as [(M & q & HI & LO & U)|[N _]]; [|exfalso; exact (known_some _ _ _ _ _ K (conj (Nat.le_0_l _) (le_n _)) N)].
    destruct (fib_shown_values o raw' b' ob' W' B Z') as [(M' & q' & HI' & LO' & U')|[N _]]; rewrite DD in *; [|exfalso; exact (known_some _ _ _ _ _ K' (conj (Nat.le_0_l _) (le_n _)) N)].
    rewrite (U' n1 x k I D), (U n2 (1 - x) k J D), fin_sub, <- r4_even_sub by exact E. do 2 f_equal.
    rewrite (highest_once _ _ _ _ _ HI' (highest_faces _ _ m _ c _ _ _ K K' (le_n _) LO)), (lowest_once _ _ _ _ _ LO' (lowest_faces _ _ m _ c _ _ _ K K' (le_n _) HI)). ring.
  Qed.
End Whole.
