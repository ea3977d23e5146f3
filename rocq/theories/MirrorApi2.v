(** * MirrorApi2: mirrored prices, continued: ranges, volatility, volume. *)
From Coq Require Import ZArith QArith Qcanon Bool List String PeanoNat Lia Sorted Permutation.
From Verif Require Import Num NumFacts RoundFacts Pandas Sim Frame FrameSpec FrameProofs Ind Signal Api IndSpec SeriesFacts Lengths Causal IndFacts Shape ApiSpec ApiCheck ApiProofs ApiLemmas RangeSpec Cells RangeFacts RangeMore Publish RangeApi ValueSpec ValueFacts ValueMore Recur ValueApi CumulApi.
From Verif Require Import FormulaSpec Starts Formula Formula2 Formula3 Formula4 Line Formula5 Formula6 FormulaApi FlatFacts IdentFacts MirrorSpec MirrorFacts MirrorApi.
Import ListNotations.
Open Scope list_scope. Open Scope string_scope. Open Scope Qc_scope.

Section Runs.
  Variables (o : oracle) (raw raw' : rawframe) (b b' : bool) (ob ob' : obj) (m : Qc) (k : nat).
  Hypothesis W : wf_raw raw. Hypothesis W' : wf_raw raw'.
  Notation both c := (twice c o raw raw' b b' ob ob').
  Notation turns n f := (faces m k ob ob' n n f%function).
  Notation swaps n n' f := (faces m k ob ob' n n' f%function).
  Notation opposed n := (shown n ob' k = nneg (shown n ob k)).
  Notation rest n := (shown n ob' k = nsub (F 100) (shown n ob k)).
  Notation agree n := (shown n ob' k = shown n ob k).
  Notation across n := (shown n ob' k = nsub (Fin m) (shown n ob k)).
  Ltac ua := let j := fresh in intro j; reflexivity.
  Ltac bt L := erewrite (L o raw b ob), (L o raw' b' ob') by eauto.
  Ltac start := let A := fresh "A" in let B := fresh "B" in intros [A B].

  Variables (op h l c v : nat -> Qc).
  Notation op' := (fun j => m - op j). Notation h' := (fun j => m - l j). Notation l' := (fun j => m - h j). Notation c' := (fun j => m - c j).
  Let MO : mir m op op' := fun j => eq_refl. Let MH : mir m l h' := fun j => eq_refl. Let ML : mir m h l' := fun j => eq_refl. Let MC : mir m c c' := fun j => eq_refl.
  Notation days := (swaps "high" "low" h /\ swaps "low" "high" l).
  Notation bars := (swaps "high" "low" h /\ swaps "low" "high" l /\ turns "close" c).
  Notation traded := (known (given "volume" ob) k v /\ known (given "volume" ob') k v).

  Lemma mir_vhf p : both (cVHF p) -> turns "close" c -> agree "vhf".
  Proof.
    start. intros [K K']. bt vertical_horizontal_filter_shown. cbv zeta. rewrite (max_mir m c c' (nat_arg p) MC k), (min_mir m c c' (nat_arg p) MC k).
    rewrite (sum_same _ _ (nat_arg p) (abs_neg _ _ (change_mir m 1 c c' MC)) k). do 3 f_equal. ring.
  Qed.
  Lemma mir_sd p : both (cSD p) -> turns "close" c -> agree "sd".
  Proof.
    start. intros [K K']. assert (P : (1 <= nat_arg p)%nat) by (look fr V VV; lia). bt standard_deviation_shown. cbv zeta. do 4 f_equal. apply (variance_mir m); [exact P|]. intro. apply MC.
  Qed.
  Lemma mir_atr : both cATR -> (13 <= k)%nat -> bars -> agree "atr".
  Proof.
    start. intros G ([H H'] & [L L'] & [K K']). bt average_true_range_shown. cbv zeta. pose proof (true_range_mir m h l c h' l' c' MH ML MC) as T.
    rewrite (mean_same _ _ 14 T 13%nat). do 2 f_equal. apply run_same, T.
  Qed.
  Lemma mir_mi : both cMI -> (forall j, (j <= k)%nat -> l j < h j) -> days -> agree "mi".
  Proof.
    start. intros O ([H H'] & [L L']). pose proof (range_mir m h l h' l' MH ML) as R. rewrite (mass_index_shown o raw b ob W k h l A O H L), (mass_index_shown o raw' b' ob' W' k h' l' B) by (auto; intros j J; specialize (O j J); qlra).
    cbv zeta. pose proof (ema_same 0 9 _ _ R) as E. pose proof (ema_same 8 9 _ _ E) as E2. do 3 f_equal. apply sum_same. intro j. rewrite E, E2. reflexivity.
  Qed.
  Lemma mir_vch p q : both (cVCH p q) -> days -> agree "vch".
  Proof.
    start. intros ([H H'] & [L L']). bt chaikin_volatility_shown. cbv zeta. pose proof (ema_same 0 (nat_arg p) _ _ (range_mir m h l h' l' MH ML)) as E. rewrite !E. reflexivity.
  Qed.
  Lemma mir_mfi : both cMFI -> days -> traded -> agree "mfi".
  Proof. start. intros ([H H'] & [L L']) [V V']. bt market_facilitation_shown. cbv beta. replace (m - l k - (m - h k)) with (h k - l k) by ring. reflexivity. Qed.
  Lemma mir_rvi p : both (cRVI p) -> days -> rest "rvi".
  Proof.
    start. intros ([H H'] & [L L']). rewrite (relative_volatility_shown o raw b ob W p k h l A H L), (relative_volatility_shown o raw' b' ob' W' p k h' l' B L' H'). cbv zeta. rewrite rest_from. unfold from. destruct (k <? _)%nat; [reflexivity|]. apply (f_equal rn). set (n := nat_arg p).
    rewrite !(wilder_from_same 9 n _ _ (rising_mir m (o_sqrt o) l h' MH) k), !(wilder_from_same 9 n _ _ (rising_mir m (o_sqrt o) h l' ML) k).
    rewrite !(wilder_from_same 9 n _ _ (falling_mir m (o_sqrt o) l h' MH) k), !(wilder_from_same 9 n _ _ (falling_mir m (o_sqrt o) h l' ML) k).
    generalize (wilder_from 9 n (rising (o_sqrt o) h) k), (wilder_from 9 n (falling (o_sqrt o) h) k), (wilder_from 9 n (rising (o_sqrt o) l) k), (wilder_from 9 n (falling (o_sqrt o) l) k).
    intros uh dh ul dl. rewrite (Qcplus_comm dl ul), (Qcplus_comm dh uh). rewrite (ratio_rest ul dl _ eq_refl), (ratio_rest uh dh _ eq_refl).
    destruct (ratio (zq 100 * uh) (uh + dh)), (ratio (zq 100 * ul) (ul + dl)); try reflexivity.
    unfold nsub, F. cbn [nneg nadd ndiv]. replace (qeqb (zq 2) 0) with false by reflexivity. cbn [nneg nadd]. f_equal. change (Q2Qc (inject_Z 100)) with (zq 100). change (zq 2) with (1 + 1). field. discriminate.
  Qed.
  Lemma mir_di : both cDMI -> (forall j, (14 <= j <= k)%nat -> running (true_range h l c) j <> 0) -> bars ->
    shown "+di" ob' k = shown "-di" ob k /\ shown "-di" ob' k = shown "+di" ob k.
  Proof.
    start. intros N ([H H'] & [L L'] & [K K']). destruct (directional_lines_shown o raw b ob W k h l c A N H L K) as [-> ->].
    destruct (directional_lines_shown o raw' b' ob' W' k h' l' c' B) as [-> ->]; auto; [intros j J; rewrite (running_same _ _ (true_range_mir m h l c h' l' c' MH ML MC)); auto|].
    rewrite (plus_di_mir m h l c h' l' c' MH ML MC), (minus_di_mir m h l c h' l' c' MH ML MC). auto.
  Qed.
  Lemma mir_adx name : both cDMI -> In name ["dx"; "adx"; "adxr"] -> (forall j, (14 <= j <= k)%nat -> running (true_range h l c) j <> 0) ->
    (forall j, (14 <= j <= k)%nat -> plus_di h l c j + minus_di h l c j <> 0) -> bars -> agree name.
  Proof.
    start. intros I N N2 ([H H'] & [L L'] & [K K']).
    assert (M : forall j, (14 <= j <= k)%nat -> running (true_range h' l' c') j <> 0) by (intros j J; rewrite (running_same _ _ (true_range_mir m h l c h' l' c' MH ML MC)); auto).
    assert (M2 : forall j, (14 <= j <= k)%nat -> plus_di h' l' c' j + minus_di h' l' c' j <> 0) by (intros j J; rewrite (plus_di_mir m h l c h' l' c' MH ML MC), (minus_di_mir m h l c h' l' c' MH ML MC), Qcplus_comm; auto).
    destruct I as [<-|[<-|[<-|[]]]].
    - rewrite (directional_index_shown o raw b ob W k h l c A N N2 H L K), (directional_index_shown o raw' b' ob' W' k h' l' c' B M M2 L' H' K'). rewrite (dx_mir m h l c h' l' c' MH ML MC). reflexivity.
    - rewrite (average_directional_index_shown o raw b ob W k h l c A N N2 H L K), (average_directional_index_shown o raw' b' ob' W' k h' l' c' B M M2 L' H' K'). rewrite (adx_mir m h l c h' l' c' MH ML MC). reflexivity.
    - rewrite (directional_rating_shown o raw b ob W k h l c A N N2 H L K), (directional_rating_shown o raw' b' ob' W' k h' l' c' B M M2 L' H' K'). rewrite !(adx_mir m h l c h' l' c' MH ML MC). reflexivity.
  Qed.
  Lemma mir_swi : both cSWI -> swing_span op h l c k <> 0 -> turns "open" op -> bars -> opposed "swi".
  Proof.
    start. intros N [Q Q'] ([H H'] & [L L'] & [K K']). rewrite (swing_index_shown o raw b ob W k op h l c A N Q H L K), (swing_index_shown o raw' b' ob' W' k op' h' l' c' B) by (auto; rewrite (swing_span_mir m op h l c op' h' l' c' MO MH ML MC); exact N).
    rewrite opposed_from, (swing_mir m op h l c op' h' l' c' MO MH ML MC), clip_opp. reflexivity.
  Qed.
  Lemma mir_cmf p : both (cCMF p) -> (forall j, (j <= k)%nat -> l j <= c j /\ c j <= h j /\ l j < h j) -> bars -> traded -> opposed "cmf".
  Proof.
    start. intros O ([H H'] & [L L'] & [K K']) [V V']. rewrite (chaikin_money_flow_shown o raw b ob W p k c v h l A O K V H L), (chaikin_money_flow_shown o raw' b' ob' W' p k c' v h' l' B)
      by (auto; intros j J; specialize (O j J) as (X & Y & Z); repeat split; qlra).
    cbv zeta. rewrite from_neg, <- rn_neg, <- ndiv_opp. do 3 f_equal. apply sum_neg. intro j. apply (adl_mir m h l c h' l' c' v MH ML MC).
  Qed.
  Lemma mir_emv p : both (cEMV p) -> (forall j, (j <= k)%nat -> l j <> h j /\ v j <> 0) -> days -> traded -> opposed "emv" /\ opposed "emv_ma".
  Proof.
    start. intros O ([H H'] & [L L']) [V V']. destruct (ease_of_movement_shown o raw b ob W p k h l v A O H L V) as [-> ->].
    destruct (ease_of_movement_shown o raw' b' ob' W' p k h' l' v B) as [-> ->]; auto.
    - intros j J. specialize (O j J) as [X Y]. split; [|exact Y]. cbv beta. intro E. apply X. apply Qcle_antisym; qlra.
    - pose proof (ease_mir m h l h' l' v MH ML) as E. rewrite !opposed_from, (E k), (mean_neg _ _ (nat_arg p) E k). auto.
  Qed.
  (** when the typical price moves every day *)
  Lemma mir_ko : both cKO -> (forall j, (1 <= j <= k)%nat -> measure h l c j <> 0) ->
    (forall j, (1 <= j <= k)%nat -> h j + l j + c j <> h (j - 1)%nat + l (j - 1)%nat + c (j - 1)%nat) -> bars -> traded -> opposed "ko".
  Proof.
    start. intros N T ([H H'] & [L L'] & [K K']) [V V']. pose proof (measure_mir m h l c h' l' c' MH ML MC k T) as ME.
    rewrite (klinger_shown o raw b ob W k h l c v A N H L K V), (klinger_shown o raw' b' ob' W' k h' l' c' v B) by (auto; intros j J; rewrite ME by lia; auto).
    rewrite opposed_from. unfold from. destruct (k <? 55)%nat eqn:KK; [reflexivity|]. apply Nat.ltb_ge in KK. do 2 f_equal.
    assert (E : forall n, ema_from 1 n (force h' l' c' v) k = - ema_from 1 n (force h l c v) k).
    { intro n. unfold ema_from. assert (Q : forall i, (i <= k - 1)%nat -> ema (span n) (fun j => force h' l' c' v (1 + j)) i = - ema (span n) (fun j => force h l c v (1 + j)) i); [|apply Q; lia].
      induction i as [|i IH]; intro I; cbn [ema]; rewrite (force_mir m h l c h' l' c' v MH ML MC k T) by lia; [reflexivity|]. rewrite IH by lia. ring. }
    rewrite !E. ring.
  Qed.
  Lemma mir_wad : both cWAD -> bars -> opposed "wad".
  Proof.
    start. intros ([H H'] & [L L'] & [K K']). bt williams_accumulation_shown. rewrite opposed_from. do 3 f_equal. rewrite !ltb_mir.
    rewrite (true_low_mir m h c l' c' ML MC), (true_high_mir m l c h' c' MH MC).
    destruct (qltb (c k) (c (k - 1)%nat)) eqn:D; destruct (qltb (c (k - 1)%nat) (c k)) eqn:U; try ring. apply qltb_iff in D, U. exfalso. qlra.
  Qed.
  Lemma mir_obv : both cOBV -> turns "close" c -> traded -> opposed "obv".
  Proof.
    start. intros [K K'] [V V']. rewrite (obv_shown_line o raw b ob W k c v A K V), (obv_shown_line o raw' b' ob' W' k c' v B K' V'). cbn [nneg]. f_equal.
    generalize k. induction k0 as [|i IH]; [reflexivity|]. cbn [obv_line]. rewrite IH, !ltb_mir. destruct (qltb (c i) (c (S i))) eqn:U; destruct (qltb (c (S i)) (c i)) eqn:D; try ring. apply qltb_iff in D, U. exfalso. qlra.
  Qed.
End Runs.
