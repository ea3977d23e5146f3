(** * MirrorApi: what two objects publish when the second was built from the mirrored prices. *)
From Coq Require Import ZArith QArith Qcanon Bool List String PeanoNat Lia Sorted Permutation.
From Verif Require Import Num NumFacts RoundFacts Pandas Sim Frame FrameSpec FrameProofs Ind Signal Api IndSpec SeriesFacts Lengths Causal IndFacts Shape ApiSpec ApiCheck ApiProofs ApiLemmas RangeSpec Cells RangeFacts RangeMore Publish RangeApi ValueSpec ValueFacts ValueMore Recur ValueApi CumulApi.
From Verif Require Import FormulaSpec Starts Formula Formula2 Formula3 Formula4 Line Formula5 Formula6 FormulaApi FlatFacts IdentFacts MirrorSpec MirrorFacts.
Import ListNotations.
Open Scope list_scope. Open Scope string_scope. Open Scope Qc_scope.

Lemma from_neg a k v : nneg (from a k v) = from a k (nneg v).
Proof. unfold from. destruct (k <? a)%nat; reflexivity. Qed.
Lemma from_sub x a k v : nsub (Fin x) (from a k v) = from a k (nsub (Fin x) v).
Proof. unfold from. destruct (k <? a)%nat; reflexivity. Qed.
Lemma rn_sub m v : even_ticks m -> rn (nsub (Fin m) v) = nsub (Fin m) (rn v).
Proof. intro E. destruct v; try reflexivity. unfold rn, nsub. cbn [nneg nadd nround]. f_equal. apply (r4_even_sub m q E). Qed.
Lemma rn_rest v : rn (nsub (F 100) v) = nsub (F 100) (rn v).
Proof. apply (rn_sub (zq 100)), even_100. Qed.
Lemma fin_sub m q : nsub (Fin m) (Fin q) = Fin (m - q). Proof. reflexivity. Qed.
Lemma rest_from a k v : nsub (F 100) (from a k (rn v)) = from a k (rn (nsub (F 100) v)).
Proof. rewrite rn_rest. apply from_sub. Qed.
Lemma across_from m a k q : even_ticks m -> nsub (Fin m) (from a k (Fin (r4 q))) = from a k (Fin (r4 (m - q))).
Proof. intro E. rewrite from_sub, fin_sub, r4_even_sub by exact E. reflexivity. Qed.
Lemma opposed_from a k q : nneg (from a k (Fin (r4 q))) = from a k (Fin (r4 (- q))).
Proof. rewrite from_neg, r4_opp. reflexivity. Qed.
(** the two parts of w, as percentages *)
Lemma ratio_rest a b w : a + b = w -> ratio (zq 100 * b) w = nsub (F 100) (ratio (zq 100 * a) w).
Proof.
  intro E. destruct (qeqb w 0) eqn:Z.
  - apply qeqb_iff in Z. subst w. replace b with (- a) in * by (rewrite <- (Qcplus_0_l (- a)), <- Z; ring). rewrite Z.
    replace (zq 100 * - a) with (- (zq 100 * a)) by ring. rewrite ndiv_opp. unfold ratio, ndiv. cbn [qeqb]. replace (qeqb 0 0) with true by reflexivity.
    destruct (qeqb (zq 100 * a) 0); [reflexivity|]. destruct (qltb 0 (zq 100 * a)); reflexivity.
  - unfold ratio, ndiv. rewrite Z. unfold nsub, F. cbn [nneg nadd]. apply (f_equal Fin). apply qeqb_false in Z. change (Q2Qc (inject_Z 100)) with (zq 100). subst w. field. exact Z.
Qed.

Lemma mean_mir_on m f g n k : (1 <= n)%nat -> (forall j, (j < n)%nat -> g (S k - n + j)%nat = m - f (S k - n + j)%nat) -> mean_last g n k = m - mean_last f n k.
Proof.
  intros N U. unfold mean_last, sum_last. rewrite (total_ext _ (fun j => m + - (1) * f (S k - n + j)%nat)), total_add, total_mul, total_const by (intros; rewrite U by assumption; ring).
  field. apply nq_nonzero, N.
Qed.

Section Runs.
  Variables (o : oracle) (raw raw' : rawframe) (b b' : bool) (ob ob' : obj) (m : Qc) (k : nat).
  Hypothesis W : wf_raw raw. Hypothesis W' : wf_raw raw'.
  Notation both c := (twice c o raw raw' b b' ob ob').
  Notation turns n f := (faces m k ob ob' n n f%function).
  Notation swaps n n' f := (faces m k ob ob' n n' f%function).
  Notation opposed n := (shown n ob' k = nneg (shown n ob k)).
  Notation rest n := (shown n ob' k = nsub (F 100) (shown n ob k)).
  Notation agree n := (shown n ob' k = shown n ob k).
  Notation across n := (shown n ob' k = nsub (Fin m) (shown n ob k)).
  Ltac ua := let j := fresh in intro j; reflexivity.
  Ltac bt L := erewrite (L o raw b ob), (L o raw' b' ob') by eauto.
  Ltac start := let A := fresh "A" in let B := fresh "B" in intros [A B].

  Lemma mir_cmo p c : both (cCMO p) -> turns "close" c -> opposed "cmo".
  Proof.
    start. intros [K K']. bt chande_momentum_shown. pose proof (change_mir m 1 c (fun j => m - c j) ltac:(ua)) as D.
    rewrite (sum_same _ _ (nat_arg p) (gain_neg _ _ D) k), (sum_same _ _ (nat_arg p) (loss_neg _ _ D) k), from_neg, <- rn_neg, <- ndiv_opp. do 2 f_equal. f_equal; ring.
  Qed.
  Lemma mir_rsi p c : both (cRSI p) -> turns "close" c -> rest "rsi".
  Proof.
    start. intros [K K']. bt relative_strength_shown. pose proof (change_mir m 1 c (fun j => m - c j) ltac:(ua)) as D. cbv zeta.
    assert (G : same_f (fun j => r4 (loss (change 1 c j))) (fun j => r4 (gain (change 1 (fun j => m - c j) j)))) by (intro j; f_equal; apply (gain_neg _ _ D)).
    assert (L : same_f (fun j => r4 (gain (change 1 c j))) (fun j => r4 (loss (change 1 (fun j => m - c j) j)))) by (intro j; f_equal; apply (loss_neg _ _ D)).
    rewrite (mean_same _ _ (nat_arg p) G (nat_arg p)), (mean_same _ _ (nat_arg p) L (nat_arg p)), (run_same _ _ _ _ _ G k), (run_same _ _ _ _ _ L k).
    rewrite rest_from. do 2 f_equal. rewrite <- (ratio_rest _ _ _ eq_refl). f_equal. ring.
  Qed.
  (** the relative momentum index is missing when there was no loss *)
  Lemma mir_rmi p q c : both (cRMI p q) -> turns "close" c -> shown "rmi" ob k <> NaN -> shown "rmi" ob' k <> NaN -> rest "rmi".
  Proof.
    start. intros [K K']. bt relative_momentum_shown. cbv zeta. pose proof (change_mir m (nat_arg q) c (fun j => m - c j) ltac:(ua)) as D.
    rewrite (wilder_from_same (nat_arg q) (nat_arg p) _ _ (gain_neg _ _ D) k), (wilder_from_same (nat_arg q) (nat_arg p) _ _ (loss_neg _ _ D) k).
    set (u := wilder_from _ _ (fun j => gain _) k). set (d := wilder_from _ _ (fun j => loss _) k). unfold from. destruct (k <? _)%nat; [reflexivity|].
    destruct (qeqb d 0) eqn:ED; [congruence|]. destruct (qeqb u 0) eqn:EU; [congruence|]. intros _ _. change (F 100) with (Fin (zq 100)). rewrite fin_sub. apply (f_equal Fin). rewrite <- r4_100_sub. f_equal.
    assert (NG : forall f, (forall j, 0 <= f j) -> 0 <= wilder_from (nat_arg q) (nat_arg p) f k).
    { intros f N. assert (P : (1 <= nat_arg p)%nat) by (look fr V VV; lia). unfold wilder_from, run_from. induction (k - _)%nat as [|i IH]; cbn [run]; [|apply wilders_nonneg; auto].
      unfold mean_last, sum_last. apply qcdiv_nonneg; [apply total_nonneg; auto|apply nq_pos; lia]. }
    assert (U : 0 <= u) by (apply NG; intro; apply gain_nonneg). assert (V : 0 <= d) by (apply NG; intro; apply loss_nonneg).
    assert (NZ : u + d <> 0) by (apply qeqb_false in ED; intro Z; apply ED, Qcle_antisym; qlra). rewrite (Qcplus_comm d u). field. exact NZ.
  Qed.
  Lemma mir_imi p op c : both (cIMI p) -> turns "open" op -> turns "close" c -> rest "imi".
  Proof.
    start. intros [J J'] [K K']. bt intraday_momentum_shown. cbv zeta. rewrite rest_from, <- (ratio_rest _ _ _ eq_refl).
    rewrite (sum_same (fun j => gain (op j - c j)) (fun j => gain (m - c j - (m - op j)))), (sum_same (fun j => gain (c j - op j)) (fun j => gain (m - op j - (m - c j)))) by (intro; f_equal; ring).
    do 2 f_equal. f_equal. ring.
  Qed.
  Lemma mir_qstick p op c : both (cQS p) -> turns "open" op -> turns "close" c -> opposed "qstick".
  Proof.
    start. intros [J J'] [K K']. bt qstick_shown. cbv zeta. rewrite opposed_from. do 3 f_equal. apply mean_neg. intro j. ring.
  Qed.
  (** highs and lows *)
  Variables (h l c : nat -> Qc).
  Notation h' := (fun j => m - l j). Notation l' := (fun j => m - h j). Notation c' := (fun j => m - c j).
  Let MH : mir m l h' := fun j => eq_refl. Let ML : mir m h l' := fun j => eq_refl. Let MC : mir m c c' := fun j => eq_refl.
  Lemma mir_wr p : both (cWR p) -> swaps "high" "low" h -> swaps "low" "high" l -> turns "close" c -> shown "wr" ob' k = nsub (F (-100)) (shown "wr" ob k).
  Proof.
    start. intros [H H'] [L L'] [K K']. bt williams_r_shown. cbv zeta. rewrite (max_mir m l h' (nat_arg p) MH k), (min_mir m h l' (nat_arg p) ML k).
    set (t := max_last h _ k). set (u := min_last l _ k). unfold F. rewrite from_sub. f_equal.
    replace (Q2Qc (inject_Z (-100))) with (- zq 100) by (apply Qc_is_canon; vm_compute; reflexivity).
    assert (E : forall x w, nmul (Fin (- zq 100)) (ratio x w) = nneg (ratio (zq 100 * x) w)).
    { intros x w. rewrite <- ndiv_opp. unfold ratio, ndiv. replace (qeqb (- (zq 100 * x)) 0) with (qeqb x 0).
      - destruct (qeqb w 0); [|cbn [nmul]; f_equal; unfold Qcdiv; ring]. destruct (qeqb x 0) eqn:X; [reflexivity|].
        replace (qltb 0 (- (zq 100 * x))) with (qltb x 0).
        + destruct (qltb 0 x) eqn:P; destruct (qltb x 0) eqn:Q; try reflexivity; [apply qltb_iff in P, Q; exfalso; qlra|].
          apply qltb_false in P, Q. apply qeqb_false in X. exfalso. apply X, Qcle_antisym; auto.
        + rewrite ltb_0opp. assert (0 < zq 100) by (apply qltb_iff; vm_compute; reflexivity). destruct (qltb x 0) eqn:P; symmetry; [apply qltb_iff in P; apply qltb_iff; qnra|apply qltb_false in P; apply qltb_false; qnra].
      - destruct (qeqb x 0) eqn:X; symmetry; [apply qeqb_iff in X; subst; apply qeqb_iff; ring|]. apply qeqb_false in X. apply qeqb_false. intro Q.
        apply X. assert (Y : zq 100 * x = 0) by (rewrite <- (Qcopp_involutive (zq 100 * x)), Q; reflexivity). apply Qcmult_integral in Y as [Y|Y]; [discriminate Y|exact Y]. }
    rewrite !E, !rn_neg. replace (m - u - (m - c k)) with (c k - u) by ring. replace (m - u - (m - t)) with (t - u) by ring.
    rewrite (ratio_rest (t - c k) (c k - u) (t - u)) by ring. rewrite rn_rest. destruct (rn _); try reflexivity.
    unfold nsub, F. cbn [nneg nadd]. f_equal. change (Q2Qc (inject_Z 100)) with (zq 100). ring.
  Qed.
  Lemma window_mir n : same_f (fun j => max_last h n j - min_last l n j) (fun j => max_last h' n j - min_last l' n j).
  Proof. intro j. rewrite (max_mir m l h' n MH j), (min_mir m h l' n ML j). ring. Qed.
  Lemma mir_so p q r t : both (cSO p q r t) -> swaps "high" "low" h -> swaps "low" "high" l -> turns "close" c -> rest "%K".
  Proof.
    start. intros [H H'] [L L'] [K K']. bt stochastic_shown. cbv zeta. rewrite rest_from. do 2 f_equal. rewrite (sum_same _ _ (nat_arg q) (window_mir (nat_arg p)) k).
    rewrite <- (ratio_rest _ (sum_last (fun j => max_last h (nat_arg p) j - c j) (nat_arg q) k)).
    - do 2 f_equal. apply sum_same. intro j. rewrite (min_mir m h l' (nat_arg p) ML j). ring.
    - unfold sum_last. rewrite <- total_add. apply total_ext. intros. ring.
  Qed.
  Lemma mir_so_d p q r : both (cSO p q r (VStr "simple")) ->
    (forall j, (nat_arg p + nat_arg q - 2 <= j <= k)%nat -> sum_last (fun i => max_last h (nat_arg p) i - min_last l (nat_arg p) i) (nat_arg q) j <> 0) ->
    swaps "high" "low" h -> swaps "low" "high" l -> turns "close" c -> rest "%D".
  Proof.
    start. intros N [H H'] [L L'] [K K']. set (n := nat_arg p) in *. set (s := nat_arg q) in *.
    assert (WN := sum_same _ _ s (window_mir n)).
    rewrite (stochastic_signal_shown o raw b ob W p q r k h l c A N H L K), (stochastic_signal_shown o raw' b' ob' W' p q r k h' l' c' B) by (auto; intros j J; rewrite WN; apply N, J).
    cbv zeta. fold n s. rewrite (from_sub (zq 100)). unfold from. destruct (k <? _)%nat eqn:KK; [reflexivity|]. apply Nat.ltb_ge in KK. rewrite fin_sub, <- r4_100_sub. do 2 f_equal.
    assert (P : (1 <= nat_arg r)%nat /\ (1 <= n)%nat /\ (1 <= s)%nat) by (unfold n, s; look fr V VV; lia).
    set (fast := fun j => r4 (zq 100 * sum_last (fun i => c i - min_last l n i) s j / sum_last (fun i => max_last h n i - min_last l n i) s j)).
    apply mean_mir_on; [lia|].
    intros i I. set (j := (S k - nat_arg r + i)%nat). assert (J : (n + s - 2 <= j <= k)%nat) by (unfold j; lia). unfold fast. rewrite WN.
      rewrite <- r4_100_sub. f_equal. specialize (N j J). field_simplify_eq; [|exact N].
      replace (sum_last (fun i => max_last h n i - min_last l n i) s j) with (sum_last (fun i => m - c i - min_last l' n i) s j + sum_last (fun i => c i - min_last l n i) s j); [ring|].
      unfold sum_last. rewrite <- total_add. apply total_ext. intros. rewrite (min_mir m h l' n ML). ring.
  Qed.
  Lemma mir_smi p q r : both (cSMI p q r) -> swaps "high" "low" h -> swaps "low" "high" l -> turns "close" c -> opposed "smi".
  Proof.
    start. intros [H H'] [L L'] [K K']. bt stochastic_momentum_shown. cbv zeta. set (n := nat_arg p). set (s := nat_arg q). set (d := nat_arg r).
    rewrite from_neg, <- rn_neg, <- ndiv_opp. do 2 f_equal. rewrite (ema_same _ _ _ _ (ema_same _ _ _ _ (window_mir n)) k). f_equal.
    assert (D : neg_f (fun j => c j - (max_last h n j + min_last l n j) / zq 2) (fun j => m - c j - (max_last h' n j + min_last l' n j) / zq 2))
      by (intro j; rewrite (max_mir m l h' n MH j), (min_mir m h l' n ML j); change (zq 2) with (1 + 1); field; discriminate).
    rewrite (ema_neg _ _ _ _ (ema_neg (n - 1) s _ _ D) k). ring.
  Qed.
  Lemma mir_cci p : both (cCCI p) -> swaps "high" "low" h -> swaps "low" "high" l -> turns "close" c -> opposed "cci".
  Proof.
    start. intros [H H'] [L L'] [K K']. assert (P : (1 <= nat_arg p)%nat) by (look fr V VV; lia). bt commodity_channel_shown. cbv zeta. set (n := nat_arg p) in *.
    pose proof (typical_mir m h l c h' l' c' MH ML MC) as T. rewrite (mean_mir m _ _ n P T k), (T k), from_neg, <- rn_neg, <- ndiv_opp. do 2 f_equal.
    f_equal; [ring|]. f_equal. apply mean_same. intro j. rewrite (T j), <- (abs_opp (mean_last _ _ _ - _)). f_equal. ring.
  Qed.
  Lemma mir_uo : both cUO -> (forall w, In w [7; 14; 28]%nat -> (28 <= k)%nat -> sum_last (reach h l c) w k <> 0) ->
    swaps "high" "low" h -> swaps "low" "high" l -> turns "close" c -> rest "uosc".
  Proof.
    start. intros N [H H'] [L L'] [K K']. pose proof (fun n => sum_same _ _ n (reach_mir m h l c h' l' c' MH ML MC)) as R.
    rewrite (ultimate_oscillator_shown o raw b ob W k h l c A N H L K), (ultimate_oscillator_shown o raw' b' ob' W' k h' l' c' B) by (auto; intros; rewrite R; apply N; auto).
    cbv zeta. rewrite (from_sub (zq 100)). unfold from. destruct (k <? 28)%nat eqn:KK; [reflexivity|]. apply Nat.ltb_ge in KK. rewrite fin_sub, <- r4_100_sub. do 2 f_equal.
    assert (SH : forall w, In w [7; 14; 28]%nat -> sum_last (pressure l' c') w k / sum_last (reach h' l' c') w k = 1 - sum_last (pressure l c) w k / sum_last (reach h l c) w k).
    { intros w I. specialize (N w I KK). rewrite R. field_simplify_eq; [|exact N]. replace (sum_last (reach h l c) w k) with (sum_last (pressure l' c') w k + sum_last (pressure l c) w k); [ring|].
      unfold sum_last. rewrite <- total_add. apply total_ext. intros. rewrite (pressure_mir m h l c l' c' ML MC). ring. }
    rewrite !SH by (cbn; auto). generalize (sum_last (pressure l c) 7 k / sum_last (reach h l c) 7 k), (sum_last (pressure l c) 14 k / sum_last (reach h l c) 14 k), (sum_last (pressure l c) 28 k / sum_last (reach h l c) 28 k). intros s7 s14 s28. change (zq 4) with (1 + 1 + 1 + 1). change (zq 2) with (1 + 1). replace (zq 7) with (1 + 1 + 1 + 1 + 1 + 1 + 1) by (apply Qc_is_canon; vm_compute; reflexivity). field. discriminate.
  Qed.
End Runs.
