(** * GrowthApi: the published values on a market that grows by the same factor every day. *)
From Coq Require Import ZArith QArith Qcanon Bool List String PeanoNat Lia.
From Verif Require Import Num NumFacts RoundFacts Pandas Sim Frame FrameSpec FrameProofs Ind Signal Api IndSpec SeriesFacts Lengths Causal IndFacts Shape ApiSpec ApiCheck ApiProofs ApiLemmas RangeSpec Cells RangeFacts RangeMore Publish RangeApi ValueSpec ValueFacts ValueMore Recur ValueApi CumulApi.
From Verif Require Import FormulaSpec Starts Formula Formula2 Formula3 Formula4 Line Formula5 Formula6 FormulaApi IdentFacts IdentApi MirrorSpec MirrorApi3 OrderFacts OrderApi SwaySpec SwayFacts BasketSpec BasketFacts SignalSpec SteadySpec SteadyFacts SignalApi SteadyApi SteadySig GrowthSpec GrowthFacts.
From Verif Require Import PropsSignal PropsSignal2.
Import ListNotations.
Open Scope list_scope. Open Scope string_scope. Open Scope Qc_scope.

Lemma known_less x f k m : known x k f -> (m <= k)%nat -> known x m f.
Proof. intros H M j J. apply H. lia. Qed.
Lemma pow_pos g n : 0 < g -> 0 < g ^ n.
Proof. intro G. induction n as [|n IH]; cbn [Qcpower]; [reflexivity|]. replace 0 with (0 * g ^ n) by ring. apply Qcmult_lt_compat_r; assumption. Qed.
Lemma pos_nz x : 0 < x -> x <> 0. Proof. intros H ->. discriminate H. Qed.
Lemma ratio_up g x y x' y' : 0 < g -> x' = g * x -> y' = g * y -> ratio x' y' = ratio x y.
Proof. intros G -> ->. apply ratio_grow, G. Qed.

Section Growth.
  Variables (o : oracle) (raw : rawframe) (b : bool) (ob : obj) (k : nat) (g w : Qc).
  Hypothesis W : wf_raw raw.
  Hypothesis G : 0 < g. Hypothesis GW : 0 < w.
  Notation made ct := (snd (construct o ct (RFrame raw) (VBool b)) = Ok ob).
  Ltac per p := assert (P : (1 <= nat_arg p)%nat) by (let fr := fresh in let V := fresh in let VV := fresh in look fr V VV; lia).
  Ltac less := eapply known_less; [eassumption|lia].
  Ltac rise a lem := unfold from; destruct (Nat.ltb_spec k a); [|].
  Lemma mom_from p j c : made (cMOM p) -> known (given "close" ob) j c -> shown "mom" ob j = from (nat_arg p) j (rn (ratio (zq 100 * c j) (c (j - nat_arg p)%nat))).
  Proof.
    intros M K. unfold from. destruct (Nat.ltb_spec j (nat_arg p)) as [L|L]; [apply (mom_shown_early o raw b ob W p j M L)|].
    apply (mom_shown o raw b ob W p j (c j) (c (j - nat_arg p)%nat) M); [apply K; lia|exact L|apply K; lia].
  Qed.
  Lemma prc_from p j c : made (cPRC p) -> known (given "close" ob) j c -> shown "prc" ob j = from (nat_arg p) j (rn (ratio (zq 100 * change (nat_arg p) c j) (c (j - nat_arg p)%nat))).
  Proof.
    intros M K. unfold from. destruct (Nat.ltb_spec j (nat_arg p)) as [L|L]; [apply (prc_shown_early o raw b ob W p j M L)|].
    apply (prc_shown o raw b ob W p j (c j) (c (j - nat_arg p)%nat) M); [apply K; lia|exact L|apply K; lia].
  Qed.
  Lemma back_steps a m q f : steps 0 m q f -> steps a m q (fun j => f (j - a)%nat).
  Proof. intros H j J K. replace (S j - a)%nat with (S (j - a)) by lia. apply H; lia. Qed.
  Lemma even_after name a V : (forall j, (j <= k)%nat -> shown name ob j = from a j (V j)) -> (forall j, (a <= j)%nat -> (S j <= k)%nat -> V (S j) = V j) -> shown name ob k = from a k (shown name ob a).
  Proof.
    intros E H. rewrite E by lia. apply from_same. intro A. rewrite (E a A), from_ge by lia. apply (settles V a k H A).
  Qed.
  Ltac mono := first [assumption|lia].
  Lemma settled_mom p : made (cMOM p) -> grown "close" ob k g -> shown "mom" ob k = from (nat_arg p) k (shown "mom" ob (nat_arg p)).
  Proof.
    intros M (c & K & C). apply grows_steps in C. eapply even_after; [intros j J; apply mom_from; [exact M|less]|]. intros j J L. cbv beta. f_equal.
    apply (steps_ratio k g G (fun j => zq 100 * c j) (nat_arg p)) with (f' := fun j => c (j - nat_arg p)%nat); [apply steps_scale; eapply steps_less; [exact C|lia|lia]|apply back_steps, C|lia|lia].
  Qed.
  Lemma settled_prc p : made (cPRC p) -> grown "close" ob k g -> shown "prc" ob k = from (nat_arg p) k (shown "prc" ob (nat_arg p)).
  Proof.
    intros M (c & K & C). apply grows_steps in C. eapply even_after; [intros j J; apply prc_from; [exact M|less]|]. intros j J L. cbv beta. f_equal.
    apply (steps_ratio k g G (fun j => zq 100 * change (nat_arg p) c j) (nat_arg p)) with (f' := fun j => c (j - nat_arg p)%nat); [apply steps_scale; apply (steps_change k g c 0 C)|apply back_steps, C|lia|lia].
  Qed.
  Lemma settled_vrc p : made (cVRC p) -> grown "volume" ob k w -> shown "vrc" ob k = from (nat_arg p) k (shown "vrc" ob (nat_arg p)).
  Proof.
    intros M (c & K & C). apply grows_steps in C. eapply even_after; [intros j J; apply (volume_rate_of_change_shown o raw b ob W p j c M); less|]. intros j J L. cbv beta. f_equal.
    apply (steps_ratio k w GW (fun j => zq 100 * change (nat_arg p) c j) (nat_arg p)) with (f' := fun j => c (j - nat_arg p)%nat); [apply steps_scale; apply (steps_change k w c 0 C)|apply back_steps, C|lia|lia].
  Qed.
  Lemma settled_posc p q : made (cPOSC p q) -> grown "close" ob k g -> shown "posc" ob k = from (nat_arg p - 1) k (shown "posc" ob (nat_arg p - 1)).
  Proof.
    intros M (c & K & C). apply grows_steps in C. assert (P : (1 <= nat_arg q /\ nat_arg q <= nat_arg p)%nat) by (look fr V VV; lia). eapply even_after; [intros j J; apply (price_oscillator_shown o raw b ob W p q j c M); less|]. intros j J L. cbv beta. f_equal.
    apply (steps_ratio k g G (fun j => zq 100 * (mean_last c (nat_arg q) j - mean_last c (nat_arg p) j)) (nat_arg p - 1)) with (f' := mean_last c (nat_arg p)); [apply steps_scale, steps_sub| | |lia];
      try (apply (steps_mean k g c 0 C); lia); [|lia]. eapply steps_less; [apply (steps_mean k g c 0 C); lia|lia|lia].
  Qed.
  Lemma settled_vhf p : made (cVHF p) -> grown "close" ob k g -> shown "vhf" ob k = from (nat_arg p) k (shown "vhf" ob (nat_arg p)).
  Proof.
    intros M (c & K & C). apply grows_steps in C. per p. eapply even_after; [intros j J; apply (vertical_horizontal_filter_shown o raw b ob W p j c M); less|]. intros j J L. cbv beta. f_equal.
    apply (steps_ratio k g G (fun j => max_last c (nat_arg p) j - min_last c (nat_arg p) j) (nat_arg p)) with (f' := sum_last (fun j => abs (change 1 c j)) (nat_arg p)); [apply steps_sub| |lia|lia].
    - eapply steps_less; [apply (steps_max k g G c 0 C); lia|lia|lia].
    - eapply steps_less; [apply (steps_min k g G c 0 C); lia|lia|lia].
    - eapply steps_less; [apply (steps_sum k g _ 1); [apply (steps_abs k g G), (steps_change k g c 0 C)|lia]|lia|lia].
  Qed.
  Lemma settled_cmo p : made (cCMO p) -> grown "close" ob k g -> shown "cmo" ob k = from (nat_arg p) k (shown "cmo" ob (nat_arg p)).
  Proof.
    intros M (c & K & C). apply grows_steps in C. per p. eapply even_after; [intros j J; apply (chande_momentum_shown o raw b ob W p j c M); less|]. intros j J L. cbv beta. f_equal.
    assert (U : steps (nat_arg p) k g (sum_last (fun j => gain (change 1 c j)) (nat_arg p))) by (eapply steps_less; [apply (steps_sum k g _ 1); [apply (steps_gain k g G), (steps_change k g c 0 C)|lia]|lia|lia]).
    assert (D : steps (nat_arg p) k g (sum_last (fun j => loss (change 1 c j)) (nat_arg p))) by (eapply steps_less; [apply (steps_sum k g _ 1); [apply (steps_loss k g G), (steps_change k g c 0 C)|lia]|lia|lia]).
    rewrite (U j J L), (D j J L). apply (ratio_up g); [exact G|ring|ring].
  Qed.
  Lemma settled_imi p : made (cIMI p) -> grown "open" ob k g -> grown "close" ob k g -> shown "imi" ob k = from (nat_arg p - 1) k (shown "imi" ob (nat_arg p - 1)).
  Proof.
    intros M (x & KX & X) (c & K & C). apply grows_steps in C. apply grows_steps in X. per p. eapply even_after; [intros j J; apply (intraday_momentum_shown o raw b ob W p j x c M); less|]. intros j J L. cbv beta. f_equal.
    assert (U : steps (nat_arg p - 1) k g (sum_last (fun j => gain (c j - x j)) (nat_arg p))) by (apply (steps_sum k g _ 0); [apply (steps_gain k g G), steps_sub; assumption|lia]).
    assert (D : steps (nat_arg p - 1) k g (sum_last (fun j => gain (x j - c j)) (nat_arg p))) by (apply (steps_sum k g _ 0); [apply (steps_gain k g G), steps_sub; assumption|lia]).
    rewrite (U j J L), (D j J L). apply (ratio_up g); [exact G|ring|ring].
  Qed.
  Lemma settled_wr p : made (cWR p) -> grown "high" ob k g -> grown "low" ob k g -> grown "close" ob k g -> shown "wr" ob k = from (nat_arg p - 1) k (shown "wr" ob (nat_arg p - 1)).
  Proof.
    intros M (h & KH & H) (l & KL & L0) (c & K & C). apply grows_steps in C. apply grows_steps in H. apply grows_steps in L0. per p. eapply even_after; [intros j J; apply (williams_r_shown o raw b ob W p j h l c M); less|]. intros j J L. cbv beta. do 2 f_equal.
    rewrite (steps_max k g G h 0 H _ P j) by lia. rewrite (steps_min k g G l 0 L0 _ P j) by lia. rewrite (C j) by lia. apply (ratio_up g); [exact G|ring|ring].
  Qed.
  Lemma settled_k p q r m : made (cSO p q r m) -> grown "high" ob k g -> grown "low" ob k g -> grown "close" ob k g -> shown "%K" ob k = from (nat_arg p + nat_arg q - 2) k (shown "%K" ob (nat_arg p + nat_arg q - 2)).
  Proof.
    intros M (h & KH & H) (l & KL & L0) (c & K & C). apply grows_steps in C. apply grows_steps in H. apply grows_steps in L0. assert (P : (1 <= nat_arg p /\ 1 <= nat_arg q)%nat) by (look fr V VV; lia). destruct P as [P P2].
    eapply even_after; [intros j J; apply (stochastic_shown o raw b ob W p q r m j h l c M); less|]. intros j J L. cbv beta. f_equal.
    assert (U : steps (nat_arg p + nat_arg q - 2) k g (sum_last (fun j => c j - min_last l (nat_arg p) j) (nat_arg q))).
    { replace (nat_arg p + nat_arg q - 2)%nat with (nat_arg p - 1 + (nat_arg q - 1))%nat by lia. apply (steps_sum k g _ _); [apply steps_sub; [eapply steps_less; [exact C|lia|lia]|apply (steps_min k g G l 0 L0); lia]|lia]. }
    assert (D : steps (nat_arg p + nat_arg q - 2) k g (sum_last (fun j => max_last h (nat_arg p) j - min_last l (nat_arg p) j) (nat_arg q))).
    { replace (nat_arg p + nat_arg q - 2)%nat with (nat_arg p - 1 + (nat_arg q - 1))%nat by lia. apply (steps_sum k g _ _); [apply steps_sub; [apply (steps_max k g G h 0 H); lia|apply (steps_min k g G l 0 L0); lia]|lia]. }
    rewrite (U j J L), (D j J L). apply (ratio_up g); [exact G|ring|ring].
  Qed.
  Lemma settled_cci p : made (cCCI p) -> grown "high" ob k g -> grown "low" ob k g -> grown "close" ob k g -> shown "cci" ob k = from (nat_arg p - 1) k (shown "cci" ob (nat_arg p - 1)).
  Proof.
    intros M (h & KH & H) (l & KL & L0) (c & K & C). apply grows_steps in C. apply grows_steps in H. apply grows_steps in L0. per p. eapply even_after; [intros j J; apply (commodity_channel_shown o raw b ob W p j h l c M); less|]. intros j J L. cbv beta. f_equal.
    assert (T : steps 0 k g (typical h l c)) by (intros i I I2; unfold typical; rewrite (H i), (L0 i), (C i) by lia; unfold Qcdiv; ring).
    set (tp := typical h l c) in *. pose proof (steps_mean k g tp 0 T (nat_arg p) P j ltac:(lia) L) as E. set (mu := mean_last tp (nat_arg p) j) in *. rewrite E.
    assert (D : mean_last (fun i => abs (g * mu - tp i)) (nat_arg p) (S j) = g * mean_last (fun i => abs (mu - tp i)) (nat_arg p) j).
    { unfold mean_last, sum_last. rewrite (total_grow g (fun i => abs (mu - tp (S j - nat_arg p + i)%nat))); [unfold Qcdiv; ring|]. intros i I.
      replace (S (S j) - nat_arg p + i)%nat with (S (S j - nat_arg p + i)) by lia. rewrite T by lia. rewrite <- (abs_grow g G). f_equal. ring. }
    rewrite D, (T j) by lia. apply (ratio_up g); [exact G|ring|ring].
  Qed.
  Lemma settled_shown ct name a cols : made ct -> In (name, a, cols) (settled ct) -> all_grown cols ob k g w -> shown name ob k = from a k (shown name ob a).
  Proof.
    intros M I A. destruct ct; cbn [settled] in I; try contradiction; destruct I as [I|[]]; injection I as <- <- <-;
      repeat match type of A with all_grown (?x :: _) _ _ _ _ => let Q := fresh "Q" in pose proof (A x (or_introl eq_refl)) as Q; cbn in Q; assert (A' : all_grown _ ob k g w) by (intros y Y; apply A; right; exact Y); clear A; rename A' into A end.
    all: try (first [apply settled_mom|apply settled_prc|apply settled_vrc|apply settled_posc with (1 := M)|apply settled_vhf|apply settled_cmo|apply settled_imi|apply settled_wr|apply settled_k with (1 := M)|apply settled_cci]; assumption).
    all: idtac.
  Qed.
  (** ** closed forms *)
  Lemma growth_mom p : made (cMOM p) -> forall c, known (given "close" ob) k c -> grows c k g -> c O <> 0 -> shown "mom" ob k = from (nat_arg p) k (Fin (r4 (zq 100 * g ^ nat_arg p))).
  Proof.
    intros M c K C Z. rewrite (mom_from p k c M K). apply from_same. intro L. pose proof (grows_two c k g (k - nat_arg p) (nat_arg p) C ltac:(lia)) as E. replace (k - nat_arg p + nat_arg p)%nat with k in E by lia.
    apply ratio_same with (y := c (k - nat_arg p)%nat); [|rewrite E; ring|reflexivity]. rewrite (C (k - nat_arg p)%nat) by lia. apply nz_mul; [exact Z|apply pos_nz, pow_pos, G].
  Qed.
  Lemma growth_prc p : made (cPRC p) -> forall c, known (given "close" ob) k c -> grows c k g -> c O <> 0 -> shown "prc" ob k = from (nat_arg p) k (Fin (r4 (zq 100 * (g ^ nat_arg p - 1)))).
  Proof.
    intros M c K C Z. rewrite (prc_from p k c M K). apply from_same. intro L. pose proof (grows_two c k g (k - nat_arg p) (nat_arg p) C ltac:(lia)) as E. replace (k - nat_arg p + nat_arg p)%nat with k in E by lia.
    apply ratio_same with (y := c (k - nat_arg p)%nat); [|unfold change; rewrite E; ring|reflexivity]. rewrite (C (k - nat_arg p)%nat) by lia. apply nz_mul; [exact Z|apply pos_nz, pow_pos, G].
  Qed.
  Lemma growth_vrc p : made (cVRC p) -> forall c, known (given "volume" ob) k c -> grows c k w -> c O <> 0 -> shown "vrc" ob k = from (nat_arg p) k (Fin (r4 (zq 100 * (w ^ nat_arg p - 1)))).
  Proof.
    intros M c K C Z. rewrite (volume_rate_of_change_shown o raw b ob W p k c M K). cbv zeta. apply from_same. intro L. pose proof (grows_two c k w (k - nat_arg p) (nat_arg p) C ltac:(lia)) as E. replace (k - nat_arg p + nat_arg p)%nat with k in E by lia.
    apply ratio_same with (y := c (k - nat_arg p)%nat); [|unfold change; rewrite E; ring|reflexivity]. rewrite (C (k - nat_arg p)%nat) by lia. apply nz_mul; [exact Z|apply pos_nz, pow_pos, GW].
  Qed.
  Lemma growth_prf p q : made (cPRF p q) -> forall c, known (given "close" ob) k c -> grows c k g -> c O <> 0 -> shown "prf" ob k = Fin (r4 (g ^ k - 1)).
  Proof.
    intros M c K C Z. rewrite (performance_shown o raw b ob W p q k c M K). apply ratio_same with (y := c O); [exact Z|rewrite (C k) by lia; ring|reflexivity].
  Qed.
  Lemma growth_up c : grows c k g -> 0 < c O -> 1 <= g -> forall j, (S j <= k)%nat -> 0 < c j /\ c j <= c (S j).
  Proof.
    intros C Z G1 j J. assert (P : 0 < c j) by (rewrite (C j) by lia; replace 0 with (0 * g ^ j) by ring; apply Qcmult_lt_compat_r; [apply pow_pos, G|exact Z]).
    split; [exact P|]. rewrite (grows_steps c k g C j) by lia. replace (c j) with (1 * c j) at 1 by ring. apply Qcmult_le_compat_r; [exact G1|apply Qclt_le_weak, P].
  Qed.
  Lemma growth_down c : grows c k g -> 0 < c O -> g <= 1 -> forall j, (S j <= k)%nat -> 0 < c j /\ c (S j) <= c j.
  Proof.
    intros C Z G1 j J. assert (P : 0 < c j) by (rewrite (C j) by lia; replace 0 with (0 * g ^ j) by ring; apply Qcmult_lt_compat_r; [apply pow_pos, G|exact Z]).
    split; [exact P|]. rewrite (grows_steps c k g C j) by lia. replace (c j) with (1 * c j) at 2 by ring. apply Qcmult_le_compat_r; [exact G1|apply Qclt_le_weak, P].
  Qed.
  Lemma up_to_max c a n : (forall j, (a <= j)%nat -> (S j <= a + n)%nat -> c j <= c (S j)) -> max_to c a n = c (a + n)%nat /\ min_to c a n = c a.
  Proof.
    induction n as [|n IH]; intro H; cbn [max_to min_to]; [rewrite Nat.add_0_r; auto|]. destruct IH as [-> ->]; [intros; apply H; lia|]. split.
    - apply larger_r. rewrite Nat.add_succ_r. apply H; lia.
    - apply smaller_l. assert (E : forall m, (m <= S n)%nat -> c a <= c (a + m)%nat) by (induction m as [|m IM]; intro L; [rewrite Nat.add_0_r; apply Qcle_refl|]; eapply Qcle_trans; [apply IM; lia|]; rewrite Nat.add_succ_r; apply H; lia). apply E. lia.
  Qed.
  Lemma down_to_max c a n : (forall j, (a <= j)%nat -> (S j <= a + n)%nat -> c (S j) <= c j) -> max_to c a n = c a /\ min_to c a n = c (a + n)%nat.
  Proof.
    induction n as [|n IH]; intro H; cbn [max_to min_to]; [rewrite Nat.add_0_r; auto|]. destruct IH as [-> ->]; [intros; apply H; lia|]. split.
    - apply larger_l. assert (E : forall m, (m <= S n)%nat -> c (a + m)%nat <= c a) by (induction m as [|m IM]; intro L; [rewrite Nat.add_0_r; apply Qcle_refl|]; eapply Qcle_trans; [|apply IM; lia]; rewrite Nat.add_succ_r; apply H; lia). apply E. lia.
    - unfold smaller. destruct (qltb_spec (c (a + S n)%nat) (c (a + n)%nat)) as [Q|Q]; [reflexivity|]. apply Qcnot_lt_le in Q. rewrite Nat.add_succ_r in *. apply Qcle_antisym; [exact Q|apply H; lia].
  Qed.
  Lemma sum_changes c (f : Qc -> Qc) s n : (1 <= n <= k)%nat -> (forall j, (S k - n <= j <= k)%nat -> f (change 1 c j) = s * change 1 c j) -> sum_last (fun j => f (change 1 c j)) n k = s * (c k - c (k - n)%nat).
  Proof.
    intros N H. unfold sum_last. assert (E : forall m, (m <= n)%nat -> total (fun j => f (change 1 c (S k - n + j)%nat)) m = s * (c (k - n + m)%nat - c (k - n)%nat)).
    { induction m as [|m IH]; intro M; cbn [total]; [rewrite Nat.add_0_r; ring|]. rewrite IH by lia. rewrite H by lia. unfold change.
      replace (S k - n + m)%nat with (k - n + S m)%nat by lia. replace (k - n + S m - 1)%nat with (k - n + m)%nat by lia. ring. }
    rewrite E by lia. replace (k - n + n)%nat with k by lia. reflexivity.
  Qed.
  Lemma growth_nz c n : grows c k g -> 0 < c O -> g <> 1 -> (1 <= n)%nat -> (n <= k)%nat -> c (k - n)%nat <> 0 /\ g ^ n - 1 <> 0.
  Proof.
    intros C Z G1 N L. split; [rewrite (C (k - n)%nat) by lia; apply nz_mul; [apply pos_nz, Z|apply pos_nz, pow_pos, G]|].
    intro E. assert (P : forall m, (g < 1 -> g ^ S m <= g) /\ (1 < g -> g <= g ^ S m)).
    { induction m as [|m [A B]]; [cbn [Qcpower]; split; intros _; replace (g * 1) with g by ring; apply Qcle_refl|]. change (g ^ S (S m)) with (g * g ^ S m). pose proof (pow_pos g (S m) G) as PM. split; intro Q.
      - eapply Qcle_trans; [|apply (A Q)]. replace (g ^ S m) with (1 * g ^ S m) at 2 by ring. apply Qcmult_le_compat_r; apply Qclt_le_weak; assumption.
      - eapply Qcle_trans; [apply (B Q)|]. replace (g ^ S m) with (1 * g ^ S m) at 1 by ring. apply Qcmult_le_compat_r; apply Qclt_le_weak; assumption. }
    destruct n as [|n]; [lia|]. destruct (P n) as [A B]. assert (E1 : g ^ S n = 1) by (transitivity (g ^ S n - 1 + 1); [ring|rewrite E; ring]). rewrite E1 in A, B.
    destruct (Qc_dec g 1) as [[Q|Q]|Q]; [exact (Qclt_not_le _ _ Q (A Q))|exact (Qclt_not_le _ _ Q (B Q))|exact (G1 Q)].
  Qed.
  Lemma growth_vhf p : made (cVHF p) -> forall c, known (given "close" ob) k c -> grows c k g -> 0 < c O -> g <> 1 ->
    shown "vhf" ob k = from (nat_arg p) k (Fin (r4 ((g ^ nat_arg p - g) / (g ^ nat_arg p - 1)))).
  Proof.
    intros M c K C Z G1. per p. rewrite (vertical_horizontal_filter_shown o raw b ob W p k c M K). cbv zeta. apply from_same. intro L. set (n := nat_arg p) in *. destruct (growth_nz c n C Z G1 P L) as [N1 N2].
    pose proof (grows_two c k g (k - n) n C ltac:(lia)) as E. replace (k - n + n)%nat with k in E by lia.
    assert (E1 : c (S k - n)%nat = g * c (k - n)%nat) by (replace (S k - n)%nat with (S (k - n)) by lia; apply (grows_steps c k g C); lia).
    unfold max_last, min_last. destruct (Qclt_le_dec g 1) as [Q|Q].
    - apply Qclt_le_weak in Q. pose proof (growth_down c C Z Q) as D. destruct (down_to_max c (S k - n) (n - 1)) as [-> ->]; [intros j J J2; apply D; lia|]. replace (S k - n + (n - 1))%nat with k by lia.
      rewrite (sum_changes c abs (- (1)) n) by (lia || (intros j J; rewrite abs_neg; [ring|]; unfold change; destruct j as [|j]; [lia|]; replace (S j - 1)%nat with j by lia; pose proof (proj2 (D j ltac:(lia))); qlra)).
      apply ratio_same with (y := - (1) * (c k - c (k - n)%nat)); [| |reflexivity].
      + rewrite E. replace (- (1) * (c (k - n)%nat * g ^ n - c (k - n)%nat)) with (- (c (k - n)%nat * (g ^ n - 1))) by ring. apply nz_opp, nz_mul; assumption.
      + rewrite E1, E. field. exact N2.
    - pose proof (growth_up c C Z Q) as D. destruct (up_to_max c (S k - n) (n - 1)) as [-> ->]; [intros j J J2; apply D; lia|]. replace (S k - n + (n - 1))%nat with k by lia.
      rewrite (sum_changes c abs 1 n) by (lia || (intros j J; rewrite abs_pos; [ring|]; unfold change; destruct j as [|j]; [lia|]; replace (S j - 1)%nat with j by lia; pose proof (proj2 (D j ltac:(lia))); qlra)).
      apply ratio_same with (y := 1 * (c k - c (k - n)%nat)); [| |reflexivity].
      + rewrite E. replace (1 * (c (k - n)%nat * g ^ n - c (k - n)%nat)) with (c (k - n)%nat * (g ^ n - 1)) by ring. apply nz_mul; assumption.
      + rewrite E1, E. field. exact N2.
  Qed.
  Lemma growth_uo : made cUO -> forall h l c, known (given "high" ob) k h -> known (given "low" ob) k l -> known (given "close" ob) k c -> grows h k g -> grows l k g -> grows c k g ->
    (forall j, (j <= k)%nat -> l j < h j) -> shown "uosc" ob k = from 28 k (shown "uosc" ob 28).
  Proof.
    intros M h l c KH KL K H L0 C HL. apply grows_steps in C. apply grows_steps in H. apply grows_steps in L0.
    assert (SP : steps 1 k g (pressure l c)). { intros j J S1. unfold pressure, true_low. rewrite (C j), (L0 j) by lia. replace (S j - 1)%nat with (S (j - 1)) by lia. rewrite (C (j - 1)%nat) by lia. rewrite (smaller_grow g G). ring. }
    assert (SR : steps 1 k g (reach h l c)). { intros j J S1. unfold reach, true_low, true_high. rewrite (H j), (L0 j) by lia. replace (S j - 1)%nat with (S (j - 1)) by lia. rewrite (C (j - 1)%nat) by lia. rewrite (smaller_grow g G), (larger_grow g G). ring. }
    assert (RP : forall j, (j <= k)%nat -> 0 < reach h l c j).
    { intros j J. unfold reach, true_low, true_high, larger, smaller. pose proof (HL j J) as Q. destruct (qltb_spec (h j) (c (j - 1)%nat)) as [A|A], (qltb_spec (c (j - 1)%nat) (l j)) as [B|B]; try apply Qcnot_lt_le in A; try apply Qcnot_lt_le in B; qlra. }
    assert (TP : forall f n, (1 <= n)%nat -> (forall j, (j < n)%nat -> 0 < f j) -> 0 < total f n).
    { intros f n. induction n as [|n IH]; intros N F; [lia|]. cbn [total]. pose proof (F n ltac:(lia)). destruct n; [cbn [total]; qlra|]. pose proof (IH ltac:(lia) ltac:(intros; apply F; lia)). qlra. }
    assert (NZ : forall j, (j <= k)%nat -> (28 <= j)%nat -> forall x, In x [7; 14; 28]%nat -> sum_last (reach h l c) x j <> 0).
    { intros j J J2 x X. apply pos_nz. unfold sum_last. apply TP; [cbn in X; lia|]. intros i I. apply RP. cbn in X. lia. }
    eapply even_after; [intros j J; apply (ultimate_oscillator_shown o raw b ob W j h l c M); [intros x X J2; apply NZ; assumption|less|less|less]|]. intros j J L. cbv beta. do 2 f_equal.
    assert (E : forall x, In x [7; 14; 28]%nat -> sum_last (pressure l c) x (S j) / sum_last (reach h l c) x (S j) = sum_last (pressure l c) x j / sum_last (reach h l c) x j).
    { intros x X. rewrite (steps_sum k g _ 1 SP x ltac:(cbn in X; lia) j) by (cbn in X; lia). rewrite (steps_sum k g _ 1 SR x ltac:(cbn in X; lia) j) by (cbn in X; lia). field. split; [apply NZ; [lia|lia|exact X]|apply pos_nz, G]. }
    rewrite !E by (cbn; auto). reflexivity.
  Qed.
  Lemma growth_cmf p : made (cCMF p) -> forall h l c v, known (given "high" ob) k h -> known (given "low" ob) k l -> known (given "close" ob) k c -> known (given "volume" ob) k v ->
    grows h k g -> grows l k g -> grows c k g -> grows v k w -> (forall j, (j <= k)%nat -> l j <= c j /\ c j <= h j /\ l j < h j) -> shown "cmf" ob k = from (nat_arg p - 1) k (shown "cmf" ob (nat_arg p - 1)).
  Proof.
    intros M h l c v KH KL K KV H L0 C V0 HL. apply grows_steps in C. apply grows_steps in H. apply grows_steps in L0. apply grows_steps in V0. per p.
    eapply even_after; [intros j J; apply (chaikin_money_flow_shown o raw b ob W p j c v h l M); [intros i I; apply HL; lia|less|less|less|less]|]. intros j J L. cbv beta. f_equal.
    assert (A : steps 0 k w (fun j => adl_move (h j) (l j) (c j) (v j))).
    { intros i I S1. unfold adl_move. rewrite (H i), (L0 i), (C i), (V0 i) by lia. rewrite (lt_grow g G). destruct (qltb (l i) (h i)); [|ring]. assert (N : h i - l i <> 0) by (pose proof (HL i ltac:(lia)) as (_ & _ & Q); intro E; apply (Qclt_not_le _ _ Q); qlra). assert (N2 : g * h i - g * l i <> 0) by (replace (g * h i - g * l i) with (g * (h i - l i)) by ring; apply nz_mul; [apply pos_nz, G|exact N]). field. split; assumption. }
    rewrite (steps_sum k w _ 0 A _ P j) by lia. rewrite (steps_sum k w _ 0 V0 _ P j) by lia. apply ratio_grow, GW.
  Qed.
End Growth.

Section GrowthSig.
  Variables (o : oracle) (raw : rawframe) (b : bool) (st : obj) (g w : Qc).
  Hypothesis G : 0 < g. Hypothesis GW : 0 < w.
  Lemma settled_working ct name a cols : working o ct raw b st -> In (name, a, cols) (settled ct) -> all_grown cols st (days_given st - 1) g w ->
    exists v, (forall j, (j < days_shown st)%nat -> shown name st j = from a j v) /\
    wf_raw raw /\ exists ob, snd (construct o ct (RFrame raw) (VBool b)) = Ok ob /\ v = shown name ob a /\ days_given st = days_shown st /\ (forall nm j, (j < days_given st)%nat -> given nm st j = given nm ob j).
  Proof.
    intros W0 I A. assert (D : is_dpo (asked ct) = false) by (destruct ct; try reflexivity; contradiction). destruct (full_of _ _ _ _ _ W0 D) as (WR & ob & H & DS & GV & SH).
    exists (shown name ob a). split; [|split; [exact WR|exists ob; auto]]. intros j J. rewrite SH by exact J. apply (settled_shown o raw b ob j g w WR G GW ct name a cols H I).
    intros x X. destruct (A x X) as (f & K & GF). exists f. split.
    - intros i I2. rewrite <- GV by lia. apply K. lia.
    - eapply grows_less; [exact GF|lia].
  Qed.
  Lemma from_not_three (x : nat -> num) a v n : (forall d, (1 <= d <= n)%nat -> x d = from a (n - d) v) -> (3 <= n)%nat -> ~ rising3 x /\ ~ falling3 x.
  Proof.
    intros E N. pose proof (E 1%nat ltac:(lia)) as E1. pose proof (E 2%nat ltac:(lia)) as E2. unfold rising3, falling3. rewrite E1, E2. unfold from. destruct (Nat.ltb_spec (n - 1) a), (Nat.ltb_spec (n - 2) a); try lia.
    - split; intros [A B]; destruct v, (x 3%nat); cbn in *; contradiction.
    - split; intros [A B]; destruct v, (x 3%nat); cbn in *; contradiction.
    - split; intros [A B]; exact (no_two _ _ B B).
  Qed.
  Lemma growth_holds ct : working o ct raw b st -> never_signals ct = true -> (forall name a cols, In (name, a, cols) (settled ct) -> all_grown cols st (days_given st - 1) g w) ->
    (forall j, (j < days_given st)%nat -> given "close" st j <> Fin 0) -> get_ti_signal st = Ok Hold.
  Proof.
    intros W0 N A Z. 
    assert (T : forall name a cols, In (name, a, cols) (settled ct) -> exists v, (forall d, (1 <= d <= days_shown st)%nat -> ago name st d = from a (days_shown st - d) v)).
    { intros name a cols I. destruct (settled_working ct name a cols W0 I (A _ _ _ I)) as (v & E & _). exists v. intros d D. unfold ago. apply E. lia. }
    assert (LV : forall name up su down sd a cols, level_rule ct = Some (name, up, su, down, sd) -> In (name, a, cols) (settled ct) -> get_ti_signal st = Ok Hold).
    { intros name up su down sd a cols LR I. destruct (T name a cols I) as (v & E). apply (answers_hold _ _ _ _ _ _ (C54_crossing_a_level o raw b st ct name up su down sd LR W0)). intro N2.
      split; [exact (proj1 (same_no_level _ a v _ (level up) E N2))|exact (proj2 (same_no_level _ a v _ (level down) E N2))]. }
    assert (TH : forall name sa sb a cols, three_rule ct = Some (name, sa, sb) -> In (name, a, cols) (settled ct) -> get_ti_signal st = Ok Hold).
    { intros name sa sb a cols LR I. destruct (T name a cols I) as (v & E). apply (answers_hold _ _ _ _ _ _ (C67_three_days o raw b st ct name sa sb LR W0)). intro N2. exact (from_not_three _ a v _ E N2). }
    destruct ct; try discriminate N; try (eapply LV; [reflexivity|left; reflexivity]); try (eapply TH; [reflexivity|left; reflexivity]).
    - (* MOM *) pose proof (A _ _ _ (or_introl eq_refl)) as AG. destruct (settled_working _ _ _ _ W0 (or_introl eq_refl) AG) as (v & E & WR & ob & H & EV & DS & GV).
      destruct (AG "close" (or_introl eq_refl)) as (c & K & C). cbn in C.
      destruct (Nat.lt_ge_cases (nat_arg period) (days_shown st)) as [L|L].
      + assert (V : v = Fin (r4 (zq 100 * g ^ nat_arg period))).
        { rewrite EV. rewrite (growth_mom o raw b ob (nat_arg period) g WR G period H c); [apply from_ge; lia|intros i I; rewrite <- GV by lia; apply K; lia|eapply grows_less; [exact C|lia]|].
          intro X. apply (Z O); [lia|]. rewrite (K O) by lia. rewrite X. reflexivity. }
        set (q := r4 (zq 100 * g ^ nat_arg period)) in *. assert (LI : listed (shown "mom" st) (days_shown st) (nat_arg period) (fun _ => q)) by (intros j J; rewrite E by exact J; rewrite V; reflexivity).
        apply (answers_hold _ _ _ _ _ _ (C54_momentum o raw b st period (nat_arg period) (fun _ => q) W0 LI)). intro N9.
        unfold crossed_above, crossed_below, ago. rewrite (E (days_shown st - 1)%nat) by lia. rewrite V. unfold from. destruct (Nat.ltb_spec (days_shown st - 1) (nat_arg period)); [lia|]. destruct (Nat.ltb_spec (days_shown st - 1) (nat_arg period + 8)); [split; intros [_ B]; cbn in B; contradiction|].
        rewrite (ema_same_value (nat_arg period) 9 (fun _ => q) q (days_shown st - 1)) by (lia || reflexivity). split; intros [_ B]; cbn in B; exact (Qclt_not_le _ _ B (Qcle_refl _)).
      + assert (LI : listed (shown "mom" st) (days_shown st) (nat_arg period) (fun _ => 0)) by (intros j J; rewrite E by exact J; unfold from; destruct (Nat.ltb_spec j (nat_arg period)); [reflexivity|lia]).
        apply (answers_hold _ _ _ _ _ _ (C54_momentum o raw b st period (nat_arg period) (fun _ => 0) W0 LI)). intro N9.
        unfold crossed_above, crossed_below, ago. rewrite (E (days_shown st - 1)%nat) by lia. unfold from. destruct (Nat.ltb_spec (days_shown st - 1) (nat_arg period)); [|lia]. split; intros [_ B]; destruct (_ <? _)%nat in B; cbn in B; contradiction.
    - (* VHF *) pose proof (A _ _ _ (or_introl eq_refl)) as AG. destruct (T _ _ _ (or_introl eq_refl)) as (v & E). destruct (AG "close" (or_introl eq_refl)) as (c & K & C).
      assert (KC : forall j, (j < days_given st)%nat -> given "close" st j = Fin (c j)) by (intros j J; apply K; lia).
      apply (answers_hold _ _ _ _ _ _ (C67_vertical_horizontal_filter o raw b st period c W0 KC (fun j J X => Z j J ltac:(rewrite (KC j J), X; reflexivity)))). intro N3.
      destruct (from_not_three _ _ _ _ E N3) as [R F3]. split; [intros [[X _]|[X _]]|intros [X _]]; contradiction.
    - (* WR *) destruct (T _ _ _ (or_introl eq_refl)) as (v & E). apply (answers_hold _ _ _ _ _ _ (C68_williams_r o raw b st period W0)). intro N2.
      destruct (same_no_level _ _ v _ (level (-50)) E N2) as [R F3]. split; intros [_ X]; contradiction.
  Qed.
End GrowthSig.
