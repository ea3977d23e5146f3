(** * ClimbApi: published values, signals and simulations on a market that rises every day, or falls every day. *)
From Coq Require Import ZArith QArith Qcanon Bool List String PeanoNat Lia.
From Verif Require Import Num NumFacts RoundFacts Pandas Sim Frame FrameSpec FrameProofs SimSpec SimProofs SimLemmas SimLimit Ind Signal Api IndSpec SeriesFacts Lengths Causal IndFacts Shape ApiSpec ApiCheck ApiProofs ApiLemmas RangeSpec Cells RangeFacts RangeMore Publish RangeApi ValueSpec ValueFacts ValueMore Recur ValueApi CumulApi.
From Verif Require Import FormulaSpec Starts Formula Formula2 Formula3 Formula4 Line Formula5 Formula6 FormulaApi IdentFacts MirrorSpec OrderFacts OrderApi OrderApi2 SwaySpec SwayFacts SignalSpec SteadySpec SteadyFacts SignalApi SteadyApi SteadySig OneWaySpec OneWay OneWayApi GrowthSpec GrowthFacts GrowthApi ClimbSpec ClimbFacts.
From Verif Require Import PropsSignal PropsSignal2.
Import ListNotations.
Open Scope list_scope. Open Scope string_scope. Open Scope Qc_scope.

Lemma tick_le : 0 <= tick4. Proof. discriminate. Qed.
Lemma gain_up x : 0 < x -> gain x = x /\ loss x = 0.
Proof. intro H. split; [apply gain_pos; exact H|apply loss_pos, Qclt_le_weak, H]. Qed.
Lemma gain_down x : x < 0 -> gain x = 0 /\ loss x = - x.
Proof. intro H. split; [apply gain_neg, Qclt_le_weak, H|apply loss_neg, H]. Qed.

Section Values.
  Variables (o : oracle) (raw : rawframe) (b : bool) (ob : obj) (k : nat) (c : nat -> Qc).
  Hypothesis W : wf_raw raw.
  Hypothesis KC : known (given "close" ob) k c.
  Notation made ct := (snd (construct o ct (RFrame raw) (VBool b)) = Ok ob).
  Ltac per p := assert (P : (1 <= nat_arg p)%nat) by (let fr := fresh in let V := fresh in let VV := fresh in look fr V VV; lia).

  Lemma averages_smooth t p a : made (cMA p (VStr t)) -> smooth t (nat_arg p) = Some a -> exists v, shown ("ma-" ++ t) ob k = from a k (Fin (r4 v)) /\
    ((a <= k)%nat -> forall e, 0 <= e -> (climbs_by e c k -> v < c k - half * e) /\ (sinks_by e c k -> - v < - c k - half * e)).
  Proof.
    intros M SM. unfold smooth in SM. destruct (String.eqb_spec t "simple") as [->|_]; [|destruct (String.eqb_spec t "triangular") as [->|_]; [|destruct (String.eqb_spec t "exponential") as [->|_]; [|discriminate]]].
    - destruct (Nat.leb_spec 2 (nat_arg p)) as [P|P]; [|discriminate]. injection SM as <-. exists (mean_last c (nat_arg p) k). split; [exact (simple_moving_average_shown o raw b ob W p k c M KC)|]. intros A e E.
      split; intro H; [apply mean_lag; auto; lia|]. apply sinks_opp in H. rewrite <- mean_neg by lia. apply (mean_lag e (fun j => - c j)); auto; lia.
    - destruct (Nat.leb_spec 2 (nat_arg p)) as [P|P]; [|discriminate]. injection SM as <-. exists (mean_last (mean_last c (nat_arg p)) (nat_arg p) k). split; [exact (triangular_moving_average_shown o raw b ob W p k c M KC)|]. intros A e E.
      split; intro H; [apply mean_mean_lag; auto; lia|]. apply sinks_opp in H. rewrite <- mean_mean_neg by lia. apply (mean_mean_lag e (fun j => - c j)); auto; lia.
    - destruct (Nat.leb_spec 3 (nat_arg p)) as [P|P]; [|discriminate]. injection SM as <-. exists (ema_from 0 (nat_arg p) c k). split; [exact (exponential_moving_average_shown o raw b ob W p k c M KC)|]. intros A e E.
      split; intro H; [apply ema_lag; auto; lia|]. apply sinks_opp in H. rewrite <- ema_neg. apply (ema_lag e (fun j => - c j)); auto; lia.
  Qed.
  Lemma average_sides t p a : made (cMA p (VStr t)) -> smooth t (nat_arg p) = Some a -> exists v, shown ("ma-" ++ t) ob k = from a k (Fin v) /\
    ((a <= k)%nat -> (climbs_by tick4 c k -> v < c k) /\ (sinks_by tick4 c k -> c k < v) /\ (climbs_by 0 c k -> v <= r4 (c k)) /\ (sinks_by 0 c k -> r4 (c k) <= v)).
  Proof.
    intros M SM. destruct (averages_smooth t p a M SM) as (v & E & H). exists (r4 v). split; [exact E|]. intro A. specialize (H A). split; [|split; [|split]]; intro C.
    - apply seen_below, (H tick4 tick_le), C.
    - apply seen_above, (H tick4 tick_le), C.
    - apply r4_le. pose proof (proj1 (H 0 (Qcle_refl 0)) C) as X. rewrite Qcmult_0_r in X. qlra.
    - apply r4_le. pose proof (proj2 (H 0 (Qcle_refl 0)) C) as X. rewrite Qcmult_0_r in X. qlra.
  Qed.

  Lemma climb_cmo p : made (cCMO p) -> climbs_by 0 c k -> shown "cmo" ob k = from (nat_arg p) k (level 100).
  Proof.
    intros M H. per p. rewrite (chande_momentum_shown o raw b ob W _ k c M KC). cbv zeta. apply from_same. intro G.
    assert (U : forall j, (S k - nat_arg p <= j <= k)%nat -> 0 < change 1 c j) by (intros j J; apply (climb_change c k); auto; lia).
    rewrite (SteadyFacts.sum_same (fun j => loss (change 1 c j)) 0) by (lia || (intros j J; apply (gain_up _ (U j J)))).
    assert (S0 : 0 < sum_last (fun j => gain (change 1 c j)) (nat_arg p) k). { unfold sum_last. pose proof (total_gt (fun j => gain (change 1 c (S k - nat_arg p + j)%nat)) 0 (nat_arg p) P ltac:(intros j J; assert (Y : 0 < change 1 c (S k - nat_arg p + j)%nat) by (apply U; lia); cbv beta; rewrite (proj1 (gain_up _ Y)); exact Y)) as X. rewrite Qcmult_0_r in X. exact X. }
    set (s := sum_last _ _ _) in *. clearbody s. rewrite (ratio_same _ _ s (zq 100)) by first [apply qc_pos_neq0, S0|ring]. unfold level. rewrite r4_level. reflexivity.
  Qed.
  Lemma sink_cmo p : made (cCMO p) -> sinks_by 0 c k -> shown "cmo" ob k = from (nat_arg p) k (level (-100)).
  Proof.
    intros M H. per p. rewrite (chande_momentum_shown o raw b ob W _ k c M KC). cbv zeta. apply from_same. intro G.
    assert (U : forall j, (S k - nat_arg p <= j <= k)%nat -> change 1 c j < 0) by (intros j J; apply (sink_change c k); auto; lia).
    rewrite (SteadyFacts.sum_same (fun j => gain (change 1 c j)) 0) by (lia || (intros j J; apply (gain_down _ (U j J)))).
    assert (S0 : 0 < sum_last (fun j => loss (change 1 c j)) (nat_arg p) k). { unfold sum_last. pose proof (total_gt (fun j => loss (change 1 c (S k - nat_arg p + j)%nat)) 0 (nat_arg p) P ltac:(intros j J; assert (Y : change 1 c (S k - nat_arg p + j)%nat < 0) by (apply U; lia); cbv beta; rewrite (proj2 (gain_down _ Y)); qlra)) as X. rewrite Qcmult_0_r in X. exact X. }
    set (s := sum_last (fun j => loss _) _ _) in *. clearbody s. rewrite (ratio_same _ _ s (zq (-100))) by first [apply qc_pos_neq0, S0|change (zq (-100)) with (- zq 100); ring]. unfold level. rewrite r4_level. reflexivity.
  Qed.
  Lemma climb_rmi p q : made (cRMI p q) -> climbs_by 0 c k -> shown "rmi" ob k = NaN.
  Proof.
    intros M H. assert (P : (1 <= nat_arg p)%nat /\ (1 <= nat_arg q)%nat) by (look fr V VV; lia). destruct P as [P P2]. rewrite (relative_momentum_shown o raw b ob W _ _ k c M KC). cbv zeta. unfold from. destruct (Nat.ltb_spec k (nat_arg p + nat_arg q - 1)) as [L|L]; [reflexivity|].
    assert (Z : wilder_from (nat_arg q) (nat_arg p) (fun j => loss (change (nat_arg q) c j)) k = 0).
    { unfold wilder_from, run_from. assert (E : forall j, (nat_arg q <= j <= k)%nat -> loss (change (nat_arg q) c j) = 0) by (intros j J; apply gain_up, (climb_change c k); auto; lia). rewrite (SteadyFacts.mean_same _ 0 (nat_arg p)) by (lia || (intros j J; apply E; lia)). apply run_same; [unfold wilders; field; apply nq_neq, P|intros j J; apply E; lia]. }
    rewrite Z. reflexivity.
  Qed.
  Lemma sink_rmi p q : made (cRMI p q) -> sinks_by 0 c k -> shown "rmi" ob k = from (nat_arg p + nat_arg q - 1) k (level 0).
  Proof.
    intros M H. assert (P : (1 <= nat_arg p)%nat /\ (1 <= nat_arg q)%nat) by (look fr V VV; lia). destruct P as [P P2]. rewrite (relative_momentum_shown o raw b ob W _ _ k c M KC). cbv zeta. apply from_same. intro L.
    assert (Z : wilder_from (nat_arg q) (nat_arg p) (fun j => gain (change (nat_arg q) c j)) k = 0).
    { unfold wilder_from, run_from. assert (E : forall j, (nat_arg q <= j <= k)%nat -> gain (change (nat_arg q) c j) = 0) by (intros j J; apply gain_down, (sink_change c k); auto; lia). rewrite (SteadyFacts.mean_same _ 0 (nat_arg p)) by (lia || (intros j J; apply E; lia)). apply run_same; [unfold wilders; field; apply nq_neq, P|intros j J; apply E; lia]. }
    assert (D : 0 < wilder_from (nat_arg q) (nat_arg p) (fun j => loss (change (nat_arg q) c j)) k) by (apply wilder_gt; [exact P|lia|]; intros j J; assert (X : change (nat_arg q) c j < 0) by (apply (sink_change c k); auto; lia); rewrite (proj2 (gain_down _ X)); qlra).
    rewrite Z. clear Z. set (y := wilder_from _ _ _ k) in *. clearbody y. assert (NY : y <> 0) by (apply qc_pos_neq0, D). destruct (qeqb y 0) eqn:E; [apply qeqb_iff in E; contradiction|]. unfold level. f_equal. replace (zq 100 * 0 / (0 + y)) with 0; [apply Qc_is_canon; reflexivity|]. unfold Qcdiv. ring.
  Qed.
  Lemma tick_rounds : r4 tick4 = tick4. Proof. apply Qc_is_canon. reflexivity. Qed.
  Lemma average_big n f : (1 <= n)%nat -> (n <= k)%nat -> (forall j, (1 <= j <= k)%nat -> tick4 <= f j) -> 0 < run_from n (fun prev y => r4 (wilders n prev y)) (mean_last f n n) f k.
  Proof.
    intros P G H. apply (Qclt_le_trans _ tick4); [reflexivity|]. unfold run_from. assert (X : forall m, (n + m <= k)%nat -> tick4 <= run (fun prev y => r4 (wilders n prev y)) (mean_last f n n) (fun j => f (n + j)%nat) m).
    { induction m as [|m IH]; intro M; cbn [run].
      - apply Qcnot_lt_le. intro L. assert (Y : mean_last f n n < mean_last f n n) by (apply mean_gt; [exact P|lia|]; intros j J; apply (Qclt_le_trans _ _ _ L), H; lia). exact (Qclt_not_eq _ _ Y eq_refl).
      - rewrite <- tick_rounds. apply r4_le. specialize (IH ltac:(lia)). set (a := run _ _ _ m) in *. clearbody a. apply Qcnot_lt_le. intro L.
        assert (Y : wilders n a (f (n + S m)%nat) < wilders n a (f (n + S m)%nat)) by (apply wilders_lt; [exact P|exact (Qclt_le_trans _ _ _ L IH)|apply (Qclt_le_trans _ _ _ L), H; lia]). exact (Qclt_not_eq _ _ Y eq_refl). }
    apply X. lia.
  Qed.
  Lemma none_average n : (1 <= n)%nat -> (n <= k)%nat -> forall f, (forall j, (1 <= j <= k)%nat -> f j = 0) -> run_from n (fun prev y => r4 (wilders n prev y)) (mean_last f n n) f k = 0.
  Proof. intros P G f H. apply steady_average; auto; exact r4_0. Qed.
  Lemma climb_rsi p : made (cRSI p) -> climbs_by tick4 c k -> shown "rsi" ob k = from (nat_arg p) k (level 100).
  Proof.
    intros M H. per p. rewrite (relative_strength_shown o raw b ob W _ k c M KC). cbv zeta. apply from_same. intro G. assert (U : forall j, (1 <= j <= k)%nat -> tick4 < change 1 c j) by (intros j J; apply (change_tick c k); auto).
    assert (U0 : forall j, (1 <= j <= k)%nat -> 0 < change 1 c j) by (intros j J; apply (Qclt_trans _ tick4); [reflexivity|apply U, J]).
    rewrite (none_average (nat_arg p) P G (fun j => r4 (loss (change 1 c j)))) by (intros j J; rewrite (proj2 (gain_up _ (U0 j J))); exact r4_0).
    assert (S0 : 0 < run_from (nat_arg p) (fun prev y => r4 (wilders (nat_arg p) prev y)) (mean_last (fun j => r4 (gain (change 1 c j))) (nat_arg p) (nat_arg p)) (fun j => r4 (gain (change 1 c j))) k).
    { apply average_big; auto. intros j J. rewrite (proj1 (gain_up _ (U0 j J))), <- tick_rounds. apply r4_le, Qclt_le_weak, U, J. }
    set (s := run_from _ _ _ _ _) in *. clearbody s. rewrite (ratio_same _ _ s (zq 100)) by first [apply qc_pos_neq0, S0|ring]. unfold level. rewrite r4_level. reflexivity.
  Qed.
  Lemma sink_rsi p : made (cRSI p) -> sinks_by tick4 c k -> shown "rsi" ob k = from (nat_arg p) k (level 0).
  Proof.
    intros M H. per p. rewrite (relative_strength_shown o raw b ob W _ k c M KC). cbv zeta. apply from_same. intro G. assert (U : forall j, (1 <= j <= k)%nat -> change 1 c j < - tick4) by (intros j J; apply (change_tick_down c k); auto).
    assert (U0 : forall j, (1 <= j <= k)%nat -> change 1 c j < 0) by (intros j J; apply (Qclt_trans _ (- tick4)); [apply U, J|reflexivity]).
    rewrite (none_average (nat_arg p) P G (fun j => r4 (gain (change 1 c j)))) by (intros j J; rewrite (proj1 (gain_down _ (U0 j J))); exact r4_0).
    assert (S0 : 0 < run_from (nat_arg p) (fun prev y => r4 (wilders (nat_arg p) prev y)) (mean_last (fun j => r4 (loss (change 1 c j))) (nat_arg p) (nat_arg p)) (fun j => r4 (loss (change 1 c j))) k).
    { apply average_big; auto. intros j J. rewrite (proj2 (gain_down _ (U0 j J))), <- tick_rounds. apply r4_le. specialize (U j J). set (e := tick4) in *. clearbody e. qlra. }
    set (s := run_from _ _ _ _ _) in *. clearbody s. rewrite (ratio_same _ _ s (zq 0)) by first [apply qc_pos_neq0, S0|change (zq 0) with 0; ring]. unfold level. rewrite r4_level. reflexivity.
  Qed.
  Lemma one_way_vhf p : made (cVHF p) -> climbs_by 0 c k \/ sinks_by 0 c k -> let n := nat_arg p in shown "vhf" ob k = from n k (Fin (r4 ((c k - c (S k - n)%nat) / (c k - c (k - n)%nat)))).
  Proof.
    intros M H n. unfold n. per p. rewrite (vertical_horizontal_filter_shown o raw b ob W _ k c M KC). cbv zeta. apply from_same. intro G. fold n. fold n in P, G. unfold max_last, min_last. destruct H as [H|H].
    - destruct (up_to_max c (S k - n) (n - 1)) as [-> ->]; [intros j J J2; apply (climb_le 0 c k); auto; try lia; apply Qcle_refl|]. replace (S k - n + (n - 1))%nat with k by lia.
      rewrite (sum_changes k c abs 1 n) by (lia || (intros j J; rewrite abs_pos; [ring|apply Qclt_le_weak, (climb_change c k); auto; lia])).
      assert (X : 0 < change n c k) by (apply (climb_change c k); auto; lia). unfold change in X. apply qc_pos_neq0 in X. rewrite Qcmult_1_l. rewrite ratio_fin by exact X. reflexivity.
    - destruct (down_to_max c (S k - n) (n - 1)) as [-> ->]; [intros j J J2; apply Qclt_le_weak; specialize (H j ltac:(lia)); rewrite Qcplus_0_r in H; exact H|]. replace (S k - n + (n - 1))%nat with k by lia.
      rewrite (sum_changes k c abs (- (1)) n) by (lia || (intros j J; rewrite abs_neg; [ring|apply Qclt_le_weak, (sink_change c k); auto; lia])).
      assert (X : change n c k < 0) by (apply (sink_change c k); auto; lia). unfold change in X. assert (Y : c k - c (k - n)%nat <> 0) by (intro E; rewrite E in X; discriminate X). rewrite ratio_fin by (apply nz_mul; [discriminate|exact Y]). cbn [rn nround]. do 2 f_equal. field. split; [exact Y|discriminate].
  Qed.
  Lemma one_way_obv v : made cOBV -> known (given "volume" ob) k v ->
    (climbs_by 0 c k -> shown "obv" ob k = Fin (total (fun j => v (S j)) k)) /\ (sinks_by 0 c k -> shown "obv" ob k = Fin (- total (fun j => v (S j)) k)).
  Proof.
    intros M KV. rewrite (obv_shown_line o raw b ob W k c v M KC KV). split; intro H; f_equal.
    - assert (E : forall m, (m <= k)%nat -> obv_line c v m = total (fun j => v (S j)) m). { induction m as [|m IH]; intro L; cbn [obv_line total]; [reflexivity|]. rewrite IH by lia. specialize (H m ltac:(lia)). rewrite Qcplus_0_r in H. rewrite (lt_true _ _ H). reflexivity. } apply E. lia.
    - assert (E : forall m, (m <= k)%nat -> obv_line c v m = - total (fun j => v (S j)) m). { induction m as [|m IH]; intro L; cbn [obv_line total]; [reflexivity|]. rewrite IH by lia. specialize (H m ltac:(lia)). rewrite Qcplus_0_r in H. rewrite (lt_true _ _ H), (lt_false _ _ H). ring. } apply E. lia.
  Qed.

  Variables (h l : nat -> Qc).
  Hypothesis KH : known (given "high" ob) k h. Hypothesis KL : known (given "low" ob) k l.
  Lemma one_way_wad : made cWAD -> (climbs_by 0 c k -> shown "wad" ob k = from 1 k (Fin (r4 (c k - true_low l c k)))) /\ (sinks_by 0 c k -> shown "wad" ob k = from 1 k (Fin (r4 (c k - true_high h c k)))).
  Proof.
    intro M. rewrite (williams_accumulation_shown o raw b ob W k h l c M KH KL KC). split; intro H; apply from_same; intro G; specialize (H (k - 1)%nat ltac:(lia)); rewrite Qcplus_0_r in H; replace (S (k - 1)) with k in H by lia; rewrite ?(lt_true _ _ H), ?(lt_false _ _ H); reflexivity.
  Qed.
  Lemma dmi_one_way (s : bool) : made cDMI -> (forall j, (1 <= j <= k)%nat -> l j < h j) -> (if s then climbs_by 0 h k /\ climbs_by 0 l k else sinks_by 0 h k /\ sinks_by 0 l k) ->
    exists q, 0 <= q /\ shown (if s then "+di" else "-di") ob k = from 14 k (Fin q) /\ shown (if s then "-di" else "+di") ob k = from 14 k (level 0) /\
      shown "dx" ob k = from 14 k (level 100) /\ shown "adx" ob k = from 27 k (level 100) /\ shown "adxr" ob k = from 40 k (level 100).
  Proof.
    intros M HL MV.
    assert (TR : forall j, (1 <= j <= k)%nat -> 0 < true_range h l c j).
    { intros j J. specialize (HL j J). destruct j as [|i]; [lia|]. cbn [true_range]. apply (Qclt_le_trans _ (h (S i) - l (S i))); [qlra|]. set (a := h (S i) - l (S i)). set (x := h (S i) - c i). set (y := c i - l (S i)). clearbody a x y. unfold larger3, larger. destruct (qltb_spec a x) as [A|A]; [destruct (qltb_spec x y) as [B|B]|destruct (qltb_spec a y) as [B|B]]; qlra. }
    assert (R : forall j, (14 <= j <= k)%nat -> 0 < running (true_range h l c) j) by (intros j J; apply running_gt; [lia|]; intros i I; apply TR; lia).
    assert (R0 : forall j, (14 <= j <= k)%nat -> running (true_range h l c) j <> 0) by (intros j J; apply qc_pos_neq0, R, J).
    assert (PM : forall j, (1 <= j <= k)%nat -> if s then 0 < plus_move h l j /\ minus_move h l j = 0 else 0 < minus_move h l j /\ plus_move h l j = 0).
    { intros j J. unfold plus_move, minus_move. destruct s.
      - destruct MV as [MH ML]. specialize (MH (j - 1)%nat ltac:(lia)). specialize (ML (j - 1)%nat ltac:(lia)). replace (S (j - 1)) with j in * by lia. assert (A : 0 < up_move h j) by (unfold up_move; qlra). assert (B : down_move l j < 0) by (unfold down_move; qlra). assert (AB : down_move l j < up_move h j) by qlra. rewrite (lt_true _ _ AB), (lt_true _ _ A), (lt_false _ _ AB). cbn [andb]. auto.
      - destruct MV as [MH ML]. specialize (MH (j - 1)%nat ltac:(lia)). specialize (ML (j - 1)%nat ltac:(lia)). replace (S (j - 1)) with j in * by lia. assert (A : up_move h j < 0) by (unfold up_move; qlra). assert (B : 0 < down_move l j) by (unfold down_move; qlra). assert (AB : up_move h j < down_move l j) by qlra. rewrite (lt_true _ _ AB), (lt_true _ _ B), (lt_false _ _ AB). cbn [andb]. auto. }
    assert (DP : forall f j, (14 <= j <= k)%nat -> (forall i, (1 <= i <= k)%nat -> 0 < f i) -> 0 < directional h l c f j).
    { intros f j J F0. unfold directional. assert (A : 0 < running f j) by (apply running_gt; [lia|]; intros i I; apply F0; lia). specialize (R j J). set (x := running f j) in *. set (y := running _ j) in *. clearbody x y. apply Qcnot_le_lt. intro L. assert (N : y <> 0) by (apply qc_pos_neq0, R). assert (Y : y * (zq 100 * x / y) <= y * 0) by (apply mul_le; [apply Qclt_le_weak, R|exact L]). replace (y * (zq 100 * x / y)) with (zq 100 * x) in Y by (field; exact N). rewrite Qcmult_0_r in Y. assert (0 < zq 100 * x) by (replace 0 with (0 * x) by ring; apply Qcmult_lt_compat_r; [exact A|reflexivity]). set (w := zq 100 * x) in *. clearbody w. qlra. }
    assert (DZ : forall f j, (14 <= j <= k)%nat -> (forall i, (1 <= i <= k)%nat -> f i = 0) -> directional h l c f j = 0).
    { intros f j J F0. unfold directional. rewrite running_none by (lia || (intros i I; apply F0; lia)). unfold Qcdiv. ring. }
    assert (DI : forall j, (14 <= j <= k)%nat -> exists q, 0 < q /\ if s then plus_di h l c j = q /\ minus_di h l c j = 0 else minus_di h l c j = q /\ plus_di h l c j = 0).
    { intros j J. destruct s.
      - exists (plus_di h l c j). split; [apply DP; [exact J|intros i I; apply PM, I]|]. split; [reflexivity|]. apply DZ; [exact J|intros i I; apply PM, I].
      - exists (minus_di h l c j). split; [apply DP; [exact J|intros i I; apply PM, I]|]. split; [reflexivity|]. apply DZ; [exact J|intros i I; apply PM, I]. }
    assert (S0 : forall j, (14 <= j <= k)%nat -> plus_di h l c j + minus_di h l c j <> 0). { intros j J. destruct (DI j J) as (q & Q & E). apply qc_pos_neq0 in Q. destruct s; destruct E as [-> ->]; [rewrite Qcplus_0_r|rewrite Qcplus_0_l]; exact Q. }
    assert (DX : forall j, (14 <= j <= k)%nat -> dx_line h l c j = zq 100).
    { intros j J. unfold dx_line. destruct (DI j J) as (q & Q & E). pose proof (qc_pos_neq0 _ Q) as N. destruct s; destruct E as [-> ->]; [rewrite (abs_pos (q - 0)), (abs_pos (q + 0)) by qlra; field; rewrite ?Qcplus_0_r; exact N|]. rewrite (abs_neg (0 - q)), (abs_pos (0 + q)) by qlra. field. rewrite ?Qcplus_0_l. exact N. }
    assert (AX : forall j, (27 <= j <= k)%nat -> adx_line h l c j = zq 100).
    { intros j J. unfold adx_line, run_from. rewrite (SteadyFacts.total_same _ (zq 100)) by (intros i I; apply DX; lia). replace (nq 14 * zq 100 / zq 14) with (zq 100) by (apply Qc_is_canon; reflexivity). apply run_same; [apply Qc_is_canon; reflexivity|]. intros i I. apply DX. lia. }
    rewrite (directional_index_shown o raw b ob W k h l c M R0 S0 KH KL KC), (average_directional_index_shown o raw b ob W k h l c M R0 S0 KH KL KC), (directional_rating_shown o raw b ob W k h l c M R0 S0 KH KL KC).
    destruct (directional_lines_shown o raw b ob W k h l c M R0 KH KL KC) as [EP EM].
    assert (LAST : from 14 k (Fin (r4 (dx_line h l c k))) = from 14 k (level 100) /\ from 27 k (Fin (r4 (adx_line h l c k))) = from 27 k (level 100) /\ from 40 k (Fin (r4 ((adx_line h l c k + adx_line h l c (k - 13)) / zq 2))) = from 40 k (level 100)).
    { split; [|split]; apply from_same; intro G.
      - rewrite DX by lia. rewrite r4_level. reflexivity.
      - rewrite AX by lia. rewrite r4_level. reflexivity.
      - rewrite !AX by lia. replace ((zq 100 + zq 100) / zq 2) with (zq 100) by (apply Qc_is_canon; reflexivity). rewrite r4_level. reflexivity. }
    destruct (Nat.lt_ge_cases k 14) as [L|L].
    - exists 0. split; [apply Qcle_refl|]. rewrite (from_lt 14 k (level 0) L), (from_lt 14 k (Fin 0) L). rewrite (from_lt 14 k _ L) in EP. rewrite (from_lt 14 k _ L) in EM. destruct s; rewrite EP, EM; split; auto.
    - destruct (DI k ltac:(lia)) as (q & Q & E). exists (r4 q). split; [apply r4_nonneg, Qclt_le_weak, Q|]. change (level 0) with (Fin 0). assert (Z : Fin 0 = Fin (r4 0)) by (rewrite r4_0; reflexivity). rewrite Z. destruct s; destruct E as [E1 E2]; rewrite EP, EM, E1, E2; split; auto.
  Qed.
End Values.

(** ** signals *)
Section Signals.
  Variables (o : oracle) (raw : rawframe) (b : bool) (st : obj) (c : nat -> Qc).
  Hypothesis C : column "close" st c.
  Notation up e := (all_up e st c).
  Notation down e := (all_down e st c).

  Lemma columns_of ct : working o ct raw b st -> is_dpo (asked ct) = false -> wf_raw raw /\ days_given st = days_shown st /\ exists ob, snd (construct o ct (RFrame raw) (VBool b)) = Ok ob /\
    (forall nm f j, column nm st f -> (j < days_shown st)%nat -> known (given nm ob) j f) /\ (forall j, (j < days_shown st)%nat -> forall nm, shown nm st j = shown nm ob j).
  Proof.
    intros W D. destruct (full_of _ _ _ _ _ W D) as (WR & ob & H & DS & G & SH). split; [exact WR|]. split; [exact DS|]. exists ob. split; [exact H|]. split; [|intros j J nm; apply SH, J].
    intros nm f j F J i I. rewrite <- G by lia. apply F. lia.
  Qed.
  Lemma up_to e j : up e -> days_given st = days_shown st -> (j < days_shown st)%nat -> climbs_by e c j. Proof. intros U D J. apply (climb_less _ _ (days_given st - 1)); [exact U|lia]. Qed.
  Lemma down_to e j : down e -> days_given st = days_shown st -> (j < days_shown st)%nat -> sinks_by e c j. Proof. intros U D J. apply (sink_less _ _ (days_given st - 1)); [exact U|lia]. Qed.

  Lemma average_signals t p a : working o (cMA p (VStr t)) raw b st -> smooth t (nat_arg p) = Some a ->
    (up tick4 -> get_ti_signal st = Ok (if (a <? days_given st)%nat then Buy else Hold)) /\ (down tick4 -> get_ti_signal st = Ok Hold).
  Proof.
    intros W SM. destruct (columns_of _ W eq_refl) as (WR & DS & ob & H & KN & SH). destruct (C66_moving_average o raw b st p (VStr t) W) as [A0 A]. cbn [as_str] in A.
    destruct (Nat.lt_ge_cases (days_shown st) 1) as [N|N]. { rewrite DS. split; intros _; rewrite (A0 N); [|reflexivity]. destruct (Nat.ltb_spec a (days_shown st)); [lia|reflexivity]. }
    specialize (A N). set (k := (days_shown st - 1)%nat) in *. assert (K : (k < days_shown st)%nat) by (unfold k; lia). destruct (average_sides o raw b ob k c WR (KN _ _ _ C K) t p a H SM) as (v & E & V).
    assert (AG : ago ("ma-" ++ t) st 1 = from a k (Fin v)) by (unfold ago; fold k; rewrite (SH k K); exact E). assert (PR : SignalSpec.price "close" st 1 = Fin (c k)) by (unfold SignalSpec.price; rewrite DS; fold k; apply C; lia).
    rewrite AG, PR in A. rewrite DS. unfold from in A. destruct (Nat.ltb_spec k a) as [L|L].
    - assert (X : get_ti_signal st = Ok Hold) by (apply A; cbn; auto). rewrite X. destruct (Nat.ltb_spec a (days_shown st)); [unfold k in L; lia|]. auto.
    - destruct (Nat.ltb_spec a (days_shown st)) as [_|Y]; [|unfold k in L; lia]. destruct (V L) as (V1 & V2 & _). split; intro U; apply A; cbn; [apply V1, (up_to tick4 k U DS K)|]. intro Y. apply (Qclt_not_le _ _ Y), Qclt_le_weak, V2, (down_to tick4 k U DS K).
  Qed.
  Lemma cmo_signals p : working o (cCMO p) raw b st -> up 0 \/ down 0 -> get_ti_signal st = Ok Hold.
  Proof.
    intros W U. destruct (columns_of _ W eq_refl) as (WR & DS & ob & H & KN & SH). apply (answers_hold _ _ _ _ _ _ (C54_crossing_a_level o raw b st (cCMO p) "cmo" 50 Sell (-50) Buy eq_refl W)). intro N.
    assert (E : exists a v, forall e, (1 <= e <= days_shown st)%nat -> ago "cmo" st e = from a (days_shown st - e) v).
    { destruct U as [U|U]; eexists _, _; intros e E; unfold ago; rewrite SH by lia; [apply (climb_cmo o raw b ob _ c WR (KN _ _ (days_shown st - e)%nat C ltac:(lia)) p H), (up_to 0); auto; lia|apply (sink_cmo o raw b ob _ c WR (KN _ _ (days_shown st - e)%nat C ltac:(lia)) p H), (down_to 0); auto; lia]. }
    destruct E as (a & v & E). split; [exact (proj1 (same_no_level _ a v _ (level 50) E N))|exact (proj2 (same_no_level _ a v _ (level (-50)) E N))].
  Qed.
  Lemma rsi_signals p : working o (cRSI p) raw b st -> up tick4 \/ down tick4 -> get_ti_signal st = Ok Hold.
  Proof.
    intros W U. destruct (columns_of _ W eq_refl) as (WR & DS & ob & H & KN & SH). apply (answers_hold _ _ _ _ _ _ (C54_crossing_a_level o raw b st (cRSI p) "rsi" _ _ _ _ eq_refl W)). intro N.
    assert (E : exists a v, forall e, (1 <= e <= days_shown st)%nat -> ago "rsi" st e = from a (days_shown st - e) v).
    { destruct U as [U|U]; eexists _, _; intros e E; unfold ago; rewrite SH by lia; [apply (climb_rsi o raw b ob _ c WR (KN _ _ (days_shown st - e)%nat C ltac:(lia)) p H), (up_to tick4); auto; lia|apply (sink_rsi o raw b ob _ c WR (KN _ _ (days_shown st - e)%nat C ltac:(lia)) p H), (down_to tick4); auto; lia]. }
    destruct E as (a & v & E). split; [exact (proj1 (same_no_level _ a v _ _ E N))|exact (proj2 (same_no_level _ a v _ _ E N))].
  Qed.
  Lemma rmi_signals p q : working o (cRMI p q) raw b st -> up 0 \/ down 0 -> get_ti_signal st = Ok Hold.
  Proof.
    intros W U. destruct (columns_of _ W eq_refl) as (WR & DS & ob & H & KN & SH). apply (answers_hold _ _ _ _ _ _ (C54_crossing_a_level o raw b st (cRMI p q) "rmi" _ _ _ _ eq_refl W)). intro N.
    assert (E : exists a v, forall e, (1 <= e <= days_shown st)%nat -> ago "rmi" st e = from a (days_shown st - e) v).
    { destruct U as [U|U]; [exists 0%nat, NaN|eexists _, _]; intros e E; unfold ago; rewrite SH by lia; [apply (climb_rmi o raw b ob _ c WR (KN _ _ (days_shown st - e)%nat C ltac:(lia)) p q H), (up_to 0); auto; lia|apply (sink_rmi o raw b ob _ c WR (KN _ _ (days_shown st - e)%nat C ltac:(lia)) p q H), (down_to 0); auto; lia]. }
    destruct E as (a & v & E). split; [exact (proj1 (same_no_level _ a v _ _ E N))|exact (proj2 (same_no_level _ a v _ _ E N))].
  Qed.
  Lemma dmi_signals h l : working o cDMI raw b st -> column "high" st h -> column "low" st l -> (forall j, (j < days_given st)%nat -> l j < h j) ->
    all_up 0 st h /\ all_up 0 st l \/ all_down 0 st h /\ all_down 0 st l -> get_ti_signal st = Ok Hold.
  Proof.
    intros W CH CL HL U. destruct (columns_of _ W eq_refl) as (WR & DS & ob & H & KN & SH). apply (answers_hold _ _ _ _ _ _ (C54_directional_movement o raw b st W)). intro N.
    assert (E : exists s : bool, forall e, (1 <= e <= days_shown st)%nat -> exists q, 0 <= q /\ ago (if s then "+di" else "-di") st e = from 14 (days_shown st - e) (Fin q) /\ ago (if s then "-di" else "+di") st e = from 14 (days_shown st - e) (level 0)).
    { assert (X : exists s : bool, if s then all_up 0 st h /\ all_up 0 st l else all_down 0 st h /\ all_down 0 st l) by (destruct U as [U|U]; [exists true|exists false]; exact U). destruct X as [s X]. exists s. intros e E. set (k := (days_shown st - e)%nat). assert (K : (k < days_shown st)%nat) by (unfold k; lia).
      destruct (dmi_one_way o raw b ob k c WR (KN _ _ k C K) h l (KN _ _ k CH K) (KN _ _ k CL K) s H) as (q & Q & E1 & E2 & _); [intros j J; apply HL; lia| |exists q; split; [exact Q|]; unfold ago; fold k; rewrite !SH by exact K; auto].
      destruct s; destruct X as [X1 X2]; split; [apply (climb_less _ _ (days_given st - 1))|apply (climb_less _ _ (days_given st - 1))|apply (sink_less _ _ (days_given st - 1))|apply (sink_less _ _ (days_given st - 1))]; auto; lia. }
    destruct E as [s E]. destruct (E 1%nat ltac:(lia)) as (q1 & Q1 & A1 & B1). destruct (E 2%nat ltac:(lia)) as (q2 & Q2 & A2 & B2). unfold crossed_above, crossed_below.
    destruct s; rewrite ?A1, ?A2, ?B1, ?B2; unfold from; destruct (Nat.ltb_spec (days_shown st - 2) 14); try (split; intros [[X _] _]; exact X); (destruct (Nat.ltb_spec (days_shown st - 1) 14); [lia|]); unfold level; cbn [less]; change (zq 0) with 0; split; intros [[X Y] _]; first [exact (Qcle_not_lt _ _ Q2 X)|exact (Qcle_not_lt _ _ Q1 Y)].
  Qed.
  Lemma obv_signals v : working o cOBV raw b st -> column "volume" st v -> (forall j, (j < days_given st)%nat -> 0 < v j) ->
    (up 0 -> get_ti_signal st = Ok (if (2 <? days_given st)%nat then Sell else Hold)) /\ (down 0 -> get_ti_signal st = Ok (if (2 <? days_given st)%nat then Buy else Hold)).
  Proof.
    intros W CV VP. destruct (columns_of _ W eq_refl) as (WR & DS & ob & H & KN & SH). destruct (C67_three_days o raw b st cOBV "obv" Sell Buy eq_refl W) as [A0 A]. rewrite DS.
    destruct (Nat.ltb_spec 2 (days_shown st)) as [N|N]; [|rewrite A0 by lia; auto]. specialize (A N).
    assert (E : forall e, (1 <= e <= days_shown st)%nat -> let k := (days_shown st - e)%nat in (up 0 -> ago "obv" st e = Fin (total (fun j => v (S j)) k)) /\ (down 0 -> ago "obv" st e = Fin (- total (fun j => v (S j)) k))).
    { intros e E k. unfold ago. fold k. assert (K : (k < days_shown st)%nat) by (unfold k; lia). rewrite (SH k K). destruct (one_way_obv o raw b ob k c WR (KN _ _ k C K) v H (KN _ _ k CV K)) as [X Y]. split; intro U; [apply X, (up_to 0); auto|apply Y, (down_to 0); auto]. }
    assert (T : forall e, (1 <= e < days_shown st)%nat -> total (fun j => v (S j)) (days_shown st - S e) < total (fun j => v (S j)) (days_shown st - e)).
    { intros e E1. replace (days_shown st - e)%nat with (S (days_shown st - S e)) by lia. cbn [total]. assert (0 < v (S (days_shown st - S e))) by (apply VP; lia). set (x := total _ _). clearbody x. qlra. }
    pose proof (T 1%nat ltac:(lia)) as T1. pose proof (T 2%nat ltac:(lia)) as T2. destruct (E 1%nat ltac:(lia)) as [U1 D1]. destruct (E 2%nat ltac:(lia)) as [U2 D2]. destruct (E 3%nat ltac:(lia)) as [U3 D3]. split; intro U; apply A; unfold rising3, falling3.
    - rewrite (U1 U), (U2 U), (U3 U). split; [exact T2|exact T1].
    - rewrite (D1 U), (D2 U), (D3 U). cbn [less]. set (x := total _ _) in *. set (y := total _ _) in *. set (z := total _ _) in *. clearbody x y z. split; qlra.
  Qed.
End Signals.

(** ** simulations *)
Section Sims.
  Variables (o : oracle) (raw : rawframe) (b : bool) (ob : obj) (cv : rawval) (fa : pyval) (f : Qc) (st : sim) (sts : stats) (p : nat -> Qc) (i : nat).
  Hypothesis W : wf_raw raw.
  Hypothesis N : NoDup (dates raw).
  Hypothesis FA : number_of fa = Some (Fin f).
  Hypothesis HS : snd (get_ti_simulation ob cv VNone fa) = Ok (st, sts).
  Hypothesis OC : own_closes ob st.
  Hypothesis I : (i < days_given ob)%nat.
  Hypothesis CL : column "close" ob p.
  Notation made ct := (snd (construct o ct (RFrame raw) (VBool b)) = Ok ob).
  Notation r := (row_ (data st) i).

  Lemma acts_of ct sg a : made ct -> is_dpo (ob_ind ob) = false -> (1 <= a)%nat ->
    (forall k, (k < days_given ob)%nat -> get_ti_signal (limited k ob) = Ok (if (a <=? k)%nat then sg else Hold)) ->
    exists ps sgs, st = simulate (map Fin ps) None (Fin f) sgs /\ 1 <= f /\ (List.length sgs <= List.length ps)%nat /\ List.length sgs = days_given ob /\
      (forall j, (j < days_given ob)%nat -> nth j ps 0 = p j) /\ (forall k, (k < days_given ob)%nat -> nth k sgs Hold = (if (a <=? k)%nat then sg else Hold)) /\
      forall k, (k < days_given ob)%nat -> act (data st) k = if (a <=? k)%nat then match sg with Buy => ALong | Sell => AShort | Hold => ANone end else ANone.
  Proof.
    intros H D A SG. set (ps := map p (seq 0 (days_given ob))). pose proof (construct_sound _ _ _ _ _ W H) as SO. destruct (simulation_inv _ _ _ _ _ _ SO HS) as (c & m & x & sgs & AR & E & L & ST & P).
    assert (LT : List.length (rows (ob_ti ob)) = days_given ob) by (rewrite ti_shorter by (auto using not_dpo); unfold days_given; apply len_index).
    assert (LC : List.length c = days_given ob) by (rewrite (start_len _ _ _ _ _ _ _ AR); unfold days_given; apply len_index).
    assert (LP : List.length ps = days_given ob) by (unfold ps; rewrite map_length, seq_length; reflexivity).
    assert (NP : forall j, (j < days_given ob)%nat -> nth j ps 0 = p j).
    { intros j J. unfold ps. rewrite (nth_indep _ 0 (p 0%nat)) by (rewrite map_length, seq_length; exact J). rewrite (map_nth p), seq_nth by exact J. reflexivity. }
    assert (CE : c = map Fin ps).
    { apply (nth_ext _ _ NaN NaN); [rewrite map_length; lia|]. intros j J. rewrite LC in J. rewrite (nth_indep (map Fin ps) NaN (Fin 0)) by (rewrite map_length; lia). rewrite map_nth, NP by lia.
      destruct (simulate_rows c m x sgs j ltac:(lia) ltac:(lia)) as (_ & _ & X). rewrite <- X, <- E. fold (row_ (data st) j). rewrite OC by lia. apply CL. exact J. }
    destruct AR as (fr & _ & _ & M & X & _). cbn in M. injection M as <-. unfold check_factor in X. rewrite FA in X. destruct (nltb (Fin f) (F 1)) eqn:F1; [discriminate|]. injection X as <-.
    assert (FF : 1 <= f) by (cbn in F1; change (Q2Qc (inject_Z 1)) with 1 in F1; destruct (qltb_spec f 1) as [G|G]; [discriminate|apply Qcnot_lt_le; exact G]).
    rewrite CE in E. exists ps, sgs. assert (L1 : List.length sgs = List.length ps) by lia. split; [exact E|]. split; [exact FF|]. split; [lia|]. split; [lia|]. split; [exact NP|].
    assert (Q : forall k, (k < days_given ob)%nat -> nth k sgs Hold = (if (a <=? k)%nat then sg else Hold)) by (intros k K; specialize (P k ltac:(lia)); rewrite (SG k K) in P; congruence).
    split; [exact Q|]. intros k K. pose proof (unlimited_acts ps f sgs k FF (Nat.eq_le_incl _ _ L1) ltac:(lia)) as Y. rewrite <- E in Y. unfold act. rewrite Y, Q by exact K.
    destruct k as [|k]; [destruct (Nat.leb_spec a 0); [lia|reflexivity]|]. destruct (a <=? S k)%nat; [destruct sg|]; reflexivity.
  Qed.
  Lemma sum_steps a m : sum_days m (fun j => p (S (a + j)) - p (a + j)%nat) = p (a + m)%nat - p a.
  Proof. induction m as [|m IH]; [unfold sum_days, qsum; cbn; rewrite Nat.add_0_r; ring|]. rewrite sum_days_S, IH. rewrite Nat.add_succ_r. ring. Qed.
  Lemma rises_of ps : (forall j, (j < days_given ob)%nat -> nth j ps 0 = p j) -> climbs_by 0 p i -> only_rises ps i.
  Proof. intros NP U j J. rewrite !NP by lia. specialize (U j J). rewrite Qcplus_0_r in U. exact U. Qed.
  Lemma falls_of ps : (forall j, (j < days_given ob)%nat -> nth j ps 0 = p j) -> sinks_by 0 p i -> only_falls ps i.
  Proof. intros NP U j J. rewrite !NP by lia. specialize (U j J). rewrite Qcplus_0_r in U. exact U. Qed.
  Lemma bal_of ps sgs : st = simulate (map Fin ps) None (Fin f) sgs -> 1 <= f -> (List.length sgs <= List.length ps)%nat -> (i < List.length sgs)%nat -> nth i ps 0 = p i -> forall e, x_earnings r = Fin e ->
    x_balance r = Fin (e + (nq (open_longs (data st) i) - nq (open_shorts (data st) i)) * p i).
  Proof.
    intros E F1 L1 IL NP e EA. pose proof (sp_balance ps None f sgs F1 L1 i IL) as B. pose proof (sp_pv ps None f sgs F1 L1 i IL) as V. rewrite <- E in B, V. rewrite B, V, EA, E, (sp_price ps None f sgs F1 L1), <- E, NP by exact IL. cbn [nadd]. f_equal. f_equal.
    rewrite Qcmult_comm. f_equal. change (zq (Z.of_nat (open_longs (data st) i) + - Z.of_nat (open_shorts (data st) i)) = nq (open_longs (data st) i) - nq (open_shorts (data st) i)). rewrite OrderApi2.zq_plus, OrderApi2.zq_opp. reflexivity.
  Qed.
  Lemma buys_any_rise ct a : made ct -> is_dpo (ob_ind ob) = false -> (1 <= a)%nat -> climbs_by 0 p i ->
    (forall k, (k < days_given ob)%nat -> get_ti_signal (limited k ob) = Ok (if (a <=? k)%nat then Buy else Hold)) ->
    x_signal r = Some (if (a <=? i)%nat then Buy else Hold) /\ x_earnings r = Fin (when (a <=? i)%nat (p i - p a)) /\ x_exposure r = Fin (when (a <=? i)%nat (p i)) /\ x_balance r = Fin (when (a <=? i)%nat (p i - p a + p i)) /\
    open_longs (data st) i = (if (a <=? i)%nat then 1 else 0)%nat /\ open_shorts (data st) i = 0%nat.
  Proof.
    intros H D A U SG. destruct (acts_of ct Buy a H D A SG) as (ps & sgs & E & F1 & L1 & L2 & NP & SN & AC).
    assert (IL : (i < List.length sgs)%nat) by lia. pose proof (rises_of ps NP U) as UP. destruct (up_market ps None f sgs i F1 L1 IL UP) as (EA & EX & OL & OS). rewrite <- E in EA, EX, OL, OS.
    assert (BT : forall k, (k < days_given ob)%nat -> bought (data st) k = (a <=? k)%nat) by (intros k K; unfold bought; rewrite AC by exact K; destruct (a <=? k)%nat; reflexivity).
    assert (SD : forall k, (k < days_given ob)%nat -> sold (data st) k = false) by (intros k K; unfold sold; rewrite AC by exact K; destruct (a <=? k)%nat; reflexivity).
    assert (EA' : x_earnings r = Fin (when (a <=? i)%nat (p i - p a))).
    { rewrite EA. f_equal. rewrite (sum_days_ext i _ (fun j => when (a <=? j)%nat (p (S j) - p j))) by (intros j J; rewrite BT, !NP by lia; reflexivity). rewrite sum_from, sum_steps. destruct (Nat.leb_spec a i) as [L|L]; cbn [when]; [replace (a + (i - a))%nat with i by lia; reflexivity|]. replace (a + (i - a))%nat with a by lia. ring. }
    assert (OS' : open_shorts (data st) i = 0%nat) by (rewrite OS; apply count_none; intros j J; apply SD; lia). assert (OL' : open_longs (data st) i = (if (a <=? i)%nat then 1 else 0)%nat) by (rewrite OL, BT by lia; reflexivity).
    split; [rewrite E, sp_signal, SN by (auto; lia); reflexivity|]. split; [exact EA'|]. split; [|split; [|split; [exact OL'|exact OS']]].
    - rewrite EX, BT, NP by lia. rewrite sum_days_zero by (intros j J; rewrite SD by lia; reflexivity). f_equal. ring.
    - rewrite (bal_of ps sgs E F1 L1 IL (NP i I) _ EA'), OS', OL'. f_equal. destruct (a <=? i)%nat; cbn [when]; change (nq 1) with 1; change (nq 0) with 0; ring.
  Qed.
  Lemma never_acts ct : made ct -> is_dpo (ob_ind ob) = false -> (forall k, (k < days_given ob)%nat -> get_ti_signal (limited k ob) = Ok Hold) ->
    x_signal r = Some Hold /\ x_earnings r = Fin 0 /\ x_exposure r = Fin 0 /\ x_balance r = Fin 0 /\ open_longs (data st) i = 0%nat /\ open_shorts (data st) i = 0%nat.
  Proof.
    intros H D SG. destruct (acts_of ct Hold 1 H D (le_n 1)) as (ps & sgs & E & F1 & L1 & L2 & NP & SN & AC); [intros k K; rewrite SG by exact K; destruct (1 <=? k)%nat; reflexivity|].
    assert (IL : (i < List.length sgs)%nat) by lia. assert (NO : forall k, (k < days_given ob)%nat -> act (data st) k = ANone) by (intros k K; rewrite AC by exact K; destruct (1 <=? k)%nat; reflexivity).
    assert (SO : forall k l, (k < days_given ob)%nat -> still_open (data st) k l = false) by (intros k l K; unfold still_open; rewrite NO by exact K; reflexivity).
    assert (OL : open_longs (data st) i = 0%nat) by (apply count_none; intros j J; rewrite SO by lia; reflexivity).
    assert (OS : open_shorts (data st) i = 0%nat) by (apply count_none; intros j J; rewrite SO by lia; reflexivity).
    assert (EA : x_earnings r = Fin 0). { pose proof (sp_earnings ps None f sgs F1 L1 i IL) as X. rewrite <- E in X. rewrite X. f_equal. apply sum_days_zero. intros k K. apply sum_days_zero. intros j J. unfold closed_on. rewrite SO by lia. rewrite andb_false_r. reflexivity. }
    split; [rewrite E, sp_signal, SN by (auto; lia); destruct (1 <=? i)%nat; reflexivity|]. split; [exact EA|]. split; [|split; [|split; [exact OL|exact OS]]].
    - pose proof (sp_exposure ps None f sgs F1 L1 i IL) as X. rewrite <- E in X. rewrite X. f_equal. apply sum_days_zero. intros j J. rewrite SO by lia. reflexivity.
    - rewrite (bal_of ps sgs E F1 L1 IL (NP i I) _ EA), OS, OL. try (f_equal; change (nq 0) with 0; ring).
  Qed.
  Lemma sells_any_rise ct a : made ct -> is_dpo (ob_ind ob) = false -> (1 <= a)%nat -> climbs_by 0 p i ->
    (forall k, (k < days_given ob)%nat -> get_ti_signal (limited k ob) = Ok (if (a <=? k)%nat then Sell else Hold)) ->
    x_signal r = Some (if (a <=? i)%nat then Sell else Hold) /\ x_earnings r = Fin 0 /\ x_exposure r = Fin (f * sum_days (S i - a) (fun j => p (a + j)%nat)) /\ x_balance r = Fin (- nq (S i - a) * p i) /\
    open_longs (data st) i = 0%nat /\ open_shorts (data st) i = (S i - a)%nat.
  Proof.
    intros H D A U SG. destruct (acts_of ct Sell a H D A SG) as (ps & sgs & E & F1 & L1 & L2 & NP & SN & AC).
    assert (IL : (i < List.length sgs)%nat) by lia. pose proof (rises_of ps NP U) as UP. destruct (up_market ps None f sgs i F1 L1 IL UP) as (EA & EX & OL & OS). rewrite <- E in EA, EX, OL, OS.
    assert (SD : forall k, (k < days_given ob)%nat -> sold (data st) k = (a <=? k)%nat) by (intros k K; unfold sold; rewrite AC by exact K; destruct (a <=? k)%nat; reflexivity).
    assert (BT : forall k, (k < days_given ob)%nat -> bought (data st) k = false) by (intros k K; unfold bought; rewrite AC by exact K; destruct (a <=? k)%nat; reflexivity).
    assert (EA' : x_earnings r = Fin 0) by (rewrite EA; f_equal; apply sum_days_zero; intros j J; rewrite BT by lia; reflexivity).
    assert (OL' : open_longs (data st) i = 0%nat) by (rewrite OL, BT by lia; reflexivity).
    assert (OS' : open_shorts (data st) i = (S i - a)%nat). { rewrite OS, <- (count_from (S i) a). unfold count_days. f_equal. apply filter_ext_in. intros j J. apply in_seq in J. apply SD. lia. }
    split; [rewrite E, sp_signal, SN by (auto; lia); reflexivity|]. split; [exact EA'|]. split; [|split; [|split; [exact OL'|exact OS']]].
    - rewrite EX, BT by lia. f_equal. cbn [when]. rewrite (sum_days_ext (S i) _ (fun j => when (a <=? j)%nat (p j))) by (intros j J; rewrite SD, NP by lia; reflexivity). rewrite sum_from. ring.
    - rewrite (bal_of ps sgs E F1 L1 IL (NP i I) _ EA'), OS', OL'. f_equal. change (nq 0) with 0. ring.
  Qed.
  Lemma buys_any_fall ct a : made ct -> is_dpo (ob_ind ob) = false -> (1 <= a)%nat -> sinks_by 0 p i ->
    (forall k, (k < days_given ob)%nat -> get_ti_signal (limited k ob) = Ok (if (a <=? k)%nat then Buy else Hold)) ->
    x_signal r = Some (if (a <=? i)%nat then Buy else Hold) /\ x_earnings r = Fin 0 /\ x_exposure r = Fin (sum_days (S i - a) (fun j => p (a + j)%nat)) /\ x_balance r = Fin (nq (S i - a) * p i) /\
    open_longs (data st) i = (S i - a)%nat /\ open_shorts (data st) i = 0%nat.
  Proof.
    intros H D A U SG. destruct (acts_of ct Buy a H D A SG) as (ps & sgs & E & F1 & L1 & L2 & NP & SN & AC).
    assert (IL : (i < List.length sgs)%nat) by lia. pose proof (falls_of ps NP U) as UP. destruct (down_market ps None f sgs i F1 L1 IL UP) as (EA & EX & OS & OL). rewrite <- E in EA, EX, OL, OS.
    assert (BT : forall k, (k < days_given ob)%nat -> bought (data st) k = (a <=? k)%nat) by (intros k K; unfold bought; rewrite AC by exact K; destruct (a <=? k)%nat; reflexivity).
    assert (SD : forall k, (k < days_given ob)%nat -> sold (data st) k = false) by (intros k K; unfold sold; rewrite AC by exact K; destruct (a <=? k)%nat; reflexivity).
    assert (EA' : x_earnings r = Fin 0) by (rewrite EA; f_equal; apply sum_days_zero; intros j J; rewrite SD by lia; reflexivity).
    assert (OS' : open_shorts (data st) i = 0%nat) by (rewrite OS, SD by lia; reflexivity).
    assert (OL' : open_longs (data st) i = (S i - a)%nat). { rewrite OL, <- (count_from (S i) a). unfold count_days. f_equal. apply filter_ext_in. intros j J. apply in_seq in J. apply BT. lia. }
    split; [rewrite E, sp_signal, SN by (auto; lia); reflexivity|]. split; [exact EA'|]. split; [|split; [|split; [exact OL'|exact OS']]].
    - rewrite EX, SD by lia. f_equal. cbn [when]. rewrite (sum_days_ext (S i) _ (fun j => when (a <=? j)%nat (p j))) by (intros j J; rewrite BT, NP by lia; reflexivity). rewrite sum_from. ring.
    - rewrite (bal_of ps sgs E F1 L1 IL (NP i I) _ EA'), OS', OL'. f_equal. change (nq 0) with 0. ring.
  Qed.

  Lemma lim_col ct k nm g : made ct -> (k < days_given ob)%nat -> column nm ob g -> column nm (limited k ob) g /\ days_given (limited k ob) = S k.
  Proof. intros H K C. destruct (limited_days o ct raw b ob k W N H K) as [D G]. split; [|exact D]. intros j J. rewrite D in J. rewrite G by lia. apply C. lia. Qed.
  Lemma average_rises t q a : made (cMA q (VStr t)) -> smooth t (nat_arg q) = Some a -> all_up tick4 ob p ->
    x_signal r = Some (if (a <=? i)%nat then Buy else Hold) /\ x_earnings r = Fin (when (a <=? i)%nat (p i - p a)) /\ x_exposure r = Fin (when (a <=? i)%nat (p i)) /\ x_balance r = Fin (when (a <=? i)%nat (p i - p a + p i)) /\
    open_longs (data st) i = (if (a <=? i)%nat then 1 else 0)%nat /\ open_shorts (data st) i = 0%nat.
  Proof.
    intros H SM U. assert (A1 : (1 <= a)%nat). { unfold smooth in SM. destruct (String.eqb t "simple"); [|destruct (String.eqb t "triangular"); [|destruct (String.eqb t "exponential"); [|discriminate]]]; match type of SM with context [(?x <=? ?y)%nat] => destruct (Nat.leb_spec x y); [|discriminate] end; injection SM as <-; lia. }
    apply (buys_any_rise (cMA q (VStr t)) a H); [rewrite (OneWayApi.ind_asked o raw b ob W _ H); reflexivity|exact A1|apply (climb_weak tick4); [apply (climb_less _ _ (days_given ob - 1)); [exact U|lia]|exact tick_le]|].
    intros k K. destruct (lim_col _ k _ p H K CL) as [CK DK]. rewrite (proj1 (average_signals o raw b (limited k ob) p CK t q a (OneWayApi.lim_working o raw b ob W _ k H) SM)) by (unfold all_up; rewrite DK; apply (climb_less _ _ (days_given ob - 1)); [exact U|lia]).
    rewrite DK. destruct (Nat.ltb_spec a (S k)), (Nat.leb_spec a k); (reflexivity || lia).
  Qed.
  Lemma average_falls t q a : made (cMA q (VStr t)) -> smooth t (nat_arg q) = Some a -> all_down tick4 ob p ->
    x_signal r = Some Hold /\ x_earnings r = Fin 0 /\ x_exposure r = Fin 0 /\ x_balance r = Fin 0 /\ open_longs (data st) i = 0%nat /\ open_shorts (data st) i = 0%nat.
  Proof.
    intros H SM U. apply (never_acts (cMA q (VStr t)) H); [rewrite (OneWayApi.ind_asked o raw b ob W _ H); reflexivity|].
    intros k K. destruct (lim_col _ k _ p H K CL) as [CK DK]. apply (proj2 (average_signals o raw b (limited k ob) p CK t q a (OneWayApi.lim_working o raw b ob W _ k H) SM)). unfold all_down. rewrite DK. apply (sink_less _ _ (days_given ob - 1)); [exact U|lia].
  Qed.
  Lemma balance_rises v : made cOBV -> column "volume" ob v -> (forall j, (j < days_given ob)%nat -> 0 < v j) -> all_up 0 ob p ->
    x_signal r = Some (if (2 <=? i)%nat then Sell else Hold) /\ x_earnings r = Fin 0 /\ x_exposure r = Fin (f * sum_days (S i - 2) (fun j => p (2 + j)%nat)) /\ x_balance r = Fin (- nq (S i - 2) * p i) /\
    open_longs (data st) i = 0%nat /\ open_shorts (data st) i = (S i - 2)%nat.
  Proof.
    intros H CV VP U. apply (sells_any_rise cOBV 2 H); [rewrite (OneWayApi.ind_asked o raw b ob W _ H); reflexivity|lia|apply (climb_less _ _ (days_given ob - 1)); [exact U|lia]|].
    intros k K. destruct (lim_col _ k _ p H K CL) as [CK DK]. destruct (lim_col _ k _ v H K CV) as [CKV _]. rewrite (proj1 (obv_signals o raw b (limited k ob) p CK v (OneWayApi.lim_working o raw b ob W _ k H) CKV ltac:(intros j J; apply VP; lia))) by (unfold all_up; rewrite DK; apply (climb_less _ _ (days_given ob - 1)); [exact U|lia]).
    rewrite DK. destruct (Nat.ltb_spec 2 (S k)), (Nat.leb_spec 2 k); (reflexivity || lia).
  Qed.
  Lemma balance_falls v : made cOBV -> column "volume" ob v -> (forall j, (j < days_given ob)%nat -> 0 < v j) -> all_down 0 ob p ->
    x_signal r = Some (if (2 <=? i)%nat then Buy else Hold) /\ x_earnings r = Fin 0 /\ x_exposure r = Fin (sum_days (S i - 2) (fun j => p (2 + j)%nat)) /\ x_balance r = Fin (nq (S i - 2) * p i) /\
    open_longs (data st) i = (S i - 2)%nat /\ open_shorts (data st) i = 0%nat.
  Proof.
    intros H CV VP U. apply (buys_any_fall cOBV 2 H); [rewrite (OneWayApi.ind_asked o raw b ob W _ H); reflexivity|lia|apply (sink_less _ _ (days_given ob - 1)); [exact U|lia]|].
    intros k K. destruct (lim_col _ k _ p H K CL) as [CK DK]. destruct (lim_col _ k _ v H K CV) as [CKV _]. rewrite (proj2 (obv_signals o raw b (limited k ob) p CK v (OneWayApi.lim_working o raw b ob W _ k H) CKV ltac:(intros j J; apply VP; lia))) by (unfold all_down; rewrite DK; apply (sink_less _ _ (days_given ob - 1)); [exact U|lia]).
    rewrite DK. destruct (Nat.ltb_spec 2 (S k)), (Nat.leb_spec 2 k); (reflexivity || lia).
  Qed.
End Sims.
