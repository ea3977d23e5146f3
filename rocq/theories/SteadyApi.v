(** * SteadyApi: the published values on a market that moves by the same amount every day. *)
From Coq Require Import ZArith QArith Qcanon Bool List String PeanoNat Lia.
From Verif Require Import Num NumFacts RoundFacts Pandas Sim Frame FrameSpec FrameProofs Ind Signal Api IndSpec SeriesFacts Lengths Causal IndFacts Shape ApiSpec ApiCheck ApiProofs ApiLemmas RangeSpec Cells RangeFacts RangeMore Publish RangeApi ValueSpec ValueFacts ValueMore Recur ValueApi CumulApi.
From Verif Require Import FormulaSpec Starts Formula Formula2 Formula3 Formula4 Line Formula5 Formula6 FormulaApi IdentFacts IdentApi MirrorSpec MirrorApi3 OrderFacts OrderApi SwaySpec SwayFacts BasketSpec BasketFacts SignalSpec SteadySpec SteadyFacts.
Import ListNotations.
Open Scope list_scope. Open Scope string_scope. Open Scope Qc_scope.

Lemma r4_again x : r4 (r4 x) = r4 x.
Proof. replace (r4 x) with (r4 x + r4 0) at 1 by (rewrite r4_0; ring). rewrite r4_sum, r4_0. ring. Qed.
Lemma ratio_fin a b : b <> 0 -> rn (ratio a b) = Fin (r4 (a / b)).
Proof. intro H. unfold ratio, ndiv. destruct (qeqb b 0) eqn:E; [apply qeqb_iff in E; contradiction|reflexivity]. Qed.
Lemma ratio_same a x y z : y <> 0 -> x = z * y -> a = y -> rn (ratio x a) = Fin (r4 z).
Proof. intros H -> ->. rewrite ratio_fin by exact H. do 2 f_equal. field. exact H. Qed.
Lemma nz_mul x y : x <> 0 -> y <> 0 -> x * y <> 0. Proof. intros X Y E. apply Qcmult_integral in E as [E|E]; contradiction. Qed.
Lemma nz_opp x : x <> 0 -> - x <> 0. Proof. intros X E. apply X. rewrite <- (Qcopp_involutive x), E. reflexivity. Qed.
Lemma r4_level z : r4 (zq z) = zq z.
Proof.
  assert (N : forall n, r4 (nq n) = nq n).
  { induction n as [|n IH]; [apply Qc_is_canon; reflexivity|]. rewrite nq_S. assert (O1 : r4 1 = 1) by (apply Qc_is_canon; reflexivity). rewrite <- IH at 1. rewrite <- O1 at 1. rewrite r4_sum, IH, O1. reflexivity. }
  destruct (Z.le_ge_cases 0 z) as [H|H].
  - rewrite <- (Z2Nat.id z H). apply N.
  - replace z with (- Z.of_nat (Z.to_nat (- z)))%Z by (rewrite Z2Nat.id by lia; lia). set (m := Z.to_nat (- z)).
    assert (E : zq (- Z.of_nat m) = - nq m) by (unfold nq, zq; apply Qc_is_canon; unfold Qcopp, Q2Qc, this; rewrite !Qred_correct; reflexivity). rewrite E, MirrorFacts.r4_opp, N. reflexivity.
Qed.
Lemma gain_pos d : 0 < d -> gain d = d. Proof. intro H. unfold gain. destruct (qltb_spec 0 d); [reflexivity|contradiction]. Qed.
Lemma gain_neg d : d <= 0 -> gain d = 0. Proof. intro H. unfold gain. destruct (qltb_spec 0 d) as [Q|Q]; [exfalso; exact (Qclt_not_le _ _ Q H)|reflexivity]. Qed.
Lemma loss_neg d : d < 0 -> loss d = - d. Proof. intro H. unfold loss. destruct (qltb_spec d 0); [reflexivity|contradiction]. Qed.
Lemma loss_pos d : 0 <= d -> loss d = 0. Proof. intro H. unfold loss. destruct (qltb_spec d 0) as [Q|Q]; [exfalso; exact (Qclt_not_le _ _ Q H)|reflexivity]. Qed.
Lemma from_same a k x y : ((a <= k)%nat -> x = y) -> from a k x = from a k y.
Proof. intro H. unfold from. destruct (Nat.ltb_spec k a); [reflexivity|apply H; lia]. Qed.
Lemma run_same step q f n : step q q = q -> (forall j, (1 <= j <= n)%nat -> f j = q) -> run step q f n = q.
Proof. intros E. induction n as [|n IH]; intro H; cbn [run]; [reflexivity|]. rewrite IH by (intros; apply H; lia). rewrite H by lia. exact E. Qed.
Lemma larger_l a b : b <= a -> larger a b = a. Proof. intro H. unfold larger. destruct (qltb_spec a b) as [Q|Q]; [exfalso; exact (Qclt_not_le _ _ Q H)|reflexivity]. Qed.
Lemma larger_r a b : a <= b -> larger a b = b. Proof. intro H. unfold larger. destruct (qltb_spec a b) as [Q|Q]; [reflexivity|]. apply Qcnot_lt_le in Q. apply Qcle_antisym; assumption. Qed.
Lemma smaller_l a b : a <= b -> smaller a b = a. Proof. intro H. unfold smaller. destruct (qltb_spec b a) as [Q|Q]; [exfalso; exact (Qclt_not_le _ _ Q H)|reflexivity]. Qed.

Lemma abs_mul a x : abs (a * x) = abs a * abs x.
Proof.
  destruct (Qclt_le_dec a 0) as [A|A], (Qclt_le_dec x 0) as [X|X]; try apply Qclt_le_weak in A; try apply Qclt_le_weak in X.
  - rewrite (abs_neg a A), (abs_neg x X), abs_pos by qnra. ring.
  - rewrite (abs_neg a A), (abs_pos x X), abs_neg by qnra. ring.
  - rewrite (abs_pos a A), (abs_neg x X), abs_neg by qnra. ring.
  - rewrite (abs_pos a A), (abs_pos x X), abs_pos by qnra. ring.
Qed.
Lemma abs_nz x : x <> 0 -> abs x <> 0.
Proof. intro H. unfold abs. destruct (qltb_spec x 0); [apply nz_opp, H|exact H]. Qed.
Lemma channel_small n : let e := nq (2 * (S n / 2)) in e <> 0 -> channel_of n * Q2Qc (15 # 1000) = zq 2 * (e - 1) / e.
Proof.
  intros e E. unfold channel_of. fold e. assert (K : zq 400 * Q2Qc (15 # 1000) = zq 2 * zq 3) by (apply Qc_is_canon; reflexivity). assert (T : zq 3 <> 0) by discriminate.
  replace (zq 400 * (e - 1) / (zq 3 * e) * Q2Qc (15 # 1000)) with (zq 400 * Q2Qc (15 # 1000) * (e - 1) / (zq 3 * e)) by (field; split; assumption). rewrite K. field. split; assumption.
Qed.
Lemma channel_spread n : (2 <= n)%nat -> let e := nq (2 * (S n / 2)) in let t := total (fun i => abs ((nq n - 1) / zq 2 - nq i)) n in
  e <> 0 /\ t <> 0 /\ zq 2 * (e - 1) / e * (t / nq n) = (nq n - 1) / zq 2.
Proof.
  intros P e t. pose proof (spread_line n) as T. cbv zeta in T. fold t in T. pose proof (nq_neq n ltac:(lia)) as N.
  assert (F4 : zq 4 = zq 2 * zq 2) by (apply Qc_is_canon; reflexivity). assert (Z2 : zq 2 <> 0) by discriminate.
  assert (E0 : e <> 0). { unfold e. apply nq_neq. pose proof (Nat.div_le_mono 2 (S n) 2 ltac:(lia) ltac:(lia)) as Q. change (2 / 2)%nat with 1%nat in Q. lia. }
  assert (E : e = if Nat.even n then nq n else nq n + 1).
  { unfold e. destruct (Nat.even n) eqn:V.
    - apply Nat.even_spec in V as [m ->]. f_equal. replace (S (2 * m) / 2)%nat with m; [reflexivity|]. apply (Nat.div_unique (S (2 * m)) 2 m 1); lia.
    - assert (O : Nat.Odd n) by (apply Nat.odd_spec; unfold Nat.odd; rewrite V; reflexivity). destruct O as [m ->]. rewrite <- nq_S. f_equal. replace (S (2 * m + 1) / 2)%nat with (S m) by (apply (Nat.div_unique (S (2 * m + 1)) 2 (S m) 0); lia). lia. }
  set (v := if Nat.even n then nq n * nq n else nq n * nq n - 1) in *.
  assert (V0 : v <> 0).
  { unfold v. destruct (Nat.even n); [apply nz_mul; exact N|]. replace (nq n * nq n - 1) with ((nq n - 1) * (nq n + 1)) by ring. apply nz_mul.
    - change 1 with (nq 1). rewrite <- nq_sub by lia. apply nq_neq. lia.
    - rewrite <- nq_S. apply nq_neq. lia. }
  assert (T' : t = v / zq 4) by (rewrite <- T; field; discriminate). split; [exact E0|]. split.
  - intro X. apply V0. rewrite <- T, X. ring.
  - rewrite T', F4. unfold v. rewrite E in *. destruct (Nat.even n); field; repeat split; assumption.
Qed.
Lemma ema_same_value a p f q k : (a <= k)%nat -> (forall j, (a <= j <= k)%nat -> f j = q) -> ema_from a p f k = q.
Proof.
  intros A H. unfold ema_from. assert (G : forall m, (a + m <= k)%nat -> ema (span p) (fun j => f (a + j)%nat) m = q).
  { induction m as [|m IH]; intro M; cbn [ema]; [apply H; lia|]. rewrite IH by lia. rewrite H by lia. ring. }
  apply G. lia.
Qed.
Fixpoint kept (n : nat) : Qc := match n with O => zq 13 | S m => kept m - kept m / zq 14 + 1 end.
Lemma kept_pos n : 0 < kept n.
Proof. induction n as [|n IH]; cbn [kept]; [reflexivity|]. assert (E : kept n - kept n / zq 14 = kept n * (zq 13 / zq 14)) by (replace (zq 13) with (zq 14 - 1) by (apply Qc_is_canon; reflexivity); field; discriminate). rewrite E. assert (0 < zq 13 / zq 14) by reflexivity. qnra. Qed.
Lemma running_same_value f q k : (13 <= k)%nat -> (forall j, (1 <= j <= k)%nat -> f j = q) -> running f k = q * kept (k - 13).
Proof.
  intros K H. unfold running, run_from. assert (G : forall m, (13 + m <= k)%nat -> run (fun prev x => prev - prev / zq 14 + x) (total (fun j => f (1 + j)%nat) 13) (fun j => f (13 + j)%nat) m = q * kept m).
  { induction m as [|m IH]; intro M.
    - cbn [run kept]. rewrite (total_same _ q) by (intros j J; apply H; lia). change (nq 13) with (zq 13). ring.
    - cbn [run kept]. rewrite IH by lia. rewrite H by lia. field. discriminate. }
  apply G. lia.
Qed.

Section Steady.
  Variables (o : oracle) (raw : rawframe) (b : bool) (ob : obj) (k : nat) (d u s : Qc) (h l c : nat -> Qc).
  Hypothesis W : wf_raw raw.
  Notation made ct := (snd (construct o ct (RFrame raw) (VBool b)) = Ok ob).
  Ltac per p := assert (P : (1 <= nat_arg p)%nat) by (let fr := fresh in let V := fresh in let VV := fresh in look fr V VV; lia).
  Hypothesis KC : known (given "close" ob) k c. Hypothesis SC : straight c k d.

  (** ** averages *)
  Lemma bands_middle_shown p q : made (cBB p q) -> shown "middle_band" ob k = from (nat_arg p - 1) k (Fin (r4 (mean_last c (nat_arg p) k))).
  Proof. intros H. look fr V VV. cbn in V, VV. unfold shown. erewrite (view_cell V) by reflexivity. cbv beta iota zeta. rewrite row_cut, <- bb_middle_firstn. unfold bb_middle. feed V roll_mean_at k. Qed.
  Lemma mean_mean n : (1 <= n)%nat -> (2 * (n - 1) <= k)%nat -> mean_last (mean_last c n) n k = c k - d * (nq n - 1).
  Proof.
    intros P G. set (g := fun j => mix 1 1 (c j) (- (d * ((nq n - 1) / zq 2)))).
    assert (E : mean_last (mean_last c n) n k = mean_last g n k).
    { unfold mean_last at 1 3. f_equal. apply total_ext. intros j J. rewrite (mean_line c (S k - n + j) d n) by first [apply (straight_less c k d); [exact SC|lia]|lia]. unfold g, mix. ring. }
    rewrite E. assert (SG : straight g k d) by (apply (straight_add c g k d (- (d * ((nq n - 1) / zq 2))) SC); intros; unfold g, mix; ring).
    rewrite (mean_line g k d n SG) by lia. unfold g, mix. replace (zq 2) with (1 + 1) by (apply Qc_is_canon; reflexivity). field. discriminate.
  Qed.
  Lemma averages_late ct name a q : made ct -> In (name, a, q) (late ct k) -> shown name ob k = from a k (Fin (r4 (c k - d * q))).
  Proof.
    intros M I. destruct ct; cbn [late] in I; try contradiction.
    - destruct I as [I|[]]; injection I as <- <- <-. per period. rewrite (bands_middle_shown _ _ M). apply from_same. intro G. rewrite (mean_line c k d _ SC) by lia. reflexivity.
    - destruct I as [I|[]]; injection I as <- <- <-. per period. rewrite (double_exponential_shown o raw b ob W _ k c M KC). cbv zeta. apply from_same. intro G. rewrite (dema_line c k d _ SC) by lia. reflexivity.
    - match type of I with context [(2 <=? ?n)%nat] => destruct (Nat.leb_spec 2 n) as [G2|G2]; [|contradiction] end. destruct I as [I|[]]; injection I as <- <- <-.
      rewrite (regression_indicator_shown o raw b ob W _ k c M KC). cbv zeta. apply from_same. intro G. do 2 f_equal. unfold end_last, slope_last.
      assert (E : forall i, (i < nat_arg period)%nat -> last_rows c (nat_arg period) k i = c (S k - nat_arg period)%nat + d * nq i) by (intros i I; unfold last_rows; rewrite (line_at c k d (S k - nat_arg period) _ SC) by lia; do 3 f_equal; lia).
      destruct (fit_exact _ _ _ _ G2 E) as [F1 F2]. rewrite F1, F2. rewrite (line_at c k d (S k - nat_arg period) k SC) by lia. replace (k - (S k - nat_arg period))%nat with (nat_arg period - 1)%nat by lia. ring.
    - destruct ma_type as [| | |t| |]; cbn [late] in I; try contradiction. per period. destruct (String.eqb_spec t "simple") as [->|_]; [|destruct (String.eqb_spec t "triangular") as [->|_]; [|destruct (String.eqb_spec t "exponential") as [->|_]; [|contradiction]]].
      + destruct I as [I|[]]; injection I as <- <- <-. rewrite (simple_moving_average_shown o raw b ob W _ k c M KC). cbv zeta. apply from_same. intro G. rewrite (mean_line c k d _ SC) by lia. reflexivity.
      + destruct I as [I|[]]; injection I as <- <- <-. rewrite (triangular_moving_average_shown o raw b ob W _ k c M KC). cbv zeta. apply from_same. intro G. rewrite mean_mean by lia. reflexivity.
      + destruct I as [I|[]]; injection I as <- <- <-. rewrite (exponential_moving_average_shown o raw b ob W _ k c M KC). cbv zeta. apply from_same. intro G. rewrite (ema_line c k d 0 _ SC) by lia. rewrite Nat.sub_0_r. reflexivity.
    - destruct I as [I|[]]; injection I as <- <- <-. per period. rewrite (wilders_smoothing_shown o raw b ob W _ k c M KC). cbv zeta. apply from_same. intro G. rewrite (ws_line c k d _ SC) by lia. reflexivity.
  Qed.
  (** ** momentum *)
  Lemma steady_cmo p : made (cCMO p) -> d <> 0 -> shown "cmo" ob k = from (nat_arg p) k (level (if qltb 0 d then 100 else -100)).
  Proof.
    intros M D. per p. rewrite (chande_momentum_shown o raw b ob W _ k c M KC). cbv zeta. apply from_same. intro G. pose proof (nq_neq _ P) as N.
    assert (C : forall j, (S k - nat_arg p <= j <= k)%nat -> change 1 c j = d) by (intros j J; rewrite (change_line c k d 1 j SC) by lia; change (nq 1) with 1; ring).
    rewrite (sum_same (fun j => gain (change 1 c j)) (gain d)) by (lia || (intros j J; rewrite C by lia; reflexivity)). rewrite (sum_same (fun j => loss (change 1 c j)) (loss d)) by (lia || (intros j J; rewrite C by lia; reflexivity)).
    destruct (qltb_spec 0 d) as [Q|Q].
    - rewrite gain_pos, loss_pos by (auto using Qclt_le_weak). rewrite (ratio_same _ _ (nq (nat_arg p) * d) (zq 100)) by (apply nz_mul; assumption) || ring. unfold level. rewrite r4_level. reflexivity.
    - apply Qcnot_lt_le in Q. assert (Q' : d < 0) by (destruct (Qcle_lt_or_eq _ _ Q) as [X|X]; [exact X|contradiction]). rewrite gain_neg, loss_neg by assumption.
      rewrite (ratio_same _ _ (nq (nat_arg p) * - d) (zq (-100))) by first [apply nz_mul; [assumption|apply nz_opp; assumption] | change (zq (-100)) with (- zq 100); ring]. unfold level. rewrite r4_level. reflexivity.
  Qed.
  Lemma steady_average n f q : (1 <= n)%nat -> (n <= k)%nat -> r4 q = q -> (forall j, (1 <= j <= k)%nat -> f j = q) -> run_from n (fun prev y => r4 (wilders n prev y)) (mean_last f n n) f k = q.
  Proof.
    intros P G R H. unfold run_from. rewrite (mean_same f q n n) by (lia || (intros j J; apply H; lia)). apply run_same; [|intros j J; apply H; lia].
    unfold wilders. replace (q + (q - q) / nq n) with q by (field; apply nq_neq, P). exact R.
  Qed.
  Lemma steady_rsi p : made (cRSI p) -> r4 d <> 0 -> shown "rsi" ob k = from (nat_arg p) k (level (if qltb 0 d then 100 else 0)).
  Proof.
    intros M D. per p. rewrite (relative_strength_shown o raw b ob W _ k c M KC). cbv zeta. apply from_same. intro G.
    assert (C : forall j, (1 <= j <= k)%nat -> change 1 c j = d) by (intros j J; rewrite (change_line c k d 1 j SC) by lia; change (nq 1) with 1; ring).
    rewrite (steady_average _ (fun j => r4 (gain (change 1 c j))) (r4 (gain d)) P G (r4_again _)) by (intros j J; rewrite C by lia; reflexivity).
    rewrite (steady_average _ (fun j => r4 (loss (change 1 c j))) (r4 (loss d)) P G (r4_again _)) by (intros j J; rewrite C by lia; reflexivity).
    destruct (qltb_spec 0 d) as [Q|Q].
    - rewrite gain_pos, loss_pos by (auto using Qclt_le_weak). rewrite r4_0. rewrite ratio_fin by (rewrite Qcplus_0_r; exact D). replace (zq 100 * r4 d / (r4 d + 0)) with (zq 100) by (field; rewrite ?Qcplus_0_r; exact D). unfold level. f_equal. apply Qc_is_canon. reflexivity.
    - apply Qcnot_lt_le in Q. assert (Q' : d < 0) by (destruct (Qcle_lt_or_eq _ _ Q) as [X|X]; [exact X|exfalso; apply D; rewrite X; exact r4_0]). rewrite gain_neg, loss_neg by assumption. rewrite r4_0. assert (N : r4 (- d) <> 0) by (rewrite MirrorFacts.r4_opp; intro E; apply D; rewrite <- (Qcopp_involutive (r4 d)), E; reflexivity).
      rewrite ratio_fin by (rewrite Qcplus_0_l; exact N). replace (zq 100 * 0 / (0 + r4 (- d))) with 0 by (field; rewrite ?Qcplus_0_l; exact N). unfold level. f_equal. apply Qc_is_canon. reflexivity.
  Qed.
  Lemma steady_vhf p : made (cVHF p) -> d <> 0 -> shown "vhf" ob k = from (nat_arg p) k (Fin (r4 ((nq (nat_arg p) - 1) / nq (nat_arg p)))).
  Proof.
    intros M D. per p. rewrite (vertical_horizontal_filter_shown o raw b ob W _ k c M KC). cbv zeta. apply from_same. intro G. pose proof (nq_neq _ P) as N.
    rewrite (sum_same (fun j => abs (change 1 c j)) (abs d)) by (lia || (intros j J; rewrite (change_line c k d 1 j SC) by lia; change (nq 1) with 1; f_equal; ring)).
    assert (A : abs d <> 0) by (unfold abs; destruct (qltb_spec d 0); [intro E; apply D; rewrite <- (Qcopp_involutive d), E; reflexivity|exact D]).
    assert (E : max_last c (nat_arg p) k - min_last c (nat_arg p) k = abs d * (nq (nat_arg p) - 1)).
    { destruct (Qclt_le_dec 0 d) as [Q|Q].
      - apply Qclt_le_weak in Q. destruct (max_rise c k d _ SC Q P ltac:(lia)) as [X Y]. rewrite X, Y, abs_pos by exact Q. ring.
      - destruct (max_fall c k d _ SC Q P ltac:(lia)) as [X Y]. rewrite X, Y, abs_neg by exact Q. ring. }
    rewrite E, ratio_fin by (intro X; apply Qcmult_integral in X as [X|X]; contradiction). do 2 f_equal. field. split; assumption.
  Qed.
  Lemma steady_rmi p q : made (cRMI p q) -> d <> 0 -> shown "rmi" ob k = from (nat_arg p + nat_arg q - 1) k (if qltb 0 d then NaN else level 0).
  Proof.
    intros M D. assert (P : (1 <= nat_arg p)%nat /\ (1 <= nat_arg q)%nat) by (look fr V VV; lia). destruct P as [P P2]. rewrite (relative_momentum_shown o raw b ob W _ _ k c M KC). cbv zeta. apply from_same. intro G.
    set (n := nat_arg p) in *. set (m := nat_arg q) in *. pose proof (nq_neq m P2) as NM.
    assert (Z : forall f z, (forall j, (m <= j <= k)%nat -> f j = z) -> wilder_from m n f k = z).
    { intros f z H. unfold wilder_from, run_from. rewrite (mean_same f z n (m + n - 1)) by (lia || (intros j J; apply H; lia)). apply run_same; [unfold wilders; field; apply nq_neq, P|intros j J; apply H; lia]. }
    assert (C : forall j, (m <= j <= k)%nat -> change m c j = d * nq m) by (intros j J; apply (change_line c k d m j SC); lia).
    rewrite (Z (fun j => gain (change m c j)) (gain (d * nq m))) by (intros j J; rewrite C by lia; reflexivity). rewrite (Z (fun j => loss (change m c j)) (loss (d * nq m))) by (intros j J; rewrite C by lia; reflexivity).
    assert (PM : 0 < nq m) by (apply nq_pos; lia). destruct (qltb_spec 0 d) as [Q|Q].
    - assert (0 <= d * nq m) by (apply Qclt_le_weak in Q, PM; replace 0 with (d * 0) by ring; apply mul_le; assumption). rewrite loss_pos by assumption. reflexivity.
    - apply Qcnot_lt_le in Q. assert (Q' : d < 0) by (destruct (Qcle_lt_or_eq _ _ Q) as [X|X]; [exact X|contradiction]). assert (L0 : d * nq m < 0) by qnra. rewrite gain_neg by (apply Qclt_le_weak, L0). rewrite loss_neg by exact L0.
      destruct (qeqb (- (d * nq m)) 0) eqn:E; [apply qeqb_iff in E; qlra|]. assert (X : - (d * nq m) <> 0) by (intro X; apply qeqb_iff in X; congruence). unfold level. f_equal.
      replace (zq 100 * 0 / (0 + - (d * nq m))) with 0; [apply Qc_is_canon; reflexivity|]. unfold Qcdiv. ring.
  Qed.
  Lemma steady_dpo p : made (cDPO p) -> let e := S (nat_arg p / 2) in (e <= k)%nat ->
    shown "dpo" ob (k - e) = from (nat_arg p - 1 - e) (k - e) (Fin (r4 (- d * (if Nat.even (nat_arg p) then zq 3 / zq 2 else 1)))).
  Proof.
    intros M e E. per p. pose proof (detrended_price_shown o raw b ob W _ k c M KC E) as X. cbv zeta in X. fold e in X. rewrite X. clear X. destruct (Nat.le_gt_cases (nat_arg p - 1) k) as [G|G].
    - apply from_same. intros _. rewrite (mean_line c k d _ SC) by lia. rewrite (line_at c k d (k - e) k SC) by lia. replace (k - (k - e))%nat with e by lia. do 2 f_equal.
      assert (Q : nq (nat_arg p) = if Nat.even (nat_arg p) then zq 2 * nq (nat_arg p / 2) else zq 2 * nq (nat_arg p / 2) + 1).
      { destruct (Nat.even (nat_arg p)) eqn:V.
        - apply Nat.even_spec in V as [m V]. rewrite V. replace (2 * m)%nat with (m * 2)%nat by lia. rewrite Nat.div_mul by discriminate. replace (m * 2)%nat with (m + m)%nat by lia. rewrite nq_add. replace (zq 2) with (1 + 1) by (apply Qc_is_canon; reflexivity). ring.
        - assert (O : Nat.Odd (nat_arg p)) by (apply Nat.odd_spec; unfold Nat.odd; rewrite V; reflexivity). destruct O as [m O]. rewrite O. replace ((2 * m + 1) / 2)%nat with m by (apply (Nat.div_unique (2 * m + 1) 2 m 1); lia). replace (2 * m + 1)%nat with (S (m + m)) by lia. rewrite nq_S, nq_add. replace (zq 2) with (1 + 1) by (apply Qc_is_canon; reflexivity). ring. }
      unfold e. rewrite nq_S, Q. destruct (Nat.even (nat_arg p)); replace (zq 3) with (1 + (1 + 1)) by (apply Qc_is_canon; reflexivity); replace (zq 2) with (1 + 1) by (apply Qc_is_canon; reflexivity); field; discriminate.
    - unfold from. destruct (Nat.ltb_spec (k - e) (nat_arg p - 1 - e)); [reflexivity|lia].
  Qed.
  Lemma steady_slope p : made (cLRS p) -> (2 <= nat_arg p)%nat -> shown "lrs" ob k = from (nat_arg p - 1) k (Fin (r4 d)).
  Proof.
    intros M P. rewrite (regression_slope_shown o raw b ob W _ k c M P KC). cbv zeta. apply from_same. intro G. unfold slope_last.
    assert (E : forall i, (i < nat_arg p)%nat -> last_rows c (nat_arg p) k i = c (S k - nat_arg p)%nat + d * nq i) by (intros i I; unfold last_rows; rewrite (line_at c k d (S k - nat_arg p) _ SC) by lia; do 3 f_equal; lia).
    rewrite (proj2 (fit_exact _ _ _ _ P E)). reflexivity.
  Qed.

  Lemma steady_forecast n j : (2 <= n)%nat -> (n - 1 <= j)%nat -> (j <= k)%nat -> forecast c n j = r4 d + r4 (c j).
  Proof.
    intros P G J. unfold forecast, end_last, slope_last.
    assert (E : forall i, (i < n)%nat -> last_rows c n j i = c (S j - n)%nat + d * nq i) by (intros i I; unfold last_rows; rewrite (line_at c k d (S j - n) _ SC) by lia; do 3 f_equal; lia).
    destruct (fit_exact _ _ _ _ P E) as [F1 F2]. rewrite F1, F2. rewrite (line_at c k d (S j - n) j SC) by lia. replace (j - (S j - n))%nat with (n - 1)%nat by lia. reflexivity.
  Qed.
  Lemma steady_tsf p : made (cTSF p) -> (2 <= nat_arg p)%nat -> shown "tsf" ob k = from (nat_arg p - 1) k (Fin (r4 d + r4 (c k))).
  Proof. intros M P. rewrite (time_series_forecast_shown o raw b ob W _ k c M KC). cbv zeta. apply from_same. intro G. rewrite steady_forecast by lia. reflexivity. Qed.
  Lemma steady_fosc p : made (cFOSC p) -> (2 <= nat_arg p)%nat -> r4 d = d -> r4 (c (k - 1)%nat) = c (k - 1)%nat -> c k <> 0 -> shown "fosc" ob k = from (nat_arg p) k (level 0).
  Proof.
    intros M P R R1 C0. rewrite (forecast_oscillator_shown o raw b ob W _ k c M KC). cbv zeta. apply from_same. intro G. rewrite steady_forecast by lia. rewrite R, R1. unfold level. rewrite <- (r4_level 0).
    apply (ratio_same _ _ (c k)); [exact C0| |reflexivity]. rewrite (step_line c k d k SC) at 1 by lia. change (zq 0) with 0. ring.
  Qed.

  (** ** the day's range *)
  Hypothesis KH : known (given "high" ob) k h. Hypothesis KL : known (given "low" ob) k l. Hypothesis PA : parallel h l c k u s.
  Lemma high_line : straight h k d. Proof. apply (straight_add c h k d u SC). intros j J. apply PA, J. Qed.
  Lemma low_line : straight l k d. Proof. apply (straight_add c l k d (- s) SC). intros j J. rewrite (proj2 (PA j J)). ring. Qed.
  Lemma steady_cci p : made (cCCI p) -> (2 <= nat_arg p)%nat -> d <> 0 -> shown "cci" ob k = from (nat_arg p - 1) k (Fin (r4 (if qltb 0 d then channel_of (nat_arg p) else - channel_of (nat_arg p)))).
  Proof.
    intros M P2 D. set (n := nat_arg p) in *. rewrite (commodity_channel_shown o raw b ob W _ k h l c M KH KL KC). cbv zeta. fold n. apply from_same. intro G.
    assert (ST : straight (typical h l c) k d).
    { apply (straight_add c (typical h l c) k d ((u - s) / zq 3) SC). intros j J. unfold typical. destruct (PA j J) as [-> ->]. replace (zq 3) with (1 + (1 + 1)) by (apply Qc_is_canon; reflexivity). field. discriminate. }
    set (tp := typical h l c) in *. rewrite (mean_line tp k d n ST) by lia. assert (P1 : (1 <= n)%nat) by lia. pose proof (nq_neq n P1) as N.
    set (L := (nq n - 1) / zq 2).
    assert (E : mean_last (fun j => abs (tp k - d * L - tp j)) n k = abs d * total (fun i => abs (L - nq i)) n / nq n).
    { unfold mean_last. f_equal. unfold sum_last. rewrite <- total_mul. apply total_ext. intros i I. rewrite (line_at tp k d (S k - n + i) k ST) by lia. replace (k - (S k - n + i))%nat with (n - 1 - i)%nat by lia. rewrite !nq_sub by lia. change (nq 1) with 1.
      replace (tp (S k - n + i)%nat + d * (nq n - 1 - nq i) - d * L - tp (S k - n + i)%nat) with (d * (L - nq i)).
      2:{ unfold L. replace (zq 2) with (1 + 1) by (apply Qc_is_canon; reflexivity). field. discriminate. }
      apply abs_mul. }
    rewrite E. destruct (channel_spread n P2) as (E0 & T0 & X). cbv zeta in X. fold L in X. pose proof (channel_small n E0) as C. cbv zeta in C. rewrite <- C in X. set (t := total (fun i => abs (L - nq i)) n) in *.
    replace (tp k - (tp k - d * L)) with (d * L) by ring. assert (K0 : Q2Qc (15 # 1000) <> 0) by discriminate.
    assert (Y : Q2Qc (15 # 1000) * (abs d * t / nq n) <> 0) by (unfold Qcdiv; apply nz_mul; [exact K0|]; apply nz_mul; [apply nz_mul; [apply abs_nz, D|exact T0]|]; intro I; apply N; rewrite <- (Qcmult_1_l (nq n)); rewrite <- (Qcmult_inv_r (nq n) N), I; ring).
    apply (ratio_same _ _ _ _ Y); [|reflexivity]. rewrite <- X. destruct (qltb_spec 0 d) as [Q|Q].
    - rewrite (abs_pos d) by (apply Qclt_le_weak, Q). field. exact N.
    - apply Qcnot_lt_le in Q. rewrite (abs_neg d) by exact Q. field. exact N.
  Qed.

  (** how far the close is below the highest and above the lowest price of n days *)
  Lemma top_of n j : (1 <= n)%nat -> (n <= S j)%nat -> (j <= k)%nat -> max_last h n j - c j = u + loss d * (nq n - 1) /\ c j - min_last l n j = s + gain d * (nq n - 1).
  Proof.
    intros P G J. destruct (PA j J) as [HJ LJ]. pose proof (straight_less h k d j high_line J) as SH. pose proof (straight_less l k d j low_line J) as SL. destruct (Qclt_le_dec 0 d) as [Q|Q].
    - rewrite gain_pos, loss_pos by (auto using Qclt_le_weak). apply Qclt_le_weak in Q. rewrite (proj1 (max_rise h j d n SH Q P G)), (proj2 (max_rise l j d n SL Q P G)), HJ, LJ. split; ring.
    - rewrite (proj1 (max_fall h j d n SH Q P G)), (proj2 (max_fall l j d n SL Q P G)), HJ, LJ. rewrite gain_neg by exact Q. destruct (Qcle_lt_or_eq _ _ Q) as [X|X]; [rewrite loss_neg by exact X|rewrite X; change (loss 0) with 0]; split; ring.
  Qed.
  Lemma steady_wr p : made (cWR p) -> let n := nat_arg p in let up := u + loss d * (nq n - 1) in let down := s + gain d * (nq n - 1) in up + down <> 0 ->
    shown "wr" ob k = from (n - 1) k (Fin (r4 (- zq 100 * up / (up + down)))).
  Proof.
    intros M n up down Z. per p. rewrite (williams_r_shown o raw b ob W _ k h l c M KH KL KC). cbv zeta. apply from_same. intro G. fold n in G |- *. destruct (top_of n k P ltac:(lia) (le_n _)) as [A B]. fold up in A. fold down in B.
    assert (E : max_last h n k - min_last l n k = up + down) by (rewrite <- A, <- B; ring). rewrite E, A. unfold ratio, ndiv. destruct (qeqb (up + down) 0) eqn:X; [apply qeqb_iff in X; contradiction|]. cbn [nmul]. unfold rn. cbn [nround]. unfold r4. do 2 f_equal. unfold Qcdiv. ring.
  Qed.
  Lemma steady_k p q r m : made (cSO p q r m) -> let n := nat_arg p in let up := u + loss d * (nq n - 1) in let down := s + gain d * (nq n - 1) in up + down <> 0 ->
    shown "%K" ob k = from (n + nat_arg q - 2) k (Fin (r4 (zq 100 * down / (up + down)))).
  Proof.
    intros M n up down Z. assert (P : (1 <= nat_arg p)%nat /\ (1 <= nat_arg q)%nat) by (look fr V VV; lia). destruct P as [P P2]. rewrite (stochastic_shown o raw b ob W _ _ _ _ k h l c M KH KL KC). cbv zeta. apply from_same. intro G. fold n in G, P |- *. set (w := nat_arg q) in *.
    rewrite (sum_same (fun j => c j - min_last l n j) down) by (lia || (intros j J; apply (proj2 (top_of n j P ltac:(lia) ltac:(lia))))).
    rewrite (sum_same (fun j => max_last h n j - min_last l n j) (up + down)) by (lia || (intros j J; destruct (top_of n j P ltac:(lia) ltac:(lia)) as [A B]; fold up in A; fold down in B; rewrite <- A, <- B; ring)).
    apply (ratio_same _ _ (nq w * (up + down))); [apply nz_mul; [apply nq_neq, P2|exact Z]|field; exact Z|reflexivity].
  Qed.
  Lemma steady_smi p q r : made (cSMI p q r) -> let n := nat_arg p in let up := u + loss d * (nq n - 1) in let down := s + gain d * (nq n - 1) in up + down <> 0 ->
    shown "smi" ob k = from (n + nat_arg q + nat_arg r - 3) k (Fin (r4 (zq 100 * (down - up) / (up + down)))).
  Proof.
    intros M n up down Z. assert (P : (1 <= nat_arg p)%nat /\ (1 <= nat_arg q)%nat /\ (1 <= nat_arg r)%nat) by (look fr V VV; lia). destruct P as (P & P2 & P3). rewrite (stochastic_momentum_shown o raw b ob W _ _ _ k h l c M KH KL KC). cbv zeta. apply from_same. intro G. fold n in G, P |- *.
    set (w := nat_arg q) in *. set (v := nat_arg r) in *.
    assert (T : forall f z, (forall j, (n - 1 <= j <= k)%nat -> f j = z) -> ema_from (n + w - 2) v (ema_from (n - 1) w f) k = z) by (intros f z H; apply ema_same_value; [lia|]; intros j J; apply ema_same_value; [lia|]; intros i I; apply H; lia).
    rewrite (T _ ((down - up) / zq 2)) by (intros j J; destruct (top_of n j P ltac:(lia) ltac:(lia)) as [A B]; fold up in A; fold down in B; rewrite <- A, <- B; replace (zq 2) with (1 + 1) by (apply Qc_is_canon; reflexivity); field; discriminate).
    rewrite (T (fun j => max_last h n j - min_last l n j) (up + down)) by (intros j J; destruct (top_of n j P ltac:(lia) ltac:(lia)) as [A B]; fold up in A; fold down in B; rewrite <- A, <- B; ring).
    assert (Z2 : zq 2 <> 0) by discriminate. apply (ratio_same _ _ ((up + down) / zq 2)); [|field; split; assumption|reflexivity].
    unfold Qcdiv. apply nz_mul; [exact Z|discriminate].
  Qed.
  Lemma prev_close j : (1 <= j)%nat -> (j <= k)%nat -> c (j - 1)%nat = c j - d. Proof. intros A B. rewrite (step_line c k d j SC A B). ring. Qed.
  Lemma reach_of j : (1 <= j)%nat -> (j <= k)%nat -> pressure l c j = larger s d /\ reach h l c j = larger u (- d) + larger s d.
  Proof.
    intros A B. unfold pressure, reach, true_low, true_high. rewrite (prev_close j A B). destruct (PA j B) as [-> ->].
    assert (E : smaller (c j - s) (c j - d) = c j - larger s d).
    { unfold smaller, larger. destruct (qltb_spec (c j - d) (c j - s)) as [Q|Q], (qltb_spec s d) as [X|X]; try reflexivity; exfalso; try (apply X; qlra); apply Q; qlra. }
    assert (E2 : larger (c j + u) (c j - d) = c j + larger u (- d)).
    { unfold larger. destruct (qltb_spec (c j + u) (c j - d)) as [Q|Q], (qltb_spec u (- d)) as [X|X]; try reflexivity; try ring; exfalso; try (apply X; qlra); apply Q; qlra. }
    rewrite E, E2. split; ring.
  Qed.
  Lemma steady_uo : made cUO -> let up := larger u (- d) in let down := larger s d in up + down <> 0 -> shown "uosc" ob k = from 28 k (Fin (r4 (zq 100 * down / (up + down)))).
  Proof.
    intros M up down Z. assert (R : forall w, (1 <= w)%nat -> (w <= 28)%nat -> (28 <= k)%nat -> sum_last (pressure l c) w k = nq w * down /\ sum_last (reach h l c) w k = nq w * (up + down)) by (intros w W1 W2 G; split; apply sum_same; try lia; intros j J; apply (reach_of j); lia).
    rewrite (ultimate_oscillator_shown o raw b ob W k h l c M) by first [assumption | intros w I G; rewrite (proj2 (R w ltac:(cbn in I; lia) ltac:(cbn in I; lia) G)); apply nz_mul; [apply nq_neq; cbn in I; lia|exact Z]].
    cbv zeta. apply from_same. intro G.
    assert (X : forall w, (1 <= w)%nat -> (w <= 28)%nat -> sum_last (pressure l c) w k / sum_last (reach h l c) w k = down / (up + down)) by (intros w W1 W2; destruct (R w W1 W2 G) as [-> ->]; field; split; [exact Z|apply nq_neq, W1]).
    rewrite !X by lia. do 2 f_equal. replace (zq 4) with (1 + 1 + 1 + 1) by (apply Qc_is_canon; reflexivity). replace (zq 2) with (1 + 1) by (apply Qc_is_canon; reflexivity). replace (zq 7) with (1 + 1 + 1 + 1 + 1 + 1 + 1) by (apply Qc_is_canon; reflexivity). field. split; [exact Z|discriminate].
  Qed.
  Lemma range_of j : (1 <= j)%nat -> (j <= k)%nat -> true_range h l c j = daily_range u s d.
  Proof.
    intros A B. destruct j as [|i]; [lia|]. cbn [true_range]. pose proof (prev_close (S i) A B) as E. replace (S i - 1)%nat with i in E by lia. rewrite E. destruct (PA (S i) B) as [-> ->]. unfold daily_range. f_equal; ring.
  Qed.
  Lemma steady_atr : made cATR -> (13 <= k)%nat -> let r := daily_range u s d in shown "atr" ob k = Fin (r4 (r - (r - (u + s)) / zq 14 * (zq 13 / zq 14) ^ (k - 13))).
  Proof.
    intros M K r. rewrite (average_true_range_shown o raw b ob W k h l c M K KH KL KC). cbv zeta. do 2 f_equal. unfold run_from. assert (Z : zq 14 <> 0) by discriminate. assert (T3 : zq 13 = zq 14 - 1) by (apply Qc_is_canon; reflexivity).
    assert (G : forall m, (13 + m <= k)%nat -> run (wilders 14) (mean_last (true_range h l c) 14 13) (fun j => true_range h l c (13 + j)%nat) m = r - (r - (u + s)) / zq 14 * (zq 13 / zq 14) ^ m).
    { induction m as [|m IH]; intro L.
      - cbn [run Qcpower]. unfold mean_last, sum_last. change (S 13 - 14)%nat with 0%nat. rewrite total_front. rewrite (total_same _ r) by (intros j J; apply range_of; lia). change (0 + 0)%nat with 0%nat. cbn [true_range]. destruct (PA 0%nat ltac:(lia)) as [-> ->]. change (nq 13) with (zq 13). change (nq 14) with (zq 14). rewrite T3. field. exact Z.
      - cbn [run Qcpower]. rewrite IH by lia. rewrite range_of by lia. fold r. unfold wilders. change (nq 14) with (zq 14). rewrite T3. field. exact Z. }
    apply G. lia.
  Qed.
  Hypothesis NZ : d <> 0. Hypothesis UP : 0 <= u. Hypothesis SP : 0 <= s.
  Lemma daily_pos : 0 < daily_range u s d.
  Proof. clear - NZ UP SP. unfold daily_range, larger3, larger. destruct (qltb_spec (u + s) (u + d)) as [A|A]; [destruct (qltb_spec (u + d) (s - d)) as [B|B]|destruct (qltb_spec (u + s) (s - d)) as [B|B]]; try apply Qcnot_lt_le in A; try apply Qcnot_lt_le in B; try qlra.
    assert (0 <= u + s) by qlra. destruct (Qcle_lt_or_eq _ _ H) as [X|X]; [exact X|]. exfalso. apply NZ. apply Qcle_antisym; qlra. Qed.
  Lemma moves_of j : (1 <= j)%nat -> (j <= k)%nat -> plus_move h l j = gain d /\ minus_move h l j = loss d.
  Proof.
    intros A B. unfold plus_move, minus_move. assert (E : up_move h j = d) by (unfold up_move; rewrite (step_line h k d j high_line A B); ring). assert (E2 : down_move l j = - d) by (unfold down_move; rewrite (step_line l k d j low_line A B); ring).
    rewrite E, E2. unfold gain, loss. clear - NZ. destruct (qltb_spec (- d) d) as [X|X], (qltb_spec 0 d) as [Y|Y], (qltb_spec d (- d)) as [Z|Z], (qltb_spec 0 (- d)) as [T|T], (qltb_spec d 0) as [V|V]; cbn [andb]; try (split; reflexivity); exfalso;
      try apply Qcnot_lt_le in X; try apply Qcnot_lt_le in Y; try apply Qcnot_lt_le in Z; try apply Qcnot_lt_le in T; try apply Qcnot_lt_le in V; first [qlra | apply NZ; apply Qcle_antisym; qlra].
  Qed.
  Lemma di_of j : (14 <= j <= k)%nat -> plus_di h l c j = zq 100 * gain d / daily_range u s d /\ minus_di h l c j = zq 100 * loss d / daily_range u s d.
  Proof.
    intros [A B]. assert (N : daily_range u s d <> 0) by (apply qc_pos_neq0, daily_pos). assert (N2 : kept (j - 13) <> 0) by (apply qc_pos_neq0, kept_pos).
    unfold plus_di, minus_di, directional. rewrite (running_same_value (true_range h l c) (daily_range u s d) j) by (lia || (intros i I; apply range_of; lia)).
    rewrite (running_same_value (plus_move h l) (gain d) j) by (lia || (intros i I; apply moves_of; lia)). rewrite (running_same_value (minus_move h l) (loss d) j) by (lia || (intros i I; apply moves_of; lia)). split; field; split; assumption.
  Qed.
  Lemma steady_dmi : made cDMI -> shown "+di" ob k = from 14 k (Fin (r4 (zq 100 * gain d / daily_range u s d))) /\ shown "-di" ob k = from 14 k (Fin (r4 (zq 100 * loss d / daily_range u s d))) /\
    shown "dx" ob k = from 14 k (level 100) /\ shown "adx" ob k = from 27 k (level 100) /\ shown "adxr" ob k = from 40 k (level 100).
  Proof.
    intro M. pose proof daily_pos as DP. assert (N : daily_range u s d <> 0) by (apply qc_pos_neq0, DP).
    assert (R0 : forall j, (14 <= j <= k)%nat -> running (true_range h l c) j <> 0).
    { intros j J. rewrite (running_same_value (true_range h l c) (daily_range u s d) j) by (lia || (intros i I; apply range_of; lia)). apply nz_mul; [exact N|apply qc_pos_neq0, kept_pos]. }
    set (q := zq 100 * abs d / daily_range u s d). assert (Q0 : q <> 0) by (unfold q, Qcdiv; apply nz_mul; [apply nz_mul; [discriminate|apply abs_nz, NZ]|]; intro I; apply N; rewrite <- (Qcmult_1_l (daily_range u s d)), <- (Qcmult_inv_r _ N), I; ring).
    assert (DI : forall j, (14 <= j <= k)%nat -> plus_di h l c j + minus_di h l c j = q /\ (plus_di h l c j - minus_di h l c j = q \/ plus_di h l c j - minus_di h l c j = - q)).
    { intros j J. destruct (di_of j J) as [-> ->]. unfold q. destruct (Qclt_le_dec 0 d) as [X|X].
      - rewrite gain_pos, loss_pos, abs_pos by (auto using Qclt_le_weak). split; [field; exact N|left; field; exact N].
      - assert (X' : d < 0) by (destruct (Qcle_lt_or_eq _ _ X) as [Y|Y]; [exact Y|contradiction]). rewrite gain_neg, loss_neg, abs_neg by assumption. split; [field; exact N|right; field; exact N]. }
    assert (S0 : forall j, (14 <= j <= k)%nat -> plus_di h l c j + minus_di h l c j <> 0) by (intros j J; rewrite (proj1 (DI j J)); exact Q0).
    assert (DX : forall j, (14 <= j <= k)%nat -> dx_line h l c j = zq 100).
    { intros j J. unfold dx_line. destruct (DI j J) as [E1 E2]. rewrite E1. pose proof (abs_nz q Q0) as AQ. assert (E3 : abs (plus_di h l c j - minus_di h l c j) = abs q) by (destruct E2 as [-> | ->]; [reflexivity|]; replace (- q) with (- (1) * q) by ring; rewrite abs_mul; replace (abs (- (1))) with 1 by (apply Qc_is_canon; reflexivity); ring). rewrite E3. field. exact AQ. }
    assert (AX : forall j, (27 <= j <= k)%nat -> adx_line h l c j = zq 100).
    { intros j J. unfold adx_line, run_from. rewrite (total_same _ (zq 100)) by (intros i I; apply DX; lia). replace (nq 14 * zq 100 / zq 14) with (zq 100) by (apply Qc_is_canon; reflexivity). apply run_same; [apply Qc_is_canon; reflexivity|]. intros i I. apply DX. lia. }
    destruct (directional_lines_shown o raw b ob W k h l c M R0 KH KL KC) as [-> ->]. rewrite (directional_index_shown o raw b ob W k h l c M R0 S0 KH KL KC), (average_directional_index_shown o raw b ob W k h l c M R0 S0 KH KL KC), (directional_rating_shown o raw b ob W k h l c M R0 S0 KH KL KC).
    split; [|split; [|split; [|split]]]; apply from_same; intro G.
    - rewrite (proj1 (di_of k ltac:(lia))). reflexivity.
    - rewrite (proj2 (di_of k ltac:(lia))). reflexivity.
    - rewrite DX by lia. rewrite r4_level. reflexivity.
    - rewrite AX by lia. rewrite r4_level. reflexivity.
    - rewrite !AX by lia. replace ((zq 100 + zq 100) / zq 2) with (zq 100) by (apply Qc_is_canon; reflexivity). rewrite r4_level. reflexivity.
  Qed.
End Steady.
