(** * SwayApi: published averages and extremes of prices that are slightly off. *)
From Coq Require Import ZArith QArith Qcanon Bool List String PeanoNat Lia.
From Verif Require Import Num NumFacts RoundFacts Pandas Sim Frame FrameSpec FrameProofs Ind Signal Api IndSpec SeriesFacts Lengths Causal IndFacts Shape ApiSpec ApiCheck ApiProofs ApiLemmas RangeSpec Cells RangeFacts RangeMore Publish RangeApi ValueSpec ValueFacts ValueMore Recur ValueApi CumulApi.
From Verif Require Import FormulaSpec Starts Formula Formula2 Formula3 Formula4 Line Formula5 Formula6 FormulaApi IdentFacts MirrorSpec MirrorApi3 OrderFacts OrderApi SwaySpec SwayFacts.
Import ListNotations.
Open Scope list_scope. Open Scope string_scope. Open Scope Qc_scope.

Lemma midpoint_up x y x' y' k h h' l l' a b v v' e : known x k h -> known x' k h' -> known y k l -> known y' k l' ->
  (forall j, (j <= k)%nat -> h j <= h' j + e /\ h' j <= h j + e) -> (forall j, (j <= k)%nat -> l j <= l' j + e /\ l' j <= l j + e) -> (a <= b <= k)%nat ->
  midpoint x y a b v -> midpoint x' y' a b v' -> exists p q, v = Fin p /\ v' = Fin q /\ p <= q + e /\ q <= p + e.
Proof.
  intros X X' Y Y' HL LL I [(M & n & A & B & ->)|[[N|N] _]] P; [|exfalso; exact (known_some _ _ _ _ _ X I N)|exfalso; exact (known_some _ _ _ _ _ Y I N)].
  destruct P as [(M' & n' & A' & B' & ->)|[[N|N] _]]; [|exfalso; exact (known_some _ _ _ _ _ X' I N)|exfalso; exact (known_some _ _ _ _ _ Y' I N)].
  exists ((M + n) / zq 2), ((M' + n') / zq 2). split; [reflexivity|]. split; [reflexivity|]. change (zq 2) with (nq 2).
  assert (T : nq 2 * e = e + e) by (change (nq 2) with (zq 2); replace (zq 2) with (1 + 1) by (apply Qc_is_canon; reflexivity); ring).
  split; (apply avg_up; [lia|]; rewrite T).
  - pose proof (highest_up _ _ k h h' a b M M' e X X' (fun j J => proj1 (HL j J)) ltac:(lia) A A'). pose proof (lowest_up _ _ k l l' a b n n' e Y Y' (fun j J => proj1 (LL j J)) ltac:(lia) B B'). qlra.
  - pose proof (highest_up _ _ k h' h a b M' M e X' X (fun j J => proj2 (HL j J)) ltac:(lia) A' A). pose proof (lowest_up _ _ k l' l a b n' n e Y' Y (fun j J => proj2 (LL j J)) ltac:(lia) B' B). qlra.
Qed.

Section Sway.
  Variables (o : oracle) (raw raw' : rawframe) (b b' : bool) (ob ob' : obj) (k : nat) (e : Qc) (op op' h h' l l' c c' : nat -> Qc).
  Hypothesis W : wf_raw raw. Hypothesis W' : wf_raw raw'.
  Notation both c := (twice c o raw raw' b b' ob ob').
  Notation off n f g := (off_by e k ob ob' n f%function g%function).
  Notation kept n a u := (near (a * e + units4 u) (shown n ob k) (shown n ob' k)).
  Ltac start := let A := fresh "A" in let B := fresh "B" in intros [A B].
  Ltac period p := assert (P : (1 <= nat_arg p)%nat) by (let fr := fresh in let V := fresh in let VV := fresh in look fr V VV; lia).
  Lemma one_r4 a d : a <= d + e -> d <= a + e -> near (1 * e + units4 1) (Fin (r4 a)) (Fin (r4 d)).
  Proof. intros. rewrite Qcmult_1_l. apply nr_r4; assumption. Qed.

  Lemma off_simple p : both (cMA p (VStr "simple")) -> off "close" c c' -> kept "ma-simple" 1 1%Z.
  Proof.
    start. intros (K & K' & L). period p. rewrite (simple_moving_average_shown o raw b ob W p k c A K), (simple_moving_average_shown o raw' b' ob' W' p k c' B K'). cbv zeta.
    apply nr_from. intro G. apply one_r4; (apply mean_up; [lia|lia|intros j J; apply L; lia]).
  Qed.
  Lemma off_exponential p : both (cMA p (VStr "exponential")) -> off "close" c c' -> kept "ma-exponential" 1 1%Z.
  Proof.
    start. intros (K & K' & L). period p. rewrite (exponential_moving_average_shown o raw b ob W p k c A K), (exponential_moving_average_shown o raw' b' ob' W' p k c' B K'). cbv zeta.
    apply nr_from. intro G. apply one_r4; (apply ema_from_up; [exact P|lia|intros j J; apply L; lia]).
  Qed.
  Lemma off_triangular p : both (cMA p (VStr "triangular")) -> off "close" c c' -> kept "ma-triangular" 1 1%Z.
  Proof.
    start. intros (K & K' & L). period p. rewrite (triangular_moving_average_shown o raw b ob W p k c A K), (triangular_moving_average_shown o raw' b' ob' W' p k c' B K'). cbv zeta.
    apply nr_from. intro G. apply one_r4; (apply mean_up; [lia|lia|intros j J; apply mean_up; [lia|lia|intros i I; apply L; lia]]).
  Qed.
  Lemma off_ws p : both (cWS p) -> off "close" c c' -> kept "ws" 1 1%Z.
  Proof.
    start. intros (K & K' & L). period p. rewrite (wilders_smoothing_shown o raw b ob W p k c A K), (wilders_smoothing_shown o raw' b' ob' W' p k c' B K'). cbv zeta.
    apply nr_from. intro G. apply one_r4; (apply run_from_up; [exact P|apply mean_up; [lia|lia|intros j J; apply L; lia]|intros j J; apply L; lia|exact G]).
  Qed.
  Lemma off_dema p : both (cDEMA p) -> off "close" c c' -> kept "dema" (zq 3) 1%Z.
  Proof.
    start. intros (K & K' & L). period p. rewrite (double_exponential_shown o raw b ob W p k c A K), (double_exponential_shown o raw' b' ob' W' p k c' B K'). cbv zeta.
    apply nr_from. intro G. set (n := nat_arg p) in *. set (e1 := ema_from 0 n c). set (e1' := ema_from 0 n c').
    assert (E1 : forall j, (j <= k)%nat -> e1 j <= e1' j + e /\ e1' j <= e1 j + e) by (intros j J; split; (apply ema_from_up; [exact P|lia|intros i I; apply L; lia])).
    assert (E2 : ema_from (n - 1) n e1 k <= ema_from (n - 1) n e1' k + e /\ ema_from (n - 1) n e1' k <= ema_from (n - 1) n e1 k + e) by (split; (apply ema_from_up; [exact P|lia|intros i I; apply E1; lia])).
    destruct (E1 k (le_n _)) as [X Y], E2 as [X2 Y2]. apply nr_r4; unfold zq; qlra.
  Qed.
  Lemma off_tema p : both (cTEMA p) -> off "close" c c' -> kept "tema" (zq 7) 1%Z.
  Proof.
    start. intros (K & K' & L). period p. rewrite (triple_exponential_shown o raw b ob W p k c A K), (triple_exponential_shown o raw' b' ob' W' p k c' B K'). cbv zeta.
    apply nr_from. intro G. set (n := nat_arg p) in *. set (e1 := ema_from 0 n c). set (e1' := ema_from 0 n c').
    assert (E1 : forall j, (j <= k)%nat -> e1 j <= e1' j + e /\ e1' j <= e1 j + e) by (intros j J; split; (apply ema_from_up; [exact P|lia|intros i I; apply L; lia])).
    assert (E2 : forall j, (n - 1 <= j <= k)%nat -> ema_from (n - 1) n e1 j <= ema_from (n - 1) n e1' j + e /\ ema_from (n - 1) n e1' j <= ema_from (n - 1) n e1 j + e) by (intros j J; split; (apply ema_from_up; [exact P|lia|intros i I; apply E1; lia])).
    set (e2 := ema_from (n - 1) n e1) in *. set (e2' := ema_from (n - 1) n e1') in *.
    assert (E3 : ema_from (2 * (n - 1)) n e2 k <= ema_from (2 * (n - 1)) n e2' k + e /\ ema_from (2 * (n - 1)) n e2' k <= ema_from (2 * (n - 1)) n e2 k + e) by (split; (apply ema_from_up; [exact P|lia|intros i I; apply E2; lia])).
    destruct (E1 k (le_n _)) as [X Y], (E2 k ltac:(lia)) as [X2 Y2], E3 as [X3 Y3]. apply nr_r4; unfold zq; qlra.
  Qed.
  Lemma units_split : units4 2 = units4 1 + units4 1 /\ units4 3 = units4 1 + units4 1 + units4 1. Proof. split; apply Qc_is_canon; reflexivity. Qed.
  Lemma off_macd : both cMACD -> off "close" c c' -> kept "macd" (zq 2) 2%Z /\ kept "signal_line" (zq 2) 3%Z.
  Proof.
    start. intros (K & K' & L). destruct (macd_shown o raw b ob W k c A K) as [-> ->]. destruct (macd_shown o raw' b' ob' W' k c' B K') as [-> ->]. destruct units_split as [U2 U3]. rewrite U2, U3.
    set (m := fun j => r4 (ema_from 0 12 c j) - r4 (ema_from 0 26 c j)). set (m' := fun j => r4 (ema_from 0 12 c' j) - r4 (ema_from 0 26 c' j)).
    assert (E : forall p j, (1 <= p)%nat -> (j <= k)%nat -> r4 (ema_from 0 p c j) <= r4 (ema_from 0 p c' j) + (e + units4 1) /\ r4 (ema_from 0 p c' j) <= r4 (ema_from 0 p c j) + (e + units4 1)).
    { intros p j P J. split; apply r4_up; (apply ema_from_up; [exact P|lia|intros i I; apply L; lia]). }
    assert (D : forall j, (j <= k)%nat -> m j <= m' j + (zq 2 * e + (units4 1 + units4 1)) /\ m' j <= m j + (zq 2 * e + (units4 1 + units4 1))).
    { intros j J. destruct (E 12%nat j ltac:(lia) J), (E 26%nat j ltac:(lia) J). unfold m, m'. split; unfold zq; qlra. }
    split.
    - apply nr_from. intro G. assert (R : forall x y, r4 (r4 x - r4 y) = r4 x - r4 y).
      { intros x y. replace (r4 x - r4 y) with (r4 x + r4 (- y)) by (rewrite MirrorFacts.r4_opp; ring). apply r4_sum. }
      rewrite !R. destruct (D k (le_n _)) as [X Y]. unfold m, m' in X, Y. apply nr_fin; assumption.
    - apply nr_from. intro G. replace (zq 2 * e + (units4 1 + units4 1 + units4 1)) with (zq 2 * e + (units4 1 + units4 1) + units4 1) by ring.
      apply nr_r4; [apply (ema_from_up 25 9 m m' k)|apply (ema_from_up 25 9 m' m k)]; [lia|exact (Nat.le_trans 25 33 k ltac:(lia) G)|intros j [J1 J2]; exact (proj1 (D j J2))|lia|exact (Nat.le_trans 25 33 k ltac:(lia) G)|intros j [J1 J2]; exact (proj2 (D j J2))].
  Qed.
  Lemma off_qs p : both (cQS p) -> off "open" op op' -> off "close" c c' -> kept "qstick" (zq 2) 1%Z.
  Proof.
    start. intros (O & O' & OL) (K & K' & L). period p. rewrite (qstick_shown o raw b ob W p k op c A O K), (qstick_shown o raw' b' ob' W' p k op' c' B O' K'). cbv zeta.
    apply nr_from. intro G. apply nr_r4; (apply mean_up; [lia|lia|intros j J; destruct (L j ltac:(lia)), (OL j ltac:(lia)); unfold zq; qlra]).
  Qed.
  Lemma off_mp p : both (cMP p) -> off "high" h h' -> off "low" l l' -> kept "mp" 1 1%Z.
  Proof.
    start. intros (H & H' & HL) (L & L' & LL). rewrite (mp_shown o raw b ob W p k (h k) (l k) A) by auto. rewrite (mp_shown o raw' b' ob' W' p k (h' k) (l' k) B) by auto.
    destruct (HL k (le_n k)), (LL k (le_n k)). change (zq 2) with (nq 2). assert (T : nq 2 * e = e + e) by (replace (nq 2) with (1 + 1) by (apply Qc_is_canon; reflexivity); ring).
    apply one_r4; (apply avg_up; [lia|]; rewrite T; unfold zq; qlra).
  Qed.
  Lemma off_tp p : both (cTP p) -> off "high" h h' -> off "low" l l' -> off "close" c c' -> kept "tp" 1 1%Z.
  Proof.
    start. intros (H & H' & HL) (L & L' & LL) (C & C' & CL). rewrite (tp_shown o raw b ob W p k (h k) (l k) (c k) A) by auto. rewrite (tp_shown o raw' b' ob' W' p k (h' k) (l' k) (c' k) B) by auto.
    destruct (HL k (le_n k)), (LL k (le_n k)), (CL k (le_n k)). change (zq 3) with (nq 3). assert (T : nq 3 * e = e + e + e) by (replace (nq 3) with (1 + 1 + 1) by (apply Qc_is_canon; reflexivity); ring).
    apply one_r4; (apply avg_up; [lia|]; rewrite T; unfold zq; qlra).
  Qed.
  Lemma off_wc : both cWC -> off "high" h h' -> off "low" l l' -> off "close" c c' -> kept "wc" 1 1%Z.
  Proof.
    start. intros (H & H' & HL) (L & L' & LL) (C & C' & CL). rewrite (wc_shown o raw b ob W k (h k) (l k) (c k) A) by auto. rewrite (wc_shown o raw' b' ob' W' k (h' k) (l' k) (c' k) B) by auto.
    destruct (HL k (le_n k)), (LL k (le_n k)), (CL k (le_n k)). change (zq 4) with (nq 4). assert (T : nq 4 * e = e + e + e + e) by (replace (nq 4) with (1 + 1 + 1 + 1) by (apply Qc_is_canon; reflexivity); ring).
    apply one_r4; (apply avg_up; [lia|]; rewrite T; unfold zq; qlra).
  Qed.
  Lemma off_pch p : both (cPCH p) -> off "high" h h' -> off "low" l l' -> kept "highest_high" 1 1%Z /\ kept "lowest_low" 1 1%Z.
  Proof.
    start. intros (H & H' & HL) (L & L' & LL). period p. pose proof (known_days _ _ _ _ H) as D. pose proof (known_days _ _ _ _ H') as D'. split.
    - destruct (pch_shown_high o raw b ob W p k A D) as [(M & N & FU & HI & ->)|[[N|(j & J & G)] ->]]; [| |rewrite H in G by lia; discriminate].
      + destruct (pch_shown_high o raw' b' ob' W' p k B D') as [(M3 & _ & _ & HI' & ->)|[[N2|(j & J & G)] _]]; [|lia|rewrite H' in G by lia; discriminate].
        apply one_r4; [exact (highest_up _ _ k h h' _ _ _ _ e H H' (fun j J => proj1 (HL j J)) (Nat.le_sub_l k 1) HI HI')|exact (highest_up _ _ k h' h _ _ _ _ e H' H (fun j J => proj2 (HL j J)) (Nat.le_sub_l k 1) HI' HI)].
      + destruct (pch_shown_high o raw' b' ob' W' p k B D') as [(M2 & N2 & _)|[_ ->]]; [lia|]. left. auto.
    - destruct (pch_shown_low o raw b ob W p k A D) as [(M & N & FU & HI & ->)|[[N|(j & J & G)] ->]]; [| |rewrite L in G by lia; discriminate].
      + destruct (pch_shown_low o raw' b' ob' W' p k B D') as [(M3 & _ & _ & HI' & ->)|[[N2|(j & J & G)] _]]; [|lia|rewrite L' in G by lia; discriminate].
        apply one_r4; [exact (lowest_up _ _ k l l' _ _ _ _ e L L' (fun j J => proj1 (LL j J)) (Nat.le_sub_l k 1) HI HI')|exact (lowest_up _ _ k l' l _ _ _ _ e L' L (fun j J => proj2 (LL j J)) (Nat.le_sub_l k 1) HI' HI)].
      + destruct (pch_shown_low o raw' b' ob' W' p k B D') as [(M2 & N2 & _)|[_ ->]]; [lia|]. left. auto.
  Qed.
  Lemma off_ich name : both cICH -> In name ["tenkan_sen"; "kijun_sen"; "senkou_a"; "senkou_b"] -> off "high" h h' -> off "low" l l' -> kept name 1 1%Z.
  Proof.
    start. intros I (H & H' & HL) (L & L' & LL). pose proof (known_days _ _ _ _ H) as D. pose proof (known_days _ _ _ _ H') as D'.
    assert (MID : forall a z v v', (a <= z <= k)%nat -> midpoint (given "high" ob) (given "low" ob) a z v -> midpoint (given "high" ob') (given "low" ob') a z v' -> exists p q, v = Fin p /\ v' = Fin q /\ p <= q + e /\ q <= p + e)
      by (intros a z v0 v' R; exact (midpoint_up _ _ _ _ k h h' l l' a z v0 v' e H H' L L' HL LL R)).
    destruct I as [<-|[<-|I]].
    - destruct (ich_shown_lines o raw b ob W k A D) as [(x & X & ->) _]. destruct (ich_shown_lines o raw' b' ob' W' k B D') as [(y & Y & ->) _].
      destruct (MID _ _ _ _ (conj (Nat.le_sub_l _ _) (le_n _)) X Y) as (p & q & -> & -> & Q & Q'). apply one_r4; assumption.
    - destruct (ich_shown_lines o raw b ob W k A D) as [_ (x & X & ->)]. destruct (ich_shown_lines o raw' b' ob' W' k B D') as [_ (y & Y & ->)].
      destruct (MID _ _ _ _ (conj (Nat.le_sub_l _ _) (le_n _)) X Y) as (p & q & -> & -> & Q & Q'). apply one_r4; assumption.
    - destruct (ich_shown_cloud o raw b ob W k A D) as [Y1 O1]. destruct (ich_shown_cloud o raw' b' ob' W' k B D') as [Y2 O2].
      destruct (Nat.lt_ge_cases k 26) as [G|G]; [specialize (Y1 G) as [Ya Yb]; specialize (Y2 G) as [Yc Yd]; destruct I as [<-|[<-|[]]]; rewrite ?Ya, ?Yb, ?Yc, ?Yd; left; auto|].
      specialize (O1 G) as [(u & w & U & V & SA) (x & X & SB)]. specialize (O2 G) as [(u' & w' & U' & V' & SA') (x' & X' & SB')].
      destruct (MID _ _ _ _ (conj (Nat.le_sub_l _ _) (Nat.le_sub_l _ _)) U U') as (a & a' & -> & -> & Q1 & Q1'). destruct (MID _ _ _ _ (conj (Nat.le_sub_l _ _) (Nat.le_sub_l _ _)) V V') as (d & d' & -> & -> & Q2 & Q2').
      destruct (MID _ _ _ _ (conj (Nat.le_sub_l _ _) (Nat.le_sub_l _ _)) X X') as (f & f' & -> & -> & Q3 & Q3').
      destruct I as [<-|[<-|[]]].
      + rewrite SA, SA'. change (F 2) with (Fin (zq 2)). cbn [nadd ndiv]. replace (qeqb (zq 2) 0) with false by reflexivity.
        change (zq 2) with (nq 2). assert (T : nq 2 * e = e + e) by (replace (nq 2) with (1 + 1) by (apply Qc_is_canon; reflexivity); ring). apply one_r4; (apply avg_up; [lia|]; rewrite T; unfold zq; qlra).
      + rewrite SB, SB'. apply one_r4; assumption.
  Qed.
  Lemma off_bb p w : both (cBB p w) -> off "close" c c' -> kept "middle_band" 1 1%Z.
  Proof.
    start. intros (K & K' & L). period p.
    destruct (bb_shown_values o raw b ob W p w k A) as ([M1 M0] & _). destruct (bb_shown_values o raw' b' ob' W' p w k B) as ([M1' M0'] & _). set (n := nat_arg p) in *.
    destruct (Nat.le_gt_cases n (S k)) as [G|G].
    - rewrite (M1 (fun j => c (S k - n + j)%nat)) by (split; [exact G|intros j J; apply K; lia]). rewrite (M1' (fun j => c' (S k - n + j)%nat)) by (split; [exact G|intros j J; apply K'; lia]).
      apply one_r4; (apply avg_up; [exact P|]; apply total_up; intros j J; apply L; lia).
    - rewrite M0 by (intros f [F _]; lia). rewrite M0' by (intros f [F _]; lia). left. auto.
  Qed.
  Lemma off_env p w s : as_number w = Fin s -> both (cENV p w) -> off "close" c c' -> kept "upper_band" (1 + s) 1%Z /\ kept "lower_band" (1 - s) 1%Z.
  Proof.
    intro E. start. intros (K & K' & L). period p. destruct (shift_within o raw b ob p w A) as (s' & E' & S0 & S1). rewrite E in E'. injection E' as <-.
    destruct (env_shown_values o raw b ob W p w k A) as ([M1 M0] & [N1 N0]). destruct (env_shown_values o raw' b' ob' W' p w k B) as ([M1' M0'] & [N1' N0']). set (n := nat_arg p) in *. rewrite E in *.
    destruct (Nat.le_gt_cases n (S k)) as [G|G].
    - set (x := fun j => c (S k - n + j)%nat). set (x' := fun j => c' (S k - n + j)%nat).
      assert (X : win (given "close" ob) n k x) by (split; [exact G|intros j J; apply K; lia]). assert (X' : win (given "close" ob') n k x') by (split; [exact G|intros j J; apply K'; lia]).
      assert (Q : mean x n <= mean x' n + e /\ mean x' n <= mean x n + e) by (split; (apply avg_up; [exact P|]; apply total_up; intros j J; apply L; lia)). destruct Q as [Q Q'].
      rewrite (M1 _ X), (N1 _ X), (M1' _ X'), (N1' _ X'). change (Q2Qc (inject_Z 1)) with 1.
      split; apply nr_r4; (eapply le_of; [apply mul_le; [|eassumption]; qlra|change (Q2Qc (inject_Z 1)) with 1; ring]).
    - rewrite M0, N0 by (intros f [F _]; lia). rewrite M0', N0' by (intros f [F _]; lia). split; left; auto.
  Qed.
  Lemma off_atr : both cATR -> (13 <= k)%nat -> off "high" h h' -> off "low" l l' -> off "close" c c' -> kept "atr" (zq 2) 1%Z.
  Proof.
    start. intros G (H & H' & HL) (L & L' & LL) (C & C' & CL).
    rewrite (average_true_range_shown o raw b ob W k h l c A G H L C), (average_true_range_shown o raw' b' ob' W' k h' l' c' B G H' L' C'). cbv zeta.
    assert (T : forall j, (j <= k)%nat -> true_range h l c j <= true_range h' l' c' j + zq 2 * e /\ true_range h' l' c' j <= true_range h l c j + zq 2 * e).
    { intros j J. destruct (HL j J) as [H1 H2], (LL j J) as [L1 L2]. destruct j as [|i]; cbn [true_range]; [split; unfold zq; qlra|]. destruct (CL i ltac:(lia)) as [C1 C2].
      unfold larger3. split; repeat apply larger_up; unfold zq; qlra. }
    apply nr_r4; (apply run_from_up; [lia|apply mean_up; [lia|lia|intros j J; apply T; lia]|intros j [_ J]; apply (T j J)|exact G]).
  Qed.
  Lemma lines_sway ct name a u : both ct -> misread ct e k ob ob' op op' h h' l l' c c' -> In (name, a, u) (sway ct) -> kept name a u.
  Proof.
    intros T (O & H & L & C) I. destruct ct; cbn [sway] in I; try contradiction; cbn [required asked] in O, H, L, C.
    all: try specialize (O ltac:(cbn; tauto)); try specialize (H ltac:(cbn; tauto)); try specialize (L ltac:(cbn; tauto)); try specialize (C ltac:(cbn; tauto)).
    - destruct I as [I|[]]; injection I as <- <- <-. exact (off_bb _ _ T C).
    - destruct I as [I|[]]; injection I as <- <- <-. exact (off_dema _ T C).
    - match type of I with context [as_number ?w] => destruct (as_number w) as [| | |s] eqn:E; try contradiction end. destruct (off_env _ _ s E T C). destruct I as [I|[I|[]]]; injection I as <- <- <-; assumption.
    - repeat (destruct I as [I|I]; [injection I as <- <- <-; apply off_ich; cbn; auto 6|]). contradiction.
    - destruct I as [I|[]]; injection I as <- <- <-. exact (off_mp _ T H L).
    - destruct ma_type as [| | |t| |]; try contradiction. destruct (existsb (String.eqb t) _) eqn:X; [|contradiction]. apply existsb_exists in X. destruct X as (t' & X & Q). apply String.eqb_eq in Q. subst t'.
      destruct I as [I|[]]; injection I as <- <- <-. repeat (destruct X as [<-|X]); [..|contradiction]; [exact (off_simple _ T C)|exact (off_exponential _ T C)|exact (off_triangular _ T C)].
    - destruct (off_macd T C). destruct I as [I|[I|[]]]; injection I as <- <- <-; assumption.
    - destruct (off_pch _ T H L). destruct I as [I|[I|[]]]; injection I as <- <- <-; assumption.
    - destruct I as [I|[]]; injection I as <- <- <-. exact (off_qs _ T O C).
    - destruct I as [I|[]]; injection I as <- <- <-. exact (off_tema _ T C).
    - destruct I as [I|[]]; injection I as <- <- <-. exact (off_tp _ T H L C).
    - destruct I as [I|[]]; injection I as <- <- <-. exact (off_wc T H L C).
    - destruct I as [I|[]]; injection I as <- <- <-. exact (off_ws _ T C).
  Qed.
End Sway.
Lemma fibonacci_sway o raw raw' b b' ob ob' e c c' name x k : wf_raw raw -> wf_raw raw' -> twice cFIB o raw raw' b b' ob ob' -> days_given ob' = days_given ob ->
  off_by e (days_given ob - 1) ob ob' "close" c c' -> In (name, x) levels -> (k < days_given ob)%nat -> near (e + units4 1) (shown name ob k) (shown name ob' k).
Proof.
  intros W W' [A B] DD (K & K' & L) I D.
  assert (Z : forall j, given "close" ob j = NaN \/ isfin (given "close" ob j) = true) by
    (intro j; destruct (Nat.lt_ge_cases j (days_given ob)); [right; rewrite K by lia; reflexivity|left; apply given_out; assumption]).
  assert (Z' : forall j, given "close" ob' j = NaN \/ isfin (given "close" ob' j) = true) by
    (intro j; destruct (Nat.lt_ge_cases j (days_given ob)); [right; rewrite K' by lia; reflexivity|left; apply given_out; rewrite DD; assumption]).
  destruct (fib_shown_values o raw b ob W A Z) as [(M & q & HI & LO & U)|[N _]]; [|exfalso; exact (known_some _ _ _ _ _ K (conj (Nat.le_0_l _) (le_n _)) N)].
  destruct (fib_shown_values o raw' b' ob' W' B Z') as [(M' & q' & HI' & LO' & U')|[N _]]; rewrite DD in *; [|exfalso; exact (known_some _ _ _ _ _ K' (conj (Nat.le_0_l _) (le_n _)) N)].
  rewrite (U' name x k I D), (U name x k I D).
  pose proof (highest_up _ _ _ c c' _ _ _ _ e K K' (fun j J => proj1 (L j J)) (le_n _) HI HI') as Q1. pose proof (lowest_up _ _ _ c c' _ _ _ _ e K K' (fun j J => proj1 (L j J)) (le_n _) LO LO') as Q2.
  pose proof (highest_up _ _ _ c' c _ _ _ _ e K' K (fun j J => proj2 (L j J)) (le_n _) HI' HI) as Q3. pose proof (lowest_up _ _ _ c' c _ _ _ _ e K' K (fun j J => proj2 (L j J)) (le_n _) LO' LO) as Q4.
  assert (X : 0 <= x /\ x <= 1) by (repeat (destruct I as [I|I]; [injection I as <- <-; split; discriminate|]); contradiction). destruct X as [X0 X1].
  replace (M - x * (M - q)) with ((1 - x) * M + x * q) by ring. replace (M' - x * (M' - q')) with ((1 - x) * M' + x * q') by ring.
  assert (X2 : 0 <= 1 - x) by qlra. apply nr_r4; (eapply le_of; [apply Qcplus_le_compat; [apply mul_le; [exact X2|eassumption]|apply mul_le; [exact X0|eassumption]]|ring]).
Qed.
