(** * OrderApi: averages and extremes of higher prices. *)
From Coq Require Import ZArith QArith Qcanon Bool List String PeanoNat Lia Sorted Permutation.
From Verif Require Import Num NumFacts RoundFacts Pandas Sim Frame FrameSpec FrameProofs Ind Signal Api IndSpec SeriesFacts Lengths Causal IndFacts Shape ApiSpec ApiCheck ApiProofs ApiLemmas RangeSpec Cells RangeFacts RangeMore Publish RangeApi ValueSpec ValueFacts ValueMore Recur ValueApi CumulApi.
From Verif Require Import FormulaSpec Starts Formula Formula2 Formula3 Formula4 Line Formula5 Formula6 FormulaApi MirrorSpec MirrorApi3 OrderSpec OrderFacts.
Import ListNotations.
Open Scope list_scope. Open Scope string_scope. Open Scope Qc_scope.

Lemma highest_le x y k f g a b M M' : known x k f -> known y k g -> (forall j, (j <= k)%nat -> f j <= g j) -> (b <= k)%nat -> highest x a b M -> highest y a b M' -> M <= M'.
Proof.
  intros X Y L B [(j & J & E) _] [_ U]. rewrite X in E by lia. injection E as <-. apply Qcle_trans with (g j); [apply L; lia|]. apply (U j); [exact J|apply Y; lia].
Qed.
Lemma lowest_le x y k f g a b M M' : known x k f -> known y k g -> (forall j, (j <= k)%nat -> f j <= g j) -> (b <= k)%nat -> lowest x a b M -> lowest y a b M' -> M <= M'.
Proof.
  intros X Y L B [_ U] [(j & J & E) _]. rewrite Y in E by lia. injection E as <-. apply Qcle_trans with (f j); [|apply L; lia]. apply (U j); [exact J|apply X; lia].
Qed.
Lemma midpoint_le x y x' y' k h h' l l' a b v v' : known x k h -> known x' k h' -> known y k l -> known y' k l' ->
  (forall j, (j <= k)%nat -> h j <= h' j) -> (forall j, (j <= k)%nat -> l j <= l' j) -> (a <= b <= k)%nat ->
  midpoint x y a b v -> midpoint x' y' a b v' -> exists p q, v = Fin p /\ v' = Fin q /\ p <= q.
Proof.
  intros X X' Y Y' HL LL I [(M & n & A & B & ->)|[[N|N] _]] P; [|exfalso; exact (known_some _ _ _ _ _ X I N)|exfalso; exact (known_some _ _ _ _ _ Y I N)].
  destruct P as [(M' & n' & A' & B' & ->)|[[N|N] _]]; [|exfalso; exact (known_some _ _ _ _ _ X' I N)|exfalso; exact (known_some _ _ _ _ _ Y' I N)].
  exists ((M + n) / zq 2), ((M' + n') / zq 2). split; [reflexivity|]. split; [reflexivity|]. apply div_le; [reflexivity|].
  pose proof (highest_le _ _ k h h' a b M M' X X' HL ltac:(lia) A A'). pose proof (lowest_le _ _ k l l' a b n n' Y Y' LL ltac:(lia) B B'). qlra.
Qed.
Lemma nl_r4 a b : a <= b -> no_lower (Fin (r4 a)) (Fin (r4 b)). Proof. intro H. apply nl_fin, r4_le, H. Qed.

Section Order.
  Variables (o : oracle) (raw raw' : rawframe) (b b' : bool) (ob ob' : obj) (k : nat) (h h' l l' c c' : nat -> Qc).
  Hypothesis W : wf_raw raw. Hypothesis W' : wf_raw raw'.
  Notation both c := (twice c o raw raw' b b' ob ob').
  Notation higher n f g := (under k ob ob' n f%function g%function).
  Notation kept n := (no_lower (shown n ob k) (shown n ob' k)).
  Ltac start := let A := fresh "A" in let B := fresh "B" in intros [A B].
  Ltac period p := assert (P : (1 <= nat_arg p)%nat) by (let fr := fresh in let V := fresh in let VV := fresh in look fr V VV; lia).

  Lemma ord_simple p : both (cMA p (VStr "simple")) -> higher "close" c c' -> kept "ma-simple".
  Proof.
    start. intros (K & K' & L). period p. rewrite (simple_moving_average_shown o raw b ob W p k c A K), (simple_moving_average_shown o raw' b' ob' W' p k c' B K'). cbv zeta.
    apply nl_from. intro G. apply nl_r4, mean_le; auto; lia.
  Qed.
  Lemma ord_exponential p : both (cMA p (VStr "exponential")) -> higher "close" c c' -> kept "ma-exponential".
  Proof.
    start. intros (K & K' & L). period p. rewrite (exponential_moving_average_shown o raw b ob W p k c A K), (exponential_moving_average_shown o raw' b' ob' W' p k c' B K'). cbv zeta.
    apply nl_from. intro G. apply nl_r4, ema_from_le; [exact P|lia|]. intros. apply L. lia.
  Qed.
  Lemma ord_triangular p : both (cMA p (VStr "triangular")) -> higher "close" c c' -> kept "ma-triangular".
  Proof.
    start. intros (K & K' & L). period p. rewrite (triangular_moving_average_shown o raw b ob W p k c A K), (triangular_moving_average_shown o raw' b' ob' W' p k c' B K'). cbv zeta.
    apply nl_from. intro G. apply nl_r4. set (n := nat_arg p) in *. apply div_le; [apply nq_pos; lia|]. apply total_le. intros j J. apply mean_le; [lia|lia|]. intros i I. apply L. lia.
  Qed.
  Lemma ord_ws p : both (cWS p) -> higher "close" c c' -> kept "ws".
  Proof.
    start. intros (K & K' & L). period p. rewrite (wilders_smoothing_shown o raw b ob W p k c A K), (wilders_smoothing_shown o raw' b' ob' W' p k c' B K'). cbv zeta.
    apply nl_from. intro G. apply nl_r4. apply run_from_le; [intros; apply wilders_le; auto| |intros; apply L; lia]. apply mean_le; [lia|lia|]. intros. apply L. lia.
  Qed.
  Lemma ord_mp p : both (cMP p) -> higher "high" h h' -> higher "low" l l' -> kept "mp".
  Proof.
    start. intros (H & H' & HL) (L & L' & LL). rewrite (mp_shown o raw b ob W p k (h k) (l k) A) by auto. rewrite (mp_shown o raw' b' ob' W' p k (h' k) (l' k) B) by auto.
    apply nl_r4, div_le; [reflexivity|]. specialize (HL k (le_n k)). specialize (LL k (le_n k)). qlra.
  Qed.
  Lemma ord_tp p : both (cTP p) -> higher "high" h h' -> higher "low" l l' -> higher "close" c c' -> kept "tp".
  Proof.
    start. intros (H & H' & HL) (L & L' & LL) (C & C' & CL). rewrite (tp_shown o raw b ob W p k (h k) (l k) (c k) A) by auto. rewrite (tp_shown o raw' b' ob' W' p k (h' k) (l' k) (c' k) B) by auto.
    apply nl_r4, div_le; [reflexivity|]. specialize (HL k (le_n k)). specialize (LL k (le_n k)). specialize (CL k (le_n k)). qlra.
  Qed.
  Lemma ord_wc : both cWC -> higher "high" h h' -> higher "low" l l' -> higher "close" c c' -> kept "wc".
  Proof.
    start. intros (H & H' & HL) (L & L' & LL) (C & C' & CL). rewrite (wc_shown o raw b ob W k (h k) (l k) (c k) A) by auto. rewrite (wc_shown o raw' b' ob' W' k (h' k) (l' k) (c' k) B) by auto.
    apply nl_r4, div_le; [reflexivity|]. specialize (HL k (le_n k)). specialize (LL k (le_n k)). specialize (CL k (le_n k)). assert (Z : 0 <= zq 2) by discriminate. pose proof (mul_le _ _ _ Z CL). qlra.
  Qed.
  Lemma ord_pch p : both (cPCH p) -> higher "high" h h' -> higher "low" l l' -> kept "highest_high" /\ kept "lowest_low".
  Proof.
    start. intros (H & H' & HL) (L & L' & LL). period p. pose proof (known_days _ _ _ _ H) as D. pose proof (known_days _ _ _ _ H') as D'. split.
    - destruct (pch_shown_high o raw b ob W p k A D) as [(M & N & FU & HI & ->)|[[N|(j & J & G)] ->]]; [| |rewrite H in G by lia; discriminate].
      + destruct (pch_shown_high o raw' b' ob' W' p k B D') as [(M3 & _ & _ & HI' & ->)|[[N2|(j & J & G)] _]]; [|lia|rewrite H' in G by lia; discriminate].
        apply nl_r4. exact (highest_le _ _ k h h' _ _ _ _ H H' HL (Nat.le_sub_l k 1) HI HI').
      + destruct (pch_shown_high o raw' b' ob' W' p k B D') as [(M2 & N2 & _)|[_ ->]]; [lia|]. left. auto.
    - destruct (pch_shown_low o raw b ob W p k A D) as [(M & N & FU & HI & ->)|[[N|(j & J & G)] ->]]; [| |rewrite L in G by lia; discriminate].
      + destruct (pch_shown_low o raw' b' ob' W' p k B D') as [(M3 & _ & _ & HI' & ->)|[[N2|(j & J & G)] _]]; [|lia|rewrite L' in G by lia; discriminate].
        apply nl_r4. exact (lowest_le _ _ k l l' _ _ _ _ L L' LL (Nat.le_sub_l k 1) HI HI').
      + destruct (pch_shown_low o raw' b' ob' W' p k B D') as [(M2 & N2 & _)|[_ ->]]; [lia|]. left. auto.
  Qed.
  Lemma ord_ich name : both cICH -> In name ["tenkan_sen"; "kijun_sen"; "senkou_a"; "senkou_b"] -> higher "high" h h' -> higher "low" l l' -> kept name.
  Proof.
    start. intros I (H & H' & HL) (L & L' & LL). pose proof (known_days _ _ _ _ H) as D. pose proof (known_days _ _ _ _ H') as D'.
    assert (MID : forall a z v v', (a <= z <= k)%nat -> midpoint (given "high" ob) (given "low" ob) a z v -> midpoint (given "high" ob') (given "low" ob') a z v' -> exists p q, v = Fin p /\ v' = Fin q /\ p <= q)
      by (intros a z v0 v' R; exact (midpoint_le _ _ _ _ k h h' l l' a z v0 v' H H' L L' HL LL R)).
    destruct I as [<-|[<-|I]].
    - destruct (ich_shown_lines o raw b ob W k A D) as [(x & X & ->) _]. destruct (ich_shown_lines o raw' b' ob' W' k B D') as [(y & Y & ->) _].
      destruct (MID _ _ _ _ (conj (Nat.le_sub_l _ _) (le_n _)) X Y) as (p & q & -> & -> & Q). apply nl_r4, Q.
    - destruct (ich_shown_lines o raw b ob W k A D) as [_ (x & X & ->)]. destruct (ich_shown_lines o raw' b' ob' W' k B D') as [_ (y & Y & ->)].
      destruct (MID _ _ _ _ (conj (Nat.le_sub_l _ _) (le_n _)) X Y) as (p & q & -> & -> & Q). apply nl_r4, Q.
    - destruct (ich_shown_cloud o raw b ob W k A D) as [Y1 O1]. destruct (ich_shown_cloud o raw' b' ob' W' k B D') as [Y2 O2].
      destruct (Nat.lt_ge_cases k 26) as [G|G]; [specialize (Y1 G) as [Ya Yb]; specialize (Y2 G) as [Yc Yd]; destruct I as [<-|[<-|[]]]; rewrite ?Ya, ?Yb, ?Yc, ?Yd; left; auto|].
      specialize (O1 G) as [(u & w & U & V & SA) (x & X & SB)]. specialize (O2 G) as [(u' & w' & U' & V' & SA') (x' & X' & SB')].
      destruct (MID _ _ _ _ (conj (Nat.le_sub_l _ _) (Nat.le_sub_l _ _)) U U') as (a & a' & -> & -> & Q1). destruct (MID _ _ _ _ (conj (Nat.le_sub_l _ _) (Nat.le_sub_l _ _)) V V') as (d & d' & -> & -> & Q2).
      destruct (MID _ _ _ _ (conj (Nat.le_sub_l _ _) (Nat.le_sub_l _ _)) X X') as (e & e' & -> & -> & Q3).
      destruct I as [<-|[<-|[]]].
      + rewrite SA, SA'. change (F 2) with (Fin (zq 2)). cbn [nadd ndiv]. replace (qeqb (zq 2) 0) with false by reflexivity. apply nl_r4, div_le; [reflexivity|]. qlra.
      + rewrite SB, SB'. apply nl_r4, Q3.
  Qed.
  Lemma ord_bb p w : both (cBB p w) -> higher "close" c c' -> kept "middle_band".
  Proof.
    start. intros (K & K' & L). period p.
    destruct (bb_shown_values o raw b ob W p w k A) as ([M1 M0] & _). destruct (bb_shown_values o raw' b' ob' W' p w k B) as ([M1' M0'] & _). set (n := nat_arg p) in *.
    destruct (Nat.le_gt_cases n (S k)) as [G|G].
    - rewrite (M1 (fun j => c (S k - n + j)%nat)) by (split; [exact G|intros j J; apply K; lia]). rewrite (M1' (fun j => c' (S k - n + j)%nat)) by (split; [exact G|intros j J; apply K'; lia]).
      apply nl_r4. apply div_le; [apply nq_pos; lia|]. apply total_le. intros j J. apply L. lia.
    - rewrite M0 by (intros f [F _]; lia). rewrite M0' by (intros f [F _]; lia). left. auto.
  Qed.
  Lemma shift_within p w : snd (construct o (cENV p w) (RFrame raw) (VBool b)) = Ok ob -> exists s, as_number w = Fin s /\ 0 < s /\ s < 1.
  Proof.
    intro H. destruct (construct_params _ _ _ _ _ H (mkParam "shift" (is_float w) (nltb (F 0) (as_number w) && nltb (as_number w) (F 1)))) as [_ A]; [cbn; auto|].
    cbn in A. apply andb_true_iff in A as [A1 A2]. destruct (as_number w) as [| | |s]; try discriminate. exists s. split; [reflexivity|]. split; apply qltb_iff; assumption.
  Qed.
  Lemma ord_env p w : both (cENV p w) -> higher "close" c c' -> kept "upper_band" /\ kept "lower_band".
  Proof.
    start. intros (K & K' & L). period p. destruct (shift_within p w A) as (s & E & S0 & S1).
    destruct (env_shown_values o raw b ob W p w k A) as ([M1 M0] & [N1 N0]). destruct (env_shown_values o raw' b' ob' W' p w k B) as ([M1' M0'] & [N1' N0']). set (n := nat_arg p) in *. rewrite E in *.
    destruct (Nat.le_gt_cases n (S k)) as [G|G].
    - set (x := fun j => c (S k - n + j)%nat). set (x' := fun j => c' (S k - n + j)%nat).
      assert (X : win (given "close" ob) n k x) by (split; [exact G|intros j J; apply K; lia]). assert (X' : win (given "close" ob') n k x') by (split; [exact G|intros j J; apply K'; lia]).
      assert (Q : mean x n <= mean x' n) by (apply div_le; [apply nq_pos; lia|]; apply total_le; intros j J; apply L; lia).
      rewrite (M1 _ X), (N1 _ X), (M1' _ X'), (N1' _ X'). split; apply nl_r4, mul_le; auto; change (Q2Qc (inject_Z 1)) with 1; qlra.
    - rewrite M0, N0 by (intros f [F _]; lia). rewrite M0', N0' by (intros f [F _]; lia). split; left; auto.
  Qed.

  Lemma price_lines_rise ct name : both ct -> dearer ct k ob ob' h h' l l' c c' -> In name (price_lines ct) -> kept name.
  Proof.
    intros T (H & L & C) I. destruct ct; cbn [price_lines] in I; try contradiction; cbn [required asked] in H, L, C.
    all: try specialize (H ltac:(cbn; tauto)); try specialize (L ltac:(cbn; tauto)); try specialize (C ltac:(cbn; tauto)).
    - destruct I as [<-|[]]. exact (ord_bb _ _ T C).
    - destruct I as [<-|[<-|[]]]; apply (ord_env _ _ T C).
    - exact (ord_ich name T I H L).
    - destruct I as [<-|[]]. exact (ord_mp _ T H L).
    - destruct ma_type as [| | |t| |]; try contradiction. destruct (existsb (String.eqb t) _) eqn:X; [|contradiction]. apply existsb_exists in X. destruct X as (t' & X & Q). apply String.eqb_eq in Q. subst t'.
      destruct I as [<-|[]]. repeat (destruct X as [<-|X]); [..|contradiction]; [exact (ord_simple _ T C)|exact (ord_exponential _ T C)|exact (ord_triangular _ T C)].
    - destruct I as [<-|[<-|[]]]; apply (ord_pch _ T H L).
    - destruct I as [<-|[]]. exact (ord_tp _ T H L C).
    - destruct I as [<-|[]]. exact (ord_wc T H L C).
    - destruct I as [<-|[]]. exact (ord_ws _ T C).
  Qed.
End Order.
Lemma fibonacci_rise o raw raw' b b' ob ob' c c' name x k : wf_raw raw -> wf_raw raw' -> twice cFIB o raw raw' b b' ob ob' -> days_given ob' = days_given ob ->
  under (days_given ob - 1) ob ob' "close" c c' -> In (name, x) levels -> (k < days_given ob)%nat -> no_lower (shown name ob k) (shown name ob' k).
Proof.
  intros W W' [A B] DD (K & K' & L) I D.
  assert (Z : forall j, given "close" ob j = NaN \/ isfin (given "close" ob j) = true) by
    (intro j; destruct (Nat.lt_ge_cases j (days_given ob)); [right; rewrite K by lia; reflexivity|left; apply given_out; assumption]).
  assert (Z' : forall j, given "close" ob' j = NaN \/ isfin (given "close" ob' j) = true) by
    (intro j; destruct (Nat.lt_ge_cases j (days_given ob)); [right; rewrite K' by lia; reflexivity|left; apply given_out; rewrite DD; assumption]).
  destruct (fib_shown_values o raw b ob W A Z) as [(M & q & HI & LO & U)|[N _]]; [|exfalso; exact (known_some _ _ _ _ _ K (conj (Nat.le_0_l _) (le_n _)) N)].
  destruct (fib_shown_values o raw' b' ob' W' B Z') as [(M' & q' & HI' & LO' & U')|[N _]]; rewrite DD in *; [|exfalso; exact (known_some _ _ _ _ _ K' (conj (Nat.le_0_l _) (le_n _)) N)].
  rewrite (U' name x k I D), (U name x k I D). apply nl_r4.
  pose proof (highest_le _ _ _ c c' _ _ _ _ K K' L (le_n _) HI HI') as Q1. pose proof (lowest_le _ _ _ c c' _ _ _ _ K K' L (le_n _) LO LO') as Q2.
  assert (X : 0 <= x /\ x <= 1) by (repeat (destruct I as [I|I]; [injection I as <- <-; split; discriminate|]); contradiction). destruct X as [X0 X1].
  replace (M - x * (M - q)) with ((1 - x) * M + x * q) by ring. replace (M' - x * (M' - q')) with ((1 - x) * M' + x * q') by ring.
  assert (X2 : 0 <= 1 - x) by qlra. pose proof (mul_le _ _ _ X2 Q1). pose proof (mul_le _ _ _ X0 Q2). qlra.
Qed.
