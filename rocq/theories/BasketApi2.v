(** * BasketApi2: volumes of two venues, rates of a basket, channels of a basket. *)
From Coq Require Import ZArith QArith Qcanon Bool List String PeanoNat Lia.
From Verif Require Import Num NumFacts RoundFacts Pandas Sim Frame FrameSpec FrameProofs Ind Signal Api IndSpec SeriesFacts Lengths Causal IndFacts Shape ApiSpec ApiCheck ApiProofs ApiLemmas RangeSpec Cells RangeFacts RangeMore Publish RangeApi ValueSpec ValueFacts ValueMore Recur ValueApi CumulApi.
From Verif Require Import FormulaSpec Starts Formula Formula2 Formula3 Formula4 Line Formula5 Formula6 FormulaApi IdentFacts MirrorSpec MirrorApi3 OrderFacts OrderApi SwaySpec SwayFacts BasketSpec BasketFacts BasketApi.
Import ListNotations.
Open Scope list_scope. Open Scope string_scope. Open Scope Qc_scope.

Lemma pos_mul x y : 0 < x -> 0 < y -> 0 < x * y. Proof. intros X Y. qnra. Qed.
Lemma trunc_apart x : apart_by 1 (qtrunc x) x.
Proof.
  assert (E : Qnum x = (Qnum x ÷ Z.pos (Qden x) * Z.pos (Qden x) + Z.rem (Qnum x) (Z.pos (Qden x)))%Z) by (rewrite Z.mul_comm; apply Z.quot_rem').
  pose proof (Z.rem_bound_abs (Qnum x) (Z.pos (Qden x)) ltac:(discriminate)) as B.
  unfold qtrunc. set (q := (Qnum x ÷ Z.pos (Qden x))%Z) in *. set (r := Z.rem _ _) in *. clearbody q r. destruct x as [[n d] C]. cbn [this Qnum Qden] in *.
  split; unfold Qcle; rewrite this_add, this_Q2Qc; change (this 1) with (1 # 1)%Q; cbn [this]; unfold Qle, Qplus, inject_Z; cbn [Qnum Qden]; rewrite ?Pos2Z.inj_mul; nia.
Qed.
Lemma mediant w w' n d n' d' : 0 <= w -> 0 <= w' -> 0 < w + w' -> 0 < d -> 0 < d' -> n / d <= n' / d' ->
  0 < mix w w' d d' /\ n / d <= mix w w' n n' / mix w w' d d' /\ mix w w' n n' / mix w w' d d' <= n' / d'.
Proof.
  intros A B S0 D D' H.
  assert (P : 0 < mix w w' d d').
  { unfold mix. destruct (Qcle_lt_or_eq _ _ A) as [X|X].
    - assert (0 < w * d) by (apply pos_mul; assumption). assert (0 <= w' * d') by (replace 0 with (w' * 0) by ring; apply mul_le; [exact B|apply Qclt_le_weak, D']). qlra.
    - subst w. assert (0 < w') by qlra. assert (0 < w' * d') by (apply pos_mul; assumption). replace (0 * d + w' * d') with (w' * d') by ring. assumption. }
  assert (E : n = n / d * d) by (field; apply qc_pos_neq0, D). assert (E' : n' = n' / d' * d') by (field; apply qc_pos_neq0, D').
  set (x := n / d) in *. set (y := n' / d') in *. clearbody x y. subst n n'. split; [exact P|].
  assert (Z0 : 0 <= w * d) by (replace 0 with (w * 0) by ring; apply mul_le; [exact A|apply Qclt_le_weak, D]). assert (Z1 : 0 <= w' * d') by (replace 0 with (w' * 0) by ring; apply mul_le; [exact B|apply Qclt_le_weak, D']).
  pose proof (mul_le _ _ _ Z0 H) as U. pose proof (mul_le _ _ _ Z1 H) as V.
  split.
  - replace x with (x * mix w w' d d' / mix w w' d d') at 1 by (field; apply qc_pos_neq0, P). apply div_le; [exact P|]. unfold mix.
    replace (x * (w * d + w' * d')) with (w * (x * d) + w' * d' * x) by ring. replace (w' * (y * d')) with (w' * d' * y) by ring.
    set (t := w * (x * d)) in *. set (a1 := w' * d' * x) in *. set (a2 := w' * d' * y) in *. clearbody t a1 a2. clear - V. qlra.
  - replace y with (y * mix w w' d d' / mix w w' d d') at 2 by (field; apply qc_pos_neq0, P). apply div_le; [exact P|]. unfold mix.
    replace (y * (w * d + w' * d')) with (w * d * y + w' * (y * d')) by ring. replace (w * (x * d)) with (w * d * x) by ring.
    set (t := w' * (y * d')) in *. set (a1 := w * d * x) in *. set (a2 := w * d * y) in *. clearbody t a1 a2. clear - U. qlra.
Qed.
Lemma mix_sym w w' x y : mix w w' x y = mix w' w y x. Proof. unfold mix. ring. Qed.
Lemma between_ratio w w' n d n' d' n2 d2 : 0 <= w -> 0 <= w' -> 0 < w + w' -> 0 < d -> 0 < d' -> n2 = mix w w' n n' -> d2 = mix w w' d d' ->
  between (rn (ratio n d)) (rn (ratio n' d')) (rn (ratio n2 d2)).
Proof.
  intros A B S0 D D' -> ->.
  assert (R : forall p q, 0 < q -> rn (ratio p q) = Fin (r4 (p / q))).
  { intros p q Q. unfold ratio, ndiv. destruct (qeqb q 0) eqn:E; [apply qeqb_iff in E; subst q; discriminate Q|reflexivity]. }
  right. destruct (Qclt_le_dec (n / d) (n' / d')) as [H|H].
  - apply Qclt_le_weak in H. destruct (mediant w w' n d n' d' A B S0 D D' H) as (P & U & V). rewrite !R by assumption. eexists _, _, _. repeat split. left. split; apply r4_le; assumption.
  - assert (S1 : 0 < w' + w) by (rewrite Qcplus_comm; exact S0). destruct (mediant w' w n' d' n d B A S1 D' D H) as (P & U & V). rewrite <- !(mix_sym w w') in *. rewrite !R by assumption. eexists _, _, _. repeat split. right. split; apply r4_le; assumption.
Qed.
Lemma between_from a k x y z : ((a <= k)%nat -> between x y z) -> between (from a k x) (from a k y) (from a k z).
Proof. intro H. unfold from. destruct (Nat.ltb_spec k a); [left; auto|apply H; lia]. Qed.
Lemma total_pos f n : (1 <= n)%nat -> (forall j, (j < n)%nat -> 0 < f j) -> 0 < total f n.
Proof.
  intros N H. destruct n as [|n]; [lia|]. cbn [total]. assert (0 <= total f n) by (apply Qcle_trans with (total (fun _ => 0) n); [clear; induction n as [|n IH]; cbn [total]; [discriminate|qlra]|apply total_le; intros; apply Qclt_le_weak, H; lia]).
  specialize (H n ltac:(lia)). qlra.
Qed.
Lemma mean_pos f p k : (1 <= p)%nat -> (p <= S k)%nat -> (forall j, (j <= k)%nat -> 0 < f j) -> 0 < mean_last f p k.
Proof.
  intros P K H. unfold mean_last, sum_last. assert (N : 0 < nq p) by (apply nq_pos; lia). assert (T : 0 < total (fun j => f (S k - p + j)%nat) p) by (apply total_pos; [exact P|intros; apply H; lia]).
  set (t := total _ _) in *. clearbody t. unfold Qcdiv. apply pos_mul; [exact T|]. apply inv_pos. exact N.
Qed.
Section Basket2.
  Variables (o : oracle) (raw raw' raw2 : rawframe) (b b' b2 : bool) (ob ob' ob2 : obj) (k : nat) (w w' : Qc) (op op' h h' l l' c c' v v' : nat -> Qc).
  Hypothesis W : wf_raw raw. Hypothesis W' : wf_raw raw'. Hypothesis W2 : wf_raw raw2.
  Notation all ct := (thrice ct o raw raw' raw2 b b' b2 ob ob' ob2).
  Notation mixd n f g := (mixed w w' k ob ob' ob2 n f%function g%function).
  Notation same n f := (common k ob ob' ob2 n f%function).
  Notation mx := (mix w w').
  Notation sums e n := (adds_up e w w' (shown n ob k) (shown n ob' k) (shown n ob2 k)).
  Ltac start := let A := fresh "A" in let A' := fresh "A'" in let A2 := fresh "A2" in intros (A & A' & A2).
  Ltac period p := assert (P : (1 <= nat_arg p)%nat) by (let fr := fresh in let V := fresh in let VV := fresh in look fr V VV; lia).

  (** ** volumes of two venues *)
  Lemma mix_obv : all cOBV -> same "close" c -> mixd "volume" v v' -> sums 0 "obv".
  Proof.
    start. intros (C & C' & C2) (V & V' & V2). rewrite (obv_shown_line o raw b ob W k c v A C V), (obv_shown_line o raw' b' ob' W' k c v' A' C' V'), (obv_shown_line o raw2 b2 ob2 W2 k c _ A2 C2 V2).
    apply au_fin. assert (E : obv_line c (fun j => mx (v j) (v' j)) k = mx (obv_line c v k) (obv_line c v' k)).
    { clear. induction k as [|n IH]; cbn [obv_line]; [unfold mix; ring|]. rewrite IH. destruct (qltb (c n) (c (S n))), (qltb (c (S n)) (c n)); unfold mix; ring. }
    rewrite E. apply apart_refl.
  Qed.
  Lemma mix_pvt : all cPVT -> same "close" c -> mixd "volume" v v' -> (forall j, (j < k)%nat -> c j <> 0) -> sums (slack tick4 1 w w') "pvt".
  Proof.
    start. intros (C & C' & C2) (V & V' & V2) N. rewrite (pvt_shown_line o raw b ob W k c v A C V N), (pvt_shown_line o raw' b' ob' W' k c v' A' C' V' N), (pvt_shown_line o raw2 b2 ob2 W2 k c _ A2 C2 V2 N).
    apply au_r4. clear. induction k as [|n IH]; cbn [pvt_line]; [unfold mix; ring|]. rewrite IH. unfold mix. ring.
  Qed.
  Lemma mix_ko : all cKO -> same "high" h -> same "low" l -> same "close" c -> mixd "volume" v v' -> (forall j, (1 <= j <= k)%nat -> measure h l c j <> 0) -> sums (slack tick4 1 w w') "ko".
  Proof.
    start. intros (H & H' & H2) (L & L' & L2) (C & C' & C2) (V & V' & V2) N.
    rewrite (klinger_shown o raw b ob W k h l c v A N H L C V), (klinger_shown o raw' b' ob' W' k h l c v' A' N H' L' C' V'), (klinger_shown o raw2 b2 ob2 W2 k h l c _ A2 N H2 L2 C2 V2).
    apply au_from. intro G. assert (G1 : (1 <= k)%nat) by (exact (Nat.le_trans 1 55 k ltac:(lia) G)). apply au_r4.
    assert (E : forall j, force h l c (fun i => mx (v i) (v' i)) j = mx (force h l c v j) (force h l c v' j)) by (intro j; unfold force, mix; ring).
    rewrite (ema_from_mix w w' 1 34 _ (force h l c v) (force h l c v') k G1 (fun j _ => E j)), (ema_from_mix w w' 1 55 _ (force h l c v) (force h l c v') k G1 (fun j _ => E j)). unfold mix. ring.
  Qed.
  Lemma adl_move_mix a d x y z : adl_move a d x (mx y z) = mx (adl_move a d x y) (adl_move a d x z).
  Proof. unfold adl_move. destruct (qltb d a); unfold mix; ring. Qed.
  Lemma adl_total_mix n : total (fun j => adl_move (h j) (l j) (c j) (mx (v j) (v' j))) n = mx (total (fun j => adl_move (h j) (l j) (c j) (v j)) n) (total (fun j => adl_move (h j) (l j) (c j) (v' j)) n).
  Proof. apply total_mix. intros j _. apply adl_move_mix. Qed.
  Lemma trunc_mix x y z : z = mx x y -> apart_by (slack (zq 2) 1 w w') (qtrunc z) (mx (qtrunc x) (qtrunc y)).
  Proof.
    intros ->. eapply apart_eq; [eapply apart_trans; [apply trunc_apart|apply apart_sym, mix_apart; apply trunc_apart]|]. unfold slack. change (zq 1) with 1. field. discriminate.
  Qed.
  Lemma abs_nonneg x : 0 <= abs x. Proof. unfold abs. destruct (qltb_spec x 0) as [N|N]; [apply Qclt_le_weak in N; qlra|apply Qcnot_lt_le in N; exact N]. Qed.
  Lemma slack_2 n : slack (zq 2) n w w' = zq n * (1 + abs w + abs w').
  Proof. unfold slack. field. discriminate. Qed.
  Lemma mix_adl : all cADL -> let n := days_given ob in days_given ob' = n -> days_given ob2 = n -> (k < n)%nat ->
    common (n - 1) ob ob' ob2 "high" h -> common (n - 1) ob ob' ob2 "low" l -> common (n - 1) ob ob' ob2 "close" c -> mixed w w' (n - 1) ob ob' ob2 "volume" v v' ->
    (forall j, (j < n)%nat -> l j <= c j /\ c j <= h j) -> sums (slack (zq 2) 1 w w') "adl".
  Proof.
    start. intros n D D2 K (H & H' & H2) (L & L' & L2) (C & C' & C2) (V & V' & V2) O.
    destruct (adl_shown_line o raw b ob W k c v h l A K C V H L O) as [X0 X1].
    unfold n in *. rewrite <- D in K, H', L', C', V', O. destruct (adl_shown_line o raw' b' ob' W' k c v' h l A' K C' V' H' L' O) as [Y0 Y1].
    rewrite D in K, O. rewrite <- D2 in K, H2, L2, C2, V2, O. destruct (adl_shown_line o raw2 b2 ob2 W2 k c _ h l A2 K C2 V2 H2 L2 O) as [Z0 Z1]. rewrite D in Y0, Y1. rewrite D2 in Z0, Z1, K, O.
    destruct (existsb (fun j => negb (qltb (l j) (h j))) (seq 0 (days_given ob))) eqn:E.
    - apply existsb_exists in E as (j & J & E). apply in_seq in J. apply negb_true_iff in E. assert (F : h j = l j).
      { destruct (qltb_spec (l j) (h j)) as [Q|Q]; [discriminate|]. apply Qcnot_lt_le in Q. destruct (O j ltac:(lia)). apply Qcle_antisym; [exact Q|qlra]. }
      rewrite X1, Y1, Z1 by (exists j; split; [lia|exact F]). destruct (qltb (l k) (h k)); [|left; auto]. apply au_fin. rewrite adl_total_mix. apply (apart_weaken 0); [apply apart_refl|].
      rewrite slack_2. change (zq 1) with 1. pose proof (abs_nonneg w). pose proof (abs_nonneg w'). qlra.
    - assert (F : forall j, (j < days_given ob)%nat -> l j < h j).
      { intros j J. destruct (qltb_spec (l j) (h j)) as [Q|Q]; [exact Q|]. exfalso. assert (X : existsb (fun j => negb (qltb (l j) (h j))) (seq 0 (days_given ob)) = true); [|rewrite X in E; discriminate].
        apply existsb_exists. exists j. split; [apply in_seq; lia|]. apply negb_true_iff. destruct (qltb_spec (l j) (h j)); [contradiction|reflexivity]. }
      rewrite X0, Y0, Z0 by exact F. apply au_fin, trunc_mix, adl_total_mix.
  Qed.
  Lemma mix_co : all cCO -> let n := days_given ob in days_given ob' = n -> days_given ob2 = n -> (k < n)%nat ->
    common (n - 1) ob ob' ob2 "high" h -> common (n - 1) ob ob' ob2 "low" l -> common (n - 1) ob ob' ob2 "close" c -> mixed w w' (n - 1) ob ob' ob2 "volume" v v' ->
    (forall j, (j < n)%nat -> l j <= c j /\ c j <= h j) -> (forall j, (j < n)%nat -> l j < h j) -> sums (slack (zq 2) 2 w w' + slack tick4 1 w w') "co".
  Proof.
    start. intros n D D2 K (H & H' & H2) (L & L' & L2) (C & C' & C2) (V & V' & V2) O F.
    rewrite (chaikin_oscillator_shown o raw b ob W k h l c v A K O F H L C V).
    unfold n in *. rewrite <- D in K, H', L', C', V', O, F. rewrite (chaikin_oscillator_shown o raw' b' ob' W' k h l c v' A' K O F H' L' C' V').
    rewrite D in K, O, F. rewrite <- D2 in K, H2, L2, C2, V2, O, F. rewrite (chaikin_oscillator_shown o raw2 b2 ob2 W2 k h l c _ A2 K O F H2 L2 C2 V2).
    apply au_from. intro G. apply au_fin, r4_mix.
    set (x := fun j => qtrunc (total (fun i => adl_move (h i) (l i) (c i) (v i)) (S j))). set (y := fun j => qtrunc (total (fun i => adl_move (h i) (l i) (c i) (v' i)) (S j))).
    set (z := fun j => qtrunc (total (fun i => adl_move (h i) (l i) (c i) (mx (v i) (v' i))) (S j))).
    assert (E : forall j, apart_by (slack (zq 2) 1 w w') (z j) (mx (x j) (y j))) by (intro j; apply trunc_mix, adl_total_mix).
    assert (Q : forall p, (1 <= p)%nat -> apart_by (slack (zq 2) 1 w w') (ema_from 0 p z k) (mx (ema_from 0 p x k) (ema_from 0 p y k))).
    { intros p P. rewrite <- (ema_from_mix w w' 0 p (fun j => mx (x j) (y j)) x y k (Nat.le_0_l k) (fun j _ => eq_refl)).
      split; [apply (ema_from_up 0 p z (fun j => mx (x j) (y j)) k)|apply (ema_from_up 0 p (fun j => mx (x j) (y j)) z k)]; try exact P; try lia; intros j _; apply (E j). }
    eapply apart_eq; [|symmetry; exact (slack_add w w' (zq 2) 1 1)].
    replace (mx (ema_from 0 3 x k - ema_from 0 10 x k) (ema_from 0 3 y k - ema_from 0 10 y k)) with (mx (ema_from 0 3 x k) (ema_from 0 3 y k) - mx (ema_from 0 10 x k) (ema_from 0 10 y k)) by (unfold mix; ring).
    apply apart_sub; apply Q; lia.
  Qed.

  (** ** rates *)
  Notation betw n := (between (shown n ob k) (shown n ob' k) (shown n ob2 k)).
  Hypothesis PW : 0 <= w. Hypothesis PW' : 0 <= w'. Hypothesis PS : 0 < w + w'.
  Lemma rate_mom p : all (cMOM p) -> mixd "close" c c' -> (forall j, (j <= k)%nat -> 0 < c j) -> (forall j, (j <= k)%nat -> 0 < c' j) -> betw "mom".
  Proof.
    start. intros (K & K' & K2) Q Q'. destruct (mom_shown_values o raw b ob W p k A) as [N0 N1]. destruct (mom_shown_values o raw' b' ob' W' p k A') as [N0' N1']. destruct (mom_shown_values o raw2 b2 ob2 W2 p k A2) as [N02 N12].
    destruct (Nat.lt_ge_cases k (nat_arg p)) as [G|G]; [rewrite N0, N0', N02 by exact G; left; auto|].
    rewrite (N1 (c k) (c (k - nat_arg p)%nat)), (N1' (c' k) (c' (k - nat_arg p)%nat)), (N12 (mx (c k) (c' k)) (mx (c (k - nat_arg p)%nat) (c' (k - nat_arg p)%nat))) by first [exact G|apply K; lia|apply K'; lia|apply K2; lia].
    apply (between_ratio w w'); auto; [apply Q; lia|apply Q'; lia|unfold mix; ring].
  Qed.
  Lemma rate_prc p : all (cPRC p) -> mixd "close" c c' -> (forall j, (j <= k)%nat -> 0 < c j) -> (forall j, (j <= k)%nat -> 0 < c' j) -> betw "prc".
  Proof.
    start. intros (K & K' & K2) Q Q'. destruct (prc_shown_values o raw b ob W p k A) as [N0 N1]. destruct (prc_shown_values o raw' b' ob' W' p k A') as [N0' N1']. destruct (prc_shown_values o raw2 b2 ob2 W2 p k A2) as [N02 N12].
    destruct (Nat.lt_ge_cases k (nat_arg p)) as [G|G]; [rewrite N0, N0', N02 by exact G; left; auto|].
    rewrite (N1 (c k) (c (k - nat_arg p)%nat)), (N1' (c' k) (c' (k - nat_arg p)%nat)), (N12 (mx (c k) (c' k)) (mx (c (k - nat_arg p)%nat) (c' (k - nat_arg p)%nat))) by first [exact G|apply K; lia|apply K'; lia|apply K2; lia].
    apply (between_ratio w w'); auto; [apply Q; lia|apply Q'; lia|unfold mix; ring].
  Qed.
  Lemma rate_prf p q : all (cPRF p q) -> mixd "close" c c' -> (forall j, (j <= k)%nat -> 0 < c j) -> (forall j, (j <= k)%nat -> 0 < c' j) -> betw "prf".
  Proof.
    start. intros (K & K' & K2) Q Q'. rewrite (performance_shown o raw b ob W p q k c A K), (performance_shown o raw' b' ob' W' p q k c' A' K'), (performance_shown o raw2 b2 ob2 W2 p q k _ A2 K2).
    apply (between_ratio w w'); auto; [apply Q; lia|apply Q'; lia|unfold mix; ring].
  Qed.
  Lemma rate_posc p q : all (cPOSC p q) -> mixd "close" c c' -> (forall j, (j <= k)%nat -> 0 < c j) -> (forall j, (j <= k)%nat -> 0 < c' j) -> betw "posc".
  Proof.
    start. intros (K & K' & K2) Q Q'. assert (P : (1 <= nat_arg p)%nat /\ (nat_arg q <= nat_arg p)%nat) by (look fr V VV; lia).
    rewrite (price_oscillator_shown o raw b ob W p q k c A K), (price_oscillator_shown o raw' b' ob' W' p q k c' A' K'), (price_oscillator_shown o raw2 b2 ob2 W2 p q k _ A2 K2). cbv zeta.
    apply between_from. intro G. apply (between_ratio w w'); auto; [apply mean_pos; auto; lia|apply mean_pos; auto; lia| |apply mean_mix; [lia|reflexivity]].
    rewrite (mean_mix w w' _ c c' (nat_arg q) k), (mean_mix w w' _ c c' (nat_arg p) k) by (lia || reflexivity). unfold mix. ring.
  Qed.
  Lemma rate_vrc p : all (cVRC p) -> mixd "volume" v v' -> (forall j, (j <= k)%nat -> 0 < v j) -> (forall j, (j <= k)%nat -> 0 < v' j) -> betw "vrc".
  Proof.
    start. intros (K & K' & K2) Q Q'. rewrite (volume_rate_of_change_shown o raw b ob W p k v A K), (volume_rate_of_change_shown o raw' b' ob' W' p k v' A' K'), (volume_rate_of_change_shown o raw2 b2 ob2 W2 p k _ A2 K2). cbv zeta.
    apply between_from. intro G. apply (between_ratio w w'); auto; [apply Q; lia|apply Q'; lia|unfold change, mix; ring].
  Qed.
  Lemma rate_vch p q : all (cVCH p q) -> mixd "high" h h' -> mixd "low" l l' -> (forall j, (j <= k)%nat -> l j < h j) -> (forall j, (j <= k)%nat -> l' j < h' j) -> betw "vch".
  Proof.
    start. intros (H & H' & H2) (L & L' & L2) Q Q'. period p.
    rewrite (chaikin_volatility_shown o raw b ob W p q k h l A H L), (chaikin_volatility_shown o raw' b' ob' W' p q k h' l' A' H' L'), (chaikin_volatility_shown o raw2 b2 ob2 W2 p q k _ _ A2 H2 L2). cbv zeta.
    apply between_from. intro G. set (n := nat_arg p) in *. set (m := nat_arg q) in *. destruct (span_01 n P) as [S0 S1].
    assert (E : forall j, ema_from 0 n (fun i => mx (h i) (h' i) - mx (l i) (l' i)) j = mx (ema_from 0 n (fun i => h i - l i) j) (ema_from 0 n (fun i => h' i - l' i) j)) by (intro j; apply ema_from_mix; [lia|intros; unfold mix; ring]).
    apply (between_ratio w w'); auto; [apply ema_pos; [split; assumption|]; intros j J; cbn [Nat.add]; specialize (Q j ltac:(lia)); qlra|apply ema_pos; [split; assumption|]; intros j J; cbn [Nat.add]; specialize (Q' j ltac:(lia)); qlra|].
    rewrite !E. unfold mix. ring.
  Qed.
  Lemma rates_between ct name : all ct -> basket ct w w' k ob ob' ob2 op op' h h' l l' c c' v v' -> rated ct k h l c v -> rated ct k h' l' c' v' -> In name (rates ct) -> betw name.
  Proof.
    intros T (O & H & L & C & VO) R R' I. destruct ct; cbn [rates] in I; try contradiction; cbn [required asked] in O, H, L, C, VO; destruct I as [<-|[]]; unfold rated in R, R'.
    - exact (rate_mom _ T (C ltac:(cbn; tauto)) R R').
    - exact (rate_prf _ _ T (C ltac:(cbn; tauto)) R R').
    - exact (rate_posc _ _ T (C ltac:(cbn; tauto)) R R').
    - exact (rate_prc _ T (C ltac:(cbn; tauto)) R R').
    - exact (rate_vch _ _ T (H ltac:(cbn; tauto)) (L ltac:(cbn; tauto)) R R').
    - exact (rate_vrc _ T (VO ltac:(cbn; tauto)) R R').
  Qed.
  Lemma rate_cmf p : all (cCMF p) -> same "high" h -> same "low" l -> same "close" c -> mixd "volume" v v' -> (forall j, (j <= k)%nat -> l j <= c j /\ c j <= h j /\ l j < h j) ->
    (forall j, (j <= k)%nat -> 0 < v j) -> (forall j, (j <= k)%nat -> 0 < v' j) -> betw "cmf".
  Proof.
    start. intros (H & H' & H2) (L & L' & L2) (C & C' & C2) (V & V' & V2) N Q Q'. period p.
    rewrite (chaikin_money_flow_shown o raw b ob W p k c v h l A N C V H L), (chaikin_money_flow_shown o raw' b' ob' W' p k c v' h l A' N C' V' H' L'), (chaikin_money_flow_shown o raw2 b2 ob2 W2 p k c _ h l A2 N C2 V2 H2 L2). cbv zeta.
    apply between_from. intro G. apply (between_ratio w w'); auto; [apply total_pos; [exact P|intros; apply Q; lia]|apply total_pos; [exact P|intros; apply Q'; lia]|apply sum_mix; [lia|intros; apply adl_move_mix]|apply sum_mix; [lia|reflexivity]].
  Qed.

  (** ** channels and true ranges *)
  Lemma mix_le x y x' y' : x <= x' -> y <= y' -> mx x y <= mx x' y'.
  Proof. intros X Y. unfold mix. apply Qcplus_le_compat; apply mul_le; assumption. Qed.
  Lemma highest_mix x y z f g a d M M' M2 : known x k f -> known y k g -> known z k (fun j => mx (f j) (g j)) -> (d <= k)%nat -> highest x a d M -> highest y a d M' -> highest z a d M2 -> M2 <= mx M M'.
  Proof.
    intros X Y Z D [_ U] [_ U'] [(j & J & E) _]. rewrite Z in E by lia. injection E as <-. apply mix_le; [apply (U j); [exact J|apply X; lia]|apply (U' j); [exact J|apply Y; lia]].
  Qed.
  Lemma lowest_mix x y z f g a d M M' M2 : known x k f -> known y k g -> known z k (fun j => mx (f j) (g j)) -> (d <= k)%nat -> lowest x a d M -> lowest y a d M' -> lowest z a d M2 -> mx M M' <= M2.
  Proof.
    intros X Y Z D [_ U] [_ U'] [(j & J & E) _]. rewrite Z in E by lia. injection E as <-. apply mix_le; [apply (U j); [exact J|apply X; lia]|apply (U' j); [exact J|apply Y; lia]].
  Qed.
  Lemma r4_below x y z : z <= mx x y -> r4 z <= mx (r4 x) (r4 y) + slack tick4 1 w w'.
  Proof. intro H. apply Qcle_trans with (r4 (mx x y)); [apply r4_le, H|]. exact (proj1 (r4_mix0 w w' x y _ eq_refl)). Qed.
  Lemma r4_above x y z : mx x y <= z -> mx (r4 x) (r4 y) <= r4 z + slack tick4 1 w w'.
  Proof. intro H. pose proof (r4_le _ _ H) as R. pose proof (proj2 (r4_mix0 w w' x y _ eq_refl)) as Q. qlra. Qed.
  Lemma mix_pch p : all (cPCH p) -> mixd "high" h h' -> mixd "low" l l' ->
    at_most_sum (slack tick4 1 w w') w w' (shown "highest_high" ob k) (shown "highest_high" ob' k) (shown "highest_high" ob2 k) /\
    at_least_sum (slack tick4 1 w w') w w' (shown "lowest_low" ob k) (shown "lowest_low" ob' k) (shown "lowest_low" ob2 k).
  Proof.
    start. intros (H & H' & H2) (L & L' & L2). period p. pose proof (known_days _ _ _ _ H) as D. pose proof (known_days _ _ _ _ H') as D'. pose proof (known_days _ _ _ _ H2) as D2.
    assert (NG : forall (x : nat -> num) f, known x k f -> ~ gap x (k - nat_arg p) (k - 1) \/ (k < nat_arg p)%nat).
    { intros x f X. destruct (Nat.lt_ge_cases k (nat_arg p)); [auto|]. left. intros (j & J & G). rewrite X in G by lia. discriminate. }
    split.
    - destruct (pch_shown_high o raw b ob W p k A D) as [(M & N & FU & HI & ->)|[[N|G] ->]].
      + destruct (pch_shown_high o raw' b' ob' W' p k A' D') as [(M' & _ & _ & HI' & ->)|[[N2|G] _]]; [|lia|destruct (NG _ _ H'); [contradiction|lia]].
        destruct (pch_shown_high o raw2 b2 ob2 W2 p k A2 D2) as [(M2 & _ & _ & HI2 & ->)|[[N2|G] _]]; [|lia|destruct (NG _ _ H2); [contradiction|lia]].
        right. eexists _, _, _. repeat split. apply r4_below. exact (highest_mix _ _ _ h h' _ _ _ _ _ H H' H2 (Nat.le_sub_l k 1) HI HI' HI2).
      + destruct (pch_shown_high o raw' b' ob' W' p k A' D') as [(M2 & N2 & _)|[_ ->]]; [lia|]. destruct (pch_shown_high o raw2 b2 ob2 W2 p k A2 D2) as [(M2 & N2 & _)|[_ ->]]; [lia|]. left. auto.
      + destruct (NG _ _ H); [contradiction|]. destruct (pch_shown_high o raw' b' ob' W' p k A' D') as [(M2 & N2 & _)|[_ ->]]; [lia|]. destruct (pch_shown_high o raw2 b2 ob2 W2 p k A2 D2) as [(M2 & N2 & _)|[_ ->]]; [lia|]. left. auto.
    - destruct (pch_shown_low o raw b ob W p k A D) as [(M & N & FU & HI & ->)|[[N|G] ->]].
      + destruct (pch_shown_low o raw' b' ob' W' p k A' D') as [(M' & _ & _ & HI' & ->)|[[N2|G] _]]; [|lia|destruct (NG _ _ L'); [contradiction|lia]].
        destruct (pch_shown_low o raw2 b2 ob2 W2 p k A2 D2) as [(M2 & _ & _ & HI2 & ->)|[[N2|G] _]]; [|lia|destruct (NG _ _ L2); [contradiction|lia]].
        right. eexists _, _, _. repeat split. apply r4_above. exact (lowest_mix _ _ _ l l' _ _ _ _ _ L L' L2 (Nat.le_sub_l k 1) HI HI' HI2).
      + destruct (pch_shown_low o raw' b' ob' W' p k A' D') as [(M2 & N2 & _)|[_ ->]]; [lia|]. destruct (pch_shown_low o raw2 b2 ob2 W2 p k A2 D2) as [(M2 & N2 & _)|[_ ->]]; [lia|]. left. auto.
      + destruct (NG _ _ L); [contradiction|]. destruct (pch_shown_low o raw' b' ob' W' p k A' D') as [(M2 & N2 & _)|[_ ->]]; [lia|]. destruct (pch_shown_low o raw2 b2 ob2 W2 p k A2 D2) as [(M2 & N2 & _)|[_ ->]]; [lia|]. left. auto.
  Qed.
  Lemma larger_ge_l x y : x <= larger x y. Proof. unfold larger. destruct (qltb_spec x y); [apply Qclt_le_weak; assumption|apply Qcle_refl]. Qed.
  Lemma larger_ge_r x y : y <= larger x y. Proof. unfold larger. destruct (qltb_spec x y) as [N|N]; [apply Qcle_refl|apply Qcnot_lt_le in N; exact N]. Qed.
  Lemma larger_mix x y x' y' : larger (mx x x') (mx y y') <= mx (larger x y) (larger x' y').
  Proof. unfold larger at 1. destruct (qltb (mx x x') (mx y y')); apply mix_le; (apply larger_ge_l || apply larger_ge_r). Qed.
  Lemma range_mix j : true_range (fun i => mx (h i) (h' i)) (fun i => mx (l i) (l' i)) (fun i => mx (c i) (c' i)) j <= mx (true_range h l c j) (true_range h' l' c' j).
  Proof.
    destruct j as [|i]; cbn [true_range]; [unfold mix; apply (le_of _ _ _ (Qcle_refl _)); ring|].
    assert (E : forall x y x' y', mx x x' - mx y y' = mx (x - y) (x' - y')) by (intros; unfold mix; ring). rewrite !E. unfold larger3.
    apply Qcle_trans with (larger (mx (larger (h (S i) - l (S i)) (h (S i) - c i)) (larger (h' (S i) - l' (S i)) (h' (S i) - c' i))) (mx (c i - l (S i)) (c' i - l' (S i)))); [|apply larger_mix].
    unfold larger at 1. match goal with |- context [qltb ?a ?d] => destruct (qltb a d) end; [apply larger_ge_r|]. eapply Qcle_trans; [apply larger_mix|apply larger_ge_l].
  Qed.
  Lemma mix_atr : all cATR -> (13 <= k)%nat -> mixd "high" h h' -> mixd "low" l l' -> mixd "close" c c' ->
    at_most_sum (slack tick4 1 w w') w w' (shown "atr" ob k) (shown "atr" ob' k) (shown "atr" ob2 k).
  Proof.
    start. intros G (H & H' & H2) (L & L' & L2) (C & C' & C2).
    rewrite (average_true_range_shown o raw b ob W k h l c A G H L C), (average_true_range_shown o raw' b' ob' W' k h' l' c' A' G H' L' C'), (average_true_range_shown o raw2 b2 ob2 W2 k _ _ _ A2 G H2 L2 C2). cbv zeta.
    right. eexists _, _, _. repeat split. apply r4_below. set (t := true_range h l c). set (t' := true_range h' l' c'). set (t2 := true_range _ _ _).
    assert (Q : forall j, t2 j <= mx (t j) (t' j)) by (intro j; apply range_mix).
    rewrite <- (run_from_mix w w' 13 14 (mean_last t 14 13) (mean_last t' 14 13) (mean_last (fun j => mx (t j) (t' j)) 14 13) (fun j => mx (t j) (t' j)) t t' k G) by first [apply mean_mix; [lia|reflexivity]|reflexivity].
    assert (Z : forall x y, x <= y + 0 -> x <= y) by (intros x y Z; rewrite Qcplus_0_r in Z; exact Z). apply Z.
    apply run_from_up; [lia|apply mean_up; [lia|lia|]|intros j _|exact G]; intros; rewrite Qcplus_0_r; apply Q.
  Qed.
End Basket2.
