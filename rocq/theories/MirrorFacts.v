(** * MirrorFacts: the formulas when every price x becomes m - x, so that highs become lows. *)
From Coq Require Import ZArith QArith Qcanon Bool List String PeanoNat Lia Sorted Permutation.
From Verif Require Import Num NumFacts RoundFacts Pandas Sim Frame FrameSpec FrameProofs Ind Signal Api IndSpec SeriesFacts Lengths Causal IndFacts Shape ApiSpec ApiCheck ApiProofs ApiLemmas RangeSpec Cells RangeFacts RangeMore Publish RangeApi ValueSpec ValueFacts ValueMore Recur ValueApi CumulApi.
From Verif Require Import FormulaSpec Starts Formula Formula2 Formula3 Formula4 Line Formula5 Formula6 FormulaApi FlatFacts IdentFacts MirrorSpec.
Import ListNotations.
Open Scope list_scope. Open Scope string_scope. Open Scope Qc_scope.

Definition same_f (f g : nat -> Qc) := forall j, g j = f j.
Definition neg_f (f g : nat -> Qc) := forall j, g j = - f j.

(** ** rounding *)
Lemma r4_opp x : r4 (- x) = - r4 x. Proof. apply qround_opp. Qed.
Lemma r4_even m x : even_ticks m -> r4 (m + x) = m + r4 x.
Proof.
  intros [z ->]. rewrite Qcplus_comm. unfold r4. rewrite (qround_add_even 4 x _ (2 * z)); [ring|apply Z.even_spec; exists z; reflexivity|].
  unfold dscale. apply qc_eq. rewrite this_mul, !this_Q2Qc. unfold Qeq, inject_Z, pow10. cbn. lia.
Qed.
Lemma r4_even_sub m x : even_ticks m -> r4 (m - x) = m - r4 x.
Proof. intro E. unfold Qcminus. rewrite r4_even, r4_opp; auto. Qed.
Lemma even_100 : even_ticks (zq 100). Proof. exists 500000%Z. apply Qc_is_canon. vm_compute. reflexivity. Qed.
Lemma r4_100_sub x : r4 (zq 100 - x) = zq 100 - r4 x. Proof. apply r4_even_sub, even_100. Qed.
Lemma rn_neg v : rn (nneg v) = nneg (rn v).
Proof. destruct v; try reflexivity. unfold rn. cbn [nneg nround]. f_equal. apply qround_opp. Qed.

(** ** order *)
Lemma ltb_opp a b : qltb (- a) (- b) = qltb b a.
Proof. destruct (qltb b a) eqn:E; [apply qltb_iff in E; apply qltb_iff; qlra|apply qltb_false in E; apply qltb_false; qlra]. Qed.
Lemma ltb_opp0 a : qltb (- a) 0 = qltb 0 a.
Proof. rewrite <- (ltb_opp a 0). f_equal. Qed.
Lemma ltb_0opp a : qltb 0 (- a) = qltb a 0.
Proof. rewrite <- (ltb_opp 0 a). f_equal. Qed.
Lemma gain_opp a : gain (- a) = loss a.
Proof. unfold gain, loss. rewrite ltb_0opp. reflexivity. Qed.
Lemma loss_opp a : loss (- a) = gain a.
Proof. unfold gain, loss. rewrite ltb_opp0. destruct qltb; ring. Qed.
Lemma abs_opp a : abs (- a) = abs a.
Proof.
  unfold abs. rewrite ltb_opp0. destruct (qltb 0 a) eqn:A; destruct (qltb a 0) eqn:B; try ring.
  - apply qltb_iff in A, B. exfalso. qlra.
  - apply qltb_false in A, B. assert (a = 0) as -> by (apply Qcle_antisym; auto). ring.
Qed.
Lemma larger_comm a b : larger a b = larger b a.
Proof.
  unfold larger. destruct (qltb a b) eqn:A; destruct (qltb b a) eqn:B; auto.
  - apply qltb_iff in A, B. exfalso. qlra.
  - apply qltb_false in A, B. apply Qcle_antisym; auto.
Qed.
Lemma larger_assoc a b c : larger (larger a b) c = larger a (larger b c).
Proof.
  unfold larger. destruct (qltb a b) eqn:A; destruct (qltb b c) eqn:B; rewrite ?A, ?B; auto.
  - apply qltb_iff in A, B. assert (qltb a c = true) as -> by (apply qltb_iff; qlra). reflexivity.
  - apply qltb_false in A, B. assert (qltb a c = false) as -> by (apply qltb_false; qlra). reflexivity.
Qed.
Lemma ndiv_opp a b : ratio (- a) b = nneg (ratio a b).
Proof.
  unfold ratio, ndiv. destruct (qeqb b 0) eqn:E.
  - replace (qeqb (- a) 0) with (qeqb a 0).
    + destruct (qeqb a 0) eqn:Z; [reflexivity|]. apply qeqb_false in Z. rewrite ltb_0opp.
      destruct (qltb a 0) eqn:A; destruct (qltb 0 a) eqn:A'; try reflexivity; [apply qltb_iff in A, A'; exfalso; qlra|].
      apply qltb_false in A, A'. exfalso. apply Z, Qcle_antisym; auto.
    + destruct (qeqb a 0) eqn:Z; symmetry; [apply qeqb_iff in Z; subst; reflexivity|]. apply qeqb_false in Z. apply qeqb_false. intro Q.
      apply Z. rewrite <- (Qcopp_involutive a), Q. reflexivity.
  - cbn [nneg]. f_equal. unfold Qcdiv. ring.
Qed.

Section Mirror.
  Variable m : Qc.
  Definition mir (f g : nat -> Qc) := forall j, g j = m - f j.
  Lemma ltb_mir a b : qltb (m - a) (m - b) = qltb b a.
  Proof. destruct (qltb b a) eqn:E; [apply qltb_iff in E; apply qltb_iff; qlra|apply qltb_false in E; apply qltb_false; qlra]. Qed.
  Lemma larger_mir a b : larger (m - a) (m - b) = m - smaller a b.
  Proof. unfold larger, smaller. rewrite ltb_mir. destruct qltb; reflexivity. Qed.
  Lemma smaller_mir a b : smaller (m - a) (m - b) = m - larger a b.
  Proof. unfold larger, smaller. rewrite ltb_mir. destruct qltb; reflexivity. Qed.
  Lemma total_neg f g n : neg_f f g -> total g n = - total f n.
  Proof. intro U. rewrite (total_ext g (fun j => - (1) * f j)), total_mul; [ring|]. intros. rewrite U. ring. Qed.
  Lemma total_mir f g n : mir f g -> total g n = nq n * m - total f n.
  Proof. intro U. rewrite (total_ext g (fun j => m + - (1) * f j)), total_add, total_mul, total_const; [ring|]. intros. rewrite U. ring. Qed.
  Lemma total_same f g n : same_f f g -> total g n = total f n.
  Proof. intro U. apply total_ext. intros. apply U. Qed.
  Lemma sum_neg f g n : neg_f f g -> neg_f (sum_last f n) (sum_last g n).
  Proof. intros U j. apply total_neg. intro. apply U. Qed.
  Lemma sum_same f g n : same_f f g -> same_f (sum_last f n) (sum_last g n).
  Proof. intros U j. apply total_same. intro. apply U. Qed.
  Lemma mean_neg f g n : neg_f f g -> neg_f (mean_last f n) (mean_last g n).
  Proof. intros U j. unfold mean_last. rewrite (sum_neg f g n U j). unfold Qcdiv. ring. Qed.
  Lemma mean_same f g n : same_f f g -> same_f (mean_last f n) (mean_last g n).
  Proof. intros U j. unfold mean_last. rewrite (sum_same f g n U j). reflexivity. Qed.
  Lemma mean_mir f g n : (1 <= n)%nat -> mir f g -> mir (mean_last f n) (mean_last g n).
  Proof. intros N U j. unfold mean_last, sum_last. rewrite (total_mir (fun i => f (S j - n + i)%nat)) by (intro; apply U). field. apply nq_nonzero, N. Qed.
  Lemma change_mir n f g : mir f g -> neg_f (change n f) (change n g).
  Proof. intros U j. unfold change. rewrite !U. ring. Qed.
  Lemma max_to_mir f g a n : mir f g -> max_to g a n = m - min_to f a n.
  Proof. intro U. induction n; cbn [max_to min_to]; [apply U|]. rewrite IHn, U. apply larger_mir. Qed.
  Lemma min_to_mir f g a n : mir f g -> min_to g a n = m - max_to f a n.
  Proof. intro U. induction n; cbn [max_to min_to]; [apply U|]. rewrite IHn, U. apply smaller_mir. Qed.
  Lemma max_mir f g n : mir f g -> mir (min_last f n) (max_last g n).
  Proof. intros U j. apply max_to_mir, U. Qed.
  Lemma min_mir f g n : mir f g -> mir (max_last f n) (min_last g n).
  Proof. intros U j. apply min_to_mir, U. Qed.
  Lemma ema_neg a n f g : neg_f f g -> neg_f (ema_from a n f) (ema_from a n g).
  Proof. intros U j. unfold ema_from. induction (j - a)%nat; cbn [ema]; rewrite !U; auto. rewrite IHn0. ring. Qed.
  Lemma ema_same a n f g : same_f f g -> same_f (ema_from a n f) (ema_from a n g).
  Proof. intros U j. unfold ema_from. induction (j - a)%nat; cbn [ema]; rewrite !U; auto. rewrite IHn0. ring. Qed.
  Lemma ema_mir a n f g : mir f g -> mir (ema_from a n f) (ema_from a n g).
  Proof. intros U j. unfold ema_from. induction (j - a)%nat; cbn [ema]; rewrite !U; auto. rewrite IHn0. ring. Qed.
  Lemma run_same a step x f g : same_f f g -> same_f (run_from a step x f) (run_from a step x g).
  Proof. intros U j. unfold run_from. induction (j - a)%nat; cbn [run]; auto. rewrite IHn, U. reflexivity. Qed.
  Lemma wilders_mir n p y : (1 <= n)%nat -> wilders n (m - p) (m - y) = m - wilders n p y.
  Proof. intro. unfold wilders, Qcdiv. ring. Qed.
  Lemma run_mir a n x f g : (1 <= n)%nat -> mir f g -> mir (run_from a (wilders n) x f) (run_from a (wilders n) (m - x) g).
  Proof. intros N U j. unfold run_from. induction (j - a)%nat; cbn [run]; auto. rewrite IHn0, U. apply wilders_mir, N. Qed.
  Lemma wilder_from_same a p f g : same_f f g -> same_f (wilder_from a p f) (wilder_from a p g).
  Proof. intros U j. unfold wilder_from. rewrite (mean_same f g p U). apply run_same, U. Qed.
  Lemma gain_neg f g : neg_f f g -> same_f (fun j => loss (f j)) (fun j => gain (g j)).
  Proof. intros U j. rewrite U. apply gain_opp. Qed.
  Lemma loss_neg f g : neg_f f g -> same_f (fun j => gain (f j)) (fun j => loss (g j)).
  Proof. intros U j. rewrite U. apply loss_opp. Qed.
  Lemma abs_neg f g : neg_f f g -> same_f (fun j => abs (f j)) (fun j => abs (g j)).
  Proof. intros U j. rewrite U. apply abs_opp. Qed.
  Lemma variance_mir f g n : (1 <= n)%nat -> mir f g -> variance g n = variance f n.
  Proof.
    intros N U. unfold variance. assert (M : mean g n = m - mean f n) by (unfold mean; rewrite (total_mir f g n U); field; apply nq_nonzero, N).
    rewrite M. generalize (mean f n). intro a. unfold mean. f_equal. apply total_ext. intros j J. rewrite U. ring.
  Qed.

  (** ** a whole day turned over *)
  Variables (op h l c op' h' l' c' v : nat -> Qc).
  Hypothesis MO : mir op op'. Hypothesis MH : mir l h'. Hypothesis ML : mir h l'. Hypothesis MC : mir c c'.
  Lemma range_mir : same_f (fun j => h j - l j) (fun j => h' j - l' j).
  Proof. intro j. rewrite MH, ML. ring. Qed.
  Lemma typical_mir : mir (typical h l c) (typical h' l' c').
  Proof. intro j. unfold typical. rewrite MH, ML, MC. change (zq 3) with (1 + 1 + 1). field. discriminate. Qed.
  Lemma true_range_mir : same_f (true_range h l c) (true_range h' l' c').
  Proof.
    intros [|i]; unfold true_range; [apply range_mir|]. unfold larger3. rewrite !larger_assoc. rewrite MH, ML, MC.
    replace (m - l (S i) - (m - h (S i))) with (h (S i) - l (S i)) by ring. f_equal. rewrite larger_comm. f_equal; ring.
  Qed.
  Lemma true_low_mir : mir (true_high h c) (true_low l' c').
  Proof. intro j. unfold true_high, true_low. rewrite ML, MC. apply smaller_mir. Qed.
  Lemma true_high_mir : mir (true_low l c) (true_high h' c').
  Proof. intro j. unfold true_high, true_low. rewrite MH, MC. apply larger_mir. Qed.
  Lemma reach_mir : same_f (reach h l c) (reach h' l' c').
  Proof. intro j. unfold reach. rewrite true_low_mir, true_high_mir. ring. Qed.
  Lemma pressure_mir j : pressure l' c' j = reach h l c j - pressure l c j.
  Proof. unfold reach, pressure. rewrite true_low_mir, MC. ring. Qed.
  Lemma up_mir : same_f (down_move l) (up_move h').
  Proof. intro j. unfold up_move, down_move. rewrite !MH. ring. Qed.
  Lemma down_mir : same_f (up_move h) (down_move l').
  Proof. intro j. unfold up_move, down_move. rewrite !ML. ring. Qed.
  Lemma plus_mir : same_f (minus_move h l) (plus_move h' l').
  Proof. intro j. unfold plus_move, minus_move. rewrite up_mir, down_mir. reflexivity. Qed.
  Lemma minus_mir : same_f (plus_move h l) (minus_move h' l').
  Proof. intro j. unfold plus_move, minus_move. rewrite up_mir, down_mir. reflexivity. Qed.
  Lemma running_same f g : same_f f g -> same_f (running f) (running g).
  Proof. intros U j. unfold running. rewrite (total_same (fun i => f (1 + i)%nat) (fun i => g (1 + i)%nat)) by (intro; apply U). apply run_same, U. Qed.
  Lemma directional_same f g : same_f f g -> same_f (directional h l c f) (directional h' l' c' g).
  Proof. intros U j. unfold directional. rewrite (running_same f g U), (running_same _ _ true_range_mir). reflexivity. Qed.
  Lemma plus_di_mir : same_f (minus_di h l c) (plus_di h' l' c'). Proof. apply directional_same, plus_mir. Qed.
  Lemma minus_di_mir : same_f (plus_di h l c) (minus_di h' l' c'). Proof. apply directional_same, minus_mir. Qed.
  Lemma dx_mir : same_f (dx_line h l c) (dx_line h' l' c').
  Proof.
    intro j. unfold dx_line. rewrite plus_di_mir, minus_di_mir. rewrite (Qcplus_comm (minus_di h l c j)).
    replace (minus_di h l c j - plus_di h l c j) with (- (plus_di h l c j - minus_di h l c j)) by ring. rewrite abs_opp. reflexivity.
  Qed.
  Lemma adx_mir : same_f (adx_line h l c) (adx_line h' l' c').
  Proof. intro j. unfold adx_line. rewrite (total_same (fun i => dx_line h l c (14 + i)%nat)) by (intro; apply dx_mir). apply run_same, dx_mir. Qed.
  Lemma middle_mir : mir (middle h l) (middle h' l').
  Proof. intro j. unfold middle. rewrite MH, ML. change (zq 2) with (1 + 1). field. discriminate. Qed.
  Lemma box_mir : same_f (box h l v) (box h' l' v).
  Proof. intro j. unfold box. pose proof (range_mir j) as E. cbv beta in E. rewrite E. reflexivity. Qed.
  Lemma ease_mir : neg_f (ease h l v) (ease h' l' v).
  Proof. intro j. unfold ease. rewrite !middle_mir, box_mir. unfold Qcdiv. ring. Qed.
  Lemma adl_mir j : adl_move (h' j) (l' j) (c' j) (v j) = - adl_move (h j) (l j) (c j) (v j).
  Proof.
    unfold adl_move. rewrite MH, ML, MC, ltb_mir. destruct qltb; [|ring]. unfold Qcdiv.
    replace (m - l j - (m - h j)) with (h j - l j) by ring. ring.
  Qed.
  Lemma swing_reach_mir : same_f (fun j => larger (abs (h j - c (j - 1)%nat)) (abs (l j - c (j - 1)%nat))) (fun j => larger (abs (h' j - c' (j - 1)%nat)) (abs (l' j - c' (j - 1)%nat))).
  Proof.
    intro j. rewrite larger_comm. rewrite MH, ML, !MC. rewrite <- (abs_opp (h j - _)), <- (abs_opp (l j - _)). f_equal; f_equal; ring.
  Qed.
  Lemma swing_span_mir : same_f (swing_span op h l c) (swing_span op' h' l' c').
  Proof.
    intro j. unfold swing_span, larger3. pose proof (swing_reach_mir j) as E. cbv beta in E. rewrite E. pose proof (range_mir j) as R. cbv beta in R. rewrite R.
    do 2 f_equal. rewrite MC, MO, <- (abs_opp (c _ - _)). f_equal. ring.
  Qed.
  Lemma swing_mir : neg_f (swing op h l c) (swing op' h' l' c').
  Proof.
    intro j. unfold swing. pose proof (swing_reach_mir j) as E. cbv beta in E. rewrite E, swing_span_mir, !MC, !MO. unfold Qcdiv. ring.
  Qed.
  Lemma clip_opp a : clip (- a) = - clip a.
  Proof.
    unfold clip. change (zq (-100)) with (- zq 100). assert (P : 0 < zq 100) by (apply qltb_iff; vm_compute; reflexivity).
    rewrite ltb_opp. replace (qltb (zq 100) (- a)) with (qltb a (- zq 100)) by (rewrite <- ltb_opp; f_equal; ring).
    destruct (qltb a (- zq 100)) eqn:A; destruct (qltb (zq 100) a) eqn:C; try ring.
    apply qltb_iff in A, C. exfalso. qlra.
  Qed.
  Lemma deviation_mir sq f g : mir f g -> same_f (deviation sq f) (deviation sq g).
  Proof. intros U j. unfold deviation. f_equal. apply variance_mir; [lia|]. intro. apply U. Qed.
  Lemma rising_mir sq f g : mir f g -> same_f (falling sq f) (rising sq g).
  Proof. intros U j. unfold rising, falling. rewrite (change_mir 1 f g U), ltb_0opp, (deviation_mir sq f g U). reflexivity. Qed.
  Lemma falling_mir sq f g : mir f g -> same_f (rising sq f) (falling sq g).
  Proof. intros U j. unfold rising, falling. rewrite (change_mir 1 f g U), ltb_opp0, (deviation_mir sq f g U). reflexivity. Qed.
  (** the typical price moves every day *)
  Lemma trend_mir k : (forall j, (1 <= j <= k)%nat -> h j + l j + c j <> h (j - 1)%nat + l (j - 1)%nat + c (j - 1)%nat) ->
    forall j, (1 <= j <= k)%nat -> trend h' l' c' j = - trend h l c j.
  Proof.
    intros N j J. specialize (N j J). unfold trend. rewrite !MH, !ML, !MC.
    destruct (qltb (h (j - 1)%nat + l (j - 1)%nat + c (j - 1)%nat) (h j + l j + c j)) eqn:A;
      match goal with |- context [qltb ?x ?y] => destruct (qltb x y) eqn:B end; try ring;
      repeat match goal with H : qltb _ _ = true |- _ => apply qltb_iff in H | H : qltb _ _ = false |- _ => apply qltb_false in H end.
    - exfalso. qlra. - exfalso. apply N. apply Qcle_antisym; [exact A|]. qlra.
  Qed.
  Lemma measure_mir k : (forall j, (1 <= j <= k)%nat -> h j + l j + c j <> h (j - 1)%nat + l (j - 1)%nat + c (j - 1)%nat) ->
    forall j, (j <= k)%nat -> measure h' l' c' j = measure h l c j.
  Proof.
    intros N. induction j as [|i IH]; intro J; [reflexivity|]. cbn [measure]. rewrite IH by lia.
    pose proof (range_mir i) as Ri. pose proof (range_mir (S i)) as Rs. cbv beta in Ri, Rs. rewrite Ri, Rs.
    destruct (2 <=? S i)%nat eqn:E; [|reflexivity]. apply Nat.leb_le in E. rewrite !(trend_mir k N) by lia. cbn [andb].
    replace (qeqb (- trend h l c (S i)) (- trend h l c i)) with (qeqb (trend h l c (S i)) (trend h l c i)); [reflexivity|].
    unfold trend. do 2 destruct qltb; vm_compute; reflexivity.
  Qed.
  Lemma force_mir k : (forall j, (1 <= j <= k)%nat -> h j + l j + c j <> h (j - 1)%nat + l (j - 1)%nat + c (j - 1)%nat) ->
    forall j, (1 <= j <= k)%nat -> force h' l' c' v j = - force h l c v j.
  Proof.
    intros N j J. unfold force. rewrite (measure_mir k N) by lia. rewrite (trend_mir k N) by lia. pose proof (range_mir j) as R. cbv beta in R. rewrite R. ring.
  Qed.
  (** ** lines *)
  Lemma slope_mir f g n : mir f g -> neg_f (slope_last f n) (slope_last g n).
  Proof.
    intros U j. unfold slope_last, fit_slope. rewrite (total_mir (last_rows f n j) (last_rows g n j)) by (intro; apply U).
    rewrite (total_ext (fun i => nq i * last_rows g n j i) (fun i => m * nq i + - (1) * (nq i * last_rows f n j i))), total_add, !total_mul by (intros; unfold last_rows; rewrite U; ring).
    unfold Qcdiv. ring.
  Qed.
  Lemma end_mir f g n : (1 <= n)%nat -> mir f g -> mir (end_last f n) (end_last g n).
  Proof.
    intros N U j. unfold end_last, fit_start. fold (slope_last f n j). fold (slope_last g n j). rewrite (slope_mir f g n U), (total_mir (last_rows f n j) (last_rows g n j)) by (intro; apply U).
    field. apply nq_nonzero, N.
  Qed.
  Lemma forecast_mir f g n : even_ticks m -> (1 <= n)%nat -> mir f g -> mir (forecast f n) (forecast g n).
  Proof. intros E N U j. unfold forecast. rewrite (slope_mir f g n U), (end_mir f g n N U), r4_opp, r4_even_sub by exact E. ring. Qed.
  Lemma highest_mir f g n : mir f g -> mir (lowest_projection f n) (highest_projection g n).
  Proof. intros U j. unfold lowest_projection, highest_projection. apply max_to_mir. intro i. rewrite (slope_mir f g n U), U. ring. Qed.
  Lemma lowest_mir f g n : mir f g -> mir (highest_projection f n) (lowest_projection g n).
  Proof. intros U j. unfold lowest_projection, highest_projection. apply min_to_mir. intro i. rewrite (slope_mir f g n U), U. ring. Qed.
End Mirror.
