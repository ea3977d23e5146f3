(** * ValueFacts: windows, bands, extremes. *)
From Coq Require Import ZArith QArith Qcanon Bool List String PeanoNat Lia.
From Verif Require Import Num NumFacts RoundFacts Pandas Frame Ind SeriesFacts Lengths Cells RangeSpec RangeFacts RangeMore Signal Api ApiSpec IndSpec ValueSpec.
Import ListNotations.
Open Scope list_scope. Open Scope Qc_scope.

Lemma nq_qnat n : nq n = qnat n. Proof. reflexivity. Qed.
Lemma total_ext f g n : (forall j, (j < n)%nat -> f j = g j) -> total f n = total g n.
Proof. induction n; intro H; cbn; auto. rewrite IHn by auto. rewrite H by lia. reflexivity. Qed.
Lemma qsum_app a b : qsum (a ++ b) = qsum a + qsum b.
Proof. induction a as [|x a IH]; [cbn [app]; change (qsum []) with 0; ring|]. change (qsum ((x :: a) ++ b)) with (x + qsum (a ++ b)). change (qsum (x :: a)) with (x + qsum a). rewrite IH. ring. Qed.
Lemma qsum_seq g a n : qsum (map g (seq a n)) = total (fun j => g (a + j)%nat) n.
Proof.
  induction n; [reflexivity|]. rewrite seq_S, map_app, qsum_app, IHn. cbn. ring.
Qed.
Lemma mean_ext f g n : (forall j, (j < n)%nat -> f j = g j) -> mean f n = mean g n.
Proof. intro H. unfold mean. rewrite (total_ext f g n H). reflexivity. Qed.
Lemma qmean_seq g a n : qmean (map g (seq a n)) = mean (fun j => g (a + j)%nat) n.
Proof. unfold qmean, mean. rewrite qsum_seq, map_length, seq_length. reflexivity. Qed.
Lemma variance_ext f g n : (forall j, (j < n)%nat -> f j = g j) -> variance f n = variance g n.
Proof. intro H. unfold variance. apply mean_ext. intros j J. rewrite (mean_ext f g n H), H by auto. reflexivity. Qed.
Lemma qvar_seq g a n : qvar (map g (seq a n)) = variance (fun j => g (a + j)%nat) n.
Proof. unfold qvar. rewrite map_map. rewrite (qmean_seq g). rewrite qmean_seq. reflexivity. Qed.

(** every full-window aggregate *)
Lemma win_dec s p k : (0 < p)%nat -> (p <= S k /\ k < length s /\ forall j, S k - p <= j <= k -> isfin (nth j s NaN) = true)%nat \/
  forall f, ~ win (fun j => nth j s NaN) p k f.
Proof.
  intro P. destruct (Nat.le_gt_cases p (S k)) as [W|W]; [|right; intros f [X _]; lia].
  destruct (Nat.lt_ge_cases k (length s)) as [L|L].
  2: { right. intros f [_ F]. specialize (F (p - 1)%nat ltac:(lia)). rewrite nth_overflow in F by lia. discriminate. }
  destruct (forallb (fun j => isfin (nth j s NaN)) (seq (S k - p) p)) eqn:E.
  - left. split; auto. split; auto. intros j J. rewrite forallb_forall in E. apply E. apply in_seq. lia.
  - right. intros f [_ F]. apply not_true_iff_false in E. apply E. apply forallb_forall. intros j J. apply in_seq in J.
    specialize (F (j - (S k - p))%nat ltac:(lia)). replace (S k - p + (j - (S k - p)))%nat with j in F by lia. rewrite F. reflexivity.
Qed.
Lemma not_win_nan p agg s k : (0 < p)%nat -> (forall f, ~ win (fun j => nth j s NaN) p k f) -> nth k (rolling p p agg s) NaN = NaN.
Proof.
  intros P N. destruct (Nat.lt_ge_cases k (length s)) as [L|L]; [|apply nth_overflow; rewrite len_rolling; auto].
  rewrite nth_rolling by auto. destruct (Nat.leb_spec p (length (fins (window p k s)))) as [X|X]; auto.
  destruct (window_full p k s L X) as (A & _ & B). exfalso. apply (N (fun j => val s (S k - p + j)%nat)). split; auto.
  intros j J. apply B. lia.
Qed.
Lemma rolled_rolling p agg s k (g : (nat -> Qc) -> num) : (0 < p)%nat ->
  (forall h f, (forall j, (j < p)%nat -> h (S k - p + j)%nat = f j) -> agg (map h (seq (S k - p) p)) = g f) ->
  rolled (fun j => nth j s NaN) p k (nth k (rolling p p agg s) NaN) g.
Proof.
  intros P G. split; [|apply not_win_nan; auto]. intros f [W F].
  assert (L : (k < length s)%nat).
  { destruct (Nat.lt_ge_cases k (length s)) as [L|L]; auto. specialize (F (p - 1)%nat ltac:(lia)). cbv beta in F. rewrite nth_overflow in F by lia. discriminate. }
  rewrite (roll_defined p agg s k (length s)); auto.
  - apply G. intros j J. specialize (F j J). cbv beta in F. unfold val. rewrite F. reflexivity.
  - intros j J. specialize (F (j - (S k - p))%nat ltac:(lia)). cbv beta in F. replace (S k - p + (j - (S k - p)))%nat with j in F by lia. rewrite F. reflexivity.
Qed.
Lemma rolled_map x p k v g (h : num -> num) : h NaN = NaN -> rolled x p k v g -> rolled x p k (h v) (fun f => h (g f)).
Proof. intros H [A B]. split; intros; [rewrite (A f); auto|rewrite B; auto]. Qed.
Lemma rolled_map2 x p k v v' g g' (h : num -> num -> num) : h NaN NaN = NaN -> rolled x p k v g -> rolled x p k v' g' ->
  rolled x p k (h v v') (fun f => h (g f) (g' f)).
Proof. intros H [A B] [A' B']. split; intros; [rewrite (A f), (A' f); auto|rewrite B, B'; auto]. Qed.
Lemma rolled_ext x p k v g g' : (forall f, g f = g' f) -> rolled x p k v g -> rolled x p k v g'.
Proof. intros H [A B]. split; auto. intros f W. rewrite <- H. auto. Qed.
Lemma map_seq_nil (h : nat -> Qc) a p : (0 < p)%nat -> map h (seq a p) <> [].
Proof. intros P E. apply (f_equal (@List.length Qc)) in E. rewrite map_length, seq_length in E. cbn in E. lia. Qed.
Lemma rolled_mean p s k : (0 < p)%nat -> rolled (fun j => nth j s NaN) p k (nth k (roll_mean p s) NaN) (fun f => Fin (mean f p)).
Proof.
  intro P. apply rolled_rolling; auto. intros h f E. rewrite <- (mean_ext _ _ p E), <- qmean_seq. unfold agg_mean.
  destruct (map h (seq (S k - p) p)) eqn:N; auto. apply map_seq_nil in N; [destruct N|auto].
Qed.
Lemma rolled_sum p s k : (0 < p)%nat -> rolled (fun j => nth j s NaN) p k (nth k (roll_sum p s) NaN) (fun f => Fin (total f p)).
Proof. intro P. apply rolled_rolling; auto. intros h f E. rewrite <- (total_ext _ _ p E), <- qsum_seq. reflexivity. Qed.
Lemma rolled_std sq p s k : (0 < p)%nat -> rolled (fun j => nth j s NaN) p k (nth k (roll_std sq p s) NaN) (fun f => Fin (sq (variance f p))).
Proof.
  intro P. apply rolled_rolling; auto. intros h f E. rewrite <- (variance_ext _ _ p E), <- qvar_seq. unfold agg_std.
  destruct (map h (seq (S k - p) p)) eqn:N; auto. apply map_seq_nil in N; [destruct N|auto].
Qed.
(** two aggregates of the same window *)
Lemma win_unique x p k f f' : win x p k f -> win x p k f' -> forall j, (j < p)%nat -> f j = f' j.
Proof. intros [_ A] [_ B] j J. specialize (A j J). rewrite (B j J) in A. apply Fin_inj in A. auto. Qed.

Lemma nth_sround r s k : nth k (sround r s) NaN = nround r (nth k s NaN).
Proof. unfold sround, smap. change NaN with (nround r NaN) at 1. apply map_nth. Qed.
Lemma nth_smap_any h s k : h NaN = NaN -> nth k (smap h s) NaN = h (nth k s NaN).
Proof. intro H. unfold smap. rewrite <- H at 1. apply map_nth. Qed.
Lemma nth_szip_any (h : num -> num -> num) a b k : h NaN NaN = NaN -> length a = length b -> nth k (szip h a b) NaN = h (nth k a NaN) (nth k b NaN).
Proof.
  intros H L. destruct (Nat.lt_ge_cases k (length a)) as [K|K]; [apply nth_szip; lia|].
  rewrite !nth_overflow; auto; rewrite ?len_szip; lia.
Qed.

Ltac leq s := apply eq_trans with (List.length s); [lens | symmetry; lens].
(** ** Bollinger bands and envelopes *)
Section Bands.
  Variables (p : nat) (s : series) (k : nat).
  Hypothesis P : (0 < p)%nat.
  Notation x := (fun j => nth j s NaN).
  Lemma bb_middle_rolled : rolled x p k (nth k (bb_middle p s) NaN) (fun f => Fin (r4 (mean f p))).
  Proof. unfold bb_middle. rewrite nth_sround. apply (rolled_map x p k _ _ (nround 4) eq_refl (rolled_mean p s k P)). Qed.
  Lemma bb_upper_rolled o w : rolled x p k (nth k (bb_upper o p w s) NaN)
    (fun f => nround 4 (nadd (Fin (r4 (mean f p))) (nmul (Fin (o_sqrt o (variance f p))) w))).
  Proof.
    unfold bb_upper. rewrite nth_sround. unfold sadd. rewrite nth_szip_any, nth_smap_any by (try reflexivity; leq s).
    exact (rolled_map2 x p k _ _ _ _ (fun a b => nround 4 (nadd a (nmul b w))) eq_refl bb_middle_rolled (rolled_std (o_sqrt o) p s k P)).
  Qed.
  Lemma bb_lower_rolled o w : rolled x p k (nth k (bb_lower o p w s) NaN)
    (fun f => nround 4 (nsub (Fin (r4 (mean f p))) (nmul (Fin (o_sqrt o (variance f p))) w))).
  Proof.
    unfold bb_lower. rewrite nth_sround. unfold ssub. rewrite nth_szip_any, nth_smap_any by (try reflexivity; leq s).
    exact (rolled_map2 x p k _ _ _ _ (fun a b => nround 4 (nsub a (nmul b w))) eq_refl bb_middle_rolled (rolled_std (o_sqrt o) p s k P)).
  Qed.
  Lemma env_rolled w : rolled x p k (nth k (sround 4 (scale w (roll_mean p s))) NaN) (fun f => nround 4 (nmul w (Fin (mean f p)))).
  Proof.
    rewrite nth_sround. unfold scale. rewrite nth_smap_any by (destruct w; reflexivity).
    apply (rolled_map x p k _ _ (fun a => nround 4 (nmul w a))); [destruct w; reflexivity|]. apply rolled_mean; auto.
  Qed.
End Bands.
Lemma total_nonneg f n : (forall j, (j < n)%nat -> 0 <= f j) -> 0 <= total f n.
Proof.
  induction n; intro H; cbn [total]; [apply Qcle_refl|]. assert (0 <= total f n) by auto. assert (0 <= f n) by auto. qlra.
Qed.
Lemma variance_nonneg f n : 0 <= variance f n.
Proof.
  unfold variance at 1. unfold mean at 1. destruct n; [cbn; apply Qcle_refl|].
  apply qcdiv_nonneg; [|apply qnat_pos; lia]. apply total_nonneg. intros j _. generalize (f j - mean f (S n)). intro t. qnra.
Qed.
Lemma present_le_fin a b : a <= b -> present_le (Fin a) (Fin b).
Proof. intro H. right. right. apply nleb_fin. exact H. Qed.
Lemma pos_cases w : nltb (F 0) w = true -> w = PInf \/ exists a, w = Fin a /\ 0 < a.
Proof. destruct w; try discriminate; auto. intro H. cbn in H. apply qltb_iff in H. right. exists q. auto. Qed.
Lemma bb_ordered o p w s k : (0 < p)%nat -> nltb (F 0) w = true -> good_sqrt o ->
  present_le (nth k (bb_lower o p w s) NaN) (nth k (bb_middle p s) NaN) /\
  present_le (nth k (bb_middle p s) NaN) (nth k (bb_upper o p w s) NaN).
Proof.
  intros P W G. destruct (bb_middle_rolled p s k P) as [M1 M2]. destruct (bb_upper_rolled p s k P o w) as [U1 U2].
  destruct (bb_lower_rolled p s k P o w) as [L1 L2].
  destruct (win_dec s p k P) as [(A & B & C)|N]; [|rewrite M2 by auto; split; [right|]; left; reflexivity].
  set (f := fun j => val s (S k - p + j)). assert (F : win (fun j => nth j s NaN) p k f).
  { split; auto. intros j J. apply fin0_fin. apply C. lia. }
  rewrite (M1 f), (U1 f), (L1 f) by auto. assert (SQ : 0 <= o_sqrt o (variance f p)) by (apply G, variance_nonneg).
  set (m := mean f p). set (sd := o_sqrt o (variance f p)) in *.
  destruct (pos_cases w W) as [->|(a & -> & PA)].
  - cbn. unfold infmul. destruct (qeqb_spec sd 0) as [E|E]; [split; [left|right; left]; reflexivity|].
    replace (qltb 0 sd) with true by (symmetry; apply qltb_iff; apply qc_nonneg_neq0_pos; auto).
    cbn. split; right; right; reflexivity.
  - cbn. assert (0 <= sd * a) by qnra. unfold r4. rewrite <- (qround_idem 4 m) at 2 3. split; apply present_le_fin; apply qround_mono; qlra.
Qed.
Lemma bb_symmetric o p w s k u m l : (0 < p)%nat -> nth k (bb_upper o p w s) NaN = Fin u -> nth k (bb_middle p s) NaN = Fin m ->
  nth k (bb_lower o p w s) NaN = Fin l -> u - m = m - l.
Proof.
  intros P EU EM EL. destruct (bb_middle_rolled p s k P) as [M1 M2]. destruct (bb_upper_rolled p s k P o w) as [U1 U2].
  destruct (bb_lower_rolled p s k P o w) as [L1 L2].
  destruct (win_dec s p k P) as [(A & B & C)|N]; [|rewrite M2 in EM by auto; discriminate].
  set (f := fun j => val s (S k - p + j)). assert (F : win (fun j => nth j s NaN) p k f).
  { split; auto. intros j J. apply fin0_fin. apply C. lia. }
  rewrite (M1 f) in EM by auto. rewrite (U1 f) in EU by auto. rewrite (L1 f) in EL by auto.
  apply Fin_inj in EM. rewrite EM in *. destruct w as [| | |a]; try discriminate EU;
    try (cbn in EU; unfold infmul in EU; destruct (qeqb _ _) in EU; try discriminate EU; destruct (Bool.eqb _ _) in EU; discriminate EU).
  cbn in EU, EL. apply Fin_inj in EU, EL. set (d := o_sqrt o (variance f p) * a) in *.
  assert (R : qround 4 (m + d) + qround 4 (m - d) = m + m) by (apply qround_reflect; rewrite <- EM; apply qround_decimals).
  unfold Qcminus in R at 1. rewrite EU, EL in R. replace u with (u + l - l) by ring. rewrite R. ring.
Qed.
Lemma mean_nonneg f n : (0 < n)%nat -> (forall j, (j < n)%nat -> 0 <= f j) -> 0 <= mean f n.
Proof. intros P H. apply qcdiv_nonneg; [apply total_nonneg; auto|apply qnat_pos; auto]. Qed.
Lemma env_ordered p a s k : (0 < p)%nat -> 0 < a -> (forall j, present_le (F 0) (nth j s NaN)) ->
  present_le (nth k (env_lower p (Fin a) s) NaN) (nth k (env_upper p (Fin a) s) NaN).
Proof.
  intros P A NN. destruct (env_rolled p s k P (nadd (F 1) (Fin a))) as [U1 U2]. destruct (env_rolled p s k P (nsub (F 1) (Fin a))) as [L1 L2].
  fold (env_upper p (Fin a) s) in U1, U2. fold (env_lower p (Fin a) s) in L1, L2.
  destruct (win_dec s p k P) as [(B & C & D)|N]; [|rewrite U2 by auto; right; left; reflexivity].
  set (f := fun j => val s (S k - p + j)). assert (F : win (fun j => nth j s NaN) p k f).
  { split; auto. intros j J. apply fin0_fin. apply D. lia. }
  rewrite (U1 f), (L1 f) by auto. cbn. apply present_le_fin. apply qround_mono.
  assert (0 <= mean f p).
  { apply mean_nonneg; auto. intros j J. destruct F as [_ F]. specialize (F j J). cbv beta in F.
    destruct (NN (S k - p + j)%nat) as [X|[X|X]]; [discriminate|rewrite X in F; discriminate|]. rewrite F in X. apply nleb_fin in X. exact X. }
  change (Q2Qc (inject_Z 1)) with 1. qnra.
Qed.

(** ** extremes of a window *)
Lemma in_fins q l : In q (fins l) <-> In (Fin q) l.
Proof.
  induction l as [|[| | |x] l IH]; cbn; try (rewrite IH; split; [auto|intros [H|H]; [discriminate|auto]]); [tauto|].
  rewrite IH. split; intros [H|H]; auto; left; [subst; reflexivity|apply Fin_inj in H; auto].
Qed.
Lemma in_window w k (s : series) x : (0 < w)%nat -> (k < length s)%nat -> In x (window w k s) <-> exists j, (S k - w <= j <= k)%nat /\ nth j s NaN = x.
Proof.
  intros W L. split.
  - intro H. apply (In_nth _ _ NaN) in H as (i & I & <-). rewrite window_len in I by auto.
    exists (S k - w + i)%nat. split; [lia|]. symmetry. apply nth_window; lia.
  - intros (j & J & <-). replace (nth j s NaN) with (nth (j - (S k - w)) (window w k s) NaN).
    + apply nth_In. rewrite window_len by auto. lia.
    + rewrite nth_window by lia. f_equal. lia.
Qed.
Section Extremes.
  Variables (w k : nat) (s : series).
  Hypothesis W : (0 < w)%nat.
  Hypothesis L : (k < length s)%nat.
  Notation x := (fun j => nth j s NaN).
  Lemma roll_max_any : (exists M, highest x (S k - w) k M /\ nth k (roll_max w 1 s) NaN = Fin M) \/
    (none_finite x (S k - w) k /\ nth k (roll_max w 1 s) NaN = NaN).
  Proof.
    unfold roll_max. rewrite nth_rolling by auto. destruct (fins (window w k s)) as [|a l] eqn:E.
    - right. split; [|reflexivity]. intros j J. destruct (nth j s NaN) eqn:X; auto.
      assert (In q (fins (window w k s))) as I by (apply in_fins, in_window; eauto). rewrite E in I. destruct I.
    - left. destruct (agg_max_spec (a :: l) ltac:(discriminate)) as (M & EM & I & U). exists M. split; [split|].
      + rewrite <- E in I. apply in_fins, in_window in I; auto.
      + intros j q J X. apply U. rewrite <- E. apply in_fins, in_window; eauto.
      + exact EM.
  Qed.
  Lemma roll_min_any : (exists M, lowest x (S k - w) k M /\ nth k (roll_min w 1 s) NaN = Fin M) \/
    (none_finite x (S k - w) k /\ nth k (roll_min w 1 s) NaN = NaN).
  Proof.
    unfold roll_min. rewrite nth_rolling by auto. destruct (fins (window w k s)) as [|a l] eqn:E.
    - right. split; [|reflexivity]. intros j J. destruct (nth j s NaN) eqn:X; auto.
      assert (In q (fins (window w k s))) as I by (apply in_fins, in_window; eauto). rewrite E in I. destruct I.
    - left. destruct (agg_min_spec (a :: l) ltac:(discriminate)) as (M & EM & I & U). exists M. split; [split|].
      + rewrite <- E in I. apply in_fins, in_window in I; auto.
      + intros j q J X. apply U. rewrite <- E. apply in_fins, in_window; eauto.
      + exact EM.
  Qed.
End Extremes.
Lemma roll_max_full p s k : (0 < p)%nat -> (k < length s)%nat ->
  (exists M, (p <= S k)%nat /\ (forall j, (S k - p <= j <= k)%nat -> isfin (nth j s NaN) = true) /\
     highest (fun j => nth j s NaN) (S k - p) k M /\ nth k (roll_max p p s) NaN = Fin M) \/
  (((S k < p)%nat \/ exists j, (S k - p <= j <= k)%nat /\ isfin (nth j s NaN) = false) /\ nth k (roll_max p p s) NaN = NaN).
Proof.
  intros P L. destruct (roll_max_view p s k (length s) eq_refl L P) as [E|(M & E & A & B & j & J & V)].
  - right. split; auto. destruct (Nat.lt_ge_cases (S k) p) as [X|X]; auto. right.
    destruct (forallb (fun j => isfin (nth j s NaN)) (seq (S k - p) p)) eqn:FA.
    + exfalso. unfold roll_max in E. rewrite (roll_defined p agg_max s k (length s)) in E; auto.
      * destruct (agg_max_spec (wvals s p k)) as (m & EM & _); [apply wvals_nil; auto|]. congruence.
      * intros j J. rewrite forallb_forall in FA. apply FA. apply in_seq. lia.
    + apply not_true_iff_false in FA. destruct (existsb (fun j => negb (isfin (nth j s NaN))) (seq (S k - p) p)) eqn:EX.
      * apply existsb_exists in EX as (j & J & N). apply in_seq in J. exists j. split; [lia|]. apply negb_true_iff in N. exact N.
      * exfalso. apply FA. apply forallb_forall. intros j J. apply not_true_iff_false in EX.
        destruct (isfin (nth j s NaN)) eqn:Q; auto. exfalso. apply EX. apply existsb_exists. exists j. rewrite Q. auto.
  - left. exists M. split; auto. split; [intros i I; rewrite (proj1 (B i I)); reflexivity|]. split; auto. split.
    + exists j. split; auto. rewrite (proj1 (B j J)), V. reflexivity.
    + intros i q I X. destruct (B i I) as [B1 B2]. rewrite X in B1. apply Fin_inj in B1. subst q. auto.
Qed.
Lemma roll_min_full p s k : (0 < p)%nat -> (k < length s)%nat ->
  (exists M, (p <= S k)%nat /\ (forall j, (S k - p <= j <= k)%nat -> isfin (nth j s NaN) = true) /\
     lowest (fun j => nth j s NaN) (S k - p) k M /\ nth k (roll_min p p s) NaN = Fin M) \/
  (((S k < p)%nat \/ exists j, (S k - p <= j <= k)%nat /\ isfin (nth j s NaN) = false) /\ nth k (roll_min p p s) NaN = NaN).
Proof.
  intros P L. destruct (roll_min_view p s k (length s) eq_refl L P) as [E|(M & E & A & B & j & J & V)].
  - right. split; auto. destruct (Nat.lt_ge_cases (S k) p) as [X|X]; auto. right.
    destruct (forallb (fun j => isfin (nth j s NaN)) (seq (S k - p) p)) eqn:FA.
    + exfalso. unfold roll_min in E. rewrite (roll_defined p agg_min s k (length s)) in E; auto.
      * destruct (agg_min_spec (wvals s p k)) as (m & EM & _); [apply wvals_nil; auto|]. congruence.
      * intros j J. rewrite forallb_forall in FA. apply FA. apply in_seq. lia.
    + apply not_true_iff_false in FA. destruct (existsb (fun j => negb (isfin (nth j s NaN))) (seq (S k - p) p)) eqn:EX.
      * apply existsb_exists in EX as (j & J & N). apply in_seq in J. exists j. split; [lia|]. apply negb_true_iff in N. exact N.
      * exfalso. apply FA. apply forallb_forall. intros j J. apply not_true_iff_false in EX.
        destruct (isfin (nth j s NaN)) eqn:Q; auto. exfalso. apply EX. apply existsb_exists. exists j. rewrite Q. auto.
  - left. exists M. split; auto. split; [intros i I; rewrite (proj1 (B i I)); reflexivity|]. split; auto. split.
    + exists j. split; auto. rewrite (proj1 (B j J)), V. reflexivity.
    + intros i q I X. destruct (B i I) as [B1 B2]. rewrite X in B1. apply Fin_inj in B1. subst q. auto.
Qed.
Lemma ich_mid_midpoint w h l k : (0 < w)%nat -> length h = length l -> (k < length h)%nat ->
  midpoint (fun j => nth j h NaN) (fun j => nth j l NaN) (S k - w) k (nth k (ich_mid w h l) NaN).
Proof.
  intros W E L. unfold ich_mid, sdivc, sadd. rewrite nth_smap_any by reflexivity.
  rewrite nth_szip_any by (try reflexivity; rewrite ?len_rolling; unfold roll_max, roll_min; rewrite ?len_rolling; auto).
  destruct (roll_max_any w k h W L) as [(M & HM & ->)|(N & ->)]; [|right; split; auto].
  destruct (roll_min_any w k l W ltac:(lia)) as [(m & Hm & ->)|(N & ->)]; [|right; split; auto].
  left. exists M, m. split; auto.
Qed.
