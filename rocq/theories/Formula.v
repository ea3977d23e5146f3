(** * Formula: each indicator's column on complete data is the textbook formula. *)
From Coq Require Import ZArith QArith Qcanon Bool List String PeanoNat Lia.
From Verif Require Import Num NumFacts RoundFacts Pandas Frame Ind SeriesFacts Lengths Cells RangeSpec RangeFacts RangeMore Signal Api ApiSpec IndSpec ValueSpec ValueFacts ValueMore Recur FormulaSpec Starts.
Import ListNotations.
Open Scope list_scope. Open Scope Qc_scope.

Lemma rn_fin q : rn (Fin q) = Fin (r4 q). Proof. reflexivity. Qed.
Lemma zq_pos z : (0 < z)%Z -> 0 < zq z.
Proof. intro H. unfold zq, Qclt. rewrite Zlt_Qlt in H. rewrite (this_Q2Qc (inject_Z z)). exact H. Qed.
Lemma zq_neq0 z : z <> 0%Z -> zq z <> 0.
Proof. intros H E. apply H. apply (f_equal this) in E. unfold zq in E. cbn [this Q2Qc] in E. assert (Q : (inject_Z z == inject_Z 0)%Q) by (rewrite <- (Qred_correct (inject_Z z)), E; reflexivity). apply (proj1 (inject_Z_injective _ _)) in Q. exact Q. Qed.
Lemma ratio_scale q a b : 0 < q -> nmul (Fin q) (ratio a b) = ratio (q * a) b.
Proof.
  intro Q. unfold ratio, ndiv. destruct (qeqb b 0) eqn:E.
  - replace (qeqb (q * a) 0) with (qeqb a 0).
    + destruct (qeqb a 0) eqn:A; [reflexivity|]. replace (qltb 0 (q * a)) with (qltb 0 a).
      * cbn. unfold infmul. rewrite (proj2 (qeqb_false _ _) (qc_pos_neq0 _ Q)). rewrite (proj2 (qltb_iff _ _) Q). destruct (qltb 0 a); reflexivity.
      * apply eq_true_iff_eq. rewrite !qltb_iff. split; intro H; [qnra|].
        apply Qcnot_le_lt. intro C. apply (Qclt_not_le _ _ H). qnra.
    + apply eq_true_iff_eq. rewrite !qeqb_iff. split; intro H; [rewrite H; ring|].
      apply Qcmult_integral in H as [H|H]; auto. apply qc_pos_neq0 in Q. contradiction.
  - cbn. f_equal. field. apply qeqb_false. exact E.
Qed.
Ltac fromcases :=
  unfold from; repeat match goal with |- context [(?a <? ?b)%nat] => destruct (Nat.ltb_spec a b) end; try lia; try reflexivity.

Section Close.
  Variables (n k : nat) (c : series) (x : nat -> Qc).
  Hypothesis C : complete_as n c x.
  Hypothesis K : (k < n)%nat.
  Let C0 : starts n 0 c x := st_complete n c x C.

  Lemma roll_mean_at p : (0 < p)%nat -> nth k (sround 4 (roll_mean p c)) NaN = from (p - 1) k (Fin (r4 (mean_last x p k))).
  Proof. intro P. eapply st_end; [apply st_round, st_roll_mean; eauto|auto|lia|reflexivity]. Qed.
  Lemma ewm_at p : (0 < p)%nat -> nth k (sround 4 (ewm p p c)) NaN = from (p - 1) k (Fin (r4 (ema_from 0 p x k))).
  Proof. intro P. eapply st_end; [apply st_round, st_ewm; eauto|auto|lia|reflexivity]. Qed.
  Lemma triangular_at p : (0 < p)%nat -> nth k (sround 4 (roll_mean p (roll_mean p c))) NaN = from (2 * (p - 1)) k (Fin (r4 (mean_last (mean_last x p) p k))).
  Proof. intro P. eapply st_end; [apply st_round, st_roll_mean; [apply st_roll_mean|]; eauto|auto|lia|reflexivity]. Qed.
  Lemma dema_at p : (0 < p)%nat ->
    let e := ema_from 0 p x in let e2 := ema_from (p - 1) p e in
    nth k (dema p c) NaN = from (2 * (p - 1)) k (Fin (r4 (zq 2 * e k - e2 k))).
  Proof.
    intros P e e2. unfold dema. eapply st_end.
    - apply st_round, st_sub; [apply st_scale|apply st_ewm; auto]; apply st_ewm; eauto.
    - auto. - lia. - reflexivity.
  Qed.
  Lemma tema_at p : (0 < p)%nat ->
    let e := ema_from 0 p x in let e2 := ema_from (p - 1) p e in let e3 := ema_from (2 * (p - 1)) p e2 in
    nth k (tema p c) NaN = from (3 * (p - 1)) k (Fin (r4 (zq 3 * e k - zq 3 * e2 k + e3 k))).
  Proof.
    intros P e e2 e3. unfold tema.
    assert (E1 : starts n (p - 1) (ewm p p c) e) by (replace (p - 1)%nat with (0 + p - 1)%nat by lia; apply st_ewm; auto).
    assert (E2 : starts n (2 * (p - 1)) (ewm p p (ewm p p c)) e2) by (replace (2 * (p - 1))%nat with ((p - 1) + p - 1)%nat by lia; apply st_ewm; auto).
    assert (E3 : starts n (3 * (p - 1)) (ewm p p (ewm p p (ewm p p c))) e3) by (replace (3 * (p - 1))%nat with ((2 * (p - 1)) + p - 1)%nat by lia; apply st_ewm; auto).
    eapply st_end.
    - apply st_round, st_add; [apply st_sub; apply st_scale; eauto|eauto].
    - auto. - lia. - reflexivity.
  Qed.
  Lemma macd_raw_st : starts n 25 (macd_raw c) (fun j => r4 (ema_from 0 12 x j) - r4 (ema_from 0 26 x j)).
  Proof. unfold macd_raw. apply (st_sub n 11 25); apply st_round; [apply (st_ewm n 0 12 12)|apply (st_ewm n 0 26 26)]; auto; lia. Qed.
  Lemma macd_at : let m j := r4 (ema_from 0 12 x j) - r4 (ema_from 0 26 x j) in
    nth k (macd c) NaN = from 25 k (Fin (r4 (m k))) /\ nth k (macd_signal c) NaN = from 33 k (Fin (r4 (ema_from 25 9 m k))).
  Proof.
    split; eapply st_end.
    - apply st_round, macd_raw_st. - auto. - auto. - reflexivity.
    - apply st_round, st_ewm; [apply macd_raw_st|lia]. - auto. - auto. - reflexivity.
  Qed.
  Lemma posc_at lg sh : (0 < lg)%nat -> (0 < sh)%nat ->
    nth k (price_osc lg sh c) NaN = from (Nat.max lg sh - 1) k (rn (ratio (zq 100 * (mean_last x sh k - mean_last x lg k)) (mean_last x lg k))).
  Proof.
    intros A B. unfold price_osc. rewrite nth_sround.
    pose proof (st_roll_mean n 0 lg c x C0 A) as L. pose proof (st_roll_mean n 0 sh c x C0 B) as S1.
    pose proof (st_len _ _ _ _ L). pose proof (st_len _ _ _ _ S1).
    unfold sdiv, scale, ssub. cell. rewrite (st_cell _ _ _ _ k L), (st_cell _ _ _ _ k S1) by auto. fromcases.
  Qed.
  Lemma sd_at o p : (0 < p)%nat -> nth k (sd o p c) NaN = from (p - 1) k (Fin (r4 (o_sqrt o (variance (fun j => x (S k - p + j)%nat) p)))).
  Proof. intro P. unfold sd. eapply st_end; [apply st_round, st_roll_std; eauto|auto|lia|reflexivity]. Qed.
  Lemma cmo_at p : (0 < p)%nat ->
    let u := sum_last (fun j => gain (change 1 x j)) p k in let d := sum_last (fun j => loss (change 1 x j)) p k in
    nth k (cmo p c) NaN = from p k (rn (ratio (zq 100 * (u - d)) (u + d))).
  Proof.
    intros P u d. unfold cmo. rewrite nth_sround.
    assert (U : starts n p (roll_sum p (drop_neg (sdiff c))) (sum_last (fun j => gain (change 1 x j)) p)).
    { replace p with (1 + p - 1)%nat at 1 by lia. apply st_roll_sum; auto. apply st_drop_neg, st_diff. auto. }
    assert (D : starts n p (sabs (roll_sum p (drop_pos (sdiff c)))) (sum_last (fun j => loss (change 1 x j)) p)).
    { pose proof (st_abs _ _ _ _ (st_roll_sum _ _ p _ _ (st_drop_pos _ _ _ _ (st_diff n c x C0)) P)) as D0.
      replace (1 + p - 1)%nat with p in D0 by lia. apply (st_ext _ _ _ _ _ D0).
      intros j _ _. cbv beta. unfold sum_last.
      assert (E : forall m, total (fun i => - loss (change 1 x (S j - p + i))) m = - total (fun i => loss (change 1 x (S j - p + i))) m).
      { induction m as [|m IH]; cbn [total]; [ring|rewrite IH; ring]. }
      rewrite E. assert (N : 0 <= total (fun i => loss (change 1 x (S j - p + i))) p).
      { apply total_nonneg. intros i _. unfold loss. destruct (qltb_spec (change 1 x (S j - p + i)) 0); qlra. }
      unfold abs. destruct (qltb_spec (- total (fun i => loss (change 1 x (S j - p + i))) p) 0) as [X|X]; [ring|]. apply Qcnot_lt_le in X.
      apply Qcle_antisym; qlra. }
    pose proof (st_len _ _ _ _ U). pose proof (st_len _ _ _ _ D).
    set (us := roll_sum p (drop_neg (sdiff c))) in *. set (ds := sabs (roll_sum p (drop_pos (sdiff c)))) in *.
    unfold sdiv, scale, ssub, sadd. cell. rewrite (st_cell _ _ _ _ k U), (st_cell _ _ _ _ k D) by auto. fromcases.
  Qed.
  Lemma vhf_at p : (0 < p)%nat ->
    nth k (vhf p c) NaN = from p k (rn (ratio (max_last x p k - min_last x p k) (sum_last (fun j => abs (change 1 x j)) p k))).
  Proof.
    intro P. unfold vhf. rewrite nth_sround.
    pose proof (st_roll_max n 0 p c x C0 P) as M. pose proof (st_roll_min n 0 p c x C0 P) as M'.
    assert (A : starts n p (roll_sum p (sabs (ssub c (shift 1 c)))) (sum_last (fun j => abs (change 1 x j)) p)).
    { replace p with (1 + p - 1)%nat at 1 by lia. apply st_roll_sum; auto. apply st_abs, (st_diff n c x C0). }
    pose proof (st_len _ _ _ _ M). pose proof (st_len _ _ _ _ M'). pose proof (st_len _ _ _ _ A).
    set (q := roll_sum p (sabs (ssub c (shift 1 c)))) in *.
    unfold sdiv, sabs, ssub. cell. rewrite (st_cell _ _ _ _ k M), (st_cell _ _ _ _ k M'), (st_cell _ _ _ _ k A) by auto. fromcases.
    cbn [nsub nneg nadd nabs]. unfold ratio, rn. do 3 f_equal. unfold qabs. change (max_last x p k + - min_last x p k) with (max_last x p k - min_last x p k).
    destruct (qltb_spec (max_last x p k - min_last x p k) 0) as [X|X]; [exfalso|reflexivity].
    destruct (max_to_spec x (S k - p) (p - 1)) as [_ U]. destruct (min_to_spec x (S k - p) (p - 1)) as [_ V].
    specialize (U (S k - p)%nat ltac:(lia)). specialize (V (S k - p)%nat ltac:(lia)). unfold max_last, min_last in X.
    apply (Qclt_not_le _ _ X). qlra.
  Qed.
  Lemma ws_at p : (0 < p)%nat ->
    nth k (ws p c) NaN = from (p - 1) k (Fin (r4 (run_from (p - 1) (wilders p) (mean_last x p (p - 1)) x k))).
  Proof.
    intro P. unfold ws. eapply st_end; [apply st_round; eapply (st_seeded n 0 c x (p - 1)); eauto; [lia| |intros; apply wilder_fin; auto]|auto|auto|reflexivity].
    intro L. rewrite (st_mean_skip n 0 c x p C0) by lia. f_equal. unfold mean_last, sum_last. rewrite Nat.sub_0_r. f_equal.
    apply total_ext. intros j J. f_equal. lia.
  Qed.
  Lemma vrc_at p : nth k (vrc p c) NaN = from p k (rn (ratio (zq 100 * change p x k) (x (k - p)%nat))).
  Proof.
    unfold vrc. rewrite nth_sround. destruct C as [L H]. unfold scale, sdiv, ssub. cell. unfold from. destruct (Nat.ltb_spec k p).
    - rewrite H by lia. reflexivity.
    - rewrite !H by lia. cbn [nsub nneg nadd]. change (F 100) with (Fin (zq 100)). change (ndiv (Fin ?a) (Fin ?b)) with (ratio a b).
      rewrite ratio_scale by (apply zq_pos; reflexivity). reflexivity.
  Qed.
  Lemma vosc_at lg sh : (0 < lg)%nat -> (0 < sh)%nat ->
    nth k (vosc lg sh c) NaN = from (Nat.max lg sh - 1) k (Fin (r4 (mean_last x sh k - mean_last x lg k))).
  Proof. intros A B. unfold vosc. eapply st_end; [apply st_round, st_sub; apply st_roll_mean; eauto|auto|lia|reflexivity]. Qed.
  Lemma prf_at : nth k (prf c) NaN = rn (ratio (x k - x O) (x O)).
  Proof. unfold prf. rewrite nth_sround. destruct C as [L H]. cell. rewrite !H by lia. reflexivity. Qed.
End Close.
