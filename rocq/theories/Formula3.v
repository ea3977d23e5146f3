(** * Formula3: formulas of the smoothed indicators. *)
From Coq Require Import ZArith QArith Qcanon Bool List String PeanoNat Lia.
From Verif Require Import Num NumFacts RoundFacts Pandas Frame Ind SeriesFacts Lengths Cells RangeSpec RangeFacts RangeMore Signal Api ApiSpec IndSpec ValueSpec ValueFacts ValueMore Recur FormulaSpec Starts Formula Formula2.
Import ListNotations.
Open Scope list_scope. Open Scope Qc_scope.

Lemma run_nonneg g q f m : 0 <= q -> (forall x j, (1 <= j <= m)%nat -> 0 <= x -> 0 <= g x (f j)) -> 0 <= run g q f m.
Proof. intro Q. induction m; intro H; cbn [run]; auto. apply H; [lia|]. apply IHm. intros; apply H; auto; lia. Qed.
Lemma wilders_nonneg p x y : (0 < p)%nat -> 0 <= x -> 0 <= y -> 0 <= wilders p x y.
Proof.
  intros P X Y. unfold wilders. assert (N : 0 < nq p) by (apply qnat_pos; auto).
  replace (x + (y - x) / nq p) with ((x * (nq p - 1) + y) / nq p) by (field; apply nn_pos; auto).
  apply qcdiv_nonneg; auto. assert (0 <= nq p - 1).
  { destruct p as [|p]; [lia|]. change (nq (S p)) with (qnat (S p)). rewrite qnat_S. pose proof (qnat_nonneg p). qlra. }
  qnra.
Qed.
Lemma gain_nonneg d : 0 <= gain d.
Proof. unfold gain. destruct (qltb_spec 0 d); [apply Qclt_le_weak; auto|apply Qcle_refl]. Qed.
Lemma loss_nonneg d : 0 <= loss d.
Proof. unfold loss. destruct (qltb_spec d 0); [qlra|apply Qcle_refl]. Qed.
Lemma r4_nonneg q : 0 <= q -> 0 <= r4 q.
Proof. intro H. unfold r4. replace 0 with (qround 4 0) by (apply Qc_is_canon; reflexivity). apply qround_mono. auto. Qed.
Lemma r4_0 : r4 0 = 0. Proof. apply Qc_is_canon. reflexivity. Qed.
(** 100 - 100 / (u/d + 1) is 100 u / (u + d), also when d = 0 *)
Lemma rsi_ratio u d : 0 <= u -> 0 <= d -> nsub (F 100) (ndiv (F 100) (nadd (ratio u d) (F 1))) = ratio (zq 100 * u) (u + d).
Proof.
  intros U D. change (F 100) with (Fin (zq 100)). change (F 1) with (Fin 1). unfold ratio. unfold ndiv at 2. destruct (qeqb d 0) eqn:E.
  - apply qeqb_iff in E. subst d. replace (u + 0) with u by ring. destruct (qeqb u 0) eqn:X.
    + apply qeqb_iff in X. subst u. cbn. replace (zq 100 * 0) with 0 by ring. reflexivity.
    + assert (u <> 0) by (apply qeqb_false; auto). assert (0 < u) by (apply Qcnot_le_lt; intro Y; apply H; apply Qcle_antisym; auto).
      rewrite (proj2 (qltb_iff _ _) H0). rewrite (ndiv_fin _ u) by auto. transitivity (Fin (zq 100 - 0)); [reflexivity|]. f_equal. field. auto.
  - assert (N : d <> 0) by (apply qeqb_false; auto). assert (0 < d) by (apply Qcnot_le_lt; intro Y; apply N; apply Qcle_antisym; auto).
    assert (P : u + d <> 0) by (apply qc_pos_neq0; qlra).
    assert (P' : u / d + 1 <> 0).
    { intro Y. apply P. replace (u + d) with ((u / d + 1) * d) by (field; auto). rewrite Y. ring. }
    cbn [nadd]. rewrite !ndiv_fin by auto. cbn [nsub nneg nadd]. f_equal. field. split; auto.
Qed.
Lemma rmi_ratio u d : 0 <= u -> 0 <= d -> ndiv (nmul (F 100) (ratio u d)) (nadd (ratio u d) (F 1)) = if qeqb d 0 then NaN else Fin (zq 100 * u / (u + d)).
Proof.
  intros U D. change (F 100) with (Fin (zq 100)). change (F 1) with (Fin 1). unfold ratio. unfold ndiv at 2 3. destruct (qeqb d 0) eqn:E.
  - apply qeqb_iff in E. subst d. destruct (qeqb u 0) eqn:X; [reflexivity|].
    assert (u <> 0) by (apply qeqb_false; auto). assert (0 < u) by (apply Qcnot_le_lt; intro Y; apply H; apply Qcle_antisym; auto).
    rewrite (proj2 (qltb_iff _ _) H0). reflexivity.
  - assert (N : d <> 0) by (apply qeqb_false; auto). assert (0 < d) by (apply Qcnot_le_lt; intro Y; apply N; apply Qcle_antisym; auto).
    assert (P : u + d <> 0) by (apply qc_pos_neq0; qlra).
    assert (P' : u / d + 1 <> 0).
    { intro Y. apply P. replace (u + d) with ((u / d + 1) * d) by (field; auto). rewrite Y. ring. }
    cbn [nadd nmul]. rewrite ndiv_fin by auto. f_equal. field. split; auto.
Qed.

Section Close.
  Variables (n k : nat) (c : series) (x : nat -> Qc).
  Hypothesis C : complete_as n c x.
  Hypothesis K : (k < n)%nat.
  Let C0 : starts n 0 c x := st_complete n c x C.
  Let LC := st_len _ _ _ _ C0.

  Lemma rsi_up_st : starts n 1 (rsi_up c) (fun j => r4 (gain (change 1 x j))).
  Proof.
    split; [lens|]. intros j J. unfold rsi_up. cell. unfold from. destruct (Nat.ltb_spec j 1); auto.
    rewrite !(proj2 C) by lia. cbn. unfold gain, change. destruct (qltb_spec (x (j - 1)%nat) (x j)) as [A|A], (qltb_spec 0 (x j - x (j - 1)%nat)) as [B|B]; auto; exfalso;
      try (apply Qcnot_lt_le in A); try (apply Qcnot_lt_le in B); qlra.
  Qed.
  Lemma rsi_dn_st : starts n 1 (rsi_dn c) (fun j => r4 (loss (change 1 x j))).
  Proof.
    split; [lens|]. intros j J. unfold rsi_dn. cell. unfold from. destruct (Nat.ltb_spec j 1); auto.
    rewrite !(proj2 C) by lia. cbn. unfold loss, change. destruct (qltb_spec (x j) (x (j - 1)%nat)) as [A|A], (qltb_spec (x j - x (j - 1)%nat) 0) as [B|B]; auto;
      try (apply Qcnot_lt_le in A); try (apply Qcnot_lt_le in B); try (exfalso; qlra).
    cbn [nround]. unfold r4. f_equal. f_equal. ring.
  Qed.
  Lemma rsi_smooth_st p s f : (0 < p)%nat -> starts n 1 s f ->
    starts n p (rsi_smooth p s) (run_from p (fun prev y => r4 (wilders p prev y)) (mean_last f p p) f).
  Proof.
    intros P S0. unfold rsi_smooth. apply (st_seeded n 1 s f); [auto|lia| |].
    - intro L. rewrite (st_mean_skip n 1 s f (S p) S0) by lia. unfold mean_last, sum_last. replace (S p - 1)%nat with p by lia. replace (S p - p)%nat with 1%nat by lia. reflexivity.
    - intros a b. rewrite wilder_fin by auto. reflexivity.
  Qed.
  Lemma rsi_at p : (0 < p)%nat ->
    let avg f := run_from p (fun prev y => r4 (wilders p prev y)) (mean_last f p p) f k in
    let u := avg (fun j => r4 (gain (change 1 x j))) in let d := avg (fun j => r4 (loss (change 1 x j))) in
    nth k (rsi p c) NaN = from p k (rn (ratio (zq 100 * u) (u + d))).
  Proof.
    intros P avg u d. unfold rsi. rewrite nth_sround.
    pose proof (rsi_smooth_st p _ _ P rsi_up_st) as U. pose proof (rsi_smooth_st p _ _ P rsi_dn_st) as D.
    pose proof (st_len _ _ _ _ U). pose proof (st_len _ _ _ _ D).
    set (us := rsi_smooth p (rsi_up c)) in *. set (ds := rsi_smooth p (rsi_dn c)) in *.
    unfold sdiv. cell. rewrite (st_cell _ _ _ _ k U), (st_cell _ _ _ _ k D) by auto. fold (avg (fun j => r4 (gain (change 1 x j)))). fold (avg (fun j => r4 (loss (change 1 x j)))). fold u d.
    assert (NN : forall f, (forall j, 0 <= f j) -> 0 <= avg f).
    { intros f F0. unfold avg, run_from. apply run_nonneg.
      - unfold mean_last. apply qcdiv_nonneg; [apply total_nonneg; auto|apply qnat_pos; auto].
      - intros y j _ Y. apply r4_nonneg, wilders_nonneg; auto. }
    unfold from. destruct (Nat.ltb_spec k p); [reflexivity|]. unfold rn. f_equal. apply rsi_ratio; apply NN; intro j; apply r4_nonneg; [apply gain_nonneg|apply loss_nonneg].
  Qed.
  Lemma rmi_up_st m : starts n m (rmi_up m c) (fun j => gain (change m x j)).
  Proof.
    pose proof (st_sub _ _ _ _ _ _ _ C0 (st_shift _ _ _ _ m C0)) as D. cbn [Nat.add Nat.max] in D. replace (Nat.max 0 m) with m in D by lia.
    apply (st_map _ _ _ _ _ _ D); auto. intros j _ _. cbn. unfold gain, change. change (Q2Qc (inject_Z 0)) with 0.
    destruct (qltb_spec 0 (x j - x (j - m)%nat)) as [A|A]; auto. apply Qcnot_lt_le in A.
    replace (nleb (Fin (x j - x (j - m)%nat)) (F 0)) with true; [reflexivity|]. symmetry. apply nleb_fin. exact A.
  Qed.
  Lemma rmi_dn_st m : starts n m (rmi_dn m c) (fun j => loss (change m x j)).
  Proof.
    pose proof (st_sub _ _ _ _ _ _ _ C0 (st_shift _ _ _ _ m C0)) as D. cbn [Nat.add Nat.max] in D. replace (Nat.max 0 m) with m in D by lia.
    apply (st_map _ _ _ _ _ _ D); auto. intros j _ _. cbn. unfold loss, change. change (Q2Qc (inject_Z 0)) with 0.
    destruct (qltb_spec (x j - x (j - m)%nat) 0) as [A|A].
    - unfold qabs. rewrite (proj2 (qltb_iff _ _) A). reflexivity.
    - apply Qcnot_lt_le in A. replace (nleb (F 0) (Fin (x j - x (j - m)%nat))) with true; [reflexivity|]. symmetry. apply nleb_fin. exact A.
  Qed.
  Lemma rmi_smooth_st p m s f : (0 < p)%nat -> starts n m s f ->
    starts n (p + m - 1) (rmi_smooth p m s) (wilder_from m p f).
  Proof.
    intros P S0. unfold rmi_smooth, wilder_from. replace (m + p - 1)%nat with (p + m - 1)%nat by lia. apply (st_seeded n m s f); [auto|lia| |intros; apply wilder_fin; auto].
    intro L. rewrite (st_mean_slice n m s f m (p + m) S0) by lia. unfold mean_last, sum_last. replace (p + m - m)%nat with p by lia.
    do 2 f_equal. apply total_ext. intros j J. f_equal. lia.
  Qed.
  Lemma rmi_at p m : (0 < p)%nat ->
    let avg f := wilder_from m p f k in
    let u := avg (fun j => gain (change m x j)) in let d := avg (fun j => loss (change m x j)) in
    nth k (rmi p m c) NaN = from (p + m - 1) k (if qeqb d 0 then NaN else Fin (r4 (zq 100 * u / (u + d)))).
  Proof.
    intros P avg u d. unfold rmi. rewrite nth_sround.
    pose proof (rmi_smooth_st p m _ _ P (rmi_up_st m)) as U. pose proof (rmi_smooth_st p m _ _ P (rmi_dn_st m)) as D.
    pose proof (st_len _ _ _ _ U). pose proof (st_len _ _ _ _ D).
    set (us := rmi_smooth p m (rmi_up m c)) in *. set (ds := rmi_smooth p m (rmi_dn m c)) in *.
    unfold sdiv, scale, saddc. cell. rewrite (st_cell _ _ _ _ k U), (st_cell _ _ _ _ k D) by auto.
    fold (avg (fun j => gain (change m x j))). fold (avg (fun j => loss (change m x j))). fold u d.
    assert (NN : forall f, (forall j, 0 <= f j) -> 0 <= avg f).
    { intros f F0. unfold avg, wilder_from, run_from. apply run_nonneg.
      - unfold mean_last. apply qcdiv_nonneg; [apply total_nonneg; auto|apply qnat_pos; auto].
      - intros y j _ Y. apply wilders_nonneg; auto. }
    unfold from. destruct (Nat.ltb_spec k (p + m - 1)); [reflexivity|]. change (ndiv (Fin u) (Fin d)) with (ratio u d).
    rewrite rmi_ratio by (apply NN; intro j; first [apply gain_nonneg|apply loss_nonneg]). destruct (qeqb d 0); reflexivity.
  Qed.
End Close.
