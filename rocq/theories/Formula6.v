(** * Formula6: forecast and projection oscillators, detrended price, Chaikin oscillator, variable average. *)
From Coq Require Import ZArith QArith Qcanon Bool List String PeanoNat Lia.
From Verif Require Import Num NumFacts RoundFacts Pandas Frame Ind SeriesFacts Lengths Cells RangeSpec RangeFacts RangeMore Signal Api ApiSpec IndSpec ValueSpec ValueFacts ValueMore Recur FormulaSpec Starts Formula Formula2 Formula3 Line Formula5.
Import ListNotations.
Open Scope list_scope. Open Scope Qc_scope.

Lemma moved_nonneg d : 0 <= gain d + loss d.
Proof. pose proof (gain_nonneg d). pose proof (loss_nonneg d). qlra. Qed.
Lemma moved_pos d : d <> 0 -> 0 < gain d + loss d.
Proof.
  intro N. unfold gain, loss. destruct (qltb_spec 0 d) as [A|A], (qltb_spec d 0) as [B|B]; try qlra.
  exfalso. apply N. apply Qcnot_lt_le in A. apply Qcnot_lt_le in B. apply Qcle_antisym; auto.
Qed.
Lemma qsub_eq0 a b : a - b = 0 -> a = b.
Proof. intro E. replace a with (a - b + b) by ring. rewrite E. ring. Qed.
Lemma nabs_fin a : nabs (Fin a) = Fin (abs a). Proof. reflexivity. Qed.
Lemma momentum_cell u d : u + d <> 0 ->
  nabs (ndiv (rn (ndiv (Fin (zq 100 * (u - d))) (Fin (u + d)))) (F 100)) = Fin (abs (r4 (zq 100 * (u - d) / (u + d)) / zq 100)).
Proof.
  intro N. rewrite ndiv_fin by exact N. rewrite rn_fin. change (F 100) with (Fin (zq 100)). rewrite ndiv_fin by (apply zq_neq0; lia). apply nabs_fin.
Qed.
Lemma weighted_cells n c x ws w sp : complete_as n c x -> later n 22 ws w -> forall m, (21 + m < n)%nat ->
  nth (21 + m) (seeded 21 (nth 21 c NaN) (fun prev (cv : num * num) =>
    nadd (nmul (nmul (Fin sp) (fst cv)) (snd cv)) (nmul (nsub (F 1) (nmul (Fin sp) (snd cv))) prev)) (combine c ws)) NaN
  = Fin (weighted (fun j => sp * w j) x m).
Proof.
  intros C W. assert (LX : length (combine c ws) = n) by (rewrite combine_length; destruct C, W; lia).
  induction m as [|m IH]; intro M.
  - rewrite seeded_at by lia. apply (proj2 C). lia.
  - replace (21 + S m)%nat with (S (21 + m)) by lia. rewrite (seeded_next _ _ _ _ (NaN, NaN)) by lia. rewrite IH by lia.
    rewrite combine_nth by (destruct C, W; lia). rewrite (proj2 C) by lia. rewrite (proj2 W) by lia. cbn [fst snd weighted]. change (F 1) with (Fin 1). cbn [nmul nsub nneg nadd].
    replace (21 + S m)%nat with (S (21 + m)) by lia. f_equal. generalize (w (S (21 + m))) (x (S (21 + m))) (weighted (fun j => sp * w j) x m). intros. ring.
Qed.
Section One.
  Variables (n k p : nat) (c : series) (x : nat -> Qc).
  Hypothesis C : complete_as n c x.
  Hypothesis K : (k < n)%nat.
  Let C0 : starts n 0 c x := st_complete n c x C.
  Let LC := st_len _ _ _ _ C0.
  Lemma fosc_at : (2 <= p)%nat -> nth k (fosc c (tsf p c)) NaN = from p k (rn (ratio (zq 100 * (x k - forecast x p (k - 1))) (x k))).
  Proof.
    intro P. pose proof (tsf_published n k p c x C K P) as T. pose proof (st_len _ _ _ _ T). set (t := tsf p c) in *.
    unfold fosc. rewrite nth_sround. unfold sdiv, scale, ssub. cell. rewrite (proj2 C) by auto. change (F 100) with (Fin (zq 100)).
    unfold from. destruct (Nat.ltb_spec k 1) as [A|A], (Nat.ltb_spec k p) as [B|B]; try lia; try reflexivity; rewrite (st_cell _ _ _ _ (k - 1) T) by lia.
    - rewrite from_lt by lia. reflexivity.
    - rewrite from_ge by lia. reflexivity.
  Qed.
  Lemma ma_time_series_at f0 : (2 <= p)%nat -> nth k (ma p MTimeSeries f0 c) NaN = from (p - 1) k (Fin (forecast x p k)).
  Proof. intro P. exact (tsf_at n k p c x C K P). Qed.
  Lemma back_cell m s i : (i < length s)%nat -> nth i (shift_back m s) NaN = nth (i + m) s NaN.
  Proof.
    intro I. unfold shift_back. rewrite nth_firstn by auto. destruct (Nat.lt_ge_cases (i + m) (length s)) as [A|A].
    - rewrite app_nth1 by (rewrite skipn_length; lia). rewrite nth_skipn. f_equal. lia.
    - rewrite app_nth2 by (rewrite skipn_length; lia). rewrite (nth_overflow s) by auto. apply nth_repeat.
  Qed.
  (** the average is centred: it looks p/2 + 1 days ahead *)
  Lemma dpo_at : (0 < p)%nat -> (k + S (p / 2) < n)%nat ->
    nth k (dpo p c) NaN = from (p - 1 - S (p / 2)) k (Fin (r4 (x k - mean_last x p (k + S (p / 2))))).
  Proof.
    intros P B. unfold dpo. rewrite nth_sround. pose proof (st_roll_mean n 0 p c x C0 P) as M. pose proof (st_len _ _ _ _ M).
    unfold ssub. cell. rewrite back_cell by lia. rewrite (st_cell _ _ _ _ _ M) by lia. rewrite (proj2 C) by auto. unfold from.
    destruct (Nat.ltb_spec k (p - 1 - S (p / 2))), (Nat.ltb_spec (k + S (p / 2)) (0 + p - 1)); try lia; reflexivity.
  Qed.
  Lemma momentum_moves j : (exists i, (j - 9 < i <= j)%nat /\ x i <> x (i - 1)%nat) -> (9 <= j)%nat ->
    sum_last (fun i => gain (change 1 x i)) 9 j + sum_last (fun i => loss (change 1 x i)) 9 j <> 0.
  Proof.
    intros (i & I & N) J. unfold sum_last. rewrite <- total_add. apply qc_pos_neq0.
    eapply Qclt_le_trans; [|apply (total_ge (fun z => gain (change 1 x (S j - 9 + z)) + loss (change 1 x (S j - 9 + z))) 9 (i - (S j - 9)))].
    - replace (S j - 9 + (i - (S j - 9)))%nat with i by lia. apply moved_pos. unfold change. intro E. apply N. apply qsub_eq0. exact E.
    - intros z _. apply moved_nonneg.
    - lia.
  Qed.
  Lemma cmo9_st : (forall j, (22 <= j < n)%nat -> exists i, (j - 9 < i <= j)%nat /\ x i <> x (i - 1)%nat) -> later n 22 (sabs (sdivc (cmo 9 c) (F 100))) (fun j => abs (momentum9 x j / zq 100)).
  Proof.
    intro NZ. assert (L : length (cmo 9 c) = n) by lens. split; [lens|]. intros j J. assert (J' : (j < n)%nat) by lia. unfold sabs, sdivc. cell.
    rewrite (cmo_at n j c x C J' 9) by lia. rewrite from_ge by lia. pose proof (momentum_moves j (NZ j J) ltac:(lia)) as N. unfold ratio, momentum9. cbv zeta.
    apply momentum_cell. exact N.
  Qed.
  Lemma ma_variable_at : (0 < p)%nat -> (forall j, (22 <= j < n)%nat -> exists i, (j - 9 < i <= j)%nat /\ x i <> x (i - 1)%nat) ->
    nth k (ma p MVariable c c) NaN = from 21 k (Fin (r4 (variable_line p x k))).
  Proof.
    intros P NZ. unfold ma. rewrite nth_sround. unfold ma_variable. pose proof (cmo9_st NZ) as W. set (w := sabs (sdivc (cmo 9 c) (F 100))) in *.
    assert (SP : ndiv (F 2) (nn (S p)) = Fin (span p)).
    { change (nn (S p)) with (Fin (nq (S p))). change (F 2) with (Fin (zq 2)). apply ndiv_fin. apply nn_pos. lia. }
    rewrite SP. unfold from. destruct (Nat.ltb_spec k 21) as [B|B].
    - rewrite seeded_before by auto. reflexivity.
    - pose proof (weighted_cells n c x w _ (span p) C W (k - 21) ltac:(lia)) as E. cbv beta in E. fold (variable_line p x k) in E.
      replace (21 + (k - 21))%nat with k in E by lia. rewrite E. generalize (variable_line p x k). intro q. reflexivity.
  Qed.
End One.

Section More.
  Variables (n k : nat) (h l c v : series) (hx lx cx vx : nat -> Qc).
  Hypothesis H : complete_as n h hx.
  Hypothesis L : complete_as n l lx.
  Hypothesis C : complete_as n c cx.
  Hypothesis V : complete_as n v vx.
  Hypothesis K : (k < n)%nat.
  Let H0 := st_complete _ _ _ H. Let L0 := st_complete _ _ _ L. Let C0 := st_complete _ _ _ C.
  Let LH := st_len _ _ _ _ H0. Let LL := st_len _ _ _ _ L0. Let LC := st_len _ _ _ _ C0.
  Lemma proj_raw_at p i : (2 <= p)%nat -> (i < n)%nat -> nth i (proj_raw c (pb_upper p h) (pb_lower p l)) NaN =
    from (p - 1) i (ratio (zq 100 * (cx i - r4 (lowest_projection lx p i))) (r4 (highest_projection hx p i) - r4 (lowest_projection lx p i))).
  Proof.
    intros P I. pose proof (pb_upper_st n k p h hx H K P) as U. pose proof (pb_lower_st n k p l lx L K P) as D. pose proof (st_len _ _ _ _ U). pose proof (st_len _ _ _ _ D).
    set (up := pb_upper p h) in *. set (lo := pb_lower p l) in *. unfold proj_raw, sdiv, scale, ssub. cell.
    rewrite (proj2 C) by auto. rewrite (st_cell _ _ _ _ i U I), (st_cell _ _ _ _ i D I). unfold from. destruct (i <? p - 1)%nat; reflexivity.
  Qed.
  Lemma proj_at p : (2 <= p)%nat -> nth k (proj c (pb_upper p h) (pb_lower p l)) NaN =
    from (p - 1) k (rn (ratio (zq 100 * (cx k - r4 (lowest_projection lx p k))) (r4 (highest_projection hx p k) - r4 (lowest_projection lx p k)))).
  Proof. intro P. unfold proj. rewrite nth_sround, proj_raw_at by auto. unfold from. destruct (k <? p - 1)%nat; reflexivity. Qed.
  Lemma proj_trigger_at p : (2 <= p)%nat ->
    (forall j, (p - 1 <= j < n)%nat -> r4 (highest_projection hx p j) <> r4 (lowest_projection lx p j)) ->
    nth k (proj_trigger c (pb_upper p h) (pb_lower p l)) NaN = from (p + 1) k (Fin (r4 (ema_from (p - 1) 3
      (fun j => zq 100 * (cx j - r4 (lowest_projection lx p j)) / (r4 (highest_projection hx p j) - r4 (lowest_projection lx p j))) k))).
  Proof.
    intros P NZ. unfold proj_trigger.
    assert (R : starts n (p - 1) (proj_raw c (pb_upper p h) (pb_lower p l))
      (fun j => zq 100 * (cx j - r4 (lowest_projection lx p j)) / (r4 (highest_projection hx p j) - r4 (lowest_projection lx p j)))).
    { split; [lens|]. intros j J. rewrite proj_raw_at by auto. unfold from. destruct (Nat.ltb_spec j (p - 1)); auto. apply ndiv_fin.
      intro E. apply (NZ j ltac:(lia)). apply Qcle_antisym; qlra. }
    eapply st_end; [apply st_round, st_ewm; [exact R|lia]|auto|lia|reflexivity].
  Qed.
  Lemma co_at : (forall j, (j < n)%nat -> lx j <= cx j /\ cx j <= hx j) -> (forall j, (j < n)%nat -> lx j < hx j) ->
    let line j := qtrunc (total (fun i => adl_move (hx i) (lx i) (cx i) (vx i)) (S j)) in
    nth k (co (adl c v h l)) NaN = from 9 k (Fin (r4 (ema_from 0 3 line k - ema_from 0 10 line k))).
  Proof.
    intros B S0 line. assert (A : starts n 0 (adl c v h l) line).
    { split; [pose proof (proj1 V); lens|]. intros j J. rewrite from_ge by lia. apply (adl_cells n c v h l cx vx hx lx j C V H L B J). exact S0. }
    unfold co. eapply st_end; [apply st_round; eapply st_sub; apply st_ewm; eauto; lia|auto|reflexivity|reflexivity].
  Qed.
End More.
