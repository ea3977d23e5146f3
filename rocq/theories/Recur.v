(** * Recur: running computations, cell by cell. *)
From Coq Require Import ZArith QArith Qcanon Bool List String PeanoNat Lia.
From Verif Require Import Num NumFacts RoundFacts Pandas Frame Ind SeriesFacts Lengths Cells RangeSpec RangeFacts RangeMore Signal Api ApiSpec IndSpec ValueSpec ValueFacts ValueMore.
Import ListNotations.
Open Scope list_scope. Open Scope Qc_scope.

Lemma nth_scan_0 {A} step (acc : num) (l : list A) d x : nth 0 l d = x -> (0 < length l)%nat -> nth 0 (scan step acc l) NaN = step acc x.
Proof. destruct l as [|y l]; cbn; intros E H; [lia|]. subst. reflexivity. Qed.
Lemma nth_scan_S {A} step (l : list A) d : forall (acc : num) k, (S k < length l)%nat ->
  nth (S k) (scan step acc l) NaN = step (nth k (scan step acc l) NaN) (nth (S k) l d).
Proof.
  induction l as [|y l IH]; intros acc k H; cbn [length] in H; [lia|].
  destruct k as [|k].
  - cbn [scan]. destruct l as [|z l]; [cbn in H; lia|]. reflexivity.
  - change (nth (S (S k)) (scan step acc (y :: l)) NaN) with (nth (S k) (scan step (step acc y) l) NaN).
    rewrite IH by lia. reflexivity.
Qed.
Section Seeded.
  Context {A : Type}.
  Variables (k0 : nat) (seed : num) (step : num -> A -> num) (s : list A) (d : A).
  Lemma seeded_before k : (k < k0)%nat -> nth k (seeded k0 seed step s) NaN = NaN.
  Proof.
    intro H. destruct (Nat.lt_ge_cases k (length s)) as [L|L].
    - unfold seeded. rewrite nth_firstn by auto. rewrite app_nth1 by (rewrite repeat_length; auto). apply nth_repeat_any; auto.
    - apply nth_overflow. rewrite len_seeded. auto.
  Qed.
  Lemma seeded_at : (k0 < length s)%nat -> nth k0 (seeded k0 seed step s) NaN = seed.
  Proof.
    intro H. unfold seeded. rewrite nth_firstn by auto. rewrite app_nth2 by (rewrite repeat_length; auto).
    rewrite repeat_length, Nat.sub_diag. reflexivity.
  Qed.
  Lemma seeded_next k : (k0 <= k)%nat -> (S k < length s)%nat ->
    nth (S k) (seeded k0 seed step s) NaN = step (nth k (seeded k0 seed step s) NaN) (nth (S k) s d).
  Proof.
    intros H L. unfold seeded. rewrite !nth_firstn by lia.
    rewrite !app_nth2 by (rewrite repeat_length; lia). rewrite repeat_length.
    replace (S k - k0)%nat with (S (k - k0)) by lia. cbn [nth].
    assert (E : nth (S k) s d = nth (k - k0) (skipn (S k0) s) d) by (rewrite nth_skipn; f_equal; lia).
    destruct (k - k0)%nat as [|m] eqn:M.
    - erewrite nth_scan_0; [| |rewrite skipn_length; lia].
      + reflexivity.
      + exact (eq_sym E).
    - rewrite (nth_scan_S step _ d) by (rewrite skipn_length; lia). rewrite E. reflexivity.
  Qed.
End Seeded.

(** ** cumulative sums *)
Lemma cumsum_from_cells s : (forall x, In x s -> x = NaN \/ isfin x = true) -> forall a k, (k < length s)%nat ->
  nth k (cumsum_from (Fin a) s) NaN =
  if isnan (nth k s NaN) then NaN else Fin (a + total (fun j => fin0 (nth j s NaN)) (S k)).
Proof.
  induction s as [|x s IH]; intros H a k L; [cbn in L; lia|].
  assert (T : forall b n, fin0 x + (b + total (fun j => fin0 (nth j s NaN)) n) = b + total (fun j => fin0 (nth j (x :: s) NaN)) (S n)).
  { intros b n. induction n as [|n IHn]; [cbn [total nth]; ring|].
    change (total (fun j => fin0 (nth j (x :: s) NaN)) (S (S n))) with (total (fun j => fin0 (nth j (x :: s) NaN)) (S n) + fin0 (nth n s NaN)).
    cbn [total]. cbn [total] in IHn. set (u := total (fun j => fin0 (nth j (x :: s) NaN)) n + fin0 (nth n (x :: s) NaN)) in *.
    replace (fin0 x + (b + (total (fun j => fin0 (nth j s NaN)) n + fin0 (nth n s NaN))))
      with (fin0 x + (b + total (fun j => fin0 (nth j s NaN)) n) + fin0 (nth n s NaN)) by ring.
    rewrite IHn. ring. }
  destruct (H x (or_introl eq_refl)) as [->|F].
  - destruct k as [|k]; [reflexivity|]. cbn [cumsum_from nth]. rewrite IH by (cbn in *; auto; lia).
    destruct (isnan (nth k s NaN)); auto. f_equal. rewrite <- T. cbn [fin0]. ring.
  - destruct x as [| | |q]; try discriminate. destruct k as [|k].
    + cbn [cumsum_from nth nadd isnan]. f_equal. cbn [total nth fin0]. ring.
    + cbn [cumsum_from nth nadd]. rewrite IH by (cbn in *; auto; lia). destruct (isnan (nth k s NaN)); auto. f_equal.
      rewrite <- T. cbn [fin0]. ring.
Qed.
Lemma cumsum_cells s k : (forall j, (j < length s)%nat -> nth j s NaN = NaN \/ isfin (nth j s NaN) = true) -> (k < length s)%nat ->
  nth k (cumsum s) NaN = if isnan (nth k s NaN) then NaN else Fin (total (fun j => fin0 (nth j s NaN)) (S k)).
Proof.
  intros H L. unfold cumsum. rewrite cumsum_from_cells; auto.
  - destruct (isnan _); auto. f_equal. ring.
  - intros x I. apply (In_nth _ _ NaN) in I as (j & J & <-). auto.
Qed.

(** ** complete columns *)
Definition complete_as (n : nat) (s : series) (x : nat -> Qc) : Prop := length s = n /\ forall j, (j < n)%nat -> nth j s NaN = Fin (x j).
Lemma obv_cells n c v cx vx k : complete_as n c cx -> complete_as n v vx -> (k < n)%nat ->
  nth k (obv c v) NaN = Fin (obv_line cx vx k).
Proof.
  intros [LC C] [LV V] K. unfold obv. set (s := assign _ _ _).
  assert (LS : length s = n) by (unfold s, assign; rewrite !len_szip3, !len_szip, len_smap, len_shift, repeat_length, LC, LV; lia).
  assert (B : forall j, (j < n)%nat -> nth j s NaN = Fin (match j with O => 0 | S i => if qltb (cx i) (cx j) then vx j else if qltb (cx j) (cx i) then - vx j else 0 end)).
  { intros j J. unfold s, assign. 
    rewrite (nth_szip3 _ _ _ _ _ false NaN NaN) by (rewrite ?len_szip3, ?len_szip, ?len_smap, ?len_shift, ?repeat_length, ?LC, ?LV; lia).
    rewrite (nth_szip3 _ _ _ _ _ false NaN NaN) by (rewrite ?len_szip3, ?len_szip, ?len_smap, ?len_shift, ?repeat_length, ?LC, ?LV; lia).
    rewrite !(nth_szip _ _ _ _ NaN NaN) by (rewrite ?len_shift, ?LC; lia).
    rewrite nth_smap, nth_repeat_any by lia. rewrite nth_shift_any, C, V by auto.
    destruct j as [|i]; [reflexivity|]. replace (S i <? 1)%nat with false by reflexivity. replace (S i <? length c)%nat with true by (symmetry; apply Nat.ltb_lt; lia).
    replace (S i - 1)%nat with i by lia. rewrite C by lia. cbn [nltb ngtb nneg]. unfold ngtb. cbn [nltb].
    destruct (qltb_spec (cx (S i)) (cx i)) as [X|X]; destruct (qltb_spec (cx i) (cx (S i))) as [Y|Y]; try reflexivity.
    exfalso. eapply Qclt_not_le; [exact X|]. apply Qclt_le_weak. exact Y. }
  rewrite cumsum_cells; [|intros j J; right; rewrite B by lia; reflexivity|lia].
  rewrite B by auto. cbn [isnan]. f_equal. revert K. induction k as [|k IH]; intro K.
  - cbn [total obv_line]. rewrite B by auto. cbn. ring.
  - change (total (fun j => fin0 (nth j s NaN)) (S (S k))) with (total (fun j => fin0 (nth j s NaN)) (S k) + fin0 (nth (S k) s NaN)).
    rewrite IH by lia. rewrite B by auto. reflexivity.
Qed.
Lemma pvt_cells n c v cx vx k : complete_as n c cx -> complete_as n v vx -> (forall j, (S j < n)%nat -> cx j <> 0) -> (k < n)%nat ->
  nth k (pvt c v) NaN = Fin (r4 (pvt_line cx vx k)).
Proof.
  intros [LC C] [LV V] NZ K. unfold pvt. rewrite nth_sround. set (s := seeded _ _ _ _).
  assert (LL : length (combine (combine c (shift 1 c)) v) = n) by (rewrite !combine_length, len_shift; lia).
  enough (E : nth k s NaN = Fin (pvt_line cx vx k)) by (rewrite E; reflexivity).
  induction k as [|k IH].
  - unfold s. rewrite seeded_at by lia. reflexivity.
  - unfold s. rewrite (seeded_next _ _ _ _ (NaN, NaN, NaN)) by lia. fold s. rewrite IH by lia.
    assert (E : nth (S k) (combine (combine c (shift 1 c)) v) (NaN, NaN, NaN) = (Fin (cx (S k)), Fin (cx k), Fin (vx (S k)))).
    { rewrite (nth_combine _ _ _ (NaN, NaN) NaN) by (rewrite ?combine_length, ?len_shift; lia).
      rewrite (nth_combine _ _ _ NaN NaN) by (rewrite ?len_shift; lia).
      rewrite nth_shift_any, C, V by auto. replace (S k <? 1)%nat with false by reflexivity. replace (S k <? length c)%nat with true by (symmetry; apply Nat.ltb_lt; lia).
      replace (S k - 1)%nat with k by lia. rewrite C by lia. reflexivity. }
    rewrite E. assert (Z : cx k <> 0) by (apply NZ; lia). cbn [nsub nneg nadd ndiv]. rewrite (proj2 (qeqb_false _ _) Z).
    cbn [nmul nadd pvt_line]. f_equal. field. exact Z.
Qed.
Lemma vi_cells n moves counts c v cx vx k : (forall a b, moves (Fin a) (Fin b) = counts b a) ->
  complete_as n c cx -> complete_as n v vx -> (forall j, (S j < n)%nat -> cx j <> 0) -> (k < n)%nat ->
  nth k (vi moves c v) NaN = Fin (r4 (index_line counts cx vx k)).
Proof.
  intros MV [LC C] [LV V] NZ K. unfold vi. rewrite nth_sround. set (s := seeded _ _ _ _).
  set (q := combine (combine c (shift 1 c)) (combine v (shift 1 v))).
  assert (LL : length q = n) by (unfold q; rewrite !combine_length, !len_shift; lia).
  enough (E : nth k s NaN = Fin (index_line counts cx vx k)) by (rewrite E; reflexivity).
  induction k as [|k IH].
  - unfold s. rewrite seeded_at by (fold q; lia). reflexivity.
  - unfold s. rewrite (seeded_next _ _ _ _ ((NaN, NaN), (NaN, NaN))) by (fold q; lia). fold s. rewrite IH by lia.
    assert (E : nth (S k) q ((NaN, NaN), (NaN, NaN)) = ((Fin (cx (S k)), Fin (cx k)), (Fin (vx (S k)), Fin (vx k)))).
    { unfold q. rewrite (nth_combine _ _ _ (NaN, NaN) (NaN, NaN)) by (rewrite ?combine_length, ?len_shift; lia).
      rewrite !(nth_combine _ _ _ NaN NaN) by (rewrite ?len_shift; lia).
      rewrite !nth_shift_any, C, V by auto. replace (S k <? 1)%nat with false by reflexivity.
      replace (S k <? length c)%nat with true by (symmetry; apply Nat.ltb_lt; lia). replace (S k <? length v)%nat with true by (symmetry; apply Nat.ltb_lt; lia).
      replace (S k - 1)%nat with k by lia. rewrite C, V by lia. reflexivity. }
    fold q. rewrite E. assert (Z : cx k <> 0) by (apply NZ; lia). rewrite MV. cbn [index_line]. destruct (counts (vx k) (vx (S k))); [|reflexivity].
    cbn [nsub nneg nadd ndiv]. rewrite (proj2 (qeqb_false _ _) Z). cbn [nmul nadd]. f_equal. field. exact Z.
Qed.

(** ** accumulation/distribution *)
Lemma money_flow_cells n c v h l cx vx hx lx k : complete_as n c cx -> complete_as n v vx -> complete_as n h hx -> complete_as n l lx ->
  (k < n)%nat -> lx k <= cx k -> cx k <= hx k ->
  nth k (money_flow c v h l) NaN = if qltb (lx k) (hx k) then Fin (adl_move (hx k) (lx k) (cx k) (vx k)) else NaN.
Proof.
  intros [LC C] [LV V] [LH H] [LL L] K A B. unfold money_flow, sdiv, smul, ssub. cell. rewrite C, V, H, L by auto.
  unfold adl_move. cbn [nsub nneg nadd nmul]. unfold ndiv.
  destruct (qltb_spec (lx k) (hx k)) as [X|X]; [|apply Qcnot_lt_le in X].
  - assert (Z : hx k + - lx k <> 0) by (apply qc_pos_neq0; qlra). rewrite (proj2 (qeqb_false _ _) Z). f_equal. field. exact Z.
  - assert (E : hx k = lx k) by (apply Qcle_antisym; [exact X|qlra]). assert (E' : cx k = lx k) by (apply Qcle_antisym; qlra).
    rewrite E, E'. replace (lx k + - lx k) with 0 by ring. replace (vx k * (0 + - 0)) with 0 by ring. reflexivity.
Qed.
Lemma adl_cells n c v h l cx vx hx lx k : complete_as n c cx -> complete_as n v vx -> complete_as n h hx -> complete_as n l lx ->
  (forall j, (j < n)%nat -> lx j <= cx j /\ cx j <= hx j) -> (k < n)%nat ->
  let line := total (fun j => adl_move (hx j) (lx j) (cx j) (vx j)) (S k) in
  ((forall j, (j < n)%nat -> lx j < hx j) -> nth k (adl c v h l) NaN = Fin (qtrunc line)) /\
  ((exists j, (j < n)%nat /\ hx j = lx j) -> nth k (adl c v h l) NaN = if qltb (lx k) (hx k) then Fin line else NaN).
Proof.
  intros HC HV HH HL P K line. set (m := money_flow c v h l).
  assert (LM : length m = n) by (destruct HC, HV, HH, HL; unfold m; lens).
  assert (M : forall j, (j < n)%nat -> nth j m NaN = if qltb (lx j) (hx j) then Fin (adl_move (hx j) (lx j) (cx j) (vx j)) else NaN).
  { intros j J. unfold m. destruct (P j J). eapply money_flow_cells; eauto. }
  assert (Q : forall j, (j < n)%nat -> nth j (cumsum m) NaN = if qltb (lx j) (hx j) then Fin (total (fun i => adl_move (hx i) (lx i) (cx i) (vx i)) (S j)) else NaN).
  { intros j J. rewrite cumsum_cells; [|intros i I; rewrite M by lia; destruct (qltb _ _); auto|lia].
    rewrite M by auto. destruct (qltb (lx j) (hx j)); [|reflexivity]. cbn [isnan]. f_equal. apply total_ext. intros i I. rewrite M by lia.
    destruct (qltb (lx i) (hx i)) eqn:X; [reflexivity|]. unfold adl_move. rewrite X. reflexivity. }
  unfold adl. fold m. unfold astype_int. split.
  - intro A. replace (forallb isfin (cumsum m)) with true.
    + rewrite nth_smap by (rewrite len_cumsum; lia). rewrite Q by auto. rewrite (proj2 (qltb_iff _ _) (A k K)). reflexivity.
    + symmetry. apply forallb_forall. intros x I. apply (In_nth _ _ NaN) in I as (j & J & <-). rewrite len_cumsum in J.
      rewrite Q by lia. rewrite (proj2 (qltb_iff _ _) (A j ltac:(lia))). reflexivity.
  - intros (j & J & E). replace (forallb isfin (cumsum m)) with false; [apply Q; auto|].
    symmetry. apply not_true_iff_false. intro X. rewrite forallb_forall in X.
    assert (I : In (nth j (cumsum m) NaN) (cumsum m)) by (apply nth_In; rewrite len_cumsum; lia).
    apply X in I. rewrite Q in I by auto. rewrite E in I. replace (qltb (lx j) (lx j)) with false in I by (symmetry; apply qltb_false; apply Qcle_refl). discriminate.
Qed.
Lemma adl_move_bounded h l c v : l <= c -> c <= h -> 0 <= v ->
  - v <= adl_move h l c v /\ adl_move h l c v <= v /\ (0 < adl_move h l c v <-> 0 < v /\ l < h /\ h + l < zq 2 * c) /\
  (adl_move h l c v < 0 <-> 0 < v /\ l < h /\ zq 2 * c < h + l).
Proof.
  intros A B V. unfold adl_move, zq. destruct (qltb_spec l h) as [X|X]; [|apply Qcnot_lt_le in X].
  - assert (D : 0 < h - l) by qlra. assert (D0 : h - l <> 0) by (apply qc_pos_neq0; exact D).
    pose proof (qcdiv_mul (c - l - (h - c)) (h - l) D0) as E. clear D0.
    set (r := (c - l - (h - c)) / (h - l)) in *. clearbody r.
    assert (R1 : - (1) <= r) by (apply Qcnot_lt_le; intro Y; assert (0 < (- (1) - r) * (h - l)) by qnra; qnra).
    assert (R2 : r <= 1) by (apply Qcnot_lt_le; intro Y; assert (0 < (r - 1) * (h - l)) by qnra; qnra).
    assert (S1 : 0 < r <-> h + l < Q2Qc (inject_Z 2) * c).
    { split; intro Y; [assert (0 < r * (h - l)) by qnra; qnra|].
      apply Qcnot_le_lt; intro W; assert (0 <= (- r) * (h - l)) by qnra; qnra. }
    assert (S2 : r < 0 <-> Q2Qc (inject_Z 2) * c < h + l).
    { split; intro Y; [assert (0 < (- r) * (h - l)) by qnra; qnra|].
      apply Qcnot_le_lt; intro W; assert (0 <= r * (h - l)) by qnra; qnra. }
    repeat split.
    1, 2: qnra.
    + destruct (qltb_spec 0 v) as [G|G]; [auto|apply Qcnot_lt_le in G]. assert (v = 0) by (apply Qcle_antisym; auto). subst v. exfalso. revert H. replace (0 * r) with 0 by ring. apply Qclt_not_eq in D. intro Y. apply (Qclt_not_le _ _ Y). apply Qcle_refl.
    + auto.
    + apply S1. destruct (qltb_spec 0 r) as [G|G]; [auto|apply Qcnot_lt_le in G]. exfalso. assert (v * r <= 0) by qnra. qlra.
    + intros (G1 & G2 & G3). apply S1 in G3. qnra.
    + destruct (qltb_spec 0 v) as [G|G]; [auto|apply Qcnot_lt_le in G]. assert (v = 0) by (apply Qcle_antisym; auto). subst v. exfalso. revert H. replace (0 * r) with 0 by ring. intro Y. apply (Qclt_not_le _ _ Y). apply Qcle_refl.
    + auto.
    + apply S2. destruct (qltb_spec r 0) as [G|G]; [auto|apply Qcnot_lt_le in G]. exfalso. assert (0 <= v * r) by qnra. qlra.
    + intros (G1 & G2 & G3). apply S2 in G3. qnra.
  - repeat split; try qlra; intros Y; exfalso; try qlra.
Qed.
